(** How much code the macros emit: C154. *)
From Coq Require Import List NArith ZArith Init.Byte.
From Verif Require Import Base Types Spec Marker Gen GenSizeFacts.
Import ListNotations.
Open Scope N_scope.

(** C154.  What [define_gv!] emits is at most quadratic in the length of the type string ... *)
Theorem C154_at_most : forall x text : list byte, define_gv x = Ok text -> len x < 2 ^ 32 ->
  len text <= 3150 * (len x * len x).
Proof. exact emitted_at_most. Qed.
Print Assumptions C154_at_most.

(** ... what [gv_type!] emits is at most linear ... *)
Theorem C154_type : forall x text : list byte, gv_type x = Ok text -> len text <= 22 * len x.
Proof. exact type_at_most. Qed.
Print Assumptions C154_type.

(** ... and the square is reached: a string in [k] pairs of parentheses has the names of
    [k] structures spelled out, each as long as its type. *)
Theorem C154_reached : forall k : nat, exists text : list byte,
  define_gv (repeat "("%byte k ++ ["s"]%byte ++ repeat ")"%byte k) = Ok text /\ N.of_nat k * N.of_nat k <= len text.
Proof. exact emitted_reached. Qed.
Print Assumptions C154_reached.

Example C154_case :
  (match define_gv (bs "((s))") with Ok text => len text | _ => 0 end) = 6417 /\
  (match define_gv (bs "a{sv}") with Ok text => len text | _ => 0 end) = 3636 /\
  (match gv_type (bs "a{sv}") with Ok text => len text | _ => 0 end) = 35.
Proof. vm_compute. repeat split. Qed.
