(** The least that reading takes: C163. *)
From Coq Require Import List NArith Init.Byte.
From Verif Require Import Base Types Layout AlignedBytes Spec Deser Histories Cost LeastSpec LeastFacts LeastEq.
Import ListNotations.
Open Scope N_scope.

(** C163.  Whatever the bytes, reading everything takes a step for each value there is
    in what is read, and two for each byte of a string. *)
Theorem C163_least : forall (h : host) (t : ty) (s : slice) (v : value), decode h t s = Ok v ->
  5 + sp_looked v <= steps_of (decode_t h t s).
Proof. exact decode_least. Qed.
Print Assumptions C163_least.
Example C163_case : let h := Host false true true 0 0 in let t := TTuple [TA TS; TA TN; TV] in
  let d := [x61; x00; x62; x63; x00; x02; x05; x00; x01; x00; x02; x00; x00; x00; x00; x00; x07; x00; x79; x0c; x07] in
  let v := VTuple [VArray [VStr [x61]; VStr [x62; x63]]; VArray [VInt 1; VInt 2]; VVariant [x79] [x07]] in
  decode h t (Slice 8 d) = Ok v /\ sp_looked v = 27 /\ steps_of (decode_t h t (Slice 8 d)) = 229.
Proof. vm_compute. repeat split. Qed.
(** Two values are found equal after all of both has been looked at. *)
Theorem C163_equal : forall (h : host) (t : ty) (r q : slice) (v w : value),
  view h t r -> view h t q -> read h t r = Ok v -> read h t q = Ok w -> sp_veq v w = true ->
  result_of (gv_eq_t h t r q) = Ok true /\ sp_compared v <= steps_of (gv_eq_t h t r q).
Proof. exact equal_least. Qed.
Print Assumptions C163_equal.
(** The second array is elsewhere, and its last string, which is empty, lacks the NUL. *)
Example C163_equal_case : let h := Host false true true 0 0 in let t := TA (TA TS) in
  let r := Slice 8 [x61; x00; x02; x62; x00; x00; x02; x03; x03; x08] in
  let q := Slice 16 [x61; x00; x02; x62; x00; x41; x02; x03; x03; x08] in
  let v := VArray [VArray [VStr [x61]]; VArray [VStr [x62]; VStr []]] in
  (view h t r /\ view h t q) /\ read h t r = Ok v /\ read h t q = Ok v /\ sp_compared v = 8 /\ steps_of (gv_eq_t h t r q) = 473.
Proof.
  intros h t r q v. split; [|vm_compute; repeat split].
  assert (Hu : usable t) by (split; vm_compute; reflexivity).
  repeat split; [exists t, r|exists t, q]; (split; [exact Hu|]; split; [reflexivity|]; split; [reflexivity|apply reach_cast; reflexivity]).
Qed.
(** What is in a variant is given after its type string has been found and compared. *)
Theorem C163_get : forall (h : host) (t : ty) (s r : slice), variant_get h t s = Ok (Some r) ->
  8 + 2 * len (sp_show t) <= steps_of (variant_get_t h t s).
Proof. exact get_least. Qed.
Print Assumptions C163_get.
Example C163_get_case : let h := Host false true true 0 0 in let t := TA TY in
  let s := Slice 8 [x05; x06; x07; x00; x61; x79] in
  variant_get h t s = Ok (Some (Slice 8 [x05; x06; x07])) /\ steps_of (variant_get_t h t s) = 18.
Proof. vm_compute. repeat split. Qed.
