(** How many calls of [write_all] serialising makes: C153. *)
From Coq Require Import List NArith ZArith Init.Byte.
From Verif Require Import Base Types Spec Histories Ser SerSpec Writer WriterSpec PiecesFacts.
Import ListNotations.
Open Scope N_scope.

(** C153.  The pieces a writer is offered (C98) are fewer than five times as many as
    there are values in what is serialised, however long the strings ... *)
Theorem C153_few : forall (h : host) (t : ty) (r : rval), exists pieces : list (list byte),
  len pieces <= 5 * sp_parts r - 2 /\ concat pieces = sp_output (serialize h t r None) /\
  forall (K : Type) (W : Write K) (k : K), ser h r t k = offer pieces (snd (serialize h t r None)) k.
Proof. exact few_pieces. Qed.
Print Assumptions C153_few.
(** ... but every byte of an array of bytes is a piece of its own. *)
Theorem C153_one_by_one : forall (h : host) (zs : list Z), len zs < 2 ^ 64 ->
  forall (K : Type) (W : Write K) (k : K),
  ser h (RList (map RInt zs)) (TA TY) k = offer (map (fun z => [n2b (Z.to_N (z mod 256))]) zs) (SOk (len zs)) k.
Proof. exact byte_pieces. Qed.
Print Assumptions C153_one_by_one.
(** A writer that keeps the pieces apart, given an array of two structures: fourteen
    pieces, of which one is empty. *)
#[local] Instance keep : Write (list (list byte)) := fun d k => (k ++ [d], SOk tt).
Example C153_case : let h := Host false true true 0 0 in
  let r := RList [RTuple [RStr (bs "hello"); RInt 2]; RTuple [RStr (bs ""); RInt 3]] in
  ser h r (TA (TTuple [TS; TU])) ([] : list (list byte)) =
    ([bs "hello"; [x00]; [x00; x00]; [x02; x00; x00; x00]; [x06]; [x00; x00; x00];
      []; [x00]; [x00; x00; x00]; [x03; x00; x00; x00]; [x01]; [x00; x00; x00]; [x0d]; [x19]], SOk 30) /\ sp_parts r = 7 /\
  ser h (ROpt (Some (RStr (bs "a")))) (TM TS) ([] : list (list byte)) = ([bs "a"; [x00]; [x00]], SOk 3) /\
  sp_parts (ROpt (Some (RStr (bs "a")))) = 2.
Proof. vm_compute. repeat split. Qed.
