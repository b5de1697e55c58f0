(** How much serialising writes: C156. *)
From Coq Require Import List NArith ZArith Init.Byte.
From Verif Require Import Base Types Spec Deser Ser SerSpec Histories CostSpec SizeSpec WrittenFacts.
Import ListNotations.
Open Scope N_scope.

(** C156.  Serialising writes at most 24 bytes for each byte and node of the value ... *)
Theorem C156_values : forall (h : host) (t : ty) (r : rval), usable t -> rtyped t r -> no_nuls t r ->
  let v := rvalue true (h_big_endian h) t r in 24 * sp_weight v < 2 ^ 63 ->
  exists d, serialize h t r None = (Sink d None, SOk (len d)) /\ len d <= 24 * sp_weight v.
Proof. exact native_bound. Qed.
Print Assumptions C156_values.
(** ... and so what serialising a view of [n] bytes writes is bounded as in C85; C55's
    assumption about the length of the output can be replaced by one about the input, ... *)
Theorem C156_views : forall (h : host) (t : ty) (s : slice) (v : value),
  usable t -> aligned (sp_align t) s -> len (s_data s) < 2 ^ 63 -> decode h t s = Ok v ->
  24 * (3 * len (sp_show t) * (len (s_data s) + 1) ^ (1 + sp_nest t)) < 2 ^ 63 ->
  exists d, reserialize h t s None = (Sink d None, SOk (len d)) /\
    len d <= 24 * (3 * len (sp_show t) * (len (s_data s) + 1) ^ (1 + sp_nest t)).
Proof. exact again_bound. Qed.
Print Assumptions C156_views.
(** ... it is linear if no child is out of range, ... *)
Theorem C156_in_range : forall (h : host) (t : ty) (s : slice) (v : value),
  usable t -> aligned (sp_align t) s -> len (s_data s) < 2 ^ 63 -> sp_orderly t (Some (s_data s)) = true -> decode h t s = Ok v ->
  72 * len (sp_show t) * (len (s_data s) + 1) < 2 ^ 63 ->
  exists d, reserialize h t s None = (Sink d None, SOk (len d)) /\ len d <= 72 * len (sp_show t) * (len (s_data s) + 1).
Proof. exact again_in_range. Qed.
Print Assumptions C156_in_range.
(** ... but not otherwise: the bytes of C84 are written out that many times. *)
Theorem C156_reached : forall (h : host) (k n a : N), 1 <= n -> 1 + k < 2 ^ 32 -> n * (16 * k + 1) < 2 ^ 63 ->
  exists (d : list byte) (v : value), len d <= n * (16 * k + 1) /\ decode h (Nat.iter (N.to_nat k) TA TS) (Slice a d) = Ok v /\
    let w := sp_written (h_big_endian h) (Nat.iter (N.to_nat k) TA TS) v in
    (len w < 2 ^ 63 -> n ^ (1 + k) <= 3 * (1 + k) * (len w + 1) /\
     reserialize h (Nat.iter (N.to_nat k) TA TS) (Slice a d) None = (Sink w None, SOk (len w))).
Proof. exact again_reached. Qed.
Print Assumptions C156_reached.

(** An array of strings two of which are the same bytes, and one of which is not. *)
Example C156_case : let h := Host false true true 0 0 in let t := TA TS in
  let d := [x61; x61; x61; x00; x04; x00; x04] in let e := [x61; x00; x62; x00; x02; x04] in
  let r := RTuple [RInt 1; RInt 2] in let s := TTuple [TY; TX] in
  (usable t /\ aligned (sp_align t) (Slice 8 d) /\ sp_orderly t (Some d) = false /\ sp_orderly t (Some e) = true) /\
  decode h t (Slice 8 d) = Ok (VArray [VStr (bs "aaa"); VStr []; VStr (bs "aaa")]) /\
  reserialize h t (Slice 8 d) None = (Sink (bs "aaa" ++ [x00; x00] ++ bs "aaa" ++ [x00; x04; x05; x09]) None, SOk 12) /\
  reserialize h t (Slice 8 e) None = (Sink e None, SOk 6) /\
  (usable s /\ rtyped s r /\ no_nuls s r /\ sp_weight (rvalue true false s r) = 3) /\
  snd (serialize h s r None) = SOk 16.
Proof.
  intros h t d e r s. split; [split; [split; vm_compute; reflexivity|]; repeat split|]. split; [vm_compute; reflexivity|].
  split; [vm_compute; reflexivity|]. split; [vm_compute; reflexivity|]. split; [|vm_compute; reflexivity].
  split; [split; vm_compute; reflexivity|]. split; [cbn; repeat split; try discriminate; reflexivity|]. split; [intros z []|reflexivity].
Qed.
