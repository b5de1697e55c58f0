(** How long the text of a value is: C155. *)
From Coq Require Import List NArith ZArith Init.Byte.
From Verif Require Import Base Types Layout AlignedBytes Spec Deser Histories Fmt CoreFmt Flags FlagSpec SizeSpec CostSpec PrintSizeFacts OrderSizeFacts.
Import ListNotations.
Open Scope N_scope.

(** C155.  If no double takes more than [D] bytes, what [{:?}] writes is at most in
    proportion to what is read ... *)
Theorem C155_text : forall (shown : N -> bool) (double : N -> list byte) (D : N) (h : host) (t : ty) (s r : slice) (v : value),
  (forall b, len (double b) <= D) -> usable t -> aligned (sp_align t) s -> len (s_data s) < 2 ^ 63 ->
  cast h t s = Ok r -> read h t r = Ok v ->
  exists text, fmt_debug h (core_fmts shown double) t r = Ok text /\ len text <= (32 + D) * sp_weight v.
Proof. exact text_length. Qed.
Print Assumptions C155_text.
(** ... and so bounded by the number of bytes (C85); ... *)
Theorem C155_bytes : forall (shown : N -> bool) (double : N -> list byte) (D : N) (h : host) (t : ty) (s r : slice) (v : value),
  (forall b, len (double b) <= D) -> usable t -> aligned (sp_align t) s -> len (s_data s) < 2 ^ 63 ->
  cast h t s = Ok r -> read h t r = Ok v ->
  exists text, fmt_debug h (core_fmts shown double) t r = Ok text /\
    len text <= (32 + D) * (3 * len (sp_show t) * (len (s_data s) + 1) ^ (1 + sp_nest t)).
Proof. exact text_bytes. Qed.
Print Assumptions C155_bytes.
(** ... in proportion to it, if no child is out of range; ... *)
Theorem C155_in_range : forall (shown : N -> bool) (double : N -> list byte) (D : N) (h : host) (t : ty) (s r : slice) (v : value),
  (forall b, len (double b) <= D) -> usable t -> aligned (sp_align t) s -> len (s_data s) < 2 ^ 63 -> sp_orderly t (Some (s_data s)) = true ->
  cast h t s = Ok r -> read h t r = Ok v ->
  exists text, fmt_debug h (core_fmts shown double) t r = Ok text /\ len text <= (32 + D) * (3 * len (sp_show t) * (len (s_data s) + 1)).
Proof. exact text_in_range. Qed.
Print Assumptions C155_in_range.
(** ... [{:#?}] indents its lines, at most by the length of the type, ... *)
Theorem C155_pretty : forall (shown : N -> bool) (double : N -> list byte) (D : N) (h : host) (t : ty) (s r : slice) (v : value),
  (forall b, len (double b) <= D /\ one_line (double b)) -> usable t -> aligned (sp_align t) s -> len (s_data s) < 2 ^ 63 ->
  cast h t s = Ok r -> read h t r = Ok v ->
  exists text, fmt_flags h (core_fmts shown double) (pretty shown double) t r = Ok text /\
    len text <= (40 + D + 8 * len (sp_show t)) * sp_weight v.
Proof. exact pretty_length. Qed.
Print Assumptions C155_pretty.
(** ... which it does: [k] maybes inside each other, in no more than [k + 1] bytes, take
    [4 * k * k] and more. *)
Theorem C155_indented : forall (shown : N -> bool) (double : N -> list byte) (h : host) (k a : N),
  (forall b, one_line (double b)) -> 1 + k < 2 ^ 32 ->
  exists (d : list byte) (r : slice) (v : value) (text : list byte), len d <= 1 + k /\
    cast h (Nat.iter (N.to_nat k) TM TY) (Slice a d) = Ok r /\ read h (Nat.iter (N.to_nat k) TM TY) r = Ok v /\ sp_weight v = 1 + k /\
    fmt_flags h (core_fmts shown double) (pretty shown double) (Nat.iter (N.to_nat k) TM TY) r = Ok text /\ 4 * k * k <= len text.
Proof. exact pretty_reached. Qed.
Print Assumptions C155_indented.

(** An array of two strings and a maybe of a number. *)
Example C155_case : let h := Host false true true 0 0 in let t := TTuple [TA TS; TM TY] in
  let d := [x61; x0a; x00; x7f; x00; x03; x05; x05; x07] in let s := Slice 8 d in
  let v := VTuple [VArray [VStr [x61; x0a]; VStr [x7f]]; VMaybe (Some (VInt 5))] in
  let F := core_fmts (fun c => (31 <? c) && (c <? 127))%bool (fun _ => bs "0.0") in
  (usable t /\ aligned (sp_align t) s /\ cast h t s = Ok s /\ read h t s = Ok v /\ sp_weight v = 9 /\ sp_orderly t (Some d) = true) /\
  fmt_debug h F t s = Ok (bs "([""a\n"", ""\u{7f}"", ], Some(5))") /\
  fmt_flags h F (pretty (fun c => (31 <? c) && (c <? 127))%bool (fun _ => bs "0.0")) t s = Ok (bs "(
    [""a\n"", ""\u{7f}"", ],
    Some(
        5,
    ),
)").
Proof.
  intros h t d s v F. split; [|vm_compute; split; reflexivity].
  split; [split; vm_compute; reflexivity|]. split; [reflexivity|]. vm_compute. repeat split.
Qed.
