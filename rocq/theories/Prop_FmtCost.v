(** How long printing takes: C162. *)
From Coq Require Import List NArith ZArith Init.Byte.
From Verif Require Import Base Types Layout AlignedBytes Spec Deser Histories Fmt CoreFmt Cost FmtCost SizeSpec CostSpec FmtCostSpec FmtCostFacts.
Import ListNotations.
Open Scope N_scope.

(** The function whose steps are counted is that of the model. *)
Theorem C162_answers : forall (h : host) (F : fmts) (t : ty) (s : slice),
  result_of (print_t h F t s) = let* r := cast h t s in fmt_debug h F t r.
Proof. exact er_print. Qed.
Print Assumptions C162_answers.
(** C162.  Printing with [{:?}] takes just the steps that reading everything takes, one for
    each byte of text, and one for each byte of the type strings of variants, whatever
    the bytes, and whatever core prints for numbers and strings. *)
Theorem C162_steps : forall (h : host) (F : fmts) (t : ty) (s : slice) (text : list byte),
  result_of (print_t h F t s) = Ok text ->
  exists v, decode h t s = Ok v /\
    steps_of (print_t h F t s) = steps_of (decode_t h t s) + len text + sp_labels v.
Proof. exact print_steps. Qed.
Print Assumptions C162_steps.
(** So it is bounded as reading is (C151), if no double takes more than [D] bytes ... *)
Theorem C162_bounded : forall (shown : N -> bool) (double : N -> list byte) (D : N) (h : host) (t : ty) (s : slice) (v : value),
  (forall b, len (double b) <= D) -> usable t -> aligned (sp_align t) s -> len (s_data s) < 2 ^ 63 -> decode h t s = Ok v ->
  exists text, result_of (print_t h (core_fmts shown double) t s) = Ok text /\
    steps_of (print_t h (core_fmts shown double) t s) <= (165 + 3 * D) * (len (sp_show t) * (len (s_data s) + 1) ^ (1 + sp_nest t)).
Proof. exact print_bounded. Qed.
Print Assumptions C162_bounded.
(** ... and linear if no child is out of range. *)
Theorem C162_in_range : forall (shown : N -> bool) (double : N -> list byte) (D : N) (h : host) (t : ty) (s : slice) (v : value),
  (forall b, len (double b) <= D) -> usable t -> aligned (sp_align t) s -> len (s_data s) < 2 ^ 63 ->
  sp_orderly t (Some (s_data s)) = true -> decode h t s = Ok v ->
  exists text, result_of (print_t h (core_fmts shown double) t s) = Ok text /\
    steps_of (print_t h (core_fmts shown double) t s) <= (165 + 3 * D) * (len (sp_show t) * (len (s_data s) + 1)).
Proof. exact print_in_range. Qed.
Print Assumptions C162_in_range.

(** An array of two strings and a variant of a number: 48 bytes of text and one
    byte of a type string besides reading. *)
Example C162_case : let h := Host false true true 0 0 in let t := TTuple [TA TS; TV] in
  let d := [x61; x00; x62; x00; x02; x04; x00; x00; x07; x00; x79; x06] in let s := Slice 8 d in
  let F := core_fmts (fun _ => true) (fun _ => bs "0.0") in
  let v := VTuple [VArray [VStr [x61]; VStr [x62]]; VVariant [x79] [x07]] in
  let text := bs "([""a"", ""b"", ], Variant { type: ""y"", data: [7] })" in
  (usable t /\ aligned (sp_align t) s /\ len (s_data s) < 2 ^ 63 /\ sp_orderly t (Some d) = true /\ decode h t s = Ok v) /\
  result_of (print_t h F t s) = Ok text /\ len text = 48 /\ sp_labels v = 1 /\
  steps_of (decode_t h t s) = 177 /\ steps_of (print_t h F t s) = 226.
Proof. vm_compute. repeat split. Qed.
