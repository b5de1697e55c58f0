(** Equality of variants (lib.rs:1100-1119): C96, C97. *)
From Verif Require Import Base Types Spec Deser Histories VarFacts.

(** C96: "we just compare the underlying data.  This gives correct results for data
    in normal form": false with doubles.  Variants holding 0.0 and -0.0, in normal
    form, differ although their contents are equal; a variant holding a NaN equals
    itself although its content does not. *)
Theorem C96_variant_equality_refuted : forall (h : host) (a : N), a mod 8 = 0 ->
  let big := h_big_endian h in
  let enc v := Slice a (sp_encode big TD v ++ x00 :: sp_show TD) in
  let zero := VDouble 0 in let minus := VDouble (2 ^ 63) in let nan := VDouble (2 ^ 63 - 1) in
  (exists p p', variant_get h TD (enc zero) = Ok (Some p) /\ variant_get h TD (enc minus) = Ok (Some p') /\
     gv_eq h TD p p' = Ok true /\ gv_eq h TV (enc zero) (enc minus) = Ok false) /\
  (exists p, variant_get h TD (enc nan) = Ok (Some p) /\
     gv_eq h TD p p = Ok false /\ gv_eq h TV (enc nan) (enc nan) = Ok true).
Proof. exact variant_doubles. Qed.
Print Assumptions C96_variant_equality_refuted.
Example C96_case : (let a := 16 in a mod 8 = 0) /\ sp_typed TD (VDouble (2 ^ 63)) /\ sp_typed TD (VDouble (2 ^ 63 - 1)).
Proof. repeat split; reflexivity. Qed.

(** C97: variants in normal form are equal exactly when their types and values are
    the same, *)
Theorem C97_normal_variants : forall (h : host) (t u : ty) (v w : value) (a b : N),
  a mod 8 = 0 -> b mod 8 = 0 -> sp_typed t v -> sp_typed u w ->
  let big := h_big_endian h in
  len (sp_encode big t v) < 2 ^ 63 ->
  let r := Slice a (sp_encode big t v ++ x00 :: sp_show t) in
  let q := Slice b (sp_encode big u w ++ x00 :: sp_show u) in
  exists e, gv_eq h TV r q = Ok e /\ (e = true <-> t = u /\ v = w).
Proof. exact variant_normal. Qed.
Print Assumptions C97_normal_variants.
(** so without doubles [==] on them is [==] on their contents. *)
Theorem C97_contents : forall (h : host) (t : ty) (v w : value) (a b : N),
  usable t -> sp_no_double t = true -> a mod 8 = 0 -> b mod 8 = 0 ->
  sp_typed t v -> sp_typed t w -> let big := h_big_endian h in
  len (sp_encode big t v) < 2 ^ 63 -> len (sp_encode big t w) < 2 ^ 63 ->
  let r := Slice a (sp_encode big t v ++ x00 :: sp_show t) in
  let q := Slice b (sp_encode big t w ++ x00 :: sp_show t) in
  exists p p', variant_get h t r = Ok (Some p) /\ variant_get h t q = Ok (Some p') /\
    read h t p = Ok v /\ read h t p' = Ok w /\ gv_eq h TV r q = gv_eq h t p p'.
Proof. exact variant_contents. Qed.
Print Assumptions C97_contents.
Example C97_case : let h := Host false true true 0 0 in let t := TTuple [TY; TS] in
  let v := VTuple [VInt 7; VStr (bs "ab")] in
  usable t /\ sp_no_double t = true /\ sp_typed t v /\
  sp_encode false t v ++ x00 :: sp_show t = [x07] ++ bs "ab" ++ [x00; x00] ++ bs "(ys)" /\
  gv_eq h TV (Slice 8 (sp_encode false t v ++ x00 :: sp_show t)) (Slice 64 (sp_encode false t v ++ x00 :: sp_show t)) = Ok true.
Proof.
  intros h t v. split; [split; reflexivity|]. split; [reflexivity|]. split; [|split; reflexivity].
  cbn. unfold good_string. repeat split; try discriminate; try (intros H; cbn in H; intuition discriminate).
  apply Utf8Facts.sp_utf8_ok; reflexivity.
Qed.
(** Whatever the data, equal variants have the same contents for every marker:
    there are no false positives but for NaN. *)
Theorem C97_equal_variants : forall (h : host) (r q : slice),
  aligned 8 r -> aligned 8 q -> len (s_data r) < 2 ^ 63 -> len (s_data q) < 2 ^ 63 ->
  gv_eq h TV r q = Ok true -> forall x, usable x ->
  (variant_get h x r = Ok None /\ variant_get h x q = Ok None) \/
  (exists p p', variant_get h x r = Ok (Some p) /\ variant_get h x q = Ok (Some p') /\ read h x p = read h x p' /\
     (sp_no_double x = true -> forall v, read h x p = Ok v -> gv_eq h x p p' = Ok true)).
Proof. exact variant_any. Qed.
Print Assumptions C97_equal_variants.
Example C97_equal_case : let h := Host false true true 0 0 in let d := [x01; xff; x02; x03; x04; x05; x06; x07; x00] ++ bs "(yi)" in
  aligned 8 (Slice 8 d) /\ gv_eq h TV (Slice 8 d) (Slice 16 d) = Ok true /\
  variant_get h (TTuple [TY; TI]) (Slice 8 d) <> Ok None.
Proof. repeat split; try reflexivity. vm_compute. discriminate. Qed.
(** False negatives there are, as documented: (yu) with other padding. *)
Theorem C97_false_negative : forall (h : host) (a : N), a mod 8 = 0 ->
  let t := TTuple [TY; TU] in
  let r := Slice a ([x01; x00; x00; x00; x02; x02; x02; x02] ++ x00 :: sp_show t) in
  let q := Slice a ([x01; x00; x07; x00; x02; x02; x02; x02] ++ x00 :: sp_show t) in
  exists p p', variant_get h t r = Ok (Some p) /\ variant_get h t q = Ok (Some p') /\
    gv_eq h t p p' = Ok true /\ gv_eq h TV r q = Ok false.
Proof. exact variant_padding. Qed.
Print Assumptions C97_false_negative.
(** "Variant implements PartialEq, but not Eq because the comparison is not
    reflexive": it is. *)
Theorem C97_reflexive : forall (h : host) (r : slice), aligned 8 r -> gv_eq h TV r r = Ok true.
Proof. exact variant_refl. Qed.
Print Assumptions C97_reflexive.
