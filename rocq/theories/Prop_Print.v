(** What the text of [{:?}] tells about the value: C90, C91. *)
From Verif Require Import Base Types Layout AlignedBytes Strs Spec Deser Buf Histories Fmt FmtSpec CoreFmt PrintSpec PrintFacts LossyFacts TellFacts.

(** C90 is false: variants whose type strings are not UTF-8 may print alike ... *)
Theorem C90_variants_refuted : forall (shown : N -> bool) (double : N -> list byte),
  exists (h : host) (r r' : slice) (v v' : value) (s : list byte),
  view h TV r /\ view h TV r' /\ read h TV r = Ok v /\ read h TV r' = Ok v' /\ v <> v' /\
  fmt_debug h (core_fmts shown double) TV r = Ok s /\ fmt_debug h (core_fmts shown double) TV r' = Ok s.
Proof. exact variants_alike. Qed.
Print Assumptions C90_variants_refuted.
(** ... and so do NaNs, which Rust writes without their bits. *)
Theorem C90_nans_refuted : forall (shown : N -> bool) (double : N -> list byte),
  (forall b, sp_nan b = true -> double b = bs "NaN") ->
  exists (h : host) (r r' : slice) (v v' : value) (s : list byte),
  view h TD r /\ view h TD r' /\ read h TD r = Ok v /\ read h TD r' = Ok v' /\ v <> v' /\
  fmt_debug h (core_fmts shown double) TD r = Ok s /\ fmt_debug h (core_fmts shown double) TD r' = Ok s.
Proof. exact nans_alike. Qed.
Print Assumptions C90_nans_refuted.

(** C91: values of one type without these, read anywhere and on any machines,
    are the same if they print alike ... *)
Theorem C91_text_tells_the_value : forall (shown : N -> bool) (double : N -> list byte), writes_doubles double ->
  forall (h h' : host) (t : ty) (r r' : slice) (v v' : value) (s : list byte),
  view h t r -> view h' t r' -> read h t r = Ok v -> read h' t r' = Ok v' -> legible v -> legible v' ->
  fmt_debug h (core_fmts shown double) t r = Ok s -> fmt_debug h' (core_fmts shown double) t r' = Ok s -> v = v'.
Proof. exact print_claim. Qed.
Print Assumptions C91_text_tells_the_value.
(** ... numbers are written so that they can be read back ... *)
Theorem C91_numbers : forall z : Z, sp_int (core_int z) = z.
Proof. exact core_int_val. Qed.
Print Assumptions C91_numbers.
(** ... strings stop at their closing quote, whatever follows ... *)
Theorem C91_strings : forall (shown : N -> bool) (a b r r' : list byte), is_utf8 a -> is_utf8 b ->
  core_str shown a ++ r = core_str shown b ++ r' -> a = b /\ r = r'.
Proof. exact core_str_prefix. Qed.
Print Assumptions C91_strings.
(** ... a type string is altered, to UTF-8, just if it is not UTF-8 ... *)
Theorem C91_type_strings : forall d : list byte, is_utf8 (core_lossy d) /\ (core_lossy d = d <-> is_utf8 d).
Proof. exact (fun d => conj (lossy_valid d) (lossy_same d)). Qed.
Print Assumptions C91_type_strings.
(** ... and then in one way only: every longest piece that begins a character
    and does not end becomes U+FFFD, and so does every other byte that begins none. *)
Theorem C91_mended : forall d o : list byte, mended d o <-> o = core_lossy d.
Proof. exact lossy_claim. Qed.
Print Assumptions C91_mended.
Example C91_mended_case : mended [x28; xf0; x90; x80; x61; xff; xe2; x82; xac; xed; xa0; xc3]
  (x28 :: utf8_of 65533 ++ x61 :: utf8_of 65533 ++ [xe2; x82; xac] ++ utf8_of 65533 ++ utf8_of 65533 ++ utf8_of 65533).
Proof. apply C91_mended. vm_compute. reflexivity. Qed.

Definition c91_type : ty := TTuple [TA TS; TM TN; TV].
Definition c91_bytes : list byte := [x22; x09; x61; x00; x04; x00; xfe; xff; x07; x00; x79; x08; x05].
Definition c91_double (b : N) : list byte := core_int (Z.of_N b).
Definition c91_value : value := VTuple [VArray [VStr [x22; x09; x61]]; VMaybe (Some (VInt (-2))); VVariant [x79] [x07]].
Example C91_case : let h := Host false true true 0 0 in
  writes_doubles c91_double /\ view h c91_type (Slice 16 c91_bytes) /\
  read h c91_type (Slice 16 c91_bytes) = Ok c91_value /\ legible c91_value /\
  fmt_debug h (core_fmts (fun c => 31 <? c) c91_double) c91_type (Slice 16 c91_bytes) =
    Ok (bs "([""\""\ta"", ], Some(-2), Variant { type: ""y"", data: [7] })").
Proof.
  intros h. split; [|split; [|split; [|split]]].
  - split.
    + intros b. exact (core_int_chars (Z.of_N b)).
    + intros a b _ _ E. apply core_int_inj in E. apply N2Z.inj. exact E.
  - exists c91_type, (Slice 16 c91_bytes). split; [split; reflexivity|]. split; [reflexivity|].
    split; [reflexivity|]. apply reach_cast. reflexivity.
  - vm_compute. reflexivity.
  - repeat split. exists [121]. split; [|reflexivity]. constructor; [left; reflexivity|constructor].
  - vm_compute. reflexivity.
Qed.
