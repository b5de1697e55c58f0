(** Equality of variants and of their contents (C96, C97). *)
From Verif Require Import Base BaseFacts Types TypesFacts Layout LayoutFacts AlignedBytes AlignedFacts Strs Spec Deser
  DeserFacts Histories LongSpec ArrayFacts ReadFacts AccessFacts ReadClaims EqFacts LongFacts SerMain SerClaims OwnClaims
  PaperSpec PaperFacts.

Lemma veq_split h r q : aligned 8 r -> aligned 8 q ->
  exists ts dat ts' dat', variant_split h r = Ok (ts, dat) /\ variant_split h q = Ok (ts', dat') /\
    aligned 8 dat /\ aligned 8 dat' /\
    sp_variant (s_data r) = VVariant (s_data ts) (s_data dat) /\
    sp_variant (s_data q) = VVariant (s_data ts') (s_data dat') /\
    (gv_eq h TV r q = Ok true <-> s_data ts = s_data ts' /\ s_data dat = s_data dat') /\
    (exists e, gv_eq h TV r q = Ok e).
Proof.
  intros Hr Hq. destruct (variant_split_ok h r Hr) as (ts & dat & E & Hd & Hv & _).
  destruct (variant_split_ok h q Hq) as (ts' & dat' & E' & Hd' & Hv' & _).
  exists ts, dat, ts', dat'. do 6 (split; [assumption|]). cbn [gv_eq]. rewrite E, E'. cbn [bind fst snd].
  split; [|eauto]. rewrite <- !bytes_eqb_eq, <- andb_true_iff. split; congruence.
Qed.
Lemma variant_refl h r : aligned 8 r -> gv_eq h TV r r = Ok true.
Proof.
  intros Hr. destruct (veq_split h r r Hr Hr) as (ts & dat & ts' & dat' & E & E' & _ & _ & _ & _ & H & _).
  apply H. rewrite E in E'. injection E' as <- <-. auto.
Qed.
Lemma len_within8 h r ts dat : aligned 8 r -> variant_split h r = Ok (ts, dat) -> len (s_data r) < 2 ^ 63 ->
  len (s_data dat) < 2 ^ 63.
Proof.
  intros Hr E Hl. destruct (split_claim h r Hr) as (ts' & dat' & E' & _ & _ & H).
  rewrite E in E'. injection E' as <- <-. destruct H as [[H _]|(_ & _ & H & _)].
  - rewrite H in Hl. unfold len in *. rewrite app_length in Hl. lia.
  - rewrite H. reflexivity.
Qed.
Lemma aligned_8 x s : aligned 8 s -> aligned (sp_align x) s.
Proof.
  rewrite sp_align_of. intros H. apply (aligned_le _ 8); auto with al; [right; right; right; reflexivity|].
  pose proof (align_of_alignment x) as HA; destruct HA as [->|[->|[->| ->]]]; lia.
Qed.
Lemma get_decode h x r ts dat : usable x -> aligned 8 r -> variant_split h r = Ok (ts, dat) ->
  (s_data ts <> sp_show x /\ variant_get h x r = Ok None) \/
  (s_data ts = sp_show x /\ exists p, variant_get h x r = Ok (Some p) /\ cast h x dat = Ok p /\ read h x p = decode h x dat).
Proof.
  intros Hu Hr E. destruct (get_claim h x r Hu Hr) as (ts' & dat' & o & E' & G & H1 & H2).
  rewrite E in E'. injection E' as <- <-.
  destruct (list_eq_dec Byte.byte_eq_dec (s_data ts) (sp_show x)) as [He|He].
  - right. split; [exact He|]. destruct (H2 He) as (p & -> & Hc). exists p. split; [exact G|]. split; [exact Hc|].
    unfold decode. rewrite Hc. reflexivity.
  - left. split; [exact He|]. rewrite G. f_equal. auto.
Qed.

Lemma variant_any h r q : aligned 8 r -> aligned 8 q -> len (s_data r) < 2 ^ 63 -> len (s_data q) < 2 ^ 63 ->
  gv_eq h TV r q = Ok true -> forall x, usable x ->
  (variant_get h x r = Ok None /\ variant_get h x q = Ok None) \/
  (exists p p', variant_get h x r = Ok (Some p) /\ variant_get h x q = Ok (Some p') /\ read h x p = read h x p' /\
     (sp_no_double x = true -> forall v, read h x p = Ok v -> gv_eq h x p p' = Ok true)).
Proof.
  intros Hr Hq Lr Lq Heq x Hu.
  destruct (veq_split h r q Hr Hq) as (ts & dat & ts' & dat' & E & E' & Hd & Hd' & _ & _ & H & _).
  apply H in Heq as [Ht Hdd].
  destruct (get_decode h x r ts dat Hu Hr E) as [[N1 G1]|(N1 & p & G1 & C1 & R1)];
    destruct (get_decode h x q ts' dat' Hu Hq E') as [[N2 G2]|(N2 & p' & G2 & C2 & R2)]; try congruence; [now left|].
  right. exists p, p'. split; [exact G1|]. split; [exact G2|].
  assert (Er : read h x p = read h x p').
  { rewrite R1, R2. apply position_claim; auto using aligned_8. apply Hu. }
  split; [exact Er|]. intros Hn v Ev.
  apply (eq_plain_claim h x p p' v v Hn).
  - exists x, dat. split; [exact Hu|]. split; [now apply aligned_8|]. split; [exact (len_within8 h r ts dat Hr E Lr)|]. now apply reach_cast.
  - exists x, dat'. split; [exact Hu|]. split; [now apply aligned_8|]. split; [exact (len_within8 h q ts' dat' Hq E' Lq)|]. now apply reach_cast.
  - exact Ev.
  - congruence.
  - reflexivity.
Qed.

(** Variants in normal form. *)
Definition vbytes (big : bool) (t : ty) (v : value) : list byte := sp_encode big t v ++ x00 :: sp_show t.
Lemma vbytes_split big t v : sp_variant (vbytes big t v) = VVariant (sp_show t) (sp_encode big t v).
Proof. unfold sp_variant, vbytes. rewrite split_last_app by apply show_nul. reflexivity. Qed.
Lemma variant_normal h t u v w a b : a mod 8 = 0 -> b mod 8 = 0 -> sp_typed t v -> sp_typed u w ->
  let big := h_big_endian h in
  len (sp_encode big t v) < 2 ^ 63 ->
  let r := Slice a (sp_encode big t v ++ x00 :: sp_show t) in
  let q := Slice b (sp_encode big u w ++ x00 :: sp_show u) in
  exists e, gv_eq h TV r q = Ok e /\ (e = true <-> t = u /\ v = w).
Proof.
  intros Ha Hb Ht Hw big Hl r q.
  assert (Hr : aligned 8 r) by exact Ha. assert (Hq : aligned 8 q) by exact Hb.
  destruct (veq_split h r q Hr Hq) as (ts & dat & ts' & dat' & _ & _ & _ & _ & V & V' & H & e & He).
  exists e. split; [exact He|]. rewrite He in H.
  change (s_data r) with (vbytes big t v) in V. change (s_data q) with (vbytes big u w) in V'.
  rewrite vbytes_split in V, V'. injection V as V1 V2. injection V' as V3 V4. rewrite <- V1, <- V2, <- V3, <- V4 in H.
  split.
  - intros ->. destruct H as [H _]. destruct (H eq_refl) as [H1 H2].
    assert (E : t = u) by (apply display_inj; now rewrite <- !show_display). subst u. split; [reflexivity|].
    apply (same_bytes_claim big t v w Ht Hw); [lia|exact H2].
  - intros [-> ->]. destruct H as [_ H]. now injection (H (conj eq_refl eq_refl)).
Qed.
Lemma normal_get h t v a : usable t -> a mod 8 = 0 -> sp_typed t v -> let big := h_big_endian h in
  len (sp_encode big t v) < 2 ^ 63 ->
  exists p, variant_get h t (Slice a (sp_encode big t v ++ x00 :: sp_show t)) = Ok (Some p) /\ read h t p = Ok v /\ view h t p.
Proof.
  intros Hu Ha Ht big Hl. set (r := Slice a _).
  assert (Hr : aligned 8 r) by exact Ha.
  destruct (variant_split_ok h r Hr) as (ts & dat & E & Hd & V & _).
  change (s_data r) with (vbytes big t v) in V. rewrite vbytes_split in V. injection V as Ets Ed.
  destruct (get_decode h t r ts dat Hu Hr E) as [[N1 _]|(_ & p & G & C & R)]; [congruence|].
  exists p. split; [exact G|]. rewrite R. destruct dat as [b d]. cbn [s_data] in Ed. subst d.
  split.
  - apply encode_claim; auto. apply (aligned_8 t (Slice b [])). exact Hd.
  - exists t, (Slice b (sp_encode big t v)). split; [exact Hu|]. split; [now apply aligned_8|]. split; [exact Hl|]. now apply reach_cast.
Qed.
Lemma variant_contents h t v w a b : usable t -> sp_no_double t = true -> a mod 8 = 0 -> b mod 8 = 0 ->
  sp_typed t v -> sp_typed t w -> let big := h_big_endian h in
  len (sp_encode big t v) < 2 ^ 63 -> len (sp_encode big t w) < 2 ^ 63 ->
  let r := Slice a (sp_encode big t v ++ x00 :: sp_show t) in
  let q := Slice b (sp_encode big t w ++ x00 :: sp_show t) in
  exists p p', variant_get h t r = Ok (Some p) /\ variant_get h t q = Ok (Some p') /\
    read h t p = Ok v /\ read h t p' = Ok w /\ gv_eq h TV r q = gv_eq h t p p'.
Proof.
  intros Hu Hn Ha Hb Hv Hw big Lv Lw r q.
  destruct (normal_get h t v a Hu Ha Hv Lv) as (p & G & R & Vp).
  destruct (normal_get h t w b Hu Hb Hw Lw) as (p' & G' & R' & Vp').
  exists p, p'. do 4 (split; [assumption|]).
  destruct (variant_normal h t t v w a b Ha Hb Hv Hw Lv) as (e & He & H).
  fold big r q in He. rewrite He.
  rewrite (eq_claim h t p p' v w Vp Vp' R R'). f_equal. apply eq_true_iff_eq. rewrite H.
  rewrite (veq_plain v (read_plain h t Hn p v R) w (read_plain h t Hn p' w R')). tauto.
Qed.

(** Doubles: zero and minus zero; NaN. *)
Lemma variant_doubles h a : a mod 8 = 0 -> let big := h_big_endian h in
  let enc v := Slice a (sp_encode big TD v ++ x00 :: sp_show TD) in
  let zero := VDouble 0 in let minus := VDouble (2 ^ 63) in let nan := VDouble (2 ^ 63 - 1) in
  (exists p p', variant_get h TD (enc zero) = Ok (Some p) /\ variant_get h TD (enc minus) = Ok (Some p') /\
     gv_eq h TD p p' = Ok true /\ gv_eq h TV (enc zero) (enc minus) = Ok false) /\
  (exists p, variant_get h TD (enc nan) = Ok (Some p) /\
     gv_eq h TD p p = Ok false /\ gv_eq h TV (enc nan) (enc nan) = Ok true).
Proof.
  intros Ha big enc zero minus nan.
  assert (Hu : usable TD) by (split; reflexivity).
  assert (T0 : sp_typed TD zero) by (cbn; lia). assert (T1 : sp_typed TD minus) by (cbn; lia).
  assert (T2 : sp_typed TD nan) by (cbn; lia).
  assert (L : forall v, In v [zero; minus; nan] -> len (sp_encode big TD v) < 2 ^ 63).
  { intros v Hin. unfold big. destruct (h_big_endian h); cbn [In] in Hin;
      decompose [or] Hin; try contradiction; subst v; reflexivity. }
  destruct (normal_get h TD zero a Hu Ha T0) as (p & G & R & Vp); [apply L; cbn; auto|].
  destruct (normal_get h TD minus a Hu Ha T1) as (p' & G' & R' & Vp'); [apply L; cbn; auto|].
  destruct (normal_get h TD nan a Hu Ha T2) as (n & Gn & Rn & Vn); [apply L; cbn; auto|].
  split.
  - exists p, p'. split; [exact G|]. split; [exact G'|]. split.
    + rewrite (eq_claim h TD p p' zero minus) by assumption. reflexivity.
    + destruct (variant_normal h TD TD zero minus a a Ha Ha T0 T1) as (e & He & H); [apply L; cbn; auto|].
      unfold enc. fold big in He. rewrite He. f_equal. destruct e; [|reflexivity].
      destruct H as [H _]. destruct (H eq_refl) as [_ H']. discriminate.
  - exists n. split; [exact Gn|]. split.
    + rewrite (eq_claim h TD n n nan nan) by assumption. reflexivity.
    + apply variant_refl. exact Ha.
Qed.
(** The false negative of the documentation: padding in (yi). *)
Lemma variant_padding h a : a mod 8 = 0 ->
  let t := TTuple [TY; TU] in
  let r := Slice a ([x01; x00; x00; x00; x02; x02; x02; x02] ++ x00 :: sp_show t) in
  let q := Slice a ([x01; x00; x07; x00; x02; x02; x02; x02] ++ x00 :: sp_show t) in
  exists p p', variant_get h t r = Ok (Some p) /\ variant_get h t q = Ok (Some p') /\
    gv_eq h t p p' = Ok true /\ gv_eq h TV r q = Ok false.
Proof.
  intros Ha t r q. assert (Hu : usable t) by (split; reflexivity).
  assert (Hr : aligned 8 r) by exact Ha. assert (Hq : aligned 8 q) by exact Ha.
  destruct (veq_split h r q Hr Hq) as (ts & dat & ts' & dat' & E & E' & Hd & Hd' & V & V' & H & e & He).
  injection V as Et Ed. injection V' as Et' Ed'.
  destruct (get_decode h t r ts dat Hu Hr E) as [[N1 _]|(_ & p & G & C & R)]; [now rewrite <- Et in N1|].
  destruct (get_decode h t q ts' dat' Hu Hq E') as [[N1 _]|(_ & p' & G' & C' & R')]; [now rewrite <- Et' in N1|].
  exists p, p'. split; [exact G|]. split; [exact G'|].
  assert (D : decode h t dat = Ok (VTuple [VInt 1; VInt 33686018])).
  { destruct dat as [b d]. cbn [s_data] in Ed. subst d.
    rewrite long_claim; [|exact Hu|now apply aligned_8|reflexivity|reflexivity].
    cbn [s_data]. destruct (h_big_endian h); reflexivity. }
  assert (D' : decode h t dat' = Ok (VTuple [VInt 1; VInt 33686018])).
  { destruct dat' as [b d]. cbn [s_data] in Ed'. subst d.
    rewrite long_claim; [|exact Hu|now apply aligned_8|reflexivity|reflexivity].
    cbn [s_data]. destruct (h_big_endian h); reflexivity. }
  rewrite D in R. rewrite D' in R'. split.
  - rewrite (eq_claim h t p p' _ _) with (3 := R) (4 := R'); [reflexivity| |].
    + exists t, dat. split; [exact Hu|]. split; [now apply aligned_8|]. split; [rewrite <- Ed; reflexivity|]. now apply reach_cast.
    + exists t, dat'. split; [exact Hu|]. split; [now apply aligned_8|]. split; [rewrite <- Ed'; reflexivity|]. now apply reach_cast.
  - rewrite He in *. f_equal. destruct e; [|reflexivity]. destruct H as [H _]. destruct (H eq_refl) as [_ H2].
    rewrite <- Ed, <- Ed' in H2. discriminate.
Qed.
