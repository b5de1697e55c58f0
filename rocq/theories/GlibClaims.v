(** The whole fuzz target, with GLib as documented. *)
From Verif Require Import Base Types Layout AlignedBytes Strs Spec PaperSpec Deser Ser Buf Histories SerSpec OwnSpec
  BaseFacts TypesFacts LayoutFacts AlignedFacts Utf8Facts DeserFacts ArrayFacts StructFacts ReadFacts AccessFacts ReadClaims
  EncFacts EqFacts RoundFacts SwapFacts OwnClaims Fuzz FuzzSpec FuzzFacts FuzzGlib GlibSpec GlibFacts.
From Coq Require Import Lia ZifyBool ZifyNat ZifyN.
Ltac Zify.zify_post_hook ::= Z.div_mod_to_equations.

(** ** All of it *)
Lemma test_all_iff h G mem s ts : test_all h G mem ts s = Ok tt <->
  forall t, In t ts -> test_cmp h G (fst (fst (mem t))) (snd (fst (mem t))) (snd (mem t)) t s = Ok tt.
Proof.
  induction ts as [|t ts IH]; [split; [intros _ t []|reflexivity]|]. cbn [test_all].
  destruct (mem t) as [[va a1] a2] eqn:Em. rewrite as_aligned_8. cbn [bind]. split.
  - intros H. destruct (test_cmp h G va a1 a2 t s) as [[]|] eqn:Et; [|discriminate]. cbn [bind] in H.
    intros u [<-|Hu]; [rewrite Em; exact Et|]. now apply IH.
  - intros H. pose proof (H t (or_introl eq_refl)) as Ht. rewrite Em in Ht. cbn [fst snd] in Ht. rewrite Ht. cbn [bind].
    apply IH. intros u Hu. apply H. now right.
Qed.
Lemma tested_types t : In t fuzz_types ->
  usable t /\ sp_tame t = true /\ sp_unpadded t = true /\ plain_or_double t /\ sp_compared t = true.
Proof.
  intros Hin. cbn [In fuzz_types] in Hin.
  repeat (destruct Hin as [<-|Hin]; [repeat split; auto; first [left; reflexivity|right; reflexivity]|]). contradiction.
Qed.
Lemma target_claim h G mem b1 b2 data : mem_ok mem -> b1 + 8 < 2 ^ 64 -> b2 + 8 < 2 ^ 64 -> sp_fits (h_big_endian h) (s_data data) ->
  (test_target h G mem b1 b2 data = Ok tt <->
   s_data data <> [] /\ len (s_data data) mod 4 = 0 /\
   (forall t, In t fuzz_types -> sp_tested G (h_big_endian h) t (s_data data)) /\
   sp_tested_struct G (h_big_endian h) (s_data data)).
Proof.
  intros Hm H1 H2 [Hl Hfit]. unfold test_target.
  destruct (copy_to_align_ok h 8 data b1 b2) as (c & s & E & Ec & Hd & Ha & Hb & Hc); auto; [right; right; right; reflexivity|].
  rewrite E. cbn [bind]. rewrite Ec. cbn [bind]. rewrite <- Hd in *.
  assert (Hst : exists va a1 a2, mem fuzz_struct_ty = (va, a1, a2) /\ a1 + 8 < 2 ^ 64 /\ a2 + 8 < 2 ^ 64).
  { pose proof (Hm fuzz_struct_ty) as [M1 M2]. destruct (mem fuzz_struct_ty) as [[va a1] a2]. eauto 6. }
  destruct Hst as (va & a1 & a2 & -> & A1 & A2).
  assert (Hcase : (s_data s <> [] /\ len (s_data s) mod 4 = 0) \/ (s_data s = [] \/ len (s_data s) mod 4 <> 0)).
  { destruct (s_data s); [right; now left|]. destruct (N.eq_dec (len (b :: l) mod 4) 0) as [e|n]; [left; split; [discriminate|exact e]|right; now right]. }
  destruct Hcase as [[Hne H4]|Hbad].
  - specialize (Ha Hne).
    assert (HC : forall t, In t fuzz_types ->
      (test_cmp h G (fst (fst (mem t))) (snd (fst (mem t))) (snd (mem t)) t s = Ok tt <-> sp_tested G (h_big_endian h) t (s_data s))).
    { intros t Hin. destruct (tested_types t Hin) as (T1 & T2 & T3 & T4 & T5). pose proof (Hm t) as [M1 M2].
      assert (Hal : aligned (sp_align t) s) by (rewrite sp_align_of; now apply aligned_8).
      pose proof (Hfit t (or_intror Hin)) as Hf. apply test_cmp_iff; auto.
      apply fuzz_each; auto. discriminate. }
    assert (HS : test_struct h G va a1 a2 s = Ok tt <-> sp_tested_struct G (h_big_endian h) (s_data s)).
    { apply test_struct_iff; auto. apply Hfit. now left. }
    split.
    + intros H. destruct (test_all h G mem fuzz_types s) as [[]|] eqn:Et; [|discriminate]. cbn [bind] in H.
      split; [exact Hne|]. split; [exact H4|]. split; [|now apply HS].
      intros t Hin. apply HC; [exact Hin|]. now apply (proj1 (test_all_iff h G mem s fuzz_types)).
    + intros (_ & _ & HA & HB). rewrite (proj2 (test_all_iff h G mem s fuzz_types)); [now apply HS|].
      intros t Hin. apply HC; auto.
  - split; [|intros (Hne & H4 & _); destruct Hbad; contradiction].
    intros H. exfalso. destruct (test_all h G mem fuzz_types s) as [[]|] eqn:Et; [|discriminate].
    pose proof (proj1 (test_all_iff h G mem s fuzz_types) Et (TA TI)) as Hai.
    pose proof (Hm (TA TI)) as [M1 M2]. destruct (mem (TA TI)) as [[wa c1] c2]. cbn [fst snd] in *.
    specialize (Hai ltac:(do 14 right; now left)).
    rewrite test_cmp_split in Hai by reflexivity.
    assert (HX : fuzz_cmp h false wa c1 c2 (TA TI) s = Crash (sp_misaligned h)).
    { assert (Hdec : s_data s = [] \/ s_data s <> []) by (destruct (s_data s); [now left|right; discriminate]).
      destruct Hdec as [e|n]; [|apply fuzz_array_empty; auto; apply (aligned_8 TI); exact (Ha n)].
      destruct (N.eq_dec (s_addr data mod 8) 0) as [e8|n8].
      { apply fuzz_array_empty; auto. apply (aligned_8 TI). destruct (Hb e8) as [_ ->]. exact e8. }
      destruct (Hc n8) as [b ->]. revert E Ec. unfold copy_to_align, is_aligned. rewrite <- Hd, e.
      replace (s_addr data mod 8 =? 0) with false by lia. cbn [to_vec].
      change (buf_from_vec h vec_new b2) with (@Ok vec vec_new). cbn [bind]. intros Eb. injection Eb as <-.
      unfold vec_new. cbn [cow_as_ref]. rewrite buf_deref_empty. cbn [bind]. change (as_aligned 8 8 (Slice 1 [])) with (@Ok slice (Slice 1 [])).
      intros Es. apply ok_inj in Es. subst s. unfold fuzz_cmp. rewrite cast_empty_array. reflexivity. }
    rewrite HX in Hai. discriminate.
Qed.

(** ** GLib as documented *)
Lemma number_cmp t : sp_number t = true -> sp_compared t = true. Proof. now destruct t. Qed.
Lemma normal_text nm big t d : t = TS \/ t = TO \/ t = TG -> normal_form nm big t d -> pa_text (sp_bytes_of d) = true.
Proof.
  intros Ht (v & Hv & _ & -> & _). cbn [sp_bytes_of].
  assert (Hs : exists s, good_string s /\ sp_encode big t v = s ++ [x00]).
  { destruct Ht as [->|[->| ->]]; destruct v; cbn [sp_typed] in Hv; try tauto; eexists; (split; [exact Hv|reflexivity]). }
  destruct Hs as (s & [H1 H2] & ->). unfold pa_text. rewrite removelast_last.
  apply Bool.orb_true_iff. right. apply andb_true_intro. split; [now apply sp_utf8_ok|]. unfold sp_nul_free. now destruct (in_dec _ _ _).
Qed.
Lemma doc_tells G nm big R : documented G nm big R -> forall t, sp_compared t = true -> forall g d, R g t d -> tells G big t d g.
Proof.
  intros D.
  assert (HO : forall t g d, t = TO \/ t = TG -> R g t d ->
    (g_normal G g = true -> pa_text (sp_bytes_of d) = true) /\
    ((exists s, sp_decode big t d = VStr s /\ g_string G g = (s, len s)) \/
     (g_normal G g = false /\ exists c, hd_error (g_type G g) = Some c /\ (c = "o"%byte \/ c = "g"%byte)))).
  { intros t g d Ht HR. split.
    - intros Hn. destruct (doc_called_normal _ _ _ _ D _ _ _ HR Hn) as [H|[-> _]]; [|destruct Ht; discriminate].
      apply (normal_text nm big t); tauto.
    - destruct (g_normal G g) eqn:Hn; [left; apply (doc_string _ _ _ _ D); auto|right].
      split; [reflexivity|]. rewrite (doc_type _ _ _ _ D _ _ _ HR). destruct Ht as [-> | ->]; eexists; (split; [reflexivity|auto]). }
  induction t; intros Hc g d HR; try discriminate; cbn [tells]; cbv zeta;
    try (apply (doc_number _ _ _ _ D); [reflexivity|exact HR]).
  - now apply (doc_bool _ _ _ _ D).
  - exists (g_double G g). split; [now apply (doc_double _ _ _ _ D)|].
    destruct (sp_nan (g_double G g)) eqn:En; [now right|left]. unfold sp_feq. rewrite En. cbn [negb andb]. now rewrite N.eqb_refl.
  - split.
    + intros Hn. destruct (doc_called_normal _ _ _ _ D _ _ _ HR Hn) as [H|[H _]]; [|discriminate].
      apply (normal_text nm big TS); auto.
    + left. apply (doc_string _ _ _ _ D); auto.
  - apply (HO TO); auto.
  - apply (HO TG); auto.
  - now apply (doc_variant _ _ _ _ D).
  - match goal with |- context [sp_number ?x] => destruct (sp_number x) eqn:En end; [now apply (doc_numbers _ _ _ _ D)|].
    cbn [sp_compared] in Hc. rewrite En in Hc. cbn [orb] in Hc. apply andb_prop in Hc as [H1 H2]. unfold sp_fixed in H1.
    match goal with H : negb (match sp_size ?x with _ => _ end) = true |- _ => destruct (sp_size x) eqn:Es; [discriminate|] end.
    destruct (doc_array _ _ _ _ D _ _ _ Es HR) as [A1 A2]. split; [exact A1|]. intros i c Hi. apply IHt; auto.
  - pose proof (doc_maybe _ _ _ _ D _ _ _ HR) as HM. destruct (sp_inside _ _), (g_maybe G g); try exact HM. now apply IHt.
Qed.
Lemma struct_named nm v : sp_typed fuzz_struct_ty v -> pa_named nm fuzz_struct_ty v = true.
Proof.
  unfold fuzz_struct_ty. destruct v; cbn [sp_typed]; try tauto. intros H.
  do 9 (destruct vs as [|? vs]; [cbn in H; tauto|]). destruct vs; [reflexivity|]. cbn in H. tauto.
Qed.
Lemma aay_named nm v : pa_named nm (TA (TA TY)) v = true.
Proof.
  destruct v as [| | | | |vs| |]; try reflexivity. cbn [pa_named]. apply forallb_forall. intros [| | | | |ws| |] _; try reflexivity.
  apply forallb_forall. reflexivity.
Qed.
Lemma doc_all G nm big R d : documented G nm big R -> sp_fits big d ->
  (forall t, In t fuzz_types -> sp_tested G big t d) /\ sp_tested_struct G big d.
Proof.
  intros D [Hl Hfit]. pose proof (doc_tells G nm big R D) as HT. split.
  - intros t Hin. destruct (tested_types t Hin) as (T1 & T2 & T3 & T4 & T5).
    pose proof (doc_new _ _ _ _ D t d (or_intror Hin)) as HR.
    split; [exact T5|]. split; [now apply HT|]. intros Hn.
    assert (Hex : excused t d \/ ~ excused t d).
    { unfold excused. assert (Hd : t = TA (TA TY) \/ t <> TA (TA TY)).
      { clear - Hin. cbn [In fuzz_types] in Hin. repeat (destruct Hin as [<-|Hin]; [first [left; reflexivity|right; discriminate]|]). contradiction. }
      destruct Hd as [->|n]; [|right; tauto].
      destruct (N.leb_spec 256 (len d)); [|right; lia]. destruct (N.ltb_spec (len d) 512); [left; split; [reflexivity|]|right]; lia. }
    destruct Hex as [He|He]; [right|left]; (split; [exact He|]).
    + apply (doc_normal _ _ _ _ D _ t (Some (sp_again big t d))); [apply (doc_new _ _ _ _ D); now right|].
      exists (sp_decode big t (Some d)). split; [apply decode_typed|]. split; [destruct He as [-> _]; apply aay_named|].
      split; [reflexivity|]. apply Hfit. now right.
    + destruct (doc_called_normal _ _ _ _ D _ _ _ HR Hn) as [(v & Hv & _ & Hd & Hlv)|H]; [|contradiction].
      injection Hd as ->. unfold sp_again. destruct (encode_back big t v Hv) as [E _]; [lia|]. now rewrite E.
  - split.
    + apply (doc_normal _ _ _ _ D _ fuzz_struct_ty (Some (sp_again big fuzz_struct_ty d))); [apply (doc_new _ _ _ _ D); now left|].
      exists (sp_decode big fuzz_struct_ty (Some d)). split; [apply decode_typed|]. split; [apply struct_named, decode_typed|].
      split; [reflexivity|]. apply Hfit. now left.
    + intros _. pose proof (doc_new _ _ _ _ D fuzz_struct_ty d (or_introl eq_refl)) as HR.
      destruct (doc_struct _ _ _ _ D _ _ _ (eq_refl : sp_size fuzz_struct_ty = None) HR) as [S1 S2].
      split; [rewrite S1; apply N.le_refl|]. intros i t c Hi Hc. apply HT; [|now apply S2].
      do 9 (destruct i as [|i]; [injection Hi as <-; reflexivity|]). now destruct i.
Qed.
Lemma doc_claim h G nm R mem b1 b2 data : documented G nm (h_big_endian h) R ->
  mem_ok mem -> b1 + 8 < 2 ^ 64 -> b2 + 8 < 2 ^ 64 -> sp_fits (h_big_endian h) (s_data data) ->
  s_data data <> [] -> len (s_data data) mod 4 = 0 -> test_target h G mem b1 b2 data = Ok tt.
Proof.
  intros D Hm H1 H2 Hf Hne H4. apply target_claim; auto. destruct (doc_all G nm _ R _ D Hf). auto.
Qed.

(** ** There is such a GLib *)
Lemma known_is t : In t (fuzz_struct_ty :: fuzz_types) -> known (sp_show t) = Some t.
Proof.
  intros H. cbn [In fuzz_types] in H. repeat (destruct H as [<-|H]; [reflexivity|]). contradiction.
Qed.
Lemma known_shows ts t : known ts = Some t -> sp_show t = ts.
Proof. intros H. apply find_some in H as [_ H]. now apply beq_iff in H. Qed.
Lemma sample_documented nm big : documented (sample nm big sp_string false) nm big (fun g t d => g = (t, d)).
Proof.
  split; cbn [sample g_ref g_new g_normal g_type g_data g_boolean g_int g_double g_string g_fixed g_n_children g_child g_maybe g_variant fst snd].
  - intros t d Hin. now rewrite known_is.
  - now intros _ t d ->.
  - intros _ t d -> H. cbn [fst snd] in H. left. destruct d as [b|]; [|discriminate].
    apply andb_prop in H as [H H3]. apply andb_prop in H as [H1 H2]. apply beq_iff in H1.
    exists (sp_decode big t (Some b)). split; [apply decode_typed|]. split; [exact H3|].
    unfold sp_again in H1. rewrite H1. split; [reflexivity|lia].
  - intros _ t d -> (v & Hv & Hn & -> & Hl). cbn [fst snd]. unfold sp_again. destruct (encode_back big t v Hv) as [E _]; [lia|].
    rewrite E, Hn. rewrite (proj2 (beq_iff _ _) eq_refl). cbn [andb]. rewrite Bool.andb_true_r. lia.
  - intros _ d ->. cbn [fst snd]. pose proof (decode_typed big TB d) as H. destruct (sp_decode big TB d); cbn [sp_typed] in H; tauto.
  - intros _ t d Ht ->. cbn [fst snd]. pose proof (decode_typed big t d) as H.
    destruct t; try discriminate; destruct (sp_decode big _ d); cbn [sp_typed] in H; tauto.
  - intros _ d ->. cbn [fst snd]. pose proof (decode_typed big TD d) as H. destruct (sp_decode big TD d); cbn [sp_typed] in H; tauto.
  - intros g t d Ht ->. cbn [fst snd] in *. exists (sp_string (sp_bytes_of d)). split; [|reflexivity].
    destruct Ht as [->|[[-> | ->] _]]; destruct d; reflexivity.
  - intros _ d ->. cbn [fst snd]. pose proof (decode_typed big TV d) as H. destruct (sp_decode big TV d) as [| | | |ts b| | |]; cbn [sp_typed] in H; try tauto.
    destruct (known ts) as [t|] eqn:Ek; cbn [fst snd sp_bytes_of]; [|discriminate]. now rewrite (known_shows _ _ Ek).
  - intros _ x d Hx ->. cbn [fst snd]. pose proof (decode_typed big (TA x) d) as H.
    destruct (sp_decode big (TA x) d) as [| | | | |vs| |] eqn:Ed; cbn [sp_typed] in H; try tauto. clear Ed.
    assert (Hvs : vs = map VInt (map (fun v => match v with VInt z => z | _ => 0%Z end) vs)).
    { induction vs as [|v vs IH]; [reflexivity|]. destruct H as [Hv H]. cbn [map]. rewrite <- (IH H). f_equal.
      destruct x; try discriminate; destruct v; cbn [sp_typed] in Hv; tauto. }
    destruct vs as [|v vs]; [exists []; auto|]. eexists. split; [reflexivity|]. now rewrite <- Hvs.
  - intros _ x d Hx ->. cbn [fst snd]. split; [reflexivity|]. intros i c Hc. rewrite Nnat.Nat2N.id. f_equal. now apply nth_error_nth.
  - intros _ x d ->. cbn [fst snd]. destruct (sp_inside x _); cbn [option_map]; reflexivity.
  - intros _ ts d Hs ->. cbn [fst snd]. split; [reflexivity|]. intros i t c Ht Hc. rewrite Nnat.Nat2N.id. f_equal; now apply nth_error_nth.
Qed.
Lemma one_claim (h : host) (G : glib) (va a1 a2 : N) (t : ty) (s : slice) :
  usable t -> aligned (sp_align t) s -> len (s_data s) < 2 ^ 32 ->
  sp_tame t = true -> sp_unpadded t = true -> (t = TD \/ sp_no_double t = true) ->
  let d := sp_encode (h_big_endian h) t (sp_decode (h_big_endian h) t (Some (s_data s))) in
  len d < 2 ^ 63 -> a1 + 8 < 2 ^ 64 -> a2 + 8 < 2 ^ 64 -> d <> [] \/ sp_align t = 1 ->
  (test_cmp h G va a1 a2 t s = Ok tt <-> sp_tested G (h_big_endian h) t (s_data s)).
Proof.
  intros Hu Ha Hl Ht HU Hp d Hd H1 H2 Hne. apply test_cmp_iff; auto. apply fuzz_pass; auto. discriminate.
Qed.
Lemma spec_claim (h : host) (G : glib) (mem : ty -> N * N * N) (b1 b2 : N) (data : slice) :
  mem_ok mem -> b1 + 8 < 2 ^ 64 -> b2 + 8 < 2 ^ 64 -> sp_fits (h_big_endian h) (s_data data) ->
  (forall d, g_type G (g_new G (bs "s") d) = bs "s" /\ fst (g_string G (g_new G (bs "s") d)) = pa_string d) ->
  pa_string (s_data data) <> sp_string (s_data data) ->
  test_target h G mem b1 b2 data <> Ok tt.
Proof.
  intros Hm H1 H2 Hf HG Hne HT. apply target_claim in HT; auto. destruct HT as (_ & _ & HT & _).
  destruct (HT TS ltac:(do 9 right; now left)) as (_ & [_ HS] & _). change (sp_show TS) with (bs "s") in HS.
  destruct (HG (s_data data)) as [G1 G2]. destruct HS as [(s & E & Es)|(_ & c & Ec & Hc)].
  - rewrite Es in G2. cbn [fst] in G2. subst s. apply Hne. cbn [sp_decode] in E. now injection E.
  - rewrite G1 in Ec. injection Ec as <-. destruct Hc; discriminate.
Qed.
Lemma fits_by_computation big d : (len d <? 2 ^ 32) && forallb (fun t => len (sp_again big t d) <? 2 ^ 63) (fuzz_struct_ty :: fuzz_types) = true ->
  sp_fits big d.
Proof.
  intros H. apply andb_prop in H as [H1 H2]. split; [lia|]. intros t Hin. rewrite forallb_forall in H2. specialize (H2 t Hin). lia.
Qed.
Lemma null_claim : exists (h : host) (nm : names) (mem : ty -> N * N * N) (b1 b2 : N) (data : slice),
  let G := sample nm (h_big_endian h) sp_string true in
  mem_ok mem /\ b1 + 8 < 2 ^ 64 /\ b2 + 8 < 2 ^ 64 /\ sp_fits (h_big_endian h) (s_data data) /\
  s_data data <> [] /\ len (s_data data) mod 4 = 0 /\
  test_target h G mem b1 b2 data = Crash UBMisaligned.
Proof.
  exists (Host false true true 0 0), (Names (fun _ => true) (fun _ => true) (fun _ => true)), (fun _ => (40, 51, 67)), 11, 21,
    (Slice 5 [x00; x00; x00; x00]). intros G. split; [intros t; split; reflexivity|]. split; [reflexivity|]. split; [reflexivity|].
  split; [apply fits_by_computation; vm_compute; reflexivity|]. split; [discriminate|]. split; [reflexivity|]. vm_compute; reflexivity.
Qed.
