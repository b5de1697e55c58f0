(** The fuzz target's comparisons with GLib. *)
From Verif Require Import Base Types Layout AlignedBytes Strs Spec PaperSpec Deser Ser Buf Histories SerSpec OwnSpec
  BaseFacts TypesFacts LayoutFacts AlignedFacts Utf8Facts DeserFacts ArrayFacts StructFacts ReadFacts AccessFacts ReadClaims
  EqFacts CmpFacts Fuzz FuzzSpec FuzzFacts FuzzGlib GlibSpec.
From Coq Require Import Lia ZifyBool ZifyNat ZifyN.
Ltac Zify.zify_post_hook ::= Z.div_mod_to_equations.

(** ** Strings *)
Lemma text_conformant b : bytes_eqb (to_str b) (as_bytes_non_conformant b) = pa_text b.
Proof.
  destruct (snoc_cases b) as [->|(s & c & ->)]; [reflexivity|]. unfold pa_text, terminated.
  destruct (s ++ [c]) as [|y l] eqn:E; [destruct s; discriminate|]. rewrite <- E. clear E y l.
  rewrite last_last, removelast_last, to_str_spec. destruct (Byte.eqb c x00) eqn:E.
  - apply Byte.byte_dec_bl in E. subst c. rewrite nonconf_app. cbn [negb orb].
    unfold sp_string. rewrite last_last, removelast_last.
    destruct (s ++ [x00]) as [|y l] eqn:E; [destruct s; discriminate|]. clear E y l. cbn [Byte.eqb].
    destruct s as [|y l]; [reflexivity|].
    destruct (sp_utf8 (y :: l) && sp_nul_free (y :: l)) eqn:E.
    + apply andb_true_iff in E as [-> ->]. apply (bytes_eqb_refl (y :: l)).
    + change (Byte.eqb x00 x00) with true. cbn [andb]. rewrite E. reflexivity.
  - rewrite nonconf_snoc by (intros ->; discriminate). cbn [negb orb]. unfold sp_string. rewrite last_last, E.
    destruct (s ++ [c]); reflexivity.
Qed.

(** ** Numbers *)
Lemma ints_eq vs zs : gl_ints_eq vs zs = true <-> vs = map VInt zs.
Proof.
  revert zs. induction vs as [|v vs IH]; intros [|z zs]; cbn [gl_ints_eq map]; try (split; congruence).
  rewrite andb_true_iff, IH. destruct v; cbn [gl_int_eq]; split; try (intros [? ?]; discriminate); try discriminate.
  - intros [H ->]. apply Z.eqb_eq in H. now subst.
  - intros H. inversion H. subst. split; [apply Z.eqb_refl|reflexivity].
Qed.
Lemma number_same t : sp_number t = gl_number t. Proof. now destruct t. Qed.
Lemma number_fixed t : sp_number t = true -> exists n, size_of t = Some n.
Proof. destruct t; try discriminate; cbn; eauto. Qed.
Lemma compared_impl t : sp_compared t = gl_impl t.
Proof.
  induction t using ty_ind'; try reflexivity; cbn [sp_compared gl_impl]; [|assumption].
  rewrite number_same, IHt. unfold sp_fixed. rewrite sp_size_of. destruct (size_of t); reflexivity.
Qed.

Lemma read_is h t v d : readable t -> sp_tame t = true -> ref_ok t v -> small t v -> s_data v = norm t d ->
  read h t v = Ok (sp_decode (h_big_endian h) t d).
Proof.
  intros [Hm Hl] Ht Hr Hs Hd. rewrite read_exact by assumption. unfold outcome. rewrite tame_reads by assumption.
  rewrite Hd, <- sp_decode_norm. reflexivity.
Qed.

(** ** Elements *)
Lemma tame_good x (b : list byte) : sp_multi x = false -> size_of x = None -> size_good x (blen b).
Proof.
  intros H Hn. pose proof (tame_whole x (Some b) H) as HW. rewrite sp_whole_fits in HW by assumption.
  destruct (size_good_dec x (blen b)); [assumption|discriminate].
Qed.
Lemma small_elem h x s i c : macro_ok x = true -> aligned (align_of x) s -> size_of x = None -> slen s < 2 ^ 32 ->
  sp_multi x = false -> arr_cut (align_of x) (s_data s) i = c ->
  exists r, elem_at h x s i = Ok r /\ ref_ok x r /\ small x r /\ s_data r = norm x c.
Proof.
  intros Hm Ha Hn Hl Ht Hc. pose proof (elem_at_exact h x s i Hm Ha Hn Hl) as He. unfold elem_view in He. rewrite Hc in He.
  destruct c as [b|].
  - pose proof (tame_good x b Ht Hn) as Hg. destruct (size_good_dec x (blen b)); [|tauto].
    destruct He as (r & E & Hr & Hd). exists r. repeat split; try assumption; [apply Hr|apply Hr| |].
    + right. apply arr_cut_len in Hc. unfold slen in *. rewrite Hd. lia.
    + unfold norm. now rewrite seen_good.
  - destruct He as (r & E & Hr & Hd). exists r. repeat split; try assumption; [apply Hr|apply Hr| |].
    + right. unfold slen. rewrite Hd. reflexivity.
    + now rewrite norm_none_var.
Qed.
Lemma elems_small h x s (idx : list N) : macro_ok x = true -> aligned (align_of x) s -> size_of x = None -> slen s < 2 ^ 32 ->
  sp_multi x = false -> exists rs, mapM (elem_at h x s) idx = Ok rs /\
    Forall2 (fun i r => elem_at h x s i = Ok r /\ ref_ok x r /\ small x r /\ s_data r = norm x (arr_cut (align_of x) (s_data s) i)) idx rs.
Proof.
  intros Hm Ha Hn Hl Ht. induction idx as [|i idx (rs & E & HF)]; [exists []; split; [reflexivity|constructor]|].
  destruct (small_elem h x s i _ Hm Ha Hn Hl Ht eq_refl) as (r & Er & H1 & H2 & H3).
  exists (r :: rs). cbn [mapM]. rewrite Er. cbn [bind]. rewrite E. split; [reflexivity|]. constructor; auto.
Qed.

(** ** The comparison *)
Definition plain_or_double (t : ty) : Prop := t = TD \/ sp_no_double t = true.
Definition cmp_ok (h : host) (G : glib) (t : ty) : Prop := forall v d g,
  ref_ok t v -> small t v -> s_data v = norm t d -> (gl_eq h G t v g = Ok true <-> tells G (h_big_endian h) t d g).

Lemma eq_self h t v d : readable t -> sp_tame t = true -> sp_no_double t = true -> ref_ok t v -> small t v -> s_data v = norm t d ->
  gv_eq h t v v = Ok true.
Proof.
  intros Hrd Ht Hn Hr Hs Hd. pose proof (read_is h t v d Hrd Ht Hr Hs Hd) as E.
  assert (Hsh : short t v) by (destruct Hs; [left; assumption|right; lia]).
  rewrite (eq_exact h t Hrd v v Hr Hr Hsh Hsh _ _ E E). f_equal.
  pose proof (read_plain h t Hn v _ E) as HP. apply (veq_plain _ HP _ HP). reflexivity.
Qed.

Definition gl_check (h : host) (x : ty) (v : slice) : N -> list slice -> res unit :=
  fix check (i : N) (rs : list slice) : res unit :=
    match rs with
    | [] => Ok tt
    | r :: rs => let* q := nfwa_index h x v i in
                 let* e := gv_eq h x r q in
                 let* _ := assert_that e in
                 check (i + 1) rs
    end.
Definition gl_go (h : host) (G : glib) (x : ty) (g : g_ref G) : N -> list slice -> res bool :=
  fix go (i : N) (rs : list slice) : res bool :=
    match rs with
    | [] => Ok true
    | r :: rs => let* c := gl_get_child G g i in
                 let* e := gl_eq h G x r c in
                 if e then go (i + 1) rs else Ok false
    end.
Lemma gl_eq_array h G x v g : gl_number x = false -> gl_eq h G (TA x) v g =
  (let* rs := nfwa_items h x v in
   let* n := nfwa_len h v in
   let* _ := assert_that (n =? N.of_nat (length rs)) in
   let* _ := gl_check h x v 0 rs in
   if g_n_children G g =? n then gl_go h G x g 0 rs else Ok false).
Proof. intros H. cbn [gl_eq]. rewrite H. reflexivity. Qed.

Lemma check_ok h x v : readable x -> sp_tame x = true -> sp_no_double x = true -> aligned (align_of x) v -> slen v < 2 ^ 32 ->
  forall k i rs, i + N.of_nat k = arr_n (s_data v) ->
  Forall2 (fun i r => elem_at h x v i = Ok r /\ ref_ok x r /\ small x r /\ s_data r = norm x (arr_cut (align_of x) (s_data v) i)) (indices i k) rs ->
  gl_check h x v i rs = Ok tt.
Proof.
  intros Hrd Ht Hn Ha Hl. induction k as [|k IH]; intros i rs Hi HF.
  - inversion HF. reflexivity.
  - rewrite indices_S in HF. inversion HF as [|? r ? rs' (E & H1 & H2 & H3) HF' EQ1 EQ2]. subst. cbn [gl_check].
    rewrite nfwa_index_ok by (auto; unfold usize_lim; lia). rewrite E. cbn [bind].
    rewrite (eq_self h x r _ Hrd Ht Hn H1 H2 H3). cbn [bind assert_that]. apply IH; [lia|assumption].
Qed.
Lemma go_ok h G x v g : cmp_ok h G x -> forall k i rs, i + N.of_nat k = arr_n (s_data v) -> g_n_children G g = arr_n (s_data v) ->
  Forall2 (fun i r => elem_at h x v i = Ok r /\ ref_ok x r /\ small x r /\ s_data r = norm x (arr_cut (align_of x) (s_data v) i)) (indices i k) rs ->
  (gl_go h G x g i rs = Ok true <->
   forall j c, nth_error (map (arr_cut (align_of x) (s_data v)) (indices i k)) j = Some c ->
     tells G (h_big_endian h) x c (g_child G g (i + N.of_nat j))).
Proof.
  intros IHx. induction k as [|k IH]; intros i rs Hi Hg HF.
  - inversion HF. cbn [gl_go]. split; [intros _ [|j] c; discriminate|reflexivity].
  - rewrite indices_S in HF. inversion HF as [|? r ? rs' (E & H1 & H2 & H3) HF' EQ1 EQ2]. subst. cbn [gl_go].
    unfold gl_get_child. replace (i <? g_n_children G g) with true by lia. cbn [bind assert_that].
    specialize (IH (i + 1) rs' ltac:(lia) Hg HF'). specialize (IHx r _ (g_child G g i) H1 H2 H3).
    rewrite indices_S. cbn [map]. split.
    + intros Hgo. destruct (gl_eq h G x r (g_child G g i)) as [[|]|] eqn:Ee; cbn [bind] in Hgo; try discriminate.
      pose proof (proj1 IH Hgo) as HGo. intros [|j] c Hc; cbn [nth_error] in Hc.
      * apply Some_inj in Hc. subst c. rewrite N.add_0_r. now apply IHx.
      * replace (i + N.of_nat (S j)) with (i + 1 + N.of_nat j) by lia. now apply HGo.
    + intros H. assert (H0 : tells G (h_big_endian h) x (arr_cut (align_of x) (s_data v) i) (g_child G g i)).
      { specialize (H 0%nat _ eq_refl). rewrite N.add_0_r in H. exact H. }
      apply IHx in H0. rewrite H0. cbn [bind]. apply (proj2 IH). intros j c Hc.
      replace (i + 1 + N.of_nat j) with (i + N.of_nat (S j)) by lia. now apply H.
Qed.

Lemma char_is c x : byte_eqb c x = true <-> c = x.
Proof.
  unfold byte_eqb. split; [apply Byte.byte_dec_bl|]. intros ->. apply Byte.byte_dec_lb. reflexivity.
Qed.
Lemma cmp_str h G t v d g : t = TS \/ t = TO \/ t = TG -> s_data v = norm t d ->
  (gl_eq h G t v g = Ok true <-> tells G (h_big_endian h) t d g).
Proof.
  intros Ht Hd. assert (Hb : s_data v = sp_bytes_of d).
  { rewrite Hd. destruct Ht as [->|[->| ->]]; apply norm_var; (reflexivity || discriminate). }
  assert (E1 : gl_eq h G t v g = gl_eq h G TS v g) by (destruct Ht as [->|[->| ->]]; reflexivity).
  assert (E2 : tells G (h_big_endian h) t d g = tells G (h_big_endian h) TS d g) by (destruct Ht as [->|[->| ->]]; reflexivity).
  rewrite E1, E2. clear E1 E2 Ht Hd t. cbn [gl_eq tells sp_decode]. rewrite Hb, text_conformant.
  change (match d with Some b => b | None => [] end) with (sp_bytes_of d). rewrite to_str_spec.
  destruct (g_normal G g) eqn:En.
  - cbn [negb]. rewrite andb_false_r. destruct (pa_text (sp_bytes_of d)); cbn [bind assert_that].
    2:{ split; [discriminate|]. intros [H _]. specialize (H eq_refl). discriminate. }
    destruct (g_string G g) as [s n]. split.
    + intros H. injection H as H. apply andb_true_iff in H as [H1 H2]. apply N.eqb_eq in H1. apply bytes_eqb_eq in H2.
      split; [reflexivity|]. left. exists (sp_string (sp_bytes_of d)). split; [reflexivity|]. now rewrite <- H1, <- H2.
    + intros [_ [(s' & Es & H)|[H _]]]; [|discriminate]. inversion Es. inversion H. subst. f_equal.
      apply andb_true_iff. split; [apply N.eqb_eq; reflexivity|apply bytes_eqb_eq; reflexivity].
  - cbn [negb bind]. rewrite andb_true_r. destruct (byte_eqb _ "o" || byte_eqb _ "g") eqn:Ec.
    + split; [intros _|reflexivity]. split; [discriminate|]. right. split; [reflexivity|].
      destruct (g_type G g) as [|c l]; [discriminate|]. cbn [hd hd_error] in *. exists c. split; [reflexivity|].
      apply orb_true_iff in Ec as [Ec|Ec]; apply char_is in Ec; auto.
    + destruct (g_string G g) as [s n]. split.
      * intros H. injection H as H. apply andb_true_iff in H as [H1 H2]. apply N.eqb_eq in H1. apply bytes_eqb_eq in H2.
        split; [discriminate|]. left. exists (sp_string (sp_bytes_of d)). split; [reflexivity|]. now rewrite <- H1, <- H2.
      * intros [_ [(s' & Es & H)|[_ (c & Hc & Hog)]]].
        -- inversion Es. inversion H. subst. f_equal.
           apply andb_true_iff. split; [apply N.eqb_eq; reflexivity|apply bytes_eqb_eq; reflexivity].
        -- exfalso. destruct (g_type G g) as [|y l]; [discriminate|]. cbn [hd hd_error] in *. apply Some_inj in Hc. subst y.
           apply orb_false_iff in Ec as [E1 E2]. destruct Hog as [->| ->]; discriminate.
Qed.

Lemma ok_inj {A} (a b : A) : Ok a = Ok b -> a = b. Proof. congruence. Qed.
Lemma cmp_claim h G t : readable t -> sp_tame t = true -> plain_or_double t -> sp_compared t = true -> cmp_ok h G t.
Proof.
  induction t as [t Hns IH|t Hs IH] using ty_struct_ind; intros Hrd Ht Hnd Hc v d g Hr Hsm Hd.
  2:{ destruct t; cbn [is_struct] in Hs; try tauto; discriminate. }
  pose proof (read_is h t v d Hrd Ht Hr Hsm Hd) as HR.
  destruct t as [| | | | | | | | | | | | |x|x|ts|k w]; cbn [is_struct] in Hns; try tauto.
  - cbn [gl_eq tells]. cbn [read] in HR. apply ok_inj in HR. rewrite <- HR. split.
    + intros H. injection H as H. apply Bool.eqb_prop in H. now rewrite H.
    + intros H. injection H as H. rewrite H. now rewrite Bool.eqb_reflx.
  - cbn [gl_eq tells]. rewrite HR. cbn [bind]. cbn [read] in HR. apply ok_inj in HR. rewrite <- HR. cbn [gl_int_eq].
    split; [intros H; injection H as H; apply Z.eqb_eq in H; now rewrite H|intros H; injection H as ->; now rewrite Z.eqb_refl].
  - cbn [gl_eq tells]. rewrite HR. cbn [bind]. cbn [read] in HR. apply ok_inj in HR. rewrite <- HR. cbn [gl_int_eq].
    split; [intros H; injection H as H; apply Z.eqb_eq in H; now rewrite H|intros H; injection H as ->; now rewrite Z.eqb_refl].
  - cbn [gl_eq tells]. rewrite HR. cbn [bind]. cbn [read] in HR. apply ok_inj in HR. rewrite <- HR. cbn [gl_int_eq].
    split; [intros H; injection H as H; apply Z.eqb_eq in H; now rewrite H|intros H; injection H as ->; now rewrite Z.eqb_refl].
  - cbn [gl_eq tells]. rewrite HR. cbn [bind]. cbn [read] in HR. apply ok_inj in HR. rewrite <- HR. cbn [gl_int_eq].
    split; [intros H; injection H as H; apply Z.eqb_eq in H; now rewrite H|intros H; injection H as ->; now rewrite Z.eqb_refl].
  - cbn [gl_eq tells]. rewrite HR. cbn [bind]. cbn [read] in HR. apply ok_inj in HR. rewrite <- HR. cbn [gl_int_eq].
    split; [intros H; injection H as H; apply Z.eqb_eq in H; now rewrite H|intros H; injection H as ->; now rewrite Z.eqb_refl].
  - cbn [gl_eq tells]. rewrite HR. cbn [bind]. cbn [read] in HR. apply ok_inj in HR. rewrite <- HR. cbn [gl_int_eq].
    split; [intros H; injection H as H; apply Z.eqb_eq in H; now rewrite H|intros H; injection H as ->; now rewrite Z.eqb_refl].
  - cbn [gl_eq tells]. rewrite HR. cbn [bind]. cbn [read] in HR. apply ok_inj in HR. rewrite <- HR. cbn [gl_int_eq].
    split; [intros H; injection H as H; apply Z.eqb_eq in H; now rewrite H|intros H; injection H as ->; now rewrite Z.eqb_refl].
  - (* double *)
    cbn [gl_eq]. cbn [tells]. cbn [read] in HR. apply ok_inj in HR. rewrite <- HR. set (b := of_ne h (s_data v)) in *.
    rewrite !nan_spec, f64_eq_spec. split.
    + intros H. injection H as H. exists b. split; [reflexivity|]. destruct (sp_nan b); auto.
    + intros (b' & Eb & H). injection Eb as <-. f_equal. destruct (sp_nan b) eqn:En; [|destruct H as [H|[H _]]; [exact H|discriminate]].
      destruct H as [H|[_ H]]; [|exact H]. unfold sp_feq in H. rewrite En in H. discriminate.
  - apply cmp_str; auto.
  - apply cmp_str; auto.
  - apply cmp_str; auto.
  - (* variant *)
    cbn [gl_eq tells]. cbn [read] in HR. destruct (variant_split h v) as [[ts da]|]; [|discriminate]. cbn [bind fst snd] in *.
    apply ok_inj in HR. destruct (g_normal G (g_variant G g)); [|split; [discriminate|reflexivity]]. rewrite <- HR. split.
    + intros H _. injection H as H. apply andb_true_iff in H as [H1 H2]. apply bytes_eqb_eq in H1, H2. now rewrite H1, H2.
    + intros H. specialize (H eq_refl). injection H as -> ->. rewrite !bytes_eqb_refl. reflexivity.
  - (* array *)
    specialize (IH x (or_introl eq_refl)). pose proof (readable_part (TA x) x (or_introl eq_refl) Hrd) as Hrx.
    destruct Hnd as [Hnd|Hnd]; [discriminate|]. cbn [sp_no_double] in Hnd.
    cbn [sp_tame] in Ht. apply andb_true_iff in Ht as [Hmu Ht]. apply negb_true_iff in Hmu.
    cbn [sp_compared] in Hc. destruct (sp_number x) eqn:Ex.
    + cbn [gl_eq tells]. rewrite <- number_same, Ex. cbn [read] in HR.
      destruct (array_refs h x v) as [rs|]; [|discriminate]. cbn [bind] in *.
      destruct (mapM (read h x) rs) as [vs|]; [|discriminate]. cbn [bind] in *. apply ok_inj in HR. rewrite <- HR.
      destruct (g_fixed G g) as [zs|].
      * split.
        -- intros H. injection H as H. apply ints_eq in H. subst vs. exists zs. split; reflexivity.
        -- intros (zs' & E & H). injection E as <-. injection H as H. subst vs. f_equal. now apply ints_eq.
      * split; [discriminate|]. intros (zs & E & _). discriminate.
    + cbn [orb] in Hc. apply andb_true_iff in Hc as [Hfx Hc]. apply negb_true_iff in Hfx. unfold sp_fixed in Hfx.
      rewrite sp_size_of in Hfx. destruct (size_of x) as [n|] eqn:En; [discriminate|]. clear Hfx.
      assert (HI : cmp_ok h G x) by (apply IH; auto; right; assumption).
      assert (Hb : s_data v = sp_bytes_of d) by (rewrite Hd; apply norm_var; [reflexivity|intros y Hy; injection Hy as <-; exact En]).
      assert (Hl : slen v < 2 ^ 32) by (destruct Hsm as [Hf|Hf]; [discriminate|exact Hf]).
      assert (Ha : aligned (align_of x) v) by apply Hr.
      rewrite gl_eq_array by (now rewrite <- number_same).
      rewrite nfwa_items_ok by (auto; unfold usize_lim; lia). rewrite nfwa_len_ok by (unfold usize_lim; lia).
      destruct (elems_small h x v (indices 0 (N.to_nat (arr_n (s_data v)))) (proj1 Hrx) Ha En Hl Hmu) as (rs & -> & HF).
      cbn [bind]. pose proof (Forall2_length _ _ _ HF) as HL. unfold indices at 1 in HL. rewrite map_length, seq_length in HL.
      replace (arr_n (s_data v) =? N.of_nat (length rs)) with true by lia. cbn [bind assert_that].
      rewrite (check_ok h x v Hrx Ht Hnd Ha Hl (N.to_nat (arr_n (s_data v))) 0 rs) by (lia || assumption). cbn [bind].
      cbn [tells]. rewrite Ex, <- Hb, sp_align_of, sp_array_children_map.
      replace (len (map (arr_cut (align_of x) (s_data v)) (indices 0 (N.to_nat (arr_n (s_data v)))))) with (arr_n (s_data v))
        by (unfold len, indices; rewrite !map_length, seq_length; lia).
      destruct (g_n_children G g =? arr_n (s_data v)) eqn:Eg.
      * apply N.eqb_eq in Eg. rewrite (go_ok h G x v g HI (N.to_nat (arr_n (s_data v))) 0 rs) by (lia || assumption).
        split; [intros H; split; [exact Eg|exact H]|intros [_ H]; exact H].
      * apply N.eqb_neq in Eg. split; [discriminate|]. intros [H _]. contradiction.
  - (* maybe *)
    specialize (IH x (or_intror eq_refl)). pose proof (readable_part (TM x) x (or_intror eq_refl) Hrd) as Hrx.
    destruct Hnd as [Hnd|Hnd]; [discriminate|]. cbn [sp_no_double] in Hnd.
    cbn [sp_tame] in Ht. apply andb_true_iff in Ht as [Hmu Ht]. apply negb_true_iff in Hmu. cbn [sp_compared] in Hc.
    assert (HI : cmp_ok h G x) by (apply IH; auto; right; assumption). clear IH HR.
    assert (Hb : s_data v = sp_bytes_of d) by (rewrite Hd; apply norm_var; (reflexivity || discriminate)).
    assert (Hl : slen v < 2 ^ 32) by (destruct Hsm as [Hf|Hf]; [discriminate|exact Hf]).
    assert (Ha : aligned (align_of x) v) by apply Hr.
    cbn [gl_eq tells]. rewrite <- Hb. unfold sp_inside. rewrite sp_size_of. destruct (size_of x) as [n|] eqn:En.
    + rewrite (to_option_fixed h x v n) by (auto; apply Hrx). cbn [bind]. change (len (s_data v)) with (slen v).
      destruct (slen v =? n) eqn:El; destruct (g_maybe G g) as [c|]; try (split; [discriminate|tauto]); try tauto.
      apply N.eqb_eq in El. apply HI.
      * split; [exact Ha|]. unfold size_good. now rewrite En.
      * left. unfold is_fixed. now rewrite En.
      * unfold norm. rewrite seen_good; [reflexivity|]. unfold size_good. rewrite En. exact El.
    + rewrite to_option_var by (auto; apply Hrx). unfold slen at 1. destruct (s_data v) as [|b l] eqn:Ev.
      * cbn [blen length N.of_nat N.eqb bind]. destruct (g_maybe G g); [split; [discriminate|tauto]|tauto].
      * replace (blen (b :: l) =? 0) with false by (rewrite blen_cons; lia). rewrite <- Ev.
        assert (Hne : s_data v <> []) by (rewrite Ev; discriminate).
        assert (Hlen : blen (removelast (s_data v)) = slen v - 1).
        { rewrite removelast_take by exact Hne. rewrite blen_take. unfold slen. lia. }
        pose proof (tame_good x (removelast (s_data v)) Hmu En) as Hg.
        destruct (size_good_dec x (slen v - 1)) as [Hg'|Hg']; [|now rewrite Hlen in Hg]. cbn [bind].
        destruct (g_maybe G g) as [c|]; [|split; [discriminate|tauto]].
        assert (Hp : s_data (part v 0 (slen v - 1)) = removelast (s_data v)).
        { rewrite part_sub, sub_take_drop, removelast_take by exact Hne. rewrite N.sub_0_r. reflexivity. }
        apply HI.
        -- split; [apply aligned_part; auto with al|]. rewrite slen_part by lia. now rewrite N.sub_0_r.
        -- right. rewrite slen_part by lia. lia.
        -- rewrite Hp. unfold norm. now rewrite seen_good.
Qed.

(** ** [test_cmp] *)
Definition glib_part (h : host) (G : glib) (t : ty) (s : slice) (v : slice) (out : list byte) : res unit :=
  let g := g_new G (display t) (s_data s) in
  let* e := gl_eq h G t v g in
  let* _ := assert_that e in
  if g_normal G g then
    if (256 <=? slen s) && (slen s <? 512) && bytes_eqb (display t) ["a"; "a"; "y"]%byte
    then assert_that (g_normal G (g_new G (display t) out))
    else assert_that (bytes_eqb out (s_data s))
  else Ok tt.
Lemma test_cmp_split h G va a1 a2 t s : gl_impl t = true ->
  test_cmp h G va a1 a2 t s =
  (let* _ := fuzz_cmp h false va a1 a2 t s in
   let* v := cast h t s in
   let* r := view_rval h t v in
   let* out := serialize_to_vec h t r in
   glib_part h G t s v out).
Proof.
  intros Hi. unfold test_cmp, fuzz_cmp, glib_part. rewrite Hi. cbn [negb].
  destruct (cast h t s) as [v|] eqn:E1; [|reflexivity]. cbn [bind].
  destruct (view_rval h t v) as [r|] eqn:E2; [|reflexivity]. cbn [bind].
  destruct (serialize_to_vec h t r) as [out|] eqn:E3; [|reflexivity]. cbn [bind].
  destruct (copy_to_align _ _ _ _ _) as [c|]; [|reflexivity]. cbn [bind].
  destruct (cow_as_ref _ _ c) as [rs|]; [|reflexivity]. cbn [bind].
  match goal with |- (let* _ := ?m in _) = _ => destruct m as [[]|] end; [|reflexivity].
  reflexivity.
Qed.
Lemma excused_iff t s : (256 <=? slen s) && (slen s <? 512) && bytes_eqb (display t) ["a"; "a"; "y"]%byte = true <->
  excused t (s_data s).
Proof.
  unfold excused. change (len (s_data s)) with (slen s). rewrite !andb_true_iff, N.leb_le, N.ltb_lt. split.
  - intros [[H1 H2] H3]. apply bytes_eqb_eq in H3. split; [|lia]. apply display_inj. exact H3.
  - intros [-> [H1 H2]]. repeat split; auto.
Qed.
Lemma assert_iff b : assert_that b = Ok tt <-> b = true.
Proof. destruct b; cbn; split; congruence. Qed.
Lemma part_iff h G t s v : usable t -> sp_tame t = true -> plain_or_double t -> sp_compared t = true ->
  aligned (sp_align t) s -> len (s_data s) < 2 ^ 32 -> cast h t s = Ok v ->
  (glib_part h G t s v (sp_again (h_big_endian h) t (s_data s)) = Ok tt <-> sp_tested G (h_big_endian h) t (s_data s)).
Proof.
  intros Hu Ht Hp Hc Ha Hl Ec. apply usable_readable in Hu. rewrite sp_align_of in Ha.
  destruct (cast_ok h t s (proj1 Hu) Ha) as (v' & Ec' & Hr & Hd & _). rewrite Ec in Ec'. injection Ec' as <-.
  assert (Hsm : small t v).
  { unfold small, is_fixed. destruct (size_of t) as [n|] eqn:En; [auto|right].
    unfold slen in *. rewrite Hd. pose proof (seen_len t (s_data s) En). change (len (s_data s)) with (blen (s_data s)) in Hl. lia. }
  pose proof (cmp_claim h G t Hu Ht Hp Hc v (Some (s_data s)) (g_new G (display t) (s_data s)) Hr Hsm Hd) as HC.
  unfold glib_part, sp_tested. rewrite show_display. set (g := g_new G (display t) (s_data s)) in *.
  pose proof (excused_iff t s) as HE. cbv zeta. split.
  - intros H. destruct (gl_eq h G t v g) as [[|]|]; cbn [bind assert_that] in H; try discriminate.
    split; [exact Hc|]. split; [now apply HC|]. intros Hn. rewrite Hn in H. destruct (_ && _).
    + right. split; [now apply HE|]. now apply assert_iff in H.
    + left. split; [intros HX; apply HE in HX; discriminate|]. apply assert_iff in H. now apply bytes_eqb_eq.
  - intros (_ & H1 & H2). apply HC in H1. rewrite H1. cbn [bind assert_that]. destruct (g_normal G g); [|reflexivity].
    destruct (H2 eq_refl) as [[HX HY]|[HX HY]].
    + destruct (_ && _); [destruct HX; now apply HE|]. rewrite HY, bytes_eqb_refl. reflexivity.
    + apply HE in HX. rewrite HX, HY. reflexivity.
Qed.
Lemma test_cmp_iff h G va a1 a2 t s : usable t -> aligned (sp_align t) s -> len (s_data s) < 2 ^ 32 ->
  sp_tame t = true -> sp_unpadded t = true -> plain_or_double t ->
  len (sp_again (h_big_endian h) t (s_data s)) < 2 ^ 63 -> fuzz_cmp h false va a1 a2 t s = Ok tt ->
  (test_cmp h G va a1 a2 t s = Ok tt <-> sp_tested G (h_big_endian h) t (s_data s)).
Proof.
  intros Hu Ha Hl Ht HU Hp Hd Hf. destruct (sp_compared t) eqn:Hc.
  2:{ unfold test_cmp. rewrite <- compared_impl, Hc. split; [discriminate|]. intros [H _]. congruence. }
  rewrite test_cmp_split by (now rewrite <- compared_impl). rewrite Hf. cbn [bind].
  destruct (fuzz_write h t s Hu Ha Hl Ht HU Hd) as (v & r & Ec & Er & Es & _). rewrite Ec. cbn [bind]. rewrite Er. cbn [bind].
  rewrite Es. cbn [bind]. apply part_iff; assumption.
Qed.

(** ** [fuzz_struct] *)
Lemma fields_iff h G g : forall ts vs cs i, length vs = length ts ->
  Forall (fun t => cmp_ok h G t) ts ->
  Forall2 (fun p r => ref_ok (fst p) r /\ small (fst p) r /\ s_data r = norm (fst p) (snd p)) (combine ts cs) vs ->
  (gl_eq_fields h G i ts vs g = Ok true <->
   (ts = [] \/ i + N.of_nat (length ts) <= g_n_children G g) /\
   forall j t c, nth_error ts j = Some t -> nth_error cs j = Some c -> tells G (h_big_endian h) t c (g_child G g (i + N.of_nat j))).
Proof.
  induction ts as [|t ts IH]; intros vs cs i Hv Hts HF.
  - split; [intros _; split; [left; reflexivity|intros [|j] t c; discriminate]|destruct vs; reflexivity].
  - destruct vs as [|v vs]; [discriminate|]. destruct cs as [|c cs]; [inversion HF|].
    inversion Hts as [|? ? Ht Hts']. subst. cbn [combine] in HF. inversion HF as [|? ? ? ? (F1 & F2 & F3) HF' E1 E2]. subst. cbn [fst snd] in *.
    cbn [length] in Hv. injection Hv as Hv. specialize (IH vs cs (i + 1) Hv Hts' HF').
    specialize (Ht v c (g_child G g i) F1 F2 F3). cbn [gl_eq_fields]. unfold gl_get_child.
    destruct (i <? g_n_children G g) eqn:Ei; cbn [bind assert_that].
    2:{ split; [discriminate|]. intros [[H|H] _]; [discriminate|]. cbn [length] in H. lia. }
    split.
    + intros H. destruct (gl_eq h G t v (g_child G g i)) as [[|]|] eqn:Ee; cbn [bind] in H; try discriminate.
      destruct (proj1 IH H) as [H1 H2]. split.
      * right. cbn [length]. destruct H1 as [->|H1]; [cbn [length]; lia|lia].
      * intros [|j] t' c' Et Ec; cbn [nth_error] in Et, Ec.
        -- apply Some_inj in Et, Ec. subst. rewrite N.add_0_r. now apply Ht.
        -- replace (i + N.of_nat (S j)) with (i + 1 + N.of_nat j) by lia. eauto.
    + intros [H1 H2]. assert (H0 : tells G (h_big_endian h) t c (g_child G g i)).
      { specialize (H2 0%nat t c eq_refl eq_refl). now rewrite N.add_0_r in H2. }
      apply Ht in H0. rewrite H0. cbn [bind]. apply (proj2 IH). split.
      * destruct ts as [|u ts]; [left; reflexivity|right]. destruct H1 as [H1|H1]; [discriminate|]. cbn [length] in *. lia.
      * intros j t' c' Et Ec. replace (i + 1 + N.of_nat j) with (i + N.of_nat (S j)) by lia. eauto.
Qed.
Definition struct_part (h : host) (G : glib) (s : slice) (vs : list slice) : res unit :=
  let g := g_new G (display fuzz_struct_ty) (s_data s) in
  if g_normal G g then
    let* e := gl_eq_fields h G 0 [TS; TU; TT; TU; TT; TY; TS; TI; TS] vs g in
    assert_that e
  else Ok tt.
Lemma test_struct_split h G va a1 a2 s v vs r out : cast h fuzz_struct_ty s = Ok v -> to_tuple h fuzz_struct_ty v = Ok vs ->
  view_rval h fuzz_struct_ty v = Ok r -> serialize_to_vec h fuzz_struct_ty r = Ok out -> fuzz_struct h va a1 a2 s = Ok tt ->
  test_struct h G va a1 a2 s =
  (let* _ := assert_that (g_normal G (g_new G (display fuzz_struct_ty) out)) in struct_part h G s vs).
Proof.
  unfold test_struct, fuzz_struct, struct_part. remember fuzz_struct_ty as t eqn:Et. cbv zeta. intros -> Ev Er Es Hf.
  cbn [bind] in *. rewrite Ev, Er in *. cbn [bind] in *. rewrite Es in *. cbn [bind] in *.
  destruct (copy_to_align _ _ _ _ _) as [c|]; [|discriminate]. cbn [bind] in *.
  destruct (g_normal G (g_new G (display t) out)); cbn [bind assert_that]; [|reflexivity].
  destruct (cow_as_ref _ _ c) as [rs|]; [|discriminate]. cbn [bind] in *.
  destruct (cast h t rs) as [q|]; [|discriminate]. cbn [bind] in *.
  destruct (gv_eq h t q v) as [[|]|]; cbn [bind assert_that] in *; try discriminate. reflexivity.
Qed.
Lemma test_struct_iff h G va a1 a2 s : aligned 8 s -> len (s_data s) < 2 ^ 32 ->
  len (sp_again (h_big_endian h) fuzz_struct_ty (s_data s)) < 2 ^ 63 ->
  a1 + 8 < 2 ^ 64 -> a2 + 8 < 2 ^ 64 ->
  (test_struct h G va a1 a2 s = Ok tt <-> sp_tested_struct G (h_big_endian h) (s_data s)).
Proof.
  intros Ha Hl Hd H1 H2. pose proof (fuzz_struct_ok h va a1 a2 s Ha Hl Hd H1 H2) as Hf.
  assert (Hu : usable fuzz_struct_ty) by (split; reflexivity).
  assert (Ha' : aligned (sp_align fuzz_struct_ty) s) by exact Ha.
  destruct (fuzz_write h fuzz_struct_ty s Hu Ha' Hl eq_refl eq_refl Hd) as (v & r & Ec & Er & Es & _).
  pose proof (proj1 (usable_readable _) Hu) as Hrd. rewrite sp_align_of in Ha'.
  destruct (cast_ok h fuzz_struct_ty s (proj1 Hrd) Ha') as (v' & Ec' & Hr & Hdv & _). rewrite Ec in Ec'. injection Ec' as <-.
  assert (Hsv : s_data v = s_data s).
  { rewrite Hdv. change (seen_bytes fuzz_struct_ty (s_data s)) with (norm fuzz_struct_ty (Some (s_data s))).
    apply norm_var; [reflexivity|discriminate]. }
  assert (Hlv : slen v < 2 ^ 32) by (unfold slen; rewrite Hsv; exact Hl).
  destruct (to_tuple_exact h fuzz_struct_ty v) as (vs & Ev & HF); try (reflexivity || exact I || assumption).
  rewrite (test_struct_split h G va a1 a2 s v vs r _ Ec Ev Er Es Hf).
  change (sp_encode (h_big_endian h) fuzz_struct_ty (sp_decode (h_big_endian h) fuzz_struct_ty (Some (s_data s))))
    with (sp_again (h_big_endian h) fuzz_struct_ty (s_data s)).
  unfold sp_tested_struct, struct_part. cbv zeta. rewrite show_display.
  set (g := g_new G (display fuzz_struct_ty) (s_data s)).
  change (children_of fuzz_struct_ty) with [TS; TU; TT; TU; TT; TY; TS; TI; TS] in HF.
  assert (Ecs : struct_cuts fuzz_struct_ty (s_data v) =
    sp_struct_children (map (fun t => (sp_align t, sp_size t)) [TS; TU; TT; TU; TT; TY; TS; TI; TS]) (s_data s)).
  { rewrite Hsv. reflexivity. }
  rewrite Ecs in HF. set (cs := sp_struct_children _ _) in *.
  assert (Hcs : length cs = 9%nat) by (unfold cs; rewrite sp_struct_children_length; reflexivity).
  assert (Hvs : length vs = 9%nat).
  { apply Forall2_length in HF. rewrite combine_length, Hcs in HF. rewrite <- HF. reflexivity. }
  assert (HF' : Forall2 (fun p r => ref_ok (fst p) r /\ small (fst p) r /\ s_data r = norm (fst p) (snd p))
                 (combine [TS; TU; TT; TU; TT; TY; TS; TI; TS] cs) vs).
  { clear - HF Hlv. induction HF as [|p r l l' (V1 & V2 & V3) _ IH]; [constructor|]. constructor; [|exact IH].
    split; [exact V1|]. split; [|exact V3]. unfold small. destruct (is_fixed (fst p)) eqn:Ef; [left; reflexivity|right].
    pose proof (placed_len h (fst p) v r V2 V1 Ef). lia. }
  assert (HT : Forall (fun t => cmp_ok h G t) [TS; TU; TT; TU; TT; TY; TS; TI; TS]).
  { repeat (constructor; [apply cmp_claim; try reflexivity; [split; reflexivity|right; reflexivity]|]). constructor. }
  pose proof (fields_iff h G g [TS; TU; TT; TU; TT; TY; TS; TI; TS] vs cs 0 Hvs HT HF') as HI.
  destruct (g_normal G (g_new G (display fuzz_struct_ty) _)); cbn [bind assert_that]; [|split; [discriminate|intros [? _]; discriminate]].
  destruct (g_normal G g).
  - split.
    + intros H. split; [reflexivity|]. intros _.
      destruct (gl_eq_fields _ _ _ _ _ _) as [[|]|]; cbn [bind assert_that] in H; try discriminate.
      destruct (proj1 HI eq_refl) as [[HA|HA] HB]; [discriminate|]. split; [exact HA|exact HB].
    + intros [_ H]. destruct (H eq_refl) as [HA HB]. rewrite (proj2 HI); [reflexivity|]. split; [right; exact HA|exact HB].
  - split; [intros _; split; [reflexivity|discriminate]|reflexivity].
Qed.
