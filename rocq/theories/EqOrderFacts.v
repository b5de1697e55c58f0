(** How many steps comparing takes when every child is in range: proofs. *)
From Verif Require Import Base Types Layout AlignedBytes Strs Spec Deser Histories Cost CostSpec SizeSpec LongSpec
  BaseFacts TypesFacts LayoutFacts AlignedFacts DeserFacts ArrayFacts StructFacts ReadFacts AccessFacts EqFacts EncFacts RoundFacts LongFacts SizeFacts CostFacts OrderFacts.
From Coq Require Import Lia ZifyBool ZifyNat ZifyN.
Ltac Zify.zify_post_hook ::= idtac.
Local Open Scope N_scope.

(** ** The children of orderly values *)
Definition cut_or (al : N) (d : list byte) (i : N) : list byte := match arr_cut al d i with Some b => b | None => [] end.
Lemma cuts_orderly x s : forallb (sp_orderly x) (sp_array_children (align_of x) (s_data s)) = true ->
  (forall i, i < arr_n (s_data s) -> arr_cut (align_of x) (s_data s) i = Some (cut_or (align_of x) (s_data s) i) /\
     sp_orderly x (Some (cut_or (align_of x) (s_data s) i)) = true) /\
  sum_len (map (cut_or (align_of x) (s_data s)) (indices 0 (N.to_nat (arr_n (s_data s))))) + arr_n (s_data s) <= slen s.
Proof.
  intros Ho. rewrite sp_array_children_map in Ho. rewrite forallb_forall in Ho.
  assert (H : forall i, i < arr_n (s_data s) -> arr_cut (align_of x) (s_data s) i = Some (cut_or (align_of x) (s_data s) i) /\
     sp_orderly x (Some (cut_or (align_of x) (s_data s) i)) = true).
  { intros i Hi. assert (Hin : In (arr_cut (align_of x) (s_data s) i) (map (arr_cut (align_of x) (s_data s)) (indices 0 (N.to_nat (arr_n (s_data s)))))).
    { apply in_map, in_indices. lia. }
    apply Ho in Hin. unfold cut_or. destruct (arr_cut _ _ i); [auto|now rewrite orderly_none in Hin]. }
  split; [exact H|].
  assert (HM : sp_array_children (align_of x) (s_data s) = map Some (map (cut_or (align_of x) (s_data s)) (indices 0 (N.to_nat (arr_n (s_data s)))))).
  { rewrite sp_array_children_map, map_map. apply map_ext_in. intros i Hi. apply in_indices in Hi. apply H. lia. }
  apply children_sum in HM; [|auto with al]. rewrite blen_map in HM. assert (HB : blen (indices 0 (N.to_nat (arr_n (s_data s)))) = arr_n (s_data s)) by (unfold blen, indices; rewrite map_length, seq_length; lia). rewrite HB in HM. exact HM.
Qed.
Lemma elem_orderly h x s i r : macro_ok x = true -> aligned (align_of x) s -> size_of x = None -> slen s < 2 ^ 63 ->
  forallb (sp_orderly x) (sp_array_children (align_of x) (s_data s)) = true -> i < arr_n (s_data s) -> elem_at h x s i = Ok r ->
  ref_ok x r /\ s_data r = cut_or (align_of x) (s_data s) i /\ sp_orderly x (Some (s_data r)) = true.
Proof.
  intros Hm Ha Hn Hl Ho Hi E. destruct (cuts_orderly x s Ho) as [Hc _].
  assert (Hprev : arr_prev (s_data s) i < 2 ^ 63).
  { unfold arr_prev. destruct (i =? 0) eqn:E0; [lia|]. destruct (Hc (i - 1) ltac:(lia)) as [Ec _].
    unfold arr_cut, cut in Ec. destruct (_ && _) eqn:Eb; [|discriminate Ec]. pose proof (arr_lfo_le (s_data s)). unfold slen in Hl. lia. }
  destruct (elem_at_long h x s i Hm Ha Hn (or_introl Hprev)) as [Hv|[Hv _]]; [|congruence].
  destruct (Hc i Hi) as [Ec Hoc]. rewrite Ec in Hv. unfold elem_view in Hv.
  destruct (size_good_dec x _); [|congruence]. destruct Hv as (q & Eq & Hq & Hd). assert (q = r) by congruence. subst q. rewrite Hd. auto.
Qed.
Lemma option_orderly h x s r : aligned (align_of x) s -> macro_ok x = true -> size_of x = None -> sp_orderly (TM x) (Some (s_data s)) = true ->
  to_option h x s = Ok (Some r) -> ref_ok x r /\ sp_orderly x (Some (s_data r)) = true.
Proof.
  intros Ha Hm Ex Ho E. cbn [sp_orderly] in Ho. rewrite sp_size_of in Ho. change (size_of (TM x)) with (@None N) in Ho. rewrite sp_size_of, Ex in Ho.
  rewrite to_option_var in E by assumption.
  destruct (slen s =? 0) eqn:E0; [discriminate E|]. destruct (size_good_dec x _) as [Hg|]; [|discriminate E]. injection E as <-.
  assert (Hsl : slen (part s 0 (slen s - 1)) = slen s - 1) by (rewrite slen_part; lia). split.
  - split; [|now rewrite Hsl]. rewrite part_0. exact Ha.
  - rewrite part_0. cbn [s_data]. unfold slen, blen in E0. destruct (s_data s) as [|b d] eqn:Ed; [cbn in E0; lia|].
    unfold slen. rewrite Ed. now rewrite <- removelast_take.
Qed.
Lemma child_orderly h t s rs : is_struct t -> readable t -> ref_ok t s -> slen s < 2 ^ 63 -> size_of t = None ->
  sp_orderly t (Some (s_data s)) = true -> to_tuple h t s = Ok rs ->
  Forall (fun p => size_of (fst p) = None -> sp_nest (fst p) <> 0 ->
    ref_ok (fst p) (snd p) /\ sp_orderly (fst p) (Some (s_data (snd p))) = true) (combine (children_of t) rs).
Proof.
  intros Hs Hr Hro Hl En Ho E. destruct (Hr) as [Hm Htl]. rewrite orderly_struct in Ho by assumption. unfold orderly_all in Ho. rewrite forallb_forall in Ho.
  assert (Hfar : ~ struct_far t (s_data s)).
  { intros Hf. apply struct_far_near in Hf. rewrite (struct_inside_near _ _ Hl) in Hf; [discriminate Hf|].
    intros Hin. assert (Hlen : length (struct_cuts t (s_data s)) = length (children_of t)) by (apply struct_cuts_length).
    unfold struct_cuts in Hlen, Ho. rewrite En in Hlen, Ho.
    destruct (In_nth _ _ None Hin) as (i & Hi & Ei). rewrite Hlen in Hi.
    assert (HH := Ho (nth i (children_of t) TY, None)).
    rewrite orderly_none in HH. discriminate HH. rewrite <- Ei. rewrite <- combine_nth by (now symmetry). apply nth_In.
    rewrite combine_length, Hlen. lia. }
  destruct (to_tuple_long h t s Hs Hm Htl Hro Hl) as [(rs' & Er & HF)|[Ec _]]; [tauto| |congruence].
  assert (rs' = rs) by congruence. subst rs'. apply Forall_forall. intros p Hin Ek Hz.
  assert (HC : exists c, In (fst p, c) (combine (children_of t) (struct_cuts t (s_data s))) /\ child_view h s (fst p) c (snd p)).
  { clear -HF Hin Hs. assert (Hlen : length (struct_cuts t (s_data s)) = length (children_of t)) by (apply struct_cuts_length).
    revert rs HF Hin. generalize dependent (struct_cuts t (s_data s)). intros cs. revert cs. induction (children_of t) as [|c0 ts IH]; intros [|c cs] Hlen rs HF Hin; cbn [length] in Hlen; try lia;
      cbn [combine] in *; [destruct Hin|]. inversion HF as [|? r ? rs' Hv HF' E1 E2]; subst. cbn [combine] in Hin. destruct Hin as [<-|Hin].
    - exists c. split; [now left|exact Hv].
    - destruct (IH cs ltac:(lia) rs' HF' Hin) as (c' & H1 & H2). exists c'. split; [now right|exact H2]. }
  destruct HC as (c & Hc & (Hrc & _ & Hd)). specialize (Ho _ Hc). cbn [fst snd] in Ho. split; [exact Hrc|].
  destruct c as [b|]; [|now rewrite orderly_none in Ho]. unfold seen_bytes in Hd. destruct (size_good_dec (fst p) (blen b)) as [Hg|Hg]; [now rewrite Hd|].
  exfalso. apply Hz. unfold size_good in Hg. rewrite Ek in Hg. destruct (fst p); try tauto. cbn [sp_nest]. rewrite sp_size_of. destruct (size_of t0); [reflexivity|tauto].
Qed.

(** ** Comparing *)
Definition eq_linear (t : ty) (n : N) : N := 185 * type_len t * (n + 1).
Lemma eq_flat t n : sp_nest t = 0 -> eq_total t n = eq_linear t n.
Proof. unfold eq_total, eq_linear. intros ->. now rewrite N.pow_1_r. Qed.
Lemma w_eq_go_sum h x f a b : macro_ok x = true -> aligned (align_of x) a -> aligned (align_of x) b -> size_of x = None ->
  slen a < 2 ^ 63 -> slen b < 2 ^ 63 ->
  forallb (sp_orderly x) (sp_array_children (align_of x) (s_data a)) = true ->
  forallb (sp_orderly x) (sp_array_children (align_of x) (s_data b)) = true ->
  (forall r q, ref_ok x r -> ref_ok x q -> slen r < 2 ^ 63 -> slen q < 2 ^ 63 -> sp_orderly x (Some (s_data r)) = true ->
     sp_orderly x (Some (s_data q)) = true -> takes (f r q) (eq_linear x (slen r + slen q) - 112)) ->
  arr_n (s_data a) = arr_n (s_data b) ->
  forall k i fuel, i + N.of_nat k = arr_n (s_data a) ->
  takes (nfwa_eq_go_t h x f fuel (iter_at a i) (iter_at b i))
    (28 + 185 * type_len x * (sum_len (map (cut_or (align_of x) (s_data a)) (indices i k)) + sum_len (map (cut_or (align_of x) (s_data b)) (indices i k)) + N.of_nat k)).
Proof.
  intros Hm Ha Hb Hx Hla Hlb Hoa Hob Hf Hn. pose proof (type_len_pos x) as Hp. induction k as [|k IH]; intros i fuel Hi; (destruct fuel as [|fuel]; cbn [nfwa_eq_go_t]; [eapply w_le; [apply w_costs|lia]|]).
  - eapply w_le; [eapply w_bind_ok; [apply w_next|]; intros p Ep; rewrite er_next in Ep; replace i with (arr_n (s_data a)) in Ep by lia;
      rewrite nfwa_next_end in Ep; injection Ep as <-; cbn [fst]; apply w_now|lia].
  - rewrite indices_S. cbn [map sum_len fold_right]. fold (sum_len (map (cut_or (align_of x) (s_data a)) (indices (i + 1) k))).
    fold (sum_len (map (cut_or (align_of x) (s_data b)) (indices (i + 1) k))).
    specialize (IH (i + 1)). set (SA := sum_len (map (cut_or (align_of x) (s_data a)) (indices (i + 1) k))) in *.
    set (SB := sum_len (map (cut_or (align_of x) (s_data b)) (indices (i + 1) k))) in *.
    eapply w_le; [eapply w_bind_ok; [apply w_next|]; intros p Ep; rewrite er_next in Ep|].
    + rewrite nfwa_next_ok in Ep by (auto; unfold usize_lim; lia). destruct (elem_at h x a i) as [r|] eqn:Er; [|discriminate Ep]. cbn [bind] in Ep. injection Ep as <-. cbn [fst snd].
      destruct (elem_orderly h x a i r Hm Ha Hx Hla Hoa ltac:(lia) Er) as (Hr1 & Hr2 & Hr3).
      eapply w_bind_ok; [apply w_next|]. intros p Ep. rewrite er_next in Ep.
      rewrite nfwa_next_ok in Ep by (auto; unfold usize_lim; lia). destruct (elem_at h x b i) as [q|] eqn:Eq; [|discriminate Ep]. cbn [bind] in Ep. injection Ep as <-. cbn [fst snd].
      destruct (elem_orderly h x b i q Hm Hb Hx Hlb Hob ltac:(lia) Eq) as (Hq1 & Hq2 & Hq3).
      instantiate (1 := (eq_linear x (blen (cut_or (align_of x) (s_data a) i) + blen (cut_or (align_of x) (s_data b) i)) - 112) +
        (28 + 185 * type_len x * (SA + SB + N.of_nat k))).
      assert (HS : forall s, forallb (sp_orderly x) (sp_array_children (align_of x) (s_data s)) = true -> slen s < 2 ^ 63 -> i < arr_n (s_data s) -> blen (cut_or (align_of x) (s_data s) i) < 2 ^ 63).
      { intros s Hs Hl Hk. destruct (cuts_orderly x s Hs) as [Hc _]. destruct (Hc i Hk) as [Hc1 _]. unfold arr_cut, cut in Hc1.
        destruct (_ && _) eqn:Eb; [|discriminate Hc1]. injection Hc1 as Hc1. rewrite <- Hc1. unfold sub. unfold blen. rewrite firstn_length, skipn_length. unfold blen in *. pose proof (arr_lfo_le (s_data s)). unfold slen, blen in *. lia. }
      apply w_bind.
      * specialize (Hf r q Hr1 Hq1). unfold slen in Hf. rewrite Hr2, Hq2 in Hf. rewrite Hr2 in Hr3. rewrite Hq2 in Hq3. apply Hf; auto; apply HS; auto; lia.
      * intros [|]; [apply IH; lia|eapply w_le; [apply w_now|lia]].
    + unfold eq_linear. nia.
Qed.
Lemma w_eq_orderly h t : readable t -> forall a b, ref_ok t a -> ref_ok t b -> slen a < 2 ^ 63 -> slen b < 2 ^ 63 ->
  sp_orderly t (Some (s_data a)) = true -> sp_orderly t (Some (s_data b)) = true ->
  takes (gv_eq_t h t a b) (eq_linear t (slen a + slen b) - 112).
Proof.
  induction t as [t Hns IH|t Hs IH] using ty_struct_ind; intros Hr a b Hra Hrb Hla Hlb Hoa Hob; pose proof (type_len_pos t) as Hp;
    (destruct (size_of t) as [n|] eqn:En; [eapply w_le; [now apply (w_eq_fixed h t n)|]; unfold eq_linear; nia|]);
    (destruct (N.eq_dec (sp_nest t) 0) as [Hz|Hz]; [rewrite <- eq_flat by assumption; apply w_eq|]).
  - destruct t as [| | | | | | | | | | | | |x|x|ts|k v]; try discriminate En; cbn [is_struct] in Hns; try tauto;
      try (exfalso; apply Hz; reflexivity); cbn [gv_eq_t]; destruct Hra as [Ha _]; destruct Hrb as [Hb _]; pose proof (readable_part _ x ltac:(eauto) Hr) as Hrx; destruct (Hrx) as [Hm Htl];
      cbn [sp_nest] in Hz; pose proof (type_len_pos x) as Hpx.
    + specialize (IH x (or_introl eq_refl) Hrx). rewrite sp_size_of in Hz. unfold eq_linear. rewrite (type_len_parts (TA x) x) by auto.
      destruct (size_of x) as [k|] eqn:Ex; [tauto|].
      cbn [sp_orderly] in Hoa, Hob. rewrite sp_size_of, En, sp_size_of, Ex, sp_align_of in Hoa, Hob.
      change (align_of (TA x)) with (align_of x) in Ha, Hb.
      destruct (cuts_orderly x a Hoa) as [_ HSa]. destruct (cuts_orderly x b Hob) as [_ HSb].
      unfold nfwa_eq_t. eapply w_le; [eapply w_bind_ok; [apply w_len|]; intros la Ea; rewrite er_len in Ea; eapply w_bind_ok; [apply w_len|]; intros lb Eb; rewrite er_len in Eb;
        apply w_bind_ok; [apply w_costs|]; intros c Ec; cbn [costs snd] in Ec; injection Ec as <-; instantiate (1 := 38 + (28 + 185 * type_len x * (slen a + slen b)))|].
      * rewrite nfwa_len_ok in Ea, Eb by (unfold usize_lim; lia). injection Ea as <-. injection Eb as <-.
        destruct (_ =? _) eqn:Ec; [|eapply w_le; [apply w_now|lia]]. apply N.eqb_eq in Ec.
        eapply w_le; [eapply w_bind_ok; [apply w_into_iter|]; intros ia Ea; rewrite er_into_iter in Ea; rewrite nfwa_into_iter_ok in Ea by (auto; unfold usize_lim; lia); injection Ea as <-;
          eapply w_bind_ok; [apply w_into_iter|]; intros ib Eb; rewrite er_into_iter in Eb; rewrite nfwa_into_iter_ok in Eb by (auto; unfold usize_lim; lia); injection Eb as <-;
          apply (w_eq_go_sum h x (gv_eq_t h x) a b Hm Ha Hb Ex Hla Hlb Hoa Hob (fun r q H1 H2 H3 H4 H5 H6 => IH r q H1 H2 H3 H4 H5 H6) Ec (N.to_nat (arr_n (s_data a)))); lia|].
        rewrite <- Ec in HSb. rewrite N2Nat.id. nia.
      * nia.
    + specialize (IH x (or_intror eq_refl) Hrx). unfold eq_linear. rewrite (type_len_parts (TM x) x) by auto.
      change (align_of (TM x)) with (align_of x) in Ha, Hb.
      eapply w_le; [apply w_bind_ok; [apply w_option|]; intros oa Ea; rewrite er_option in Ea; apply w_bind_ok; [apply w_option|]; intros ob Eb; rewrite er_option in Eb;
        instantiate (1 := eq_linear x (slen a + slen b) - 112)|unfold eq_linear; nia].
      destruct oa as [ra|]; (destruct ob as [rb|]; try (eapply w_le; [apply w_now|lia])).
      destruct (size_of x) as [k|] eqn:Ex; [eapply w_le; [now apply (w_eq_fixed h x k)|]; unfold eq_linear; nia|].
      pose proof (option_len _ _ _ _ Ea) as Hlea. pose proof (option_len _ _ _ _ Eb) as Hleb.
      apply option_orderly in Ea as [Ea1 Ea2]; auto. apply option_orderly in Eb as [Eb1 Eb2]; auto.
      eapply w_le; [apply IH; auto; lia|]. unfold eq_linear. nia.
  - pose proof (children_len t Hs) as HL. unfold eq_linear. set (m := slen a + slen b).
    eapply w_le; [eapply (w_eq_struct h t a b _ _ (fun c => 185 * (m + 1) * type_len c - 112) Hs (w_tuple h t a) (w_tuple h t b))|].
    + intros ra rb Ea Eb. pose proof (child_orderly h t a ra Hs Hr Hra Hla En Hoa Ea) as Oa. pose proof (child_orderly h t b rb Hs Hr Hrb Hlb En Hob Eb) as Ob.
      unfold to_tuple in Ea, Eb. rewrite En in Ea, Eb. apply nonfixed_len in Ea. apply nonfixed_len in Eb. rewrite Forall_forall in *. intros [c [x y]] Hin.
      cbn [fst snd]. pose proof (in_combine_fst _ _ _ Hin) as Hc. cbn [fst] in Hc.
      assert (Hx : In (c, x) (combine (children_of t) ra) /\ In (c, y) (combine (children_of t) rb)).
      { clear -Hin. revert ra rb Hin. induction (children_of t) as [|c0 ts IH]; intros ra rb Hin; [destruct Hin|]. destruct ra as [|r ra]; [destruct Hin|].
        destruct rb as [|r' rb]; [destruct Hin|]. cbn [combine] in *. destruct Hin as [Hin|Hin].
        - injection Hin as -> -> ->. split; now left.
        - apply IH in Hin as [H1 H2]. split; now right. }
      destruct Hx as [Hx Hy]. specialize (Ea _ Hx). specialize (Eb _ Hy). specialize (Oa _ Hx). specialize (Ob _ Hy). cbn [fst snd] in Ea, Eb, Oa, Ob.
      pose proof (type_len_pos c) as Hpc.
      destruct (size_of c) as [k|] eqn:Ek.
      * eapply w_le; [now apply (w_eq_fixed h _ k)|]. nia.
      * specialize (Ea eq_refl). specialize (Eb eq_refl). 
        assert (HX : takes (gv_eq_t h c x y) (eq_linear c (slen x + slen y) - 112)).
        { destruct (N.eq_dec (sp_nest c) 0) as [Hzc|Hzc]; [rewrite <- eq_flat by assumption; apply w_eq|].
          destruct (Oa eq_refl Hzc) as [Oa1 Oa2]. destruct (Ob eq_refl Hzc) as [Ob1 Ob2].
          apply IH; auto; [eapply readable_child; eauto|lia|lia]. }
        eapply w_le; [exact HX|]. unfold eq_linear. assert (slen x + slen y <= m) by (unfold m; lia). nia.
    + pose proof (sum_plus (fun c => 185 * (m + 1) * type_len c - 112) 112 (children_of t)) as HS. pose proof (sum_types (185 * (m + 1)) (children_of t)) as HT.
      assert (HE : fold_right (fun t n => (185 * (m + 1) * type_len t - 112 + 112) + n) 0 (children_of t) <= fold_right (fun t n => 185 * (m + 1) * type_len t + n) 0 (children_of t)).
      { apply (sum_le (fun t => 185 * (m + 1) * type_len t - 112 + 112) (fun t => 185 * (m + 1) * type_len t)). apply Forall_forall. intros c _. pose proof (type_len_pos c). nia. }
      cbv beta in HS. nia.
Qed.
Lemma cost_eq_orderly h t a b : view h t a -> view h t b ->
  sp_orderly t (Some (s_data a)) = true -> sp_orderly t (Some (s_data b)) = true ->
  steps_of (gv_eq_t h t a b) <= 185 * len (sp_show t) * (len (s_data a) + len (s_data b) + 1).
Proof.
  intros Ha Hb Hoa Hob. rewrite type_len_show. apply view_ok in Ha as (Hr & Hra & Hsa). apply view_ok in Hb as (_ & Hrb & Hsb).
  pose proof (type_len_pos t) as Hp.
  enough (HX : takes (gv_eq_t h t a b) (eq_linear t (slen a + slen b))) by exact HX.
  destruct (size_of t) as [n|] eqn:En; [eapply w_le; [now apply (w_eq_fixed h t n)|]; unfold eq_linear; nia|].
  destruct Hsa as [Hsa|Hsa]; [unfold is_fixed in Hsa; rewrite En in Hsa; discriminate Hsa|]. destruct Hsb as [Hsb|Hsb]; [unfold is_fixed in Hsb; rewrite En in Hsb; discriminate Hsb|].
  eapply w_le; [apply w_eq_orderly; auto|]. lia.
Qed.
Lemma cost_eq_normal h t a b big big' v w : view h t a -> view h t b -> sp_typed t v -> sp_typed t w ->
  s_data a = sp_encode big t v -> s_data b = sp_encode big' t w ->
  steps_of (gv_eq_t h t a b) <= 185 * len (sp_show t) * (len (s_data a) + len (s_data b) + 1).
Proof.
  intros Ha Hb Hv Hw Ea Eb. pose proof (view_ok _ _ _ Ha) as (_ & _ & Hsa). pose proof (view_ok _ _ _ Hb) as (_ & _ & Hsb).
  apply cost_eq_orderly; auto; [rewrite Ea|rewrite Eb];
    (destruct (size_of t) as [n|] eqn:En; [apply (orderly_fixed t n); exact En|]; apply encode_orderly; [assumption|]).
  - destruct Hsa as [Hsa|Hsa]; [unfold is_fixed in Hsa; rewrite En in Hsa; discriminate Hsa|]. unfold slen in Hsa. rewrite Ea in Hsa. exact Hsa.
  - destruct Hsb as [Hsb|Hsb]; [unfold is_fixed in Hsb; rewrite En in Hsb; discriminate Hsb|]. unfold slen in Hsb. rewrite Eb in Hsb. exact Hsb.
Qed.

(** ** The bound is reached *)
Lemma compare_inv a b : snd (compare_t a b) = Ok true -> a = b /\ fst (compare_t a b) = 1 + blen a.
Proof.
  unfold compare_t, costs. cbn [fst snd]. intros E. assert (E' : bytes_eqb a b = true) by congruence. apply bytes_eqb_eq in E'. subst b. now rewrite N.eqb_refl.
Qed.
Lemma weights_cons v vs : sp_weight (VArray (v :: vs)) = sp_weight (VArray vs) + sp_weight v.
Proof. cbn [sp_weight fold_right]. lia. Qed.
Lemma eq_go_slow h x f a b : aligned (align_of x) a -> aligned (align_of x) b -> slen a < 2 ^ 63 -> slen b < 2 ^ 63 ->
  arr_n (s_data a) = arr_n (s_data b) ->
  (forall r q v, slen r < 2 ^ 63 -> slen q < 2 ^ 63 -> read h x r = Ok v -> snd (f r q) = Ok true -> sp_weight v <= fst (f r q)) ->
  forall k i fuel rs vs, i + N.of_nat k = arr_n (s_data a) -> mapM (elem_at h x a) (indices i k) = Ok rs -> mapM (read h x) rs = Ok vs ->
  snd (nfwa_eq_go_t h x f fuel (iter_at a i) (iter_at b i)) = Ok true ->
  sp_weight (VArray vs) <= 1 + fst (nfwa_eq_go_t h x f fuel (iter_at a i) (iter_at b i)).
Proof.
  intros Ha Hb Hla Hlb Hn Hf. induction k as [|k IH]; intros i fuel rs vs Hi Er Ev E.
  - cbn [indices seq map mapM] in Er. injection Er as <-. cbn [mapM] in Ev. injection Ev as <-. cbn [sp_weight fold_right]. lia.
  - rewrite indices_S in Er. cbn [mapM] in Er. destruct (elem_at h x a i) as [r|] eqn:Ea; [|discriminate Er]. cbn [bind] in Er.
    destruct (mapM (elem_at h x a) (indices (i + 1) k)) as [rs'|] eqn:Er'; [|discriminate Er]. cbn [bind] in Er. injection Er as <-.
    cbn [mapM] in Ev. destruct (read h x r) as [v|] eqn:Erd; [|discriminate Ev]. cbn [bind] in Ev.
    destruct (mapM (read h x) rs') as [vs'|] eqn:Ev'; [|discriminate Ev]. cbn [bind] in Ev. injection Ev as <-. rewrite weights_cons.
    destruct fuel as [|fuel]; cbn [nfwa_eq_go_t] in *; [discriminate E|].
    apply tbind_inv in E as (p & Ep & E & ->). rewrite er_next in Ep.
    pose proof Ep as Ep'. rewrite nfwa_next_ok in Ep by (auto; unfold usize_lim; lia). rewrite Ea in Ep. cbn [bind] in Ep. injection Ep as <-. cbn [fst snd] in *.
    apply next_len in Ep' as [Hr _]. apply tbind_inv in E as (p & Ep & E & ->). rewrite er_next in Ep. pose proof Ep as Ep'.
    rewrite nfwa_next_ok in Ep by (auto; unfold usize_lim; lia). destruct (elem_at h x b i) as [q|] eqn:Eb; [|discriminate Ep]. cbn [bind] in Ep. injection Ep as <-. cbn [fst snd] in *.
    apply next_len in Ep' as [Hq _]. apply tbind_inv in E as ([|] & Ee & E & ->); [|discriminate E].
    cbn [iter_at it_data] in Hr, Hq. pose proof (arr_lfo_le (s_data a)). pose proof (arr_lfo_le (s_data b)).
    rewrite slen_part in Hr by (unfold slen; lia). rewrite slen_part in Hq by (unfold slen; lia). unfold slen in Hla, Hlb.
    pose proof (Hf r q v ltac:(lia) ltac:(lia) Erd Ee) as H1. specialize (IH (i + 1) fuel rs' vs' ltac:(lia) Er' Ev' E). lia.
Qed.
Lemma eq_slow h k : forall a b v, slen a < 2 ^ 63 -> slen b < 2 ^ 63 -> read h (Nat.iter k TA TS) a = Ok v ->
  snd (gv_eq_t h (Nat.iter k TA TS) a b) = Ok true -> sp_weight v <= fst (gv_eq_t h (Nat.iter k TA TS) a b).
Proof.
  induction k as [|k IH]; intros a b v Hla Hlb Ev E.
  - cbn [Nat.iter nat_rect read gv_eq_t] in *. injection Ev as <-. cbn [sp_weight]. change (@len byte) with (@blen byte). unfold str_eq_t in *.
    assert (HT : blen (to_str (s_data a)) <= blen (as_bytes_non_conformant (s_data a))).
    { unfold to_str. destruct (has_nul _); [rewrite blen_nil; lia|]. destruct (valid_utf8 _); [lia|rewrite blen_nil; lia]. }
    apply tbind_inv in E as (x & Ex & E & ->). cbn [as_bytes_non_conformant_t costs snd fst] in *. injection Ex as <-.
    apply tbind_inv in E as (y & Ey & E & ->). cbn [as_bytes_non_conformant_t costs snd fst] in *. injection Ey as <-.
    apply tbind_inv in E as ([|] & Ee & E & ->).
    + apply compare_inv in Ee as [_ ->]. lia.
    + apply tbind_inv in E as (x & Ex & E & ->). rewrite er_to_str in Ex. injection Ex as <-.
      apply tbind_inv in E as (y & Ey & E & ->). apply compare_inv in E as [_ ->]. lia.
  - cbn [Nat.iter nat_rect] in *. fold (Nat.iter k TA TS) in *. set (x := Nat.iter k TA TS) in *. cbn [read gv_eq_t] in *.
    assert (Hx : size_of x = None) by (rewrite <- sp_size_of; apply arrays_size).
    assert (Hax : forall s, aligned (align_of x) s).
    { intros s. destruct (arrays_plain k) as [Hal _]. change (arrays k) with x in Hal. rewrite sp_align_of in Hal. rewrite Hal. unfold aligned. apply N.mod_1_r. }
    unfold array_refs in Ev. rewrite Hx in *. destruct (nfwa_items h x a) as [rs|] eqn:Er; [|discriminate Ev]. cbn [bind] in Ev.
    destruct (mapM (read h x) rs) as [vs|] eqn:Evs; [|discriminate Ev]. cbn [bind] in Ev. injection Ev as <-.
    rewrite nfwa_items_ok in Er by (auto; unfold usize_lim; lia).
    unfold nfwa_eq_t in *. apply tbind_inv in E as (la & Ea & E & ->). rewrite er_len, nfwa_len_ok in Ea by (unfold usize_lim; lia). injection Ea as <-.
    apply tbind_inv in E as (lb & Eb & E & ->). rewrite er_len, nfwa_len_ok in Eb by (unfold usize_lim; lia). injection Eb as <-.
    apply tbind_inv in E as (c & Ec & E & ->). cbn [costs snd fst] in *. injection Ec as <-. destruct (_ =? _) eqn:Ec; [|discriminate E]. apply N.eqb_eq in Ec.
    apply tbind_inv in E as (ia & Ea & E & ->). rewrite er_into_iter, nfwa_into_iter_ok in Ea by (auto; unfold usize_lim; lia). injection Ea as <-.
    apply tbind_inv in E as (ib & Eb & E & ->). rewrite er_into_iter, nfwa_into_iter_ok in Eb by (auto; unfold usize_lim; lia). injection Eb as <-.
    pose proof (eq_go_slow h x (gv_eq_t h x) a b (Hax a) (Hax b) Hla Hlb Ec IH (N.to_nat (arr_n (s_data a))) 0 _ rs vs ltac:(lia) Er Evs E). lia.
Qed.
Lemma arrays_no_double k : sp_no_double (Nat.iter k TA TS) = true.
Proof. induction k as [|k IH]; [reflexivity|exact IH]. Qed.
Lemma cost_eq_slow h k n a : 1 <= n -> 1 + k < 2 ^ 32 -> n * (16 * k + 1) < 2 ^ 63 ->
  exists d r, len d <= n * (16 * k + 1) /\ cast h (Nat.iter (N.to_nat k) TA TS) (Slice a d) = Ok r /\
    result_of (gv_eq_t h (Nat.iter (N.to_nat k) TA TS) r r) = Ok true /\
    n ^ (1 + k) <= steps_of (gv_eq_t h (Nat.iter (N.to_nat k) TA TS) r r).
Proof.
  intros H1 H2 H3. destruct (blow_claim h k n a H1 H2 H3) as (d & v & Hd & E & Hw). set (t := Nat.iter (N.to_nat k) TA TS) in *.
  unfold decode in E. destruct (cast h t (Slice a d)) as [r|] eqn:Er; [|discriminate E]. cbn [bind] in E. exists d, r.
  destruct (arrays_plain (N.to_nat k)) as (Hal & Hmo & Hsh & _). change (arrays (N.to_nat k)) with t in *.
  assert (Hv : view h t r).
  { exists t, (Slice a d). split; [split; [exact Hmo|rewrite Hsh; lia]|]. split; [rewrite Hal; unfold aligned; apply N.mod_1_r|].
    split; [cbn [s_data]; lia|]. now apply reach_cast. }
  assert (Ht : snd (gv_eq_t h t r r) = Ok true).
  { rewrite er_eq. apply (eq_plain_claim h t r r v v); auto. apply arrays_no_double. }
  split; [exact Hd|]. split; [exact Er|]. split; [exact Ht|].
  assert (Hn : size_of t = None) by (rewrite <- sp_size_of; apply arrays_size).
  pose proof (cast_len h t (Slice a d) r Hn Er) as Hl. change (slen (Slice a d)) with (len d) in Hl.
  pose proof (eq_slow h (N.to_nat k) r r v ltac:(lia) ltac:(lia) E Ht). unfold steps_of. fold t in H. lia.
Qed.
