(** Children lie one after another: proofs. *)
From Verif Require Import Base Types Layout AlignedBytes Spec Deser Histories LongSpec
  BaseFacts TypesFacts LayoutFacts AlignedFacts DeserFacts ArrayFacts StructFacts ReadFacts AccessFacts EqFacts EncFacts ReadClaims RoundFacts LongFacts.
Local Open Scope N_scope.

(** References [rs] lie in [s], from [p] on, each after the one before; those
    without bytes may be elsewhere. *)
Fixpoint laid (s : slice) (p : N) (rs : list slice) : Prop :=
  match rs with
  | [] => True
  | r :: rs => exists st e, p <= st /\ st <= e /\ e <= slen s /\ (r = part s st e \/ s_data r = []) /\ laid s e rs
  end.
Lemma laid_low s rs : forall p j r, laid s p rs -> nth_error rs j = Some r -> s_data r <> [] ->
  s_addr s + p <= s_addr r /\ s_addr r + slen r <= s_addr s + slen s.
Proof.
  induction rs as [|r0 rs IH]; intros p j r H Hj Hne; [destruct j; discriminate|].
  destruct H as (st & e & H1 & H2 & H3 & H4 & H5). destruct j as [|j]; cbn [nth_error] in Hj.
  - apply Some_inj in Hj as ->. destruct H4 as [->|H4]; [|tauto]. rewrite slen_part by assumption.
    cbn [part s_addr]. lia.
  - specialize (IH e j r H5 Hj Hne). lia.
Qed.
Lemma laid_order s rs : forall p i j ri rj, laid s p rs -> (i < j)%nat -> nth_error rs i = Some ri -> nth_error rs j = Some rj ->
  s_data ri <> [] -> s_data rj <> [] -> s_addr ri + slen ri <= s_addr rj.
Proof.
  induction rs as [|r0 rs IH]; intros p i j ri rj H Hij Hi Hj Hni Hnj; [destruct i; discriminate|].
  destruct H as (st & e & H1 & H2 & H3 & H4 & H5). destruct j as [|j]; [lia|]. cbn [nth_error] in Hj.
  destruct i as [|i]; cbn [nth_error] in Hi.
  - apply Some_inj in Hi as ->. destruct H4 as [->|H4]; [|tauto]. rewrite slen_part by assumption.
    destruct (laid_low s rs e j rj H5 Hj Hnj) as [H _]. cbn [part s_addr]. lia.
  - apply (IH e i j); auto. lia.
Qed.

(** ** Arrays *)
Lemma elem_at_place h x s i r : macro_ok x = true -> aligned (align_of x) s -> size_of x = None ->
  arr_prev (s_data s) i < 2 ^ 63 -> arr_cut (align_of x) (s_data s) i <> None -> elem_at h x s i = Ok r ->
  let st := pad_to (align_of x) (arr_prev (s_data s) i) in
  st <= arr_end (s_data s) i /\ arr_end (s_data s) i <= slen s /\ r = part s st (arr_end (s_data s) i).
Proof.
  intros Hm Ha Hn Hp Hc He st.
  unfold arr_cut, cut in Hc. fold st in Hc. unfold elem_at in He. rewrite trait_align_of in He.
  destruct (align_offset_long h (align_of x) (arr_prev (s_data s) i)) as [E|[E Hov]]; auto with al.
  { left. unfold usize_lim. assert (align_of x <= 8) by (pose proof (align_of_alignment x) as HA; destruct HA as [->|[->|[->| ->]]]; lia). lia. }
  2:{ rewrite E in He. discriminate. }
  rewrite E in He. cbn [bind] in He. fold st in He.
  destruct ((st <=? arr_end (s_data s) i) && (arr_end (s_data s) i <=? arr_lfo (s_data s))) eqn:Ec; [|congruence].
  pose proof (arr_lfo_le (s_data s)) as Hle.
  rewrite cast_unwrap_cases in He.
  - destruct (size_good_dec x _); [|discriminate]. injection He as <-. repeat split; try lia. unfold slen; lia.
  - assumption.
  - apply aligned_part; auto with al. apply pad_to_mod; auto with al.
Qed.
Lemma elems_laid h x s : macro_ok x = true -> aligned (align_of x) s -> size_of x = None -> slen s < 2 ^ 63 ->
  ~ In None (sp_array_children (align_of x) (s_data s)) ->
  forall k i rs, i + N.of_nat k = arr_n (s_data s) -> mapM (elem_at h x s) (indices i k) = Ok rs ->
  laid s (arr_prev (s_data s) i) rs.
Proof.
  intros Hm Ha Hn Hl Hin. rewrite sp_array_children_map in Hin.
  assert (Hsome : forall i, i < arr_n (s_data s) -> arr_cut (align_of x) (s_data s) i <> None).
  { intros i Hi E. apply Hin. rewrite <- E. apply in_map. unfold indices. apply in_map_iff. exists (N.to_nat i).
    split; [lia|]. apply in_seq. lia. }
  induction k as [|k IH]; intros i rs Hk HM.
  - injection HM as <-. exact I.
  - rewrite indices_S in HM. cbn [mapM] in HM.
    destruct (elem_at h x s i) as [r|] eqn:Er; [|discriminate]. cbn [bind] in HM.
    destruct (mapM (elem_at h x s) (indices (i + 1) k)) as [rs'|] eqn:Ers; [|discriminate]. injection HM as <-.
    assert (Hp : arr_prev (s_data s) i < 2 ^ 63).
    { unfold arr_prev. destruct (i =? 0) eqn:E0; [reflexivity|].
      specialize (Hsome (i - 1) ltac:(lia)). unfold arr_cut, cut in Hsome. destruct (_ && _) eqn:E; [|congruence].
      pose proof (arr_lfo_le (s_data s)) as Hle. unfold slen in Hl. lia. }
    destruct (elem_at_place h x s i r Hm Ha Hn Hp (Hsome i ltac:(lia)) Er) as (H1 & H2 & H3).
    cbn [laid]. exists (pad_to (align_of x) (arr_prev (s_data s) i)), (arr_end (s_data s) i).
    split; [apply pad_to_ge; auto with al|]. split; [exact H1|]. split; [exact H2|]. split; [now left|].
    specialize (IH (i + 1) rs' ltac:(lia) Ers). unfold arr_prev in IH at 1.
    replace (i + 1 =? 0) with false in IH by lia. now rewrite N.add_sub in IH.
Qed.
Lemma slices_laid n s k : forall i, 0 < n -> (i + k)%nat = N.to_nat (slen s / n) ->
  laid s (N.of_nat i * n) (map (fun i => slice_elem n s (N.of_nat i)) (seq i k)).
Proof.
  induction k as [|k IH]; intros i Hn Hk; [exact I|]. cbn [seq map laid].
  exists (N.of_nat i * n), (N.of_nat (S i) * n).
  assert (Hm : n * (slen s / n) <= slen s) by (apply N.mul_div_le; lia).
  assert (N.of_nat (S i) <= slen s / n) by lia.
  split; [lia|]. split; [lia|]. split; [nia|]. split; [|apply IH; lia].
  left. unfold slice_elem, part. do 2 f_equal. lia.
Qed.
Lemma array_laid h x s rs : usable x -> aligned (sp_align x) s -> len (s_data s) < 2 ^ 63 ->
  (sp_size x = None -> ~ In None (sp_array_children (sp_align x) (s_data s))) ->
  array_refs h x s = Ok rs -> laid s 0 rs.
Proof.
  intros [Hm Htl] Ha Hl Hin Hr. rewrite sp_align_of in Ha, Hin. rewrite sp_size_of in Hin. unfold array_refs in Hr.
  destruct (size_of x) as [n|] eqn:Hn.
  - rewrite (mem_layout_ok x n Hn Hm) in Hr. injection Hr as <-. unfold slice_elems.
    pose proof (size_of_props x n Hn) as [Hp _]. apply (slices_laid n s _ 0%nat Hp). reflexivity.
  - rewrite nfwa_items_ok in Hr; auto.
    2:{ unfold slen, usize_lim. change (len (s_data s)) with (blen (s_data s)) in Hl. lia. }
    apply (elems_laid h x s Hm Ha Hn Hl (Hin eq_refl) _ 0 rs) in Hr; [exact Hr|lia].
Qed.

(** ** Structures *)
Lemma get_child_place h child b s k a c (last_child : bool) nfo r :
  macro_ok child = true -> aligned (align_of child) s ->
  is_alignment b -> align_of child <= b -> c mod align_of child = 0 ->
  slen s < 2 ^ 63 -> a + c + 16 < 2 ^ 40 -> size_or_0 child < 2 ^ 40 ->
  N.of_nat k + 1 < 2 ^ 32 -> nfo < 2 ^ 32 ->
  (if size_of child then True else if last_child then True else N.of_nat k + 1 <= nfo) ->
  N.of_nat k <= nfo -> ~ far (s_data s) nfo k ->
  let d := s_data s in
  let w := sp_width (blen d) in
  let start := pad_to b (st_prev d k + a) + c in
  let stop := st_stop d (blen d - w * nfo) start (size_of child) last_child k in
  w * nfo <= blen d -> cut d start stop (blen d - w * nfo) <> None ->
  get_child_elem h child b s (Z.of_nat k - 1) a c (size_of child) last_child nfo = Ok r ->
  start <= stop /\ stop <= slen s /\ (r = part s start stop \/ s_data r = []).
Proof.
  intros Hm Ha Hb Hle Hc Hl Hac Hsz Hk Hnfo Hk2 Hk1 Hfar d w start stop Hwn Hcut. unfold get_child_elem.
  destruct (calc_offsets_long h child b (s_data s) k a c last_child nfo) as [->|[_ Hf]]; auto; try tauto.
  cbn [bind]. fold d w start stop. unfold offsets_view. replace (w * nfo <=? blen d) with true by lia.
  unfold cut in Hcut. destruct ((start <=? stop) && (stop <=? blen d - w * nfo)) eqn:E; [|congruence].
  assert (Hsm : start mod align_of child = 0).
  { unfold start. apply align_add; auto with al.
    apply (align_divides _ b); auto with al. now apply pad_to_mod. }
  rewrite ix_to_from_k; auto with al; try (rewrite trait_align_of; assumption); try (unfold slen; fold d; lia).
  assert (Hp : aligned (align_of child) (part s start stop)) by (apply aligned_part; auto with al).
  intros Hr. split; [lia|]. split; [unfold slen; fold d; lia|].
  destruct (cast_cases h child (part s start stop) Hm Hp) as [[Hg Ec]|[Hg Ec]]; unfold cast in Ec; rewrite Ec in Hr.
  - injection Hr as <-. now left.
  - right. unfold size_good in Hg. rewrite slen_part in Hg by (unfold slen; fold d; lia).
    destruct (size_of child) as [n|] eqn:En.
    + exfalso. apply Hg. unfold stop, st_stop. lia.
    + destruct (default_ref_ok h child Hm) as (r' & Er & Hd & _). rewrite Er in Hr. injection Hr as <-.
      rewrite Hd. unfold default_bytes. now rewrite En.
Qed.
Lemma st_prev_S d k : st_prev d (S k) = st_end d k. Proof. reflexivity. Qed.
Lemma nonfixed_laid h al s : is_alignment al -> aligned al s -> forall nfo children,
  slen s < 2 ^ 63 -> nfo < 2 ^ 32 -> ~ some_far (s_data s) nfo ->
  forall k a b c rs,
  is_alignment b ->
  Forall (fun t => macro_ok t = true /\ align_of t <= al) children ->
  a + c + 32 + lay_bound children < 2 ^ 40 ->
  N.of_nat k + N.of_nat (length children) + 1 < 2 ^ 32 ->
  (children <> [] -> N.of_nat k + sp_n_offsets (items_of children) = nfo) ->
  let d := s_data s in
  let w := sp_width (blen d) in
  w * nfo <= blen d ->
  ~ In None (sp_struct_cut d w (blen d - w * nfo) (pad_to b (st_prev d k + a) + c) (N.of_nat k) (items_of children)) ->
  nonfixed_refs h al nfo s children (table_go (Z.of_nat k - 1) a b c children) = Ok rs ->
  laid s (pad_to b (st_prev d k + a) + c) rs.
Proof.
  intros Hal Ha nfo children Hl Hnfo Hsome. induction children as [|child rest IH]; intros k a b c rs Hb Hch Hlay Hk Hoff d w Hwn Hin Hr.
  - injection Hr as <-. exact I.
  - inversion Hch as [|? ? [Hm Hle] Hch']; subst. cbn [lay_bound length] in Hlay, Hk.
    pose proof (align_of_alignment child) as Hca.
    destruct (as_aligned_child al s Hal Ha child Hle) as [Eas Hac].
    set (last_child := match rest with [] => true | _ => false end).
    set (a' := if align_of child <=? b then a else a + align c b).
    set (b' := if align_of child <=? b then b else align_of child).
    set (c' := if align_of child <=? b then align c (align_of child) else 0).
    assert (Hb8 : b <= 8) by (destruct Hb as [->|[->|[->| ->]]]; lia).
    assert (Hc8 : align_of child <= 8) by (destruct Hca as [->|[->|[->| ->]]]; lia).
    assert (Hb' : is_alignment b') by (unfold b'; destruct (_ <=? b); assumption).
    assert (Hle' : align_of child <= b') by (unfold b'; destruct (_ <=? b) eqn:E; lia).
    assert (Hc' : c' mod align_of child = 0).
    { unfold c'. destruct (_ <=? b); [rewrite align_pad_to by assumption; now apply pad_to_mod|reflexivity]. }
    assert (Hac' : a' + c' <= a + c + 8).
    { unfold a', c'. destruct (_ <=? b).
      - rewrite align_pad_to by assumption. pose proof (pad_to_lt (align_of child) c Hca). lia.
      - rewrite align_pad_to by assumption. pose proof (pad_to_lt b c Hb). lia. }
    assert (Hpos : pad_to b' (st_prev d k + a') + c' = pad_to (align_of child) (pad_to b (st_prev d k + a) + c)).
    { unfold a', b', c'. destruct (align_of child <=? b) eqn:E.
      - rewrite align_pad_to, merge_rule_1 by (auto; lia). reflexivity.
      - rewrite align_pad_to, merge_rule_2 by (auto; lia). rewrite N.add_0_r. f_equal. lia. }
    assert (Hrow : table_go (Z.of_nat k - 1) a b c (child :: rest) =
      @cons row (Z.of_nat k - 1, a', b', c')%Z
      match size_of child with
      | Some size => table_go (Z.of_nat k - 1) a' b' (c' + size) rest
      | None => table_go (Z.of_nat (S k) - 1) 0 1 0 rest
      end).
    { cbn [table_go]. unfold a', b', c'. destruct (align_of child <=? b); f_equal;
        destruct (size_of child); try reflexivity; f_equal; lia. }
    rewrite Hrow in Hr. cbn [nonfixed_refs] in Hr. rewrite Eas in Hr. cbn [bind] in Hr. fold last_child in Hr.
    assert (Hk1 : N.of_nat k + sp_n_offsets (items_of (child :: rest)) = nfo) by (apply Hoff; discriminate).
    assert (Hn : sp_n_offsets (items_of (child :: rest)) =
      if last_child then 0 else (if size_of child then 0 else 1) + sp_n_offsets (items_of rest)).
    { unfold last_child. cbn [items_of map]. fold (items_of rest). cbn [sp_n_offsets].
      destruct rest as [|y rest]; [destruct (size_of child); reflexivity|].
      cbn [items_of map]. destruct (size_of child); reflexivity. }
    rewrite Hn in Hk1.
    assert (Hsz : size_or_0 child < 2 ^ 40) by lia.
    destruct (get_child_elem h child b' s (Z.of_nat k - 1) a' c' (size_of child) last_child nfo) as [r|] eqn:Er; [|discriminate].
    cbn [bind] in Hr.
    match type of Hr with context [nonfixed_refs h al nfo s rest ?rows] => set (rr := rows) in * end.
    destruct (nonfixed_refs h al nfo s rest rr) as [rs'|] eqn:Ers; [|discriminate]. injection Hr as <-.
    set (pos := pad_to (align_of child) (pad_to b (st_prev d k + a) + c)) in *.
    (* the cuts *)
    assert (Hcuts : cut d pos (st_stop d (blen d - w * nfo) pos (size_of child) last_child k) (blen d - w * nfo) <> None /\
      ~ In None match size_of child with
                | Some size => sp_struct_cut d w (blen d - w * nfo) (pos + size) (N.of_nat k) (items_of rest)
                | None => sp_struct_cut d w (blen d - w * nfo) (st_end d k) (N.of_nat k + 1) (items_of rest)
                end).
    { cbn [items_of map] in Hin. fold (items_of rest) in Hin. cbn [sp_struct_cut] in Hin. fold pos in Hin. unfold st_stop.
      destruct (size_of child) as [size|].
      - cbn [In] in Hin. split; intros H; apply Hin; [left; congruence|now right].
      - unfold last_child. destruct rest as [|y rest].
        + cbn [items_of map sp_struct_cut] in *. cbn [In] in Hin. split; [|intros []]. intros H; apply Hin; now left.
        + destruct (items_of (y :: rest)) eqn:Ei; [discriminate|]. rewrite <- Ei in *.
          cbn [In] in Hin. split; intros H; apply Hin; [left; exact H|now right]. }
    destruct Hcuts as [Hcut Hrest].
    assert (Hnf : ~ far d nfo k) by (intros Hf; apply Hsome; exists k; split; [lia|exact Hf]).
    destruct (get_child_place h child b' s k a' c' last_child nfo r) as (H1 & H2 & H3); auto; try lia.
    { destruct (size_of child); [exact I|]. destruct last_child; [exact I|]. lia. }
    { cbv zeta. fold d w. rewrite Hpos. exact Hcut. }
    fold d w in H1, H2, H3. rewrite Hpos in H1, H2, H3.
    cbn [laid]. exists pos, (st_stop d (blen d - w * nfo) pos (size_of child) last_child k).
    split; [unfold pos; apply pad_to_ge; auto|]. split; [exact H1|]. split; [exact H2|]. split; [exact H3|].
    unfold st_stop, rr in *. unfold size_or_0 in Hlay, Hsz. destruct (size_of child) as [size|] eqn:Esz.
    + pose proof (IH k a' b' (c' + size) rs') as IHk. cbv zeta in IHk. fold d w in IHk.
      replace (pad_to b' (st_prev d k + a') + (c' + size)) with (pos + size) in IHk by lia.
      apply IHk; auto; try lia.
      intros Hr'. unfold last_child in Hk1. destruct rest; [congruence|]. lia.
    + pose proof (IH (S k) 0 1 0 rs') as IHk. cbv zeta in IHk. fold d w in IHk.
      replace (pad_to 1 (st_prev d (S k) + 0) + 0) with (st_end d k) in IHk by (rewrite pad_to_1, st_prev_S; lia).
      replace (N.of_nat (S k)) with (N.of_nat k + 1) in IHk by lia.
      unfold last_child in *. destruct rest as [|y rest].
      * injection Ers as <-. exact I.
      * apply IHk; auto; try lia. left; reflexivity.
Qed.
Lemma fields_laid s : forall ts pos rs,
  Forall (fun t => is_fixed t = true) ts -> walk_end pos (fixed_items ts) <= slen s ->
  field_refs s (sp_field_offsets pos (fixed_items ts)) (declared ts) = Ok rs -> laid s pos rs.
Proof.
  induction ts as [|t ts IH]; intros pos rs HF Hend Hr.
  - injection Hr as <-. exact I.
  - inversion HF as [|? ? Hf HF']; subst.
    cbn [fixed_items map sp_field_offsets declared field_refs] in *.
    fold (fixed_items ts) in *. fold (declared ts) in *. cbn [walk_end] in Hend.
    pose proof (align_of_alignment t) as Hal. set (st := pad_to (align_of t) pos) in *.
    unfold field_ref in Hr. destruct (_ =? 0); [|discriminate]. cbn [bind] in Hr.
    destruct (field_refs s _ (declared ts)) as [rs'|] eqn:E; [|discriminate]. injection Hr as <-.
    assert (Hge : st + size_or_0 t <= walk_end (st + size_or_0 t) (fixed_items ts)).
    { rewrite walk_end_fold. apply fold_lay_ge. clear. induction ts as [|x ts IH]; constructor; auto.
      apply align_of_alignment. }
    cbn [laid]. exists st, (st + size_or_0 t). split; [apply pad_to_ge; auto|]. split; [lia|]. split; [lia|].
    split; [|apply IH; assumption]. left. unfold part. do 2 f_equal. lia.
Qed.
Lemma struct_laid h t s rs : usable t -> sp_is_struct t = true -> aligned (sp_align t) s -> len (s_data s) < 2 ^ 63 ->
  (forall n, sp_size t = Some n -> len (s_data s) = n) ->
  (sp_size t = None -> ~ In None (sp_struct_children (map (fun c => (sp_align c, sp_size c)) (sp_components t)) (s_data s))) ->
  to_tuple h t s = Ok rs -> laid s 0 rs.
Proof.
  intros [Hm Htl] Hst Ha Hl Hfix Hin Hr. rewrite sp_align_of in Ha. rewrite sp_size_of in Hin, Hfix.
  rewrite type_len_show in Htl.
  assert (Hs : is_struct t) by (destruct t; try discriminate; exact I).
  pose proof (struct_children_ok t Hs Hm) as Hch. destruct (struct_bounds t Hs Htl) as [Hlb Hlen].
  unfold to_tuple in Hr. destruct (size_of t) as [n|] eqn:En.
  - rewrite (field_offsets_ok t n) in Hr by assumption.
    pose proof (fixed_children t n Hs En) as Hfx.
    rewrite mem_layouts_declared in Hr.
    2:{ rewrite Forall_forall in *. intros c Hc. specialize (Hfx c Hc). destruct (Hch c Hc) as [Hmc _].
        unfold is_fixed in Hfx. unfold size_or_0. destruct (size_of c) eqn:Ec; [|discriminate].
        now apply mem_layout_ok. }
    apply fields_laid in Hr; auto.
    pose proof (size_of_fixed_struct t n Hs En) as Hsz. specialize (Hfix n eq_refl).
    change (len (s_data s)) with (slen s) in Hfix. rewrite Hfix, Hsz.
    destruct (children_of t) as [|c0 cs0]; [cbn; lia|]. apply pad_to_ge; auto with al.
  - specialize (Hin eq_refl). pose proof (struct_inside_near _ _ Hl Hin) as Hnear.
    assert (Ec : sp_components t = children_of t) by (destruct t; try discriminate; reflexivity).
    rewrite Ec in Hin, Hnear.
    rewrite n_frame_offsets_spec in Hr. pose proof (sp_n_offsets_le (children_of t)) as Hno.
    rewrite sp_items_of in Hin, Hnear.
    assert (Hnf : ~ some_far (s_data s) (sp_n_offsets (items_of (children_of t)))).
    { intros Hf. pose proof (struct_far_near t (s_data s) (conj En Hf)) as H. congruence. }
    assert (Hlt : sp_n_offsets (items_of (children_of t)) < 2 ^ 32) by lia.
    assert (Hcs : children_of t = [] \/ exists c cs, children_of t = c :: cs) by (destruct (children_of t); eauto).
    destruct Hcs as [Ech|(c0 & cs0 & Ech)].
    { rewrite Ech in Hr. injection Hr as <-. exact I. }
    unfold sp_struct_children in Hin. change (len (s_data s)) with (blen (s_data s)) in Hin.
    destruct (sp_width (blen (s_data s)) * sp_n_offsets (items_of (children_of t)) <=? blen (s_data s)) eqn:Ew.
    2:{ exfalso. apply Hin. rewrite Ech. now left. }
    apply (nonfixed_laid h (align_of t) s (align_of_alignment t) Ha _ (children_of t) Hl Hlt Hnf 0 0 1 0 rs); auto; try lia.
    left; reflexivity.
Qed.

(** ** The claims *)
Lemma array_apart h x s rs i j ri rj : usable x -> aligned (sp_align x) s -> len (s_data s) < 2 ^ 63 ->
  (sp_size x = None -> ~ In None (sp_array_children (sp_align x) (s_data s))) ->
  array_refs h x s = Ok rs -> (i < j)%nat ->
  nth_error rs i = Some ri -> nth_error rs j = Some rj -> s_data ri <> [] -> s_data rj <> [] ->
  s_addr ri + len (s_data ri) <= s_addr rj.
Proof. intros H1 H2 H3 H4 H5 H6 H7 H8 H9 H10. exact (laid_order s rs 0 i j ri rj (array_laid h x s rs H1 H2 H3 H4 H5) H6 H7 H8 H9 H10). Qed.
Lemma struct_apart h t s rs i j ri rj : usable t -> sp_is_struct t = true -> aligned (sp_align t) s -> len (s_data s) < 2 ^ 63 ->
  (forall n, sp_size t = Some n -> len (s_data s) = n) ->
  (sp_size t = None -> ~ In None (sp_struct_children (map (fun c => (sp_align c, sp_size c)) (sp_components t)) (s_data s))) ->
  to_tuple h t s = Ok rs -> (i < j)%nat ->
  nth_error rs i = Some ri -> nth_error rs j = Some rj -> s_data ri <> [] -> s_data rj <> [] ->
  s_addr ri + len (s_data ri) <= s_addr rj.
Proof. intros H1 H2 H3 H4 H5 H5' H5'' H6 H7 H8 H9 H10. exact (laid_order s rs 0 i j ri rj (struct_laid h t s rs H1 H2 H3 H4 H5 H5' H5'') H6 H7 H8 H9 H10). Qed.
Lemma encode_array_inside big x vs : sp_typed (TA x) (VArray vs) -> sp_size x = None ->
  len (sp_encode big (TA x) (VArray vs)) < 2 ^ 63 ->
  ~ In None (sp_array_children (sp_align x) (sp_encode big (TA x) (VArray vs))).
Proof.
  intros Ht Hn Hl. unfold sp_encode in *. cbn [sp_bytes] in *. rewrite sp_fixed_of in *. rewrite sp_size_of in Hn.
  unfold is_fixed in *. rewrite Hn in *.
  destruct (array_bytes_cut false (sp_align x) (map (sp_bytes false big x) vs)) as [HC _];
        [rewrite sp_align_of; auto with al|lia|]. specialize (HC ltac:(now left)). rewrite HC. apply some_none.
Qed.
Lemma encode_struct_inside big t vs : sp_typed t (VTuple vs) -> sp_is_struct t = true ->
  len (sp_encode big t (VTuple vs)) < 2 ^ 63 ->
  (forall n, sp_size t = Some n -> len (sp_encode big t (VTuple vs)) = n) /\
  (sp_size t = None -> ~ In None (sp_struct_children (map (fun c => (sp_align c, sp_size c)) (sp_components t)) (sp_encode big t (VTuple vs)))).
Proof.
  intros Ht Hst Hl. unfold sp_encode in *.
  assert (Hs : is_struct t) by (destruct t; try discriminate; exact I).
  assert (Ec : sp_components t = children_of t) by (destruct t; try discriminate; reflexivity).
  destruct (typed_struct t (VTuple vs) Hs Ht) as (vs' & E & HF). injection E as <-.
  destruct (struct_bytes_cuts false big t vs Hs HF ltac:(lia)) as [Hc Hg]. rewrite sp_size_of. split; intros.
  - unfold size_good in Hg. rewrite H in Hg. exact Hg.
  - rewrite Ec, sp_items_of. unfold struct_cuts in Hc. rewrite H in Hc. rewrite Hc. apply some_none.
Qed.
Lemma shared_elements h : exists s ri rj, nfwa_index h TS s 0 = Ok ri /\ nfwa_index h TS s 2 = Ok rj /\
  s_addr ri = s_addr rj /\ s_data ri = bs "a" ++ [x00] /\ s_data rj = s_data ri /\ len (s_data s) = 5.
Proof.
  exists (Slice 8 [x61; x00; x02; x00; x02]), (Slice 8 [x61; x00]), (Slice 8 [x61; x00]).
  destruct h as [be oc db s8 st]. repeat split; try reflexivity; destruct oc, db, be; vm_compute; reflexivity.
Qed.
Lemma shared_members h : exists s r0 r1 r2, to_tuple h (TTuple [TS; TS; TS]) s = Ok [r0; r1; r2] /\
  s_addr r0 = s_addr r2 /\ s_data r0 = bs "a" ++ [x00] /\ s_data r2 = s_data r0 /\ len (s_data s) = 4.
Proof.
  destruct h as [be oc db s8 st].
  destruct (default_ref_ok (Host be oc db s8 st) TS eq_refl) as (r & Er & _).
  exists (Slice 8 [x61; x00; x00; x02]), (Slice 8 [x61; x00]), r, (Slice 8 [x61; x00]).
  repeat split; try reflexivity. unfold default_ref in Er. cbn in Er. destruct oc, db, be; vm_compute in *; congruence.
Qed.
