(** Children depend on their own bytes and the framing offsets around them: C94. *)
From Coq Require Import Lia ZArith NArith List Bool.
From Verif Require Import Base Types Layout AlignedBytes Strs Deser Spec Histories LocalSpec BaseFacts TypesFacts LayoutFacts AlignedFacts DeserFacts StructFacts ReadFacts AccessFacts ReadClaims LaidFacts.
Import ListNotations.
Local Open Scope N_scope.

Lemma slen_part' s b e : b <= e -> e <= slen s -> slen (part s b e) = e - b.
Proof. intros. rewrite slen_part; lia. Qed.
Lemma local_part s s' r st e : s_addr s' = s_addr s -> slen s' = slen s -> st <= e -> e <= slen s ->
  (within s r -> within s' r) -> r = part s st e -> part s' st e = r.
Proof.
  intros Ha Hl H1 H2 Hw Hr.
  destruct Hw as (b & f & Hb & Hf & E). { exists st, e. auto. }
  assert (E1 : s_addr r = s_addr s + st) by (rewrite Hr; reflexivity).
  assert (E2 : s_addr r = s_addr s' + b) by (rewrite E; reflexivity).
  assert (E3 : slen r = e - st) by (rewrite Hr; apply slen_part'; assumption).
  assert (E4 : slen r = f - b) by (rewrite E; apply slen_part'; assumption).
  assert (b = st) by lia. assert (f = e) by lia. now subst b f.
Qed.
Lemma local_cast h t s s' r st e : macro_ok t = true -> aligned (align_of t) s -> st mod align_of t = 0 ->
  s_addr s' = s_addr s -> slen s' = slen s -> st <= e -> e <= slen s ->
  (within s r -> within s' r) -> from_aligned_slice h t (part s st e) = Ok r ->
  from_aligned_slice h t (part s' st e) = Ok r.
Proof.
  intros Hm Ha Hst Had Hl H1 H2 Hw E.
  assert (Ha' : aligned (align_of t) s') by (unfold aligned in *; congruence).
  assert (Hp : aligned (align_of t) (part s st e)) by (apply aligned_part; auto with al).
  assert (Hp' : aligned (align_of t) (part s' st e)) by (apply aligned_part; auto with al).
  change (from_aligned_slice h t) with (cast h t) in *.
  assert (El : slen (part s' st e) = slen (part s st e)) by (rewrite !slen_part'; lia).
  destruct (cast_cases h t _ Hm Hp) as [[Hg Ec]|[Hg Ec]], (cast_cases h t _ Hm Hp') as [[Hg' Ec']|[Hg' Ec']];
    rewrite El in Hg'; try tauto; rewrite Ec in E; rewrite Ec'; [|exact E].
  injection E as E. f_equal. apply (local_part s); auto.
Qed.
Lemma local_unwrap h t s s' r st e : macro_ok t = true -> aligned (align_of t) s -> st mod align_of t = 0 ->
  s_addr s' = s_addr s -> slen s' = slen s -> st <= e -> e <= slen s ->
  (within s r -> within s' r) -> cast_unwrap h t (part s st e) = Ok r ->
  cast_unwrap h t (part s' st e) = Ok r.
Proof.
  intros Hm Ha Hst Had Hl H1 H2 Hw E.
  assert (Ha' : aligned (align_of t) s') by (unfold aligned in *; congruence).
  rewrite cast_unwrap_cases in * by (auto; apply aligned_part; auto with al).
  rewrite slen_part' in * by lia. destruct (size_good_dec t (e - st)); [|discriminate].
  injection E as E. f_equal. apply (local_part s); auto.
Qed.

(** ** Arrays *)
Lemma local_elem h x s s' i r k : usable x -> sp_size x = None -> aligned (sp_align x) s -> len (s_data s) < 2 ^ 63 ->
  s_addr s' = s_addr s -> len (s_data s') = len (s_data s) ->
  nfwa_len h s = Ok k -> i < k ->
  let n := len (s_data s) in let w := sp_width n in let last := le_num (sub (s_data s) (n - w) w) in
  same_at (s_data s) (s_data s') (n - w) w ->
  same_at (s_data s) (s_data s') (last + i * w) w ->
  (0 < i -> same_at (s_data s) (s_data s') (last + (i - 1) * w) w) ->
  nfwa_index h x s i = Ok r -> (within s r -> within s' r) ->
  nfwa_len h s' = Ok k /\ nfwa_index h x s' i = Ok r.
Proof.
  intros [Hm _] Hsz Ha Hl Had Hlen Hk Hi n w last H1 H2 H3 Hr Hw.
  rewrite sp_align_of in Ha. unfold same_at in *.
  change (len (s_data s)) with (blen (s_data s)) in *. change (len (s_data s')) with (blen (s_data s')) in *.
  assert (Hu : blen (s_data s) < usize_lim) by (unfold usize_lim; lia).
  rewrite nfwa_len_ok in Hk by (unfold slen; lia). injection Hk as <-.
  rewrite nfwa_len_ok by (unfold slen; lia).
  assert (E1 : arr_last (s_data s') = arr_last (s_data s)).
  { unfold arr_last, arr_width. rewrite Hlen. f_equal. symmetry. exact H1. }
  assert (E2 : arr_lfo (s_data s') = arr_lfo (s_data s)).
  { unfold arr_lfo, arr_good, arr_width. now rewrite E1, Hlen. }
  assert (E3 : arr_osz (s_data s') = arr_osz (s_data s)) by (unfold arr_osz; now rewrite Hlen).
  assert (E4 : arr_n (s_data s') = arr_n (s_data s)) by (unfold arr_n; now rewrite E2, E3, Hlen).
  split; [now rewrite E4|].
  assert (Hd : 0 < blen (s_data s)).
  { destruct (N.eq_dec (blen (s_data s)) 0) as [E|E]; [|lia]. exfalso. unfold arr_n, arr_lfo in Hi. rewrite E in Hi.
    cbn [N.eqb] in Hi. rewrite N.sub_0_r in Hi. pose proof (arr_osz_pos (s_data s)).
    rewrite N.div_0_l in Hi; lia. }
  assert (E5 : arr_lfo (s_data s) = last).
  { unfold arr_n, arr_lfo in Hi |- *. replace (blen (s_data s) =? 0) with false in * by lia.
    destruct (arr_good (s_data s)); [reflexivity|]. exfalso. rewrite N.sub_diag in Hi.
    pose proof (arr_osz_pos (s_data s)). rewrite N.div_0_l in Hi; lia. }
  assert (E6 : osz_n (arr_osz (s_data s)) = w) by now apply arr_osz_width.
  assert (E7 : arr_end (s_data s') i = arr_end (s_data s) i).
  { unfold arr_end. rewrite E2, E3, E5, E6. f_equal. symmetry. exact H2. }
  assert (E8 : arr_prev (s_data s') i = arr_prev (s_data s) i).
  { unfold arr_prev, arr_end. destruct (i =? 0) eqn:Ei; [reflexivity|]. rewrite E2, E3, E5, E6. f_equal. symmetry.
    apply H3. lia. }
  assert (Ha' : aligned (align_of x) s') by (unfold aligned in *; congruence).
  rewrite nfwa_index_ok in Hr by auto. rewrite nfwa_index_ok by (unfold slen; auto; lia).
  unfold elem_at in *. rewrite E2, E7, E8.
  destruct (align_offset h (trait_align x) (arr_prev (s_data s) i)) as [st|] eqn:Est; [|discriminate].
  cbn [bind] in *.
  destruct ((st <=? arr_end (s_data s) i) && (arr_end (s_data s) i <=? arr_lfo (s_data s))) eqn:Ec; [|exact Hr].
  apply andb_true_iff in Ec as [Ec1 Ec2]. pose proof (arr_lfo_le (s_data s)).
  eapply (local_unwrap h x s s'); eauto; unfold slen; try lia.
  rewrite trait_align_of in Est. eapply align_offset_mod; [| |exact Est]; auto with al. apply arr_prev_bound.
Qed.

(** ** Structures of variable size *)
Lemma calc_local h child b d d' k a c (last_child : bool) nfo : blen d' = blen d -> blen d < 2 ^ 63 ->
  N.of_nat k + 1 < 2 ^ 32 ->
  (sp_width (blen d) * N.of_nat k <= blen d -> st_prev d' k = st_prev d k) ->
  (size_of child = None -> last_child = false -> sp_width (blen d) * (N.of_nat k + 1) <= blen d -> st_end d' k = st_end d k) ->
  calc_offsets h (trait_align child) b d' (Z.of_nat k - 1) a c (size_of child) last_child nfo =
  calc_offsets h (trait_align child) b d (Z.of_nat k - 1) a c (size_of child) last_child nfo.
Proof.
  intros Hl Hu Hk Hp He. unfold calc_offsets. rewrite Zk, Zk2, !nth_last_ok by (unfold usize_lim; lia). rewrite Hl. cbn [bind].
  destruct (sp_width (blen d) * N.of_nat k <=? blen d) eqn:E; [|reflexivity]. rewrite Hp by lia.
  destruct (umul h (osz_n (offset_size (blen d))) nfo) as [m|]; [|reflexivity]. cbn [bind].
  destruct (checked_sub (blen d) m) as [de|]; [|reflexivity].
  destruct (calc_start h (trait_align child) b (st_prev d k) a c) as [st|]; [|reflexivity]. cbn [bind].
  destruct (size_of child); [reflexivity|]. destruct last_child; [reflexivity|].
  destruct (sp_width (blen d) * N.of_nat (S k) <=? blen d) eqn:E2; [|reflexivity].
  unfold st_prev. cbn [sp_prev_end]. rewrite He by (auto; lia). reflexivity.
Qed.
Lemma get_child_local h child b s s' k a c (last_child : bool) nfo r :
  macro_ok child = true -> aligned (align_of child) s ->
  is_alignment b -> align_of child <= b -> c mod align_of child = 0 ->
  slen s < 2 ^ 63 -> a + c + 16 < 2 ^ 40 -> size_or_0 child < 2 ^ 40 ->
  N.of_nat k + 1 < 2 ^ 32 -> nfo < 2 ^ 32 ->
  s_addr s' = s_addr s -> slen s' = slen s ->
  (sp_width (slen s) * N.of_nat k <= slen s -> st_prev (s_data s') k = st_prev (s_data s) k) ->
  (size_of child = None -> last_child = false -> sp_width (slen s) * (N.of_nat k + 1) <= slen s ->
   st_end (s_data s') k = st_end (s_data s) k) ->
  (within s r -> within s' r) ->
  get_child_elem h child b s (Z.of_nat k - 1) a c (size_of child) last_child nfo = Ok r ->
  get_child_elem h child b s' (Z.of_nat k - 1) a c (size_of child) last_child nfo = Ok r.
Proof.
  intros Hm Ha Hb Hle Hc Hl Hac Hsz Hk Hnfo Had Hlen Hp He Hw E. unfold get_child_elem in *.
  assert (Ha' : aligned (align_of child) s') by (unfold aligned in *; congruence).
  rewrite (calc_local h child b (s_data s) (s_data s')) by assumption.
  destruct (calc_offsets_safe h child b (s_data s) k a c last_child nfo) as [Eq|[(st & e & Eq & H1 & H2 & H3)|[Eq Ho]]];
    auto; rewrite Eq in *; try discriminate; cbn [bind] in *; [exact E|].
  change (blen (s_data s)) with (slen s) in *.
  rewrite ix_to_from_k in *; auto with al; try (rewrite trait_align_of; assumption); try lia.
  eapply (local_cast h child s s'); eauto.
Qed.
Definition row_var (ts : list ty) (k : nat) : N := N.of_nat (length (filter (fun t => negb (is_fixed t)) (firstn k ts))).
Lemma nonfixed_local h al s s' (Hal : is_alignment al) (Ha : aligned al s) nfo j child r :
  s_addr s' = s_addr s -> slen s' = slen s -> slen s < 2 ^ 63 -> nfo < 2 ^ 32 ->
  forall children k a b c rs rs',
  is_alignment b ->
  Forall (fun t => macro_ok t = true /\ align_of t <= al) children ->
  a + c + 32 + lay_bound children < 2 ^ 40 ->
  N.of_nat k + N.of_nat (length children) + 1 < 2 ^ 32 ->
  forall i, nth_error children i = Some child -> nth_error rs i = Some r ->
  N.of_nat j = N.of_nat k + row_var children i ->
  (sp_width (slen s) * N.of_nat j <= slen s -> st_prev (s_data s') j = st_prev (s_data s) j) ->
  (size_of child = None -> (S i < length children)%nat -> sp_width (slen s) * (N.of_nat j + 1) <= slen s ->
   st_end (s_data s') j = st_end (s_data s) j) ->
  (within s r -> within s' r) ->
  nonfixed_refs h al nfo s children (table_go (Z.of_nat k - 1) a b c children) = Ok rs ->
  nonfixed_refs h al nfo s' children (table_go (Z.of_nat k - 1) a b c children) = Ok rs' ->
  nth_error rs' i = Some r.
Proof.
  intros Had Hlen Hl Hnfo.
  induction children as [|child0 rest IH]; intros k a b c rs rs' Hb Hch Hlay Hk i Hnth Hr Hj Hp He Hw E E'; [destruct i; discriminate|].
  inversion Hch as [|? ? [Hm Hle] Hch']; subst. cbn [lay_bound length] in Hlay, Hk.
  pose proof (align_of_alignment child0) as Hca.
  assert (Has' : aligned al s') by (unfold aligned in *; congruence).
  destruct (as_aligned_child al s Hal Ha child0 Hle) as [Eas Hac].
  destruct (as_aligned_child al s' Hal Has' child0 Hle) as [Eas' Hac2].
  set (last_child := match rest with [] => true | _ => false end) in *.
  set (a' := if align_of child0 <=? b then a else a + align c b).
  set (b' := if align_of child0 <=? b then b else align_of child0).
  set (c' := if align_of child0 <=? b then align c (align_of child0) else 0).
  assert (Hb8 : b <= 8) by (destruct Hb as [->|[->|[->| ->]]]; lia).
  assert (Hc8 : align_of child0 <= 8) by (destruct Hca as [->|[->|[->| ->]]]; lia).
  assert (Hb' : is_alignment b') by (unfold b'; destruct (_ <=? b); assumption).
  assert (Hle' : align_of child0 <= b') by (unfold b'; destruct (_ <=? b) eqn:Eq; lia).
  assert (Hc' : c' mod align_of child0 = 0).
  { unfold c'. destruct (_ <=? b); [rewrite align_pad_to by assumption; now apply pad_to_mod|reflexivity]. }
  assert (Hac' : a' + c' <= a + c + 8).
  { unfold a', c'. destruct (_ <=? b).
    - rewrite align_pad_to by assumption. pose proof (pad_to_lt (align_of child0) c Hca). lia.
    - rewrite align_pad_to by assumption. pose proof (pad_to_lt b c Hb). lia. }
  assert (Hrow : table_go (Z.of_nat k - 1) a b c (child0 :: rest) =
      @cons row (Z.of_nat k - 1, a', b', c')%Z
      match size_of child0 with
      | Some size => table_go (Z.of_nat k - 1) a' b' (c' + size) rest
      | None => table_go (Z.of_nat (S k) - 1) 0 1 0 rest
      end).
  { cbn [table_go]. unfold a', b', c'. destruct (align_of child0 <=? b); f_equal;
      destruct (size_of child0); try reflexivity; f_equal; lia. }
  rewrite Hrow in E, E'. cbn [nonfixed_refs] in E, E'. rewrite Eas in E. rewrite Eas' in E'. cbn [bind] in E, E'.
  fold last_child in E, E'.
  destruct (get_child_elem h child0 b' s (Z.of_nat k - 1) a' c' (size_of child0) last_child nfo) as [r0|] eqn:Er; [|discriminate].
  destruct (get_child_elem h child0 b' s' (Z.of_nat k - 1) a' c' (size_of child0) last_child nfo) as [r0'|] eqn:Er'; [|discriminate].
  cbn [bind] in E, E'.
  match type of E with context [nonfixed_refs h al nfo s rest ?rows] => set (rr := rows) in * end.
  destruct (nonfixed_refs h al nfo s rest rr) as [rs0|] eqn:Ers; [|discriminate]. injection E as <-.
  destruct (nonfixed_refs h al nfo s' rest rr) as [rs0'|] eqn:Ers'; [|discriminate]. injection E' as <-.
  assert (Hsz : size_or_0 child0 < 2 ^ 40) by lia.
  destruct i as [|i]; cbn [nth_error] in *.
  - injection Hnth as ->. injection Hr as ->.
    assert (j = k) by (unfold row_var in Hj; cbn [firstn filter length] in Hj; lia). subst j.
    assert (El : get_child_elem h child b' s' (Z.of_nat k - 1) a' c' (size_of child) last_child nfo = Ok r).
    { eapply get_child_local with (s := s); eauto; try lia.
      intros H1 H2 H3. apply He; auto. unfold last_child in H2. destruct rest; [discriminate|]. cbn [length]. lia. }
    congruence.
  - unfold rr in *. cbn [length] in *.
    assert (Hrv : row_var (child0 :: rest) (S i) = (if size_of child0 then 0 else 1) + row_var rest i).
    { unfold row_var. cbn [firstn filter]. unfold is_fixed at 1. destruct (size_of child0); cbn [negb length]; lia. }
    rewrite Hrv in Hj. destruct (size_of child0) as [size|] eqn:Esz.
    + unfold size_or_0 in Hlay, Hsz. rewrite Esz in Hlay, Hsz.
      eapply (IH k a' b' (c' + size)); eauto; try lia; intros; apply He; auto; lia.
    + eapply (IH (S k) 0 1 0); eauto; try lia; left; reflexivity.
Qed.

(** ** Structures of fixed size *)
Lemma fields_local s s' r : s_addr s' = s_addr s -> slen s' = slen s ->
  forall ts pos rs rs' i,
  Forall (fun t => is_fixed t = true /\ aligned (align_of t) s) ts ->
  walk_end pos (fixed_items ts) <= slen s ->
  nth_error rs i = Some r -> (within s r -> within s' r) ->
  field_refs s (sp_field_offsets pos (fixed_items ts)) (declared ts) = Ok rs ->
  field_refs s' (sp_field_offsets pos (fixed_items ts)) (declared ts) = Ok rs' ->
  nth_error rs' i = Some r.
Proof.
  intros Had Hlen. induction ts as [|t ts IH]; intros pos rs rs' i HF Hend Hr Hw E E'.
  - injection E as <-. destruct i; discriminate.
  - inversion HF as [|? ? [Hf Ha] HF']; subst.
    cbn [fixed_items map sp_field_offsets declared field_refs] in *.
    fold (fixed_items ts) in *. fold (declared ts) in *. cbn [walk_end] in Hend.
    set (n := size_or_0 t) in *.
    pose proof (align_of_alignment t) as Hal. set (st := pad_to (align_of t) pos) in *.
    assert (Hst : st mod align_of t = 0) by (apply pad_to_mod; assumption).
    assert (Hge : st + n <= walk_end (st + n) (fixed_items ts)).
    { rewrite walk_end_fold. apply fold_lay_ge. clear. induction ts as [|x ts IH]; constructor; auto.
      apply align_of_alignment. }
    unfold field_ref in E, E'. rewrite Had in E'. unfold aligned in Ha. rewrite align_add in E, E' by assumption.
    cbn [N.eqb bind] in E, E'.
    destruct (field_refs s (sp_field_offsets (st + n) (fixed_items ts)) (declared ts)) as [rs0|] eqn:Ers; [|discriminate].
    destruct (field_refs s' (sp_field_offsets (st + n) (fixed_items ts)) (declared ts)) as [rs0'|] eqn:Ers'; [|discriminate].
    injection E as <-. injection E' as <-. destruct i as [|i]; cbn [nth_error] in *.
    + injection Hr as Hr. f_equal. rewrite <- Had.
      assert (Ep : forall u, Slice (s_addr u + st) (take n (drop st (s_data u))) = part u st (st + n)).
      { intros u. unfold part. do 2 f_equal. lia. }
      rewrite Ep in *. apply (local_part s); auto; lia.
    + eapply (IH (st + n)); eauto.
Qed.

Lemma var_before_row ts k : var_before ts k = row_var ts k.
Proof.
  unfold var_before, row_var. do 2 f_equal. apply filter_ext. intros t. unfold is_fixed.
  rewrite sp_size_of. now destruct (size_of t).
Qed.
Lemma local_member h t s s' rs rs' i c r : usable t -> sp_is_struct t = true -> aligned (sp_align t) s ->
  len (s_data s) < 2 ^ 63 -> (forall n, sp_size t = Some n -> len (s_data s) = n) ->
  s_addr s' = s_addr s -> len (s_data s') = len (s_data s) ->
  to_tuple h t s = Ok rs -> to_tuple h t s' = Ok rs' ->
  nth_error (sp_components t) i = Some c -> nth_error rs i = Some r ->
  let m := var_before (sp_components t) i in
  (sp_size t = None -> 0 < m -> same_offset (s_data s) (s_data s') (m - 1)) ->
  (sp_size c = None -> (S i < length (sp_components t))%nat -> same_offset (s_data s) (s_data s') m) ->
  (within s r -> within s' r) ->
  nth_error rs' i = Some r.
Proof.
  intros [Hm Htl] Hst Ha Hl Hfix Had Hlen Hr Hr' Hc Hnr m H1 H2 Hw. rewrite sp_align_of in Ha. rewrite sp_size_of in Hfix, H1, H2.
  change (len (s_data s)) with (slen s) in *. change (len (s_data s')) with (slen s') in *.
  rewrite type_len_show in Htl.
  assert (Hs : is_struct t) by (destruct t; try discriminate; exact I).
  assert (Ecc : sp_components t = children_of t) by (destruct t; try discriminate; reflexivity).
  pose proof (struct_children_ok t Hs Hm) as Hch. destruct (struct_bounds t Hs Htl) as [Hlb Hln].
  unfold to_tuple in Hr, Hr'. destruct (size_of t) as [n|] eqn:En.
  - rewrite (field_offsets_ok t n) in Hr, Hr' by assumption.
    pose proof (fixed_children t n Hs En) as Hfx.
    rewrite mem_layouts_declared in Hr, Hr'.
    2,3:rewrite Forall_forall in *; intros x Hx; specialize (Hfx x Hx); destruct (Hch x Hx) as [Hmc _];
        unfold is_fixed in Hfx; unfold size_or_0; destruct (size_of x) eqn:Ec; [|discriminate];
        now apply mem_layout_ok.
    eapply (fields_local s s' r Had Hlen (children_of t) 0); eauto.
    { rewrite Forall_forall in *. intros x Hx. split; [auto|]. destruct (Hch x Hx).
      eapply (aligned_le _ (align_of t)); auto with al. }
    pose proof (size_of_fixed_struct t n Hs En) as Hsz. specialize (Hfix n eq_refl).
    rewrite Hfix, Hsz.
    destruct (children_of t) as [|c0 cs0]; [cbn; lia|]. apply pad_to_ge; auto with al.
  - specialize (H1 eq_refl). rewrite n_frame_offsets_spec in Hr, Hr'. pose proof (sp_n_offsets_le (children_of t)) as Hno.
    rewrite Ecc in *. assert (Em : m = row_var (children_of t) i) by (unfold m; rewrite Ecc; apply var_before_row).
    clearbody m.
    eapply (nonfixed_local h (align_of t) s s' (align_of_alignment t) Ha (sp_n_offsets (items_of (children_of t))) (N.to_nat m) c r Had Hlen Hl ltac:(lia)
              (children_of t) 0 0 1 0); eauto; try lia.
    + left; reflexivity.
    + rewrite N2Nat.id. intros Hlw. remember (N.to_nat m) as m1 eqn:Emn. destruct m1 as [|m']; [reflexivity|].
      unfold st_prev. cbn [sp_prev_end]. unfold st_end. change (blen (s_data s')) with (slen s'). rewrite Hlen. f_equal. symmetry.
      unfold same_offset, same_at in H1. change (len (s_data s)) with (slen s) in H1.
      replace (N.of_nat m' + 1) with (m - 1 + 1) by lia. apply H1; [lia|]. replace (m - 1 + 1) with m by lia. exact Hlw.
    + rewrite N2Nat.id. intros Hcs Hi Hlw. unfold st_end. change (blen (s_data s')) with (slen s'). rewrite Hlen. f_equal. symmetry.
      rewrite N2Nat.id. now apply H2.
Qed.
