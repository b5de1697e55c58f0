(** Reading with overflow checks: proofs. *)
From Verif Require Import Base Types Layout AlignedBytes Strs Spec Deser Histories LongSpec TableSpec SumSpec
  BaseFacts TypesFacts LayoutFacts AlignedFacts Utf8Facts DeserFacts ArrayFacts StructFacts ReadFacts AccessFacts ReadClaims TableFacts.
From Coq Require Import Lia ZifyBool ZifyNat ZifyN.
Ltac Zify.zify_post_hook ::= idtac.

(** ** Elements *)
Lemma in_64_lim n : in_64 n = (n <? usize_lim). Proof. reflexivity. Qed.
Lemma elem_at_sums h x s i : h_overflow_checks h = true -> macro_ok x = true -> aligned (align_of x) s -> size_of x = None ->
  if in_64 (arr_prev (s_data s) i + align_of x)
  then elem_view h x (arr_cut (align_of x) (s_data s) i) (elem_at h x s i)
  else elem_at h x s i = Crash POverflow.
Proof.
  intros Ho Hm Ha Hn. rewrite in_64_lim. destruct (_ <? usize_lim) eqn:E64.
  - apply N.ltb_lt in E64. unfold elem_view, elem_at, arr_cut, cut. rewrite trait_align_of.
    rewrite align_offset_ok by (auto with al). cbn [bind].
    pose proof (arr_lfo_le (s_data s)) as Hle.
    set (st := pad_to (align_of x) (arr_prev (s_data s) i)). set (e := arr_end (s_data s) i).
    destruct ((st <=? e) && (e <=? arr_lfo (s_data s))) eqn:E.
    + assert (Hp : aligned (align_of x) (part s st e))
        by (apply aligned_part; auto with al; apply pad_to_mod; auto with al).
      rewrite cast_unwrap_cases by assumption. unfold slen. rewrite part_sub.
      destruct (size_good_dec x _) as [Hg|Hg]; [|reflexivity].
      eexists. split; [reflexivity|]. split; [split; [assumption|]|apply part_sub].
      unfold slen. now rewrite part_sub.
    + destruct (empty_aligned_static h (align_of x)) as (z & -> & Hz & Hza & Hzs); auto with al.
      cbn [bind]. rewrite cast_unwrap_empty by assumption.
      exists z. split; [reflexivity|]. split; [split; [assumption|]|assumption].
      unfold size_good, slen. rewrite Hn, Hz. destruct x; auto.
      destruct (size_of x) as [m|] eqn:Em; [|exact I]. apply size_of_props in Em as [Em _].
      cbn [blen length N.of_nat]. apply N.mod_0_l. lia.
  - apply N.ltb_ge in E64. unfold elem_at. rewrite trait_align_of.
    destruct (align_offset_checked_panics h (align_of x) (arr_prev (s_data s) i) Ho) as [_ H]; auto with al.
    { apply arr_prev_bound. }
    rewrite H by exact E64. reflexivity.
Qed.
Lemma removelast_map {A B} (f : A -> B) l : removelast (map f l) = map f (removelast l).
Proof. induction l as [|a [|b l] IH]; [reflexivity..|]. cbn [map removelast] in *. f_equal. apply IH. Qed.
Lemma forallb_prev (P : N -> bool) d k : forall i, P (arr_prev d i) = true ->
  forallb P (removelast (map (arr_end d) (indices i k))) = forallb (fun i => P (arr_prev d i)) (indices i k).
Proof.
  induction k as [|k IH]; intros i Hi; [reflexivity|]. rewrite indices_S. cbn [map forallb]. rewrite Hi. cbn [andb].
  destruct k as [|k]; [reflexivity|].
  assert (E : arr_prev d (i + 1) = arr_end d i) by (unfold arr_prev; replace (i + 1 =? 0) with false by lia; now rewrite N.add_sub).
  specialize (IH (i + 1)). rewrite E in IH.
  assert (R : forall l, l <> [] -> removelast (arr_end d i :: l) = arr_end d i :: removelast l) by (intros [|? ?]; [congruence|reflexivity]).
  rewrite R by (rewrite indices_S; discriminate). cbn [forallb].
  destruct (P (arr_end d i)) eqn:Ep.
  - cbn [andb]. now apply IH.
  - rewrite indices_S. cbn [forallb]. now rewrite E, Ep.
Qed.
Lemma sp_array_sums_map al d : is_alignment al ->
  sp_array_sums al d = forallb (fun i => in_64 (arr_prev d i + al)) (indices 0 (N.to_nat (arr_n d))).
Proof.
  intros Hal. unfold sp_array_sums. change (len d) with (blen d).
  destruct (blen d =? 0) eqn:E0.
  { apply N.eqb_eq in E0. unfold arr_n, arr_lfo. rewrite E0. reflexivity. }
  fold (arr_width d). fold (arr_last d). fold (arr_good d).
  assert (Hpos : 0 < blen d) by lia.
  destruct (arr_good d) eqn:Eg.
  - assert (El : arr_lfo d = arr_last d) by (unfold arr_lfo; now rewrite E0, Eg).
    rewrite <- El. rewrite <- (arr_osz_width d Hpos). fold (arr_n d).
    rewrite <- (forallb_prev (fun e => in_64 (e + al))).
    2:{ cbn. destruct Hal as [->|[->|[->| ->]]]; reflexivity. }
    f_equal. f_equal. unfold indices. rewrite map_map. apply map_ext.
    intros j. unfold arr_end. now rewrite N.add_0_l.
  - assert (El : arr_lfo d = blen d) by (unfold arr_lfo; now rewrite E0, Eg).
    assert (En : arr_n d = 0).
    { pose proof (arr_lfo_mod d) as H. rewrite El, N.sub_diag in H. pose proof (arr_osz_pos d). nia. }
    rewrite En. reflexivity.
Qed.

(** ** Components *)
Definition row_in (d : list byte) (k : nat) (a b c size : N) : bool :=
  in_64 (st_prev d k + a + b) && in_64 (pad_to b (st_prev d k + a) + c + size).
Lemma calc_offsets_sums h child b d k a c (last_child : bool) nfo : h_overflow_checks h = true ->
  is_alignment b -> align_of child <= b -> c mod align_of child = 0 ->
  blen d < 2 ^ 63 -> N.of_nat k + 1 < 2 ^ 32 -> nfo < 2 ^ 32 ->
  (if size_of child then True else if last_child then True else N.of_nat k + 1 <= nfo) ->
  N.of_nat k <= nfo ->
  let w := sp_width (blen d) in
  let start := pad_to b (st_prev d k + a) + c in
  let stop := st_stop d (blen d - w * nfo) start (size_of child) last_child k in
  calc_offsets h (trait_align child) b d (Z.of_nat k - 1) a c (size_of child) last_child nfo =
  if (w * nfo <=? blen d) && negb (row_in d k a b c (size_or_0 child)) then Crash POverflow
  else Ok (offsets_view d w nfo start stop).
Proof.
  intros Ho Hb Hle Hc Hl Hk Hnfo Hk2 Hk1 w start stop. unfold calc_offsets, offsets_view.
  rewrite Zk, Zk2, nth_last_ok by (unfold usize_lim; lia). cbn [bind]. fold w.
  assert (Hw : w <= 8).
  { unfold w, sp_width. repeat destruct (_ =? _); repeat destruct (_ <? _); lia. }
  assert (Hwk : w * N.of_nat k <= w * nfo) by nia.
  rewrite offset_size_width. fold w.
  destruct (w * nfo <=? blen d) eqn:Enfo.
  2:{ cbn [andb]. destruct (w * N.of_nat k <=? blen d); [|reflexivity].
      rewrite umul_ok by (unfold usize_lim; nia). cbn [bind]. unfold checked_sub.
      now rewrite Enfo. }
  replace (w * N.of_nat k <=? blen d) with true by lia.
  rewrite umul_ok by (unfold usize_lim; nia). cbn [bind]. unfold checked_sub. rewrite Enfo. cbn [andb].
  unfold row_in. rewrite !in_64_lim. unfold calc_start. rewrite trait_align_of.
  assert (Hb1 : 1 <= b) by (destruct Hb as [->|[->|[->| ->]]]; lia).
  destruct (st_prev d k + a + b <? usize_lim) eqn:E1.
  2:{ cbn [andb negb]. destruct (N.lt_ge_cases (st_prev d k + a) usize_lim) as [Hlt|Hge].
      - rewrite uadd_ok by assumption. cbn [bind].
        destruct (align_offset_checked_panics h b (st_prev d k + a) Ho) as [_ H]; auto.
        rewrite H by lia. reflexivity.
      - unfold uadd at 1. replace (st_prev d k + a <? usize_lim) with false by lia. rewrite Ho. reflexivity. }
  rewrite uadd_ok by lia. cbn [bind]. rewrite align_offset_ok by (auto; lia). cbn [bind andb].
  unfold ao_into. replace (align_of child <=? b) with true by lia. cbn [bind].
  unfold try_new. rewrite Hc. cbn [N.eqb bind]. unfold ao_add. fold start.
  unfold stop, st_stop, size_or_0 in *.
  destruct (start + match size_of child with Some n => n | None => 0 end <? usize_lim) eqn:E2; cbn [negb].
  - rewrite uadd_ok by (fold start; lia). fold start. cbn [bind].
    destruct (size_of child) as [sz|] eqn:Esz.
    + rewrite uadd_ok by lia. cbn [bind]. destruct (_ && _); reflexivity.
    + destruct last_child; cbn [bind].
      * destruct (_ && _); reflexivity.
      * rewrite nth_last_ok by (unfold usize_lim; lia). cbn [bind]. fold w.
        replace (w * N.of_nat (S k) <=? blen d) with true by nia.
        cbn [st_prev sp_prev_end]. unfold st_prev, sp_prev_end. destruct (_ && _); reflexivity.
  - destruct (N.lt_ge_cases start usize_lim) as [Hlt|Hge].
    + rewrite uadd_ok by (fold start; lia). fold start. cbn [bind].
      destruct (size_of child) as [sz|] eqn:Esz; [|lia].
      unfold uadd. rewrite E2, Ho. reflexivity.
    + unfold uadd at 1. fold start. replace (start <? usize_lim) with false by lia. rewrite Ho. reflexivity.
Qed.
Lemma get_child_sums h child b s k a c (last_child : bool) nfo : h_overflow_checks h = true ->
  macro_ok child = true -> aligned (align_of child) s ->
  is_alignment b -> align_of child <= b -> c mod align_of child = 0 ->
  slen s < 2 ^ 63 -> N.of_nat k + 1 < 2 ^ 32 -> nfo < 2 ^ 32 ->
  (if size_of child then True else if last_child then True else N.of_nat k + 1 <= nfo) ->
  N.of_nat k <= nfo ->
  let d := s_data s in
  let w := sp_width (blen d) in
  let start := pad_to b (st_prev d k + a) + c in
  let stop := st_stop d (blen d - w * nfo) start (size_of child) last_child k in
  if (w * nfo <=? blen d) && negb (row_in d k a b c (size_or_0 child))
  then get_child_elem h child b s (Z.of_nat k - 1) a c (size_of child) last_child nfo = Crash POverflow
  else exists r, get_child_elem h child b s (Z.of_nat k - 1) a c (size_of child) last_child nfo = Ok r /\
    child_view h s child (if w * nfo <=? blen d then cut d start stop (blen d - w * nfo) else None) r.
Proof.
  intros Ho Hm Ha Hb Hle Hc Hl Hk Hnfo Hk2 Hk1 d w start stop. unfold get_child_elem.
  rewrite calc_offsets_sums by assumption. fold d w start stop.
  destruct ((w * nfo <=? blen d) && negb _) eqn:Eov; [reflexivity|].
  cbn [bind]. unfold offsets_view.
  assert (Hdef : exists r, default_ref h child = Ok r /\ child_view h s child None r).
  { destruct (default_ref_ok h child Hm) as (r & Er & Hd & Hr & Hs). exists r.
    split; [exact Er|]. split; [exact Hr|]. split; [apply placed_static; assumption|exact Hd]. }
  destruct (w * nfo <=? blen d); [|exact Hdef]. unfold cut.
  destruct ((start <=? stop) && _) eqn:E; [|exact Hdef].
  assert (Hsm : start mod align_of child = 0).
  { unfold start. apply align_add; auto with al.
    apply (align_divides _ b); auto with al. now apply pad_to_mod. }
  rewrite ix_to_from_k; auto with al; try (rewrite trait_align_of; assumption); try (unfold slen; fold d; lia).
  destruct (cast_ok h child (part s start stop)) as (r & Er & Hr & Hd & Hp); auto.
  { apply aligned_part; auto with al. }
  exists r. split; [exact Er|]. split; [exact Hr|]. split.
  - destruct Hp as [->|[Hp Hpd]]; [left|apply placed_static; assumption]. exists start, stop. unfold slen. fold d. repeat split; lia.
  - rewrite Hd. now rewrite part_sub.
Qed.

(** Rows of the table, [b] being the alignment itself. *)
Definition row_sums (d : list byte) (p : row * ty) : bool :=
  let '(i, a, b, c, t) := p in row_in d (Z.to_nat (i + 1)) a b c (size_or_0 t).
Lemma nonfixed_refs_sums h al s nfo children : h_overflow_checks h = true -> is_alignment al -> aligned al s ->
  slen s < 2 ^ 63 -> nfo < 2 ^ 32 ->
  forall k a b c,
  is_alignment b ->
  Forall (fun t => macro_ok t = true /\ align_of t <= al) children ->
  N.of_nat k + N.of_nat (length children) + 1 < 2 ^ 32 ->
  (children <> [] -> N.of_nat k + sp_n_offsets (items_of children) = nfo) ->
  let d := s_data s in
  let w := sp_width (blen d) in
  let rows := table_go (Z.of_nat k - 1) a b c children in
  if (w * nfo <=? blen d) && negb (forallb (row_sums d) (combine rows children))
  then nonfixed_refs h al nfo s children rows = Crash POverflow
  else exists rs,
    nonfixed_refs h al nfo s children rows = Ok rs /\
    Forall2 (fun p r => child_view h s (fst p) (snd p) r)
      (combine children (if w * nfo <=? blen d
                         then sp_struct_cut d w (blen d - w * nfo)
                                (pad_to b (st_prev d k + a) + c) (N.of_nat k) (items_of children)
                         else map (fun _ => None) (items_of children))) rs.
Proof.
  intros Ho Hal Ha Hl Hnfo. induction children as [|child rest IH]; intros k a b c Hb Hch Hk Hoff d w rows.
  - cbn [rows table_go combine forallb negb]. rewrite andb_false_r. exists []. split; [reflexivity|constructor].
  - inversion Hch as [|? ? [Hm Hle] Hch']; subst. cbn [length] in Hk.
    pose proof (align_of_alignment child) as Hca.
    destruct (as_aligned_child al s Hal Ha child Hle) as [Eas Hac].
    set (last_child := match rest with [] => true | _ => false end).
    set (a' := if align_of child <=? b then a else a + align c b).
    set (b' := if align_of child <=? b then b else align_of child).
    set (c' := if align_of child <=? b then align c (align_of child) else 0).
    assert (Hb' : is_alignment b') by (unfold b'; destruct (_ <=? b); assumption).
    assert (Hle' : align_of child <= b') by (unfold b'; destruct (_ <=? b) eqn:E; lia).
    assert (Hc' : c' mod align_of child = 0).
    { unfold c'. destruct (_ <=? b); [rewrite align_pad_to by assumption; now apply pad_to_mod|reflexivity]. }
    assert (Hpos : pad_to b' (st_prev d k + a') + c' = pad_to (align_of child) (pad_to b (st_prev d k + a) + c)).
    { unfold a', b', c'. destruct (align_of child <=? b) eqn:E.
      - rewrite align_pad_to, merge_rule_1 by (auto; lia). reflexivity.
      - rewrite align_pad_to, merge_rule_2 by (auto; lia). rewrite N.add_0_r. f_equal. lia. }
    assert (Hrow : rows =
      @cons row (Z.of_nat k - 1, a', b', c')%Z
      match size_of child with
      | Some size => table_go (Z.of_nat k - 1) a' b' (c' + size) rest
      | None => table_go (Z.of_nat (S k) - 1) 0 1 0 rest
      end).
    { unfold rows. cbn [table_go]. unfold a', b', c'. destruct (align_of child <=? b); f_equal;
        destruct (size_of child); try reflexivity; f_equal; lia. }
    rewrite Hrow. clear Hrow rows. cbn [nonfixed_refs combine forallb row_sums]. rewrite Eas. cbn [bind]. fold last_child.
    replace (Z.to_nat (Z.of_nat k - 1 + 1)) with k by lia.
    assert (Hk1 : N.of_nat k + sp_n_offsets (items_of (child :: rest)) = nfo) by (apply Hoff; discriminate).
    assert (Hn : sp_n_offsets (items_of (child :: rest)) =
      if last_child then 0 else (if size_of child then 0 else 1) + sp_n_offsets (items_of rest)).
    { unfold last_child. cbn [items_of map]. fold (items_of rest). cbn [sp_n_offsets].
      destruct rest as [|y rest]; [destruct (size_of child); reflexivity|].
      cbn [items_of map]. destruct (size_of child); reflexivity. }
    rewrite Hn in Hk1.
    assert (Hv : if (w * nfo <=? blen d) && negb (row_in d k a' b' c' (size_or_0 child))
      then get_child_elem h child b' s (Z.of_nat k - 1) a' c' (size_of child) last_child nfo = Crash POverflow
      else exists r, get_child_elem h child b' s (Z.of_nat k - 1) a' c' (size_of child) last_child nfo = Ok r /\
        child_view h s child (if w * nfo <=? blen d then cut d (pad_to b' (st_prev d k + a') + c')
          (st_stop d (blen d - w * nfo) (pad_to b' (st_prev d k + a') + c') (size_of child) last_child k) (blen d - w * nfo) else None) r).
    { apply get_child_sums; auto; try lia. destruct (size_of child); [exact I|]. destruct last_child; [exact I|]. lia. }
    rewrite Hpos in Hv.
    set (pos := pad_to (align_of child) (pad_to b (st_prev d k + a) + c)) in *.
    set (rows := match size_of child with
                 | Some size => table_go (Z.of_nat k - 1) a' b' (c' + size) rest
                 | None => table_go (Z.of_nat (S k) - 1) 0 1 0 rest
                 end).
    assert (HIH : if (w * nfo <=? blen d) && negb (forallb (row_sums d) (combine rows rest))
      then nonfixed_refs h al nfo s rest rows = Crash POverflow
      else exists rs, nonfixed_refs h al nfo s rest rows = Ok rs /\
      Forall2 (fun p r => child_view h s (fst p) (snd p) r)
        (combine rest (if w * nfo <=? blen d
           then match size_of child with
                | Some size => sp_struct_cut d w (blen d - w * nfo) (pos + size) (N.of_nat k) (items_of rest)
                | None => sp_struct_cut d w (blen d - w * nfo) (st_end d k) (N.of_nat k + 1) (items_of rest)
                end
           else map (fun _ => None) (items_of rest))) rs).
    { unfold rows. destruct (size_of child) as [size|] eqn:Esz.
      - specialize (IH k a' b' (c' + size) Hb' Hch' ltac:(lia)). 
        assert (Hx : rest <> [] -> N.of_nat k + sp_n_offsets (items_of rest) = nfo).
        { intros Hr. destruct rest; [congruence|]. cbn [last_child] in Hk1. lia. }
        specialize (IH Hx). cbn zeta in IH. fold d w in IH.
        replace (pad_to b' (st_prev d k + a') + (c' + size)) with (pos + size) in IH by lia.
        exact IH.
      - specialize (IH (S k) 0 1 0 ltac:(left; reflexivity) Hch' ltac:(lia)).
        assert (Hx : rest <> [] -> N.of_nat (S k) + sp_n_offsets (items_of rest) = nfo).
        { intros Hr. destruct rest; [congruence|]. cbn [last_child] in Hk1. lia. }
        specialize (IH Hx). cbn zeta in IH. fold d w in IH.
        replace (pad_to 1 (st_prev d (S k) + 0) + 0) with (st_end d k) in IH
          by (rewrite pad_to_1; cbn [st_prev sp_prev_end]; unfold st_prev, sp_prev_end; lia).
        replace (N.of_nat (S k)) with (N.of_nat k + 1) in IH by lia.
        replace (Z.of_nat (S k) - 1)%Z with (Z.of_nat k)%Z in * by lia. exact IH. }
    clearbody rows.
    destruct (row_in d k a' b' c' (size_or_0 child)) eqn:Erow.
    2:{ cbn [andb negb]. rewrite andb_true_r in *. destruct (w * nfo <=? blen d) eqn:Ew.
        - rewrite Hv. reflexivity.
        - cbn [andb] in HIH. destruct Hv as (r & Er & Hv). destruct HIH as (rs & Ers & HF).
          rewrite Er. cbn [bind]. rewrite Ers. cbn [bind]. exists (r :: rs). split; [reflexivity|].
          cbn [items_of map combine]. fold (items_of rest). constructor; [exact Hv|exact HF]. }
    cbn [negb andb] in *. rewrite andb_false_r in Hv. destruct Hv as (r & Er & Hv). rewrite Er. cbn [bind].
    destruct ((w * nfo <=? blen d) && negb (forallb (row_sums d) (combine rows rest))).
    { rewrite HIH. reflexivity. }
    destruct HIH as (rs & Ers & HF). rewrite Ers. cbn [bind]. exists (r :: rs). split; [reflexivity|].
    cbn [items_of map]. fold (items_of rest).
    destruct (w * nfo <=? blen d).
    + cbn [sp_struct_cut]. fold pos. unfold st_stop in Hv.
      destruct (size_of child) as [size|].
      * cbn [combine]. constructor; [exact Hv|exact HF].
      * unfold last_child in Hv. destruct rest as [|y rest].
        -- cbn [items_of map combine]. constructor; [exact Hv|]. inversion HF. constructor.
        -- destruct (items_of (y :: rest)) eqn:Ei; [discriminate|]. rewrite <- Ei in *.
           cbn [combine]. constructor; [exact Hv|exact HF].
    + cbn [map combine]. constructor; [exact Hv|exact HF].
Qed.
Lemma row_sums_spec d p t : row_sums d (pow_row p, t) = sp_row_sums d (sp_width (blen d)) (p, sp_size t).
Proof.
  destruct p as [[[i a] b] c]. cbn [pow_row row_sums sp_row_sums]. unfold row_in. rewrite sp_size_of. fold (size_or_0 t).
  change (len d) with (blen d).
  assert (E : st_prev d (Z.to_nat (i + 1)) =
    if (i <? 0)%Z then 0 else le_num (sub d (blen d - sp_width (blen d) * (Z.to_N i + 1)) (sp_width (blen d)))).
  { destruct (i <? 0)%Z eqn:E.
    - replace (Z.to_nat (i + 1)) with 0%nat by lia. reflexivity.
    - replace (Z.to_nat (i + 1)) with (S (Z.to_nat i)) by lia.
      unfold st_prev, sp_prev_end, st_end. replace (N.of_nat (Z.to_nat i)) with (Z.to_N i) by lia. reflexivity. }
  rewrite E. reflexivity.
Qed.
Lemma rows_sums_spec d l : forall ts, forallb (row_sums d) (combine (map pow_row l) ts) =
  forallb (sp_row_sums d (sp_width (blen d))) (combine l (map sp_size ts)).
Proof.
  induction l as [|p l IH]; intros [|t ts]; cbn [map combine forallb]; try reflexivity.
  rewrite row_sums_spec, IH. reflexivity.
Qed.
Lemma sp_struct_sums_rows ts d : sp_struct_sums ts d =
  negb ((sp_width (blen d) * sp_n_offsets (items_of ts) <=? blen d) &&
        negb (forallb (row_sums d) (combine (table_go (-1)%Z 0 1 0 ts) ts))).
Proof.
  unfold sp_struct_sums. rewrite sp_items_of. change (len d) with (blen d).
  destruct (_ <=? blen d); [|reflexivity]. cbn [andb]. rewrite negb_involutive.
  change 1 with (2 ^ 0). rewrite (table_loop ts (-1)%Z 0 0 0) by (left; reflexivity).
  symmetry. apply rows_sums_spec.
Qed.
Lemma to_tuple_sums h t s : h_overflow_checks h = true -> is_struct t -> macro_ok t = true -> type_len t < 2 ^ 32 ->
  size_of t = None -> ref_ok t s -> slen s < 2 ^ 63 ->
  if sp_struct_sums (children_of t) (s_data s)
  then exists rs, to_tuple h t s = Ok rs /\
    Forall2 (fun p r => child_view h s (fst p) (snd p) r)
            (combine (children_of t) (struct_cuts t (s_data s))) rs
  else to_tuple h t s = Crash POverflow.
Proof.
  intros Ho Hs Hm Htl En [Ha Hg] Hl. unfold to_tuple, struct_cuts. rewrite En.
  destruct (struct_bounds t Hs Htl) as [Hlb Hlen].
  pose proof (struct_children_ok t Hs Hm) as Hch.
  rewrite n_frame_offsets_spec. pose proof (sp_n_offsets_le (children_of t)) as Hno.
  pose proof (nonfixed_refs_sums h (align_of t) s (sp_n_offsets (items_of (children_of t))) (children_of t)
     Ho (align_of_alignment t) Ha Hl ltac:(lia) 0 0 1 0 ltac:(left; reflexivity) Hch ltac:(lia) ltac:(auto; lia)) as H.
  cbn zeta in H. rewrite sp_struct_sums_rows.
  replace (pad_to 1 (st_prev (s_data s) 0 + 0) + 0) with 0 in H by reflexivity.
  change (Z.of_nat 0 - 1)%Z with (-1)%Z in H. unfold generate_table.
  destruct (_ && negb _); cbn [negb]; exact H.
Qed.

(** ** The specification in one form *)
Lemma sp_sums_fixed t n d : size_of t = Some n -> sp_sums t d = true.
Proof.
  intros Hn. destruct t; try reflexivity; try discriminate; cbn [sp_sums]; rewrite sp_size_of, Hn; reflexivity.
Qed.
Lemma sp_sums_norm t d : sp_sums t d = sp_sums t (Some (norm t d)).
Proof.
  destruct (size_of t) as [n|] eqn:En; [now rewrite !(sp_sums_fixed t n)|].
  destruct t as [| | | | | | | | | | | | |x|x|ts|k v]; try reflexivity.
  - cbn [sp_sums]. rewrite sp_size_of. destruct (size_of x) as [n|] eqn:Ex; [reflexivity|].
    rewrite norm_var; [reflexivity|reflexivity|]. intros y Hy. injection Hy as <-. exact Ex.
  - cbn [sp_sums]. rewrite (norm_var (TM x)) by (reflexivity || discriminate). reflexivity.
  - cbn [sp_sums]. rewrite (norm_var (TTuple ts)) by (assumption || discriminate). reflexivity.
  - cbn [sp_sums]. rewrite (norm_var (TDict k v)) by (assumption || discriminate). reflexivity.
Qed.
Definition sums_all (ts : list ty) (cs : list (option (list byte))) : bool :=
  forallb (fun p => sp_sums (fst p) (snd p)) (combine ts cs).
Lemma sp_sums_struct t d : is_struct t -> size_of t = None ->
  sp_sums t (Some d) = sp_struct_sums (children_of t) d && sums_all (children_of t) (struct_cuts t d).
Proof.
  intros Hs Hn. unfold sums_all, struct_cuts. rewrite Hn.
  destruct t as [| | | | | | | | | | | | |x|x|ts|k v]; cbn [is_struct] in Hs; try tauto; cbn [sp_sums children_of] in *;
    rewrite sp_size_of, Hn, sp_items_of; f_equal.
  - generalize (sp_struct_children (items_of ts) d). clear.
    induction ts as [|t ts IH]; intros [|c cs]; cbn [combine forallb]; try reflexivity.
    cbn [fst snd]. f_equal. apply IH.
  - pose proof (sp_struct_children_length (items_of [k; v]) d) as Hl.
    change (length (items_of [k; v])) with 2%nat in Hl.
    destruct (sp_struct_children _ d) as [|a [|b [|c l]]]; cbn [length] in Hl; try lia.
    cbn [combine forallb fst snd]. now rewrite andb_true_r.
Qed.

(** ** Reading *)
Definition agrees (r : res value) (reads sums : bool) (v : value) : Prop :=
  match r with
  | Ok x => reads = true /\ sums = true /\ x = v
  | Crash POverflow => sums = false
  | Crash PUnwrap => reads = false
  | Crash _ => False
  end.
Lemma outcome_agrees big t d : sp_sums t (Some d) = true ->
  agrees (outcome big t d) (sp_reads t (Some d)) (sp_sums t (Some d)) (sp_decode big t (Some d)).
Proof. intros Hs. unfold outcome. destruct (sp_reads t (Some d)); cbn [agrees]; auto. Qed.
Lemma read_sums h t : h_overflow_checks h = true -> macro_ok t = true -> type_len t < 2 ^ 32 ->
  forall s, ref_ok t s -> held t s ->
  agrees (read h t s) (sp_reads t (Some (s_data s))) (sp_sums t (Some (s_data s))) (sp_decode (h_big_endian h) t (Some (s_data s))).
Proof.
  intros Ho. induction t as [t Hns IH|t Hs IH] using ty_struct_ind; intros Hm Hl s Hr Hsm;
    (destruct (size_of t) as [n|] eqn:En;
     [pose proof (read_long h t Hm Hl s Hr Hsm) as H; rewrite (sp_near_fixed t n) in H by assumption;
      destruct H as [->|[_ H]]; [discriminate| |discriminate]; apply outcome_agrees; now apply (sp_sums_fixed t n)|]).
  - destruct t as [| | | | | | | | | | | | |x|x|ts|k v]; cbn [is_struct] in Hns; try tauto; try discriminate En.
    + cbn [read sp_reads sp_decode sp_sums]. rewrite to_str_spec. cbn [agrees]. auto.
    + cbn [read sp_reads sp_decode sp_sums]. rewrite to_str_spec. cbn [agrees]. auto.
    + cbn [read sp_reads sp_decode sp_sums]. rewrite to_str_spec. cbn [agrees]. auto.
    + cbn [read sp_reads sp_decode sp_sums]. destruct Hr as [Ha _].
      destruct (variant_split_ok h s Ha) as (ts & dat & -> & _ & E & _). cbn [bind fst snd]. rewrite E. cbn [agrees]. auto.
    + (* array *)
      destruct Hsm as [Hf|Hsm]; [unfold is_fixed in Hf; rewrite En in Hf; discriminate|].
      specialize (IH x (or_introl eq_refl)). change (macro_ok x = true) in Hm.
      rewrite (type_len_parts (TA x) x) in Hl by auto. specialize (IH Hm ltac:(lia)).
      destruct (size_of x) as [n|] eqn:Ex.
      { assert (Hnr : sp_near (TA x) (Some (s_data s)) = true) by (cbn [sp_near]; now rewrite sp_size_of, Ex).
        assert (Hsu : sp_sums (TA x) (Some (s_data s)) = true) by (cbn [sp_sums]; now rewrite sp_size_of, Ex).
        destruct (read_long h (TA x) Hm ltac:(rewrite (type_len_parts (TA x) x) by auto; lia) s Hr (or_intror Hsm)) as [->|[_ H]];
          [congruence|now apply outcome_agrees|congruence]. }
      cbn [read sp_reads sp_decode sp_sums] in *. unfold array_refs. rewrite sp_size_of in *. rewrite Ex in *.
      destruct Hr as [Ha _]. change (align_of (TA x)) with (align_of x) in Ha.
      rewrite nfwa_items_ok by (auto; unfold usize_lim; lia).
      rewrite sp_align_of, sp_array_children_map, sp_array_sums_map in * by auto with al. set (idx := indices _ _) in *.
      set (f := arr_cut (align_of x) (s_data s)) in *. set (g := fun i => in_64 (arr_prev (s_data s) i + align_of x)).
      assert (Hel : forall i,
          match elem_at h x s i with
          | Ok r => g i = true /\ sp_whole x (f i) = true /\
              agrees (read h x r) (sp_reads x (f i)) (sp_sums x (f i)) (sp_decode (h_big_endian h) x (f i))
          | Crash POverflow => g i = false
          | Crash PUnwrap => sp_whole x (f i) = false
          | Crash _ => False
          end).
      { intros i. pose proof (elem_at_sums h x s i Ho Hm Ha Ex) as He. fold f in He. fold (g i) in He.
        destruct (g i); [|now rewrite He].
        unfold elem_view in He. destruct (f i) as [b|] eqn:Ec.
        - pose proof (cut_len _ _ _ _ _ Ec) as Hb. rewrite sp_whole_fits by assumption.
          destruct (size_good_dec x (blen b)) as [Hg|Hg].
          + destruct He as (r & -> & Hr & Hd). split; [reflexivity|]. split; [reflexivity|].
            rewrite <- Hd. apply IH; [assumption|right; unfold slen in *; rewrite Hd; lia].
          + now rewrite He.
        - destruct He as (r & -> & Hr & Hd). split; [reflexivity|]. split; [destruct x; reflexivity|].
          rewrite (sp_reads_norm x None), (sp_sums_norm x None), (sp_decode_norm _ x None).
          replace (norm x None) with (s_data r) by (unfold norm, default_bytes; now rewrite Ex).
          apply IH; [assumption|right; unfold slen; rewrite Hd; reflexivity]. }
      clearbody idx f g. clear IH.
      assert (Hgoal : match mapM (elem_at h x s) idx with
          | Ok rs => forallb g idx = true /\ forallb (sp_whole x) (map f idx) = true /\
              match mapM (read h x) rs with
              | Ok vs => forallb (sp_reads x) (map f idx) = true /\ forallb (sp_sums x) (map f idx) = true /\
                         vs = map (sp_decode (h_big_endian h) x) (map f idx)
              | Crash POverflow => forallb (sp_sums x) (map f idx) = false
              | Crash PUnwrap => forallb (sp_reads x) (map f idx) = false
              | Crash _ => False
              end
          | Crash POverflow => forallb g idx = false
          | Crash PUnwrap => forallb (sp_whole x) (map f idx) = false
          | Crash _ => False
          end).
      { induction idx as [|i idx IHi]; [cbn; auto|]. cbn [map mapM forallb].
        pose proof (Hel i) as He. destruct (elem_at h x s i) as [r|[]]; cbn [bind]; try contradiction; try (rewrite He; reflexivity).
        destruct He as (Hg & Hw & Hread). rewrite Hg, Hw. cbn [andb].
        destruct (mapM (elem_at h x s) idx) as [rs|[]]; cbn [bind]; try exact IHi.
        destruct IHi as (-> & -> & IHi). split; [reflexivity|]. split; [reflexivity|]. cbn [mapM].
        destruct (read h x r) as [v|[]]; cbn [agrees bind] in *; try contradiction; try (rewrite Hread; reflexivity).
        destruct Hread as (-> & -> & ->). cbn [andb].
        destruct (mapM (read h x) rs) as [vs|[]]; cbn [bind]; try contradiction; try exact IHi.
        destruct IHi as (-> & -> & ->). auto. }
      assert (Hfb : forall l, forallb (fun c => sp_whole x c && sp_reads x c) l = forallb (sp_whole x) l && forallb (sp_reads x) l).
      { induction l as [|c l IHl]; [reflexivity|]. cbn [forallb]. rewrite IHl.
        destruct (sp_whole x c), (sp_reads x c), (forallb (sp_whole x) l); reflexivity. }
      rewrite Hfb. destruct (mapM (elem_at h x s) idx) as [rs|[]]; cbn [bind agrees]; try contradiction; try (rewrite Hgoal; reflexivity).
      destruct Hgoal as (Hg1 & -> & Hgoal). fold (forallb g idx). 
      change (forallb (fun i => g i) idx) with (forallb g idx). rewrite Hg1. cbn [andb].
      destruct (mapM (read h x) rs) as [vs|[]]; cbn [bind agrees]; try contradiction; try exact Hgoal.
      destruct Hgoal as (-> & -> & ->). auto.
    + (* maybe *)
      destruct Hsm as [Hf|Hsm]; [unfold is_fixed in Hf; rewrite En in Hf; discriminate|].
      specialize (IH x (or_intror eq_refl)). change (macro_ok x = true) in Hm.
      rewrite (type_len_parts (TM x) x) in Hl by auto. specialize (IH Hm ltac:(lia)).
      destruct Hr as [Ha _]. change (align_of (TM x)) with (align_of x) in Ha.
      cbn [read sp_reads sp_decode sp_sums] in *. rewrite sp_size_of in *.
      destruct (size_of x) as [n|] eqn:Ex.
      * rewrite (to_option_fixed h x s n) by assumption. cbn [bind]. change (len (s_data s)) with (slen s).
        destruct (slen s =? n) eqn:E; [|cbn [agrees]; auto]. apply N.eqb_eq in E.
        assert (Hag : agrees (read h x s) (sp_reads x (Some (s_data s))) (sp_sums x (Some (s_data s))) (sp_decode (h_big_endian h) x (Some (s_data s)))).
        { apply IH; [split; [assumption|unfold size_good; now rewrite Ex]|left; unfold is_fixed; now rewrite Ex]. }
        rewrite (sp_reads_fixed x n), (sp_sums_fixed x n) in Hag by assumption.
        destruct (read h x s) as [v|[]]; cbn [agrees bind] in *; try contradiction; try discriminate.
        destruct Hag as (_ & _ & ->). auto.
      * rewrite to_option_var by assumption. change (slen s) with (blen (s_data s)).
        destruct (s_data s) as [|b d0] eqn:Ed; [now split; [|split]|].
        assert (Hne : s_data s <> []) by (rewrite Ed; discriminate).
        rewrite <- Ed in *. rewrite (removelast_take (s_data s) Hne) in *.
        assert (Hbl : blen (s_data s) <> 0) by (rewrite Ed, blen_cons; lia).
        replace (blen (s_data s) =? 0) with false by (symmetry; now apply N.eqb_neq).
        assert (Ht : blen (take (blen (s_data s) - 1) (s_data s)) = blen (s_data s) - 1) by (rewrite blen_take; lia).
        cbn zeta. rewrite sp_whole_fits by assumption. rewrite Ht.
        destruct (size_good_dec x (blen (s_data s) - 1)) as [Hg|Hg]; [|reflexivity]. cbn [bind andb].
        assert (Hp : s_data (part s 0 (blen (s_data s) - 1)) = take (blen (s_data s) - 1) (s_data s)).
        { rewrite part_0. reflexivity. }
        assert (Hpl : slen (part s 0 (blen (s_data s) - 1)) = blen (s_data s) - 1) by (unfold slen; rewrite Hp; exact Ht).
        rewrite <- Hp.
        assert (Hag : forall p, p = part s 0 (blen (s_data s) - 1) ->
          agrees (read h x p) (sp_reads x (Some (s_data p))) (sp_sums x (Some (s_data p))) (sp_decode (h_big_endian h) x (Some (s_data p)))).
        { intros p ->. apply IH.
          - split; [apply aligned_part; auto with al|]. now rewrite Hpl.
          - right. rewrite Hpl. unfold slen in Hsm. lia. }
        specialize (Hag _ eq_refl). destruct (read h x _) as [v|[]]; cbn [agrees bind] in *; try contradiction; try exact Hag.
        destruct Hag as (-> & -> & ->). auto.
  - (* structures *)
    destruct Hsm as [Hf|Hsm]; [unfold is_fixed in Hf; rewrite En in Hf; discriminate|].
    pose proof (to_tuple_sums h t s Ho Hs Hm Hl En Hr Hsm) as E.
    rewrite sp_sums_struct by assumption. destruct (sp_struct_sums _ _).
    2:{ cbn [andb]. destruct t; cbn [is_struct] in Hs; try tauto; cbn [read]; rewrite E; reflexivity. }
    cbn [andb]. destruct E as (rs & E & HF).
    pose proof (struct_cuts_length t (s_data s)) as Hlen.
    assert (Hrs : length rs = length (children_of t)).
    { apply Forall2_length in HF. rewrite combine_length, Hlen, Nat.min_id in HF. lia. }
    rewrite (read_struct h t s rs) by assumption.
    rewrite sp_decode_struct, sp_reads_struct; try assumption.
    2:{ destruct Hr as [_ Hg]. exact Hg. }
    assert (Hchild : forall p r, In p (combine (children_of t) (struct_cuts t (s_data s))) ->
      child_view h s (fst p) (snd p) r ->
      agrees (read h (fst p) r) (sp_reads (fst p) (snd p)) (sp_sums (fst p) (snd p)) (sp_decode (h_big_endian h) (fst p) (snd p))).
    { intros [c x] r Hin (Hrr & _ & Hd). cbn [fst snd] in *.
      pose proof (in_combine_l _ _ _ _ Hin) as Hc. pose proof (in_combine_r _ _ _ _ Hin) as Hx.
      fold (norm c x) in Hd. rewrite (sp_reads_norm c x), (sp_sums_norm c x), (sp_decode_norm _ c x), <- Hd.
      rewrite Forall_forall in IH. apply (IH c Hc).
      - eapply macro_ok_child; eauto.
      - pose proof (child_len t c Hs Hc). lia.
      - exact Hrr.
      - unfold held, is_fixed. destruct (size_of c) as [m|] eqn:Em; [auto|right]. unfold slen. rewrite Hd.
        unfold norm. destruct x as [b|].
        + pose proof (seen_len c b Em). pose proof (struct_cuts_len t (s_data s) b Hx). unfold slen in Hsm. lia.
        + unfold default_bytes. rewrite Em. reflexivity. }
    unfold sums_all, dec_all, reads_all in *. clear IH.
    assert (Hgoal : match mapM (fun p => read h (fst p) (snd p)) (combine (children_of t) rs) with
      | Ok vs => forallb (fun p => sp_reads (fst p) (snd p)) (combine (children_of t) (struct_cuts t (s_data s))) = true /\
          forallb (fun p => sp_sums (fst p) (snd p)) (combine (children_of t) (struct_cuts t (s_data s))) = true /\
          vs = map (fun p => sp_decode (h_big_endian h) (fst p) (snd p)) (combine (children_of t) (struct_cuts t (s_data s)))
      | Crash POverflow => forallb (fun p => sp_sums (fst p) (snd p)) (combine (children_of t) (struct_cuts t (s_data s))) = false
      | Crash PUnwrap => forallb (fun p => sp_reads (fst p) (snd p)) (combine (children_of t) (struct_cuts t (s_data s))) = false
      | Crash _ => False
      end).
    { revert HF Hlen Hrs Hchild.
      generalize (struct_cuts t (s_data s)) as cs. generalize (children_of t) as ts. clear.
      induction rs as [|r rs IH]; intros [|c ts] [|x cs] HF Hlen Hrs Hchild; cbn [length combine] in *; try lia; try (cbn; auto).
      inversion HF as [|? ? ? ? Hv HF']; subst. cbn [mapM fst snd forallb map].
      pose proof (Hchild (c, x) r (or_introl eq_refl) Hv) as H1. cbn [fst snd] in H1.
      destruct (read h c r) as [v|[]]; cbn [agrees bind] in *; try contradiction; try (rewrite H1; reflexivity).
      destruct H1 as (-> & -> & ->). cbn [andb].
      specialize (IH ts cs HF' ltac:(lia) ltac:(lia) ltac:(intros p r' Hp; apply Hchild; now right)).
      destruct (mapM _ (combine ts rs)) as [vs|[]]; cbn [bind]; try contradiction; try exact IH.
      destruct IH as (-> & -> & ->). auto. }
    destruct (mapM _ _) as [vs|[]]; cbn [bind agrees]; try contradiction; try exact Hgoal.
    destruct Hgoal as (-> & -> & ->). auto.
Qed.
