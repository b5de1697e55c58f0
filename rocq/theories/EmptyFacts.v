(** Reading empty bytes at an address that need not be aligned. *)
From Verif Require Import Base Types Layout AlignedBytes Strs Spec Deser Ser Buf Histories SerSpec OwnSpec
  BaseFacts TypesFacts LayoutFacts AlignedFacts Utf8Facts DeserFacts ArrayFacts StructFacts ReadFacts AccessFacts ReadClaims ViewFacts MoveFacts.
From Coq Require Import Lia ZifyBool ZifyNat ZifyN.
Ltac Zify.zify_post_hook ::= Z.div_mod_to_equations.

Fixpoint in_place (fresh : bool) (ts : list ty) : list (ty * bool) :=
  match ts with
  | [] => []
  | t :: rest => (t, fresh && negb (is_fixed t)) :: in_place (negb (is_fixed t)) rest
  end.
Lemma in_place_fst ts : forall f, map fst (in_place f ts) = ts.
Proof. induction ts as [|t ts IH]; intros f; cbn [in_place map fst]; [reflexivity|]. now rewrite IH. Qed.
Lemma traps_in_place ts : forall f,
  sp_traps f (map (fun c => (match sp_size c with Some _ => true | None => false end, sp_trap c)) ts) =
  existsb (fun p => snd p && sp_trap (fst p)) (in_place f ts).
Proof.
  induction ts as [|t ts IH]; intros f; [reflexivity|]. cbn [map sp_traps in_place existsb fst snd].
  assert (E : match sp_size t with Some _ => true | None => false end = is_fixed t) by (rewrite sp_size_of; reflexivity).
  rewrite E, IH. reflexivity.
Qed.
Lemma trap_struct t : is_struct t -> sp_trap t = existsb (fun p => snd p && sp_trap (fst p)) (in_place true (children_of t)).
Proof.
  intros Hs. destruct t as [| | | | | | | | | | | | |x|x|ts|k v]; try contradiction; cbn [sp_trap children_of].
  - apply traps_in_place.
  - apply (traps_in_place [k; v]).
Qed.
Lemma nth_last_nil h n : nth_last_frame_offset h [] U0 n = Ok (Some 0).
Proof.
  unfold nth_last_frame_offset. destruct (n =? 0); [reflexivity|].
  rewrite umul_ok by (cbn [osz_n]; unfold usize_lim; lia). cbn [osz_n bind]. rewrite N.mul_0_r. reflexivity.
Qed.
Lemma get_child_empty h child b s i a c (last_child : bool) nfo : macro_ok child = true -> s_data s = [] ->
  is_alignment b -> align_of child <= b -> c mod align_of child = 0 -> a + c + 16 < 2 ^ 40 -> size_or_0 child < 2 ^ 40 ->
  get_child_elem h child b s i a c (size_of child) last_child nfo =
  if ((a =? 0) && (c =? 0)) && negb (is_fixed child) then cast h child (Slice (s_addr s) []) else default_ref h child.
Proof.
  intros Hm Hd Hb Hle Hc Hac Hsz. unfold get_child_elem, calc_offsets. rewrite Hd. change (offset_size (blen [])) with U0.
  rewrite !nth_last_nil. cbn [bind osz_n]. rewrite umul_ok by (unfold usize_lim; lia). cbn [bind].
  rewrite N.mul_0_l. change (checked_sub (blen []) 0) with (Some 0).
  rewrite calc_start_ok by (auto; unfold usize_lim; lia). cbn [bind]. rewrite N.add_0_l.
  assert (Hpad : (pad_to b a + c =? 0) = (a =? 0) && (c =? 0)).
  { pose proof (pad_to_ge b a Hb) as Hge. destruct (a =? 0) eqn:Ea; destruct (c =? 0) eqn:Ec; cbn [andb]; try lia.
    apply N.eqb_eq in Ea, Ec. subst. destruct Hb as [->|[->|[->| ->]]]; reflexivity. }
  unfold size_or_0 in Hsz. unfold is_fixed. destruct (size_of child) as [n|] eqn:En; cbn [bind negb].
  - pose proof (proj1 (size_of_props _ _ En)) as Hn.
    assert (pad_to b a < a + 8).
    { pose proof (pad_to_lt b a Hb). destruct Hb as [->|[->|[->| ->]]]; lia. }
    rewrite uadd_ok by (unfold usize_lim; lia). cbn [bind]. rewrite !andb_false_r.
    replace (pad_to b a + c + n <=? 0) with false by lia. rewrite andb_false_r. reflexivity.
  - rewrite andb_true_r. rewrite <- Hpad.
    assert (E : (if last_child then Ok (Some 0) else Ok (Some 0)) = Ok (Some 0)) by now destruct last_child.
    rewrite E. cbn [bind]. replace (0 <=? 0) with true by reflexivity. rewrite andb_true_r.
    replace (pad_to b a + c <=? 0) with (pad_to b a + c =? 0) by lia.
    destruct (pad_to b a + c =? 0) eqn:E0; [|reflexivity]. apply N.eqb_eq in E0. rewrite E0.
    cbn [bind]. unfold ix_to, ix_from_al. rewrite sl_to_ok by (unfold slen; rewrite Hd; cbn; lia). cbn [bind].
    rewrite Hd. change (take 0 (@nil byte)) with (@nil byte).
    rewrite unchecked_empty by reflexivity. cbn [bind]. rewrite sl_from_ok by (unfold slen; cbn; lia). cbn [bind s_addr s_data].
    rewrite N.add_0_r, drop_0, unchecked_empty by reflexivity. reflexivity.
Qed.
Lemma nonfixed_refs_empty h al nfo s : is_alignment al -> s_data s = [] -> forall children k a b c (fresh : bool),
  is_alignment b ->
  Forall (fun t => macro_ok t = true /\ align_of t <= al) children ->
  a + c + 32 + lay_bound children < 2 ^ 40 ->
  fresh = (a =? 0) && (c =? 0) ->
  nonfixed_refs h al nfo s children (table_go k a b c children) =
  mapM (fun p : ty * bool => if snd p then cast h (fst p) (Slice (s_addr s) []) else default_ref h (fst p)) (in_place fresh children).
Proof.
  intros Hal Hd. induction children as [|child rest IH]; intros k a b c fresh Hb Hch Hlay Hf; [reflexivity|].
  inversion Hch as [|? ? [Hm Hle] Hch']; subst. cbn [lay_bound] in Hlay.
  pose proof (align_of_alignment child) as Hca.
  remember (if align_of child <=? b then a else a + align c b) as a' eqn:Ea'.
  remember (if align_of child <=? b then b else align_of child) as b' eqn:Eb'.
  remember (if align_of child <=? b then align c (align_of child) else 0) as c' eqn:Ec'.
  assert (Hb8 : b <= 8) by (destruct Hb as [->|[->|[->| ->]]]; lia).
  assert (Hc8 : align_of child <= 8) by (destruct Hca as [->|[->|[->| ->]]]; lia).
  assert (Hb' : is_alignment b') by (subst b'; destruct (_ <=? b); assumption).
  assert (Hle' : align_of child <= b') by (subst b'; destruct (_ <=? b) eqn:E; lia).
  assert (Hc' : c' mod align_of child = 0).
  { subst c'. destruct (_ <=? b); [rewrite align_pad_to by assumption; now apply pad_to_mod|].
    apply N.mod_0_l, align_nz. }
  assert (Hac' : a' + c' <= a + c + 8).
  { subst a' c'. destruct (_ <=? b).
    - rewrite align_pad_to by assumption. pose proof (pad_to_lt (align_of child) c Hca). lia.
    - rewrite align_pad_to by assumption. pose proof (pad_to_lt b c Hb). lia. }
  assert (H0 : (a' =? 0) && (c' =? 0) = (a =? 0) && (c =? 0)).
  { subst a' c'. destruct (_ <=? b).
    - rewrite align_pad_to by assumption. f_equal. pose proof (pad_to_ge (align_of child) c Hca).
      destruct (c =? 0) eqn:E; [|lia]. apply N.eqb_eq in E. subst c. destruct Hca as [->|[->|[->| ->]]]; reflexivity.
    - rewrite andb_true_r, align_pad_to by assumption. pose proof (pad_to_ge b c Hb).
      destruct (c =? 0) eqn:E; [|lia]. apply N.eqb_eq in E. subst c.
      assert (E0 : pad_to b 0 = 0) by (destruct Hb as [->|[->|[->| ->]]]; reflexivity). rewrite E0. lia. }
  assert (Hrow : table_go k a b c (child :: rest) =
    @cons row (k, a', b', c')%Z
    match size_of child with
    | Some size => table_go k a' b' (c' + size) rest
    | None => table_go (k + 1)%Z 0 1 0 rest
    end).
  { cbn [table_go]. subst a' b' c'. destruct (align_of child <=? b); reflexivity. }
  rewrite Hrow. cbn [nonfixed_refs in_place mapM fst snd]. clear Hrow Ea' Eb' Ec'.
  unfold as_aligned, aligned_to. rewrite trait_align_of. replace (align_of child <=? al) with true by lia. cbn [bind].
  rewrite get_child_empty by (auto; lia). rewrite H0.
  destruct (if (a =? 0) && (c =? 0) && negb (is_fixed child) then _ else _) as [r|cr]; cbn [bind]; [|reflexivity].
  f_equal.
  unfold is_fixed, size_or_0 in *. destruct (size_of child) as [n|] eqn:En; cbn [negb].
  - pose proof (proj1 (size_of_props _ _ En)) as Hn. apply IH; auto; lia.
  - apply IH; auto; try lia. left; reflexivity.
Qed.

(** Casting all components, then reading all of them. *)
Lemma all_then_all {A B V} (f : A -> res B) (rd : A * B -> res V) (bad : A -> bool) (g : A -> V) c0 l :
  (forall p, In p l -> (let* r := f p in rd (p, r)) = if bad p then Crash c0 else Ok (g p)) ->
  (let* rs := mapM f l in mapM rd (combine l rs)) = if existsb bad l then Crash c0 else Ok (map g l).
Proof.
  induction l as [|p l IH]; intros H; [reflexivity|]. cbn [mapM existsb map].
  pose proof (H p (or_introl eq_refl)) as Hp. specialize (IH (fun q Hq => H q (or_intror Hq))).
  destruct (f p) as [r|c]; cbn [bind] in *.
  - destruct (mapM f l) as [rs|c]; cbn [bind combine mapM] in *.
    + rewrite Hp. destruct (bad p); cbn [bind orb]; [reflexivity|]. rewrite IH. destruct (existsb bad l); reflexivity.
    + destruct (existsb bad l); [|discriminate]. injection IH as ->. now rewrite orb_true_r.
  - destruct (bad p); [|discriminate]. injection Hp as ->. reflexivity.
Qed.
Lemma default_struct big t : is_struct t -> size_of t = None ->
  sp_default big t = VTuple (map (sp_default big) (children_of t)).
Proof.
  intros Hs Hn. unfold sp_default at 1. rewrite sp_decode_norm. rewrite norm_none_var by assumption.
  rewrite sp_decode_struct by (auto; unfold size_good; rewrite Hn; destruct t; try contradiction; exact I).
  f_equal. unfold dec_all, struct_cuts. rewrite Hn.
  pose proof (sp_struct_children_nil (items_of (children_of t))) as HF.
  pose proof (sp_struct_children_length (items_of (children_of t)) []) as Hl. unfold items_of at 2 in Hl. rewrite map_length in Hl.
  revert Hl HF. generalize (sp_struct_children (items_of (children_of t)) []). generalize (children_of t). clear.
  induction l as [|c l IH]; intros [|q qs] Hl HF; cbn [length combine map] in *; try lia; [reflexivity|].
  inversion HF as [|? ? Hq HF']; subst. rewrite IH by (auto; lia). f_equal. cbn [fst snd].
  unfold sp_default. rewrite (sp_decode_norm _ _ q), (sp_decode_norm _ _ None). do 2 f_equal.
  destruct Hq as [->| ->]; [reflexivity|]. unfold norm, seen_bytes. destruct (size_good_dec c (blen [])) as [Hg|]; [|reflexivity].
  unfold default_bytes. unfold size_good in Hg. destruct (size_of c) as [n|] eqn:En; [|reflexivity].
  apply size_of_props in En as [En _]. cbn in Hg. lia.
Qed.
Lemma cast_empty_fixed h t s n : macro_ok t = true -> s_data s = [] -> size_of t = Some n -> cast h t s = default_ref h t.
Proof.
  intros Hm Hd Hn. unfold cast, from_aligned_slice, try_from_aligned_slice. rewrite Hn, (mem_layout_ok t n) by assumption.
  unfold try_cast_slice_to, slen. rewrite Hd. apply size_of_props in Hn as [Hn _]. cbn [blen length N.of_nat].
  replace (n =? 0) with false by lia. reflexivity.
Qed.
Lemma default_decode h t : usable t -> (let* r := default_ref h t in read h t r) = Ok (sp_default (h_big_endian h) t).
Proof.
  intros Hu. destruct (default_ref_ok h t (proj1 Hu)) as (r & -> & Hd & Hr & _). cbn [bind]. now apply read_default.
Qed.
Lemma usable_child t c : is_struct t -> usable t -> In c (children_of t) -> usable c.
Proof. intros Hs Hu Hc. apply usable_readable. apply usable_readable in Hu. now apply (readable_child t). Qed.
Lemma usable_part t x : t = TA x \/ t = TM x -> usable t -> usable x.
Proof. intros Hs Hu. apply usable_readable. apply usable_readable in Hu. now apply (readable_part t). Qed.

Lemma decode_empty h t : usable t -> forall s, s_data s = [] -> (sp_trap t = true -> s_addr s mod 2 = 1) ->
  decode h t s = if sp_trap t then Crash (sp_misaligned h) else Ok (sp_default (h_big_endian h) t).
Proof.
  induction t as [t Hns IH|t Hs IH] using ty_struct_ind; intros Hu s Hd Ho.
  - destruct (size_of t) as [n|] eqn:En.
    { unfold decode. rewrite (cast_empty_fixed h t s n) by (auto; apply Hu).
      replace (sp_trap t) with false by (destruct t; try reflexivity; try discriminate; elim Hns; exact I).
      now apply default_decode. }
    destruct t as [| | | | | | | | | | | | |x|x|ts|k v]; try discriminate; try (elim Hns; exact I);
      try (unfold decode, cast, from_aligned_slice, try_from_aligned_slice; cbn [size_of bind read];
           rewrite Hd; reflexivity).
    + (* variant *) unfold decode, cast, from_aligned_slice, try_from_aligned_slice. cbn [size_of bind read sp_trap].
      unfold variant_split. rewrite Hd. change (memrchr0 []) with (@None N). cbv iota.
      destruct (empty_aligned_static h 8) as (z & -> & Hz & _ & _); [right; right; right; reflexivity|]. cbn [bind fst snd s_data].
      rewrite Hz. reflexivity.
    + (* array *) pose proof (usable_part _ x (or_introl eq_refl) Hu) as Hx.
      unfold decode, cast, from_aligned_slice, try_from_aligned_slice. cbn [size_of]. cbn [sp_trap] in *. rewrite sp_size_of, sp_align_of in *.
      destruct (size_of x) as [n|] eqn:Ex.
      * rewrite (mem_layout_ok x n) by (auto; apply Hx). unfold cast_slice.
        change (trait_align (TA x)) with (trait_align x). rewrite trait_align_of. rewrite N.ltb_irrefl.
        assert (Hal : is_aligned s (align_of x) = negb (1 <? align_of x) \/ (is_aligned s (align_of x) = true /\ (1 <? align_of x) = false)).
        { unfold is_aligned. destruct (1 <? align_of x) eqn:E1.
          - left. specialize (Ho eq_refl). cbn [negb]. apply N.eqb_neq. intros H. clear -H Ho E1.
            destruct (align_of_alignment x) as [E|[E|[E|E]]]; rewrite E in *; lia.
          - right. split; [|reflexivity]. assert (E : align_of x = 1) by (pose proof (align_nz x); lia). rewrite E, N.mod_1_r. reflexivity. }
        pose proof (proj1 (size_of_props _ _ Ex)) as Hn. replace (n =? 0) with false by lia.
        unfold slen. rewrite Hd. replace (blen [] mod n) with 0 by (symmetry; apply N.mod_0_l; lia). rewrite N.eqb_refl.
        unfold sp_misaligned. destruct (1 <? align_of x) eqn:E1.
        -- assert (Hi : is_aligned s (align_of x) = false) by (destruct Hal as [H|[_ H]]; [exact H|discriminate]).
           rewrite Hi. cbn [negb]. rewrite andb_true_r. destruct (h_debug h); reflexivity.
        -- assert (Hi : is_aligned s (align_of x) = true) by (destruct Hal as [H|[H _]]; exact H).
           rewrite Hi. cbn [negb]. rewrite andb_false_r. cbn [bind read]. unfold array_refs. rewrite Ex, (mem_layout_ok x n) by (auto; apply Hx).
           cbn [bind]. unfold slice_elems, slen. rewrite Hd. replace (blen [] / n) with 0 by (symmetry; apply N.div_0_l; lia).
           cbn [N.to_nat seq map mapM bind]. unfold sp_default. cbn [sp_decode]. rewrite sp_size_of, Ex.
           unfold len. cbn [length N.of_nat]. reflexivity.
      * cbn [bind read]. unfold array_refs. rewrite Ex. unfold nfwa_items, nfwa_into_iter. rewrite Hd.
        change (read_last_frame_offset h []) with (@Ok (offset_size_t * N) (U1, 0)). cbn [bind fst snd].
        unfold split_at. rewrite sl_to_ok, sl_from_ok by (unfold slen; rewrite Hd; cbn; lia). cbn [bind].
        rewrite Hd. rewrite unchecked_empty by reflexivity. cbn [bind fst snd nfwa_collect]. unfold nfwa_next. cbn [it_offsets s_data it_offset_idx].
        change (drop 0 (@nil byte)) with (@nil byte). cbn [blen length N.of_nat N.leb]. 
        change (0 <=? 0) with true. cbv iota. cbn [bind fst snd mapM]. unfold sp_default. cbn [sp_decode]. rewrite sp_size_of, Ex. reflexivity.
    + (* maybe *) pose proof (usable_part _ x (or_intror eq_refl) Hu) as Hx.
      unfold decode, cast, from_aligned_slice, try_from_aligned_slice. cbn [size_of bind read sp_trap]. unfold to_option.
      unfold sp_default. cbn [sp_decode]. rewrite sp_size_of. destruct (size_of x) as [n|] eqn:Ex.
      * unfold try_from_aligned_slice. rewrite Ex, (mem_layout_ok x n) by (auto; apply Hx). unfold try_cast_slice_to, slen. rewrite Hd.
        pose proof (proj1 (size_of_props _ _ Ex)) as Hn. unfold len. cbn [blen length N.of_nat].
        replace (n =? 0) with false by lia. replace (0 =? n) with false by lia. reflexivity.
      * unfold slen. rewrite Hd. reflexivity.
  - destruct (size_of t) as [n|] eqn:En.
    { unfold decode. rewrite (cast_empty_fixed h t s n) by (auto; apply Hu).
      replace (sp_trap t) with false; [now apply default_decode|].
      rewrite trap_struct by assumption. pose proof (fixed_children t n Hs En) as Hfix. symmetry.
      generalize true. revert Hfix. generalize (children_of t). clear. induction l as [|c l IH]; intros HF f; [reflexivity|].
      inversion HF as [|? ? H1 H2]; subst. cbn [in_place existsb fst snd]. rewrite H1. cbn [negb]. rewrite andb_false_r. cbn [andb orb]. now apply IH. }
    assert (Hc : cast h t s = Ok s).
    { unfold cast, from_aligned_slice, try_from_aligned_slice. rewrite En. destruct t; try contradiction; reflexivity. }
    unfold decode. rewrite Hc. cbn [bind]. rewrite read_struct_any by (auto; apply Hu).
    unfold to_tuple. rewrite En. unfold generate_table.
    pose proof (proj2 Hu) as Htl. rewrite type_len_show in Htl.
    destruct (struct_bounds t Hs Htl) as [Hlb _].
    rewrite (nonfixed_refs_empty h (align_of t) _ s (align_of_alignment t) Hd _ _ 0 1 0 true);
      [|now left|apply struct_children_ok; [assumption|apply Hu]|lia|reflexivity].
    rewrite trap_struct in * by assumption. rewrite default_struct by assumption.
    set (cr := fun p : ty * bool => if snd p then cast h (fst p) (Slice (s_addr s) []) else default_ref h (fst p)).
    assert (Hmain : (let* rs := mapM cr (in_place true (children_of t)) in
        mapM (fun q => read h (fst (fst q)) (snd q)) (combine (in_place true (children_of t)) rs)) =
      if existsb (fun p => snd p && sp_trap (fst p)) (in_place true (children_of t)) then Crash (sp_misaligned h)
      else Ok (map (fun p => sp_default (h_big_endian h) (fst p)) (in_place true (children_of t)))).
    { apply all_then_all. intros [c b] Hin. cbn [fst snd]. unfold cr. cbn [fst snd].
      assert (Hcin : In c (children_of t)).
      { rewrite <- (in_place_fst (children_of t) true). change c with (fst (c, b)). now apply in_map. }
      pose proof (usable_child t c Hs Hu Hcin) as Huc. destruct b; [|now apply default_decode]. cbn [andb].
      change (let* r := cast h c (Slice (s_addr s) []) in read h c r) with (decode h c (Slice (s_addr s) [])).
      rewrite Forall_forall in IH. apply IH; auto. intros Htc. cbn [s_addr]. apply Ho.
      apply existsb_exists. exists (c, true). split; [exact Hin|]. cbn [fst snd]. now rewrite Htc. }
    assert (Hcomb : forall rs : list slice, mapM (fun q : ty * bool * slice => read h (fst (fst q)) (snd q)) (combine (in_place true (children_of t)) rs) =
      mapM (fun p : ty * slice => read h (fst p) (snd p)) (combine (children_of t) rs)).
    { intros rs. rewrite <- (in_place_fst (children_of t) true) at 2. generalize (in_place true (children_of t)). clear.
      intros l. revert rs. induction l as [|p l IH]; intros [|r rs]; cbn [combine map mapM]; try reflexivity.
      cbn [fst snd]. destruct (read h (fst p) r); [|reflexivity]. cbn [bind]. now rewrite IH. }
    destruct (mapM cr (in_place true (children_of t))) as [rs|c]; cbn [bind] in *.
    + rewrite <- Hcomb, Hmain. destruct (existsb _ _); cbn [bind]; [reflexivity|].
      do 2 f_equal. rewrite <- (map_map fst (sp_default (h_big_endian h))), in_place_fst. reflexivity.
    + destruct (existsb _ _); [|discriminate]. injection Hmain as ->. reflexivity.
Qed.
