(** Values of 4 GiB and more. *)
From Verif Require Import Base Types Layout AlignedBytes Strs Spec Deser Histories LongSpec
  BaseFacts TypesFacts LayoutFacts AlignedFacts Utf8Facts DeserFacts ArrayFacts StructFacts ReadFacts AccessFacts ReadClaims
  EqFacts EncFacts RoundFacts.
From Coq Require Import Lia ZifyBool ZifyNat ZifyN.
Ltac Zify.zify_post_hook ::= Z.div_mod_to_equations.

(** ** Children that lie inside their container have near framing offsets. *)
Lemma array_inside_near al d : len d < 2 ^ 63 -> ~ In None (sp_array_children al d) -> sp_array_near d = true.
Proof.
  intros Hl Hn. rewrite sp_array_near_map. apply forallb_forall. intros i Hi.
  rewrite sp_array_children_map in Hn. destruct (arr_cut al d i) as [b|] eqn:E.
  - unfold arr_cut, cut in E. destruct (_ && _) eqn:Ec; [|discriminate].
    pose proof (arr_lfo_le d) as H. change @len with @blen in *. unfold near. lia.
  - exfalso. apply Hn. apply in_map_iff. exists i. auto.
Qed.
Lemma struct_cut_inside d w lim items : forall pos k, ~ In None (sp_struct_cut d w lim pos k items) ->
  forall j, k <= j < k + sp_n_offsets items -> le_num (sub d (len d - w * (j + 1)) w) <= lim.
Proof.
  induction items as [|[al size] items IH]; intros pos k Hn j Hj; [cbn in Hj; lia|].
  destruct items as [|it items].
  { cbn [sp_n_offsets] in Hj. destruct size; lia. }
  destruct size as [sz|].
  - cbn [sp_struct_cut] in Hn. apply (IH (pad_to al pos + sz) k); [intros H; apply Hn; now right|]. exact Hj.
  - change (sp_n_offsets ((al, None) :: it :: items)) with (1 + sp_n_offsets (it :: items)) in Hj.
    change (sp_struct_cut d w lim pos k ((al, None) :: it :: items)) with
      (cut d (pad_to al pos) (le_num (sub d (len d - w * (k + 1)) w)) lim ::
       sp_struct_cut d w lim (le_num (sub d (len d - w * (k + 1)) w)) (k + 1) (it :: items)) in Hn.
    destruct (N.eq_dec j k) as [->|Hne].
    + unfold cut in Hn at 1. destruct (_ && _) eqn:E; [lia|]. exfalso. apply Hn. now left.
    + apply (IH (le_num (sub d (len d - w * (k + 1)) w)) (k + 1)); [intros H; apply Hn; now right|lia].
Qed.
Lemma struct_inside_near items d : len d < 2 ^ 63 -> ~ In None (sp_struct_children items d) -> sp_struct_near items d = true.
Proof.
  intros Hl Hn. unfold sp_struct_children, sp_struct_near in *. destruct (_ <=? len d) eqn:E; [|reflexivity].
  apply forallb_forall. intros i Hi. apply in_seq in Hi.
  pose proof (struct_cut_inside d _ _ items 0 0 Hn (N.of_nat i) ltac:(lia)) as H. unfold near. lia.
Qed.

(** ** Normal forms *)
Lemma some_none {A} (l : list A) : ~ In None (map Some l).
Proof. intros H. apply in_map_iff in H as (? & ? & _). discriminate. Qed.
Lemma encode_near big t : forall v, sp_typed t v -> len (sp_encode big t v) < 2 ^ 63 ->
  sp_near t (Some (sp_encode big t v)) = true.
Proof.
  unfold sp_encode.
  induction t as [t Hns IH|t Hs IH] using ty_struct_ind; intros v Ht Hl.
  - destruct t as [| | | | | | | | | | | | |x|x|ts|a b]; cbn [is_struct] in Hns; try tauto; try reflexivity;
      destruct v as [z|bits|b|s|s d|vs|o|vs]; cbn [sp_typed] in Ht; try tauto.
    + change (sp_typed (TA x) (VArray vs)) in Ht. rewrite typed_array in Ht.
      cbn [sp_bytes sp_near] in *. rewrite sp_fixed_of, sp_size_of in *. unfold is_fixed in *.
      destruct (size_of x) as [n|] eqn:En; [reflexivity|].
      destruct (array_bytes_cut false (sp_align x) (map (sp_bytes false big x) vs)) as [HC _];
        [rewrite sp_align_of; auto with al|lia|]. specialize (HC ltac:(now left)).
      rewrite HC. rewrite (array_inside_near (sp_align x)); [|exact Hl|rewrite HC; apply some_none].
      cbn [andb]. apply forallb_forall. intros c Hc. apply in_map_iff in Hc as (b & <- & Hb).
      apply in_map_iff in Hb as (v & <- & Hv). rewrite Forall_forall in Ht.
      apply (IH x (or_introl eq_refl)); auto.
      pose proof (array_bytes_len false (align_of x) (map (sp_bytes false big x) vs) (sp_bytes false big x v)) as H.
      rewrite sp_align_of in Hl. apply (in_map (sp_bytes false big x)) in Hv. specialize (H ltac:(auto with al) Hv). lia.
    + destruct o as [v|]; [|cbn [sp_bytes sp_near]; rewrite sp_size_of; destruct (size_of x); reflexivity].
      cbn [sp_bytes sp_near] in *. rewrite sp_fixed_of, sp_size_of in *. unfold is_fixed in *.
      destruct (size_of x) as [n|] eqn:En; [reflexivity|].
      destruct (sp_bytes false big x v ++ [x00]) eqn:E; [destruct (sp_bytes false big x v); discriminate|]. rewrite <- E in *.
      rewrite removelast_last. apply (IH x (or_intror eq_refl)); auto.
      change @len with @blen in *. rewrite blen_app in Hl. lia.
  - destruct (size_of t) as [n|] eqn:En; [now rewrite (sp_near_fixed t n)|].
    destruct (typed_struct t v Hs Ht) as (vs & -> & HF).
    pose proof (Forall2_length _ _ _ HF) as Hlen.
    destruct (struct_bytes_cuts false big t vs Hs HF) as [Hc _]; [lia|].
    rewrite sp_near_struct by assumption.
    assert (Hc' := Hc). unfold struct_cuts in Hc'. rewrite En in Hc'.
    rewrite struct_inside_near; [|exact Hl|rewrite Hc'; apply some_none]. cbn [andb]. rewrite Hc.
    unfold near_all, enc_all. apply forallb_forall. intros [c d] Hin. cbn [fst snd].
    assert (G : exists v, In (c, v) (combine (children_of t) vs) /\ d = Some (sp_bytes false big c v)).
    { clear -Hin. revert vs Hin. induction (children_of t) as [|c0 cs IH]; intros [|v vs] Hin; cbn [combine map] in *; try contradiction.
      destruct Hin as [Hin|Hin].
      - inversion Hin; subst. exists v. split; [now left|reflexivity].
      - destruct (IH vs Hin) as (w & Hw & ->). exists w. split; [now right|reflexivity]. }
    destruct G as (v & Hv & ->). rewrite Forall_forall in IH. apply IH.
    + eapply in_combine_l; eauto.
    + pose proof (Forall2_combine _ _ _ HF) as G. rewrite Forall_forall in G. exact (G _ Hv).
    + assert (Hle : len (sp_bytes false big c v) <= len (sp_bytes false big t (VTuple vs))).
      { apply enc_len; auto. unfold enc_all. apply in_map_iff. exists (c, v). auto. }
      lia.
Qed.

(** ** Reading *)
Lemma long_claim h t s : usable t -> aligned (sp_align t) s -> len (s_data s) < 2 ^ 63 ->
  sp_near t (Some (s_data s)) = true ->
  decode h t s = if sp_reads t (Some (s_data s)) then Ok (sp_decode (h_big_endian h) t (Some (s_data s))) else Crash PUnwrap.
Proof.
  intros [Hm Hl] Ha Hs Hn. rewrite sp_align_of in Ha. rewrite type_len_show in Hl.
  destruct (decode_long h t s Hm Hl Ha Hs) as [E|[_ E]]; [congruence|exact E|congruence].
Qed.
Lemma checked_claim h t s : usable t -> aligned (sp_align t) s -> len (s_data s) < 2 ^ 63 ->
  h_overflow_checks h = true ->
  decode h t s = (if sp_reads t (Some (s_data s)) then Ok (sp_decode (h_big_endian h) t (Some (s_data s))) else Crash PUnwrap) \/
  (decode h t s = Crash POverflow /\ sp_near t (Some (s_data s)) = false).
Proof.
  intros [Hm Hl] Ha Hs Hn. rewrite sp_align_of in Ha. rewrite type_len_show in Hl.
  apply (decode_long h t s Hm Hl Ha Hs). auto.
Qed.
Lemma small_claim t d : len d < 2 ^ 32 -> sp_near t (Some d) = true.
Proof. intros H. now apply small_near. Qed.
Lemma encode_claim h t v a : usable t -> sp_typed t v -> a mod sp_align t = 0 ->
  len (sp_encode (h_big_endian h) t v) < 2 ^ 63 ->
  decode h t (Slice a (sp_encode (h_big_endian h) t v)) = Ok v.
Proof.
  intros Hu Ht Ha Hl. rewrite long_claim; auto; cbn [s_data]; [|now apply encode_near].
  destruct (encode_back (h_big_endian h) t v Ht) as (E1 & E2 & _); [lia|]. now rewrite E1, E2.
Qed.

(** ** A corrupt 8-byte offset that wraps around to the start of the array. *)
Lemma big_shape n : 2 ^ 32 <= n -> n + 16 < 2 ^ 63 ->
  arr_lfo (big_bytes n) = n /\ arr_n (big_bytes n) = 2 /\ arr_end (big_bytes n) 0 = 2 ^ 64 - 1 /\ arr_end (big_bytes n) 1 = n.
Proof.
  intros Hn Hn2. assert (Hbl : blen (big_bytes n) = n + 16) by apply big_len.
  assert (Hw : arr_width (big_bytes n) = 8).
  { unfold arr_width. rewrite Hbl. unfold sp_width.
    replace (n + 16 =? 0) with false by lia. replace (n + 16 <? 2 ^ 8) with false by lia.
    replace (n + 16 <? 2 ^ 16) with false by lia. replace (n + 16 <? 2 ^ 32) with false by lia. reflexivity. }
  assert (Hlast : arr_last (big_bytes n) = n).
  { unfold arr_last. rewrite Hw, Hbl, sub_take_drop. replace (n + 16 - 8) with (n + 8) by lia.
    rewrite big_drop. change (drop 8 (repeat xff 8 ++ num_le 8 n)) with (num_le 8 n).
    change (take 8 (num_le 8 n)) with (num_le 8 n). apply le_num_le8. lia. }
  assert (Hlfo : arr_lfo (big_bytes n) = n).
  { unfold arr_lfo, arr_good. rewrite Hlast, Hw, Hbl. replace (n + 16 =? 0) with false by lia.
    replace (n <=? n + 16) with true by lia. replace (n + 16 - n) with 16 by lia. reflexivity. }
  assert (Hosz : osz_n (arr_osz (big_bytes n)) = 8) by (rewrite arr_osz_width by lia; exact Hw).
  split; [exact Hlfo|]. split; [|split].
  - unfold arr_n. rewrite Hlfo, Hosz, Hbl. replace (n + 16 - n) with 16 by lia. reflexivity.
  - unfold arr_end. rewrite Hlfo, Hosz, sub_take_drop. rewrite N.mul_0_l, big_drop.
    change (take 8 (drop 0 (repeat xff 8 ++ num_le 8 n))) with (repeat xff 8). reflexivity.
  - unfold arr_end. rewrite Hlfo, Hosz, sub_take_drop. rewrite N.mul_1_l, big_drop.
    change (take 8 (drop 8 (repeat xff 8 ++ num_le 8 n))) with (num_le 8 n). apply le_num_le8. lia.
Qed.
Lemma sp_pieces_cons fuel n b d : exists x l, sp_pieces (S fuel) n (b :: d) = x :: l.
Proof. cbn [sp_pieces]. eauto. Qed.
Lemma zeros_S n : 0 < n -> exists d, zeros n = x00 :: d.
Proof. intros H. unfold zeros. destruct (N.to_nat n) eqn:E; [lia|]. cbn. eauto. Qed.
Lemma wrap_wrong h n a : h_overflow_checks h = false -> a mod 2 = 0 -> n mod 2 = 0 -> 2 ^ 32 <= n -> n + 16 < 2 ^ 63 ->
  exists v vs,
    decode h (TA (TA TN)) (Slice a (big_bytes n)) = Ok (VArray [VArray []; VArray (v :: vs)]) /\
    sp_decode (h_big_endian h) (TA (TA TN)) (Some (big_bytes n)) = VArray [VArray []; VArray []].
Proof.
  intros Ho Hal Heven Hn Hn2. set (s := Slice a (big_bytes n)).
  destruct (big_shape n Hn Hn2) as (Hlfo & Han & He0 & He1).
  assert (Hbl : blen (big_bytes n) = n + 16) by apply big_len.
  assert (Ha : aligned (align_of (TA TN)) s) by exact Hal.
  assert (Hsp : sp_decode (h_big_endian h) (TA (TA TN)) (Some (big_bytes n)) = VArray [VArray []; VArray []]).
  { cbn [sp_decode sp_size]. rewrite sp_array_children_map, Han. change (indices 0 (N.to_nat 2)) with [0; 1]. cbn [map].
    assert (E0 : arr_cut (sp_align (TA TN)) (big_bytes n) 0 = None).
    { unfold arr_cut, cut. rewrite He0, Hlfo. replace (2 ^ 64 - 1 <=? n) with false by lia. now rewrite andb_false_r. }
    assert (E1 : arr_cut (sp_align (TA TN)) (big_bytes n) 1 = None).
    { unfold arr_cut, cut. rewrite He1, Hlfo. change (arr_prev (big_bytes n) 1) with (arr_end (big_bytes n) 0). rewrite He0.
      change (pad_to (sp_align (TA TN)) (2 ^ 64 - 1)) with (2 ^ 64). replace (2 ^ 64 <=? n) with false by lia. reflexivity. }
    rewrite E0, E1. reflexivity. }
  assert (E0 : exists r, elem_at h (TA TN) s 0 = Ok r /\ s_data r = [] /\ ref_ok (TA TN) r).
  { unfold elem_at, s. cbn [s_data]. change (arr_prev (big_bytes n) 0) with 0. rewrite He0, Hlfo.
    change (align_offset h (trait_align (TA TN)) 0) with (align_offset h 2 0).
    rewrite (align_offset_ok h 2 0 (or_intror (or_introl eq_refl)) eq_refl). cbn [bind].
    replace ((pad_to 2 0 <=? 2 ^ 64 - 1) && (2 ^ 64 - 1 <=? n)) with false by (rewrite andb_comm; replace (2 ^ 64 - 1 <=? n) with false by lia; reflexivity).
    destruct (empty_aligned_static h (trait_align (TA TN))) as (z & -> & Hz & Hza & _); [right; left; reflexivity|]. cbn [bind].
    rewrite cast_unwrap_empty; auto. exists z. split; [reflexivity|]. split; [exact Hz|]. split; [exact Hza|].
    unfold size_good, slen. cbn [size_of]. rewrite Hz. reflexivity. }
  assert (E1 : exists r, elem_at h (TA TN) s 1 = Ok r /\ s_data r = zeros n /\ ref_ok (TA TN) r).
  { unfold elem_at, s. cbn [s_data]. change (arr_prev (big_bytes n) 1) with (arr_end (big_bytes n) 0).
    rewrite He0, He1, Hlfo.
    assert (Ea : align_offset h (trait_align (TA TN)) (2 ^ 64 - 1) = Ok 0).
    { unfold align_offset, uadd, usub. rewrite Ho. reflexivity. }
    rewrite Ea. cbn [bind]. replace ((0 <=? n) && (n <=? n)) with true by lia.
    fold s. assert (Hp : aligned (align_of (TA TN)) (part s 0 n)) by (apply aligned_part; auto with al).
    assert (Hd : s_data (part s 0 n) = zeros n).
    { rewrite part_sub, N.sub_0_r. unfold s. cbn [s_data]. unfold big_bytes. rewrite sub_take_drop, drop_0. apply take_app_eq. now rewrite blen_zeros. }
    assert (Hg : size_good (TA TN) (slen (part s 0 n))).
    { unfold size_good, slen. cbn [size_of]. rewrite Hd, blen_zeros. exact Heven. }
    rewrite cast_unwrap_cases by (reflexivity || assumption).
    destruct (size_good_dec (TA TN) (slen (part s 0 n))); [|contradiction].
    exists (part s 0 n). split; [reflexivity|]. split; [exact Hd|]. now split. }
  destruct E0 as (r0 & E0 & Hd0 & Hr0), E1 as (r1 & E1 & Hd1 & Hr1).
  assert (R0 : read h (TA TN) r0 = Ok (VArray [])).
  { rewrite read_exact; [unfold outcome; rewrite Hd0; reflexivity|reflexivity|reflexivity|exact Hr0|].
    right. unfold slen. rewrite Hd0. reflexivity. }
  assert (R1 : exists v vs, read h (TA TN) r1 = Ok (VArray (v :: vs))).
  { destruct (read_long h (TA TN) eq_refl eq_refl r1 Hr1) as [E|[_ E]]; [right; unfold slen; rewrite Hd1, blen_zeros; lia|discriminate| |discriminate].
    rewrite E. unfold outcome. cbn [sp_reads sp_size]. rewrite Hd1. cbn [sp_decode sp_size].
    change (len (zeros n)) with (blen (zeros n)). rewrite blen_zeros, Heven. cbn [N.eqb].
    destruct (zeros_S n ltac:(lia)) as (d & ->). cbn [length]. destruct (sp_pieces_cons (length d) (N.to_nat 2) x00 d) as (x & l & ->).
    cbn [map]. eauto. }
  destruct R1 as (v & vs & R1). exists v, vs. split; [|exact Hsp].
  unfold decode. destruct (cast_cases h (TA (TA TN)) s eq_refl) as [[_ E]|[H _]]; [exact Ha| |elim H; exact I].
  fold cast in E. rewrite E. cbn [bind].
  change ((let* rs := array_refs h (TA TN) s in let* vs := mapM (read h (TA TN)) rs in Ok (VArray vs)) =
          Ok (VArray [VArray []; VArray (v :: vs)])).
  unfold array_refs. cbn [size_of].
  rewrite nfwa_items_ok by (try exact Ha; unfold slen, s; cbn [s_data]; rewrite Hbl; unfold usize_lim; lia).
  change (s_data s) with (big_bytes n). rewrite Han. change (indices 0 (N.to_nat 2)) with [0; 1]. cbn [mapM].
  rewrite E0, E1. cbn [bind mapM]. rewrite R0. cbn [bind]. rewrite R1. reflexivity.
Qed.

(** ** What reading gives in every build, wrapped around or not *)
Lemma bad_loosely big x d v : ~ size_good x (blen d) -> loosely big x d v <-> sp_decode big x (Some d) = v.
Proof.
  intros Hg. unfold size_good in Hg. destruct (size_of x) as [n|] eqn:En; [now apply (loosely_fixed big x n)|].
  destruct x; try tauto. cbn [loosely]. rewrite sp_size_of. destruct (size_of x); [reflexivity|tauto].
Qed.
Lemma loosely_seen big t d v : loosely big t (seen_bytes t d) v -> loosely big t d v.
Proof.
  intros G. destruct (size_good_dec t (blen d)) as [Hg|Hg].
  - rewrite seen_good in G by assumption. exact G.
  - apply bad_loosely; [exact Hg|]. rewrite sp_decode_norm. unfold norm.
    unfold seen_bytes in *. destruct (size_good_dec t (blen d)) as [|_]; [tauto|].
    destruct (size_of t) as [m|] eqn:Em; [now apply (loosely_fixed big t m) in G|].
    unfold size_good in Hg. rewrite Em in Hg. destruct t; try tauto. cbn [loosely] in G. rewrite sp_size_of in G.
    destruct (size_of t); [exact G|tauto].
Qed.
Lemma read_loosely h t : macro_ok t = true -> type_len t < 2 ^ 32 ->
  forall s v, ref_ok t s -> held t s -> read h t s = Ok v -> loosely (h_big_endian h) t (s_data s) v.
Proof.
  induction t as [t Hns IH|t Hs IH] using ty_struct_ind; intros Hm Hl s v Hr Hsm E.
  - destruct t as [| | | | | | | | | | | | |x|x|ts|k v']; cbn [is_struct] in Hns; try tauto;
      try (match goal with E : read _ ?t _ = _ |- _ =>
             destruct (read_long h t Hm Hl s Hr Hsm) as [E'|[_ E']]; [discriminate|unfold outcome in E'; cbn [sp_reads] in E'; cbn [loosely]; congruence|discriminate] end).
    + (* array *)
      specialize (IH x (or_introl eq_refl)). change (macro_ok x = true) in Hm.
      assert (Hl0 := Hl). rewrite (type_len_parts (TA x) x) in Hl by auto. specialize (IH Hm ltac:(lia)).
      destruct Hsm as [Hf|Hsm]; [discriminate|].
      cbn [loosely]. rewrite sp_size_of. destruct (size_of x) as [n|] eqn:En.
      * assert (Hnr : sp_near (TA x) (Some (s_data s)) = true) by (cbn [sp_near]; now rewrite sp_size_of, En).
        destruct (read_long h (TA x) Hm Hl0 s Hr ltac:(now right)) as [E'|[_ E']]; [congruence| |congruence].
        unfold outcome in E'. destruct (sp_reads _ _); congruence.
      * destruct Hr as [Ha _]. change (align_of (TA x)) with (align_of x) in Ha.
        cbn [read] in E. unfold array_refs in E. rewrite En in E.
        rewrite nfwa_items_ok in E by (auto; unfold usize_lim; lia).
        rewrite sp_align_of, sp_array_children_map in *.
        assert (Hprev : ~ In None (map (arr_cut (align_of x) (s_data s)) (indices 0 (N.to_nat (arr_n (s_data s))))) ->
                  forall i, In i (indices 0 (N.to_nat (arr_n (s_data s)))) -> arr_prev (s_data s) i < 2 ^ 63).
        { intros HN i Hi. destruct (N.lt_ge_cases (arr_prev (s_data s) i) (2 ^ 63)) as [H|H]; [exact H|exfalso].
          rewrite <- sp_array_children_map in HN. apply (array_inside_near (align_of x)) in HN; [|exact Hsm].
          rewrite (array_far (s_data s) i) in HN by assumption. discriminate. }
        set (idx := indices _ _) in *. clearbody idx.
        destruct (mapM (elem_at h x s) idx) as [rs|] eqn:Ers; [|discriminate]. cbn [bind] in E.
        destruct (mapM (read h x) rs) as [vs|] eqn:Evs; [|discriminate]. cbn [bind] in E. inversion E; subst v. clear E.
        exists vs. split; [reflexivity|].
        assert (HL : length vs = length rs) by (apply mapM_length in Evs; congruence).
        assert (HL' : length rs = length idx) by (apply mapM_length in Ers; congruence).
        rewrite map_length. split; [congruence|]. intros HN. specialize (Hprev HN).
        clear HL HL'. revert rs vs Ers Evs. induction idx as [|i idx IHi]; intros rs vs Ers Evs.
        { cbn [mapM] in Ers. inversion Ers; subst. cbn [mapM] in Evs. inversion Evs. constructor. }
        cbn [mapM] in Ers. destruct (elem_at h x s i) as [r|] eqn:Er; [|discriminate]. cbn [bind] in Ers.
        destruct (mapM (elem_at h x s) idx) as [rs'|] eqn:Ers'; [|discriminate]. cbn [bind] in Ers. inversion Ers; subst rs. clear Ers.
        cbn [mapM] in Evs. destruct (read h x r) as [v|] eqn:Ev; [|discriminate]. cbn [bind] in Evs.
        destruct (mapM (read h x) rs') as [vs'|] eqn:Evs'; [|discriminate]. cbn [bind] in Evs. inversion Evs; subst vs. clear Evs.
        cbn [map]. constructor.
        2:{ apply (IHi ltac:(intros j Hj; apply Hprev; now right) ltac:(intros H; apply HN; now right) rs'); auto. }
        destruct (elem_at_long h x s i Hm Ha En) as [He|[He _]]; [left; apply Hprev; now left| |congruence].
        unfold elem_view in He. destruct (arr_cut (align_of x) (s_data s) i) as [b|] eqn:Ec; [|exact I].
        pose proof (arr_cut_len _ _ _ _ Ec) as Hb.
        destruct (size_good_dec x (blen b)); [|congruence]. destruct He as (q & Eq & Hq & Hd).
        rewrite Er in Eq. inversion Eq; subst q. rewrite <- Hd. apply IH; auto. right. unfold slen in *. rewrite Hd. lia.
    + (* maybe *)
      specialize (IH x (or_intror eq_refl)). change (macro_ok x = true) in Hm.
      assert (Hl0 := Hl). rewrite (type_len_parts (TM x) x) in Hl by auto. specialize (IH Hm ltac:(lia)).
      destruct Hsm as [Hf|Hsm]; [discriminate|].
      cbn [loosely]. rewrite sp_size_of. destruct (size_of x) as [n|] eqn:En.
      * assert (Hnr : sp_near (TM x) (Some (s_data s)) = true) by (cbn [sp_near]; now rewrite sp_size_of, En).
        destruct (read_long h (TM x) Hm Hl0 s Hr ltac:(now right)) as [E'|[_ E']]; [congruence| |congruence].
        unfold outcome in E'. destruct (sp_reads _ _); congruence.
      * destruct Hr as [Ha _]. change (align_of (TM x)) with (align_of x) in Ha.
        cbn [read] in E. rewrite to_option_var in E by assumption. change (slen s) with (blen (s_data s)) in E.
        destruct (s_data s) as [|b d0] eqn:Ed.
        { cbn [blen N.eqb bind] in E. inversion E. cbn [sp_decode]. rewrite sp_size_of, En. reflexivity. }
        assert (Hne : s_data s <> []) by (rewrite Ed; discriminate).
        rewrite <- Ed in *. rewrite (removelast_take (s_data s) Hne) in *.
        assert (Hbl : blen (s_data s) <> 0) by (rewrite Ed, blen_cons; lia).
        replace (blen (s_data s) =? 0) with false in E by (symmetry; now apply N.eqb_neq).
        assert (Ht : blen (take (blen (s_data s) - 1) (s_data s)) = blen (s_data s) - 1) by (rewrite blen_take; lia).
        assert (Hp : s_data (part s 0 (blen (s_data s) - 1)) = take (blen (s_data s) - 1) (s_data s)).
        { rewrite part_0. reflexivity. }
        assert (Hpl : slen (part s 0 (blen (s_data s) - 1)) = blen (s_data s) - 1) by (unfold slen; rewrite Hp; exact Ht).
        cbn zeta in E. destruct (size_good_dec x (blen (s_data s) - 1)) as [Hg|Hg]; [|discriminate]. cbn [bind] in E.
        destruct (read h x (part s 0 (blen (s_data s) - 1))) as [w|] eqn:Ew; [|discriminate]. cbn [bind] in E. inversion E; subst v.
        exists w. split; [reflexivity|]. rewrite <- Hp. apply IH; auto.
        -- split; [apply aligned_part; auto with al|]. now rewrite Hpl.
        -- right. rewrite Hpl. unfold slen in Hsm. lia.
  - destruct (size_of t) as [n|] eqn:En.
    + assert (Hnr : sp_near t (Some (s_data s)) = true) by now rewrite (sp_near_fixed t n).
      destruct (read_long h t Hm Hl s Hr Hsm) as [E'|[_ E']]; [congruence| |congruence].
      unfold outcome in E'. apply (loosely_fixed _ t n); [exact En|]. destruct (sp_reads _ _); congruence.
    + destruct Hsm as [Hf|Hsm]; [unfold is_fixed in Hf; rewrite En in Hf; discriminate|].
      apply loosely_struct; auto.
      assert (HV : exists vs, v = VTuple vs).
      { clear -E Hs. destruct t; cbn [is_struct] in Hs; try tauto; cbn [read] in E; destruct (to_tuple h _ s) as [rs|]; try discriminate; cbn [bind] in E.
        - match type of E with (let* _ := ?m in _) = _ => destruct m as [vs|]; [|discriminate] end. cbn [bind] in E. inversion E. eauto.
        - destruct rs as [|a [|b [|c l]]]; try (inversion E; eauto; fail). destruct (read h t1 a); [|discriminate]. cbn [bind] in E.
          destruct (read h t2 b); [|discriminate]. cbn [bind] in E. inversion E. eauto. }
      destruct HV as [vs ->]. exists vs. split; [reflexivity|]. intros HN.
      assert (Hnf : struct_far t (s_data s) -> False).
      { intros Hf. apply struct_far_near in Hf. rewrite struct_inside_near in Hf; [discriminate|exact Hsm|].
        unfold struct_cuts in HN. rewrite En in HN. exact HN. }
      destruct (to_tuple_long h t s) as [(rs & Er & HF)|[_ Hf]]; auto; try tauto.
      pose proof (struct_cuts_length t (s_data s)) as Hlen.
      assert (Hrs : length rs = length (children_of t)).
      { apply Forall2_length in HF. rewrite combine_length, Hlen, Nat.min_id in HF. lia. }
      rewrite (read_struct h t s rs) in E by assumption.
      destruct (mapM _ _) as [vs'|] eqn:Evs in E; [|discriminate]. cbn [bind] in E. inversion E; subst vs'. clear E.
      assert (Hvl : length vs = length (children_of t)).
      { apply mapM_length in Evs. rewrite combine_length in Evs. lia. }
      split; [exact Hvl|].
      assert (Hchild : forall c x r v, In (c, x) (combine (children_of t) (struct_cuts t (s_data s))) ->
        child_view h s c x r -> read h c r = Ok v -> loosely_opt (h_big_endian h) c x v).
      { intros c x r v Hin (Hrr & _ & Hd) Ev.
        pose proof (in_combine_l _ _ _ _ Hin) as Hc. pose proof (in_combine_r _ _ _ _ Hin) as Hx.
        destruct x as [b|]; [|exact I]. cbn [loosely_opt]. rewrite Forall_forall in IH.
        assert (G : loosely (h_big_endian h) c (s_data r) v).
        { apply (IH c Hc); auto.
          - eapply macro_ok_child; eauto.
          - pose proof (child_len t c Hs Hc). lia.
          - unfold held, is_fixed. destruct (size_of c) as [m|] eqn:Em; [auto|right]. unfold slen. rewrite Hd.
            pose proof (seen_len c b Em). pose proof (struct_cuts_len t (s_data s) b Hx). unfold slen in Hsm. lia. }
        apply loosely_seen. rewrite <- Hd. exact G. }
      clear IH HN Hnf. revert vs Evs Hvl HF Hlen Hrs Hchild.
      generalize (struct_cuts t (s_data s)) as cs. generalize (children_of t) as ts. clear.
      induction rs as [|r rs IH]; intros [|c ts] [|x cs] vs Evs Hvl HF Hlen Hrs Hchild; cbn [length combine] in *; try lia; try constructor.
      inversion HF as [|? ? ? ? Hv HF']; subst. cbn [fst snd mapM] in *.
      destruct (read h c r) as [v|] eqn:Ev; [|discriminate]. cbn [bind] in Evs.
      destruct (mapM _ (combine ts rs)) as [vs'|] eqn:Evs'; [|discriminate]. cbn [bind] in Evs. inversion Evs; subst vs. clear Evs.
      cbn [combine length] in *. constructor.
      * cbn [fst snd]. apply (Hchild c x r v); [now left|exact Hv|exact Ev].
      * apply (IH ts cs vs'); auto; try lia. intros c' x' r' v' Hin. apply Hchild. now right.
Qed.
Lemma decode_loosely h t s v : usable t -> aligned (sp_align t) s -> len (s_data s) < 2 ^ 63 ->
  decode h t s = Ok v -> loosely (h_big_endian h) t (s_data s) v.
Proof.
  intros [Hm Hl] Ha Hs E. rewrite sp_align_of in Ha. rewrite type_len_show in Hl.
  unfold decode in E. destruct (cast_ok h t s Hm Ha) as (r & Er & Hr & Hd & _). rewrite Er in E. cbn [bind] in E.
  apply loosely_seen. rewrite <- Hd. apply read_loosely; auto.
  unfold held, is_fixed. destruct (size_of t) as [n|] eqn:En; [auto|right].
  unfold slen in *. rewrite Hd. pose proof (seen_len t (s_data s) En) as H. change @len with @blen in *. lia.
Qed.
Lemma big_children n : 2 ^ 32 <= n -> n + 16 < 2 ^ 63 -> sp_array_children 2 (big_bytes n) = [None; None].
Proof.
  intros Hn Hn2. destruct (big_shape n Hn Hn2) as (Hlfo & Han & He0 & He1).
  rewrite sp_array_children_map, Han. change (indices 0 (N.to_nat 2)) with [0; 1]. cbn [map].
  unfold arr_cut, cut. rewrite He0, He1, Hlfo. replace (2 ^ 64 - 1 <=? n) with false by lia. rewrite andb_false_r.
  change (arr_prev (big_bytes n) 1) with (arr_end (big_bytes n) 0). rewrite He0.
  change (pad_to 2 (2 ^ 64 - 1)) with (2 ^ 64). replace (2 ^ 64 <=? n) with false by lia. reflexivity.
Qed.
Lemma wrap_exists : exists (h : host) (x : ty) (s : slice) (vs : list value),
  usable (TA x) /\ sp_size x = None /\ aligned (sp_align (TA x)) s /\ len (s_data s) < 2 ^ 63 /\
  h_overflow_checks h = false /\ decode h (TA x) s = Ok (VArray vs) /\
  nth_error (sp_array_children (sp_align x) (s_data s)) 1 = Some None /\
  nth_error vs 1 <> Some (sp_default (h_big_endian h) x).
Proof.
  assert (H := wrap_wrong (Host false false false 0 0) (2 ^ 32) 0 eq_refl eq_refl eq_refl ltac:(discriminate) eq_refl).
  destruct H as (v & vs & E & _).
  exists (Host false false false 0 0), (TA TN), (Slice 0 (big_bytes (2 ^ 32))), [VArray []; VArray (v :: vs)].
  split; [split; reflexivity|]. split; [reflexivity|]. split; [reflexivity|].
  split; [cbn [s_data]; rewrite big_len; reflexivity|]. split; [reflexivity|]. split; [exact E|].
  split; [cbn [s_data]; change (sp_align (TA TN)) with 2; rewrite big_children by (reflexivity || discriminate); reflexivity|].
  cbn [nth_error]. discriminate.
Qed.
Lemma value_refuted : exists (h : host) (t : ty) (s : slice) (v : value),
  usable t /\ sp_tame t = false /\ aligned (sp_align t) s /\ len (s_data s) < 2 ^ 63 /\
  h_overflow_checks h = false /\ decode h t s = Ok v /\ v <> sp_decode (h_big_endian h) t (Some (s_data s)).
Proof.
  assert (H := wrap_wrong (Host false false false 0 0) (2 ^ 32) 0 eq_refl eq_refl eq_refl ltac:(discriminate) eq_refl).
  destruct H as (v & vs & E & E').
  exists (Host false false false 0 0), (TA (TA TN)), (Slice 0 (big_bytes (2 ^ 32))), (VArray [VArray []; VArray (v :: vs)]).
  split; [split; reflexivity|]. split; [reflexivity|]. split; [reflexivity|].
  split; [cbn [s_data]; rewrite big_len; reflexivity|]. split; [reflexivity|]. split; [exact E|].
  cbn [s_data] in *. rewrite E'. discriminate.
Qed.

(** ** Long values to try these on *)
Definition one_bytes (n : N) : list byte := zeros n ++ num_le 8 n.
Lemma one_len n : len (one_bytes n) = n + 8.
Proof.
  unfold one_bytes. change (@len byte) with (@blen byte). rewrite blen_app, blen_zeros.
  change (blen (num_le 8 n)) with 8. lia.
Qed.
Lemma one_near n : 2 ^ 32 <= n -> n + 8 < 2 ^ 63 -> sp_near (TA TS) (Some (one_bytes n)) = true /\
  sp_array_children 1 (one_bytes n) = [Some (zeros n)].
Proof.
  intros Hn Hn2. assert (Hbl : blen (one_bytes n) = n + 8) by apply one_len.
  assert (Hw : arr_width (one_bytes n) = 8).
  { unfold arr_width. rewrite Hbl. unfold sp_width.
    replace (n + 8 =? 0) with false by lia. replace (n + 8 <? 2 ^ 8) with false by lia.
    replace (n + 8 <? 2 ^ 16) with false by lia. replace (n + 8 <? 2 ^ 32) with false by lia. reflexivity. }
  assert (Hsub : sub (one_bytes n) n 8 = num_le 8 n).
  { rewrite sub_take_drop. unfold one_bytes. rewrite drop_app_eq by now rewrite blen_zeros. reflexivity. }
  assert (Hlast : arr_last (one_bytes n) = n).
  { unfold arr_last. rewrite Hw, Hbl. replace (n + 8 - 8) with n by lia. rewrite Hsub. apply le_num_le8. lia. }
  assert (Hlfo : arr_lfo (one_bytes n) = n).
  { unfold arr_lfo, arr_good. rewrite Hlast, Hw, Hbl. replace (n + 8 =? 0) with false by lia.
    replace (n <=? n + 8) with true by lia. replace (n + 8 - n) with 8 by lia. reflexivity. }
  assert (Hosz : osz_n (arr_osz (one_bytes n)) = 8) by (rewrite arr_osz_width by lia; exact Hw).
  assert (Han : arr_n (one_bytes n) = 1).
  { unfold arr_n. rewrite Hlfo, Hosz, Hbl. replace (n + 8 - n) with 8 by lia. reflexivity. }
  assert (He : arr_end (one_bytes n) 0 = n).
  { unfold arr_end. rewrite Hlfo, Hosz, N.mul_0_l, N.add_0_r, Hsub. apply le_num_le8. lia. }
  assert (Hc : sp_array_children 1 (one_bytes n) = [Some (zeros n)]).
  { rewrite sp_array_children_map, Han. change (indices 0 (N.to_nat 1)) with [0]. cbn [map].
    unfold arr_cut, cut. rewrite He, Hlfo. change (pad_to 1 (arr_prev (one_bytes n) 0)) with 0.
    replace ((0 <=? n) && (n <=? n)) with true by lia. rewrite sub_take_drop, N.sub_0_r, drop_0. unfold one_bytes.
    rewrite take_app_eq by now rewrite blen_zeros. reflexivity. }
  split; [|exact Hc]. cbn [sp_near sp_size]. change (sp_align TS) with 1. rewrite Hc. cbn [forallb sp_near].
  rewrite sp_array_near_map, Han. change (indices 0 (N.to_nat 1)) with [0]. cbn [forallb]. rewrite He. unfold near.
  replace (n <? 2 ^ 63) with true by lia. reflexivity.
Qed.
