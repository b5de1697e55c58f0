(** offset.rs, aligned_bytes.rs, buf.rs (C28-C31, C34). *)
From Verif Require Import Base Types Layout AlignedBytes Spec Deser Buf Histories BaseFacts LayoutFacts.

(** ** AlignedOffset (C30) *)
Lemma lor_multiple al a b : is_alignment al -> a mod al = 0 -> b mod al = 0 -> N.lor a b mod al = 0.
Proof.
  intros Hal Ha Hb. destruct (alignment_pow al Hal) as (k & -> & _).
  rewrite <- N.land_ones in Ha, Hb |- *. rewrite N.land_lor_distr_l, Ha, Hb. reflexivity.
Qed.
Lemma lor_lt a b k : a < 2 ^ k -> b < 2 ^ k -> N.lor a b < 2 ^ k.
Proof.
  intros Ha Hb. destruct (N.eq_dec (N.lor a b) 0) as [->|Hn]; [lia|].
  apply N.log2_lt_pow2; [lia|]. rewrite N.log2_lor.
  apply N.max_lub_lt.
  - destruct (N.eq_dec a 0) as [->|]; [cbn|apply N.log2_lt_pow2; lia].
    destruct k; [|lia]. exfalso. apply Hn. cbn in *. assert (b = 0) by lia. now subst.
  - destruct (N.eq_dec b 0) as [->|]; [cbn|apply N.log2_lt_pow2; lia].
    destruct k; [|lia]. exfalso. apply Hn. cbn in *. rewrite N.lor_0_r. lia.
Qed.
Lemma is_alignment_min a b : is_alignment a -> is_alignment b -> is_alignment (N.min a b).
Proof. intros Ha Hb. destruct (N.min_spec a b) as [[_ ->]|[_ ->]]; auto. Qed.
Lemma usize_mod_alignment A x : is_alignment A -> (x mod usize_lim) mod A = x mod A.
Proof. unfold usize_lim. intros [->|[->|[->| ->]]]; lia. Qed.

Lemma aoffset_ok h A v : aoffset h A v -> is_alignment A /\ v mod A = 0 /\ v < usize_lim.
Proof.
  induction 1 as [A x v HA Hx H|A x v HA Hx H|A B a b _ (HA & Ha & Ha') _ (HB & Hb & Hb')
                 |A a b v _ (HA & Ha & Ha') _ (_ & Hb & Hb') H|A B a v HB _ (HA & Ha & Ha') H].
  - unfold try_new in H. destruct (x mod A =? 0) eqn:E; [|discriminate].
    injection H as <-. apply N.eqb_eq in E. auto.
  - destruct (align_offset_mod h A x v HA Hx H). auto.
  - split; [now apply is_alignment_min|]. split.
    + apply lor_multiple; [now apply is_alignment_min| |].
      * apply (align_divides _ A); auto using is_alignment_min. lia.
      * apply (align_divides _ B); auto using is_alignment_min. lia.
    + unfold ao_bitor. unfold usize_lim in *. now apply lor_lt.
  - split; [assumption|]. unfold ao_add, uadd in H.
    destruct (a + b <? usize_lim) eqn:E.
    + injection H as <-. apply N.ltb_lt in E. split; [now apply align_add|assumption].
    + destruct (h_overflow_checks h); [discriminate|]. injection H as <-. split.
      * rewrite usize_mod_alignment by assumption. now apply align_add.
      * apply N.mod_lt. unfold usize_lim. lia.
  - unfold ao_into in H. destruct (B <=? A) eqn:E; [|discriminate]. injection H as <-.
    apply N.leb_le in E. repeat split; auto. now apply (align_divides B A).
Qed.

Lemma pad_to_least_multiple A x : is_alignment A -> least_multiple A x (pad_to A x).
Proof.
  intros HA. repeat split.
  - now apply pad_to_mod.
  - now apply pad_to_ge.
  - intros z Hz Hx. now apply pad_to_least.
Qed.
Lemma least_multiple_unique A x y z : least_multiple A x y -> least_multiple A x z -> y = z.
Proof.
  intros (H1 & H2 & H3) (H4 & H5 & H6). apply N.le_antisymm; auto.
Qed.
Lemma align_offset_least h A x : is_alignment A -> x + A < usize_lim ->
  exists y, align_offset h A x = Ok y /\ least_multiple A x y.
Proof.
  intros HA Hx. exists (pad_to A x). split; [now apply align_offset_ok|now apply pad_to_least_multiple].
Qed.
(** With wrapping arithmetic every representable answer is right. *)
Lemma align_offset_release h A x y : h_overflow_checks h = false -> is_alignment A ->
  x < usize_lim -> least_multiple A x y -> y < usize_lim -> align_offset h A x = Ok y.
Proof.
  intros Ho HA Hx Hy Hlt.
  assert (Ey : y = pad_to A x) by (eapply least_multiple_unique; eauto using pad_to_least_multiple).
  destruct (N.lt_ge_cases (x + A) usize_lim) as [Hs|Hs].
  { rewrite align_offset_ok by assumption. now subst. }
  unfold align_offset, uadd, usub. rewrite Ho.
  replace (x + A <? usize_lim) with false by (symmetry; apply N.ltb_ge; lia). cbn [bind].
  assert (HA8 : 1 <= A <= 8) by (destruct HA as [->|[->|[->| ->]]]; lia).
  pose proof (pad_to_mod A x HA) as HM. rewrite <- Ey in HM.
  pose proof (pad_to_ge A x HA) as HG. rewrite <- Ey in HG.
  assert (Ex : y = usize_lim - A).
  { unfold usize_lim in *. destruct HA as [->|[->|[->| ->]]]; lia. }
  assert (Exx : x = usize_lim - A).
  { assert (x <= usize_lim - A) by lia. lia. }
  replace ((x + A) mod usize_lim) with 0.
  2: { replace (x + A) with usize_lim by (unfold usize_lim in *; lia). reflexivity. }
  cbn [N.leb N.compare bind]. replace (1 <=? A) with true by (symmetry; apply N.leb_le; lia).
  cbn [bind]. f_equal. rewrite uand_unot by (unfold usize_lim in *; lia).
  rewrite Ex. unfold usize_lim. destruct HA as [->|[->|[->| ->]]]; reflexivity.
Qed.
Lemma align_offset_checked_panics h A x : h_overflow_checks h = true -> is_alignment A ->
  x < usize_lim -> (align_offset h A x = Crash POverflow <-> usize_lim <= x + A).
Proof.
  intros Ho HA Hx. destruct (N.lt_ge_cases (x + A) usize_lim) as [Hs|Hs].
  - rewrite align_offset_ok by assumption. split; [discriminate|lia].
  - split; [auto|]. intros _. unfold align_offset, uadd.
    replace (x + A <? usize_lim) with false by (symmetry; apply N.ltb_ge; lia). now rewrite Ho.
Qed.
Lemma try_new_iff A x v : try_new A x = Some v <-> x mod A = 0 /\ v = x.
Proof.
  unfold try_new. destruct (x mod A =? 0) eqn:E.
  - apply N.eqb_eq in E. split; [intros H; injection H as <-; auto|intros [_ ->]; auto].
  - apply N.eqb_neq in E. split; [discriminate|tauto].
Qed.

(** ** AlignedSlice (C34) *)
Lemma unchecked_ok h A s : s_addr s mod A = 0 -> unchecked h A s = Ok s.
Proof.
  intros H. unfold unchecked, is_aligned. rewrite H. cbn [N.eqb]. rewrite orb_true_r. cbn [negb].
  now rewrite andb_false_r.
Qed.
Lemma unchecked_empty h A s : slen s = 0 -> unchecked h A s = Ok s.
Proof. intros H. unfold unchecked. rewrite H. cbn [N.eqb orb negb]. now rewrite andb_false_r. Qed.
Lemma unchecked_1 h s : unchecked h 1 s = Ok s.
Proof. apply unchecked_ok. apply N.mod_1_r. Qed.

Lemma part_0 s e : part s 0 e = Slice (s_addr s) (take e (s_data s)).
Proof. unfold part. now rewrite N.add_0_r, N.sub_0_r, drop_0. Qed.
Lemma part_end s b : part s b (slen s) = Slice (s_addr s + b) (drop b (s_data s)).
Proof. unfold part. f_equal. apply take_all. rewrite blen_drop. unfold slen. lia. Qed.

Lemma sl_range_ok s b e : b <= e -> e <= slen s -> sl_range s b e = Ok (part s b e).
Proof.
  intros. unfold sl_range. destruct ((b <=? e) && (e <=? slen s)) eqn:E; [|lia].
  unfold part. now rewrite drop_take.
Qed.
Lemma sl_range_bad s b e : ~ (b <= e /\ e <= slen s) -> sl_range s b e = Crash PIndex.
Proof. intros. unfold sl_range. destruct ((b <=? e) && (e <=? slen s)) eqn:E; [lia|reflexivity]. Qed.

Lemma ix_to_ok h A s e : aligned A s -> e <= slen s -> ix_to h A s e = Ok (part s 0 e).
Proof.
  intros HA He. unfold ix_to. rewrite sl_to_ok by assumption. cbn [bind].
  rewrite unchecked_ok by exact HA. now rewrite part_0.
Qed.
Lemma ix_from_al_ok h A s b : is_alignment A -> aligned A s -> b mod A = 0 -> b <= slen s ->
  ix_from_al h A s b = Ok (part s b (slen s)).
Proof.
  intros HA Ha Hb Hl. unfold ix_from_al. rewrite sl_from_ok by assumption. cbn [bind].
  rewrite part_end. apply unchecked_ok. cbn. now apply align_add.
Qed.

Lemma part_full s : part s 0 (slen s) = s.
Proof. rewrite part_0. rewrite take_all by (unfold slen; lia). now destruct s. Qed.

Lemma run_op_spec h A s o :
  is_alignment A -> aligned A s -> slen s < usize_lim -> op_wf A o ->
  let '(b, e) := op_range s o in
  (b <= e /\ e <= slen s ->
     run_op h A s o = Ok (part s b e) /\ aligned (op_align A o) (part s b e)) /\
  (~ (b <= e /\ e <= slen s) -> run_op h A s o = Crash PIndex).
Proof.
  intros HA Ha Hs Hwf. unfold aligned in *.
  destruct o; cbn [op_range run_op op_align op_wf] in *.
  - split; intros H.
    + rewrite ix_to_ok by (auto; lia). split; [reflexivity|]. now rewrite part_0.
    + unfold ix_to, sl_to. destruct (e <=? slen s) eqn:E; [lia|reflexivity].
  - unfold ix_to_incl. split; intros H.
    + replace (e + 1 <? usize_lim) with true by (symmetry; apply N.ltb_lt; lia).
      rewrite sl_to_ok by lia. cbn [bind]. rewrite unchecked_ok by exact Ha.
      rewrite part_0. auto.
    + destruct (e + 1 <? usize_lim); [|reflexivity]. unfold sl_to.
      destruct (e + 1 <=? slen s) eqn:E; [lia|reflexivity].
  - unfold ix_range. split; intros H.
    + rewrite sl_range_ok by lia. cbn [bind]. rewrite unchecked_1. split; [reflexivity|]. apply N.mod_1_r.
    + rewrite sl_range_bad by assumption. reflexivity.
  - unfold ix_range_incl. split; intros H.
    + replace (e + 1 <? usize_lim) with true by (symmetry; apply N.ltb_lt; lia).
      rewrite sl_range_ok by lia. cbn [bind]. rewrite unchecked_1. split; [reflexivity|]. apply N.mod_1_r.
    + destruct (e + 1 <? usize_lim); [|reflexivity]. rewrite sl_range_bad by assumption. reflexivity.
  - unfold ix_from. split; intros H.
    + rewrite sl_from_ok by lia. cbn [bind]. rewrite unchecked_1, part_end. split; [reflexivity|]. apply N.mod_1_r.
    + unfold sl_from. destruct (b <=? slen s) eqn:E; [lia|reflexivity].
  - unfold ix_full. rewrite part_full. split; [auto|lia].
  - unfold ix_range_al. destruct Hwf as (? & ? & Hb). split; intros H'.
    + rewrite sl_range_ok by lia. cbn [bind].
      assert (Hal : s_addr (part s b e) mod A = 0) by (cbn; now apply align_add).
      rewrite unchecked_ok by exact Hal. auto.
    + rewrite sl_range_bad by assumption. reflexivity.
  - unfold ix_range_incl_al. destruct Hwf as (? & ? & Hb). split; intros H'.
    + replace (e + 1 <? usize_lim) with true by (symmetry; apply N.ltb_lt; lia).
      rewrite sl_range_ok by lia. cbn [bind].
      assert (Hal : s_addr (part s b (e + 1)) mod A = 0) by (cbn; now apply align_add).
      rewrite unchecked_ok by exact Hal. auto.
    + destruct (e + 1 <? usize_lim); [|reflexivity]. rewrite sl_range_bad by assumption. reflexivity.
  - destruct Hwf as (? & Hb). split; intros H'.
    + rewrite ix_from_al_ok by (auto; lia). split; [reflexivity|]. cbn. now apply align_add.
    + unfold ix_from_al, sl_from. destruct (b <=? slen s) eqn:E; [lia|reflexivity].
  - unfold split_at. split; intros H.
    + rewrite sl_to_ok, sl_from_ok by lia. cbn [bind]. rewrite unchecked_ok by exact Ha.
      cbn [bind fst]. rewrite part_0. auto.
    + unfold sl_to. destruct (mid <=? slen s) eqn:E; [lia|reflexivity].
  - unfold split_at. split; intros H.
    + rewrite sl_to_ok, sl_from_ok by lia. cbn [bind]. rewrite unchecked_ok by exact Ha.
      cbn [bind snd]. rewrite part_end. split; [reflexivity|]. apply N.mod_1_r.
    + unfold sl_to. destruct (mid <=? slen s) eqn:E; [lia|reflexivity].
  - destruct Hwf as (HB & Hle). unfold as_aligned, aligned_to. rewrite part_full.
    split; [|lia]. intros _. apply N.leb_le in Hle as Hle'. rewrite Hle'. split; [reflexivity|].
    now apply (align_divides B A).
Qed.

Lemma op_align_alignment A o : is_alignment A -> op_wf A o -> is_alignment (op_align A o).
Proof. intros HA Hw. destruct o; cbn in *; auto; try (left; reflexivity). tauto. Qed.
Lemma part_part s b e b' e' : b <= e -> e <= slen s -> b' <= e' -> e' <= slen (part s b e) ->
  part (part s b e) b' e' = part s (b + b') (b + e').
Proof.
  intros. unfold part, slen in *. cbn [s_addr s_data] in *. f_equal; [lia|].
  rewrite blen_take, blen_drop in *. rewrite drop_take, take_take, drop_drop.
  f_equal. lia.
Qed.
Lemma slen_part s b e : b <= e -> e <= slen s -> slen (part s b e) = e - b.
Proof. intros. unfold part, slen in *. cbn. rewrite blen_take, blen_drop. lia. Qed.
Lemma sliced_ok h A0 s0 A s :
  is_alignment A0 -> aligned A0 s0 -> slen s0 < usize_lim -> sliced h A0 s0 A s ->
  is_alignment A /\ aligned A s /\ exists b e, b <= e /\ e <= slen s0 /\ s = part s0 b e.
Proof.
  intros HA0 Ha0 Hl. induction 1 as [|A s o s' _ (HA & Ha & b & e & Hbe & He & ->) Hw Hr].
  - repeat split; auto. exists 0, (slen s0). rewrite part_full. repeat split; lia.
  - assert (Hsl : slen (part s0 b e) < usize_lim) by (rewrite slen_part; lia).
    pose proof (run_op_spec h A (part s0 b e) o HA Ha Hsl Hw) as H.
    destruct (op_range (part s0 b e) o) as [b' e'].
    assert (Hd : (b' <= e' /\ e' <= slen (part s0 b e)) \/ ~ (b' <= e' /\ e' <= slen (part s0 b e))) by lia.
    destruct Hd as [Hd|Hd]; [|destruct H as [_ H]; rewrite (H Hd) in Hr; discriminate].
    destruct H as [H _]. destruct (H Hd) as [E Hal]. rewrite E in Hr. injection Hr as <-.
    split; [now apply op_align_alignment|]. split; [exact Hal|].
    rewrite slen_part in Hd by assumption.
    exists (b + b'), (b + e'). rewrite part_part by (auto; try lia; rewrite slen_part by assumption; lia).
    repeat split; lia.
Qed.

(** [align_bytes] and [empty_aligned]. *)
Lemma land_mask A x : is_alignment A -> N.land x (A - 1) = x mod A.
Proof.
  intros HA. destruct (alignment_pow A HA) as (k & -> & _).
  rewrite <- N.land_ones. f_equal. unfold N.ones. rewrite N.shiftl_1_l, N.pred_sub. reflexivity.
Qed.
Lemma to_align_offset A p : is_alignment A ->
  let o := uand (wrapping_neg p) (A - 1) in o < A /\ (p + o) mod A = 0.
Proof.
  intros HA. cbn zeta. unfold uand. rewrite land_mask by assumption.
  pose proof (alignment_pos A HA). split; [apply N.mod_lt; lia|].
  unfold wrapping_neg, usize_lim. destruct HA as [->|[->|[->| ->]]]; lia.
Qed.
Lemma align_bytes_ok h A s : is_alignment A -> A <= slen s + 1 ->
  exists b, b < A /\ align_bytes h A s = Ok (part s b (slen s)) /\ aligned A (part s b (slen s)).
Proof.
  intros HA Hl. destruct (to_align_offset A (s_addr s) HA) as [Hlt Hm].
  exists (uand (wrapping_neg (s_addr s)) (A - 1)). split; [assumption|].
  unfold align_bytes. rewrite sl_from_ok by lia. cbn [bind].
  unfold try_as_aligned, mem_align_of_marker. cbn [N.leb N.compare Pos.compare Pos.compare_cont orb].
  rewrite part_end. split; [reflexivity|]. exact Hm.
Qed.
Lemma empty_aligned_ok h A : is_alignment A ->
  exists s, empty_aligned h A = Ok s /\ s_data s = [] /\ aligned A s.
Proof.
  intros HA. unfold empty_aligned.
  assert (HA8 : A <= slen (str8 h) + 1) by (cbn; destruct HA as [->|[->|[->| ->]]]; lia).
  destruct (align_bytes_ok h A (str8 h) HA HA8) as (b & _ & -> & Hal). cbn [bind].
  rewrite ix_to_ok by (auto; lia). eexists. split; [reflexivity|]. rewrite part_0. split; [reflexivity|exact Hal].
Qed.

(** ** try_as_aligned (C28) *)
Lemma try_as_aligned_always from to s : try_as_aligned from to s = Some s.
Proof. reflexivity. Qed.

(** ** AlignedBuf (C29, C31) *)
(** The bytes a buffer stands for. *)
Definition pad_of (b : vec) : N := uand (wrapping_neg (v_addr b)) 7.
Lemma pad_of_spec b : pad_of b < 8 /\ (v_addr b + pad_of b) mod 8 = 0.
Proof. apply (to_align_offset 8). right; right; right; reflexivity. Qed.
Definition holds (b : vec) (d : list byte) : Prop :=
  match d with
  | [] => v_data b = []
  | _ => exists junk, v_data b = junk ++ d /\ blen junk = pad_of b
  end.
Definition good_addr (b : vec) : Prop := v_addr b + 8 < usize_lim.

Lemma offset_to_align_ok h v : good_addr v ->
  offset_to_align h v = Ok (if vlen v =? 0 then 0 else pad_of v).
Proof.
  intros Hg. unfold offset_to_align. destruct (vlen v =? 0); [reflexivity|].
  fold (pad_of v). destruct (h_debug h); [|reflexivity].
  pose proof (pad_of_spec v) as [Hl Hm]. unfold good_addr in Hg.
  rewrite uadd_ok by lia. cbn [bind]. unfold uand.
  replace (N.land (v_addr v + pad_of v) 7) with 0; [reflexivity|].
  rewrite (land_mask 8) by (right; right; right; reflexivity). now rewrite Hm.
Qed.
Lemma vec_is_aligned_spec v : vec_is_aligned v = (vlen v =? 0) || (pad_of v =? 0).
Proof.
  unfold vec_is_aligned, pad_of, uand. f_equal.
  rewrite !(land_mask 8) by (right; right; right; reflexivity).
  unfold wrapping_neg, usize_lim.
  destruct (v_addr v mod 8 =? 0) eqn:E; destruct ((_ mod 2 ^ 64) mod 8 =? 0) eqn:E2; auto; lia.
Qed.
Lemma vec_align_ok h v a : v_data v <> [] -> a + 8 < usize_lim -> v_addr v + 8 < usize_lim ->
  exists b, vec_align h v a = Ok b /\ holds b (v_data v) /\ good_addr b /\
            (v_addr b = v_addr v \/ v_addr b = a).
Proof.
  intros Hn Ha Hv. unfold vec_align. rewrite vec_is_aligned_spec.
  assert (Hl : vlen v =? 0 = false).
  { apply N.eqb_neq. unfold vlen. intros E. apply Hn. now apply blen_0. }
  rewrite Hl. cbn [orb]. destruct (pad_of v =? 0) eqn:E.
  - exists v. repeat split; auto. unfold holds. destruct (v_data v) as [|x d] eqn:Ed; [congruence|].
    exists []. split; [reflexivity|]. apply N.eqb_eq in E. now rewrite E.
  - unfold align_cold. rewrite offset_to_align_ok by exact Ha. cbn [bind].
    replace (vlen (Vec a (v_data v)) =? 0) with false by (symmetry; exact Hl).
    cbn [v_data]. set (off := pad_of (Vec a (v_data v))).
    unfold rotate_right. rewrite blen_app, blen_zeros.
    replace (off <=? blen (v_data v) + off) with true by (symmetry; apply N.leb_le; lia). cbn [bind].
    exists (Vec a (zeros off ++ v_data v)). split.
    + do 2 f_equal. replace (blen (v_data v) + off - off) with (blen (v_data v)) by lia.
      rewrite drop_app_eq, take_app_eq by reflexivity. reflexivity.
    + repeat split; auto. unfold holds. destruct (v_data v) as [|x d] eqn:Ed; [congruence|].
      exists (zeros off). split; [reflexivity|]. rewrite blen_zeros. reflexivity.
Qed.
Lemma vec_align_spec h v a : a + 8 < usize_lim -> v_addr v + 8 < usize_lim ->
  exists b, vec_align h v a = Ok b /\ holds b (v_data v) /\ good_addr b.
Proof.
  intros Ha Hv. destruct (v_data v) as [|x d] eqn:E.
  - exists v. unfold vec_align. rewrite vec_is_aligned_spec. unfold vlen. rewrite E. cbn.
    repeat split; auto.
  - rewrite <- E. destruct (vec_align_ok h v a) as (b & H1 & H2 & H3 & _); auto; [congruence|]. eauto.
Qed.
Lemma vec_unalign_ok h b d : holds b d -> good_addr b ->
  exists v, vec_unalign h b = Ok v /\ v_data v = d /\ v_addr v = v_addr b.
Proof.
  intros Hh Hg. unfold vec_unalign. rewrite vec_is_aligned_spec.
  destruct d as [|x d].
  - cbn in Hh. unfold vlen. rewrite Hh. cbn. eauto.
  - destruct Hh as (junk & E & Hj).
    assert (Hl : vlen b =? 0 = false).
    { apply N.eqb_neq. unfold vlen. rewrite E, blen_app, blen_cons. lia. }
    rewrite Hl. cbn [orb]. destruct (pad_of b =? 0) eqn:Ep.
    + apply N.eqb_eq in Ep. rewrite Ep in Hj. apply blen_0 in Hj. subst junk. eauto.
    + rewrite offset_to_align_ok by assumption. rewrite Hl. cbn [bind].
      unfold rotate_left. rewrite E, blen_app.
      replace (pad_of b <=? blen junk + blen (x :: d)) with true by (symmetry; apply N.leb_le; lia).
      cbn [bind]. rewrite drop_app_eq, take_app_eq by (symmetry; exact Hj).
      rewrite blen_app, Hj. rewrite usub_ok by lia. cbn [bind].
      eexists. split; [reflexivity|]. cbn [v_data v_addr]. split; [|reflexivity].
      apply take_app_eq. lia.
Qed.
Lemma buf_deref_ok h b d : holds b d -> good_addr b ->
  exists s, buf_deref h b = Ok s /\ s_data s = d /\
            (d <> [] -> aligned 8 s) /\ (d = [] -> s_addr s = v_addr b).
Proof.
  intros Hh Hg. unfold buf_deref. rewrite offset_to_align_ok by assumption. cbn [bind].
  destruct d as [|x d].
  - cbn in Hh. unfold vlen. rewrite Hh. cbn [blen length N.of_nat N.eqb].
    rewrite sl_from_ok by (unfold slen; cbn; lia). cbn [bind s_addr s_data].
    rewrite N.add_0_r, drop_0. rewrite unchecked_empty by reflexivity.
    eexists. split; [reflexivity|]. split; [reflexivity|]. split; [congruence|reflexivity].
  - destruct Hh as (junk & E & Hj).
    assert (Hl : vlen b =? 0 = false).
    { apply N.eqb_neq. unfold vlen. rewrite E, blen_app, blen_cons. lia. }
    rewrite Hl. rewrite sl_from_ok by (unfold slen; cbn [s_data]; rewrite E, blen_app; lia).
    cbn [bind s_addr s_data]. pose proof (pad_of_spec b) as [_ Hm].
    rewrite unchecked_ok by exact Hm. eexists. split; [reflexivity|]. cbn [s_data s_addr].
    rewrite E, drop_app_eq by (symmetry; exact Hj).
    split; [reflexivity|]. split; [intros _; exact Hm|congruence].
Qed.
Lemma upd_app a b i x : upd (a ++ b) (length a + i) x = a ++ upd b i x.
Proof. induction a as [|y a IH]; cbn; [reflexivity|]. now rewrite IH. Qed.
Lemma upd_length l i x : length (upd l i x) = length l.
Proof. revert i. induction l as [|y l IH]; intros [|i]; cbn; auto. Qed.
Lemma buf_set_ok h b d i x : holds b d -> good_addr b -> i < blen d ->
  exists b', buf_set h b i x = Ok b' /\ holds b' (upd d (N.to_nat i) x) /\ good_addr b'.
Proof.
  intros Hh Hg Hi. unfold buf_set.
  destruct (buf_deref_ok h b d Hh Hg) as (s & -> & Hd & _ & _). cbn [bind].
  unfold slen. rewrite Hd. replace (i <? blen d) with true by (symmetry; apply N.ltb_lt; lia).
  rewrite offset_to_align_ok by assumption. cbn [bind].
  destruct d as [|y d]; [cbn in Hi; lia|]. destruct Hh as (junk & E & Hj).
  assert (Hl : vlen b =? 0 = false).
  { apply N.eqb_neq. unfold vlen. rewrite E, blen_app, blen_cons. lia. }
  rewrite Hl. eexists. split; [reflexivity|]. split; [|exact Hg].
  rewrite E. replace (N.to_nat (pad_of b + i)) with (length junk + N.to_nat i)%nat
    by (unfold blen in Hj; lia).
  rewrite upd_app. unfold holds.
  destruct (upd (y :: d) (N.to_nat i) x) eqn:Eu.
  { apply (f_equal (@length byte)) in Eu. rewrite upd_length in Eu. discriminate. }
  exists junk. split; [reflexivity|]. exact Hj.
Qed.
Lemma buf_set_oob h b d i x : holds b d -> good_addr b -> blen d <= i -> buf_set h b i x = Crash PIndex.
Proof.
  intros Hh Hg Hi. unfold buf_set.
  destruct (buf_deref_ok h b d Hh Hg) as (s & -> & Hd & _ & _). cbn [bind].
  unfold slen. rewrite Hd. now replace (i <? blen d) with false by (symmetry; apply N.ltb_ge; lia).
Qed.

Lemma sub_to_end d p : sub d p (len d) = drop p d.
Proof. unfold sub, len, drop. rewrite Nat2N.id. apply firstn_all2. rewrite skipn_length. lia. Qed.
Lemma upd_split d x : forall i, i < blen d -> upd d (N.to_nat i) x = sub d 0 i ++ [x] ++ sub d (i + 1) (len d).
Proof.
  intros i. rewrite sub_to_end. unfold sub, drop. replace (N.to_nat (i + 1)) with (S (N.to_nat i)) by lia.
  unfold blen. intros Hi. assert (Hl : (N.to_nat i < length d)%nat) by lia. clear Hi. revert Hl. generalize (N.to_nat i). clear i.
  cbn [N.to_nat skipn]. induction d as [|y d IH]; intros i Hi; [cbn in Hi; lia|].
  destruct i as [|i]; [reflexivity|]. cbn [upd firstn app skipn]. f_equal. apply IH. cbn in Hi. lia.
Qed.
Lemma run_buf_op_ok h b d o : holds b d -> good_addr b -> op_addrs_ok o ->
  match plain_op d o with
  | Some d' => exists b', run_buf_op h b o = Ok b' /\ holds b' d' /\ good_addr b'
  | None => run_buf_op h b o = Crash PIndex
  end.
Proof.
  intros Hh Hg Ho. destruct o as [i x|f a1 a2|a2]; cbn [plain_op run_buf_op op_addrs_ok] in *.
  - change (len d) with (blen d) at 1. destruct (i <? blen d) eqn:E.
    + apply N.ltb_lt in E. rewrite <- upd_split by exact E. now apply buf_set_ok.
    + apply N.ltb_ge in E. eapply buf_set_oob; eassumption.
  - unfold buf_with_vec. destruct (vec_unalign_ok h b d Hh Hg) as (v & -> & Hd & _). cbn [bind].
    rewrite Hd. destruct Ho. apply (vec_align_spec h (Vec a1 (f d)) a2); assumption.
  - unfold buf_into_vec, buf_from_vec. destruct (vec_unalign_ok h b d Hh Hg) as (v & -> & Hd & Ha). cbn [bind].
    rewrite <- Hd. apply vec_align_spec; [assumption|]. rewrite Ha. exact Hg.
Qed.
Lemma run_buf_ok h os : forall b d, holds b d -> good_addr b -> Forall op_addrs_ok os ->
  match run_plain d os with
  | Some d' => exists b', run_buf h b os = Ok b' /\ holds b' d' /\ good_addr b'
  | None => run_buf h b os = Crash PIndex
  end.
Proof.
  induction os as [|o os IH]; intros b d Hh Hg Hos; cbn [run_plain run_buf].
  - eauto.
  - inversion Hos as [|? ? Ho Hos']; subst. pose proof (run_buf_op_ok h b d o Hh Hg Ho) as H.
    destruct (plain_op d o) as [d'|].
    + destruct H as (b' & -> & Hh' & Hg'). cbn [bind]. now apply IH.
    + rewrite H. reflexivity.
Qed.

(** ** Statements used by the property files *)
Lemma buf_history h v a os :
  v_addr v + 8 < usize_lim -> a + 8 < usize_lim -> Forall op_addrs_ok os ->
  let final := let* b := buf_from_vec h v a in run_buf h b os in
  match run_plain (v_data v) os with
  | Some d => exists b, final = Ok b /\
      (exists s, buf_deref h b = Ok s /\ s_data s = d /\ (d <> [] -> s_addr s mod 8 = 0)) /\
      (exists w, buf_into_vec h b = Ok w /\ v_data w = d)
  | None => final = Crash PIndex
  end.
Proof.
  intros Hv Ha Hos. cbn zeta. unfold buf_from_vec.
  destruct (vec_align_spec h v a Ha Hv) as (b & -> & Hh & Hg). cbn [bind].
  pose proof (run_buf_ok h os b (v_data v) Hh Hg Hos) as H.
  destruct (run_plain (v_data v) os) as [d|]; [|exact H].
  destruct H as (b' & E & Hh' & Hg'). exists b'. split; [exact E|]. split.
  - destruct (buf_deref_ok h b' d Hh' Hg') as (s & Hs & Hd & Hal & _). eauto.
  - destruct (vec_unalign_ok h b' d Hh' Hg') as (w & Hw & Hd & _). eauto.
Qed.
Lemma buf_history_new h os : Forall op_addrs_ok os ->
  match run_plain [] os with
  | Some d => exists b, run_buf h buf_new os = Ok b /\
      (exists s, buf_deref h b = Ok s /\ s_data s = d /\ (d <> [] -> s_addr s mod 8 = 0)) /\
      (exists w, buf_into_vec h b = Ok w /\ v_data w = d)
  | None => run_buf h buf_new os = Crash PIndex
  end.
Proof.
  intros Hos. apply (buf_history h vec_new 1 os); auto; reflexivity.
Qed.
Lemma buf_rebuild_keeps_capacity_content h b d a2 : holds b d -> good_addr b -> a2 + 8 < usize_lim ->
  exists w, buf_into_vec h b = Ok w /\ v_data w = d.
Proof. intros Hh Hg _. destruct (vec_unalign_ok h b d Hh Hg) as (w & Hw & Hd & _). eauto. Qed.

Lemma copy_to_align_ok h A data a1 a2 :
  is_alignment A -> a1 + 8 < usize_lim -> a2 + 8 < usize_lim ->
  exists c s, copy_to_align h A data a1 a2 = Ok c /\ cow_as_ref h A c = Ok s /\
    s_data s = s_data data /\
    (s_data data <> [] -> s_addr s mod A = 0) /\
    (s_addr data mod A = 0 -> c = Borrowed data /\ s = data) /\
    (s_addr data mod A <> 0 -> exists b, c = OwnedBuf b).
Proof.
  intros HA H1 H2. unfold copy_to_align, is_aligned.
  destruct (s_addr data mod A =? 0) eqn:E.
  - apply N.eqb_eq in E. rewrite try_as_aligned_always.
    exists (Borrowed data), data. repeat split; auto. congruence.
  - apply N.eqb_neq in E.
    assert (Hv : v_addr (to_vec (s_data data) a1) + 8 < usize_lim).
    { destruct (s_data data); [reflexivity|exact H1]. }
    assert (Hd : v_data (to_vec (s_data data) a1) = s_data data) by (destruct (s_data data); reflexivity).
    destruct (vec_align_spec h (to_vec (s_data data) a1) a2 H2 Hv) as (b & Eb & Hh & Hg).
    unfold buf_from_vec. rewrite Eb. cbn [bind]. rewrite Hd in Hh.
    destruct (buf_deref_ok h b (s_data data) Hh Hg) as (s & Es & Hs & Hal & _).
    exists (OwnedBuf b), s. cbn [cow_as_ref]. rewrite Es. cbn [bind].
    unfold as_aligned, aligned_to.
    replace (A <=? 8) with true by (symmetry; apply N.leb_le; destruct HA as [->|[->|[->| ->]]]; lia).
    repeat split; auto; try congruence; [|eauto].
    intros Hn. apply (align_divides A 8); auto.
    + right; right; right; reflexivity.
    + destruct HA as [->|[->|[->| ->]]]; lia.
    + now apply Hal.
Qed.
Lemma copy_to_align_empty : exists h data a1 a2 c s,
  copy_to_align h 8 data a1 a2 = Ok c /\ cow_as_ref h 8 c = Ok s /\ s_addr s mod 8 <> 0.
Proof.
  exists (Host false false true 0 0), (Slice 4 []), 64, 64, (OwnedBuf vec_new), (Slice 1 []).
  repeat split; vm_compute; congruence.
Qed.
Lemma try_as_aligned_unsound : exists s,
  try_as_aligned 1 8 s = Some s /\ s_addr s mod 8 <> 0.
Proof. exists (Slice 1 [x00; x00]). split; [reflexivity|vm_compute; congruence]. Qed.
Lemma align_offset_corner : exists h A x y, is_alignment A /\ x < usize_lim /\
  least_multiple A x y /\ y < usize_lim /\ align_offset h A x = Crash POverflow.
Proof.
  exists (Host false true true 0 0), 8, (2 ^ 64 - 8), (2 ^ 64 - 8).
  split; [right; right; right; reflexivity|]. split; [reflexivity|]. split.
  - repeat split; [lia|]. intros; assumption.
  - split; reflexivity.
Qed.
Lemma aoffset_multiple h A v : aoffset h A v -> v mod A = 0.
Proof. intros H. now apply aoffset_ok in H. Qed.
Lemma try_as_aligned_ub : exists (h : host) (s s' : slice),
  try_as_aligned 1 8 s = Some s' /\ cast h (TA TT) s' = Crash UBMisaligned.
Proof.
  exists (Host false false false 0 0), (Slice 1 (zeros 8)), (Slice 1 (zeros 8)). split; reflexivity.
Qed.
