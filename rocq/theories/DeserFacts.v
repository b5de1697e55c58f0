(** References and accessors: casting, framing offsets, arrays, maybes, variants. *)
From Verif Require Import Base Types Layout AlignedBytes Strs Spec Deser Histories
  BaseFacts TypesFacts LayoutFacts AlignedFacts.
From Coq Require Import Lia ZifyBool ZifyNat ZifyN.
Ltac Zify.zify_post_hook ::= Z.div_mod_to_equations.

(** ** What a reference [&T] guarantees *)
Definition size_good (t : ty) (n : N) : Prop :=
  match size_of t with
  | Some m => n = m
  | None => match t with
            | TA x => match size_of x with Some m => n mod m = 0 | None => True end
            | _ => True
            end
  end.
Definition ref_ok (t : ty) (s : slice) : Prop :=
  aligned (align_of t) s /\ size_good t (slen s).

Lemma aligned_le A B s : is_alignment A -> is_alignment B -> A <= B -> aligned B s -> aligned A s.
Proof. unfold aligned. intros. eapply align_divides; eauto. Qed.
Lemma aligned_is_aligned A s : aligned A s -> is_aligned s A = true.
Proof. unfold aligned, is_aligned. intros ->. reflexivity. Qed.
Lemma aligned_part A s b e : is_alignment A -> aligned A s -> b mod A = 0 -> aligned A (part s b e).
Proof. unfold aligned, part. cbn. intros. now apply align_add. Qed.

Lemma size_good_dec t n : {size_good t n} + {~ size_good t n}.
Proof.
  unfold size_good. destruct (size_of t) as [m|]; [apply N.eq_dec|].
  destruct t; try (left; exact I). destruct (size_of t) as [m|]; [apply N.eq_dec|left; exact I].
Qed.
Lemma macro_ok_arr x : macro_ok (TA x) = macro_ok x.
Proof. reflexivity. Qed.
Lemma macro_ok_may x : macro_ok (TM x) = macro_ok x.
Proof. reflexivity. Qed.
Lemma macro_ok_child t c : is_struct t -> macro_ok t = true -> In c (children_of t) -> macro_ok c = true.
Proof.
  intros Hs Hm Hc. rewrite macro_ok_struct in Hm by assumption.
  apply andb_true_iff in Hm as [Hm _]. rewrite forallb_forall in Hm. auto.
Qed.

(** ** Casting an aligned slice *)
Lemma try_from_ok h t s : macro_ok t = true -> aligned (align_of t) s ->
  try_from_aligned_slice h t s =
  Ok (if size_good_dec t (slen s) then Some s else None).
Proof.
  intros Hm Ha. unfold try_from_aligned_slice. pose proof (aligned_is_aligned _ _ Ha) as Hi.
  destruct (size_good_dec t (slen s)) as [Hg|Hg]; unfold size_good in Hg.
  - destruct (size_of t) as [n|] eqn:En.
    + rewrite (mem_layout_ok t n) by assumption. unfold try_cast_slice_to.
      rewrite Hg, N.eqb_refl, Hi. cbn [negb]. now rewrite andb_false_r.
    + destruct t as [| | | | | | | | | | | | |x|x|ts|k v]; try reflexivity.
      destruct (size_of x) as [m|] eqn:Em; [|reflexivity].
      change (align_of (TA x)) with (align_of x) in Hi.
      rewrite (mem_layout_ok x m) by assumption. unfold cast_slice.
      rewrite trait_align_of. change (align_of (TA x)) with (align_of x).
      rewrite N.ltb_irrefl, Hi. cbn [negb]. rewrite andb_false_r.
      apply size_of_props in Em as [Em _].
      replace (m =? 0) with false by (symmetry; apply N.eqb_neq; lia).
      rewrite Hg. reflexivity.
  - destruct (size_of t) as [n|] eqn:En.
    + rewrite (mem_layout_ok t n) by assumption. unfold try_cast_slice_to.
      replace (n =? slen s) with false by (symmetry; apply N.eqb_neq; congruence). reflexivity.
    + destruct t as [| | | | | | | | | | | | |x|x|ts|k v]; try tauto.
      destruct (size_of x) as [m|] eqn:Em; [|tauto].
      change (align_of (TA x)) with (align_of x) in Hi.
      rewrite (mem_layout_ok x m) by assumption. unfold cast_slice.
      rewrite trait_align_of. change (align_of (TA x)) with (align_of x).
      rewrite N.ltb_irrefl, Hi. cbn [negb]. rewrite andb_false_r.
      apply size_of_props in Em as [Em _].
      replace (m =? 0) with false by (symmetry; apply N.eqb_neq; lia).
      replace (slen s mod m =? 0) with false by (symmetry; apply N.eqb_neq; lia). reflexivity.
Qed.
Lemma try_from_none h t s : macro_ok t = true -> aligned (align_of t) s -> size_good t (slen s) ->
  try_from_aligned_slice h t s = Ok (Some s).
Proof. intros. rewrite try_from_ok by assumption. now destruct (size_good_dec _ _). Qed.

(** Default values live in statics. *)
Definition default_bytes (t : ty) : list byte := match size_of t with Some n => zeros n | None => [] end.
Lemma part_all s : part s 0 (slen s) = s. Proof. apply part_full. Qed.
Lemma in_static_zeros h n : in_static h (Slice (8 * h_statics h) (zeros n)).
Proof.
  left. exists n, 0, n. split; [lia|]. split; [lia|].
  rewrite part_0. cbn. rewrite take_all; [reflexivity|]. rewrite blen_zeros. lia.
Qed.
Lemma empty_aligned_static h A : is_alignment A ->
  exists s, empty_aligned h A = Ok s /\ s_data s = [] /\ aligned A s /\ in_static h s.
Proof.
  intros HA. unfold empty_aligned.
  assert (HA8 : A <= slen (str8 h) + 1) by (cbn; destruct HA as [->|[->|[->| ->]]]; lia).
  destruct (align_bytes_ok h A (str8 h) HA HA8) as (b & Hb & -> & Hal). cbn [bind].
  rewrite ix_to_ok by (auto; lia). eexists. split; [reflexivity|]. rewrite part_0.
  split; [reflexivity|]. split; [exact Hal|].
  right. exists b. split; [destruct HA as [->|[->|[->| ->]]]; lia|reflexivity].
Qed.
Lemma aligned_statics h A d : is_alignment A -> aligned A (Slice (8 * h_statics h) d).
Proof. unfold aligned. cbn [s_addr]. intros [->|[->|[->| ->]]]; lia. Qed.

Lemma default_ref_ok h t : macro_ok t = true ->
  exists s, default_ref h t = Ok s /\ s_data s = default_bytes t /\ ref_ok t s /\ in_static h s.
Proof.
  intros Hm. unfold default_ref, default_bytes.
  destruct (size_of t) as [n|] eqn:En.
  - rewrite (mem_layout_ok t n) by assumption. eexists. split; [reflexivity|]. split; [reflexivity|].
    split; [split|].
    + apply aligned_statics. auto with al.
    + unfold size_good. rewrite En. unfold slen. cbn. apply blen_zeros.
    + apply in_static_zeros.
  - assert (Hempty : exists s, empty_aligned h (trait_align t) = Ok s /\ s_data s = [] /\ ref_ok t s /\ in_static h s).
    { destruct (empty_aligned_static h (trait_align t) (trait_alignment t)) as (s & E & Hd & Ha & Hs).
      exists s. split; [exact E|]. split; [exact Hd|]. split; [split|exact Hs].
      - rewrite <- trait_align_of. exact Ha.
      - unfold size_good, slen. rewrite En, Hd. destruct t; auto.
        destruct (size_of t) as [m|] eqn:Em; [|exact I]. apply size_of_props in Em as [Em _].
        cbn [blen length N.of_nat]. apply N.mod_0_l. lia. }
    assert (Hstr : exists s, Ok (Slice (h_str8 h) []) = Ok s /\ s_data s = [] /\
              ref_ok TS s /\ in_static h s).
    { eexists. split; [reflexivity|]. split; [reflexivity|]. split; [split; [apply N.mod_1_r|exact I]|].
      right. exists 0. split; [lia|]. now rewrite N.add_0_r. }
    destruct t as [| | | | | | | | | | | | |x|x|ts|k v]; try exact Hempty; try exact Hstr; try discriminate.
    unfold is_fixed. destruct (size_of x) as [m|] eqn:Em; [|exact Hempty].
    eexists. split; [reflexivity|]. split; [reflexivity|]. split; [split|].
    + apply aligned_statics. auto with al.
    + unfold size_good. rewrite En, Em. apply size_of_props in Em as [Em _].
      unfold slen. cbn [s_data blen length N.of_nat]. apply N.mod_0_l. lia.
    + apply (in_static_zeros h 0).
Qed.

Lemma cast_cases h t s : macro_ok t = true -> aligned (align_of t) s ->
  (size_good t (slen s) /\ cast h t s = Ok s) \/
  (~ size_good t (slen s) /\ cast h t s = default_ref h t).
Proof.
  intros Hm Ha. unfold cast, from_aligned_slice. rewrite try_from_ok by assumption. cbn [bind].
  destruct (size_good_dec t (slen s)); auto.
Qed.
Definition seen_bytes (t : ty) (d : list byte) : list byte :=
  if size_good_dec t (blen d) then d else default_bytes t.
Lemma cast_ok h t s : macro_ok t = true -> aligned (align_of t) s ->
  exists r, cast h t s = Ok r /\ ref_ok t r /\ s_data r = seen_bytes t (s_data s) /\
            (r = s \/ (in_static h r /\ s_data r = default_bytes t)).
Proof.
  intros Hm Ha. unfold seen_bytes. fold (slen s).
  destruct (cast_cases h t s Hm Ha) as [[Hg E]|[Hg E]].
  - exists s. destruct (size_good_dec t (slen s)); [|tauto]. repeat split; auto.
  - destruct (default_ref_ok h t Hm) as (r & Er & Hd & Hr & Hs).
    exists r. destruct (size_good_dec t (slen s)); [tauto|]. rewrite E. repeat split; auto; apply Hr.
Qed.
Lemma cast_unwrap_cases h t s : macro_ok t = true -> aligned (align_of t) s ->
  cast_unwrap h t s = if size_good_dec t (slen s) then Ok s else Crash PUnwrap.
Proof.
  intros Hm Ha. unfold cast_unwrap. rewrite try_from_ok by assumption. cbn [bind].
  destruct (size_good_dec t (slen s)); reflexivity.
Qed.
Lemma cast_unwrap_empty h t s : macro_ok t = true -> aligned (align_of t) s -> size_of t = None ->
  s_data s = [] -> cast_unwrap h t s = Ok s.
Proof.
  intros Hm Ha Hn Hd. rewrite cast_unwrap_cases by assumption.
  destruct (size_good_dec t (slen s)) as [H|H]; [reflexivity|]. exfalso. apply H.
  unfold size_good, slen. rewrite Hn, Hd. destruct t; auto.
  destruct (size_of t) as [m|] eqn:Em; [|exact I]. apply size_of_props in Em as [Em _].
  cbn [blen length N.of_nat]. apply N.mod_0_l. lia.
Qed.

(** ** Framing offsets *)
Lemma offset_size_width n : osz_n (offset_size n) = sp_width n.
Proof.
  unfold offset_size, sp_width.
  destruct (n =? 0); [reflexivity|].
  destruct (n <=? 255) eqn:E1, (n <? 2 ^ 8) eqn:F1; try lia; try reflexivity.
  destruct (n <=? 65535) eqn:E2, (n <? 2 ^ 16) eqn:F2; try lia; try reflexivity.
  destruct (n <=? 4294967295) eqn:E3, (n <? 2 ^ 32) eqn:F3; try lia; reflexivity.
Qed.
Lemma sp_width_le n : sp_width n <= n.
Proof.
  unfold sp_width. repeat destruct (_ <? _) eqn:? in |- *; destruct (n =? 0) eqn:?; lia.
Qed.
Lemma sp_width_pos n : 0 < n -> 1 <= sp_width n <= 8.
Proof.
  unfold sp_width. intros. destruct (n =? 0) eqn:E; [lia|].
  destruct (n <? 2 ^ 8), (n <? 2 ^ 16), (n <? 2 ^ 32); lia.
Qed.
Lemma sp_width_range n : n < 256 ^ sp_width n \/ n >= 2 ^ 64.
Proof.
  unfold sp_width. destruct (n =? 0) eqn:E; [left; cbn; lia|].
  destruct (n <? 2 ^ 8) eqn:E1; [left; change (256 ^ 1) with 256; lia|].
  destruct (n <? 2 ^ 16) eqn:E2; [left; change (256 ^ 2) with (2 ^ 16); lia|].
  destruct (n <? 2 ^ 32) eqn:E3; [left; change (256 ^ 4) with (2 ^ 32); lia|].
  change (256 ^ 8) with (2 ^ 64). lia.
Qed.

Lemma of_le_single b : of_le [b] = b2n b.
Proof. cbn [of_le]. lia. Qed.
Lemma take_1_drop (l : list byte) i : i < blen l -> take 1 (drop i l) = [nth (N.to_nat i) l x00].
Proof.
  intros H. unfold take, drop, blen in *. change (N.to_nat 1) with 1%nat.
  assert (Hl : (N.to_nat i < length l)%nat) by lia. clear H. revert l Hl.
  induction (N.to_nat i) as [|k IH]; intros [|x l] Hl; cbn in Hl |- *; try lia; [reflexivity|].
  apply IH. lia.
Qed.
Lemma read_uint_ok h d o n : n * osz_n o + osz_n o <= blen d -> blen d < usize_lim ->
  read_uint h d o n = Ok (of_le (take (osz_n o) (drop (n * osz_n o) d))).
Proof.
  intros H Hl. unfold read_uint. rewrite umul_ok by lia. cbn [bind].
  destruct o; cbn [osz_n] in *.
  - reflexivity.
  - rewrite bs_at_ok by lia. cbn [bind]. rewrite take_1_drop by lia. now rewrite of_le_single.
  - rewrite uadd_ok by lia. cbn [bind]. rewrite bs_range_ok by lia. cbn [bind].
    now replace (n * 2 + 2 - n * 2) with 2 by lia.
  - rewrite uadd_ok by lia. cbn [bind]. rewrite bs_range_ok by lia. cbn [bind].
    now replace (n * 4 + 4 - n * 4) with 4 by lia.
  - rewrite uadd_ok by lia. cbn [bind]. rewrite bs_range_ok by lia. cbn [bind].
    now replace (n * 8 + 8 - n * 8) with 8 by lia.
Qed.
(** Without the range check: beyond the data it panics. *)
Lemma read_uint_oob h d o n : o <> U0 -> blen d < n * osz_n o + osz_n o -> n * osz_n o < usize_lim ->
  exists c, read_uint h d o n = Crash c /\ (c = PIndex \/ c = POverflow).
Proof.
  intros Ho H Hl. unfold read_uint. rewrite umul_ok by assumption. cbn [bind].
  assert (Hr : forall k, k <> 0 -> k = osz_n o ->
    exists c, (let* e := uadd h (n * osz_n o) k in let* bs := bs_range d (n * osz_n o) e in Ok (of_le bs)) = Crash c
              /\ (c = PIndex \/ c = POverflow)).
  { intros k Hk ->. unfold uadd. destruct (n * osz_n o + osz_n o <? usize_lim) eqn:E; cbn [bind].
    - unfold bs_range. replace (n * osz_n o + osz_n o <=? blen d) with false by (symmetry; apply N.leb_gt; lia).
      rewrite andb_false_r. cbn [bind]. eauto.
    - destruct (h_overflow_checks h); cbn [bind]; [eauto|].
      unfold bs_range. replace (n * osz_n o <=? (n * osz_n o + osz_n o) mod usize_lim) with false; [cbn [andb bind]; eauto|].
      symmetry. apply N.leb_gt. apply N.ltb_ge in E.
      assert (Hm : (n * osz_n o + osz_n o) mod usize_lim = n * osz_n o + osz_n o - usize_lim).
      { symmetry. apply (N.mod_unique _ _ 1); unfold usize_lim in *; [|lia].
        destruct o; cbn [osz_n] in *; lia. }
      rewrite Hm. destruct o; cbn [osz_n] in *; unfold usize_lim in *; lia. }
  destruct o; cbn [osz_n] in *; try congruence.
  - unfold bs_at. replace (n * 1 <? blen d) with false by (symmetry; apply N.ltb_ge; lia). cbn [bind]. eauto.
  - apply Hr; lia.
  - apply Hr; lia.
  - apply Hr; lia.
Qed.

(** The array's framing offsets, from the specification. *)
Definition arr_width (d : list byte) : N := sp_width (blen d).
Definition arr_last (d : list byte) : N :=
  le_num (sub d (blen d - arr_width d) (arr_width d)).
Definition arr_good (d : list byte) : bool :=
  (arr_last d <=? blen d) && ((blen d - arr_last d) mod arr_width d =? 0).
(** Where the framing offsets start. *)
Definition arr_lfo (d : list byte) : N :=
  if blen d =? 0 then 0 else if arr_good d then arr_last d else blen d.
Definition arr_osz (d : list byte) : offset_size_t :=
  match offset_size (blen d) with U0 => U1 | o => o end.
Definition arr_n (d : list byte) : N := (blen d - arr_lfo d) / osz_n (arr_osz d).
Definition arr_end (d : list byte) (i : N) : N :=
  le_num (sub d (arr_lfo d + i * osz_n (arr_osz d)) (osz_n (arr_osz d))).

Lemma arr_osz_pos d : 1 <= osz_n (arr_osz d) <= 8.
Proof. unfold arr_osz. destruct (offset_size (blen d)); cbn; lia. Qed.
Lemma arr_osz_U0 d : arr_osz d <> U0.
Proof. unfold arr_osz. destruct (offset_size (blen d)); discriminate. Qed.
Lemma arr_osz_width d : 0 < blen d -> osz_n (arr_osz d) = arr_width d.
Proof.
  intros H. unfold arr_osz, arr_width. rewrite <- offset_size_width.
  destruct (offset_size (blen d)) eqn:E; try reflexivity.
  unfold offset_size in E. destruct (blen d =? 0) eqn:E0; [lia|].
  repeat destruct (_ <=? _) in E; discriminate.
Qed.
Lemma arr_lfo_le d : arr_lfo d <= blen d.
Proof.
  unfold arr_lfo, arr_good. destruct (blen d =? 0) eqn:E; [lia|].
  destruct ((arr_last d <=? blen d) && _) eqn:E2; lia.
Qed.
Lemma arr_lfo_mod d : blen d - arr_lfo d = arr_n d * osz_n (arr_osz d).
Proof.
  unfold arr_n. unfold arr_lfo, arr_good. destruct (blen d =? 0) eqn:E.
  { apply N.eqb_eq in E. rewrite E. cbn. reflexivity. }
  apply N.eqb_neq in E. rewrite arr_osz_width by lia.
  pose proof (sp_width_pos (blen d)) as Hw. fold (arr_width d) in Hw.
  destruct ((arr_last d <=? blen d) && _) eqn:E2.
  - apply andb_true_iff in E2 as [_ E2]. apply N.eqb_eq in E2.
    rewrite (N.div_mod (blen d - arr_last d) (arr_width d)) at 1 by lia. rewrite E2. lia.
  - rewrite N.sub_diag. rewrite N.div_0_l by lia. reflexivity.
Qed.

Lemma read_lfo_ok h d : blen d < usize_lim ->
  read_last_frame_offset h d = Ok (arr_osz d, arr_lfo d).
Proof.
  intros Hl. unfold read_last_frame_offset, arr_osz, arr_lfo.
  destruct (blen d =? 0) eqn:E0.
  { apply N.eqb_eq in E0. rewrite E0. reflexivity. }
  apply N.eqb_neq in E0.
  pose proof (offset_size_width (blen d)) as Hw.
  pose proof (sp_width_le (blen d)) as Hle. pose proof (sp_width_pos (blen d)) as Hpos.
  assert (Hgen : forall o, o = offset_size (blen d) -> o <> U0 ->
    (let* p := usub h (blen d) (osz_n o) in
     let* tail := bs_from d p in
     let* last := read_uint h tail o 0 in
     if blen d <? last then Ok (o, blen d)
     else let* size := usub h (blen d) last in
          if size mod osz_n o =? 0 then Ok (o, last) else Ok (o, blen d)) =
    Ok (o, if arr_good d then arr_last d else blen d)).
  { intros o -> Ho. rewrite Hw. rewrite usub_ok by lia. cbn [bind].
    rewrite bs_from_ok by lia. cbn [bind].
    rewrite read_uint_ok by (rewrite ?blen_drop, ?Hw; lia). cbn [bind].
    rewrite N.mul_0_l, drop_0, Hw.
    replace (of_le (take (sp_width (blen d)) (drop (blen d - sp_width (blen d)) d))) with (arr_last d)
      by (unfold arr_last; now rewrite le_num_of_le, sub_take_drop).
    unfold arr_good. fold (arr_width d).
    destruct (blen d <? arr_last d) eqn:E1.
    - replace (arr_last d <=? blen d) with false by (symmetry; apply N.leb_gt; lia). reflexivity.
    - replace (arr_last d <=? blen d) with true by (symmetry; apply N.leb_le; lia).
      rewrite usub_ok by lia. cbn [bind andb].
      destruct ((blen d - arr_last d) mod arr_width d =? 0); reflexivity. }
  destruct (offset_size (blen d)) eqn:Eo.
  - exfalso. unfold offset_size in Eo. destruct (blen d =? 0) eqn:F; [lia|].
    repeat destruct (_ <=? _) in Eo; discriminate.
  - apply Hgen; congruence.
  - apply Hgen; congruence.
  - apply Hgen; congruence.
  - apply Hgen; congruence.
Qed.
Lemma nfwa_len_ok h s : slen s < usize_lim -> nfwa_len h s = Ok (arr_n (s_data s)).
Proof.
  intros Hl. unfold nfwa_len, slen in *. rewrite read_lfo_ok by assumption. cbn [bind fst snd].
  rewrite usub_ok by apply arr_lfo_le. reflexivity.
Qed.

(** The i-th framing offset, as read. *)
Lemma arr_end_read h d i : blen d < usize_lim -> i < arr_n d ->
  read_uint h (drop (arr_lfo d) d) (arr_osz d) i = Ok (arr_end d i).
Proof.
  intros Hl Hi. pose proof (arr_lfo_mod d) as Hm. pose proof (arr_osz_pos d) as Hp.
  assert (H : i * osz_n (arr_osz d) + osz_n (arr_osz d) <= arr_n d * osz_n (arr_osz d)) by nia.
  rewrite read_uint_ok; rewrite ?blen_drop; try lia.
  f_equal. rewrite drop_drop. unfold arr_end. rewrite sub_take_drop. symmetry. apply le_num_of_le.
Qed.
Lemma arr_end_bound d i : arr_end d i < 2 ^ 64.
Proof.
  unfold arr_end. rewrite le_num_of_le. eapply N.lt_le_trans; [apply of_le_bound|].
  rewrite sub_take_drop, blen_take. pose proof (arr_osz_pos d).
  change (2 ^ 64) with (256 ^ 8). apply N.pow_le_mono_r; lia.
Qed.
Lemma arr_end_bound32 d i : blen d < 2 ^ 32 -> arr_end d i < 2 ^ 32.
Proof.
  intros Hl. unfold arr_end. rewrite le_num_of_le. eapply N.lt_le_trans; [apply of_le_bound|].
  rewrite sub_take_drop, blen_take.
  assert (osz_n (arr_osz d) <= 4).
  { unfold arr_osz, offset_size. destruct (blen d =? 0); [cbn; lia|].
    destruct (blen d <=? 255); [cbn; lia|]. destruct (blen d <=? 65535); [cbn; lia|].
    destruct (blen d <=? 4294967295) eqn:E; [cbn; lia|]. lia. }
  change (2 ^ 32) with (256 ^ 4). apply N.pow_le_mono_r; lia.
Qed.

(** ** Elements of an array of variable-size elements *)
Definition arr_prev (d : list byte) (i : N) : N := if i =? 0 then 0 else arr_end d (i - 1).
(** Element i, as both the iterator and the index operator compute it. *)
Definition elem_at (h : host) (x : ty) (s : slice) (i : N) : res slice :=
  let* start := align_offset h (trait_align x) (arr_prev (s_data s) i) in
  let e := arr_end (s_data s) i in
  if (start <=? e) && (e <=? arr_lfo (s_data s)) then
    cast_unwrap h x (part s start e)
  else
    let* z := empty_aligned h (trait_align x) in cast_unwrap h x z.
Lemma arr_prev_bound d i : arr_prev d i < usize_lim.
Proof. unfold arr_prev. destruct (i =? 0); [reflexivity|apply arr_end_bound]. Qed.

Lemma ix_to_from h A s b e : is_alignment A -> aligned A s -> b mod A = 0 -> b <= e -> e <= slen s ->
  (let* a := ix_to h A s e in ix_from_al h A a b) = Ok (part s b e).
Proof.
  intros HA Ha Hb Hbe He. rewrite ix_to_ok by assumption. cbn [bind].
  assert (Hl : slen (part s 0 e) = e) by (rewrite slen_part; lia).
  rewrite ix_from_al_ok; auto; try lia.
  - rewrite Hl. f_equal. rewrite part_part by (rewrite ?Hl; lia). reflexivity.
  - now apply aligned_part.
Qed.
Lemma ix_to_from_k {B} h A s b e (k : slice -> res B) :
  is_alignment A -> aligned A s -> b mod A = 0 -> b <= e -> e <= slen s ->
  (let* a := ix_to h A s e in let* c := ix_from_al h A a b in k c) = k (part s b e).
Proof.
  intros. pose proof (ix_to_from h A s b e) as E. rewrite ix_to_ok in * by assumption.
  cbn [bind] in *. rewrite E by assumption. reflexivity.
Qed.

Lemma nfwa_index_ok h x s i : aligned (align_of x) s -> slen s < usize_lim -> i < arr_n (s_data s) ->
  nfwa_index h x s i = elem_at h x s i.
Proof.
  intros Ha Hl Hi. unfold nfwa_index, elem_at. change (slen s) with (blen (s_data s)) in *. rewrite read_lfo_ok by assumption. cbn [bind fst snd].
  pose proof (arr_lfo_le (s_data s)) as Hle.
  rewrite bs_from_ok by assumption. cbn [bind]. rewrite arr_end_read by assumption. cbn [bind].
  replace (if i =? 0 then Ok 0
           else let* i' := usub h i 1 in read_uint h (drop (arr_lfo (s_data s)) (s_data s)) (arr_osz (s_data s)) i')
    with (Ok (arr_prev (s_data s) i)).
  2:{ unfold arr_prev. destruct (i =? 0) eqn:E; [reflexivity|]. apply N.eqb_neq in E.
      rewrite usub_ok by lia. cbn [bind]. rewrite arr_end_read by (auto; lia). reflexivity. }
  cbn [bind].
  destruct (align_offset h (trait_align x) (arr_prev (s_data s) i)) as [start|c] eqn:Es; [|reflexivity].
  cbn [bind].
  apply align_offset_mod in Es as [Hm _]; auto with al; [|apply arr_prev_bound].
  pose proof (arr_lfo_mod (s_data s)) as Hn. pose proof (arr_osz_pos (s_data s)) as Hp.
  assert (Hlt : arr_lfo (s_data s) < blen (s_data s)) by nia.
  replace ((start <? blen (s_data s)) && (arr_end (s_data s) i <=? arr_lfo (s_data s)) && (start <=? arr_end (s_data s) i))
    with ((start <=? arr_end (s_data s) i) && (arr_end (s_data s) i <=? arr_lfo (s_data s))) by lia.
  destruct ((start <=? arr_end (s_data s) i) && _) eqn:E; [|reflexivity].
  rewrite ix_to_from_k; auto with al; try (unfold slen; lia).
  rewrite trait_align_of. exact Ha.
Qed.

(** The iterator after [i] steps. *)
Definition iter_at (s : slice) (i : N) : nfwa_iter :=
  let d := s_data s in
  NfwaIter (part s 0 (arr_lfo d)) (drop (arr_lfo d) d) (arr_prev d i) (i * osz_n (arr_osz d)) (arr_osz d).

Lemma nfwa_into_iter_ok h x s : aligned (align_of x) s -> slen s < usize_lim ->
  nfwa_into_iter h x s = Ok (iter_at s 0).
Proof.
  intros Ha Hl. unfold nfwa_into_iter, slen in *. rewrite read_lfo_ok by assumption. cbn [bind fst snd].
  unfold split_at. pose proof (arr_lfo_le (s_data s)) as Hle.
  rewrite sl_to_ok by assumption. cbn [bind]. rewrite sl_from_ok by assumption. cbn [bind].
  rewrite unchecked_ok by (rewrite trait_align_of; exact Ha). cbn [bind fst snd].
  unfold iter_at. rewrite part_0. reflexivity.
Qed.
Lemma nfwa_next_end h x s : nfwa_next h x (iter_at s (arr_n (s_data s))) = Ok (None, iter_at s (arr_n (s_data s))).
Proof.
  unfold nfwa_next. cbn [iter_at it_offsets it_offset_idx].
  rewrite blen_drop, arr_lfo_mod, N.leb_refl. reflexivity.
Qed.
Lemma nfwa_next_ok h x s i : aligned (align_of x) s -> slen s < usize_lim -> i < arr_n (s_data s) ->
  nfwa_next h x (iter_at s i) = (let* r := elem_at h x s i in Ok (Some r, iter_at s (i + 1))).
Proof.
  intros Ha Hl Hi. unfold nfwa_next, elem_at. change (slen s) with (blen (s_data s)) in *.
  cbn [iter_at it_offsets it_offset_idx it_next_start it_osz it_data].
  pose proof (arr_lfo_le (s_data s)) as Hle. pose proof (arr_lfo_mod (s_data s)) as Hn.
  pose proof (arr_osz_pos (s_data s)) as Hp.
  assert (Hi2 : i * osz_n (arr_osz (s_data s)) + osz_n (arr_osz (s_data s)) <= arr_n (s_data s) * osz_n (arr_osz (s_data s))) by nia.
  rewrite blen_drop, Hn.
  replace (arr_n (s_data s) * osz_n (arr_osz (s_data s)) <=? i * osz_n (arr_osz (s_data s))) with false
    by (symmetry; apply N.leb_gt; lia).
  destruct (align_offset h (trait_align x) (arr_prev (s_data s) i)) as [start|c] eqn:Es; [|reflexivity].
  cbn [bind]. apply align_offset_mod in Es as [Hm _]; auto with al; [|apply arr_prev_bound].
  rewrite bs_from_ok by (rewrite blen_drop; lia). cbn [bind].
  rewrite read_uint_ok by (rewrite ?blen_drop; lia). cbn [bind].
  rewrite N.mul_0_l, drop_0, drop_drop.
  replace (of_le _) with (arr_end (s_data s) i) by (unfold arr_end; now rewrite le_num_of_le, sub_take_drop).
  rewrite uadd_ok by lia. cbn [bind].
  assert (Ei : NfwaIter (part s 0 (arr_lfo (s_data s))) (drop (arr_lfo (s_data s)) (s_data s)) (arr_end (s_data s) i)
      (i * osz_n (arr_osz (s_data s)) + osz_n (arr_osz (s_data s))) (arr_osz (s_data s)) = iter_at s (i + 1)).
  { unfold iter_at. f_equal; [|lia]. unfold arr_prev.
    replace (i + 1 =? 0) with false by (symmetry; apply N.eqb_neq; lia). now rewrite N.add_sub. }
  rewrite Ei. rewrite slen_part by (unfold slen; lia). rewrite N.sub_0_r.
  replace ((arr_end (s_data s) i <? start) || (arr_lfo (s_data s) <? arr_end (s_data s) i))
    with (negb ((start <=? arr_end (s_data s) i) && (arr_end (s_data s) i <=? arr_lfo (s_data s)))) by lia.
  destruct ((start <=? arr_end (s_data s) i) && _) eqn:E; cbn [negb].
  - rewrite ix_to_from_k; auto with al; try lia.
    + rewrite part_part by (rewrite ?slen_part; unfold slen; lia). rewrite !N.add_0_l.
      reflexivity.
    + rewrite trait_align_of. apply aligned_part; auto with al.
    + rewrite slen_part by (unfold slen; lia). lia.
  - destruct (empty_aligned h (trait_align x)); [|reflexivity]. cbn [bind].
    destruct (cast_unwrap h x a); reflexivity.
Qed.
Lemma nfwa_size_hint_ok h s i : i <= arr_n (s_data s) ->
  nfwa_size_hint h (iter_at s i) = Ok (arr_n (s_data s) - i).
Proof.
  intros Hi. unfold nfwa_size_hint. cbn [iter_at it_osz it_offsets it_offset_idx].
  rewrite blen_drop, arr_lfo_mod. pose proof (arr_osz_pos (s_data s)) as Hp.
  pose proof (arr_osz_U0 (s_data s)) as H0.
  assert (E : (let* d := usub h (arr_n (s_data s) * osz_n (arr_osz (s_data s)))
                              (i * osz_n (arr_osz (s_data s))) in Ok (d / osz_n (arr_osz (s_data s))))
              = Ok (arr_n (s_data s) - i)).
  { rewrite usub_ok by nia. cbn [bind].
    replace (arr_n (s_data s) * osz_n (arr_osz (s_data s)) - i * osz_n (arr_osz (s_data s)))
      with ((arr_n (s_data s) - i) * osz_n (arr_osz (s_data s))) by nia.
    rewrite N.div_mul by lia. reflexivity. }
  destruct (arr_osz (s_data s)); try exact E. congruence.
Qed.
