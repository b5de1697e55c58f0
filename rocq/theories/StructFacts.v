(** Members of structures. *)
From Verif Require Import Base Types Layout AlignedBytes Strs Spec Deser Histories
  BaseFacts TypesFacts LayoutFacts AlignedFacts DeserFacts ArrayFacts.
From Coq Require Import Lia ZifyBool ZifyNat ZifyN.
Ltac Zify.zify_post_hook ::= Z.div_mod_to_equations.

(** The k-th framing offset of a structure. *)
Definition st_end (d : list byte) (k : nat) : N :=
  le_num (sub d (blen d - sp_width (blen d) * (N.of_nat k + 1)) (sp_width (blen d))).
Lemma st_end_bound d k : st_end d k < 2 ^ 64.
Proof.
  unfold st_end. rewrite le_num_of_le. eapply N.lt_le_trans; [apply of_le_bound|].
  rewrite sub_take_drop, blen_take.
  assert (sp_width (blen d) <= 8).
  { unfold sp_width. repeat destruct (_ =? _); repeat destruct (_ <? _); lia. }
  change (2 ^ 64) with (256 ^ 8). apply N.pow_le_mono_r; lia.
Qed.
Lemma st_end_bound32 d k : blen d < 2 ^ 32 -> st_end d k < 2 ^ 32.
Proof.
  intros Hl. unfold st_end. rewrite le_num_of_le. eapply N.lt_le_trans; [apply of_le_bound|].
  rewrite sub_take_drop, blen_take.
  assert (sp_width (blen d) <= 4).
  { unfold sp_width. destruct (blen d =? 0); [lia|]. destruct (blen d <? 2 ^ 8); [lia|].
    destruct (blen d <? 2 ^ 16); [lia|]. destruct (blen d <? 2 ^ 32) eqn:E; lia. }
  change (2 ^ 32) with (256 ^ 4). apply N.pow_le_mono_r; lia.
Qed.
Definition st_prev (d : list byte) (k : nat) : N := sp_prev_end (st_end d) k.
Lemma st_prev_bound d k : st_prev d k < 2 ^ 64.
Proof. destruct k; [reflexivity|apply st_end_bound]. Qed.
Lemma st_prev_bound32 d k : blen d < 2 ^ 32 -> st_prev d k < 2 ^ 32.
Proof. intros. destruct k; [reflexivity|now apply st_end_bound32]. Qed.

Lemma nth_last_ok h d k : blen d < usize_lim -> N.of_nat k < 2 ^ 32 ->
  nth_last_frame_offset h d (offset_size (blen d)) (N.of_nat k) =
  Ok (if sp_width (blen d) * N.of_nat k <=? blen d then Some (st_prev d k) else None).
Proof.
  intros Hl Hk. unfold nth_last_frame_offset. destruct k as [|k].
  - change (N.of_nat 0) with 0. rewrite N.mul_0_r. replace (0 <=? blen d) with true by lia. reflexivity.
  - replace (N.of_nat (S k) =? 0) with false by lia.
    rewrite offset_size_width.
    assert (Hw : sp_width (blen d) <= 8).
    { unfold sp_width. repeat destruct (_ =? _); repeat destruct (_ <? _); lia. }
    rewrite umul_ok by (unfold usize_lim; nia). cbn [bind].
    unfold checked_sub. rewrite (N.mul_comm (N.of_nat (S k))).
    destruct (sp_width (blen d) * N.of_nat (S k) <=? blen d) eqn:E; [|reflexivity].
    apply N.leb_le in E. rewrite bs_from_ok by lia. cbn [bind].
    assert (sp_width (blen d) <= sp_width (blen d) * N.of_nat (S k)) by nia.
    rewrite read_uint_ok by (rewrite ?blen_drop, ?offset_size_width; lia). cbn [bind].
    rewrite N.mul_0_l, drop_0, offset_size_width. do 2 f_equal.
    cbn [st_prev sp_prev_end]. unfold st_prev, sp_prev_end, st_end. rewrite sub_take_drop.
    replace (N.of_nat (S k)) with (N.of_nat k + 1) by lia. symmetry. apply le_num_of_le.
Qed.

(** Where a child ends, in the specification. *)
Definition st_stop (d : list byte) (limit start : N) (size : option N) (last_child : bool) (k : nat) : N :=
  match size with
  | Some s => start + s
  | None => if last_child then limit else st_end d k
  end.

Lemma calc_start_cases h child b fo a c :
  is_alignment b -> align_of child <= b -> c mod align_of child = 0 -> fo < usize_lim ->
  a + c + 16 < 2 ^ 63 ->
  (exists st, calc_start h (trait_align child) b fo a c = Ok st /\ st mod align_of child = 0 /\ st < usize_lim) \/
  (calc_start h (trait_align child) b fo a c = Crash POverflow /\ h_overflow_checks h = true /\ 2 ^ 63 <= fo).
Proof.
  intros Hb Hle Hc Hfo Hac.
  destruct (N.lt_ge_cases fo (2 ^ 63)) as [Hlt|Hge].
  { left. rewrite calc_start_ok by (auto; unfold usize_lim; lia). eexists. split; [reflexivity|].
    assert (b <= 8) by (destruct Hb as [->|[->|[->| ->]]]; lia).
    pose proof (pad_to_lt b (fo + a) Hb). split; [|unfold usize_lim; lia].
    apply align_add; auto with al. apply (align_divides _ b); auto with al. now apply pad_to_mod. }
  unfold calc_start. rewrite trait_align_of.
  destruct (uadd h fo a) as [x|cr] eqn:E1; cbn [bind].
  2:{ right. unfold uadd in E1. destruct (_ <? _) in E1; [discriminate|].
      destruct (h_overflow_checks h); [|discriminate]. injection E1 as <-. auto. }
  assert (Hx : x < usize_lim) by (eapply (uadd_lt h fo a); eauto; unfold usize_lim; lia).
  destruct (align_offset_calm h b x Hb Hx) as [(y & Ey & Hy)|(-> & Ho & _)]; [|right; auto].
  rewrite Ey. cbn [bind]. apply align_offset_mod in Ey as [_ Hylt]; auto.
  unfold ao_into. replace (align_of child <=? b) with true by lia. cbn [bind].
  unfold try_new. rewrite Hc. cbn [N.eqb bind]. unfold ao_add.
  destruct (uadd h y c) as [z|cr] eqn:E2.
  - left. exists z. split; [reflexivity|]. split; [|eapply (uadd_lt h y c); eauto; unfold usize_lim; lia].
    assert (Hyc : (y + c) mod align_of child = 0).
    { apply align_add; auto with al. apply (align_divides _ b); auto with al. }
    unfold uadd in E2. destruct (_ <? _) in E2; [injection E2 as <-; assumption|].
    destruct (h_overflow_checks h); [discriminate|]. injection E2 as <-.
    rewrite usize_mod_alignment by auto with al. assumption.
  - right. unfold uadd in E2. destruct (_ <? _) in E2; [discriminate|].
    destruct (h_overflow_checks h); [|discriminate]. injection E2 as <-. auto.
Qed.

Lemma Zk k : Z.to_N (Z.of_nat k - 1 + 1) = N.of_nat k. Proof. lia. Qed.
Lemma Zk2 k : Z.to_N (Z.of_nat k - 1 + 2) = N.of_nat (S k). Proof. lia. Qed.

(** Where a child starts: right, or a panic, when it is not allowed to wrap. *)
Lemma calc_start_long h child b fo a c :
  is_alignment b -> align_of child <= b -> c mod align_of child = 0 -> fo < usize_lim ->
  a + c + 16 < 2 ^ 63 -> (fo < 2 ^ 63 \/ h_overflow_checks h = true) ->
  calc_start h (trait_align child) b fo a c = Ok (pad_to b (fo + a) + c) \/
  (calc_start h (trait_align child) b fo a c = Crash POverflow /\ 2 ^ 63 <= fo).
Proof.
  intros Hb Hle Hc Hfo Hac Hov.
  destruct (N.lt_ge_cases fo (2 ^ 63)) as [Hlt|Hge].
  { left. apply calc_start_ok; auto. unfold usize_lim. lia. }
  destruct Hov as [Hov|Hov]; [lia|]. unfold calc_start. rewrite trait_align_of.
  unfold uadd at 1 2. rewrite Hov. destruct (fo + a <? usize_lim) eqn:E1; cbn [bind]; [|auto].
  destruct (align_offset_long h b (fo + a)) as [->|[-> _]]; auto. cbn [bind].
  unfold ao_into. replace (align_of child <=? b) with true by lia. cbn [bind].
  unfold try_new. rewrite Hc. cbn [N.eqb bind]. unfold ao_add, uadd. rewrite Hov.
  destruct (pad_to b (fo + a) + c <? usize_lim); auto.
Qed.

(** Exact result, or a panic, while nothing wraps. *)
Definition offsets_view (d : list byte) (w nfo start stop : N) : option (N * N) :=
  if w * nfo <=? blen d
  then if (start <=? stop) && (stop <=? blen d - w * nfo) then Some (start, stop) else None
  else None.
Definition far (d : list byte) (nfo : N) (k : nat) : Prop :=
  sp_width (blen d) * nfo <= blen d /\ 2 ^ 63 <= st_prev d k.
Lemma calc_offsets_long h child b d k a c (last_child : bool) nfo :
  is_alignment b -> align_of child <= b -> c mod align_of child = 0 ->
  blen d < 2 ^ 63 -> a + c + 16 < 2 ^ 40 -> size_or_0 child < 2 ^ 40 ->
  N.of_nat k + 1 < 2 ^ 32 -> nfo < 2 ^ 32 ->
  (if size_of child then True else if last_child then True else N.of_nat k + 1 <= nfo) ->
  N.of_nat k <= nfo -> (far d nfo k -> h_overflow_checks h = true) ->
  let w := sp_width (blen d) in
  let start := pad_to b (st_prev d k + a) + c in
  let stop := st_stop d (blen d - w * nfo) start (size_of child) last_child k in
  let r := calc_offsets h (trait_align child) b d (Z.of_nat k - 1) a c (size_of child) last_child nfo in
  r = Ok (offsets_view d w nfo start stop) \/ (r = Crash POverflow /\ far d nfo k).
Proof.
  intros Hb Hle Hc Hl Hac Hsz Hk Hnfo Hk2 Hk1 Hfar w start stop. cbn zeta. unfold calc_offsets, offsets_view.
  rewrite Zk, Zk2, nth_last_ok by (unfold usize_lim; lia). cbn [bind]. fold w.
  assert (Hw : w <= 8).
  { unfold w, sp_width. repeat destruct (_ =? _); repeat destruct (_ <? _); lia. }
  assert (Hwk : w * N.of_nat k <= w * nfo) by nia.
  rewrite offset_size_width. fold w.
  destruct (w * nfo <=? blen d) eqn:Enfo.
  2:{ left. destruct (w * N.of_nat k <=? blen d); [|reflexivity].
      rewrite umul_ok by (unfold usize_lim; nia). cbn [bind]. unfold checked_sub.
      now rewrite Enfo. }
  replace (w * N.of_nat k <=? blen d) with true by lia.
  rewrite umul_ok by (unfold usize_lim; nia). cbn [bind]. unfold checked_sub. rewrite Enfo.
  assert (Hf : 2 ^ 63 <= st_prev d k -> far d nfo k) by (intros; split; [fold w; lia|assumption]).
  assert (Hov : st_prev d k < 2 ^ 63 \/ h_overflow_checks h = true).
  { destruct (N.lt_ge_cases (st_prev d k) (2 ^ 63)); auto. }
  destruct (calc_start_long h child b (st_prev d k) a c) as [->|[-> Hge]]; auto; try lia.
  { apply st_prev_bound. }
  cbn [bind]. fold start.
  unfold stop, st_stop, size_or_0 in *. destruct (size_of child) as [sz|] eqn:Esz.
  - assert (Hadd : uadd h start sz = Ok (start + sz) \/ (uadd h start sz = Crash POverflow /\ 2 ^ 63 <= st_prev d k)).
    { destruct (N.lt_ge_cases (start + sz) usize_lim) as [Hlt|Hge]; [left; now apply uadd_ok|].
      destruct (N.lt_ge_cases (st_prev d k) (2 ^ 63)) as [Hp|Hp].
      - exfalso. assert (b <= 8) by (destruct Hb as [->|[->|[->| ->]]]; lia).
        pose proof (pad_to_lt b (st_prev d k + a) Hb). unfold start, usize_lim in Hge. lia.
      - destruct Hov as [Hov|Hov]; [lia|]. right. unfold uadd.
        replace (start + sz <? usize_lim) with false by lia. rewrite Hov. auto. }
    destruct Hadd as [->|[-> Hge]]; cbn [bind]; [left|right; auto].
    destruct (_ && _); reflexivity.
  - left. destruct last_child; cbn [bind].
    + destruct (_ && _); reflexivity.
    + rewrite nth_last_ok by (unfold usize_lim; lia). cbn [bind]. fold w.
      replace (w * N.of_nat (S k) <=? blen d) with true by nia.
      cbn [st_prev sp_prev_end]. unfold st_prev, sp_prev_end. destruct (_ && _); reflexivity.
Qed.

(** Always: in range and aligned, or an overflow panic. *)
Lemma calc_offsets_safe h child b d k a c (last_child : bool) nfo :
  is_alignment b -> align_of child <= b -> c mod align_of child = 0 ->
  blen d < 2 ^ 63 -> a + c + 16 < 2 ^ 40 -> size_or_0 child < 2 ^ 40 ->
  N.of_nat k + 1 < 2 ^ 32 -> nfo < 2 ^ 32 ->
  let r := calc_offsets h (trait_align child) b d (Z.of_nat k - 1) a c (size_of child) last_child nfo in
  r = Ok None \/
  (exists start stop, r = Ok (Some (start, stop)) /\ start <= stop /\ stop <= blen d /\
                      start mod align_of child = 0) \/
  (r = Crash POverflow /\ h_overflow_checks h = true).
Proof.
  intros Hb Hle Hc Hl Hac Hsz Hk Hnfo. cbn zeta. unfold calc_offsets.
  rewrite Zk, Zk2, nth_last_ok by (unfold usize_lim; lia). cbn [bind].
  set (w := sp_width (blen d)).
  assert (Hw : w <= 8).
  { unfold w, sp_width. repeat destruct (_ =? _); repeat destruct (_ <? _); lia. }
  destruct (w * N.of_nat k <=? blen d); [|auto].
  rewrite offset_size_width. fold w.
  rewrite umul_ok by (unfold usize_lim; nia). cbn [bind]. unfold checked_sub.
  destruct (w * nfo <=? blen d) eqn:Enfo; [|auto].
  destruct (calc_start_cases h child b (st_prev d k) a c) as [(st & -> & Hst & Hlt)|(-> & Ho & _)];
    auto; try lia; try apply st_prev_bound.
  cbn [bind].
  assert (Hfin : forall e, (if (st <=? e) && (e <=? blen d - w * nfo) then Ok (Some (st, e)) else Ok None) = Ok None \/
    (exists start stop, (if (st <=? e) && (e <=? blen d - w * nfo) then Ok (Some (st, e)) else Ok None) = Ok (Some (start, stop))
      /\ start <= stop /\ stop <= blen d /\ start mod align_of child = 0)).
  { intros e. destruct (_ && _) eqn:E; [|auto]. right. exists st, e. repeat split; auto; lia. }
  destruct (size_of child) as [sz|] eqn:Esz.
  - destruct (uadd h st sz) as [e|cr] eqn:E; cbn [bind].
    + destruct (Hfin e) as [H|H]; auto.
    + unfold uadd in E. destruct (_ <? _) in E; [discriminate|].
      destruct (h_overflow_checks h); [|discriminate]. injection E as <-. auto.
  - destruct last_child; cbn [bind].
    + destruct (Hfin (blen d - w * nfo)) as [H|H]; auto.
    + rewrite nth_last_ok by (unfold usize_lim; lia). cbn [bind].
      destruct (sp_width (blen d) * N.of_nat (S k) <=? blen d); [|auto].
      destruct (Hfin (st_prev d (S k))) as [H|H]; auto.
Qed.

(** ** One child *)
Definition child_view (h : host) (s : slice) (child : ty) (c : option (list byte)) (r : slice) : Prop :=
  ref_ok child r /\ placed h child s r /\
  s_data r = match c with Some b => seen_bytes child b | None => default_bytes child end.

Lemma get_child_long h child b s k a c (last_child : bool) nfo :
  macro_ok child = true -> aligned (align_of child) s ->
  is_alignment b -> align_of child <= b -> c mod align_of child = 0 ->
  slen s < 2 ^ 63 -> a + c + 16 < 2 ^ 40 -> size_or_0 child < 2 ^ 40 ->
  N.of_nat k + 1 < 2 ^ 32 -> nfo < 2 ^ 32 ->
  (if size_of child then True else if last_child then True else N.of_nat k + 1 <= nfo) ->
  N.of_nat k <= nfo -> (far (s_data s) nfo k -> h_overflow_checks h = true) ->
  let d := s_data s in
  let w := sp_width (blen d) in
  let start := pad_to b (st_prev d k + a) + c in
  let stop := st_stop d (blen d - w * nfo) start (size_of child) last_child k in
  (exists r, get_child_elem h child b s (Z.of_nat k - 1) a c (size_of child) last_child nfo = Ok r /\
    child_view h s child (if w * nfo <=? blen d then cut d start stop (blen d - w * nfo) else None) r) \/
  (get_child_elem h child b s (Z.of_nat k - 1) a c (size_of child) last_child nfo = Crash POverflow /\
   far d nfo k).
Proof.
  intros Hm Ha Hb Hle Hc Hl Hac Hsz Hk Hnfo Hk2 Hk1 Hfar d w start stop. unfold get_child_elem.
  destruct (calc_offsets_long h child b (s_data s) k a c last_child nfo) as [->|[-> Hf]]; auto.
  cbn [bind]. fold d w start stop. unfold offsets_view. left.
  assert (Hdef : exists r, default_ref h child = Ok r /\ child_view h s child None r).
  { destruct (default_ref_ok h child Hm) as (r & Er & Hd & Hr & Hs). exists r.
    split; [exact Er|]. split; [exact Hr|]. split; [apply placed_static; assumption|exact Hd]. }
  destruct (w * nfo <=? blen d); [|exact Hdef]. unfold cut.
  destruct ((start <=? stop) && _) eqn:E; [|exact Hdef].
  assert (Hsm : start mod align_of child = 0).
  { unfold start. apply align_add; auto with al.
    apply (align_divides _ b); auto with al. now apply pad_to_mod. }
  rewrite ix_to_from_k; auto with al; try (rewrite trait_align_of; assumption); try (unfold slen; fold d; lia).
  destruct (cast_ok h child (part s start stop)) as (r & Er & Hr & Hd & Hp); auto.
  { apply aligned_part; auto with al. }
  exists r. split; [exact Er|]. split; [exact Hr|]. split.
  - destruct Hp as [->|[Hp Hpd]]; [left|apply placed_static; assumption]. exists start, stop. unfold slen. fold d. repeat split; lia.
  - rewrite Hd. now rewrite part_sub.
Qed.
Lemma get_child_safe h child b s k a c (last_child : bool) nfo :
  macro_ok child = true -> aligned (align_of child) s ->
  is_alignment b -> align_of child <= b -> c mod align_of child = 0 ->
  slen s < 2 ^ 63 -> a + c + 16 < 2 ^ 40 -> size_or_0 child < 2 ^ 40 ->
  N.of_nat k + 1 < 2 ^ 32 -> nfo < 2 ^ 32 ->
  (exists r, get_child_elem h child b s (Z.of_nat k - 1) a c (size_of child) last_child nfo = Ok r /\
     ref_ok child r /\ placed h child s r) \/
  (get_child_elem h child b s (Z.of_nat k - 1) a c (size_of child) last_child nfo = Crash POverflow /\
   h_overflow_checks h = true).
Proof.
  intros Hm Ha Hb Hle Hc Hl Hac Hsz Hk Hnfo. unfold get_child_elem.
  destruct (calc_offsets_safe h child b (s_data s) k a c last_child nfo) as [->|[(st & e & -> & H1 & H2 & H3)|[-> Ho]]]; auto.
  - left. cbn [bind]. destruct (default_ref_ok h child Hm) as (r & Er & Hd & Hr & Hs).
    exists r. split; [exact Er|]. split; [exact Hr|]. apply placed_static; assumption.
  - left. cbn [bind].
    rewrite ix_to_from_k; auto with al; try (rewrite trait_align_of; assumption).
    destruct (cast_ok h child (part s st e)) as (r & Er & Hr & Hd & Hp); auto.
    { apply aligned_part; auto with al. }
    exists r. split; [exact Er|]. split; [exact Hr|].
    destruct Hp as [->|[Hp Hpd]]; [left|apply placed_static; assumption]. exists st, e. auto.
Qed.

(** ** All children of a variable-size structure *)
Lemma lay_bound_size ts t : In t ts -> size_or_0 t <= lay_bound ts.
Proof.
  induction ts as [|x ts IH]; cbn [In lay_bound]; [tauto|]. intros [->|H]; [lia|]. specialize (IH H). lia.
Qed.
Lemma lay_bound_length ts : N.of_nat (length ts) <= lay_bound ts.
Proof. induction ts as [|x ts IH]; cbn [length lay_bound]; lia. Qed.

Lemma n_frame_offsets_spec ts : n_frame_offsets ts = sp_n_offsets (items_of ts).
Proof.
  destruct ts as [|t0 ts0] eqn:E0; [reflexivity|]. rewrite <- E0. assert (Hne : ts <> []) by congruence. clear E0.
  unfold n_frame_offsets.
  assert (H : forall l, l <> [] -> blen (filter (fun t => negb (is_fixed t)) l) =
     sp_n_offsets (items_of l) + match rev l with x :: _ => if is_fixed x then 0 else 1 | [] => 0 end).
  { induction l as [|x l IH]; [congruence|]. intros _.
    destruct l as [|y l].
    - cbn. unfold is_fixed. destruct (size_of x); reflexivity.
    - assert (Hr : match rev (x :: y :: l) with z :: _ => if is_fixed z then 0 else 1 | [] => 0 end =
                   match rev (y :: l) with z :: _ => if is_fixed z then 0 else 1 | [] => 0 end).
      { cbn [rev]. destruct (rev l ++ [y]) eqn:E; [destruct (rev l); discriminate|]. reflexivity. }
      rewrite Hr. cbn [filter]. specialize (IH ltac:(discriminate)).
      assert (Hs : sp_n_offsets (items_of (x :: y :: l)) =
                   (if is_fixed x then 0 else 1) + sp_n_offsets (items_of (y :: l))).
      { cbn [items_of map sp_n_offsets]. unfold is_fixed. destruct (size_of x); [|reflexivity].
        rewrite N.add_0_l. reflexivity. }
      rewrite Hs. unfold is_fixed in *. destruct (size_of x); cbn [negb].
      + cbn [filter] in IH. rewrite IH. lia.
      + rewrite blen_cons. cbn [filter] in IH. rewrite IH. lia. }
  specialize (H ts Hne). destruct (rev ts) as [|x r] eqn:Er.
  { exfalso. apply Hne. rewrite <- (rev_involutive ts), Er. reflexivity. }
  destruct (is_fixed x); lia.
Qed.
Lemma sp_n_offsets_le ts : sp_n_offsets (items_of ts) <= N.of_nat (length ts).
Proof.
  induction ts as [|x ts IH]; [cbn; lia|]. cbn [length].
  destruct ts as [|y ts]; [cbn [items_of map sp_n_offsets]; destruct (size_of x); lia|].
  change (items_of (x :: y :: ts)) with ((align_of x, size_of x) :: items_of (y :: ts)).
  cbn [sp_n_offsets]. destruct (items_of (y :: ts)) eqn:E; [discriminate|].
  destruct (size_of x); lia.
Qed.

Section Children.
Variable h : host.
Variable al : N.
Variable s : slice.
Hypothesis Hal : is_alignment al.
Hypothesis Ha : aligned al s.

Lemma as_aligned_child child : align_of child <= al ->
  as_aligned al (trait_align child) s = Ok s /\ aligned (align_of child) s.
Proof.
  intros H. unfold as_aligned, aligned_to. rewrite trait_align_of.
  replace (align_of child <=? al) with true by lia. split; [reflexivity|].
  eapply aligned_le; eauto with al.
Qed.

Definition some_far (d : list byte) (nfo : N) : Prop :=
  exists k, N.of_nat k <= nfo /\ far d nfo k.
Lemma nonfixed_refs_long nfo children : slen s < 2 ^ 63 -> nfo < 2 ^ 32 ->
  (some_far (s_data s) nfo -> h_overflow_checks h = true) ->
  forall k a b c,
  is_alignment b ->
  Forall (fun t => macro_ok t = true /\ align_of t <= al) children ->
  a + c + 32 + lay_bound children < 2 ^ 40 ->
  N.of_nat k + N.of_nat (length children) + 1 < 2 ^ 32 ->
  (children <> [] -> N.of_nat k + sp_n_offsets (items_of children) = nfo) ->
  let d := s_data s in
  let w := sp_width (blen d) in
  (exists rs,
    nonfixed_refs h al nfo s children (table_go (Z.of_nat k - 1) a b c children) = Ok rs /\
    Forall2 (fun p r => child_view h s (fst p) (snd p) r)
      (combine children (if w * nfo <=? blen d
                         then sp_struct_cut d w (blen d - w * nfo)
                                (pad_to b (st_prev d k + a) + c) (N.of_nat k) (items_of children)
                         else map (fun _ => None) (items_of children))) rs) \/
  (nonfixed_refs h al nfo s children (table_go (Z.of_nat k - 1) a b c children) = Crash POverflow /\
   some_far d nfo).
Proof.
  intros Hl Hnfo Hsome. induction children as [|child rest IH]; intros k a b c Hb Hch Hlay Hk Hoff d w.
  - left. exists []. split; [reflexivity|constructor].
  - inversion Hch as [|? ? [Hm Hle] Hch']; subst. cbn [lay_bound length] in Hlay, Hk.
    pose proof (align_of_alignment child) as Hca.
    destruct (as_aligned_child child Hle) as [Eas Hac].
    set (last_child := match rest with [] => true | _ => false end).
    (* the row *)
    set (a' := if align_of child <=? b then a else a + align c b).
    set (b' := if align_of child <=? b then b else align_of child).
    set (c' := if align_of child <=? b then align c (align_of child) else 0).
    assert (Hb8 : b <= 8) by (destruct Hb as [->|[->|[->| ->]]]; lia).
    assert (Hc8 : align_of child <= 8) by (destruct Hca as [->|[->|[->| ->]]]; lia).
    assert (Hb' : is_alignment b') by (unfold b'; destruct (_ <=? b); assumption).
    assert (Hle' : align_of child <= b') by (unfold b'; destruct (_ <=? b) eqn:E; lia).
    assert (Hc' : c' mod align_of child = 0).
    { unfold c'. destruct (_ <=? b); [rewrite align_pad_to by assumption; now apply pad_to_mod|reflexivity]. }
    assert (Hac' : a' + c' <= a + c + 8).
    { unfold a', c'. destruct (_ <=? b).
      - rewrite align_pad_to by assumption. pose proof (pad_to_lt (align_of child) c Hca). lia.
      - rewrite align_pad_to by assumption. pose proof (pad_to_lt b c Hb). lia. }
    assert (Hpos : pad_to b' (st_prev d k + a') + c' = pad_to (align_of child) (pad_to b (st_prev d k + a) + c)).
    { unfold a', b', c'. destruct (align_of child <=? b) eqn:E.
      - rewrite align_pad_to, merge_rule_1 by (auto; lia). reflexivity.
      - rewrite align_pad_to, merge_rule_2 by (auto; lia). rewrite N.add_0_r. f_equal. lia. }
    assert (Hrow : table_go (Z.of_nat k - 1) a b c (child :: rest) =
      @cons row (Z.of_nat k - 1, a', b', c')%Z
      match size_of child with
      | Some size => table_go (Z.of_nat k - 1) a' b' (c' + size) rest
      | None => table_go (Z.of_nat (S k) - 1) 0 1 0 rest
      end).
    { cbn [table_go]. unfold a', b', c'. destruct (align_of child <=? b); f_equal;
        destruct (size_of child); try reflexivity; f_equal; lia. }
    rewrite Hrow. cbn [nonfixed_refs]. rewrite Eas. cbn [bind]. fold last_child.
    assert (Hk1 : N.of_nat k + sp_n_offsets (items_of (child :: rest)) = nfo) by (apply Hoff; discriminate).
    assert (Hn : sp_n_offsets (items_of (child :: rest)) =
      if last_child then 0 else (if size_of child then 0 else 1) + sp_n_offsets (items_of rest)).
    { unfold last_child. cbn [items_of map]. fold (items_of rest). cbn [sp_n_offsets].
      destruct rest as [|y rest]; [destruct (size_of child); reflexivity|].
      cbn [items_of map]. destruct (size_of child); reflexivity. }
    rewrite Hn in Hk1.
    assert (Hsz : size_or_0 child < 2 ^ 40) by lia.
    destruct (get_child_long h child b' s k a' c' last_child nfo) as [(r & Er & Hv)|[-> Hf]]; auto; try lia.
    2:{ intros Hf. apply Hsome. exists k. split; [lia|exact Hf]. }
    3:{ cbn [bind]. right. split; [reflexivity|]. exists k. split; [lia|exact Hf]. }
    { destruct (size_of child); [exact I|]. destruct last_child; [exact I|]. lia. }
    rewrite Er. cbn [bind]. fold d w in Hv. rewrite Hpos in Hv.
    set (pos := pad_to (align_of child) (pad_to b (st_prev d k + a) + c)) in *.
    (* the rest *)
    assert (HIH : (exists rs,
      nonfixed_refs h al nfo s rest
        match size_of child with
        | Some size => table_go (Z.of_nat k - 1) a' b' (c' + size) rest
        | None => table_go (Z.of_nat (S k) - 1) 0 1 0 rest
        end = Ok rs /\
      Forall2 (fun p r => child_view h s (fst p) (snd p) r)
        (combine rest (if w * nfo <=? blen d
           then match size_of child with
                | Some size => sp_struct_cut d w (blen d - w * nfo) (pos + size) (N.of_nat k) (items_of rest)
                | None => sp_struct_cut d w (blen d - w * nfo) (st_end d k) (N.of_nat k + 1) (items_of rest)
                end
           else map (fun _ => None) (items_of rest))) rs) \/
      (nonfixed_refs h al nfo s rest
        match size_of child with
        | Some size => table_go (Z.of_nat k - 1) a' b' (c' + size) rest
        | None => table_go (Z.of_nat (S k) - 1) 0 1 0 rest
        end = Crash POverflow /\ some_far d nfo)).
    { destruct (size_of child) as [size|] eqn:Esz.
      - unfold size_or_0 in Hlay, Hsz. rewrite Esz in Hlay, Hsz.
        destruct (IH k a' b' (c' + size)) as [(rs & E & HF)|HF]; auto; try lia.
        { intros Hr. destruct rest; [congruence|]. cbn [last_child] in Hk1. lia. }
        left. exists rs. split; [exact E|]. fold d w in HF.
        replace (pad_to b' (st_prev d k + a') + (c' + size)) with (pos + size) in HF by lia.
        exact HF.
      - destruct (IH (S k) 0 1 0) as [(rs & E & HF)|HF]; auto; try lia.
        { left; reflexivity. }
        { intros Hr. destruct rest; [congruence|]. cbn [last_child] in Hk1. lia. }
        left. exists rs. split; [exact E|]. fold d w in HF.
        replace (pad_to 1 (st_prev d (S k) + 0) + 0) with (st_end d k) in HF
          by (rewrite pad_to_1; cbn [st_prev sp_prev_end]; unfold st_prev, sp_prev_end; lia).
        replace (N.of_nat (S k)) with (N.of_nat k + 1) in HF by lia. exact HF. }
    destruct HIH as [(rs & Ers & HF)|[-> Hf]]; [|cbn [bind]; auto]. rewrite Ers. cbn [bind]. left. exists (r :: rs). split; [reflexivity|].
    cbn [items_of map]. fold (items_of rest).
    destruct (w * nfo <=? blen d).
    + cbn [sp_struct_cut]. fold pos. unfold st_stop in Hv.
      destruct (size_of child) as [size|].
      * cbn [combine]. constructor; [exact Hv|exact HF].
      * unfold last_child in Hv. destruct rest as [|y rest].
        -- cbn [items_of map combine]. constructor; [exact Hv|]. inversion HF. constructor.
        -- destruct (items_of (y :: rest)) eqn:Ei; [discriminate|]. rewrite <- Ei in *.
           cbn [combine]. constructor; [exact Hv|exact HF].
    + cbn [map combine]. constructor; [exact Hv|exact HF].
Qed.

Lemma nonfixed_refs_safe nfo children : slen s < 2 ^ 63 -> nfo < 2 ^ 32 ->
  forall k a b c,
  is_alignment b ->
  Forall (fun t => macro_ok t = true /\ align_of t <= al) children ->
  a + c + 32 + lay_bound children < 2 ^ 40 ->
  N.of_nat k + N.of_nat (length children) + 1 < 2 ^ 32 ->
  (exists rs,
    nonfixed_refs h al nfo s children (table_go (Z.of_nat k - 1) a b c children) = Ok rs /\
    Forall2 (fun t r => ref_ok t r /\ placed h t s r) children rs) \/
  (nonfixed_refs h al nfo s children (table_go (Z.of_nat k - 1) a b c children) = Crash POverflow /\
   h_overflow_checks h = true).
Proof.
  intros Hl Hnfo. induction children as [|child rest IH]; intros k a b c Hb Hch Hlay Hk.
  - left. exists []. split; [reflexivity|constructor].
  - inversion Hch as [|? ? [Hm Hle] Hch']; subst. cbn [lay_bound length] in Hlay, Hk.
    pose proof (align_of_alignment child) as Hca.
    destruct (as_aligned_child child Hle) as [Eas Hac].
    set (last_child := match rest with [] => true | _ => false end).
    set (a' := if align_of child <=? b then a else a + align c b).
    set (b' := if align_of child <=? b then b else align_of child).
    set (c' := if align_of child <=? b then align c (align_of child) else 0).
    assert (Hb8 : b <= 8) by (destruct Hb as [->|[->|[->| ->]]]; lia).
    assert (Hc8 : align_of child <= 8) by (destruct Hca as [->|[->|[->| ->]]]; lia).
    assert (Hb' : is_alignment b') by (unfold b'; destruct (_ <=? b); assumption).
    assert (Hle' : align_of child <= b') by (unfold b'; destruct (_ <=? b) eqn:E; lia).
    assert (Hc' : c' mod align_of child = 0).
    { unfold c'. destruct (_ <=? b); [rewrite align_pad_to by assumption; now apply pad_to_mod|reflexivity]. }
    assert (Hac' : a' + c' <= a + c + 8).
    { unfold a', c'. destruct (_ <=? b).
      - rewrite align_pad_to by assumption. pose proof (pad_to_lt (align_of child) c Hca). lia.
      - rewrite align_pad_to by assumption. pose proof (pad_to_lt b c Hb). lia. }
    assert (Hrow : table_go (Z.of_nat k - 1) a b c (child :: rest) =
      @cons row (Z.of_nat k - 1, a', b', c')%Z
      match size_of child with
      | Some size => table_go (Z.of_nat k - 1) a' b' (c' + size) rest
      | None => table_go (Z.of_nat (S k) - 1) 0 1 0 rest
      end).
    { cbn [table_go]. unfold a', b', c'. destruct (align_of child <=? b); f_equal;
        destruct (size_of child); try reflexivity; f_equal; lia. }
    rewrite Hrow. cbn [nonfixed_refs]. rewrite Eas. cbn [bind]. fold last_child.
    destruct (get_child_safe h child b' s k a' c' last_child nfo) as [(r & Er & Hv)|[-> Ho]]; auto; try lia.
    rewrite Er. cbn [bind].
    assert (HIH : (exists rs,
      nonfixed_refs h al nfo s rest
        match size_of child with
        | Some size => table_go (Z.of_nat k - 1) a' b' (c' + size) rest
        | None => table_go (Z.of_nat (S k) - 1) 0 1 0 rest
        end = Ok rs /\ Forall2 (fun t r => ref_ok t r /\ placed h t s r) rest rs) \/
       (nonfixed_refs h al nfo s rest
        match size_of child with
        | Some size => table_go (Z.of_nat k - 1) a' b' (c' + size) rest
        | None => table_go (Z.of_nat (S k) - 1) 0 1 0 rest
        end = Crash POverflow /\ h_overflow_checks h = true)).
    { unfold size_or_0 in *. destruct (size_of child) as [size|] eqn:Esz.
      - apply IH; auto; lia.
      - apply IH; auto; try lia. left; reflexivity. }
    destruct HIH as [(rs & -> & HF)|[-> Ho]]; cbn [bind]; [|auto].
    left. exists (r :: rs). split; [reflexivity|]. constructor; assumption.
Qed.
End Children.

(** ** All fields of a fixed-size structure *)
Lemma field_refs_ok h s : forall ts pos,
  Forall (fun t => is_fixed t = true /\ aligned (align_of t) s) ts ->
  walk_end pos (fixed_items ts) <= slen s ->
  exists rs,
    field_refs s (sp_field_offsets pos (fixed_items ts)) (declared ts) = Ok rs /\
    Forall2 (fun p r => child_view h s (fst p) (snd p) r /\ within s r)
      (combine ts (sp_struct_cut (s_data s) 0 (slen s) pos 0 (items_of ts))) rs.
Proof.
  induction ts as [|t ts IH]; intros pos HF Hend.
  - exists []. split; [reflexivity|constructor].
  - inversion HF as [|? ? [Hf Ha] HF']; subst.
    cbn [fixed_items map sp_field_offsets declared field_refs] in *.
    fold (fixed_items ts) in *. fold (declared ts) in *. cbn [walk_end] in Hend.
    unfold is_fixed in Hf. destruct (size_of t) as [n|] eqn:En; [|discriminate].
    assert (Es : size_or_0 t = n) by (unfold size_or_0; now rewrite En). rewrite Es in *.
    pose proof (align_of_alignment t) as Hal. set (st := pad_to (align_of t) pos) in *.
    assert (Hst : st mod align_of t = 0) by (apply pad_to_mod; assumption).
    assert (Hge : st + n <= walk_end (st + n) (fixed_items ts)).
    { rewrite walk_end_fold. apply fold_lay_ge. clear. induction ts as [|x ts IH]; constructor; auto.
      apply align_of_alignment. }
    unfold field_ref. unfold aligned in Ha. rewrite align_add by assumption. cbn [N.eqb bind].
    destruct (IH (st + n)) as (rs & -> & HFr); auto. cbn [bind].
    exists (Slice (s_addr s + st) (take n (drop st (s_data s))) :: rs). split; [reflexivity|].
    cbn [items_of map sp_struct_cut]. fold (items_of ts). rewrite En. fold st. cbn [combine].
    constructor; [|exact HFr]. cbn [fst snd]. unfold cut.
    replace ((st <=? st + n) && (st + n <=? slen s)) with true by lia.
    replace (st + n - st) with n by lia.
    assert (Ep : Slice (s_addr s + st) (take n (drop st (s_data s))) = part s st (st + n)).
    { unfold part. do 2 f_equal. lia. }
    assert (Hw : within s (part s st (st + n))) by (exists st, (st + n); repeat split; lia).
    rewrite Ep. split; [|exact Hw]. split; [split|split].
    + now apply aligned_part.
    + unfold size_good. rewrite En. rewrite slen_part; lia.
    + left. exact Hw.
    + rewrite part_sub. replace (st + n - st) with n by lia. unfold seen_bytes.
      destruct (size_good_dec t _) as [|Hg]; [reflexivity|]. exfalso. apply Hg.
      unfold size_good. rewrite En. change (@blen byte) with (@len byte). apply sub_len.
      change (len (s_data s)) with (slen s). lia.
Qed.

(** ** [to_tuple] *)
Definition struct_cuts (t : ty) (d : list byte) : list (option (list byte)) :=
  match size_of t with
  | Some n => sp_struct_cut d 0 n 0 0 (items_of (children_of t))
  | None => sp_struct_children (items_of (children_of t)) d
  end.
Lemma struct_children_ok t : is_struct t -> macro_ok t = true ->
  Forall (fun c => macro_ok c = true /\ align_of c <= align_of t) (children_of t).
Proof.
  intros Hs Hm. apply Forall_forall. intros c Hc. split.
  - eapply macro_ok_child; eauto.
  - now apply children_align.
Qed.
Lemma struct_bounds t : is_struct t -> type_len t < 2 ^ 32 ->
  lay_bound (children_of t) < 2 ^ 37 /\ N.of_nat (length (children_of t)) + 2 < 2 ^ 32.
Proof.
  intros Hs Hl. pose proof (children_len t Hs) as H. pose proof (lay_bound_len (children_of t)) as H2.
  split; [lia|]. assert (Hc : N.of_nat (length (children_of t)) <= blen (concat (map display (children_of t)))).
  { clear. induction (children_of t) as [|c cs IH]; cbn [length map concat]; [cbn; lia|].
    rewrite blen_app. fold (type_len c). pose proof (type_len_pos c). lia. }
  lia.
Qed.

Lemma to_tuple_fixed h t s n : is_struct t -> macro_ok t = true -> size_of t = Some n -> ref_ok t s ->
  exists rs, to_tuple h t s = Ok rs /\
    Forall2 (fun p r => child_view h s (fst p) (snd p) r)
            (combine (children_of t) (struct_cuts t (s_data s))) rs.
Proof.
  intros Hs Hm En [Ha Hg]. unfold to_tuple, struct_cuts. rewrite En.
  pose proof (struct_children_ok t Hs Hm) as Hch.
    rewrite (field_offsets_ok t n) by assumption.
    pose proof (fixed_children t n Hs En) as Hfix.
    rewrite mem_layouts_declared.
    2:{ rewrite Forall_forall in *. intros c Hc. specialize (Hfix c Hc). destruct (Hch c Hc) as [Hmc _].
        unfold is_fixed in Hfix. unfold size_or_0. destruct (size_of c) eqn:Ec; [|discriminate].
        now apply mem_layout_ok. }
    unfold size_good in Hg. rewrite En in Hg.
    destruct (field_refs_ok h s (children_of t) 0) as (rs & E & HF).
    + rewrite Forall_forall in *. intros c Hc. split; [auto|]. destruct (Hch c Hc).
      eapply (aligned_le _ (align_of t)); auto with al.
    + pose proof (size_of_fixed_struct t n Hs En) as Hsz. rewrite Hg, Hsz.
      destruct (children_of t) as [|c0 cs0]; [cbn; lia|]. apply pad_to_ge; auto with al.
    + exists rs. split; [exact E|]. rewrite Hg in HF.
      clear -HF. induction HF as [|p r l l' [H _] _ IH]; constructor; auto.
Qed.
Definition struct_far (t : ty) (d : list byte) : Prop :=
  size_of t = None /\ some_far d (sp_n_offsets (items_of (children_of t))).
Lemma to_tuple_long h t s : is_struct t -> macro_ok t = true -> type_len t < 2 ^ 32 ->
  ref_ok t s -> slen s < 2 ^ 63 -> (struct_far t (s_data s) -> h_overflow_checks h = true) ->
  (exists rs, to_tuple h t s = Ok rs /\
    Forall2 (fun p r => child_view h s (fst p) (snd p) r)
            (combine (children_of t) (struct_cuts t (s_data s))) rs) \/
  (to_tuple h t s = Crash POverflow /\ struct_far t (s_data s)).
Proof.
  intros Hs Hm Htl [Ha Hg] Hl Hfar. unfold to_tuple, struct_cuts, struct_far in *.
  destruct (struct_bounds t Hs Htl) as [Hlb Hlen].
  pose proof (struct_children_ok t Hs Hm) as Hch.
  destruct (size_of t) as [n|] eqn:En.
  - left. destruct (to_tuple_fixed h t s n) as (rs & E & HF); auto; [split; assumption|].
    unfold to_tuple, struct_cuts in E, HF. rewrite En in E, HF. eauto.
  - rewrite n_frame_offsets_spec. pose proof (sp_n_offsets_le (children_of t)) as Hno.
    destruct (nonfixed_refs_long h (align_of t) s (align_of_alignment t) Ha
                (sp_n_offsets (items_of (children_of t))) (children_of t) Hl ltac:(lia) ltac:(auto) 0 0 1 0)
      as [(rs & E & HF)|[E Hf]]; auto; try lia.
    { left; reflexivity. }
    left. exists rs. split; [exact E|]. unfold sp_struct_children.
    change (len (s_data s)) with (blen (s_data s)).
    replace (pad_to 1 (st_prev (s_data s) 0 + 0) + 0) with 0 in HF by reflexivity.
    exact HF.
Qed.
Lemma small_not_far t d : blen d < 2 ^ 32 -> ~ struct_far t d.
Proof.
  intros Hl (_ & k & _ & _ & H). pose proof (st_prev_bound32 d k Hl). lia.
Qed.
Lemma to_tuple_exact h t s : is_struct t -> macro_ok t = true -> type_len t < 2 ^ 32 ->
  ref_ok t s -> slen s < 2 ^ 32 ->
  exists rs, to_tuple h t s = Ok rs /\
    Forall2 (fun p r => child_view h s (fst p) (snd p) r)
            (combine (children_of t) (struct_cuts t (s_data s))) rs.
Proof.
  intros Hs Hm Htl Hr Hl. pose proof (small_not_far t (s_data s) Hl) as Hn.
  destruct (to_tuple_long h t s) as [H|[_ H]]; auto; try lia; tauto.
Qed.
Lemma to_tuple_safe h t s : is_struct t -> macro_ok t = true -> type_len t < 2 ^ 32 ->
  ref_ok t s -> slen s < 2 ^ 63 ->
  (exists rs, to_tuple h t s = Ok rs /\
    Forall2 (fun c r => ref_ok c r /\ placed h c s r) (children_of t) rs) \/
  (to_tuple h t s = Crash POverflow /\ h_overflow_checks h = true /\ 2 ^ 32 <= slen s).
Proof.
  intros Hs Hm Htl Hr Hl.
  assert (Hex : (exists rs, to_tuple h t s = Ok rs /\
    Forall2 (fun p r => child_view h s (fst p) (snd p) r)
            (combine (children_of t) (struct_cuts t (s_data s))) rs) ->
    exists rs, to_tuple h t s = Ok rs /\
    Forall2 (fun c r => ref_ok c r /\ placed h c s r) (children_of t) rs).
  { intros (rs & E & HF). exists rs. split; [exact E|].
    assert (Hlen : length (struct_cuts t (s_data s)) = length (children_of t)).
    { assert (Hsc : forall d w lim items pos k, length (sp_struct_cut d w lim pos k items) = length items).
      { clear. intros d w lim. induction items as [|[al [sz|]] items IH]; intros pos k; cbn [sp_struct_cut length]; auto.
        destruct items; cbn [length]; auto. }
      unfold struct_cuts. destruct (size_of t).
      - rewrite Hsc. apply map_length.
      - unfold sp_struct_children. destruct (_ <=? _); [rewrite Hsc|rewrite map_length]; apply map_length. }
    revert HF Hlen. generalize (struct_cuts t (s_data s)). generalize (children_of t). clear.
    intros cs. revert rs. induction cs as [|c cs IH]; intros rs [|x cuts] HF Hlen; cbn [combine length] in *; try lia.
    - inversion HF. constructor.
    - inversion HF as [|? r ? rs' Hv HF']; subst. constructor; [destruct Hv as (H1 & H2 & _); auto|].
      eapply IH; [exact HF'|lia]. }
  destruct (N.lt_ge_cases (slen s) (2 ^ 32)) as [Hlt|Hge].
  { left. apply Hex. now apply to_tuple_exact. }
  destruct (size_of t) as [n|] eqn:En.
  { left. apply Hex. now apply (to_tuple_fixed h t s n). }
  clear Hex. unfold to_tuple. destruct Hr as [Ha Hg]. rewrite En.
  destruct (struct_bounds t Hs Htl) as [Hlb Hlen].
  pose proof (struct_children_ok t Hs Hm) as Hch.
    rewrite n_frame_offsets_spec. pose proof (sp_n_offsets_le (children_of t)) as Hno.
    destruct (nonfixed_refs_safe h (align_of t) s (align_of_alignment t) Ha
                (sp_n_offsets (items_of (children_of t))) (children_of t) Hl ltac:(lia) 0 0 1 0)
      as [(rs & E & HF)|[E Ho]]; auto; try lia.
    { left; reflexivity. }
    { left. eauto. }
Qed.
