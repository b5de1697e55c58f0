(** Elements of arrays (C13, C14, C19), maybes and variants. *)
From Verif Require Import Base Types Layout AlignedBytes Strs Spec Deser Histories
  BaseFacts TypesFacts LayoutFacts AlignedFacts DeserFacts.
From Coq Require Import Lia ZifyBool ZifyNat ZifyN.
Ltac Zify.zify_post_hook ::= Z.div_mod_to_equations.

Lemma within_refl s : within s s.
Proof. exists 0, (slen s). rewrite part_full. repeat split; lia. Qed.
Lemma within_trans s r q : within s r -> within r q -> within s q.
Proof.
  intros (b & e & Hbe & He & ->) (b' & e' & Hbe' & He' & ->).
  pose proof (slen_part s b e Hbe He) as Hl. exists (b + b'), (b + e').
  rewrite part_part by assumption. repeat split; lia.
Qed.
Lemma in_static_within h s r : in_static h s -> within s r -> in_static h r.
Proof.
  intros [(n & b & e & Hbe & He & ->)|(b & Hb & ->)] (b' & e' & Hbe' & He' & ->).
  - left. exists n, (b + b'), (b + e').
    assert (Hn : slen (Slice (8 * h_statics h) (zeros n)) = n) by apply blen_zeros.
    rewrite slen_part in He' by (rewrite ?Hn; assumption).
    repeat split; try lia. apply part_part; rewrite ?Hn; try assumption.
    rewrite slen_part; rewrite ?Hn; lia.
  - right. cbn [slen s_data blen length N.of_nat] in He'. assert (b' = 0) by lia. assert (e' = 0) by lia.
    subst. exists b. split; [assumption|]. unfold part. cbn [s_addr s_data].
    now rewrite N.add_0_r.
Qed.

(** Where references point. *)
Lemma placed_static h t s r : in_static h r -> s_data r = default_bytes t -> placed h t s r.
Proof. intros Hs Hd. right. split; [exact Hs|]. rewrite sp_size_of. exact Hd. Qed.
Lemma zeros_part n b e x : b <= e -> e <= n -> blen (s_data (part (Slice x (zeros n)) b e)) = e - b.
Proof.
  intros. unfold part. cbn [s_data]. rewrite blen_take, blen_drop, blen_zeros. lia.
Qed.
Lemma placed_trans h t t' s r q : placed h t s r -> placed h t' r q -> ref_ok t r -> ref_ok t' q ->
  (is_fixed t = true -> is_fixed t' = true) -> placed h t' s q.
Proof.
  intros [Hw|[Hs Hd]] [Hw'|Hs'] Hr Hq Hf; try (right; exact Hs').
  - left. eauto using within_trans.
  - right. split; [eauto using in_static_within|]. rewrite sp_size_of in *.
    destruct Hw' as (b & e & Hbe & He & ->). unfold part in *. cbn [s_data] in *. rewrite Hd in *.
    destruct Hq as [_ Hq]. unfold size_good, slen in Hq. cbn [s_data] in Hq.
    unfold is_fixed in Hf. change nuls with zeros in *.
    destruct (size_of t) as [n|] eqn:En.
    + destruct (size_of t') as [m|]; [|specialize (Hf eq_refl); discriminate].
      rewrite drop_zeros, take_zeros in Hq |- *. rewrite blen_zeros in Hq. now rewrite Hq.
    + assert (E0 : take (e - b) (drop b []) = @nil byte) by (unfold take, drop; now rewrite skipn_nil, firstn_nil).
      rewrite E0 in *. destruct (size_of t') as [m|]; [|reflexivity].
      cbn [blen length N.of_nat] in Hq. now rewrite <- Hq.
Qed.

(** A build in which no arithmetic on framing offsets can overflow. *)
Definition calm (h : host) (n : N) : Prop := h_overflow_checks h = false \/ n < 2 ^ 32.

Lemma align_offset_calm h A x : is_alignment A -> x < usize_lim ->
  (exists r, align_offset h A x = Ok r /\ r mod A = 0) \/
  (align_offset h A x = Crash POverflow /\ h_overflow_checks h = true /\ 2 ^ 64 <= x + A).
Proof.
  intros HA Hx. destruct (align_offset h A x) as [r|c] eqn:E.
  - left. exists r. split; [reflexivity|]. eapply align_offset_mod; eauto.
  - right. destruct (N.lt_ge_cases (x + A) usize_lim) as [Hlt|Hge].
    { rewrite align_offset_ok in E by assumption. discriminate. }
    unfold align_offset, uadd in E. replace (x + A <? usize_lim) with false in E by (symmetry; apply N.ltb_ge; lia).
    destruct (h_overflow_checks h) eqn:Eo; cbn [bind] in E.
    + repeat split; [congruence|exact Hge].
    + exfalso. unfold usub in E. rewrite Eo in E.
      destruct (1 <=? _), (1 <=? A); cbn [bind] in E; discriminate.
Qed.

Lemma part_sub s b e : s_data (part s b e) = sub (s_data s) b (e - b).
Proof. unfold part. cbn [s_data]. now rewrite sub_take_drop. Qed.

(** All outcomes of reading element i. *)
Lemma elem_at_cases h x s i : macro_ok x = true -> aligned (align_of x) s -> size_of x = None ->
  (exists r, elem_at h x s i = Ok r /\ ref_ok x r /\ placed h x s r) \/
  (elem_at h x s i = Crash PUnwrap /\ exists n, ~ size_good x n) \/
  (elem_at h x s i = Crash POverflow /\ h_overflow_checks h = true /\ 2 ^ 32 <= slen s).
Proof.
  intros Hm Ha Hn. unfold elem_at. rewrite trait_align_of.
  destruct (align_offset_calm h (align_of x) (arr_prev (s_data s) i)) as [(st & -> & Hst)|(-> & Ho & Hb)];
    auto with al; try apply arr_prev_bound.
  - cbn [bind]. pose proof (arr_lfo_le (s_data s)) as Hle.
    destruct ((st <=? arr_end (s_data s) i) && (arr_end (s_data s) i <=? arr_lfo (s_data s))) eqn:E.
    + assert (Hp : aligned (align_of x) (part s st (arr_end (s_data s) i)))
        by (apply aligned_part; auto with al).
      rewrite cast_unwrap_cases by assumption.
      destruct (size_good_dec x _) as [Hg|Hg]; [|right; left; eauto].
      left. eexists. split; [reflexivity|]. split; [split; assumption|].
      left. exists st, (arr_end (s_data s) i). unfold slen. repeat split; lia.
    + destruct (empty_aligned_static h (align_of x)) as (z & -> & Hz & Hza & Hzs); auto with al.
      cbn [bind]. rewrite cast_unwrap_empty by assumption.
      left. exists z. split; [reflexivity|]. split; [split; [assumption|]|apply placed_static; [assumption|unfold default_bytes; now rewrite Hn]].
      unfold size_good, slen. rewrite Hn, Hz. destruct x; auto.
      destruct (size_of x) as [m|] eqn:Em; [|exact I]. apply size_of_props in Em as [Em _].
      cbn [blen length N.of_nat]. apply N.mod_0_l. lia.
  - right; right. split; [reflexivity|]. split; [assumption|].
    destruct (N.lt_ge_cases (slen s) (2 ^ 32)) as [Hlt|]; [|lia]. exfalso.
    assert (arr_prev (s_data s) i < 2 ^ 32).
    { unfold arr_prev. destruct (i =? 0); [reflexivity|]. now apply arr_end_bound32. }
    pose proof (align_of_alignment x) as HA. destruct HA as [HA|[HA|[HA|HA]]]; rewrite HA in Hb; lia.
Qed.

(** ** Draining the iterator *)
Definition indices (i : N) (k : nat) : list N := map (fun j => i + N.of_nat j) (seq 0 k).
Lemma indices_S i k : indices i (S k) = i :: indices (i + 1) k.
Proof.
  unfold indices. cbn [seq map]. f_equal; [lia|]. rewrite <- seq_shift, map_map.
  apply map_ext. intros j. lia.
Qed.
Lemma nfwa_collect_ok h x s : aligned (align_of x) s -> slen s < usize_lim ->
  forall k i fuel, i + N.of_nat k = arr_n (s_data s) -> (k < fuel)%nat ->
  nfwa_collect h x fuel (iter_at s i) = mapM (elem_at h x s) (indices i k).
Proof.
  intros Ha Hl. induction k as [|k IH]; intros i fuel Hi Hf; (destruct fuel as [|fuel]; [lia|]); cbn [nfwa_collect].
  - replace i with (arr_n (s_data s)) by lia. rewrite nfwa_next_end. reflexivity.
  - rewrite nfwa_next_ok by (auto; lia). rewrite indices_S. cbn [mapM].
    destruct (elem_at h x s i) as [r|c]; [|reflexivity]. cbn [bind fst snd].
    rewrite IH by lia. reflexivity.
Qed.
Lemma arr_n_le d : arr_n d <= blen d.
Proof.
  pose proof (arr_lfo_mod d) as H. pose proof (arr_osz_pos d). nia.
Qed.
Lemma nfwa_items_ok h x s : aligned (align_of x) s -> slen s < usize_lim ->
  nfwa_items h x s = mapM (elem_at h x s) (indices 0 (N.to_nat (arr_n (s_data s)))).
Proof.
  intros Ha Hl. unfold nfwa_items. rewrite nfwa_into_iter_ok by assumption. cbn [bind].
  apply nfwa_collect_ok; auto; [lia|]. pose proof (arr_n_le (s_data s)) as H. unfold blen in H. lia.
Qed.

(** ** The specification's children, index by index *)
Lemma sub_len d p n : p + n <= len d -> len (sub d p n) = n.
Proof.
  intros H. rewrite sub_take_drop. change (@len byte) with (@blen byte) in *.
  rewrite blen_take, blen_drop. lia.
Qed.
Definition arr_cut (al : N) (d : list byte) (i : N) : option (list byte) :=
  cut d (pad_to al (arr_prev d i)) (arr_end d i) (arr_lfo d).
Lemma sp_array_cut_map al d k : forall i,
  sp_array_cut al d (arr_lfo d) (arr_prev d i) (map (arr_end d) (indices i k)) =
  map (arr_cut al d) (indices i k).
Proof.
  induction k as [|k IH]; intros i; [reflexivity|]. rewrite indices_S. cbn [map sp_array_cut]. f_equal.
  rewrite <- IH. f_equal. unfold arr_prev. replace (i + 1 =? 0) with false by lia. now rewrite N.add_sub.
Qed.
Lemma sp_array_children_map al d :
  sp_array_children al d = map (arr_cut al d) (indices 0 (N.to_nat (arr_n d))).
Proof.
  unfold sp_array_children. change (len d) with (blen d).
  destruct (blen d =? 0) eqn:E0.
  { apply N.eqb_eq in E0. unfold arr_n, arr_lfo. rewrite E0. reflexivity. }
  fold (arr_width d). fold (arr_last d). fold (arr_good d).
  assert (Hpos : 0 < blen d) by lia.
  destruct (arr_good d) eqn:Eg.
  - assert (El : arr_lfo d = arr_last d) by (unfold arr_lfo; now rewrite E0, Eg).
    rewrite <- El. rewrite <- (arr_osz_width d Hpos). fold (arr_n d).
    rewrite <- sp_array_cut_map. f_equal. unfold indices. rewrite map_map. apply map_ext.
    intros j. unfold arr_end. now rewrite N.add_0_l.
  - assert (El : arr_lfo d = blen d) by (unfold arr_lfo; now rewrite E0, Eg).
    assert (En : arr_n d = 0).
    { pose proof (arr_lfo_mod d) as H. rewrite El, N.sub_diag in H. pose proof (arr_osz_pos d). nia. }
    rewrite En. reflexivity.
Qed.

(** Rounding up either gives the right answer or panics, when it is not allowed
    to wrap around. *)
Lemma align_offset_long h A x : is_alignment A -> (x + A < usize_lim \/ h_overflow_checks h = true) ->
  align_offset h A x = Ok (pad_to A x) \/ (align_offset h A x = Crash POverflow /\ usize_lim <= x + A).
Proof.
  intros HA Hx. destruct (N.lt_ge_cases (x + A) usize_lim) as [Hlt|Hge].
  { left. now apply align_offset_ok. }
  destruct Hx as [Hx|Hx]; [lia|]. right. unfold align_offset, uadd.
  replace (x + A <? usize_lim) with false by lia. rewrite Hx. auto.
Qed.

(** Reading element i, whatever the length of the array. *)
Definition elem_view (h : host) (x : ty) (c : option (list byte)) (r : res slice) : Prop :=
  match c with
  | Some b => if size_good_dec x (blen b) then exists q, r = Ok q /\ ref_ok x q /\ s_data q = b
              else r = Crash PUnwrap
  | None => exists q, r = Ok q /\ ref_ok x q /\ s_data q = []
  end.
Lemma elem_at_long h x s i : macro_ok x = true -> aligned (align_of x) s -> size_of x = None ->
  (arr_prev (s_data s) i < 2 ^ 63 \/ h_overflow_checks h = true) ->
  elem_view h x (arr_cut (align_of x) (s_data s) i) (elem_at h x s i) \/
  (elem_at h x s i = Crash POverflow /\ 2 ^ 63 <= arr_prev (s_data s) i).
Proof.
  intros Hm Ha Hn Hprev.
  assert (H8 : align_of x <= 8) by (pose proof (align_of_alignment x) as HA; destruct HA as [->|[->|[->| ->]]]; lia).
  unfold elem_view, elem_at, arr_cut, cut. rewrite trait_align_of.
  destruct (align_offset_long h (align_of x) (arr_prev (s_data s) i)) as [->|[-> Hov]]; auto with al.
  { destruct Hprev as [Hprev|Hprev]; [left; unfold usize_lim; lia|right; exact Hprev]. }
  2:{ right. split; [reflexivity|]. unfold usize_lim in Hov. lia. }
  left. cbn [bind].
  pose proof (arr_lfo_le (s_data s)) as Hle.
  set (st := pad_to (align_of x) (arr_prev (s_data s) i)). set (e := arr_end (s_data s) i).
  destruct ((st <=? e) && (e <=? arr_lfo (s_data s))) eqn:E.
  - assert (Hp : aligned (align_of x) (part s st e))
      by (apply aligned_part; auto with al; apply pad_to_mod; auto with al).
    rewrite cast_unwrap_cases by assumption. unfold slen. rewrite part_sub.
    destruct (size_good_dec x _) as [Hg|Hg]; [|reflexivity].
    eexists. split; [reflexivity|]. split; [split; [assumption|]|apply part_sub].
    unfold slen. now rewrite part_sub.
  - destruct (empty_aligned_static h (align_of x)) as (z & -> & Hz & Hza & Hzs); auto with al.
    cbn [bind]. rewrite cast_unwrap_empty by assumption.
    exists z. split; [reflexivity|]. split; [split; [assumption|]|assumption].
    unfold size_good, slen. rewrite Hn, Hz. destruct x; auto.
    destruct (size_of x) as [m|] eqn:Em; [|exact I]. apply size_of_props in Em as [Em _].
    cbn [blen length N.of_nat]. apply N.mod_0_l. lia.
Qed.
Lemma arr_prev_bound32 d i : blen d < 2 ^ 32 -> arr_prev d i < 2 ^ 32.
Proof.
  intros Hl. unfold arr_prev. destruct (i =? 0); [reflexivity|]. now apply arr_end_bound32.
Qed.
(** Reading element i below 4 GiB. *)
Lemma elem_at_exact h x s i : macro_ok x = true -> aligned (align_of x) s -> size_of x = None ->
  slen s < 2 ^ 32 -> elem_view h x (arr_cut (align_of x) (s_data s) i) (elem_at h x s i).
Proof.
  intros Hm Ha Hn Hl. pose proof (arr_prev_bound32 (s_data s) i Hl) as Hprev.
  destruct (elem_at_long h x s i Hm Ha Hn) as [H|[_ H]]; [left; lia|exact H|lia].
Qed.

(** ** Maybes *)
Lemma to_option_fixed h x s n : macro_ok x = true -> aligned (align_of x) s -> size_of x = Some n ->
  to_option h x s = Ok (if slen s =? n then Some s else None).
Proof.
  intros Hm Ha Hn. unfold to_option. rewrite Hn, try_from_ok by assumption.
  destruct (size_good_dec x (slen s)) as [H|H]; unfold size_good in H; rewrite Hn in H.
  - rewrite H, N.eqb_refl. reflexivity.
  - replace (slen s =? n) with false by (symmetry; now apply N.eqb_neq). reflexivity.
Qed.
Lemma to_option_var h x s : macro_ok x = true -> aligned (align_of x) s -> size_of x = None ->
  to_option h x s =
  if slen s =? 0 then Ok None
  else if size_good_dec x (slen s - 1) then Ok (Some (part s 0 (slen s - 1))) else Crash PUnwrap.
Proof.
  intros Hm Ha Hn. unfold to_option. rewrite Hn. destruct (slen s =? 0) eqn:E; [reflexivity|].
  apply N.eqb_neq in E. rewrite usub_ok by lia. cbn [bind].
  rewrite ix_to_ok by (rewrite ?trait_align_of; auto; lia). cbn [bind].
  rewrite cast_unwrap_cases by (auto; apply aligned_part; auto with al).
  rewrite slen_part by lia. rewrite N.sub_0_r. destruct (size_good_dec x (slen s - 1)); reflexivity.
Qed.

(** ** Variants *)
Lemma sp_split_last_spec d :
  match sp_split_last d with
  | Some (x, y) => d = x ++ x00 :: y /\ ~ In x00 y
  | None => ~ In x00 d
  end.
Proof.
  induction d as [|b d IH]; cbn [sp_split_last]; [tauto|].
  destruct (sp_split_last d) as [[x y]|].
  - destruct IH as [-> IH]. split; [reflexivity|assumption].
  - destruct (Byte.eqb b x00) eqn:E.
    + apply byte_eqb_eq in E. subst. split; [reflexivity|assumption].
    + apply byte_eqb_neq in E. cbn. intros [H|H]; [congruence|tauto].
Qed.
Lemma memrchr0_go_spec d : forall i f, memrchr0_go i f d =
  match sp_split_last d with Some (x, _) => Some (i + blen x) | None => f end.
Proof.
  induction d as [|b d IH]; intros i f; cbn [memrchr0_go sp_split_last]; [reflexivity|].
  rewrite IH. destruct (sp_split_last d) as [[x y]|].
  - f_equal. rewrite blen_cons. lia.
  - unfold byte_eqb. destruct (Byte.eqb b x00); [|reflexivity]. f_equal. rewrite blen_nil. lia.
Qed.
Lemma memrchr0_split d :
  match memrchr0 d, sp_split_last d with
  | Some m, Some (x, y) => m < blen d /\ x = take m d /\ y = drop (m + 1) d
  | None, None => True
  | _, _ => False
  end.
Proof.
  unfold memrchr0. rewrite memrchr0_go_spec. pose proof (sp_split_last_spec d) as H.
  destruct (sp_split_last d) as [[x y]|]; [|exact I]. destruct H as [-> _].
  rewrite blen_app, blen_cons. rewrite N.add_0_l. split; [lia|]. split.
  - symmetry. now apply take_app_eq.
  - rewrite drop_app_ge by lia. replace (blen x + 1 - blen x) with 1 by lia. reflexivity.
Qed.
Lemma variant_split_ok h s : aligned 8 s ->
  exists ts dat, variant_split h s = Ok (ts, dat) /\ aligned 8 dat /\
    sp_variant (s_data s) = VVariant (s_data ts) (s_data dat) /\
    ((within s ts /\ within s dat) \/ (ts = Slice (h_str8 h) ["("; ")"]%byte /\ in_static h dat /\ s_data dat = [])).
Proof.
  intros Ha. unfold variant_split, sp_variant. pose proof (memrchr0_split (s_data s)) as H.
  destruct (memrchr0 (s_data s)) as [m|], (sp_split_last (s_data s)) as [[x y]|]; try tauto.
  - destruct H as (Hm & -> & ->). fold (slen s) in Hm. unfold split_at.
    rewrite sl_to_ok by lia. cbn [bind]. rewrite sl_from_ok by lia. cbn [bind].
    rewrite unchecked_ok by exact Ha. cbn [bind fst snd].
    rewrite sl_from_ok by (unfold slen in *; cbn [s_data]; rewrite blen_drop; lia). cbn [bind].
    eexists _, _. split; [reflexivity|]. split; [exact Ha|]. cbn [s_data s_addr].
    rewrite drop_drop. split; [reflexivity|]. left. split.
    + exists (m + 1), (slen s). rewrite part_end. repeat split; try lia. now rewrite N.add_assoc.
    + exists 0, m. rewrite part_0. repeat split; lia.
  - destruct (empty_aligned_static h 8) as (z & -> & Hz & Hza & Hzs); [right; right; right; reflexivity|].
    cbn [bind]. eexists _, _. split; [reflexivity|]. split; [exact Hza|]. cbn [s_data].
    rewrite Hz. split; [reflexivity|]. right. auto.
Qed.
