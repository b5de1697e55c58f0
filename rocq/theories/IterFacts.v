(** Proofs about the iterator with panics. *)
From Verif Require Import Base Types Layout AlignedBytes Deser Iter Spec Histories IterSpec BaseFacts LayoutFacts AlignedFacts DeserFacts ArrayFacts ReadFacts ReadClaims.

Lemma step_end h x s : nfwa_step h x (iter_at s (arr_n (s_data s))) = (iter_at s (arr_n (s_data s)), Ok None).
Proof.
  unfold nfwa_step. cbn [iter_at it_offsets it_offset_idx]. rewrite blen_drop, arr_lfo_mod, N.leb_refl. reflexivity.
Qed.
Lemma step_ok h x s i : macro_ok x = true -> aligned (align_of x) s -> slen s < usize_lim -> i < arr_n (s_data s) ->
  nfwa_step h x (iter_at s i) =
  (if overflows (elem_at h x s i) then iter_at s i else iter_at s (i + 1),
   let* r := elem_at h x s i in Ok (Some r)).
Proof.
  intros Hmac Ha Hl Hi. unfold nfwa_step, elem_at. change (slen s) with (blen (s_data s)) in *.
  cbn [iter_at it_offsets it_offset_idx it_next_start it_osz it_data].
  pose proof (arr_lfo_le (s_data s)) as Hle. pose proof (arr_lfo_mod (s_data s)) as Hn.
  pose proof (arr_osz_pos (s_data s)) as Hp.
  assert (Hi2 : i * osz_n (arr_osz (s_data s)) + osz_n (arr_osz (s_data s)) <= arr_n (s_data s) * osz_n (arr_osz (s_data s))) by nia.
  rewrite blen_drop, Hn.
  replace (arr_n (s_data s) * osz_n (arr_osz (s_data s)) <=? i * osz_n (arr_osz (s_data s))) with false
    by (symmetry; apply N.leb_gt; lia).
  destruct (align_offset_calm h (trait_align x) (arr_prev (s_data s) i)) as [(start & Es & Hm)|(Es & _)]; auto with al;
    [apply arr_prev_bound| |rewrite Es; reflexivity].
  rewrite Es. cbn [bind].
  rewrite bs_from_ok by (rewrite blen_drop; lia). cbn [bind].
  rewrite read_uint_ok by (rewrite ?blen_drop; lia). cbn [bind].
  rewrite N.mul_0_l, drop_0, drop_drop.
  replace (of_le _) with (arr_end (s_data s) i) by (unfold arr_end; now rewrite le_num_of_le, sub_take_drop).
  rewrite uadd_ok by lia. cbn [bind].
  assert (Ei : NfwaIter (part s 0 (arr_lfo (s_data s))) (drop (arr_lfo (s_data s)) (s_data s)) (arr_end (s_data s) i)
      (i * osz_n (arr_osz (s_data s)) + osz_n (arr_osz (s_data s))) (arr_osz (s_data s)) = iter_at s (i + 1)).
  { unfold iter_at. f_equal; [|lia]. unfold arr_prev.
    replace (i + 1 =? 0) with false by (symmetry; apply N.eqb_neq; lia). now rewrite N.add_sub. }
  rewrite Ei. rewrite slen_part by (unfold slen; lia). rewrite N.sub_0_r.
  replace ((arr_end (s_data s) i <? start) || (arr_lfo (s_data s) <? arr_end (s_data s) i))
    with (negb ((start <=? arr_end (s_data s) i) && (arr_end (s_data s) i <=? arr_lfo (s_data s)))) by lia.
  destruct ((start <=? arr_end (s_data s) i) && _) eqn:E; cbn [negb].
  - rewrite ix_to_from_k; auto with al; try lia.
    + rewrite part_part by (rewrite ?slen_part; unfold slen; lia). rewrite !N.add_0_l.
      rewrite cast_unwrap_cases; [|exact Hmac|].
      * destruct (size_good_dec x _); reflexivity.
      * apply aligned_part; auto with al. rewrite <- trait_align_of. exact Hm.
    + rewrite trait_align_of. apply aligned_part; auto with al.
    + rewrite slen_part by (unfold slen; lia). lia.
  - destruct (empty_aligned_static h (trait_align x)) as (z & Ez & Hz & Hza & _); auto with al.
    rewrite Ez. cbn [bind]. rewrite cast_unwrap_cases; [|exact Hmac|rewrite <- trait_align_of; exact Hza].
    destruct (size_good_dec x _); reflexivity.
Qed.

Lemma sp_upto_S k : sp_upto (S k) = sp_upto k ++ [N.of_nat k].
Proof. unfold sp_upto. rewrite seq_S, map_app. reflexivity. Qed.
Lemma in_upto j k : In j (sp_upto k) <-> j < N.of_nat k.
Proof.
  unfold sp_upto. rewrite in_map_iff. split.
  - intros (i & <- & H). apply in_seq in H. lia.
  - intros H. exists (N.to_nat j). split; [lia|]. apply in_seq. lia.
Qed.
(** Calls from i on. *)
Definition from (i : N) (k : nat) : list N := map (fun m => i + N.of_nat m) (seq 0 k).
Lemma from_S i k : from i (S k) = i :: from (i + 1) k.
Proof.
  unfold from. cbn [seq map]. rewrite N.add_0_r. f_equal. rewrite <- seq_shift, map_map. apply map_ext. intros. lia.
Qed.
Section Calls.
  Context (h : host) (x : ty) (s : slice).
  Context (Hm : macro_ok x = true) (Ha : aligned (align_of x) s) (Hl : slen s < usize_lim).
  Let n := arr_n (s_data s).
  Lemma calls_end k : nfwa_calls h x k (iter_at s n) = repeat (Ok None) k.
  Proof. induction k as [|k IH]; [reflexivity|]. cbn [nfwa_calls repeat]. unfold n in *. rewrite step_end. cbn [fst snd]. now rewrite IH. Qed.
  Lemma calls_stuck i k : i < n -> overflows (nfwa_index h x s i) = true ->
    nfwa_calls h x k (iter_at s i) = repeat (Crash POverflow) k.
  Proof.
    intros Hi Ho. rewrite nfwa_index_ok in Ho by assumption.
    induction k as [|k IH]; [reflexivity|]. cbn [nfwa_calls repeat].
    rewrite step_ok by assumption. rewrite Ho. cbn [fst snd]. rewrite IH.
    destruct (elem_at h x s i) as [|[]]; try discriminate. reflexivity.
  Qed.
  Lemma map_const {A B} (f : A -> B) l b : (forall a, In a l -> f a = b) -> map f l = repeat b (length l).
  Proof. induction l as [|a l IH]; intros H; [reflexivity|]. cbn. rewrite H by now left. f_equal. apply IH. intros. apply H. now right. Qed.
  Lemma calls_from k : forall i, i <= n -> (forall j, j < i -> overflows (nfwa_index h x s j) = false) ->
    nfwa_calls h x k (iter_at s i) = map (sp_stuck_call h x s n) (from i k).
  Proof.
    induction k as [|k IH]; intros i Hi Hj; [reflexivity|].
    destruct (N.eq_dec i n) as [->|Hne].
    - rewrite calls_end. symmetry. rewrite map_const with (b := Ok None).
      + unfold from. rewrite map_length, seq_length. reflexivity.
      + intros a Hin. unfold from in Hin. apply in_map_iff in Hin as (m & <- & _). unfold sp_stuck_call.
        replace (existsb _ _) with false.
        * unfold sp_call. replace (n + N.of_nat m <? n) with false by lia. reflexivity.
        * symmetry. apply not_true_is_false. intros H. apply existsb_exists in H as (j & Hin & H).
          apply in_upto in Hin. rewrite Hj in H by lia. discriminate.
    - destruct (overflows (nfwa_index h x s i)) eqn:Eo.
      + rewrite calls_stuck by (auto; lia). symmetry. rewrite map_const with (b := Crash POverflow).
        * unfold from. rewrite map_length, seq_length. reflexivity.
        * intros a Hin. unfold from in Hin. apply in_map_iff in Hin as (m & <- & _). unfold sp_stuck_call.
          replace (existsb _ _) with true; [reflexivity|]. symmetry. apply existsb_exists.
          exists i. split; [|exact Eo]. apply in_upto. lia.
      + rewrite from_S. cbn [map nfwa_calls]. rewrite step_ok by (auto; lia).
        rewrite <- nfwa_index_ok by (auto; lia). rewrite Eo. cbn [fst snd].
        assert (Hj' : forall j, j < i + 1 -> overflows (nfwa_index h x s j) = false).
        { intros j Hlt. destruct (N.eq_dec j i) as [->|]; [exact Eo|]. apply Hj. lia. }
        rewrite IH by (auto; lia). f_equal. unfold sp_stuck_call.
        replace (existsb _ _) with false.
        * unfold sp_call. replace (i <? n) with true by lia. reflexivity.
        * symmetry. apply not_true_is_false. intros H. apply existsb_exists in H as (j & Hin & H).
          apply in_upto in Hin. rewrite Hj' in H by lia. discriminate.
  Qed.
End Calls.
Lemma from_0 k : from 0 k = sp_upto k.
Proof. reflexivity. Qed.

Lemma stuck_claim h x s : usable x -> sp_size x = None -> aligned (sp_align x) s -> len (s_data s) < 2 ^ 63 ->
  exists it n, nfwa_into_iter h x s = Ok it /\ nfwa_len h s = Ok n /\
  forall k, nfwa_calls h x k it = map (sp_stuck_call h x s n) (sp_upto k).
Proof.
  intros [Hm _] Hn Ha Hl. rewrite sp_align_of in Ha.
  assert (Hl' : slen s < usize_lim) by (unfold slen, usize_lim; change (len (s_data s)) with (blen (s_data s)) in Hl; lia).
  exists (iter_at s 0), (arr_n (s_data s)). split; [now apply nfwa_into_iter_ok|]. split; [now apply nfwa_len_ok|].
  intros k. rewrite <- from_0. apply calls_from; auto; [lia|]. intros j Hj. lia.
Qed.
Lemma index_calm h x s i : usable x -> aligned (sp_align x) s -> len (s_data s) < 2 ^ 63 ->
  h_overflow_checks h = false \/ len (s_data s) < 2 ^ 32 -> i < arr_n (s_data s) ->
  overflows (nfwa_index h x s i) = false.
Proof.
  intros [Hm _] Ha Hl Hc Hi. rewrite sp_align_of in Ha. change (len (s_data s)) with (blen (s_data s)) in *.
  rewrite nfwa_index_ok by (auto; unfold slen, usize_lim; lia). unfold elem_at.
  destruct (align_offset_calm h (trait_align x) (arr_prev (s_data s) i)) as [(start & Es & Hmod)|(Es & Ho & Hbig)]; auto with al;
    [apply arr_prev_bound| |].
  - rewrite Es. cbn [bind]. destruct (_ && _) eqn:E.
    + rewrite cast_unwrap_cases; [|exact Hm|].
      * destruct (size_good_dec x _); reflexivity.
      * apply aligned_part; auto with al. rewrite <- trait_align_of. exact Hmod.
    + destruct (empty_aligned_static h (trait_align x)) as (z & Ez & Hz & Hza & _); auto with al.
      rewrite Ez. cbn [bind]. rewrite cast_unwrap_cases; [|exact Hm|rewrite <- trait_align_of; exact Hza].
      destruct (size_good_dec x _); reflexivity.
  - exfalso. destruct Hc as [Hc|Hc]; [congruence|].
    assert (arr_prev (s_data s) i < 2 ^ 32).
    { unfold arr_prev. destruct (i =? 0); [reflexivity|]. now apply arr_end_bound32. }
    assert (HA : is_alignment (trait_align x)) by auto with al. destruct HA as [H1|[H1|[H1|H1]]]; rewrite H1 in Hbig; lia.
Qed.
Lemma calls_claim h x s : usable x -> sp_size x = None -> aligned (sp_align x) s -> len (s_data s) < 2 ^ 63 ->
  h_overflow_checks h = false \/ len (s_data s) < 2 ^ 32 ->
  exists it n, nfwa_into_iter h x s = Ok it /\ nfwa_len h s = Ok n /\
  forall k, nfwa_calls h x k it = map (sp_call h x s n) (sp_upto k).
Proof.
  intros Hu Hn Ha Hl Hc. destruct (stuck_claim h x s Hu Hn Ha Hl) as (it & n & Ei & En & H).
  exists it, n. split; [exact Ei|]. split; [exact En|]. intros k. rewrite H. apply map_ext. intros i.
  unfold sp_stuck_call. replace (existsb _ _) with false; [reflexivity|].
  symmetry. apply not_true_is_false. intros Hex. apply existsb_exists in Hex as (j & Hin & Hj).
  apply in_upto in Hin.
  assert (Hl' : slen s < usize_lim) by (unfold slen, usize_lim; change (len (s_data s)) with (blen (s_data s)) in Hl; lia).
  rewrite nfwa_len_ok in En by assumption. injection En as <-.
  rewrite index_calm in Hj; auto; [discriminate|lia].
Qed.
Lemma big_calls_n n : 2 ^ 32 <= n -> n + 16 < 2 ^ 63 ->
  let h := Host false true true 0 0 in let s := Slice 0 (big_bytes n) in exists it r,
  nfwa_len h s = Ok 2 /\ nfwa_into_iter h TS s = Ok it /\
  forall k, nfwa_calls h TS (S k) it = Ok (Some r) :: repeat (Crash POverflow) k.
Proof.
  intros Hn Hn2 h s.
  assert (Hbl : blen (big_bytes n) = n + 16) by apply big_len.
  assert (Hw : arr_width (big_bytes n) = 8).
  { unfold arr_width. rewrite Hbl. unfold sp_width.
    replace (n + 16 =? 0) with false by lia. replace (n + 16 <? 2 ^ 8) with false by lia.
    replace (n + 16 <? 2 ^ 16) with false by lia. replace (n + 16 <? 2 ^ 32) with false by lia. reflexivity. }
  assert (Hlast : arr_last (big_bytes n) = n).
  { unfold arr_last. rewrite Hw, Hbl, sub_take_drop. replace (n + 16 - 8) with (n + 8) by lia.
    rewrite big_drop. change (drop 8 (repeat xff 8 ++ num_le 8 n)) with (num_le 8 n).
    change (take 8 (num_le 8 n)) with (num_le 8 n). apply le_num_le8. lia. }
  assert (Hlfo : arr_lfo (big_bytes n) = n).
  { unfold arr_lfo, arr_good. rewrite Hlast, Hw, Hbl. replace (n + 16 =? 0) with false by lia.
    replace (n <=? n + 16) with true by lia. replace (n + 16 - n) with 16 by lia. reflexivity. }
  assert (Hosz : osz_n (arr_osz (big_bytes n)) = 8) by (rewrite arr_osz_width by lia; exact Hw).
  assert (Han : arr_n (big_bytes n) = 2).
  { unfold arr_n. rewrite Hlfo, Hosz, Hbl. replace (n + 16 - n) with 16 by lia. reflexivity. }
  assert (He0 : arr_end (big_bytes n) 0 = 2 ^ 64 - 1).
  { unfold arr_end. rewrite Hlfo, Hosz, sub_take_drop. rewrite N.mul_0_l, big_drop.
    change (take 8 (drop 0 (repeat xff 8 ++ num_le 8 n))) with (repeat xff 8). reflexivity. }
  assert (E0 : exists r, elem_at h TS s 0 = Ok r).
  { unfold elem_at, s. cbn [s_data]. change (arr_prev (big_bytes n) 0) with 0. rewrite He0, Hlfo.
    change (align_offset h (trait_align TS) 0) with (Ok 0). cbn [bind].
    replace ((0 <=? 2 ^ 64 - 1) && (2 ^ 64 - 1 <=? n)) with false by lia.
    destruct (empty_aligned_static h (trait_align TS)) as (z & -> & Hz & Hza & _); [now left|]. cbn [bind].
    rewrite cast_unwrap_empty; eauto. }
  assert (E1 : elem_at h TS s 1 = Crash POverflow).
  { unfold elem_at, s. cbn [s_data]. change (arr_prev (big_bytes n) 1) with (arr_end (big_bytes n) 0).
    rewrite He0. unfold align_offset, uadd. change (2 ^ 64 - 1 + trait_align TS <? usize_lim) with false. reflexivity. }
  assert (Hs : slen s < usize_lim) by (unfold slen, s; cbn [s_data]; rewrite Hbl; unfold usize_lim; lia).
  assert (Han' : arr_n (s_data s) = 2) by exact Han.
  assert (Ha : aligned (align_of TS) s) by apply N.mod_1_r.
  clearbody s. destruct E0 as [r E0]. exists (iter_at s 0), r.
  split; [rewrite nfwa_len_ok by exact Hs; now rewrite Han'|].
  split; [now apply nfwa_into_iter_ok|]. intros k. cbn [nfwa_calls].
  rewrite step_ok; [|reflexivity|exact Ha|exact Hs|lia].
  rewrite E0. cbn [overflows fst snd bind]. f_equal.
  change (0 + 1) with 1. apply calls_stuck; [reflexivity|exact Ha|exact Hs|lia|].
  rewrite nfwa_index_ok; [rewrite E1; reflexivity|exact Ha|exact Hs|lia].
Qed.
Lemma big_calls : exists (h : host) (s : slice) (it : nfwa_iter) (r : slice),
  aligned (sp_align TS) s /\ len (s_data s) < 2 ^ 63 /\ nfwa_len h s = Ok 2 /\ nfwa_into_iter h TS s = Ok it /\
  forall k, nfwa_calls h TS (S k) it = Ok (Some r) :: repeat (Crash POverflow) k.
Proof.
  destruct (big_calls_n (2 ^ 32) (N.le_refl _) ltac:(reflexivity)) as (it & r & H1 & H2 & H3).
  exists (Host false true true 0 0), (Slice 0 (big_bytes (2 ^ 32))), it, r.
  split; [reflexivity|]. split; [cbn [s_data]; rewrite big_len; reflexivity|]. auto.
Qed.
