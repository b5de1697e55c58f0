(** The reading properties, restated in terms of the specification. *)
From Verif Require Import Base Types Layout AlignedBytes Strs Spec Deser Buf Histories
  BaseFacts TypesFacts LayoutFacts AlignedFacts Utf8Facts DeserFacts ArrayFacts StructFacts ReadFacts AccessFacts LongSpec.
From Coq Require Import Lia ZifyBool ZifyNat ZifyN.
Ltac Zify.zify_post_hook ::= Z.div_mod_to_equations.

Lemma usable_readable t : usable t <-> readable t.
Proof. unfold usable, readable. now rewrite type_len_show. Qed.

(** ** C08, C18 *)
Lemma reach_claim h t s t' r : usable t -> aligned (sp_align t) s -> len (s_data s) < 2 ^ 63 ->
  reach h t s t' r ->
  usable t' /\ aligned (sp_align t') r /\ sp_ref_size t' (len (s_data r)) /\ placed h t' s r.
Proof.
  intros Hu Ha Hl H. rewrite sp_align_of in Ha. apply usable_readable in Hu.
  destruct (reach_safe h t s t' r Hu Ha Hl H) as (H1 & [H2 H3] & H4 & _).
  rewrite sp_align_of. split; [now apply usable_readable|]. split; [exact H2|]. split; [|exact H4].
  apply ref_size_good. exact H3.
Qed.
Lemma access_claim h t s t' r a c : usable t -> aligned (sp_align t) s -> len (s_data s) < 2 ^ 63 ->
  reach h t s t' r -> access_wf a -> run_access h t' r a = Crash c ->
  c = PIndex \/ c = PUnwrap \/ c = POverflow.
Proof.
  intros Hu Ha Hl H Hwf E. rewrite sp_align_of in Ha. apply usable_readable in Hu.
  destruct (reach_safe h t s t' r Hu Ha Hl H) as (H1 & H2 & _ & H4).
  pose proof (access_safe h t' r a H1 H2 H4 Hwf) as HA. rewrite E in HA.
  destruct HA as [[[-> _]|[-> _]]|(i & _ & [->|[-> _]])]; auto.
Qed.
Lemma read_claim h t s t' r c : usable t -> aligned (sp_align t) s -> len (s_data s) < 2 ^ 63 ->
  reach h t s t' r -> read h t' r = Crash c -> c = PUnwrap \/ c = POverflow.
Proof.
  intros Hu Ha Hl H E. rewrite sp_align_of in Ha. apply usable_readable in Hu.
  destruct (reach_safe h t s t' r Hu Ha Hl H) as (H1 & H2 & _ & H4).
  pose proof (read_safe h t' H1 r H2 H4) as HA. rewrite E in HA.
  destruct HA as [[-> _]|[-> _]]; auto.
Qed.
Lemma placed_claim h t s t' r : usable t -> aligned (sp_align t) s -> len (s_data s) < 2 ^ 63 ->
  reach h t s t' r ->
  (exists before after, s_data s = before ++ s_data r ++ after /\ s_addr r = s_addr s + len before) \/
  (in_static h r /\ s_data r = match sp_size t' with Some n => nuls n | None => [] end).
Proof.
  intros Hu Ha Hl H. destruct (reach_claim h t s t' r Hu Ha Hl H) as (_ & _ & _ & [(b & e & Hb & He & ->)|[H1 H2]]).
  - left. exists (take b (s_data s)), (drop e (s_data s)). unfold part. cbn [s_data s_addr].
    unfold slen in He. change (len (take b (s_data s))) with (blen (take b (s_data s))). rewrite blen_take.
    split; [|f_equal; lia].
    replace (drop e (s_data s)) with (drop (e - b) (drop b (s_data s))) by (rewrite drop_drop; f_equal; lia).
    now rewrite !take_drop.
  - right. split; [exact H1|exact H2].
Qed.

(** ** C09, C10, C39 *)
Lemma decode_claim h t s : usable t -> aligned (sp_align t) s -> len (s_data s) < 2 ^ 32 ->
  decode h t s = if sp_reads t (Some (s_data s)) then Ok (sp_decode (h_big_endian h) t (Some (s_data s)))
                 else Crash PUnwrap.
Proof.
  intros [Hm Hl] Ha Hs. rewrite sp_align_of in Ha. rewrite type_len_show in Hl. now apply decode_exact.
Qed.
Lemma decode_value_claim h t s v : usable t -> aligned (sp_align t) s -> len (s_data s) < 2 ^ 32 ->
  decode h t s = Ok v -> v = sp_decode (h_big_endian h) t (Some (s_data s)).
Proof.
  intros Hu Ha Hs E. rewrite decode_claim in E by assumption. destruct (sp_reads t _); congruence.
Qed.
Lemma decode_tame_claim h t s : usable t -> sp_tame t = true -> aligned (sp_align t) s -> len (s_data s) < 2 ^ 32 ->
  decode h t s = Ok (sp_decode (h_big_endian h) t (Some (s_data s))).
Proof. intros Hu Ht Ha Hs. rewrite decode_claim by assumption. now rewrite tame_reads. Qed.
(** A [Vec] cannot hold more than isize::MAX bytes. *)
Lemma decode_any_length h t s c : usable t -> aligned (sp_align t) s -> len (s_data s) < 2 ^ 63 ->
  decode h t s = Crash c ->
  (c = PUnwrap /\ sp_tame t = false) \/
  (c = POverflow /\ h_overflow_checks h = true /\ 2 ^ 32 <= len (s_data s)).
Proof.
  intros Hu Ha Hl E. rewrite sp_align_of in Ha. apply usable_readable in Hu.
  pose proof (decode_safe h t s Hu Ha Hl) as H. rewrite E in H. exact H.
Qed.
Lemma decode_release_any_length h t s : usable t -> sp_tame t = true -> h_overflow_checks h = false ->
  aligned (sp_align t) s -> len (s_data s) < 2 ^ 63 -> exists v, decode h t s = Ok v.
Proof.
  intros Hu Ht Ho Ha Hl. destruct (decode h t s) as [v|c] eqn:E; [eauto|].
  destruct (decode_any_length h t s c Hu Ha Hl E) as [[_ H]|(_ & H & _)]; congruence.
Qed.
(** ** C11 *)
Lemma fixed_cast_claim h t s n : usable t -> sp_size t = Some n -> aligned (sp_align t) s ->
  exists r, cast h t s = Ok r /\ aligned (sp_align t) r /\
    (len (s_data s) = n -> r = s) /\ (len (s_data s) <> n -> in_static h r /\ s_data r = nuls n).
Proof.
  intros [Hm Hl] Hn Ha. rewrite sp_align_of in *. rewrite sp_size_of in Hn.
  destruct (cast_cases h t s Hm Ha) as [[Hg E]|[Hg E]]; unfold size_good in Hg; rewrite Hn in Hg.
  - exists s. rewrite E. split; [reflexivity|]. split; [exact Ha|]. split; [reflexivity|]. intros H. now elim H.
  - destruct (default_ref_ok h t Hm) as (r & Er & Hd & [Hr _] & Hs). exists r. rewrite E.
    split; [exact Er|]. split; [exact Hr|]. split; [intros H; now elim Hg|]. intros _. split; [exact Hs|].
    unfold default_bytes in Hd. now rewrite Hn in Hd.
Qed.
Lemma fixed_decode_claim h t s n : usable t -> sp_size t = Some n -> aligned (sp_align t) s ->
  decode h t s = Ok (sp_decode (h_big_endian h) t (Some (s_data s))) /\
  (len (s_data s) <> n -> decode h t s = Ok (sp_default (h_big_endian h) t)).
Proof.
  intros [Hm Hl] Hn Ha. rewrite sp_align_of in *. rewrite sp_size_of in Hn. rewrite type_len_show in Hl.
  assert (E : decode h t s = Ok (sp_decode (h_big_endian h) t (Some (s_data s)))).
  { unfold decode. destruct (cast_ok h t s Hm Ha) as (r & -> & Hr & Hd & _). cbn [bind].
    rewrite read_exact; auto; [|left; unfold is_fixed; now rewrite Hn].
    unfold outcome. rewrite (sp_reads_fixed t n) by assumption. rewrite Hd.
    change (seen_bytes t (s_data s)) with (norm t (Some (s_data s))). now rewrite <- sp_decode_norm. }
  split; [exact E|]. intros Hne. rewrite E. f_equal. unfold sp_default.
  rewrite sp_decode_norm, (sp_decode_norm _ t None). f_equal. f_equal. unfold norm, seen_bytes.
  destruct (size_good_dec t (blen (s_data s))) as [Hg|Hg]; [|reflexivity].
  unfold size_good in Hg. rewrite Hn in Hg. now elim Hne.
Qed.

(** ** C13 *)
Lemma items_claim h x s : usable x -> sp_size x = None -> aligned (sp_align x) s -> len (s_data s) < 2 ^ 63 ->
  exists n, nfwa_len h s = Ok n /\
    nfwa_items h x s = mapM (nfwa_index h x s) (map N.of_nat (seq 0 (N.to_nat n))) /\
    nfwa_is_empty h s = Ok (n =? 0) /\
    nfwa_first h x s = (if n =? 0 then Ok None else let* r := nfwa_index h x s 0 in Ok (Some r)) /\
    nfwa_last h x s = (if n =? 0 then Ok None else let* r := nfwa_index h x s (n - 1) in Ok (Some r)).
Proof.
  intros [Hm _] Hn Ha Hl. rewrite sp_align_of in Ha. rewrite sp_size_of in Hn.
  assert (Hl' : slen s < usize_lim) by (unfold slen, usize_lim; change (len (s_data s)) with (blen (s_data s)) in Hl; lia).
  exists (arr_n (s_data s)). split; [now apply nfwa_len_ok|]. split.
  - rewrite nfwa_items_ok by assumption.
    assert (E : forall l, (forall i, In i l -> i < arr_n (s_data s)) ->
              mapM (elem_at h x s) l = mapM (nfwa_index h x s) l).
    { induction l as [|i l IH]; intros H; [reflexivity|]. cbn [mapM].
      rewrite nfwa_index_ok by (auto; apply H; now left). now rewrite IH by (intros; apply H; now right). }
    rewrite E.
    + reflexivity.
    + intros i Hi. unfold indices in Hi. apply in_map_iff in Hi as (k & <- & Hk). apply in_seq in Hk. lia.
  - unfold nfwa_is_empty, nfwa_first, nfwa_last, nfwa_is_empty. rewrite nfwa_len_ok by assumption. cbn [bind].
    split; [reflexivity|]. destruct (arr_n (s_data s) =? 0) eqn:E; [split; reflexivity|]. split; [reflexivity|].
    rewrite usub_ok by lia. reflexivity.
Qed.
Lemma iter_claim h x s : usable x -> sp_size x = None -> aligned (sp_align x) s -> len (s_data s) < 2 ^ 63 ->
  exists it n, nfwa_into_iter h x s = Ok it /\ nfwa_len h s = Ok n /\
  forall k it', nfwa_skip h x it k = Ok it' ->
    nfwa_size_hint h it' = Ok (n - N.of_nat k) /\
    (N.of_nat k < n -> (let* p := nfwa_next h x it' in Ok (fst p)) =
                       (let* r := nfwa_index h x s (N.of_nat k) in Ok (Some r))) /\
    (n <= N.of_nat k -> nfwa_next h x it' = Ok (None, it')).
Proof.
  intros [Hm _] Hn Ha Hl. rewrite sp_align_of in Ha. rewrite sp_size_of in Hn.
  assert (Hl' : slen s < usize_lim) by (unfold slen, usize_lim; change (len (s_data s)) with (blen (s_data s)) in Hl; lia).
  exists (iter_at s 0), (arr_n (s_data s)). split; [now apply nfwa_into_iter_ok|]. split; [now apply nfwa_len_ok|].
  assert (H : forall k i it', i <= arr_n (s_data s) -> nfwa_skip h x (iter_at s i) k = Ok it' ->
    it' = iter_at s (N.min (i + N.of_nat k) (arr_n (s_data s)))).
  { induction k as [|k IH]; intros i it' Hi E; cbn [nfwa_skip] in E.
    - injection E as <-. f_equal. lia.
    - destruct (N.eq_dec i (arr_n (s_data s))) as [->|Hne].
      + rewrite nfwa_next_end in E. cbn [bind snd] in E. apply IH in E; [|lia]. rewrite E. f_equal. lia.
      + rewrite nfwa_next_ok in E by (auto; lia). destruct (elem_at h x s i); [|discriminate].
        cbn [bind snd] in E. apply IH in E; [|lia]. rewrite E. f_equal. lia. }
  intros k it' E. apply H in E; [|lia]. subst it'. split; [|split].
  - rewrite nfwa_size_hint_ok by lia. f_equal. lia.
  - intros Hk. replace (N.min (0 + N.of_nat k) (arr_n (s_data s))) with (N.of_nat k) by lia.
    rewrite nfwa_next_ok, nfwa_index_ok by auto. destruct (elem_at h x s (N.of_nat k)); reflexivity.
  - intros Hk. replace (N.min (0 + N.of_nat k) (arr_n (s_data s))) with (arr_n (s_data s)) by lia.
    apply nfwa_next_end.
Qed.
(** The number of elements is the specification's. *)
Lemma len_claim h x s : aligned (sp_align x) s -> len (s_data s) < 2 ^ 63 ->
  nfwa_len h s = Ok (len (sp_array_children (sp_align x) (s_data s))).
Proof.
  intros Ha Hl. change (len (s_data s)) with (slen s) in Hl.
  rewrite nfwa_len_ok by (unfold usize_lim; lia). f_equal. rewrite sp_array_children_map.
  unfold len. unfold indices. rewrite !map_length, seq_length. lia.
Qed.

(** ** C14 *)
Lemma index_oob h x s i n : aligned (sp_align x) s -> len (s_data s) < 2 ^ 63 ->
  nfwa_len h s = Ok n -> n <= i -> i < 2 ^ 64 -> h_overflow_checks h = true \/ i < 2 ^ 61 ->
  nfwa_index h x s i = Crash PIndex \/ nfwa_index h x s i = Crash POverflow.
Proof.
  intros Ha Hl Hn Hni Hi Hc. change (len (s_data s)) with (slen s) in Hl.
  assert (Hl' : slen s < usize_lim) by (unfold usize_lim; lia). rewrite nfwa_len_ok in Hn by assumption.
  injection Hn as <-. unfold nfwa_index. change (slen s) with (blen (s_data s)) in *.
  rewrite read_lfo_ok by assumption. cbn [bind fst snd]. pose proof (arr_lfo_le (s_data s)) as Hle.
  rewrite bs_from_ok by assumption. cbn [bind].
  assert (E : exists c, read_uint h (drop (arr_lfo (s_data s)) (s_data s)) (arr_osz (s_data s)) i = Crash c /\
                        (c = PIndex \/ c = POverflow)).
  { pose proof (arr_osz_pos (s_data s)) as Hp. pose proof (arr_lfo_mod (s_data s)) as Hm.
    destruct (N.lt_ge_cases (i * osz_n (arr_osz (s_data s))) usize_lim) as [Hlt|Hge].
    - apply read_uint_oob; auto using arr_osz_U0. rewrite blen_drop, Hm. nia.
    - destruct Hc as [Hc|Hc]; [|unfold usize_lim in Hge; nia].
      exists POverflow. split; [|auto]. unfold read_uint, umul.
      replace (i * osz_n (arr_osz (s_data s)) <? usize_lim) with false by (symmetry; now apply N.ltb_ge).
      rewrite Hc. reflexivity. }
  destruct E as (c & -> & [->| ->]); cbn [bind]; auto.
Qed.
Definition oob_witness : slice := Slice 8 (zeros 256 ++ [x05; x00; x00; x01]).
Lemma index_wraps_refuted :
  let h := Host false false false 0 0 in
  aligned (sp_align TS) oob_witness /\ nfwa_len h oob_witness = Ok 2 /\
  nfwa_index h TS oob_witness (2 ^ 63 + 1) = nfwa_index h TS oob_witness 1 /\
  exists r, nfwa_index h TS oob_witness (2 ^ 63 + 1) = Ok r /\ len (s_data r) = 251.
Proof.
  cbn zeta. split; [reflexivity|]. split; [vm_compute; reflexivity|]. split; [vm_compute; reflexivity|].
  eexists. split; vm_compute; reflexivity.
Qed.

(** ** C15 *)
Lemma maybe_fixed_claim h x s n : usable x -> sp_size x = Some n -> aligned (sp_align x) s ->
  to_option h x s = Ok (if len (s_data s) =? n then Some s else None).
Proof.
  intros [Hm _] Hn Ha. rewrite sp_align_of in Ha. rewrite sp_size_of in Hn. now apply to_option_fixed.
Qed.
Lemma maybe_var_claim h x s : usable x -> sp_size x = None -> aligned (sp_align x) s ->
  (s_data s = [] -> to_option h x s = Ok None) /\
  (forall d b, s_data s = d ++ [b] ->
     (sp_ref_size x (len d) -> to_option h x s = Ok (Some (Slice (s_addr s) d))) /\
     (~ sp_ref_size x (len d) -> to_option h x s = Crash PUnwrap)).
Proof.
  intros [Hm _] Hn Ha. rewrite sp_align_of in Ha. rewrite sp_size_of in Hn.
  rewrite to_option_var by assumption. split.
  - intros E. unfold slen. rewrite E. reflexivity.
  - intros d b E. unfold slen. rewrite E, blen_app, blen_cons, blen_nil.
    replace (blen d + (1 + 0) =? 0) with false by (symmetry; apply N.eqb_neq; lia).
    replace (blen d + (1 + 0) - 1) with (blen d) by lia. change (len d) with (blen d).
    rewrite ref_size_good. destruct (size_good_dec x (blen d)) as [Hg|Hg].
    + split; [|tauto]. intros _. rewrite part_0, E. rewrite take_app_eq by reflexivity. reflexivity.
    + split; [tauto|]. reflexivity.
Qed.

(** ** C16 *)
Lemma split_claim h s : aligned 8 s ->
  exists ts dat, variant_split h s = Ok (ts, dat) /\ aligned 8 dat /\ ~ In x00 (s_data ts) /\
    ((s_data s = s_data dat ++ [x00] ++ s_data ts /\ within s dat /\ within s ts) \/
     (~ In x00 (s_data s) /\ s_data ts = bs "()" /\ s_data dat = [] /\ in_static h dat)).
Proof.
  intros Ha. destruct (variant_split_ok h s Ha) as (ts & dat & E & Hda & Hv & Hp).
  exists ts, dat. split; [exact E|]. split; [exact Hda|].
  unfold sp_variant in Hv. pose proof (sp_split_last_spec (s_data s)) as Hs.
  unfold variant_split in E. pose proof (memrchr0_split (s_data s)) as Hmm.
  destruct (sp_split_last (s_data s)) as [[a b]|].
  - destruct Hs as [Hs Hb]. injection Hv as <- <-. split; [exact Hb|]. left. split; [exact Hs|].
    destruct Hp as [[H1 H2]|[-> _]]; [tauto|].
    destruct (memrchr0 (s_data s)) as [m|]; [|contradiction]. destruct Hmm as (Hm & _ & _).
    fold (slen s) in Hm. unfold split_at in E. rewrite sl_to_ok in E by lia. cbn [bind] in E.
    rewrite sl_from_ok in E by lia. cbn [bind] in E.
    rewrite unchecked_ok in E by exact Ha. cbn [bind fst snd] in E.
    rewrite sl_from_ok in E by (unfold slen in *; cbn [s_data]; rewrite blen_drop; lia). cbn [bind] in E.
    injection E as <- <- <-. split.
    + exists 0, m. rewrite part_0. repeat split; lia.
    + exists (m + 1), (slen s). rewrite part_end. repeat split; try lia.
      f_equal; [|now rewrite drop_drop]. lia.
  - injection Hv as <- <-. split; [vm_compute; intuition discriminate|]. right.
    split; [exact Hs|]. split; [reflexivity|]. split; [reflexivity|].
    destruct Hp as [[H1 H2]|(_ & H & _)]; [|exact H].
    destruct (memrchr0 (s_data s)); [contradiction|].
    destruct (empty_aligned_static h 8) as (z & Ez & _ & _ & Hz); [right; right; right; reflexivity|].
    rewrite Ez in E. cbn [bind] in E. now inversion E; subst.
Qed.
Lemma get_claim h x s : usable x -> aligned 8 s ->
  exists ts dat o, variant_split h s = Ok (ts, dat) /\ variant_get h x s = Ok o /\
    (s_data ts <> sp_show x -> o = None) /\
    (s_data ts = sp_show x -> exists r, o = Some r /\ cast h x dat = Ok r).
Proof.
  intros [Hm Hl] Ha. destruct (variant_split_ok h s Ha) as (ts & dat & E & Hda & _ & _).
  exists ts, dat. unfold variant_get. rewrite E. cbn [bind fst snd]. rewrite <- show_display.
  assert (Hal : as_aligned 8 (trait_align x) dat = Ok dat /\ aligned (align_of x) dat).
  { unfold as_aligned, aligned_to. rewrite trait_align_of.
    assert (H8 : align_of x <= 8) by (pose proof (align_of_alignment x) as HA; destruct HA as [->|[->|[->| ->]]]; lia).
    replace (align_of x <=? 8) with true by lia. split; [reflexivity|].
    apply (aligned_le _ 8); auto with al. right; right; right; reflexivity. }
  destruct Hal as [Eas Hax]. destruct (cast_ok h x dat Hm Hax) as (r & Er & _).
  destruct (bytes_eqb (s_data ts) (sp_show x)) eqn:Eb.
  - apply bytes_eqb_eq in Eb. exists (Some r). split; [reflexivity|]. rewrite Eas. cbn [bind]. rewrite Er. cbn [bind].
    split; [reflexivity|]. split; [contradiction|]. intros _. eauto.
  - exists None. split; [reflexivity|]. split; [reflexivity|]. split; [reflexivity|].
    intros Hc. apply bytes_eqb_eq in Hc. congruence.
Qed.

(** ** C19 *)
Lemma norm_default t d : norm t d = default_bytes t -> norm t d = norm t None.
Proof. intros ->. reflexivity. Qed.
Definition nil_cut (c : option (list byte)) : Prop := c = None \/ c = Some [].
Lemma cut_nil a b l : nil_cut (cut [] a b l).
Proof. unfold cut. destruct (_ && _); [right|now left]. unfold sub. now rewrite skipn_nil, firstn_nil. Qed.
Lemma sp_struct_cut_nil w limit items : forall prev nth, Forall nil_cut (sp_struct_cut [] w limit prev nth items).
Proof.
  induction items as [|[al sz] items IH]; intros p q; cbn [sp_struct_cut]; [constructor|].
  destruct sz as [z|]; [constructor; auto using cut_nil|].
  destruct items as [|i items]; constructor; auto using cut_nil.
Qed.
Lemma sp_struct_children_nil items : Forall nil_cut (sp_struct_children items []).
Proof.
  unfold sp_struct_children. destruct (_ <=? _); [apply sp_struct_cut_nil|].
  induction items; constructor; auto. now left.
Qed.
Lemma sp_reads_nil t : forall d, nil_cut d -> sp_reads t d = true.
Proof.
  induction t as [t Hns IH|t Hs IH] using ty_struct_ind; intros d Hd;
    (assert (Hb : match d with Some b => b | None => [] end = []) by (destruct Hd as [->| ->]; reflexivity)).
  - destruct t as [| | | | | | | | | | | | |x|x|ts|k v]; try reflexivity; try (elim Hns; exact I);
      cbn [sp_reads]; rewrite Hb; destruct (sp_size x); reflexivity.
  - destruct (size_of t) as [n|] eqn:En; [now apply (sp_reads_fixed t n)|].
    assert (E : sp_reads t d = sp_reads t (Some [])).
    { destruct Hd as [->| ->]; [|reflexivity]. rewrite sp_reads_norm. unfold norm, default_bytes. now rewrite En. }
    rewrite E, sp_reads_struct by assumption. unfold reads_all, struct_cuts. rewrite En.
    apply forallb_forall. intros [c q] Hin. cbn [fst snd]. pose proof (sp_struct_children_nil (items_of (children_of t))) as HF.
    rewrite Forall_forall in IH, HF. apply IH; [eapply in_combine_l; eauto|]. apply HF. eapply in_combine_r; eauto.
Qed.
(** A reference to default bytes reads as the default value. *)
Lemma read_default h t r : usable t -> ref_ok t r -> s_data r = default_bytes t ->
  read h t r = Ok (sp_default (h_big_endian h) t).
Proof.
  intros [Hm Hl] Hr Hd. rewrite type_len_show in Hl. rewrite read_exact; auto.
  - unfold outcome. rewrite Hd. unfold sp_default. rewrite (sp_decode_norm _ t None). cbn [norm].
    replace (sp_reads t (Some (default_bytes t))) with true; [reflexivity|].
    change (default_bytes t) with (norm t None). rewrite <- sp_reads_norm. symmetry. apply sp_reads_nil. now left.
  - unfold small, is_fixed. unfold slen. rewrite Hd. unfold default_bytes.
    destruct (size_of t); [now left|right; reflexivity].
Qed.
Lemma nth_error_seq_0 i n : i < n -> nth_error (seq 0 (N.to_nat n)) (N.to_nat i) = Some (N.to_nat i).
Proof.
  intros H. rewrite (nth_error_nth' _ 0%nat) by (rewrite seq_length; lia). rewrite seq_nth by lia. reflexivity.
Qed.
Lemma array_default_long h x s i : usable x -> sp_size x = None -> aligned (sp_align x) s ->
  len (s_data s) < 2 ^ 63 -> sp_array_near (s_data s) = true ->
  nth_error (sp_array_children (sp_align x) (s_data s)) (N.to_nat i) = Some None ->
  exists r, nfwa_index h x s i = Ok r /\ read h x r = Ok (sp_default (h_big_endian h) x).
Proof.
  intros Hu Hn Ha Hl Hnr E. pose proof Hu as [Hm _]. rewrite sp_align_of in *. rewrite sp_size_of in Hn.
  rewrite sp_array_children_map in E.
  assert (Hi : i < arr_n (s_data s)).
  { assert (H : nth_error (map (arr_cut (align_of x) (s_data s)) (indices 0 (N.to_nat (arr_n (s_data s))))) (N.to_nat i) <> None) by congruence.
    apply nth_error_Some in H. unfold indices in H. rewrite !map_length, seq_length in H. lia. }
  assert (Ec : arr_cut (align_of x) (s_data s) i = None).
  { unfold indices in E. rewrite map_map in E.
    rewrite (map_nth_error _ _ _ (nth_error_seq_0 _ _ Hi)) in E. injection E as E.
    rewrite N2Nat.id in E. exact E. }
  assert (Hp : arr_prev (s_data s) i < 2 ^ 63).
  { destruct (N.lt_ge_cases (arr_prev (s_data s) i) (2 ^ 63)) as [H|H]; [exact H|].
    rewrite (array_far (s_data s) i) in Hnr; [discriminate|apply in_indices; lia|exact H]. }
  destruct (elem_at_long h x s i Hm Ha Hn (or_introl Hp)) as [H|[_ H]]; [|lia].
  rewrite Ec in H. destruct H as (r & Er & Hr & Hd).
  exists r. rewrite nfwa_index_ok; auto; [|change (len (s_data s)) with (slen s) in Hl; unfold usize_lim; lia].
  split; [exact Er|]. apply read_default; auto. unfold default_bytes. now rewrite Hn.
Qed.
Lemma array_default_claim h x s i : usable x -> sp_size x = None -> aligned (sp_align x) s ->
  len (s_data s) < 2 ^ 32 ->
  nth_error (sp_array_children (sp_align x) (s_data s)) (N.to_nat i) = Some None ->
  exists r, nfwa_index h x s i = Ok r /\ read h x r = Ok (sp_default (h_big_endian h) x).
Proof. intros. apply array_default_long; auto; [lia|now apply small_array_near]. Qed.
Lemma struct_default_long h t s k c : usable t -> sp_is_struct t = true -> sp_size t = None ->
  aligned (sp_align t) s -> len (s_data s) < 2 ^ 63 ->
  sp_struct_near (map (fun c => (sp_align c, sp_size c)) (sp_components t)) (s_data s) = true ->
  nth_error (sp_components t) k = Some c ->
  nth_error (sp_struct_children (map (fun c => (sp_align c, sp_size c)) (sp_components t)) (s_data s)) k = Some None ->
  exists rs r, to_tuple h t s = Ok rs /\ nth_error rs k = Some r /\
    read h c r = Ok (sp_default (h_big_endian h) c).
Proof.
  intros Hu Hs Hn Ha Hl Hnr Ec En. pose proof Hu as [Hm Htl].
  assert (Hst : is_struct t) by (destruct t; try discriminate; exact I).
  assert (Hcs : sp_components t = children_of t) by (destruct t; try discriminate; reflexivity).
  rewrite Hcs in *. rewrite sp_align_of in *. rewrite sp_size_of in Hn. rewrite type_len_show in Htl.
  rewrite sp_items_of in En, Hnr.
  assert (Hr : ref_ok t s) by (split; [exact Ha|unfold size_good; rewrite Hn; destruct t; try discriminate; exact I]).
  assert (Hnf : struct_far t (s_data s) -> False).
  { intros Hf. apply struct_far_near in Hf. congruence. }
  destruct (to_tuple_long h t s Hst Hm Htl Hr Hl ltac:(tauto)) as [(rs & E & HF)|[_ Hf]]; [|tauto]. exists rs.
  unfold struct_cuts in HF. rewrite Hn in HF.
  assert (Ecomb : nth_error (combine (children_of t) (sp_struct_children (items_of (children_of t)) (s_data s))) k = Some (c, None))
    by (rewrite nth_error_combine, Ec, En; reflexivity).
  destruct (nth_error rs k) as [r|] eqn:Er.
  - exists r. split; [exact E|]. split; [reflexivity|].
    pose proof (Forall2_nth _ _ _ HF k _ _ Ecomb Er) as (H1 & H2 & H3). cbn [fst snd] in *.
    apply read_default; auto. apply usable_readable. apply usable_readable in Hu. apply (readable_child t); auto.
    eapply nth_error_In; eauto.
  - apply nth_error_None in Er. rewrite <- (Forall2_length _ _ _ HF) in Er.
    assert (H : nth_error (combine (children_of t) (sp_struct_children (items_of (children_of t)) (s_data s))) k <> None) by congruence.
    apply nth_error_Some in H. lia.
Qed.
Lemma struct_default_claim h t s k c : usable t -> sp_is_struct t = true -> sp_size t = None ->
  aligned (sp_align t) s -> len (s_data s) < 2 ^ 32 ->
  nth_error (sp_components t) k = Some c ->
  nth_error (sp_struct_children (map (fun c => (sp_align c, sp_size c)) (sp_components t)) (s_data s)) k = Some None ->
  exists rs r, to_tuple h t s = Ok rs /\ nth_error rs k = Some r /\
    read h c r = Ok (sp_default (h_big_endian h) c).
Proof. intros. apply struct_default_long; auto; [lia|now apply small_struct_near]. Qed.

(** ** C39: an array of strings with a corrupt 8-byte offset *)
Definition big_bytes (n : N) : list byte := zeros n ++ repeat xff 8 ++ num_le 8 n.
Lemma big_len n : len (big_bytes n) = n + 16.
Proof.
  unfold big_bytes. change (@len byte) with (@blen byte). rewrite !blen_app, blen_zeros.
  change (blen (num_le 8 n)) with 8. change (blen (repeat xff 8)) with 8. lia.
Qed.
Lemma le_num_le8 n : n < 2 ^ 64 -> le_num (num_le 8 n) = n.
Proof.
  intros H. rewrite num_le_to_le. transitivity (of_le (to_le 8 n)); [apply le_num_of_le|].
  rewrite of_le_to_le. apply N.mod_small. exact H.
Qed.
Lemma big_drop n k : drop (n + k) (big_bytes n) = drop k (repeat xff 8 ++ num_le 8 n).
Proof. unfold big_bytes. rewrite drop_app_ge by (rewrite blen_zeros; lia). rewrite blen_zeros. f_equal. lia. Qed.
Lemma big_refuted h n a : h_overflow_checks h = true -> 2 ^ 32 <= n -> n + 16 < 2 ^ 63 ->
  decode h (TA TS) (Slice a (big_bytes n)) = Crash POverflow.
Proof.
  intros Ho Hn Hn2. set (s := Slice a (big_bytes n)).
  assert (Hbl : blen (big_bytes n) = n + 16) by apply big_len.
  assert (Hw : arr_width (big_bytes n) = 8).
  { unfold arr_width. rewrite Hbl. unfold sp_width.
    replace (n + 16 =? 0) with false by lia. replace (n + 16 <? 2 ^ 8) with false by lia.
    replace (n + 16 <? 2 ^ 16) with false by lia. replace (n + 16 <? 2 ^ 32) with false by lia. reflexivity. }
  assert (Hlast : arr_last (big_bytes n) = n).
  { unfold arr_last. rewrite Hw, Hbl, sub_take_drop. replace (n + 16 - 8) with (n + 8) by lia.
    rewrite big_drop. change (drop 8 (repeat xff 8 ++ num_le 8 n)) with (num_le 8 n).
    change (take 8 (num_le 8 n)) with (num_le 8 n). apply le_num_le8. lia. }
  assert (Hlfo : arr_lfo (big_bytes n) = n).
  { unfold arr_lfo, arr_good. rewrite Hlast, Hw, Hbl. replace (n + 16 =? 0) with false by lia.
    replace (n <=? n + 16) with true by lia. replace (n + 16 - n) with 16 by lia. reflexivity. }
  assert (Hosz : osz_n (arr_osz (big_bytes n)) = 8) by (rewrite arr_osz_width by lia; exact Hw).
  assert (Han : arr_n (big_bytes n) = 2).
  { unfold arr_n. rewrite Hlfo, Hosz, Hbl. replace (n + 16 - n) with 16 by lia. reflexivity. }
  assert (He0 : arr_end (big_bytes n) 0 = 2 ^ 64 - 1).
  { unfold arr_end. rewrite Hlfo, Hosz, sub_take_drop. rewrite N.mul_0_l, big_drop.
    change (take 8 (drop 0 (repeat xff 8 ++ num_le 8 n))) with (repeat xff 8). reflexivity. }
  unfold decode. destruct (cast_cases h (TA TS) s eq_refl) as [[_ E]|[H _]]; [apply N.mod_1_r| |elim H; exact I].
  fold cast in E. rewrite E. cbn [bind read]. unfold array_refs. cbn [size_of].
  rewrite nfwa_items_ok by (try apply N.mod_1_r; cbn [s_data s]; unfold slen, s; cbn [s_data]; rewrite Hbl; unfold usize_lim; lia).
  change (s_data s) with (big_bytes n). rewrite Han. change (indices 0 (N.to_nat 2)) with [0; 1]. cbn [mapM].
  assert (E0 : exists r, elem_at h TS s 0 = Ok r).
  { unfold elem_at, s. cbn [s_data]. change (arr_prev (big_bytes n) 0) with 0. rewrite He0, Hlfo.
    change (align_offset h (trait_align TS) 0) with (Ok 0). cbn [bind].
    replace ((0 <=? 2 ^ 64 - 1) && (2 ^ 64 - 1 <=? n)) with false by lia.
    destruct (empty_aligned_static h (trait_align TS)) as (z & -> & Hz & Hza & _); [now left|]. cbn [bind].
    rewrite cast_unwrap_empty; eauto. }
  destruct E0 as [r ->]. cbn [bind].
  assert (E1 : elem_at h TS s 1 = Crash POverflow).
  { unfold elem_at, s. cbn [s_data]. change (arr_prev (big_bytes n) 1) with (arr_end (big_bytes n) 0).
    rewrite He0. unfold align_offset, uadd. change (2 ^ 64 - 1 + trait_align TS <? usize_lim) with false.
    rewrite Ho. reflexivity. }
  rewrite E1. reflexivity.
Qed.
Lemma big_exists : exists (h : host) (s : slice),
  usable (TA TS) /\ sp_tame (TA TS) = true /\ aligned (sp_align (TA TS)) s /\ len (s_data s) < 2 ^ 63 /\
  decode h (TA TS) s = Crash POverflow.
Proof.
  exists (Host false true true 0 0), (Slice 0 (big_bytes (2 ^ 32))).
  split; [split; reflexivity|]. split; [reflexivity|]. split; [reflexivity|].
  split; [cbn [s_data]; rewrite big_len; reflexivity|]. now apply big_refuted.
Qed.

(** ** C38 *)
Lemma mut_claim h t s : usable t -> aligned (sp_align t) s ->
  (forall x, t = TA x -> sp_size x = None) ->
  exists o, try_from_aligned_slice_mut h t s = Ok o /\ try_from_aligned_slice h t s = Ok o /\
    (sp_ref_size t (len (s_data s)) -> o = Some s /\ cast h t s = Ok s) /\
    (~ sp_ref_size t (len (s_data s)) -> o = None /\ cast h t s = default_ref h t).
Proof.
  intros [Hm _] Ha Hx. rewrite sp_align_of in Ha.
  assert (E : try_from_aligned_slice_mut h t s = try_from_aligned_slice h t s).
  { destruct t as [| | | | | | | | | | | | |x|x|ts|k v]; try reflexivity.
    cbn [try_from_aligned_slice_mut]. specialize (Hx x eq_refl). rewrite sp_size_of in Hx.
    unfold is_fixed. rewrite Hx. unfold try_from_aligned_slice. cbn [size_of]. now rewrite Hx. }
  rewrite E. rewrite (try_from_ok h t s Hm Ha).
  eexists. split; [reflexivity|]. split; [reflexivity|].
  change (len (s_data s)) with (slen s). rewrite ref_size_good.
  unfold cast, from_aligned_slice. rewrite (try_from_ok h t s Hm Ha). cbn [bind].
  destruct (size_good_dec t (slen s)); split; intros H; try tauto; split; reflexivity.
Qed.
Lemma mut_todo h x s n : sp_size x = Some n -> try_from_aligned_slice_mut h (TA x) s = Crash PTodo.
Proof. intros H. rewrite sp_size_of in H. cbn [try_from_aligned_slice_mut]. unfold is_fixed. now rewrite H. Qed.

(** ** Witnesses and small facts *)
Lemma panics_array : exists (h : host) (t : ty) (s : slice),
  usable t /\ aligned (sp_align t) s /\ len (s_data s) < 2 ^ 32 /\ decode h t s = Crash PUnwrap.
Proof.
  exists (Host false false false 0 0), (TA (TA TI)), (Slice 0 [x00; x01]). repeat split; reflexivity.
Qed.
Lemma panics_maybe : exists (h : host) (t : ty) (s : slice),
  usable t /\ aligned (sp_align t) s /\ len (s_data s) < 2 ^ 32 /\ decode h t s = Crash PUnwrap /\
  exists x, t = TM x.
Proof.
  exists (Host false false false 0 0), (TM (TA TI)), (Slice 0 [x00; x01]). repeat split; try reflexivity.
  now exists (TA TI).
Qed.
Lemma fixed_index_oob h x s i n : sp_size x = Some n -> len (s_data s) / n <= i ->
  run_access h (TA x) s (AcIndex i) = Crash PIndex.
Proof.
  intros Hn Hi. rewrite sp_size_of in Hn. cbn [run_access]. rewrite Hn. unfold fixed_elem.
  change (slen s) with (len (s_data s)). now replace (i <? len (s_data s) / n) with false by lia.
Qed.
Lemma cut_none d start stop limit : cut d start stop limit = None <-> stop < start \/ limit < stop.
Proof. unfold cut. destruct (_ && _) eqn:E; split; intros H; try discriminate; try reflexivity; lia. Qed.
