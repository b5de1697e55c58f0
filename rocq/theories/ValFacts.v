(** Programs compute with values. *)
From Verif Require Import Base Types Layout AlignedBytes Strs Spec Deser Buf Histories Ser SerSpec Cmp CmpSpec Fmt FmtSpec Mut MutSpec OwnSpec Iter IterSpec
  Programs ProgSpec ValSpec
  BaseFacts TypesFacts LayoutFacts AlignedFacts Utf8Facts DeserFacts ArrayFacts StructFacts ReadFacts AccessFacts ReadClaims EqFacts CmpFacts StrFacts
  EncFacts RoundFacts SerMain SerClaims MutFacts EmptyFacts OwnClaims IterFacts ViewFacts FmtFacts MoveFacts ProgFacts.
From Coq Require Import Lia ZifyBool ZifyNat ZifyN.
Ltac Zify.zify_post_hook ::= idtac.

(** ** Which thing an object shows *)
Definition owns (h : host) (t : ty) (o : owned) (v : value) : Prop :=
  match o with
  | OCopy r => small t r /\ read h t r = Ok v
  | OStr d => slen (Slice 0 d) < 2 ^ 32 /\ v = VStr (to_str d)
  | OBuf b => exists d, holds b d /\ reads_well t d /\ v = sp_decode (h_big_endian h) t (Some d)
  end.
Definition shows (h : host) (o : obj) (th : thing) : Prop :=
  match o, th with
  | ObSlice A s, ThSlice A' d => A = A' /\ s_data s = d
  | ObVec v, ThVec d => v_data v = d
  | ObBuf b, ThBuf d => holds b d
  | ObCow A (Borrowed s), ThCow A' d => A = A' /\ s_data s = d
  | ObCow A (OwnedBuf b), ThCow A' d => A = A' /\ holds b d
  | ObView t r, ThView t' v => t = t' /\ small t r /\ read h t r = Ok v
  | ObOwned t o, ThOwned t' v => t = t' /\ owns h t o v
  | ObIter x it, ThIter x' vs => x = x' /\
      exists s j vs0, ref_good (TA x) s /\ slen s < 2 ^ 32 /\ read h (TA x) s = Ok (VArray vs0) /\
        j <= arr_n (s_data s) /\ it = iter_at s j /\ vs = skipn (N.to_nat j) vs0
  | ObGString g, ThGString s => gs_holds g s
  | ObStr s, ThStr s' => s = s'
  | _, _ => False
  end.
Lemma shows_face h o th : shows h o th -> face o = vface th.
Proof.
  destruct o as [A s|v|b|A [s|b]|t r|t o|x it|g|s], th; cbn [shows face vface]; try tauto; try (intros ->; reflexivity).
  intros [_ ->]. reflexivity.
Qed.
Lemma shows_faces h os ths : Forall2 (shows h) os ths -> map face os = map vface ths.
Proof. induction 1; cbn [map]; [reflexivity|]. f_equal; auto. eapply shows_face; eauto. Qed.
Lemma pair_get {A B} (R : A -> B -> Prop) env venv i : Forall2 R env venv ->
  match nth_error env i, nth_error venv i with
  | Some o, Some th => R o th
  | None, None => True
  | _, _ => False
  end.
Proof.
  intros H. revert i. induction H as [|o th env venv Ho H IH]; intros [|i]; cbn [nth_error]; auto.
  apply IH.
Qed.
Lemma put_shows {A B} (R : A -> B -> Prop) env venv i o th : Forall2 R env venv -> R o th ->
  Forall2 R (put env i o) (put venv i th).
Proof. intros H Ho. revert i. induction H; intros [|i]; cbn [put]; constructor; auto. Qed.
Lemma put_length {A} (env : list A) i o : length (put env i o) = length env.
Proof. revert i. induction env as [|x env IH]; intros [|i]; cbn [put length]; auto. Qed.

(** ** Reading *)
Lemma ok_is {A} (x y : A) : Ok x = Ok y -> y = x.
Proof. intros H. now injection H. Qed.
Lemma small_len t r : sp_fixed t = true \/ slen r < 2 ^ 32 <-> small t r.
Proof. unfold small. now rewrite fixed_spec. Qed.
Lemma good_read h t r : ref_good t r -> small t r -> read h t r = outcome (h_big_endian h) t (s_data r).
Proof. intros Hr Hs. apply ref_good_iff in Hr as ([Hm Hl] & Hr & _). now apply read_exact. Qed.
Lemma outcome_ok big t d v : outcome big t d = Ok v <-> sp_reads t (Some d) = true /\ v = sp_decode big t (Some d).
Proof.
  unfold outcome. destruct (sp_reads t (Some d)); split.
  - intros H. apply ok_is in H. auto.
  - intros [_ ->]. reflexivity.
  - discriminate.
  - intros [H _]. discriminate.
Qed.
Lemma good_short t r : ref_good t r -> len (s_data r) < 2 ^ 63.
Proof.
  intros (Hu & _ & Hs & [Hf|Hl]); [|exact Hl]. unfold sp_fixed in Hf. rewrite sp_size_of in Hf.
  destruct (size_of t) as [n|] eqn:En; [|discriminate]. unfold sp_ref_size in Hs. rewrite sp_size_of, En in Hs.
  apply usable_readable in Hu as [_ Hl]. apply size_of_bound in En. lia.
Qed.
Lemma good_view h t r : ref_good t r -> view h t r.
Proof.
  intros Hr. pose proof (good_short t r Hr) as Hl. pose proof Hr as (Hu & Ha & Hs & _). exists t, r. split; [exact Hu|]. split; [exact Ha|]. split; [exact Hl|].
  apply reach_cast. rewrite sp_align_of in Ha. destruct (cast_cases h t r (proj1 Hu) Ha) as [[_ E]|[Hg _]]; [exact E|].
  exfalso. apply Hg. now apply ref_size_good.
Qed.
Lemma well_cast h t s : usable t -> slice_ok (sp_align t) s ->
  ~ (s_data s = [] /\ sp_fixed t = false /\ s_addr s mod sp_align t <> 0) -> reads_well t (s_data s) ->
  exists r, cast h t s = Ok r /\ ref_good t r /\ small t r /\ read h t r = Ok (sp_decode (h_big_endian h) t (Some (s_data s))).
Proof.
  intros Hu Hs Hd [Hl Hf]. destruct (cast_closed h t s Hu Hs Hd) as (r & E & Hr). exists r. split; [exact E|]. split; [exact Hr|].
  assert (Hq : exists q, cast h t q = Ok r /\ s_data q = s_data s /\ aligned (align_of t) q).
  { destruct Hs as (HA & Ha & _). rewrite sp_align_of in *.
    destruct (N.eq_dec (s_addr s mod align_of t) 0) as [Em|Em]; [exists s; auto|].
    destruct (s_data s) as [|x d] eqn:Ed; [|exfalso; apply Em, Ha; discriminate].
    destruct (sp_fixed t) eqn:Ef; [|tauto]. rewrite fixed_spec in Ef. unfold is_fixed in Ef.
    destruct (size_of t) as [n|] eqn:En; [|discriminate]. exists (Slice 0 []). split; [|split; [reflexivity|reflexivity]].
    rewrite (cast_empty_fixed h t s n (proj1 Hu) Ed En) in E. now rewrite (cast_empty_fixed h t (Slice 0 []) n (proj1 Hu) eq_refl En). }
  destruct Hq as (q & Eq & Hdq & Haq). pose proof Hu as Hu'. apply usable_readable in Hu' as [Hm Htl].
  assert (Hlq : slen q < 2 ^ 32) by (unfold slen; rewrite Hdq; exact Hl).
  pose proof (decode_exact h t q Hm Htl Haq Hlq) as HE. unfold decode in HE. rewrite Eq in HE. cbn [bind] in HE.
  rewrite Hdq in HE. unfold outcome in HE. rewrite Hf in HE. split; [|exact HE].
  destruct (cast_ok h t q Hm Haq) as (r' & Eq' & _ & Hdr & _). rewrite Eq in Eq'. injection Eq' as <-.
  unfold small, is_fixed. destruct (size_of t) as [n|] eqn:En; [auto|right].
  unfold slen in *. rewrite Hdr. pose proof (seen_len t (s_data q) En). lia.
Qed.

(** ** Owned values *)
Lemma bytes_hold h d a1 a2 : near a1 -> near a2 -> exists b, owned_from_bytes h d a1 a2 = Ok b /\ holds b d.
Proof.
  intros H1 H2. unfold owned_from_bytes, buf_from_vec. destruct (vec_align_spec h (to_vec d a1) a2 H2 (to_vec_near d a1 H1)) as (b & E & Hh & _).
  exists b. rewrite to_vec_data in Hh. auto.
Qed.
Lemma to_owned_owns h t r a1 a2 : usable t -> sp_ref_size t (len (s_data r)) -> small t r -> sp_reads t (Some (s_data r)) = true ->
  near a1 -> near a2 ->
  exists o, to_owned h t r a1 a2 = Ok o /\ owns h t o (sp_decode (h_big_endian h) t (Some (s_data r))).
Proof.
  intros Hu Hs Hl Hrd H1 H2.
  assert (Hcopy : owns h t (OCopy (Slice (8 * a1) (s_data r))) (sp_decode (h_big_endian h) t (Some (s_data r)))).
  { assert (Hsm : small t (Slice (8 * a1) (s_data r))) by (unfold small in *; exact Hl). split; [exact Hsm|].
    apply usable_readable in Hu as [Hm Htl]. rewrite read_exact; auto.
    - cbn [s_data]. unfold outcome. now rewrite Hrd.
    - split; [|unfold slen; cbn [s_data]; now apply ref_size_good]. apply aligned_8. unfold aligned. cbn [s_addr]. rewrite N.mul_comm. apply N.mod_mul. lia. }
  destruct (size_of t) as [n|] eqn:En.
  { rewrite own_fixed by (left; congruence). eexists. split; [reflexivity|]. exact Hcopy. }
  destruct Hl as [Hl|Hl]; [unfold is_fixed in Hl; rewrite En in Hl; discriminate|].
  destruct (sp_fixed_array t) eqn:Ef.
  { rewrite own_fixed by (right; exact Ef). eexists. split; [reflexivity|]. exact Hcopy. }
  destruct (to_owned_cases h t r a1 a2 En Ef) as [Ht|E].
  - exists (OStr (to_str (s_data r) ++ [x00])). split; [destruct Ht as [->|[->| ->]]; reflexivity|]. cbn [owns].
    assert (Hle : blen (to_str (s_data r)) + 1 <= N.max 1 (blen (s_data r))).
    { unfold to_str, as_bytes_non_conformant. destruct (rev (s_data r)) as [|b l] eqn:Er; [cbn; lia|].
      assert (Hr : blen (s_data r) = blen l + 1).
      { unfold blen. rewrite <- (rev_length (s_data r)), Er. cbn [length]. lia. }
      assert (Hrl : blen (rev l) = blen l) by (unfold blen; now rewrite rev_length).
      destruct b; try (cbn; lia). destruct (has_nul (rev l)); [cbn; lia|]. destruct (valid_utf8 (rev l)); [lia|cbn; lia]. }
    split.
    + unfold slen in *. cbn [s_data]. rewrite blen_app, blen_cons, blen_nil. lia.
    + destruct (to_str_normal (to_str (s_data r)) (to_str_good (s_data r))) as [-> _]. rewrite to_str_spec.
      destruct Ht as [->|[->| ->]]; reflexivity.
  - rewrite E. destruct (bytes_hold h (s_data r) a1 a2 H1 H2) as (b & -> & Hb). cbn [bind].
    eexists. split; [reflexivity|]. cbn [owns]. exists (s_data r). split; [exact Hb|]. split; [split; assumption|reflexivity].
Qed.
Lemma well_copy h t s a3 a4 : usable t -> slice_ok (sp_align t) s -> near a3 -> near a4 ->
  ~ (s_data s = [] /\ sp_fixed_array t = true /\ s_addr s mod sp_align t <> 0) -> reads_well t (s_data s) ->
  exists o, (let* r := cast h t s in to_owned h t r a3 a4) = Ok o /\ owns h t o (sp_decode (h_big_endian h) t (Some (s_data s))).
Proof.
  intros Hu Hs H3 H4 Hd Hw.
  assert (G : ~ (s_data s = [] /\ sp_fixed t = false /\ s_addr s mod sp_align t <> 0) ->
    exists o, (let* r := cast h t s in to_owned h t r a3 a4) = Ok o /\ owns h t o (sp_decode (h_big_endian h) t (Some (s_data s)))).
  { intros Hn. destruct (well_cast h t s Hu Hs Hn Hw) as (r & -> & Hr & Hsm & E). cbn [bind].
    rewrite good_read in E by assumption. apply outcome_ok in E as [E1 E2]. rewrite E2.
    destruct Hr as (_ & _ & Hsz & _). now apply to_owned_owns. }
  destruct (s_data s) as [|x d] eqn:Ed; [|apply G; intros [H _]; discriminate].
  destruct (sp_fixed t) eqn:Ef; [apply G; intros (_ & H & _); discriminate|].
  destruct (sp_fixed_array t) eqn:Efa; [apply G; tauto|].
  unfold sp_fixed in Ef. rewrite sp_size_of in Ef. destruct (size_of t) eqn:En; [discriminate|].
  rewrite cast_var by assumption. cbn [bind]. rewrite <- Ed. apply to_owned_owns; auto.
  - apply ref_size_good. unfold size_good. rewrite En. destruct t; try exact I.
    unfold sp_fixed_array in Efa. rewrite sp_size_of in Efa. destruct (size_of t); [discriminate|exact I].
  - right. unfold slen. rewrite Ed. reflexivity.
  - rewrite Ed. apply Hw.
Qed.

(** ** Parts *)
Lemma mapM_nth {A B} (f : A -> res B) l ys i : mapM f l = Ok ys ->
  match nth_error l i, nth_error ys i with
  | Some a, Some y => f a = Ok y
  | None, None => True
  | _, _ => False
  end.
Proof.
  revert ys i. induction l as [|a l IH]; intros ys i E; cbn [mapM] in E.
  - apply ok_is in E. subst. now destruct i.
  - destruct (f a) as [y|] eqn:Ea; [|discriminate]. cbn [bind] in E. destruct (mapM f l) as [ys'|]; [|discriminate]. cbn [bind] in E.
    apply ok_is in E. subst. destruct i as [|i]; [exact Ea|]. cbn [nth_error]. now apply IH.
Qed.
Lemma indices_nth k : forall i n, nth_error (indices i k) n = if (n <? k)%nat then Some (i + N.of_nat n) else None.
Proof.
  induction k as [|k IH]; intros i n; [destruct n; reflexivity|]. rewrite indices_S. destruct n as [|n]; cbn [nth_error].
  - change (0 <? S k)%nat with true. cbn [N.of_nat]. now rewrite N.add_0_r.
  - rewrite IH. change (S n <? S k)%nat with (n <? k)%nat. destruct (n <? k)%nat; [|reflexivity]. f_equal. lia.
Qed.
(** The elements of an array of variable-size elements. *)
Lemma array_elems h x s vs : ref_good (TA x) s -> sp_fixed x = false -> slen s < 2 ^ 63 -> read h (TA x) s = Ok (VArray vs) ->
  length vs = N.to_nat (arr_n (s_data s)) /\
  forall i, match nth_error vs i with
            | Some v => N.of_nat i < arr_n (s_data s) /\ exists r, elem_at h x s (N.of_nat i) = Ok r /\ read h x r = Ok v
            | None => arr_n (s_data s) <= N.of_nat i
            end.
Proof.
  intros Hr Hf Hl E. pose proof Hr as (Hu & Ha & _). change (sp_align (TA x)) with (sp_align x) in Ha. rewrite sp_align_of in Ha.
  rewrite fixed_spec in Hf. unfold is_fixed in Hf. cbn [read] in E. unfold array_refs in E. destruct (size_of x) eqn:En; [discriminate|].
  rewrite nfwa_items_ok in E by (auto; unfold usize_lim; lia).
  destruct (mapM (elem_at h x s) _) as [rs|] eqn:Er; [|discriminate]. cbn [bind] in E.
  destruct (mapM (read h x) rs) as [ws|] eqn:Ew; [|discriminate]. cbn [bind] in E. apply ok_is in E. injection E as <-.
  split.
  - apply mapM_length in Er, Ew. rewrite Ew, Er. unfold indices. now rewrite map_length, seq_length.
  - intros i. pose proof (mapM_nth _ _ _ i Er) as H1. pose proof (mapM_nth _ _ _ i Ew) as H2. rewrite indices_nth in H1.
    destruct (nth_error vs i) as [v|].
    + destruct (nth_error rs i) as [r|]; [|contradiction]. destruct (i <? N.to_nat (arr_n (s_data s)))%nat eqn:Ei; [|contradiction].
      split; [lia|]. exists r. rewrite N.add_0_l in H1. auto.
    + destruct (nth_error rs i) as [r|]; [contradiction|]. destruct (i <? N.to_nat (arr_n (s_data s)))%nat eqn:Ei; [contradiction|]. lia.
Qed.
Lemma index_beyond h x s i : aligned (align_of x) s -> slen s < 2 ^ 63 -> arr_n (s_data s) <= i -> i < 2 ^ 60 ->
  nfwa_index h x s i = Crash PIndex.
Proof.
  intros Ha Hl Hni Hi. assert (Hl' : slen s < usize_lim) by (unfold usize_lim; lia). unfold nfwa_index. change (slen s) with (blen (s_data s)) in *.
  rewrite read_lfo_ok by assumption. cbn [bind fst snd]. pose proof (arr_lfo_le (s_data s)) as Hle.
  rewrite bs_from_ok by assumption. cbn [bind].
  assert (E : read_uint h (drop (arr_lfo (s_data s)) (s_data s)) (arr_osz (s_data s)) i = Crash PIndex).
  { pose proof (arr_osz_U0 (s_data s)) as H0. pose proof (arr_lfo_mod (s_data s)) as Hm.
    assert (Hd : blen (drop (arr_lfo (s_data s)) (s_data s)) < i * osz_n (arr_osz (s_data s)) + osz_n (arr_osz (s_data s))).
    { rewrite blen_drop, Hm. pose proof (arr_osz_pos (s_data s)) as Hp. rewrite <- N.mul_succ_l. apply N.mul_lt_mono_pos_r; lia. }
    remember (drop _ _) as D. remember (arr_osz (s_data s)) as o. clear -Hd H0 Hi.
    unfold read_uint. rewrite umul_ok by (unfold usize_lim; destruct o; cbn [osz_n]; lia). cbn [bind].
    destruct o; cbn [osz_n] in *; try congruence.
    - unfold bs_at. replace (i * 1 <? blen D) with false by (symmetry; apply N.ltb_ge; lia). reflexivity.
    - unfold uadd. replace (i * 2 + 2 <? usize_lim) with true by (symmetry; apply N.ltb_lt; unfold usize_lim; lia). cbn [bind].
      unfold bs_range. replace (i * 2 + 2 <=? blen D) with false by (symmetry; apply N.leb_gt; lia). now rewrite andb_false_r.
    - unfold uadd. replace (i * 4 + 4 <? usize_lim) with true by (symmetry; apply N.ltb_lt; unfold usize_lim; lia). cbn [bind].
      unfold bs_range. replace (i * 4 + 4 <=? blen D) with false by (symmetry; apply N.leb_gt; lia). now rewrite andb_false_r.
    - unfold uadd. replace (i * 8 + 8 <? usize_lim) with true by (symmetry; apply N.ltb_lt; unfold usize_lim; lia). cbn [bind].
      unfold bs_range. replace (i * 8 + 8 <=? blen D) with false by (symmetry; apply N.leb_gt; lia). now rewrite andb_false_r. }
  rewrite E. reflexivity.
Qed.
(** The elements of a slice. *)
Lemma slice_reads h x n s vs : usable x -> size_of x = Some n -> read h (TA x) s = Ok (VArray vs) ->
  len vs = slen s / n /\
  forall i, match nth_error vs (N.to_nat i) with
            | Some v => exists r, fixed_elem n s i = Some r /\ read h x r = Ok v
            | None => fixed_elem n s i = None
            end.
Proof.
  intros [Hm _] En E. cbn [read] in E. unfold array_refs in E. rewrite En, (mem_layout_ok x n) in E by assumption. cbn [bind] in E.
  destruct (mapM (read h x) (slice_elems n s)) as [ws|] eqn:Ew; [|discriminate]. cbn [bind] in E. apply ok_is in E. injection E as <-.
  split.
  - apply mapM_length in Ew. unfold len. rewrite Ew. unfold slice_elems. rewrite map_length, seq_length. apply N2Nat.id.
  - intros i. pose proof (mapM_nth _ _ _ (N.to_nat i) Ew) as H. unfold slice_elems in H. rewrite nth_error_map in H.
    unfold fixed_elem. destruct (i <? slen s / n) eqn:Ei.
    + rewrite (nth_error_nth' _ 0%nat), seq_nth in H by (rewrite ?seq_length; lia). cbn [option_map] in H.
      replace (N.of_nat (0 + N.to_nat i)) with i in H by lia.
      destruct (nth_error vs (N.to_nat i)) as [v|]; [|contradiction]. eexists. split; [reflexivity|exact H].
    + rewrite (proj2 (nth_error_None _ _)) in H by (rewrite seq_length; lia). cbn [option_map] in H.
      destruct (nth_error vs (N.to_nat i)); [contradiction|reflexivity].
Qed.
Lemma hd_nth {A} (l : list A) : hd_error l = nth_error l 0.
Proof. now destruct l. Qed.
Lemma rev_last {A} (l : list A) : hd_error (rev l) = match l with [] => None | _ => nth_error l (length l - 1) end.
Proof.
  induction l as [|x l IH] using rev_ind; [reflexivity|]. rewrite rev_app_distr. cbn [rev app hd_error].
  destruct (l ++ [x]) as [|y m] eqn:E; [destruct l; discriminate|]. rewrite <- E. rewrite app_length. cbn [length].
  replace (length l + 1 - 1)%nat with (length l) by lia. rewrite nth_error_app2, Nat.sub_diag by lia. reflexivity.
Qed.
Lemma nth_elem h x s : aligned (align_of x) s -> slen s < usize_lim ->
  (forall i, i < arr_n (s_data s) -> exists r, elem_at h x s i = Ok r) ->
  forall k i, i <= arr_n (s_data s) ->
  nfwa_nth h x (iter_at s i) k =
  if i + N.of_nat k <? arr_n (s_data s) then let* r := elem_at h x s (i + N.of_nat k) in Ok (Some r) else Ok None.
Proof.
  intros Ha Hl Hall. induction k as [|k IH]; intros i Hi; cbn [nfwa_nth];
    (destruct (N.eq_dec i (arr_n (s_data s))) as [->|Hne];
     [rewrite nfwa_next_end; cbn [bind fst snd]|
      rewrite nfwa_next_ok by (auto; lia); destruct (Hall i ltac:(lia)) as [r Er]; rewrite Er; cbn [bind fst snd]]).
  - replace (arr_n (s_data s) + N.of_nat 0 <? arr_n (s_data s)) with false by lia. reflexivity.
  - replace (i + N.of_nat 0) with i by lia. replace (i <? arr_n (s_data s)) with true by lia. rewrite Er. reflexivity.
  - rewrite IH by lia. replace (arr_n (s_data s) + N.of_nat k <? arr_n (s_data s)) with false by lia.
    replace (arr_n (s_data s) + N.of_nat (S k) <? arr_n (s_data s)) with false by lia. reflexivity.
  - rewrite IH by lia. replace (i + N.of_nat (S k)) with (i + 1 + N.of_nat k) by lia. reflexivity.
Qed.
Definition same_access (h : host) (m : res (option (ty * value))) (n : res (option (ty * slice))) : Prop :=
  match m with
  | Ok (Some (x, w)) => exists q, n = Ok (Some (x, q)) /\ read h x q = Ok w
  | Ok None => n = Ok None
  | Crash c => n = Crash c
  end.
Lemma access_read h t r v a : ref_good t r -> small t r -> read h t r = Ok v -> access_wf a ->
  match a with
  | AcIndex k => k < 2 ^ 60
  | AcGet x => forall d, v = VVariant (sp_show x) d -> sp_reads x (Some d) = true
  | AcSplit x => forall ts d, v = VVariant ts d -> sp_reads x (Some d) = true
  | _ => True
  end -> same_access h (vaccess (h_big_endian h) t v a) (run_access h t r a).
Proof.
  intros Hr Hs E Hw Hi. pose proof Hr as (Hu & Ha & _). pose proof (good_short t r Hr) as Hl. change (len (s_data r)) with (slen r) in Hl.
  destruct t as [| | | | | | | | | | | | |x|x|ts|k w]; try reflexivity.
  - (* variants *)
    destruct a as [| | | | | |x|x]; try (destruct v; reflexivity); destruct Hw as [Hm Hsh].
    + assert (Hux : usable x) by (split; assumption). change (sp_align TV) with 8 in Ha.
      destruct (get_claim h x r Hux Ha) as (ts & dat & o & Es & Eo & H1 & H2). cbn [run_access read] in *. rewrite Es in E. cbn [bind fst snd] in E.
      apply ok_is in E. subst v. rewrite Eo. cbn [bind]. cbn [vaccess]. rewrite sp_beq_eqb. destruct (bytes_eqb (s_data ts) (sp_show x)) eqn:Eb.
      * apply bytes_eqb_eq in Eb. destruct (H2 Eb) as (q & -> & Eq). exists q. split; [reflexivity|].
        destruct (split_claim h r Ha) as (ts' & dat' & Es' & Had & _ & Hd). rewrite Es in Es'. injection Es' as <- <-.
        assert (Hld : slen dat < 2 ^ 32).
        { destruct Hs as [Hs|Hs]; [discriminate|]. destruct Hd as [(_ & W & _)|(_ & _ & Hz & _)].
          - apply within_len in W. lia.
          - unfold slen. rewrite Hz. reflexivity. }
        assert (Had' : aligned (align_of x) dat) by now apply aligned_8.
        apply usable_readable in Hux as [_ Htl]. pose proof (decode_exact h x dat Hm Htl Had' Hld) as HE. unfold decode in HE. rewrite Eq in HE. cbn [bind] in HE.
        rewrite HE. unfold outcome. rewrite (Hi (s_data dat)); [reflexivity|]. now rewrite <- Eb.
      * apply bytes_eqb_neq in Eb. rewrite (H1 Eb). reflexivity.
    + assert (Hux : usable x) by (split; assumption). change (sp_align TV) with 8 in Ha.
      destruct (split_claim h r Ha) as (ts & dat & Es & Had & _ & Hd). cbn [run_access read] in *. rewrite Es in *. cbn [bind fst snd] in *.
      apply ok_is in E. subst v. rewrite as_aligned_8. cbn [bind vaccess].
      assert (Hld : slen dat < 2 ^ 32).
      { destruct Hs as [Hs|Hs]; [discriminate|]. destruct Hd as [(_ & W & _)|(_ & _ & Hz & _)].
        - apply within_len in W. lia.
        - unfold slen. rewrite Hz. reflexivity. }
      assert (Had' : aligned (align_of x) dat) by now apply aligned_8.
      destruct (cast_ok h x dat Hm Had') as (q & Eq & _). rewrite Eq. cbn [bind]. exists q. split; [reflexivity|].
      apply usable_readable in Hux as [_ Htl]. pose proof (decode_exact h x dat Hm Htl Had' Hld) as HE. unfold decode in HE. rewrite Eq in HE. cbn [bind] in HE.
      rewrite HE. unfold outcome. rewrite (Hi (s_data ts) (s_data dat) eq_refl). reflexivity.
  - (* arrays *)
    change (sp_align (TA x)) with (sp_align x) in Ha. rewrite sp_align_of in Ha.
    assert (Hv : exists vs, v = VArray vs).
    { cbn [read] in E. destruct (array_refs h x r); [|discriminate]. cbn [bind] in E. destruct (mapM _ _); [|discriminate]. cbn [bind] in E.
      apply ok_is in E. eauto. }
    destruct Hv as [vs ->]. pose proof (usable_item x Hu) as Hux. destruct (size_of x) as [n|] eqn:En.
    + destruct (slice_reads h x n r vs Hux En E) as [Hlen Hnth].
      destruct a as [i|k| | | | | |]; cbn [run_access vaccess]; rewrite ?En; try reflexivity.
      * specialize (Hnth i). destruct (nth_error vs (N.to_nat i)) as [v|]; [destruct Hnth as (q & -> & Hq); exists q; auto|now rewrite Hnth].
      * specialize (Hnth (N.of_nat k)). rewrite Nat2N.id in Hnth.
        destruct (nth_error vs k) as [v|]; [destruct Hnth as (q & -> & Hq); exists q; auto|now rewrite Hnth].
      * specialize (Hnth 0). rewrite hd_nth. change (N.to_nat 0) with 0%nat in Hnth.
        destruct (nth_error vs 0) as [v|]; [destruct Hnth as (q & -> & Hq); exists q; auto|now rewrite Hnth].
      * specialize (Hnth (slen r / n - 1)). rewrite <- Hlen in *. rewrite rev_last. destruct vs as [|v0 vs']; [reflexivity|].
        replace (len (v0 :: vs') =? 0) with false by (unfold len; cbn [length]; lia).
        replace (N.to_nat (len (v0 :: vs') - 1)) with (length (v0 :: vs') - 1)%nat in Hnth by (unfold len; lia).
        destruct (nth_error (v0 :: vs') _) as [v|]; [destruct Hnth as (q & -> & Hq); exists q; auto|now rewrite Hnth].
    + assert (Hf : sp_fixed x = false) by (unfold sp_fixed; now rewrite sp_size_of, En).
      destruct (array_elems h x r vs Hr Hf Hl E) as [Hlen Hnth]. assert (Hl' : slen r < usize_lim) by (unfold usize_lim; lia).
      assert (Hall : forall i, i < arr_n (s_data r) -> exists q, elem_at h x r i = Ok q).
      { intros i Hii. specialize (Hnth (N.to_nat i)). destruct (nth_error vs (N.to_nat i)) as [v|]; [|lia].
        destruct Hnth as (_ & q & Hq & _). rewrite N2Nat.id in Hq. eauto. }
      destruct a as [i|k| | | | | |]; cbn [run_access vaccess]; rewrite ?En; try reflexivity.
      * specialize (Hnth (N.to_nat i)). rewrite N2Nat.id in Hnth. destruct (nth_error vs (N.to_nat i)) as [v|].
        -- destruct Hnth as (Hii & q & Eq & Hq). rewrite nfwa_index_ok, Eq by assumption. cbn [bind]. exists q. auto.
        -- rewrite index_beyond by assumption. reflexivity.
      * specialize (Hnth k). rewrite nfwa_into_iter_ok by assumption. cbn [bind]. rewrite nth_elem by (auto; lia). rewrite N.add_0_l.
        destruct (nth_error vs k) as [v|].
        -- destruct Hnth as (Hii & q & Eq & Hq). replace (N.of_nat k <? arr_n (s_data r)) with true by lia. rewrite Eq. cbn [bind]. exists q. auto.
        -- replace (N.of_nat k <? arr_n (s_data r)) with false by lia. reflexivity.
      * specialize (Hnth 0%nat). rewrite hd_nth. unfold nfwa_first, nfwa_is_empty. rewrite nfwa_len_ok by assumption. cbn [bind].
        destruct (nth_error vs 0) as [v|].
        -- destruct Hnth as (Hii & q & Eq & Hq). change (N.of_nat 0) with 0 in *. replace (arr_n (s_data r) =? 0) with false by lia.
           rewrite nfwa_index_ok, Eq by assumption. cbn [bind]. exists q. auto.
        -- replace (arr_n (s_data r) =? 0) with true by lia. reflexivity.
      * specialize (Hnth (length vs - 1)%nat). rewrite rev_last. unfold nfwa_last, nfwa_is_empty. rewrite nfwa_len_ok by assumption. cbn [bind].
        destruct vs as [|v0 vs'].
        -- replace (arr_n (s_data r) =? 0) with true by (cbn [length] in Hlen; lia). reflexivity.
        -- destruct (nth_error (v0 :: vs') _) as [v|] eqn:Ev; [|apply nth_error_None in Ev; cbn [length] in *; lia].
           destruct Hnth as (Hii & q & Eq & Hq). replace (arr_n (s_data r) =? 0) with false by lia. rewrite usub_ok by lia. cbn [bind].
           replace (arr_n (s_data r) - 1) with (N.of_nat (length (v0 :: vs') - 1)) by lia.
           rewrite nfwa_index_ok, Eq by assumption. cbn [bind]. exists q. auto.
  - (* maybes *)
    destruct a; try (destruct v; reflexivity). cbn [read run_access] in *. destruct (to_option h x r) as [[q|]|]; [| |discriminate]; cbn [bind] in *.
    + destruct (read h x q) as [w|] eqn:Eq; [|discriminate]. cbn [bind] in E. apply ok_is in E. subst v. exists q. auto.
    + apply ok_is in E. subst v. reflexivity.
  - (* structures *)
    set (t := TTuple ts) in *. assert (Hst : is_struct t) by exact I.
    assert (G : forall k, a = AcItem k -> same_access h (vaccess (h_big_endian h) t v a) (run_access h t r a)).
    { intros k ->. rewrite read_struct_any in E by (auto; apply Hu). cbn [run_access vaccess t]. fold t.
      destruct (to_tuple h t r) as [rs|] eqn:Er; [|discriminate]. cbn [bind] in *.
      destruct (mapM _ _) as [vs|] eqn:Ev; [|discriminate]. cbn [bind] in E. apply ok_is in E. subst v.
      change (sp_components t) with (children_of t). pose proof (to_tuple_length h t r rs Hst (proj1 Hu) Er) as Hlen.
      pose proof (mapM_nth _ _ _ k Ev) as H. cbv beta in H. cbn [vaccess].
      assert (Hc : nth_error (combine (children_of t) rs) k = match nth_error (children_of t) k, nth_error rs k with Some c, Some q => Some (c, q) | _, _ => None end).
      { clear -Hlen. revert k rs Hlen. induction (children_of t) as [|c cs IH]; intros [|k] [|q rs] Hlen; cbn [combine nth_error length] in *; try discriminate; try reflexivity.
        apply IH. lia. }
      rewrite Hc in H. change (match nth_error (children_of t) k with Some x => of_type x (nth_error vs k) | None => None end)
        with (match nth_error (children_of t) k with Some x => of_type x (nth_error vs k) | None => None end).
      destruct (nth_error (children_of t) k) as [c|] eqn:Ec; [|reflexivity].
      destruct (nth_error rs k) as [q|] eqn:Eq.
      - destruct (nth_error vs k) as [w|]; [|contradiction]. exists q. auto.
      - apply nth_error_None in Eq. assert (nth_error (children_of t) k <> None) by congruence. apply nth_error_Some in H0. lia. }
    destruct a; try (destruct v; reflexivity). now apply (G k).
  - set (t := TDict k w) in *. assert (Hst : is_struct t) by exact I.
    assert (G : forall k, a = AcItem k -> same_access h (vaccess (h_big_endian h) t v a) (run_access h t r a)).
    { intros j ->. rewrite read_struct_any in E by (auto; apply Hu). cbn [run_access vaccess t]. fold t.
      destruct (to_tuple h t r) as [rs|] eqn:Er; [|discriminate]. cbn [bind] in *.
      destruct (mapM _ _) as [vs|] eqn:Ev; [|discriminate]. cbn [bind] in E. apply ok_is in E. subst v.
      change (sp_components t) with (children_of t). pose proof (to_tuple_length h t r rs Hst (proj1 Hu) Er) as Hlen.
      pose proof (mapM_nth _ _ _ j Ev) as H. cbv beta in H. cbn [vaccess].
      assert (Hc : nth_error (combine (children_of t) rs) j = match nth_error (children_of t) j, nth_error rs j with Some c, Some q => Some (c, q) | _, _ => None end).
      { clear -Hlen. revert j rs Hlen. induction (children_of t) as [|c cs IH]; intros [|j] [|q rs] Hlen; cbn [combine nth_error length] in *; try discriminate; try reflexivity.
        apply IH. lia. }
      rewrite Hc in H. 
      destruct (nth_error (children_of t) j) as [c|] eqn:Ec; [|reflexivity].
      destruct (nth_error rs j) as [q|] eqn:Eq.
      - destruct (nth_error vs j) as [y|]; [|contradiction]. exists q. auto.
      - apply nth_error_None in Eq. assert (nth_error (children_of t) j <> None) by congruence. apply nth_error_Some in H0. lia. }
    destruct a; try (destruct v; reflexivity). now apply (G k0).
Qed.
Lemma access_shows h t r v a : ref_good t r -> small t r -> read h t r = Ok v -> access_wf a ->
  match a with
  | AcIndex k => k < 2 ^ 60
  | AcGet x => forall d, v = VVariant (sp_show x) d -> sp_reads x (Some d) = true
  | AcSplit x => forall ts d, v = VVariant ts d -> sp_reads x (Some d) = true
  | _ => True
  end ->
  match vaccess (h_big_endian h) t v a with
  | Ok (Some (x, w)) => exists q, run_access h t r a = Ok (Some (x, q)) /\ small x q /\ read h x q = Ok w
  | Ok None => run_access h t r a = Ok None
  | Crash c => run_access h t r a = Crash c
  end.
Proof.
  intros Hr Hs E Hw Hi. pose proof (access_read h t r v a Hr Hs E Hw Hi) as H. unfold same_access in H.
  destruct (vaccess (h_big_endian h) t v a) as [[[x w]|]|c]; auto. destruct H as (q & Eq & Hq). exists q. split; [exact Eq|]. split; [|exact Hq].
  apply ref_good_iff in Hr as (H1 & H2 & H3). pose proof (access_safe h t r a H1 H2 H3 Hw) as HA. rewrite Eq in HA.
  destruct HA as (A1 & A2 & A3 & A4). unfold small in *. destruct (is_fixed x) eqn:Ef; [auto|right].
  pose proof (placed_len h x r q A3 A2 Ef). destruct Hs as [Hs|Hs]; [apply A4 in Hs; discriminate|lia].
Qed.
(** ** Hashing *)
Lemma integer_bytes h x q v : sp_integer x = true -> ref_ok x q -> read h x q = Ok v -> s_data q = sp_encode (h_big_endian h) x v.
Proof.
  intros Hx Hq E. assert (Hu : usable x) by (destruct x; try discriminate; split; reflexivity).
  assert (Hn : exists n, size_of x = Some n /\ n <= 8) by (destruct x; try discriminate; eexists; split; try reflexivity; lia).
  destruct Hn as (n & En & Hn8). pose proof Hq as [Ha Hg]. assert (Hgl : slen q = n) by (unfold size_good in Hg; now rewrite En in Hg).
  assert (Ht : sp_typed x v).
  { apply (decode_typed h x q v Hu).
    - now rewrite sp_align_of.
    - change (slen q < 2 ^ 63). lia.
    - unfold decode. destruct (cast_cases h x q (proj1 Hu) Ha) as [[_ ->]|[Hc _]]; [exact E|contradiction]. }
  assert (Hel : len (sp_encode (h_big_endian h) x v) < 2 ^ 64).
  { assert (Hk : forall k z, len (sp_int (h_big_endian h) k z) = N.of_nat k).
    { intros k z. unfold sp_int, len. destruct (h_big_endian h); rewrite ?rev_length; f_equal; generalize (Z.to_N (z mod 2 ^ (8 * Z.of_nat k)));
        induction k as [|k IH]; intros m; cbn [num_le length]; auto. }
    destruct x; try discriminate; destruct v; try contradiction; unfold sp_encode; cbn [sp_bytes]; rewrite Hk; reflexivity. }
  destruct (encode_back (h_big_endian h) x v Ht Hel) as (B1 & B2 & B3).
  set (e := Slice 0 (sp_encode (h_big_endian h) x v)).
  assert (He : ref_ok x e) by (split; [unfold aligned; cbn [s_addr e]; apply N.mod_0_l; destruct x; discriminate|exact B3]).
  apply (int_bytes h x q e v v Hx Hq He E); [|reflexivity]. apply usable_readable in Hu as [Hm Htl]. rewrite read_exact; auto.
  - cbn [s_data e]. unfold outcome. now rewrite B1, B2.
  - left. unfold is_fixed. now rewrite En.
Qed.
