(** Every accessor, on any bytes of any length: memory safety, placement, and
    which panics are possible. *)
From Verif Require Import Base Types Layout AlignedBytes Strs Spec Deser Histories
  BaseFacts TypesFacts LayoutFacts AlignedFacts Utf8Facts DeserFacts ArrayFacts StructFacts ReadFacts.
From Coq Require Import Lia ZifyBool ZifyNat ZifyN.
Ltac Zify.zify_post_hook ::= Z.div_mod_to_equations.

Lemma show_display t : sp_show t = display t.
Proof.
  induction t using ty_ind'; try reflexivity; cbn [sp_show display].
  - now rewrite IHt.
  - now rewrite IHt.
  - cbn [app]. f_equal. f_equal. induction H as [|t ts Ht _ IH]; [reflexivity|].
    cbn [flat_map map concat]. now rewrite Ht, IH.
  - cbn [app]. now rewrite IHt1, IHt2.
Qed.
Lemma type_len_show t : len (sp_show t) = type_len t.
Proof. unfold type_len. now rewrite show_display. Qed.
Lemma ref_size_good t n : sp_ref_size t n <-> size_good t n.
Proof.
  unfold sp_ref_size, size_good. rewrite sp_size_of. destruct (size_of t); [reflexivity|].
  destruct t; try reflexivity. rewrite sp_size_of. reflexivity.
Qed.
Lemma not_good_multi x n : size_of x = None -> ~ size_good x n -> sp_multi x = true.
Proof.
  intros Hn H. unfold size_good in H. rewrite Hn in H. destruct x; try tauto. cbn [sp_multi].
  rewrite sp_size_of. destruct (size_of x) as [m|]; [|tauto]. destruct (m =? 1) eqn:E; [|reflexivity].
  apply N.eqb_eq in E. subst. rewrite N.mod_1_r in H. tauto.
Qed.

(** A length every reference obtained from a buffer satisfies. *)
Lemma placed_len h t s r : placed h t s r -> ref_ok t r -> is_fixed t = false -> slen r <= slen s.
Proof.
  intros [(b & e & Hbe & He & ->)|[_ Hd]] _ Hf.
  - rewrite slen_part by assumption. lia.
  - rewrite sp_size_of in Hd. unfold is_fixed in Hf. destruct (size_of t); [discriminate|].
    unfold slen. rewrite Hd. cbn [blen length N.of_nat]. lia.
Qed.

(** What may go wrong. *)
Definition bad (h : host) (t : ty) (n : N) (c : crash) : Prop :=
  (c = PUnwrap /\ sp_tame t = false) \/ (c = POverflow /\ h_overflow_checks h = true /\ 2 ^ 32 <= n).
Definition good_elem (h : host) (t x : ty) (s r : slice) : Prop :=
  ref_ok x r /\ placed h x s r.

Lemma elem_at_safe h x s i : macro_ok x = true -> aligned (align_of x) s -> size_of x = None ->
  match elem_at h x s i with
  | Ok r => good_elem h (TA x) x s r
  | Crash c => bad h (TA x) (slen s) c
  end.
Proof.
  intros Hm Ha Hn. destruct (elem_at_cases h x s i Hm Ha Hn) as [(r & -> & Hr & Hp)|[[-> (n & Hg)]|(-> & Ho & Hl)]].
  - split; assumption.
  - left. split; [reflexivity|]. cbn [sp_tame]. now rewrite (not_good_multi x n).
  - right. auto.
Qed.

Lemma read_uint_cases h d o n : n < usize_lim -> blen d < usize_lim ->
  (exists v, read_uint h d o n = Ok v /\ v < usize_lim) \/
  read_uint h d o n = Crash PIndex \/
  (read_uint h d o n = Crash POverflow /\ h_overflow_checks h = true).
Proof.
  intros Hn Hd. unfold read_uint.
  destruct (umul h n (osz_n o)) as [s|c] eqn:Em.
  2:{ right; right. unfold umul in Em. destruct (_ <? _) in Em; [discriminate|].
      destruct (h_overflow_checks h); [|discriminate]. injection Em as <-. auto. }
  assert (Hs : s < usize_lim).
  { unfold umul in Em. destruct (_ <? _) eqn:E in Em; [injection Em as <-; now apply N.ltb_lt|].
    destruct (h_overflow_checks h); [discriminate|]. injection Em as <-. apply N.mod_lt. discriminate. }
  cbn [bind].
  assert (Hr : forall k, k <= 8 ->
    (exists v, (let* e := uadd h s k in let* bs := bs_range d s e in Ok (of_le bs)) = Ok v /\ v < usize_lim) \/
    (let* e := uadd h s k in let* bs := bs_range d s e in Ok (of_le bs)) = Crash PIndex \/
    ((let* e := uadd h s k in let* bs := bs_range d s e in Ok (of_le bs)) = Crash POverflow /\ h_overflow_checks h = true)).
  { intros k Hk. unfold uadd. destruct (s + k <? usize_lim) eqn:E.
    - cbn [bind]. unfold bs_range. destruct (_ && _) eqn:E2; cbn [bind]; [|auto].
      left. eexists. split; [reflexivity|]. eapply N.lt_le_trans; [apply of_le_bound|].
      change usize_lim with (256 ^ 8). apply N.pow_le_mono_r; [lia|].
      rewrite blen_drop, blen_take. lia.
    - destruct (h_overflow_checks h); [right; right; auto|]. cbn [bind]. unfold bs_range.
      replace (s <=? (s + k) mod usize_lim) with false; [cbn [andb bind]; auto|].
      symmetry. apply N.leb_gt. apply N.ltb_ge in E.
      assert (Hm : (s + k) mod usize_lim = s + k - usize_lim).
      { symmetry. apply (N.mod_unique _ _ 1); unfold usize_lim in *; lia. }
      rewrite Hm. unfold usize_lim in *. lia. }
  destruct o; try (apply Hr; lia).
  - left. exists 0. split; [reflexivity|]. reflexivity.
  - unfold bs_at. destruct (s <? blen d); cbn [bind]; [|auto].
    destruct (nth_error d (N.to_nat s)); cbn [bind]; [|auto]. left. eexists. split; [reflexivity|].
    pose proof (b2n_lt b). unfold usize_lim. lia.
Qed.

(** [a[i]] for any number i whatsoever. *)
Lemma nfwa_index_safe h x s i : macro_ok x = true -> aligned (align_of x) s -> size_of x = None ->
  slen s < usize_lim -> i < usize_lim ->
  match nfwa_index h x s i with
  | Ok r => good_elem h (TA x) x s r
  | Crash c => c = PIndex \/ (c = PUnwrap /\ sp_tame (TA x) = false) \/ (c = POverflow /\ h_overflow_checks h = true)
  end.
Proof.
  intros Hm Ha Hn Hl Hi. unfold nfwa_index. change (slen s) with (blen (s_data s)) in *.
  rewrite read_lfo_ok by assumption. cbn [bind fst snd]. pose proof (arr_lfo_le (s_data s)) as Hle.
  rewrite bs_from_ok by assumption. cbn [bind].
  set (fo := drop (arr_lfo (s_data s)) (s_data s)).
  assert (Hfo : blen fo < usize_lim) by (unfold fo; rewrite blen_drop; lia).
  destruct (read_uint_cases h fo (arr_osz (s_data s)) i Hi Hfo) as [(e & -> & He)|[->|[-> Ho]]]; cbn [bind]; auto.
  assert (Hprev : exists m, (if i =? 0 then Ok 0 else let* i' := usub h i 1 in read_uint h fo (arr_osz (s_data s)) i') = m /\
    ((exists p, m = Ok p /\ p < usize_lim) \/ m = Crash PIndex \/ (m = Crash POverflow /\ h_overflow_checks h = true))).
  { eexists. split; [reflexivity|]. destruct (i =? 0) eqn:E0.
    - left. exists 0. split; reflexivity.
    - apply N.eqb_neq in E0. rewrite usub_ok by lia. cbn [bind]. apply read_uint_cases; lia. }
  destruct Hprev as (m & Em & Hc). rewrite Em. clear Em.
  destruct Hc as [(p & -> & Hp)|[->|[-> Ho]]]; cbn [bind]; auto.
  destruct (align_offset_calm h (trait_align x) p) as [(st & -> & Hst)|(-> & Ho & _)]; auto with al.
  cbn [bind]. rewrite trait_align_of in *.
  destruct ((st <? blen (s_data s)) && (e <=? arr_lfo (s_data s)) && (st <=? e)) eqn:E.
  - rewrite ix_to_from_k; auto with al; try (unfold slen; lia).
    assert (Hpa : aligned (align_of x) (part s st e)) by (apply aligned_part; auto with al).
    rewrite cast_unwrap_cases by assumption. destruct (size_good_dec x _) as [Hg|Hg].
    + split; [split; assumption|]. left. exists st, e. unfold slen. repeat split; lia.
    + right; left. split; [reflexivity|]. cbn [sp_tame]. now rewrite (not_good_multi x (slen (part s st e))).
  - destruct (empty_aligned_static h (align_of x)) as (z & -> & Hz & Hza & Hzs); auto with al.
    cbn [bind]. rewrite cast_unwrap_empty by assumption. split.
    + split; [assumption|]. unfold size_good, slen. rewrite Hn, Hz. destruct x; auto.
      destruct (size_of x) as [k|] eqn:Ek; [|exact I]. apply size_of_props in Ek as [Ek _].
      cbn [blen length N.of_nat]. apply N.mod_0_l. lia.
    + apply placed_static; [assumption|]. unfold default_bytes. now rewrite Hn.
  - cbn [bind]. auto.
Qed.

Lemma nfwa_nth_safe h x s : macro_ok x = true -> aligned (align_of x) s -> size_of x = None ->
  slen s < usize_lim -> forall k i, i <= arr_n (s_data s) ->
  match nfwa_nth h x (iter_at s i) k with
  | Ok (Some r) => good_elem h (TA x) x s r
  | Ok None => True
  | Crash c => bad h (TA x) (slen s) c
  end.
Proof.
  intros Hm Ha Hn Hl. induction k as [|k IH]; intros i Hi; cbn [nfwa_nth];
    (destruct (N.eq_dec i (arr_n (s_data s))) as [->|Hne];
     [rewrite nfwa_next_end; cbn [bind fst snd]|
      rewrite nfwa_next_ok by (auto; lia); pose proof (elem_at_safe h x s i Hm Ha Hn) as He;
      destruct (elem_at h x s i) as [r|c]; cbn [bind fst snd]; [|exact He]]).
  - exact I.
  - exact He.
  - apply IH. lia.
  - apply IH. lia.
Qed.

Lemma nfwa_first_safe h x s : macro_ok x = true -> aligned (align_of x) s -> size_of x = None ->
  slen s < usize_lim ->
  match nfwa_first h x s with
  | Ok (Some r) => good_elem h (TA x) x s r
  | Ok None => True
  | Crash c => bad h (TA x) (slen s) c
  end.
Proof.
  intros Hm Ha Hn Hl. unfold nfwa_first, nfwa_is_empty. rewrite nfwa_len_ok by assumption. cbn [bind].
  destruct (arr_n (s_data s) =? 0) eqn:E; [exact I|]. apply N.eqb_neq in E.
  rewrite nfwa_index_ok by (auto; lia). pose proof (elem_at_safe h x s 0 Hm Ha Hn) as He.
  destruct (elem_at h x s 0); exact He.
Qed.
Lemma nfwa_last_safe h x s : macro_ok x = true -> aligned (align_of x) s -> size_of x = None ->
  slen s < usize_lim ->
  match nfwa_last h x s with
  | Ok (Some r) => good_elem h (TA x) x s r
  | Ok None => True
  | Crash c => bad h (TA x) (slen s) c
  end.
Proof.
  intros Hm Ha Hn Hl. unfold nfwa_last, nfwa_is_empty. rewrite nfwa_len_ok by assumption. cbn [bind].
  destruct (arr_n (s_data s) =? 0) eqn:E; [exact I|]. apply N.eqb_neq in E.
  rewrite usub_ok by lia. cbn [bind].
  rewrite nfwa_index_ok by (auto; lia). pose proof (elem_at_safe h x s (arr_n (s_data s) - 1) Hm Ha Hn) as He.
  destruct (elem_at h x s (arr_n (s_data s) - 1)); exact He.
Qed.

Lemma fixed_elem_safe h x n s i : size_of x = Some n -> ref_ok (TA x) s ->
  match fixed_elem n s i with
  | Some r => good_elem h (TA x) x s r
  | None => True
  end.
Proof.
  intros Hn Hr. unfold fixed_elem. destruct (i <? slen s / n) eqn:E; [|exact I]. apply N.ltb_lt in E.
  destruct (slice_elems_ok x n s Hn Hr) as [_ HF]. rewrite Forall_forall in HF.
  assert (Hin : In (slice_elem n s i) (slice_elems n s)).
  { unfold slice_elems. apply in_map_iff. exists (N.to_nat i). split; [now rewrite N2Nat.id|].
    apply in_seq. lia. }
  destruct (HF _ Hin) as [H1 H2]. split; [assumption|]. left. exact H2.
Qed.

(** What a type looks like to the accessors. *)
Definition readable (t : ty) : Prop := macro_ok t = true /\ type_len t < 2 ^ 32.
Lemma readable_child t c : is_struct t -> readable t -> In c (children_of t) -> readable c.
Proof.
  intros Hs [Hm Hl] Hc. split; [eapply macro_ok_child; eauto|]. pose proof (child_len t c Hs Hc). lia.
Qed.
Lemma readable_part t x : t = TA x \/ t = TM x -> readable t -> readable x.
Proof.
  intros H [Hm Hl]. split; [eapply macro_ok_parts; eauto|]. rewrite (type_len_parts t x) in Hl by assumption. lia.
Qed.

Definition short (t : ty) (s : slice) : Prop := is_fixed t = true \/ slen s < 2 ^ 63.
Lemma to_tuple_short h t s : is_struct t -> readable t -> ref_ok t s -> short t s ->
  (exists rs, to_tuple h t s = Ok rs /\
    Forall2 (fun c r => ref_ok c r /\ placed h c s r) (children_of t) rs) \/
  (to_tuple h t s = Crash POverflow /\ h_overflow_checks h = true /\ 2 ^ 32 <= slen s).
Proof.
  intros Hs [Hm Htl] Hr Hsh. apply to_tuple_safe; auto. destruct Hsh as [Hf|Hsh]; [|exact Hsh].
  unfold is_fixed in Hf. destruct (size_of t) as [n|] eqn:En; [|discriminate].
  destruct Hr as [_ Hg]. unfold size_good in Hg. rewrite En in Hg. apply size_of_bound in En. lia.
Qed.

Lemma Forall2_nth {A B} (P : A -> B -> Prop) l l' : Forall2 P l l' -> forall k x y,
  nth_error l k = Some x -> nth_error l' k = Some y -> P x y.
Proof.
  intros H. induction H; intros [|k] a b Ha Hb; cbn in Ha, Hb; try discriminate.
  - now inversion Ha; inversion Hb; subst.
  - eauto.
Qed.
Lemma nth_error_combine {A B} (l : list A) (l' : list B) k :
  nth_error (combine l l') k = match nth_error l k, nth_error l' k with Some a, Some b => Some (a, b) | _, _ => None end.
Proof.
  revert l' k. induction l as [|a l IH]; intros [|b l'] [|k]; cbn [combine nth_error]; try reflexivity.
  - now destruct (nth_error l k).
  - apply IH.
Qed.
Lemma access_struct h t s a : is_struct t -> readable t -> ref_ok t s -> short t s ->
  match run_access h t s a with
  | Ok None => True
  | Ok (Some (t2, r)) => readable t2 /\ ref_ok t2 r /\ placed h t2 s r /\ (is_fixed t = true -> is_fixed t2 = true)
  | Crash c => bad h t (slen s) c \/
               (exists i, a = AcIndex i /\ (c = PIndex \/ (c = POverflow /\ h_overflow_checks h = true)))
  end.
Proof.
  intros Hs Hrd Hr Hsh.
  assert (E : forall k, run_access h t s (AcItem k) =
    (let* rs := to_tuple h t s in
     Ok (match nth_error (children_of t) k, nth_error rs k with
         | Some x, Some r => Some (x, r)
         | _, _ => None
         end))) by (destruct t; try contradiction; reflexivity).
  destruct a as [i|k| | | |k|y|y]; try (destruct t; try contradiction; exact I).
  rewrite E. destruct (to_tuple_short h t s Hs Hrd Hr Hsh) as [(rs & -> & HF)|(-> & Ho & Hl)]; cbn [bind].
  - destruct (nth_error (children_of t) k) as [x|] eqn:Ex; [|exact I].
    destruct (nth_error rs k) as [r|] eqn:Er; [|exact I].
    assert (H2 : ref_ok x r /\ placed h x s r).
    { eapply (Forall2_nth _ _ _ HF); eauto. }
    destruct H2 as [H1 H2]. split; [apply (readable_child t); auto; eapply nth_error_In; eauto|].
    split; [exact H1|]. split; [exact H2|]. intros Hf. unfold is_fixed in Hf.
    destruct (size_of t) as [n|] eqn:En; [|discriminate]. pose proof (fixed_children t n Hs En) as HA.
    rewrite Forall_forall in HA. apply HA. eapply nth_error_In; eauto.
  - left. right. auto.
Qed.

Lemma access_safe h t s a : readable t -> ref_ok t s -> short t s -> access_wf a ->
  match run_access h t s a with
  | Ok None => True
  | Ok (Some (t2, r)) => readable t2 /\ ref_ok t2 r /\ placed h t2 s r /\ (is_fixed t = true -> is_fixed t2 = true)
  | Crash c => bad h t (slen s) c \/
               (exists i, a = AcIndex i /\ (c = PIndex \/ (c = POverflow /\ h_overflow_checks h = true)))
  end.
Proof.
  intros Hrd Hr Hsh Hwf.
  destruct t as [| | | | | | | | | | | | |x|x|ts|k v]; try exact I.
  - (* variant *) destruct Hsh as [Hf|Hsh]; [discriminate|]. destruct Hr as [Ha _].
    destruct (variant_split_ok h s Ha) as (tstr & dat & Esp & Hda & _ & Hpl).
    destruct a as [i|k| | | |k|x|x]; try exact I; cbn [run_access access_wf] in *.
    all: rewrite type_len_show in Hwf; destruct Hwf as [Hmx Hlx].
    all: assert (Hal : as_aligned 8 (trait_align x) dat = Ok dat /\ aligned (align_of x) dat)
      by (unfold as_aligned, aligned_to; rewrite trait_align_of;
          assert (H8 : align_of x <= 8) by (pose proof (align_of_alignment x) as HA; destruct HA as [->|[->|[->| ->]]]; lia);
          replace (align_of x <=? 8) with true by lia; split; [reflexivity|];
          apply (aligned_le _ 8); auto with al; right; right; right; reflexivity).
    all: destruct Hal as [Eas Hax]; destruct (cast_ok h x dat Hmx Hax) as (r & Er & Hrr & Hd & Hp).
    all: assert (Hplaced : placed h x s r) by
      (destruct Hp as [->|[Hp Hpd]]; [|apply placed_static; assumption];
       destruct Hpl as [[_ Hw]|(_ & Hst & Hnil)]; [left; exact Hw|];
       apply placed_static; [assumption|]; unfold default_bytes;
       destruct Hrr as [_ Hg]; unfold size_good in Hg;
       destruct (size_of x) as [n|] eqn:En; [|exact Hnil];
       apply size_of_props in En as [En _]; unfold slen in Hg; rewrite Hnil in Hg; cbn in Hg; lia).
    + unfold variant_get. rewrite Esp. cbn [bind fst snd]. destruct (bytes_eqb _ _); [|exact I].
      rewrite Eas. cbn [bind]. rewrite Er. cbn [bind]. repeat split; auto; try apply Hrr. discriminate.
    + rewrite Esp. cbn [bind fst snd]. rewrite Eas. cbn [bind]. rewrite Er. cbn [bind].
      repeat split; auto; try apply Hrr. discriminate.
  - (* array *) pose proof Hr as [Ha Hg].
    change (align_of (TA x)) with (align_of x) in Ha.
    pose proof (readable_part _ x (or_introl eq_refl) Hrd) as Hx. pose proof Hx as [Hm _].
    destruct Hsh as [Hf|Hsh]; [discriminate|]. assert (Hl : slen s < usize_lim) by (unfold usize_lim; lia).
    destruct (size_of x) as [n|] eqn:En.
    + assert (Hfe : forall i, match fixed_elem n s i with
        | Some r => readable x /\ ref_ok x r /\ placed h x s r /\ (is_fixed (TA x) = true -> is_fixed x = true)
        | None => True end).
      { intros i. pose proof (fixed_elem_safe h x n s i En Hr) as H. destruct (fixed_elem n s i); [|exact I].
        destruct H as [H1 H2]. split; [exact Hx|]. split; [exact H1|]. split; [exact H2|]. discriminate. }
      destruct a as [i|k| | | |k|y|y]; try exact I; cbn [run_access]; rewrite En; cbn [bind].
      * specialize (Hfe i). destruct (fixed_elem n s i); [exact Hfe|]. right. eauto.
      * specialize (Hfe (N.of_nat k)). destruct (fixed_elem n s (N.of_nat k)); [exact Hfe|]. exact I.
      * specialize (Hfe 0). destruct (fixed_elem n s 0); [exact Hfe|]. exact I.
      * destruct (slen s / n =? 0); [exact I|]. specialize (Hfe (slen s / n - 1)).
        destruct (fixed_elem n s (slen s / n - 1)); [exact Hfe|]. exact I.
    + destruct a as [i|k| | | |k|y|y]; try exact I; cbn [run_access]; rewrite En.
      * pose proof (nfwa_index_safe h x s i Hm Ha En Hl Hwf) as H.
        destruct (nfwa_index h x s i); cbn [bind].
        -- destruct H. repeat split; auto; try apply Hx; try apply H. discriminate.
        -- destruct H as [->|[[-> H]|[-> H]]].
           ++ right. eauto.
           ++ left. left. auto.
           ++ right. eauto.
      * rewrite nfwa_into_iter_ok by assumption. cbn [bind].
        pose proof (nfwa_nth_safe h x s Hm Ha En Hl k 0 (N.le_0_l _)) as H.
        destruct (nfwa_nth h x (iter_at s 0) k) as [[r|]|c]; cbn [bind]; [|exact I|left; exact H].
        destruct H as [H1 H2]. split; [exact Hx|]. split; [exact H1|]. split; [exact H2|]. discriminate.
      * pose proof (nfwa_first_safe h x s Hm Ha En Hl) as H.
        destruct (nfwa_first h x s) as [[r|]|c]; cbn [bind]; [|exact I|left; exact H].
        destruct H as [H1 H2]. split; [exact Hx|]. split; [exact H1|]. split; [exact H2|]. discriminate.
      * pose proof (nfwa_last_safe h x s Hm Ha En Hl) as H.
        destruct (nfwa_last h x s) as [[r|]|c]; cbn [bind]; [|exact I|left; exact H].
        destruct H as [H1 H2]. split; [exact Hx|]. split; [exact H1|]. split; [exact H2|]. discriminate.
  - (* maybe *) destruct a; try exact I. cbn [run_access]. destruct Hr as [Ha Hg].
    change (align_of (TM x)) with (align_of x) in Ha.
    pose proof (readable_part _ x (or_intror eq_refl) Hrd) as Hx. pose proof Hx as [Hm _].
    destruct (size_of x) as [n|] eqn:En.
    + rewrite (to_option_fixed h x s n) by assumption. cbn [bind]. destruct (slen s =? n) eqn:E; [|exact I].
      apply N.eqb_eq in E. split; [exact Hx|]. split.
      { split; [exact Ha|]. unfold size_good. rewrite En. exact E. }
      split; [left; apply within_refl|]. intros _. unfold is_fixed. now rewrite En.
    + rewrite to_option_var by assumption. destruct (slen s =? 0) eqn:E; [exact I|]. apply N.eqb_neq in E.
      destruct (size_good_dec x (slen s - 1)) as [Hg'|Hg']; cbn [bind].
      * split; [exact Hx|]. split.
        { split; [apply aligned_part; auto with al|]. rewrite slen_part by lia. now rewrite N.sub_0_r. }
        split; [|discriminate]. left. exists 0, (slen s - 1). repeat split; lia.
      * left. left. split; [reflexivity|]. cbn [sp_tame]. now rewrite (not_good_multi x (slen s - 1)).
  - apply access_struct; auto. exact I.
  - apply access_struct; auto. exact I.
Qed.

(** ** Everything reachable *)
Lemma reach_safe h t s t' r : readable t -> aligned (align_of t) s -> slen s < 2 ^ 63 ->
  reach h t s t' r -> readable t' /\ ref_ok t' r /\ placed h t' s r /\ short t' r.
Proof.
  intros Hrd Ha Hl H. induction H as [r Hc|t1 r1 a t2 r2 H IH Hwf Hrun].
  - destruct Hrd as [Hm Htl]. destruct (cast_ok h t s Hm Ha) as (q & Eq & Hr & Hd & Hp).
    rewrite Hc in Eq. injection Eq as <-.
    assert (Hpl : placed h t s r).
    { destruct Hp as [->|[Hp Hpd]]; [left; apply within_refl|apply placed_static; assumption]. }
    split; [split; assumption|]. split; [exact Hr|]. split; [exact Hpl|].
    destruct (is_fixed t) eqn:Ef; [left; exact Ef|right]. pose proof (placed_len h t s r Hpl Hr Ef). lia.
  - destruct IH as (H1 & H2 & H3 & H4). pose proof (access_safe h t1 r1 a H1 H2 H4 Hwf) as HA.
    rewrite Hrun in HA. destruct HA as (A1 & A2 & A3 & A4).
    assert (Hpl : placed h t2 s r2) by (eapply placed_trans; eauto).
    repeat (split; [assumption|]).
    destruct (is_fixed t2) eqn:Ef; [left; exact Ef|right]. pose proof (placed_len h t2 s r2 Hpl A2 Ef). lia.
Qed.

(** ** Reading a whole value, any length *)
Definition good_or_bad {A} (h : host) (t : ty) (n : N) (m : res A) : Prop :=
  match m with Ok _ => True | Crash c => bad h t n c end.
Lemma mapM_good {A B} h t n (f : A -> res B) l :
  Forall (fun a => good_or_bad h t n (f a)) l -> good_or_bad h t n (mapM f l).
Proof.
  induction 1 as [|a l Ha Hl IH]; [exact I|]. cbn [mapM]. destruct (f a); [|exact Ha]. cbn [bind].
  destruct (mapM f l); [exact I|exact IH].
Qed.
Lemma bind_good {A B} h t n (m : res A) (f : A -> B) :
  good_or_bad h t n m -> good_or_bad h t n (let* x := m in Ok (f x)).
Proof. destruct m; [exact (fun _ => I)|exact (fun H => H)]. Qed.
Lemma bad_child h t c n m k : (sp_tame t = true -> sp_tame c = true) -> (2 ^ 32 <= m -> 2 ^ 32 <= n) ->
  bad h c m k -> bad h t n k.
Proof.
  intros Ht Hn [[-> H]|(-> & H1 & H2)]; [left|right; auto]. split; [reflexivity|].
  destruct (sp_tame t); [|reflexivity]. now rewrite Ht in H.
Qed.
Lemma fixed_read h t s : is_fixed t = true -> readable t -> ref_ok t s -> exists v, read h t s = Ok v.
Proof.
  intros Hf [Hm Htl] Hr. rewrite read_exact by (auto; left; auto). unfold outcome.
  unfold is_fixed in Hf. destruct (size_of t) as [n|] eqn:En; [|discriminate].
  rewrite (sp_reads_fixed t n) by assumption. eauto.
Qed.
(** A child below [s] read as part of the value at [s]. *)
Lemma child_read h t c s r :
  (sp_tame t = true -> sp_tame c = true) -> readable c -> ref_ok c r -> placed h c s r -> slen s < 2 ^ 63 \/ is_fixed c = true ->
  (short c r -> good_or_bad h c (slen r) (read h c r)) -> good_or_bad h t (slen s) (read h c r).
Proof.
  intros Ht Hc Hr Hp Hl H. destruct (is_fixed c) eqn:Ef.
  - destruct (fixed_read h c r Ef Hc Hr) as [v ->]. exact I.
  - pose proof (placed_len h c s r Hp Hr Ef) as Hle. destruct Hl as [Hl|Hl]; [|congruence].
    specialize (H (or_intror (N.le_lt_trans _ _ _ Hle Hl))).
    destruct (read h c r); [exact I|]. apply (bad_child h t c (slen s) (slen r)); auto. lia.
Qed.
Lemma mapM_elem_safe h x s l : macro_ok x = true -> aligned (align_of x) s -> size_of x = None ->
  match mapM (elem_at h x s) l with
  | Ok rs => Forall (good_elem h (TA x) x s) rs
  | Crash c => bad h (TA x) (slen s) c
  end.
Proof.
  intros Hm Ha Hn. induction l as [|i l IH]; [constructor|]. cbn [mapM].
  pose proof (elem_at_safe h x s i Hm Ha Hn) as He. destruct (elem_at h x s i); cbn [bind]; [|exact He].
  destruct (mapM (elem_at h x s) l); cbn [bind]; [|exact IH]. constructor; assumption.
Qed.

Lemma read_safe h t : readable t -> forall s, ref_ok t s -> short t s -> good_or_bad h t (slen s) (read h t s).
Proof.
  induction t as [t Hns IH|t Hs IH] using ty_struct_ind; intros Hrd s Hr Hsh.
  - destruct t as [| | | | | | | | | | | | |x|x|ts|k v]; cbn [is_struct] in Hns; try tauto; try exact I.
    + cbn [read]. destruct Hr as [Ha _]. destruct (variant_split_ok h s Ha) as (ts & dat & -> & _). exact I.
    + (* array *) pose proof Hr as [Ha _]. change (align_of (TA x)) with (align_of x) in Ha.
      pose proof (readable_part _ x (or_introl eq_refl) Hrd) as Hx. pose proof Hx as [Hm _].
      destruct Hsh as [Hf|Hsh]; [discriminate|]. cbn [read]. unfold array_refs.
      assert (Ht : sp_tame (TA x) = true -> sp_tame x = true)
        by (cbn [sp_tame]; intros H; apply andb_true_iff in H; tauto).
      destruct (size_of x) as [n|] eqn:En.
      * rewrite (mem_layout_ok x n) by assumption. cbn [bind]. apply (bind_good _ _ _ _ VArray). apply mapM_good.
        destruct (slice_elems_ok x n s En Hr) as [_ HF]. eapply Forall_impl; [|exact HF].
        intros r [H1 H2]. apply (child_read h (TA x) x s r); auto. left. exact H2.
      * rewrite nfwa_items_ok by (auto; unfold usize_lim; lia).
        pose proof (mapM_elem_safe h x s (indices 0 (N.to_nat (arr_n (s_data s)))) Hm Ha En) as HF.
        destruct (mapM (elem_at h x s) _) as [rs|c]; cbn [bind]; [|exact HF].
        apply (bind_good _ _ _ _ VArray). apply mapM_good. eapply Forall_impl; [|exact HF].
        intros r [H1 H2]. apply (child_read h (TA x) x s r); auto.
    + (* maybe *) pose proof (readable_part _ x (or_intror eq_refl) Hrd) as Hx.
      pose proof (access_safe h (TM x) s AcOption Hrd Hr Hsh I) as HA. cbn [run_access] in HA. cbn [read].
      destruct (to_option h x s) as [[r|]|c]; cbn [bind] in *.
      * destruct HA as (_ & H1 & H2 & _). apply (bind_good _ _ _ _ (fun v => VMaybe (Some v))).
        apply (child_read h (TM x) x s r); auto.
        -- cbn [sp_tame]. intros H; apply andb_true_iff in H; tauto.
        -- left. destruct Hsh; [discriminate|assumption].
      * exact I.
      * destruct HA as [HA|(i & HA & _)]; [exact HA|discriminate].
  - destruct (to_tuple_short h t s Hs Hrd Hr Hsh) as [(rs & E & HF)|(E & Ho & Hl)].
    + rewrite (read_struct h t s rs) by (auto; symmetry; eapply Forall2_length; eauto).
      apply (bind_good _ _ _ _ VTuple). apply mapM_good. apply Forall_forall. intros [c r] Hin.
      assert (H2 : ref_ok c r /\ placed h c s r).
      { apply In_nth_error in Hin as [k Hk]. rewrite nth_error_combine in Hk.
        destruct (nth_error (children_of t) k) eqn:E1, (nth_error rs k) eqn:E2; try discriminate.
        injection Hk as -> ->. exact (Forall2_nth _ _ _ HF k c r E1 E2). }
      destruct H2 as [H1 H2]. pose proof (in_combine_l _ _ _ _ Hin) as Hc. cbn [fst snd].
      pose proof (readable_child t c Hs Hrd Hc) as Hcr.
      apply (child_read h t c s r); auto.
      * intros Ht. destruct t; try contradiction; cbn [children_of sp_tame] in *.
        -- rewrite forallb_forall in Ht. auto.
        -- apply andb_true_iff in Ht. destruct Hc as [<-|[<-|[]]]; tauto.
      * destruct Hsh as [Hf|Hsh]; [right|left; exact Hsh]. unfold is_fixed in Hf.
        destruct (size_of t) as [n|] eqn:En; [|discriminate]. pose proof (fixed_children t n Hs En) as HA.
        rewrite Forall_forall in HA. auto.
      * intros Hshc. rewrite Forall_forall in IH. apply IH; auto.
    + assert (Hread : read h t s = Crash POverflow).
      { destruct t; try contradiction; cbn [read]; rewrite E; reflexivity. }
      rewrite Hread. right. auto.
Qed.
Lemma decode_safe h t s : readable t -> aligned (align_of t) s -> slen s < 2 ^ 63 ->
  good_or_bad h t (slen s) (decode h t s).
Proof.
  intros Hrd Ha Hl. unfold decode. destruct (cast_ok h t s) as (r & E & Hr & Hd & Hp); [apply Hrd|exact Ha|].
  rewrite E. cbn [bind]. apply (child_read h t t s r); auto.
  - destruct Hp as [->|[H1 H2]]; [left; apply within_refl|apply placed_static; assumption].
  - intros Hsh. apply read_safe; assumption.
Qed.
