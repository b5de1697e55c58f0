(** [{:?}] prints the value that reading gives. *)
From Verif Require Import Base Types Layout AlignedBytes Strs Spec Deser Buf Histories
  BaseFacts TypesFacts LayoutFacts AlignedFacts Utf8Facts DeserFacts ArrayFacts StructFacts ReadFacts AccessFacts ReadClaims EqFacts
  OwnClaims Fmt FmtSpec.
From Coq Require Import Lia ZifyBool ZifyNat ZifyN.
Ltac Zify.zify_post_hook ::= Z.div_mod_to_equations.

(** [m'] succeeds with [g v] where [m] gives [v], and panics where [m] does. *)
Definition same {A B} (h : host) (t : ty) (n : N) (g : A -> B) (m : res A) (m' : res B) : Prop :=
  match m with Ok v => m' = Ok (g v) | Crash _ => exists c, m' = Crash c /\ bad h t n c end.

Lemma same_bind {A B C D} h t n (g : A -> B) (g' : C -> D) (f : A -> C) (f' : B -> D) m m' :
  (forall v, m = Ok v -> f' (g v) = g' (f v)) -> same h t n g m m' ->
  same h t n g' (let* x := m in Ok (f x)) (let* y := m' in Ok (f' y)).
Proof.
  unfold same. destruct m as [v|c]; cbn [bind]; intros Hf H.
  - rewrite H. cbn [bind]. f_equal. now apply Hf.
  - destruct H as (c' & -> & Hb). cbn [bind]. eauto.
Qed.
Lemma same_mapM {A B C} h t n (g : A -> B -> C) (f : A -> res B) (f' : A -> res C) l :
  Forall (fun a => same h t n (g a) (f a) (f' a)) l ->
  same h t n (fun vs => map (fun q => g (fst q) (snd q)) (combine l vs)) (mapM f l) (mapM f' l).
Proof.
  induction 1 as [|a l Ha Hl IH]; [reflexivity|]. cbn [mapM]. unfold same in Ha. destruct (f a) as [v|c]; cbn [bind].
  - rewrite Ha. cbn [bind]. unfold same in IH. destruct (mapM f l) as [vs|c]; cbn [bind].
    + rewrite IH. reflexivity.
    + destruct IH as (c' & -> & Hb). cbn [bind same]. eauto.
  - destruct Ha as (c' & -> & Hb). cbn [bind same]. eauto.
Qed.
Lemma combine_const {A B C} (g : B -> C) (l : list A) (vs : list B) : length l = length vs ->
  map (fun q => g (snd q)) (combine l vs) = map g vs.
Proof.
  revert vs. induction l as [|a l IH]; intros [|v vs] H; cbn [length combine map snd] in *; try lia; try reflexivity.
  f_equal. apply IH. lia.
Qed.

Lemma join_sep l : fmt_join l = sp_sep (bs ", ") l.
Proof.
  induction l as [|x l IH]; [reflexivity|]. destruct l as [|y l]; cbn [fmt_join].
  - cbn [sp_sep map concat]. now rewrite app_nil_r.
  - cbn [fmt_join] in IH. rewrite IH. cbn [sp_sep map concat]. now rewrite <- app_assoc.
Qed.
Lemma tuple_sep l : fmt_tuple l = bs "(" ++ sp_sep (bs ", ") l ++ (if len l =? 1 then bs "," else []) ++ bs ")".
Proof.
  unfold fmt_tuple. destruct l as [|x [|y l]].
  - reflexivity.
  - cbn [sp_sep map concat]. rewrite app_nil_r. reflexivity.
  - rewrite join_sep. replace (len (x :: y :: l) =? 1) with false; [reflexivity|].
    symmetry. apply N.eqb_neq. unfold len. cbn [length]. lia.
Qed.

Lemma fmt_struct h F t s rs : is_struct t -> to_tuple h t s = Ok rs -> length rs = length (children_of t) ->
  fmt_debug h F t s = let* l := mapM (fun p => fmt_debug h F (fst p) (snd p)) (combine (children_of t) rs) in Ok (fmt_tuple l).
Proof.
  intros Hs E Hl.
  destruct t as [| | | | | | | | | | | | |x|x|ts|k v]; cbn [is_struct] in Hs; try tauto; cbn [fmt_debug children_of] in *;
    rewrite E; cbn [bind].
  - f_equal. clear E Hl. revert rs. induction ts as [|t ts IH]; intros [|r rs]; cbn [combine mapM fst snd]; try reflexivity.
    destruct (fmt_debug h F t r); [|reflexivity]. cbn [bind]. rewrite IH. reflexivity.
  - destruct rs as [|a [|b [|c l]]]; cbn [length] in Hl; try lia. cbn [combine mapM fst snd].
    destruct (fmt_debug h F k a); [|reflexivity]. cbn [bind]. destruct (fmt_debug h F v b); reflexivity.
Qed.
Lemma print_struct F t vs : is_struct t -> length vs = length (children_of t) ->
  sp_print F t (VTuple vs) = fmt_tuple (map (fun q => sp_print F (fst q) (snd q)) (combine (children_of t) vs)).
Proof.
  intros Hs Hl. rewrite tuple_sep.
  destruct t as [| | | | | | | | | | | | |x|x|ts|k v]; cbn [is_struct] in Hs; try tauto; cbn [sp_print children_of] in *.
  - assert (E : forall ts vs, (fix go (ts : list ty) (vs : list value) : list (list byte) :=
                  match ts, vs with t :: ts', v :: vs' => sp_print F t v :: go ts' vs' | _, _ => [] end) ts vs =
                map (fun q => sp_print F (fst q) (snd q)) (combine ts vs)).
    { clear. induction ts as [|t ts IH]; intros [|v vs]; cbn [combine map fst snd]; try reflexivity. now rewrite IH. }
    now rewrite E.
  - destruct vs as [|a [|b [|c vs]]]; cbn [length] in Hl; try lia. cbn [combine map fst snd sp_sep concat].
    rewrite app_nil_r, <- !app_assoc. reflexivity.
Qed.

(** The array loop. *)
Lemma fmt_nfwa_loop h F x s : aligned (align_of x) s -> slen s < 2 ^ 63 -> macro_ok x = true -> size_of x = None ->
  (forall r, good_elem h (TA x) x s r -> same h (TA x) (slen s) (sp_print F x) (read h x r) (fmt_debug h F x r)) ->
  forall k i fuel, i + N.of_nat k = arr_n (s_data s) -> (k < fuel)%nat ->
  same h (TA x) (slen s) (fun vs => sp_trail (bs ", ") (map (sp_print F x) vs))
    (let* rs := mapM (elem_at h x s) (indices i k) in mapM (read h x) rs)
    (nfwa_fmt_go h x (fmt_debug h F x) fuel (iter_at s i)).
Proof.
  intros Ha Hl Hm Hn Hr. induction k as [|k IH]; intros i fuel Hi Hf; (destruct fuel as [|fuel]; [lia|]); cbn [nfwa_fmt_go].
  - replace i with (arr_n (s_data s)) by lia. rewrite nfwa_next_end. reflexivity.
  - rewrite indices_S. cbn [mapM]. rewrite nfwa_next_ok by (auto; unfold usize_lim; lia).
    pose proof (elem_at_safe h x s i Hm Ha Hn) as He. destruct (elem_at h x s i) as [r|c]; cbn [bind fst snd].
    2:{ cbn [same]. eauto. }
    specialize (IH (i + 1) fuel ltac:(lia) ltac:(lia)). specialize (Hr r He).
    unfold same in Hr. destruct (read h x r) as [v|c] eqn:Er.
    + rewrite Hr. cbn [bind]. destruct (mapM (elem_at h x s) (indices (i + 1) k)) as [rs|c]; cbn [bind] in *.
      * cbn [mapM]. rewrite Er. cbn [bind]. destruct (mapM (read h x) rs) as [vs|c]; cbn [bind same] in *.
        -- rewrite IH. cbn [bind]. f_equal. unfold sp_trail. cbn [map concat]. now rewrite <- app_assoc.
        -- destruct IH as (c' & -> & Hb). cbn [bind]. eauto.
      * cbn [same] in *. destruct IH as (c' & -> & Hb). cbn [bind]. eauto.
    + destruct Hr as (c' & -> & Hb). cbn [bind].
      destruct (mapM (elem_at h x s) (indices (i + 1) k)) as [rs|c2]; cbn [bind same].
      * cbn [mapM]. rewrite Er. cbn [bind same]. eauto.
      * eauto.
Qed.

Lemma child_fmt h F t c s r :
  (sp_tame t = true -> sp_tame c = true) -> readable c -> ref_ok c r -> placed h c s r -> slen s < 2 ^ 63 \/ is_fixed c = true ->
  (short c r -> same h c (slen r) (sp_print F c) (read h c r) (fmt_debug h F c r)) ->
  same h t (slen s) (sp_print F c) (read h c r) (fmt_debug h F c r).
Proof.
  intros Ht Hc Hr Hp Hl H. destruct (is_fixed c) eqn:Ef.
  - specialize (H (or_introl Ef)). destruct (fixed_read h c r Ef Hc Hr) as [v E]. rewrite E in *. exact H.
  - pose proof (placed_len h c s r Hp Hr Ef) as Hle. destruct Hl as [Hl|Hl]; [|congruence].
    specialize (H (or_intror (N.le_lt_trans _ _ _ Hle Hl))).
    unfold same in *. destruct (read h c r); [exact H|]. destruct H as (c' & E & Hb). exists c'. split; [exact E|].
    apply (bad_child h t c (slen s) (slen r)); auto. lia.
Qed.

Lemma fmt_exact h F t : readable t -> forall s, ref_ok t s -> short t s ->
  same h t (slen s) (sp_print F t) (read h t s) (fmt_debug h F t s).
Proof.
  induction t as [t Hns IH|t Hs IH] using ty_struct_ind; intros Hrd s Hr Hsh.
  - destruct t as [| | | | | | | | | | | | |x|x|ts|k v]; cbn [is_struct] in Hns; try tauto; try reflexivity.
    + cbn [read fmt_debug]. destruct Hr as [Ha _]. destruct (variant_split_ok h s Ha) as (ts & dat & -> & _). cbn [bind same].
      f_equal. cbn [sp_print fst snd]. unfold fmt_bytes, fmt_list. rewrite join_sep, <- !app_assoc. reflexivity.
    + (* array *) pose proof Hr as [Ha _]. change (align_of (TA x)) with (align_of x) in Ha.
      pose proof (readable_part _ x (or_introl eq_refl) Hrd) as Hx. pose proof Hx as [Hm _].
      destruct Hsh as [Hf|Hsh]; [discriminate|]. cbn [read fmt_debug]. unfold array_refs.
      assert (Ht : sp_tame (TA x) = true -> sp_tame x = true)
        by (cbn [sp_tame]; intros H; apply andb_true_iff in H; tauto).
      destruct (size_of x) as [n|] eqn:En.
      * rewrite (mem_layout_ok x n) by assumption. cbn [bind].
        eapply (same_bind h (TA x) (slen s) _ _ VArray fmt_list).
        2:{ apply (same_mapM h (TA x) (slen s) (fun _ => sp_print F x)).
            destruct (slice_elems_ok x n s En Hr) as [_ HF]. eapply Forall_impl; [|exact HF].
            intros r [H1 H2]. apply (child_fmt h F (TA x) x s r); auto. left. exact H2. }
        intros vs E. cbn [sp_print]. rewrite sp_size_of, En. unfold fmt_list. rewrite join_sep.
        rewrite (combine_const (sp_print F x)) by (apply mapM_length in E; auto). reflexivity.
      * rewrite nfwa_items_ok by (auto; unfold usize_lim; lia).
        rewrite nfwa_into_iter_ok by (auto; unfold usize_lim; lia). cbn [bind].
        pose proof (fmt_nfwa_loop h F x s Ha Hsh Hm En) as HL.
        specialize (HL ltac:(intros r [H1 H2]; apply (child_fmt h F (TA x) x s r); auto)).
        specialize (HL (N.to_nat (arr_n (s_data s))) 0 (S (length (s_data s)))).
        pose proof (arr_n_le (s_data s)) as Hle. unfold blen in Hle.
        specialize (HL ltac:(lia) ltac:(lia)).
        destruct (mapM (elem_at h x s) (indices 0 (N.to_nat (arr_n (s_data s))))) as [rs|c]; cbn [bind] in *.
        -- apply (same_bind h (TA x) (slen s) _ (sp_print F (TA x)) VArray (fun l => bs "[" ++ l ++ bs "]")) in HL; [exact HL|].
           intros vs _. cbn [sp_print]. now rewrite sp_size_of, En.
        -- cbn [same] in *. destruct HL as (c' & -> & Hb). cbn [bind]. eauto.
    + (* maybe *) pose proof (readable_part _ x (or_intror eq_refl) Hrd) as Hx.
      pose proof (access_safe h (TM x) s AcOption Hrd Hr Hsh I) as HA. cbn [run_access] in HA. cbn [read fmt_debug].
      destruct (to_option h x s) as [[r|]|c]; cbn [bind] in *.
      * destruct HA as (_ & H1 & H2 & _).
        apply (same_bind h (TM x) (slen s) (sp_print F x) (sp_print F (TM x)) (fun v => VMaybe (Some v)) (fun a => bs "Some(" ++ a ++ bs ")")).
        -- reflexivity.
        -- apply (child_fmt h F (TM x) x s r); auto.
           ++ cbn [sp_tame]. intros H; apply andb_true_iff in H; tauto.
           ++ left. destruct Hsh; [discriminate|assumption].
      * reflexivity.
      * cbn [same]. destruct HA as [HA|(i & HA & _)]; [eauto|discriminate].
  - destruct (to_tuple_short h t s Hs Hrd Hr Hsh) as [(rs & E & HF)|(E & Ho & Hl)].
    + pose proof (Forall2_length _ _ _ HF) as Hlen.
      rewrite (read_struct h t s rs), (fmt_struct h F t s rs) by auto.
      eapply (same_bind h t (slen s) _ _ VTuple fmt_tuple).
      2:{ apply (same_mapM h t (slen s) (fun p => sp_print F (fst p))). apply Forall_forall. intros [c r] Hin.
        assert (H2 : ref_ok c r /\ placed h c s r).
        { apply In_nth_error in Hin as [k Hk]. rewrite nth_error_combine in Hk.
          destruct (nth_error (children_of t) k) eqn:E1, (nth_error rs k) eqn:E2; try discriminate.
          injection Hk as -> ->. exact (Forall2_nth _ _ _ HF k c r E1 E2). }
        destruct H2 as [H1 H2]. pose proof (in_combine_l _ _ _ _ Hin) as Hc. cbn [fst snd].
        pose proof (readable_child t c Hs Hrd Hc) as Hcr.
        apply (child_fmt h F t c s r); auto.
        * intros Ht. destruct t; try contradiction; cbn [children_of sp_tame] in *.
          -- rewrite forallb_forall in Ht. auto.
          -- apply andb_true_iff in Ht. destruct Hc as [<-|[<-|[]]]; tauto.
        * destruct Hsh as [Hf|Hsh]; [right|left; exact Hsh]. unfold is_fixed in Hf.
          destruct (size_of t) as [n|] eqn:En; [|discriminate]. pose proof (fixed_children t n Hs En) as HA.
          rewrite Forall_forall in HA. auto.
        * intros Hshc. rewrite Forall_forall in IH. apply IH; auto. }
      intros vs Ev. pose proof (mapM_length _ _ _ Ev) as Hv. rewrite combine_length, <- Hlen, Nat.min_id in Hv.
      rewrite (print_struct F t vs) by assumption. f_equal.
      clear - Hlen Hv. revert rs vs Hlen Hv. generalize (children_of t) as ts.
      induction ts as [|c ts IHt]; intros [|r rs] [|w vs] Hlen Hv; cbn [length combine map fst snd] in *; try lia; try reflexivity.
      f_equal. apply IHt; lia.
    + assert (Hread : read h t s = Crash POverflow).
      { destruct t; try contradiction; cbn [read]; rewrite E; reflexivity. }
      assert (Hfmt : fmt_debug h F t s = Crash POverflow).
      { destruct t; try contradiction; cbn [fmt_debug]; rewrite E; reflexivity. }
      rewrite Hread, Hfmt. exists POverflow. split; [reflexivity|]. right. auto.
Qed.

Lemma fmt_claim h F t r v : view h t r -> read h t r = Ok v -> fmt_debug h F t r = Ok (sp_print F t v).
Proof.
  intros Hv E. apply view_ok in Hv as (H1 & H2 & H3). pose proof (fmt_exact h F t H1 r H2 H3) as H. now rewrite E in H.
Qed.
Lemma fmt_panic_claim h F t r : view h t r ->
  ((exists c, fmt_debug h F t r = Crash c) <-> (exists c, read h t r = Crash c)).
Proof.
  intros Hv. apply view_ok in Hv as (H1 & H2 & H3). pose proof (fmt_exact h F t H1 r H2 H3) as H.
  unfold same in H. destruct (read h t r) as [v|c].
  - rewrite H. split; intros [c E]; discriminate.
  - destruct H as (c' & E & _). split; eauto.
Qed.
Lemma fmt_safe_claim h F t r c : view h t r -> fmt_debug h F t r = Crash c ->
  (c = PUnwrap /\ sp_tame t = false) \/
  (c = POverflow /\ h_overflow_checks h = true /\ 2 ^ 32 <= len (s_data r)).
Proof.
  intros Hv E. apply view_ok in Hv as (H1 & H2 & H3). pose proof (fmt_exact h F t H1 r H2 H3) as H.
  unfold same in H. destruct (read h t r) as [v|c'].
  - rewrite H in E. discriminate.
  - destruct H as (c'' & E' & Hb). rewrite E in E'. injection E' as <-. exact Hb.
Qed.

(** Owned values. *)
Lemma owned_fmt_claim h F t d q a1 a2 v : usable t -> a1 + 8 < 2 ^ 64 -> a2 + 8 < 2 ^ 64 -> d <> [] -> len d < 2 ^ 63 ->
  aligned (sp_align t) q -> s_data q = d -> decode h t q = Ok v ->
  exists b, owned_from_bytes h d a1 a2 = Ok b /\ owned_fmt h F t b = Ok (sp_print F t v).
Proof.
  intros Hu H1 H2 Hne Hl Hq Hqd Ev. unfold owned_from_bytes, buf_from_vec, owned_fmt.
  assert (Hv : v_addr (to_vec d a1) + 8 < usize_lim) by (destruct d; cbn [to_vec vec_new v_addr]; unfold usize_lim; lia).
  assert (Hvd : v_data (to_vec d a1) = d) by (destruct d; reflexivity).
  destruct (vec_align_spec h (to_vec d a1) a2 H2 Hv) as (b & -> & Hh & Hg). rewrite Hvd in Hh.
  destruct (buf_deref_ok h b d Hh Hg) as (s & Es & Hd & Ha & _). specialize (Ha Hne).
  exists b. split; [reflexivity|]. unfold owned_deref. rewrite Es. cbn [bind]. rewrite as_aligned_8. cbn [bind].
  assert (Hsa : aligned (sp_align t) s) by (rewrite sp_align_of; now apply aligned_8).
  rewrite (position_claim h t q s (proj1 Hu)) in Ev by (congruence || assumption). unfold decode in Ev.
  change (from_aligned_slice h t s) with (cast h t s). destruct (cast h t s) as [r|] eqn:Ec; [|discriminate]. cbn [bind] in *.
  apply fmt_claim; [|exact Ev]. exists t, s. split; [exact Hu|]. split; [exact Hsa|]. split; [rewrite Hd; exact Hl|].
  now apply reach_cast.
Qed.
