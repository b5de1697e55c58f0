(** A view handed to a serialiser means what reading it gives. *)
From Verif Require Import Base Types Layout AlignedBytes Strs Spec Deser Ser Histories SerSpec
  BaseFacts TypesFacts LayoutFacts AlignedFacts Utf8Facts DeserFacts ArrayFacts StructFacts ReadFacts AccessFacts EqFacts EncFacts RoundFacts SerMain.
From Coq Require Import Lia ZifyBool ZifyNat ZifyN.
Ltac Zify.zify_post_hook ::= Z.div_mod_to_equations.

Definition means (h : host) (t : ty) (r : rval) (v : value) : Prop :=
  rtyped t r /\ rstrings t r = [] /\ forall tail, rvalue tail (h_big_endian h) t r = v.
Definition same {A B} (R : A -> B -> Prop) (m : res A) (n : res B) : Prop :=
  match m, n with
  | Ok a, Ok b => R a b
  | Crash c, Crash c' => c = c'
  | _, _ => False
  end.
Lemma same_mapM {A B C} (R : B -> C -> Prop) (f : A -> res B) (g : A -> res C) l :
  (forall a, In a l -> same R (f a) (g a)) -> same (Forall2 R) (mapM f l) (mapM g l).
Proof.
  induction l as [|a l IH]; intros H; cbn [mapM]; [constructor|].
  pose proof (H a (or_introl eq_refl)) as Ha. specialize (IH (fun b Hb => H b (or_intror Hb))).
  destruct (f a), (g a); cbn [bind same] in *; try contradiction; try congruence.
  destruct (mapM f l), (mapM g l); cbn [bind same] in *; try contradiction; try congruence. now constructor.
Qed.
Lemma signed_range bits n : 0 < bits -> n < 2 ^ bits ->
  (- 2 ^ (Z.of_N bits - 1) <= signed bits n < 2 ^ (Z.of_N bits - 1))%Z.
Proof.
  intros H0 Hn. rewrite signed_ok by assumption. unfold sp_signed.
  assert (E : (2 ^ Z.of_N bits = 2 * 2 ^ (Z.of_N bits - 1))%Z).
  { replace (Z.of_N bits) with (1 + (Z.of_N bits - 1))%Z at 1 by lia. rewrite Z.pow_add_r by lia. reflexivity. }
  assert (E1 : Z.of_N (2 ^ bits) = (2 ^ Z.of_N bits)%Z) by now rewrite N2Z.inj_pow.
  assert (E2 : Z.of_N (2 ^ (bits - 1)) = (2 ^ (Z.of_N bits - 1))%Z).
  { rewrite N2Z.inj_pow. f_equal. lia. }
  remember (2 ^ bits) as P. remember (2 ^ (bits - 1)) as Q. remember (2 ^ Z.of_N bits)%Z as P'.
  remember (2 ^ (Z.of_N bits - 1))%Z as Q'. clear HeqP HeqQ HeqP' HeqQ'. destruct (n <? Q) eqn:F; lia.
Qed.
Lemma view_struct h t s rs : is_struct t -> to_tuple h t s = Ok rs -> length rs = length (children_of t) ->
  view_rval h t s = let* vs := mapM (fun p => view_rval h (fst p) (snd p)) (combine (children_of t) rs) in Ok (RTuple vs).
Proof.
  intros Hs E Hl.
  destruct t as [| | | | | | | | | | | | |x|x|ts|k v]; cbn [is_struct] in Hs; try tauto; cbn [view_rval children_of] in *;
    rewrite E; cbn [bind].
  - f_equal. clear E Hl. revert rs. induction ts as [|t ts IH]; intros [|r rs]; cbn [combine mapM fst snd]; try reflexivity.
    destruct (view_rval h t r); [|reflexivity]. cbn [bind]. rewrite IH. reflexivity.
  - destruct rs as [|a [|b [|c l]]]; cbn [length] in Hl; try lia. cbn [combine mapM fst snd].
    destruct (view_rval h k a); [|reflexivity]. cbn [bind]. destruct (view_rval h v b); reflexivity.
Qed.
Lemma means_list h x rs vs : Forall2 (fun v r => means h x r v) vs rs -> means h (TA x) (RList rs) (VArray vs).
Proof.
  intros HF. split; [|split].
  - rewrite rtyped_list. induction HF as [|v r vs rs [H _] _ IH]; constructor; auto.
  - cbn [rstrings]. induction HF as [|v r vs rs (_ & H & _) _ IH]; [reflexivity|]. cbn [flat_map]. now rewrite H.
  - intros tail. cbn [rvalue]. f_equal. induction HF as [|v r vs rs (_ & _ & H) _ IH]; [reflexivity|]. cbn [map]. now rewrite H, IH.
Qed.
Lemma rtyped_struct_intro t rs : is_struct t -> Forall2 rtyped (children_of t) rs -> rtyped t (RTuple rs).
Proof.
  intros Hs H. destruct t as [| | | | | | | | | | | | |x|x|ts|a b]; cbn [is_struct] in Hs; try tauto; cbn [children_of rtyped] in *.
  - clear Hs. induction H; auto.
  - inversion H as [|? ? ? ? H1 H2]; subst. inversion H2 as [|? ? ? ? H3 H4]; subst. inversion H4; subst. auto.
Qed.
Lemma means_struct h t : is_struct t -> forall ps rs vs, map fst ps = children_of t ->
  Forall2 (fun v r => True) vs rs ->
  Forall2 (fun (p : ty * slice) vr => means h (fst p) (snd vr) (fst vr)) ps (combine vs rs) ->
  means h t (RTuple rs) (VTuple vs).
Proof.
  intros Hs ps rs vs Hp Hl HF. rewrite <- (map_id (children_of t)) in Hp. 
  assert (G : Forall2 rtyped (children_of t) rs /\ rstrs (children_of t) rs = [] /\ forall tail, rvals tail (h_big_endian h) (children_of t) rs = vs).
  { rewrite map_id in Hp. rewrite <- Hp. clear Hp Hs. revert ps HF.
    induction Hl as [|v r vs rs _ _ IH]; intros [|p ps] HF; cbn [combine] in HF; inversion HF; subst; [repeat split; constructor|].
    cbn [fst snd map] in *. destruct H2 as (H1 & H2 & H3). destruct (IH ps H4) as (G1 & G2 & G3).
    unfold rstrs, rvals in *. cbn [combine flat_map map fst snd]. rewrite H2, G2. split; [now constructor|]. split; [reflexivity|].
    intros tail. now rewrite H3, G3. }
  destruct G as (G1 & G2 & G3). split; [now apply rtyped_struct_intro|]. split; [now rewrite rstrings_struct|].
  intros tail. rewrite rvalue_struct by assumption. now rewrite G3.
Qed.

Lemma view_means h t : readable t -> forall s, ref_ok t s -> short t s ->
  same (fun v r => means h t r v) (read h t s) (view_rval h t s).
Proof.
  induction t as [t Hns IH|t Hs IH] using ty_struct_ind; intros Hrd s Hr Hsh.
  - destruct t as [| | | | | | | | | | | | |x|x|ts|k v]; cbn [is_struct] in Hns; try tauto;
      try (pose proof (proj2 Hr) as G; unfold size_good in G; cbn [size_of] in G; unfold slen in G;
           pose proof (of_ne_bound' h _ _ G) as B).
    + cbn [read view_rval]. destruct (s_data s) as [|b [|]] eqn:Es; try (exfalso; clear -G; unfold blen in G; cbn [length] in G; lia).
      cbn [same]. split; [exact I|]. split; [reflexivity|]. intros tail. cbn [rvalue sp_decode].
      change (len [b] =? 1) with true. cbv iota. f_equal. rewrite sp_num_of_ne.
      remember (of_ne h [b]) as n. clear. destruct (n =? 0) eqn:E1, (0 <? n) eqn:E2; try reflexivity; lia.
    + cbn [read view_rval same]. split; [|split; [reflexivity|reflexivity]]. cbn [rtyped]. change (2 ^ (8 * 1)) with (2 ^ 8) in B. lia.
    + cbn [read view_rval same]. split; [|split; [reflexivity|reflexivity]]. cbn [rtyped]. apply (signed_range 16); [lia|exact B].
    + cbn [read view_rval same]. split; [|split; [reflexivity|reflexivity]]. cbn [rtyped]. change (2 ^ (8 * 2)) with (2 ^ 16) in B. lia.
    + cbn [read view_rval same]. split; [|split; [reflexivity|reflexivity]]. cbn [rtyped]. apply (signed_range 32); [lia|exact B].
    + cbn [read view_rval same]. split; [|split; [reflexivity|reflexivity]]. cbn [rtyped]. change (2 ^ (8 * 4)) with (2 ^ 32) in B. lia.
    + cbn [read view_rval same]. split; [|split; [reflexivity|reflexivity]]. cbn [rtyped]. apply (signed_range 64); [lia|exact B].
    + cbn [read view_rval same]. split; [|split; [reflexivity|reflexivity]]. cbn [rtyped]. change (2 ^ (8 * 8)) with (2 ^ 64) in B. lia.
    + cbn [read view_rval same]. split; [|split; [reflexivity|reflexivity]]. exact B.
    + cbn [read view_rval same]. split; [exact I|]. split; [reflexivity|]. intros tail. cbn [rvalue sp_decode]. now rewrite to_str_spec.
    + cbn [read view_rval same]. split; [exact I|]. split; [reflexivity|]. intros tail. cbn [rvalue sp_decode]. now rewrite to_str_spec.
    + cbn [read view_rval same]. split; [exact I|]. split; [reflexivity|]. intros tail. cbn [rvalue sp_decode]. now rewrite to_str_spec.
    + cbn [read view_rval]. destruct (variant_split_ok h s (proj1 Hr)) as (ts & dat & -> & _ & E & _). cbn [bind same fst snd].
      split; [exact I|]. split; [reflexivity|]. intros tail. cbn [rvalue sp_decode]. exact E.
    + (* array *) pose proof (readable_part _ x (or_introl eq_refl) Hrd) as Hx. pose proof Hx as [Hm _].
      destruct Hsh as [Hf|Hl]; [discriminate|].
      pose proof Hr as [Ha _]. change (align_of (TA x)) with (align_of x) in Ha.
      assert (Hgo : forall rs, Forall (fun r => ref_ok x r /\ placed h x s r) rs ->
        same (fun v r => means h (TA x) r v)
          (let* vs := mapM (read h x) rs in Ok (VArray vs)) (let* vs := mapM (view_rval h x) rs in Ok (RList vs))).
      { intros rs HF. rewrite Forall_forall in HF.
        pose proof (same_mapM (fun v r => means h x r v) (read h x) (view_rval h x) rs) as HS.
        specialize (HS (fun r Hin => IH x (or_introl eq_refl) Hx r (proj1 (HF r Hin))
          (read_child_ok h s x r (proj2 (HF r Hin)) (proj1 (HF r Hin)) Hl))).
        destruct (mapM (read h x) rs), (mapM (view_rval h x) rs); cbn [same bind] in *; try contradiction; try congruence.
        now apply means_list. }
      cbn [read view_rval]. unfold array_refs. destruct (size_of x) as [n|] eqn:En.
      * rewrite (mem_layout_ok x n) by assumption. cbn [bind]. apply Hgo.
        destruct (slice_elems_ok x n s En Hr) as [_ HF]. eapply Forall_impl; [|exact HF]. intros r [H1 H2]. split; [exact H1|now left].
      * rewrite nfwa_items_ok by (auto; unfold usize_lim; lia).
        pose proof (mapM_elem_safe h x s (indices 0 (N.to_nat (arr_n (s_data s)))) Hm Ha En) as HF.
        destruct (mapM (elem_at h x s) _) as [rs|c]; cbn [bind]; [|reflexivity]. apply Hgo.
        eapply Forall_impl; [|exact HF]. intros r [H1 H2]. auto.
    + (* maybe *) pose proof (readable_part _ x (or_intror eq_refl) Hrd) as Hx.
      pose proof (access_safe h (TM x) s AcOption Hrd Hr Hsh I) as HA. cbn [run_access] in HA. cbn [read view_rval].
      destruct Hsh as [Hf|Hl]; [discriminate|].
      destruct (to_option h x s) as [[r|]|c]; cbn [bind] in *; [| |reflexivity].
      * destruct HA as (_ & H1 & H2 & _). pose proof (IH x (or_intror eq_refl) Hx r H1 (read_child_ok h s x r H2 H1 Hl)) as HS.
        destruct (read h x r), (view_rval h x r); cbn [same bind] in *; try contradiction; try congruence.
        destruct HS as (S1 & S2 & S3). split; [exact S1|]. split; [exact S2|]. intros tail. cbn [rvalue]. now rewrite S3.
      * split; [exact I|]. split; reflexivity.
  - destruct (to_tuple_short h t s Hs Hrd Hr Hsh) as [(rs & E & HF)|(E & _)].
    2:{ destruct t; try contradiction; cbn [read view_rval]; rewrite E; reflexivity. }
    pose proof (Forall2_length _ _ _ HF) as Hlen.
    rewrite (read_struct h t s rs), (view_struct h t s rs) by auto.
    assert (HS : Forall (fun p => same (fun v r => means h (fst p) r v) (read h (fst p) (snd p)) (view_rval h (fst p) (snd p)))
                   (combine (children_of t) rs)).
    { apply Forall_forall. intros [c r] Hin. cbn [fst snd].
      assert (H2 : ref_ok c r /\ placed h c s r).
      { apply In_nth_error in Hin as [k Hk]. rewrite nth_error_combine in Hk.
        destruct (nth_error (children_of t) k) eqn:E1, (nth_error rs k) eqn:E2; try discriminate.
        injection Hk as -> ->. exact (Forall2_nth _ _ _ HF k c r E1 E2). }
      destruct H2 as [H1 H2]. pose proof (in_combine_l _ _ _ _ Hin) as Hc.
      rewrite Forall_forall in IH. apply IH; auto; [exact (readable_child t c Hs Hrd Hc)|].
      exact (child_short h t s c r Hs Hc Hsh H2 H1). }
    assert (Hfst : map fst (combine (children_of t) rs) = children_of t).
    { clear -Hlen. revert rs Hlen. induction (children_of t) as [|c cs IH]; intros [|r rs] H; try discriminate; [reflexivity|].
      cbn [combine map fst]. rewrite IH; auto. }
    assert (HS2 : same (fun vs rs' => Forall2 (fun v r => True) vs rs' /\
        Forall2 (fun (p : ty * slice) vr => means h (fst p) (snd vr) (fst vr)) (combine (children_of t) rs) (combine vs rs'))
       (mapM (fun p => read h (fst p) (snd p)) (combine (children_of t) rs))
       (mapM (fun p => view_rval h (fst p) (snd p)) (combine (children_of t) rs))).
    { clear -HS. induction HS as [|p ps Hp _ IHp]; cbn [mapM]; [split; constructor|].
      destruct (read h (fst p) (snd p)), (view_rval h (fst p) (snd p)); cbn [same bind] in *; try contradiction; try congruence.
      destruct (mapM _ ps), (mapM _ ps); cbn [same bind] in *; try contradiction; try congruence.
      destruct IHp. split; [now constructor|]. cbn [combine]. now constructor. }
    destruct (mapM _ (combine (children_of t) rs)), (mapM _ (combine (children_of t) rs)); cbn [same bind] in *; try contradiction; try congruence.
    destruct HS2. eapply means_struct; eauto.
Qed.
