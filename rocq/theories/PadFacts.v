(** Types that need no padding at the end of arrays. *)
From Verif Require Import Base Types Layout AlignedBytes Strs Spec Deser Ser Histories SerSpec
  BaseFacts TypesFacts LayoutFacts AlignedFacts Utf8Facts DeserFacts ArrayFacts StructFacts ReadFacts AccessFacts EncFacts RoundFacts SerMain WrapFacts.
From Coq Require Import Lia ZifyBool ZifyNat ZifyN.
Ltac Zify.zify_post_hook ::= Z.div_mod_to_equations.

Lemma unpadded_child t c : is_struct t -> sp_unpadded t = true -> In c (children_of t) -> sp_unpadded c = true.
Proof.
  destruct t as [| | | | | | | | | | | | |x|x|ts|a b]; cbn [is_struct]; try tauto; intros _ H Hc; cbn [sp_unpadded children_of] in *.
  - rewrite forallb_forall in H. auto.
  - apply andb_true_iff in H as [H1 H2]. destruct Hc as [<-|[<-|[]]]; auto.
Qed.
Lemma last_in (l : list (list byte)) : l <> [] -> In (last l []) l.
Proof.
  induction l as [|a l IH]; [congruence|]. intros _. destruct l; [now left|]. right. apply IH. discriminate.
Qed.
Lemma size_mod x n : size_of x = Some n -> n mod align_of x = 0.
Proof. intros H. now destruct (size_of_props x n H). Qed.
Lemma whole_len big y v : sp_typed (TA y) v \/ sp_typed (TM y) v -> forall n, size_of y = Some n ->
  (sp_typed (TA y) v -> len (sp_encode big (TA y) v) mod align_of y = 0) /\
  (sp_typed (TM y) v -> len (sp_encode big (TM y) v) mod align_of y = 0).
Proof.
  intros _ n Hn. pose proof (alignment_pos _ (align_of_alignment y)) as Hp. pose proof (size_mod y n Hn) as Hm. unfold sp_encode. split; intros Ht.
  - destruct v as [z|bits|b|s|s d|vs|o|vs]; cbn [sp_typed] in Ht; try tauto.
    change (sp_typed (TA y) (VArray vs)) in Ht. rewrite typed_array in Ht. cbn [sp_bytes]. rewrite sp_fixed_of. unfold is_fixed. rewrite Hn.
    rewrite (concat_same_len n).
    + rewrite N.mul_mod, Hm, N.mul_0_l by lia. apply N.mod_0_l. lia.
    + apply Forall_map. eapply Forall_impl; [|exact Ht]. intros w Hw. now apply bytes_fixed.
  - destruct v as [z|bits|b|s|s d|vs|[w|]|vs]; cbn [sp_typed] in Ht; try tauto; cbn [sp_bytes].
    + rewrite sp_fixed_of. unfold is_fixed. rewrite Hn. now rewrite (bytes_fixed _ _ _ n).
Qed.
Lemma unpadded_tails big t : forall v, sp_typed t v -> sp_unpadded t = true -> sp_tails big t v = true.
Proof.
  induction t as [t Hns IH|t Hs IH] using ty_struct_ind; intros v Ht HU.
  - destruct t as [| | | | | | | | | | | | |x|x|ts|a b]; cbn [is_struct] in Hns; try tauto; try reflexivity;
      destruct v as [z|bits|b|s|s d|vs|o|vs]; cbn [sp_typed] in Ht; try tauto.
    + change (sp_typed (TA x) (VArray vs)) in Ht. rewrite typed_array in Ht. cbn [sp_tails sp_unpadded] in *.
      apply andb_true_iff in HU as [H1 H2]. apply andb_true_iff. split.
      * apply forallb_forall. intros w Hw. rewrite Forall_forall in Ht. auto.
      * destruct (sp_fixed x); [reflexivity|]. cbn [orb] in *. apply N.eqb_eq. apply orb_true_iff in H2 as [H2|H2].
        -- apply N.eqb_eq in H2. rewrite H2. apply N.mod_1_r.
        -- destruct (list_eq_dec (list_eq_dec Byte.byte_eq_dec) (map (sp_encode big x) vs) []) as [->|Hne].
           { cbn [last]. apply N.mod_0_l. rewrite sp_align_of. pose proof (alignment_pos _ (align_of_alignment x)). lia. }
           apply last_in in Hne. apply in_map_iff in Hne as (w & <- & Hw). rewrite Forall_forall in Ht. specialize (Ht w Hw).
           rewrite sp_align_of. destruct x as [| | | | | | | | | | | | |y|y|us|c d]; try discriminate; rewrite sp_fixed_of in H2; unfold is_fixed in H2;
             destruct (size_of y) as [n|] eqn:En; try discriminate.
           ++ destruct (whole_len big y w (or_introl Ht) n En) as [G _]. exact (G Ht).
           ++ destruct (whole_len big y w (or_intror Ht) n En) as [_ G]. exact (G Ht).
    + destruct o as [v|]; [|reflexivity]. cbn [sp_tails sp_unpadded] in *. now apply (IH x (or_intror eq_refl) v).
  - destruct (typed_struct t v Hs Ht) as (vs & -> & HF). pose proof (Forall2_length _ _ _ HF) as Hlen.
    rewrite tails_struct by auto. unfold tails_all. apply forallb_forall. intros [c v] Hin. cbn [fst snd].
    rewrite Forall_forall in IH. pose proof (in_combine_l _ _ _ _ Hin) as Hc. apply IH; auto.
    + pose proof (Forall2_combine _ _ _ HF) as G. rewrite Forall_forall in G. exact (G _ Hin).
    + eapply unpadded_child; eauto.
Qed.
Lemma unpadded_rtails big r : forall t, rtyped t r -> no_nuls t r -> sp_unpadded t = true ->
  (forall u, In u (rwrapped r) -> sp_unpadded u = true) -> rtails big t r.
Proof.
  induction r as [z|b|b|b|s|d|d|u r IH|rs IH|o IH|rs IH] using rval_nest; intros t Ht Hn HU HW;
    apply rtails_inner; (split; [apply unpadded_tails; auto; now apply rvalue_typed|]); try (destruct t; exact I).
  - destruct t; cbn [rtyped] in Ht; try tauto. cbn [rinner]. apply IH; try tauto.
    + apply HW. now left.
    + intros w Hw. apply HW. now right.
  - destruct t as [| | | | | | | | | | | | |x|x|ts|a b]; try (cbn [rtyped] in Ht; tauto); cbn [rwrapped] in HW.
    + rewrite rtyped_list in Ht. cbn [rinner]. rewrite Forall_forall in *. intros r Hr. apply IH; auto.
      * eapply no_nuls_list; eauto.
      * cbn [sp_unpadded] in HU. apply andb_true_iff in HU. tauto.
      * intros w Hw. apply HW. apply in_flat_map. eauto.
    + rewrite rtyped_mlist in Ht. destruct Ht as [_ Ht]. destruct rs as [|r rs]; [exact I|]. cbn [rinner].
      inversion IH; inversion Ht; subst. apply H1; auto. intros w Hw. apply HW. cbn [flat_map]. apply in_or_app. now left.
  - destruct t as [| | | | | | | | | | | | |x|x|ts|a b]; try (cbn [rtyped] in Ht; tauto).
    destruct o as [r|]; [|exact I]. cbn [rinner rtyped] in *. apply (IH r); auto.
  - assert (Hs : is_struct t) by (destruct t; cbn [rtyped] in Ht; try tauto; exact I).
    destruct (rtyped_struct t _ Hs Ht) as (rs' & E & HF). inversion E; subst rs'.
    rewrite rinner_struct by assumption. rewrite Forall_forall in *. intros [c r] Hin. cbn [fst snd].
    pose proof (Forall2_combine _ _ _ HF) as G. rewrite Forall_forall in G.
    apply IH; [eapply in_combine_r; eauto|exact (G _ Hin)|eapply no_nuls_struct; eauto| |].
    + eapply unpadded_child; eauto. eapply in_combine_l; eauto.
    + intros w Hw. apply HW. cbn [rwrapped]. apply in_flat_map. exists r. split; [eapply in_combine_r; eauto|exact Hw].
Qed.
