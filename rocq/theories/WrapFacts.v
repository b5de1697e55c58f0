(** When what is written is the normal form, for values with wrapped variants. *)
From Verif Require Import Base Types Layout AlignedBytes Strs Spec Deser Ser Histories SerSpec
  BaseFacts TypesFacts LayoutFacts AlignedFacts Utf8Facts DeserFacts ArrayFacts StructFacts ReadFacts AccessFacts EncFacts RoundFacts SerMain.
From Coq Require Import Lia ZifyBool ZifyNat ZifyN.
Ltac Zify.zify_post_hook ::= Z.div_mod_to_equations.

(** The members of a value are all [rtails]. *)
Definition rinner (big : bool) (t : ty) (r : rval) : Prop :=
  match t, r with
  | _, RWrap u r => rtails big u r
  | TA x, RList rs => Forall (rtails big x) rs
  | TM x, RList rs => match rs with r :: _ => rtails big x r | [] => True end
  | TM x, ROpt o => match o with Some r => rtails big x r | None => True end
  | (TTuple _ | TDict _ _), RTuple rs => Forall (fun p => rtails big (fst p) (snd p)) (combine (children_of t) rs)
  | _, _ => True
  end.
Lemma rtails_inner big t r : rtails big t r <-> sp_tails big t (rvalue false big t r) = true /\ rinner big t r.
Proof.
  assert (HA : forall x rs, (fix all rs := match rs with [] => True | r :: rs => rtails big x r /\ all rs end) rs <-> Forall (rtails big x) rs).
  { intros x. induction rs as [|r' rs IH]; [split; auto|]. rewrite IH.
    split; [intros []; constructor; auto|intros H; inversion H; auto]. }
  assert (HB : forall rs ts, (fix all rs ts := match rs, ts with
                        | r :: rs, t :: ts => rtails big t r /\ all rs ts
                        | _, _ => True
                        end) rs ts <-> Forall (fun p => rtails big (fst p) (snd p)) (combine ts rs)).
  { induction rs as [|r' rs IH]; intros [|t' ts]; cbn [combine]; try (split; auto; fail). rewrite IH.
    split; [intros []; constructor; auto|intros H; inversion H; auto]. }
  destruct r as [z|b|b|b|s|d|d|u r|rs|o|rs]; destruct t; cbn [rtails rinner children_of]; rewrite ?HA, ?HB; reflexivity.
Qed.
Lemma rinner_struct big t rs : is_struct t ->
  rinner big t (RTuple rs) = Forall (fun p => rtails big (fst p) (snd p)) (combine (children_of t) rs).
Proof. destruct t; cbn [is_struct]; intros []; reflexivity. Qed.

Lemma rinner_value big r : forall t, rtyped t r -> no_nuls t r -> rinner big t r -> rvalue true big t r = rvalue false big t r.
Proof.
  induction r as [z|b|b|b|s|d|d|u r IH|rs IH|o IH|rs IH] using rval_nest; intros t Ht Hn HI; try (destruct t; reflexivity).
  - destruct t; cbn [rtyped] in Ht; try tauto. cbn [rinner rvalue] in *. destruct Ht as [_ Ht].
    apply rtails_inner in HI as [H1 H2]. rewrite IH by auto. f_equal. apply tails_same; [|exact H1]. now apply rvalue_typed.
  - destruct t as [| | | | | | | | | | | | |x|x|ts|a b]; try (cbn [rtyped] in Ht; tauto).
    + rewrite rtyped_list in Ht. cbn [rvalue rinner] in *. f_equal. apply map_ext_in. intros r Hr.
      rewrite Forall_forall in *. apply IH; auto; [eapply no_nuls_list; eauto|]. specialize (HI r Hr). now apply rtails_inner in HI.
    + rewrite rtyped_mlist in Ht. destruct Ht as [_ Ht]. destruct rs as [|r rs]; [reflexivity|]. cbn [rvalue rinner] in *.
      inversion IH; inversion Ht; subst. rewrite H1; auto. now apply rtails_inner in HI.
  - destruct t as [| | | | | | | | | | | | |x|x|ts|a b]; try (cbn [rtyped] in Ht; tauto).
    destruct o as [r|]; [|reflexivity]. cbn [rvalue rinner rtyped] in *. rewrite (IH r); auto. now apply rtails_inner in HI.
  - assert (Hs : is_struct t) by (destruct t; cbn [rtyped] in Ht; try tauto; exact I).
    destruct (rtyped_struct t _ Hs Ht) as (rs' & E & HF). inversion E; subst rs'. rewrite !rvalue_struct by assumption.
    f_equal. unfold rvals. apply map_ext_in. intros [c r] Hin. cbn [fst snd].
    rewrite rinner_struct in HI by assumption. rewrite Forall_forall in *.
    pose proof (Forall2_combine _ _ _ HF) as G. rewrite Forall_forall in G.
    apply IH; [eapply in_combine_r; eauto|exact (G _ Hin)|eapply no_nuls_struct; eauto|].
    specialize (HI _ Hin). now apply rtails_inner in HI.
Qed.
Lemma rtails_written big t r : rtyped t r -> no_nuls t r -> rtails big t r ->
  sp_written big t (rvalue true big t r) = sp_encode big t (rvalue false big t r).
Proof.
  intros Ht Hn HT. apply rtails_inner in HT as [H1 H2]. rewrite rinner_value by assumption.
  apply tails_same; [|exact H1]. now apply rvalue_typed.
Qed.

Lemma map_same_in {A B} (f g : A -> B) l a : map f l = map g l -> In a l -> f a = g a.
Proof.
  induction l as [|b l IH]; intros H Ha; [contradiction|]. cbn [map] in H. inversion H. destruct Ha as [->|Ha]; [congruence|].
  apply IH; [congruence|exact Ha].
Qed.
Lemma Forall2_maps {A B C} (R : B -> C -> Prop) (f : A -> B) (g : A -> C) l :
  Forall2 R (map f l) (map g l) -> Forall (fun a => R (f a) (g a)) l.
Proof. induction l as [|a l IH]; intros H; inversion H; subst; constructor; auto. Qed.
Lemma loosely_rtails big r : forall t, rtyped t r -> no_nuls t r -> len (sp_written big t (rvalue true big t r)) < 2 ^ 64 ->
  loosely big t (sp_written big t (rvalue true big t r)) (rvalue false big t r) -> rtails big t r.
Proof.
  unfold sp_written.
  induction r as [z|b|b|b|s|d|d|u r IH|rs IH|o IH|rs IH] using rval_nest; intros t Ht Hn Hl E.
  all: try (destruct t; cbn [rtyped] in Ht; try tauto; apply rtails_inner; (split; [reflexivity|exact I])).
  - (* a wrapped value *)
    destruct t; cbn [rtyped] in Ht; try tauto. destruct Ht as [_ Ht]. cbn [rvalue sp_bytes loosely sp_decode] in *.
    unfold sp_variant in E.
    change (?a ++ [x00] ++ sp_show u) with (a ++ x00 :: sp_show u) in E.
    rewrite (split_back (sp_bytes true big u (rvalue true big u r)) (sp_show u) (show_nul u)) in E.
    inversion E as [E']. apply rtails_inner. split; [reflexivity|]. cbn [rinner].
    assert (HT : sp_typed u (rvalue false big u r)) by now apply rvalue_typed.
    assert (Hl' : len (sp_bytes true big u (rvalue true big u r)) < 2 ^ 64).
    { clear -Hl. change @len with @blen in *. rewrite blen_app in Hl. lia. }
    apply IH; auto. rewrite E' in *.
    replace (rvalue false big u r) with (sp_decode big u (Some (sp_encode big u (rvalue false big u r)))) at 2 by now apply encode_back.
    apply loosely_decode.
  - destruct t as [| | | | | | | | | | | | |x|x|ts|a b]; try (cbn [rtyped] in Ht; tauto).
    + pose proof (rvalue_typed true big (RList rs) (TA x) Ht Hn) as HT.
      pose proof (rvalue_typed false big (RList rs) (TA x) Ht Hn) as HT0.
      assert (HI : rinner big (TA x) (RList rs)).
      { rewrite rtyped_list in Ht. cbn [rvalue] in HT, HT0. rewrite typed_array in HT, HT0. cbn [rinner].
        apply Forall_forall. intros r Hr. rewrite Forall_forall in *.
        assert (Hnr : no_nuls x r) by (eapply no_nuls_list; eauto).
        cbn [rvalue sp_bytes loosely sp_decode] in *. rewrite sp_fixed_of in *. unfold is_fixed in *. rewrite sp_size_of in E.
        rewrite !map_map in *.
        assert (Hin : In (sp_bytes true big x (rvalue true big x r)) (map (fun r => sp_bytes true big x (rvalue true big x r)) rs))
          by (apply in_map_iff; eauto).
        destruct (size_of x) as [n|] eqn:En.
        - assert (Hlen : Forall (fun b => len b = n) (map (fun r => sp_bytes true big x (rvalue true big x r)) rs)).
          { apply Forall_map. apply Forall_forall. intros w Hw. apply fixed_len; auto. }
          pose proof (size_of_props x n En) as [Hp _].
          rewrite (concat_same_len n) in E by assumption. rewrite N.mul_comm, N.mod_mul in E by lia. cbn [N.eqb] in E.
          rewrite pieces_concat in E; [|lia| |lia].
          2:{ eapply Forall_impl; [|exact Hlen]. intros b Hb. unfold len in Hb. lia. }
          rewrite !map_map in E. inversion E as [E'].
          apply IH; auto.
          + apply concat_len in Hin. lia.
          + apply (loosely_fixed big x n); [exact En|]. exact (map_same_in _ _ rs r E' Hr).
        - assert (Ha : is_alignment (sp_align x)) by (rewrite sp_align_of; auto with al).
          destruct (array_bytes_cut true (sp_align x) _ Ha Hl) as [H1 H2].
          destruct E as (vs & E & Hlen & HF). inversion E; subst vs. clear E.
          destruct (N.eq_dec (len (last (map (fun r => sp_bytes true big x (rvalue true big x r)) rs) []) mod sp_align x) 0) as [Hm|Hm].
          + rewrite H1 in HF by now right.
            assert (HN : ~ In None (map Some (map (fun r => sp_bytes true big x (rvalue true big x r)) rs))).
            { intros H. apply in_map_iff in H as (? & ? & _). discriminate. }
            specialize (HF HN). rewrite map_map in HF. apply Forall2_maps in HF. rewrite Forall_forall in HF.
            pose proof (array_bytes_len true (sp_align x) _ _ Ha Hin). specialize (HF r Hr).
            apply IH; auto. lia.
          + exfalso. apply (H2 eq_refl Hm). rewrite map_length. rewrite map_length in Hlen. congruence. }
      apply rtails_inner. split; [|exact HI]. pose proof (rinner_value big _ _ Ht Hn HI) as Ev. rewrite Ev in *.
      now apply written_loosely.
    + pose proof (rvalue_typed false big (RList rs) (TM x) Ht Hn) as HT0.
      assert (HI : rinner big (TM x) (RList rs)).
      { rewrite rtyped_mlist in Ht. destruct Ht as [Hf Ht]. destruct rs as [|r rs]; [exact I|]. cbn [rinner].
        inversion IH; inversion Ht; subst.
        cbn [rvalue sp_bytes loosely sp_decode] in *. rewrite Hf in *. rewrite sp_fixed_of in Hf. unfold is_fixed in *.
        rewrite sp_size_of in E. destruct (size_of x) as [n|] eqn:En; [discriminate|].
        destruct (sp_bytes true big x (rvalue true big x r) ++ [x00]) eqn:F; [destruct (sp_bytes true big x (rvalue true big x r)); discriminate|].
        rewrite <- F in *. rewrite removelast_last in E. destruct E as (w & E & EW). inversion E; subst w.
        apply H1; auto. change @len with @blen in *. rewrite blen_app in Hl. lia. }
      apply rtails_inner. split; [|exact HI]. pose proof (rinner_value big _ _ Ht Hn HI) as Ev. rewrite Ev in *.
      now apply written_loosely.
  - destruct t as [| | | | | | | | | | | | |x|x|ts|a b]; try (cbn [rtyped] in Ht; tauto).
    pose proof (rvalue_typed false big (ROpt o) (TM x) Ht Hn) as HT0.
    assert (HI : rinner big (TM x) (ROpt o)).
    { destruct o as [r|]; [|exact I]. cbn [rinner rtyped] in *.
      cbn [rvalue sp_bytes loosely sp_decode] in *. rewrite sp_fixed_of in *. unfold is_fixed in *.
      rewrite sp_size_of in E. destruct (size_of x) as [n|] eqn:En.
      - rewrite (fixed_len true big x r n En Ht), N.eqb_refl in E. inversion E as [E']. apply (IH r); auto.
        apply (loosely_fixed big x n); assumption.
      - destruct (sp_bytes true big x (rvalue true big x r) ++ [x00]) eqn:F; [destruct (sp_bytes true big x (rvalue true big x r)); discriminate|].
        rewrite <- F in *. rewrite removelast_last in E. destruct E as (w & E & EW). inversion E; subst w.
        apply (IH r); auto. change @len with @blen in *. rewrite blen_app in Hl. lia. }
    apply rtails_inner. split; [|exact HI]. pose proof (rinner_value big _ _ Ht Hn HI) as Ev. rewrite Ev in *.
    now apply written_loosely.
  - assert (Hs : is_struct t) by (destruct t; cbn [rtyped] in Ht; try tauto; exact I).
    destruct (rtyped_struct t _ Hs Ht) as (rs' & E0 & HF). inversion E0; subst rs'. clear E0.
    pose proof (rvalue_typed true big (RTuple rs) t Ht Hn) as HT.
    pose proof (rvalue_typed false big (RTuple rs) t Ht Hn) as HT0.
    assert (HI : rinner big t (RTuple rs)).
    { rewrite rinner_struct by assumption. rewrite rvalue_struct in E, HT, HT0, Hl by assumption.
      rewrite (rvalue_struct false big t rs Hs) in E.
      destruct (typed_struct t _ Hs HT) as (vs & E0 & HFv). inversion E0; subst vs. clear E0.
      destruct (struct_bytes_cuts true big t _ Hs HFv Hl) as [Hc Hg].
      apply Forall_forall. intros [c r] Hin. cbn [fst snd].
      pose proof (Forall2_combine _ _ _ HF) as G. rewrite Forall_forall in G, IH.
      apply IH; [eapply in_combine_r; eauto|exact (G _ Hin)|eapply no_nuls_struct; eauto| |].
      - assert (len (sp_bytes true big c (rvalue true big c r)) <= len (sp_bytes true big t (VTuple (rvals true big (children_of t) rs)))); [|lia].
        apply enc_len; auto; [symmetry; eapply Forall2_length; eauto|].
        unfold enc_all, rvals. clear -Hin. revert rs Hin. induction (children_of t) as [|c' cs IH]; intros [|r' rs] Hin; try contradiction.
        cbn [combine map fst snd] in *. destruct Hin as [Hin|Hin]; [inversion Hin; subst; now left|right; auto].
      - destruct (size_of t) as [n|] eqn:En.
        + apply (loosely_fixed big t n) in E; [|exact En].
          pose proof (fixed_children t n Hs En) as Hfc. rewrite Forall_forall in Hfc.
          specialize (Hfc c (in_combine_l _ _ _ _ Hin)). unfold is_fixed in Hfc. destruct (size_of c) as [m|] eqn:Em; [|discriminate].
          apply (loosely_fixed big c m); [exact Em|].
          rewrite sp_decode_struct in E by assumption. rewrite Hc in E. inversion E as [E']. clear E.
          unfold dec_all, enc_all, rvals in E'. clear -E' Hin. revert rs E' Hin.
          induction (children_of t) as [|c' cs IH]; intros [|r' rs] E' Hin; try contradiction.
          cbn [combine map fst snd] in *. injection E' as E1 E2. destruct Hin as [Hin|Hin].
          * inversion Hin; subst. exact E1.
          * apply (IH rs); auto.
        + apply loosely_struct in E as (vs' & E & HE); auto. inversion E; subst vs'. clear E.
          rewrite Hc in HE. destruct HE as [_ HE].
          { intros H. apply in_map_iff in H as (? & ? & _). discriminate. }
          unfold enc_all, rvals in HE. clear -HE Hin. revert rs HE Hin.
          induction (children_of t) as [|c' cs IH]; intros [|r' rs] HE Hin; try contradiction.
          cbn [combine map fst snd] in *. inversion HE; subst. destruct Hin as [Hin|Hin].
          * inversion Hin; subst. assumption.
          * apply (IH rs); auto. }
    apply rtails_inner. split; [|exact HI]. pose proof (rinner_value big _ _ Ht Hn HI) as Ev. rewrite Ev in *.
    now apply written_loosely.
Qed.
Lemma back_rtails big r t : rtyped t r -> no_nuls t r -> len (sp_written big t (rvalue true big t r)) < 2 ^ 64 ->
  sp_decode big t (Some (sp_written big t (rvalue true big t r))) = rvalue false big t r -> rtails big t r.
Proof.
  intros Ht Hn Hl E. apply loosely_rtails; auto. rewrite <- E. apply loosely_decode.
Qed.
Lemma written_rtails big t r : rtyped t r -> no_nuls t r -> len (sp_written big t (rvalue true big t r)) < 2 ^ 64 ->
  (sp_written big t (rvalue true big t r) = sp_encode big t (rvalue false big t r) <-> rtails big t r).
Proof.
  intros Ht Hn Hl. split; [|now apply rtails_written]. intros E. apply back_rtails; auto. rewrite E in *.
  apply encode_back; auto. now apply rvalue_typed.
Qed.
Lemma back_rtails_iff big t r : rtyped t r -> no_nuls t r -> len (sp_written big t (rvalue true big t r)) < 2 ^ 64 ->
  (sp_decode big t (Some (sp_written big t (rvalue true big t r))) = rvalue false big t r <-> rtails big t r).
Proof.
  intros Ht Hn Hl. split; [now apply back_rtails|]. intros HT. rewrite (rtails_written big t r) in * by assumption.
  apply encode_back; auto. now apply rvalue_typed.
Qed.
