(** Proofs about [PartialEq]. *)
From Verif Require Import Base Types Layout Strs Spec Deser Histories Cmp CmpSpec CmpFacts Traits Compare CompareSpec BaseFacts TypesFacts LayoutFacts.
From Coq Require Import Lia.

Lemma marker_sized t : is_fixed t = true -> is_sized (marker t) = true.
Proof. destruct t; try reflexivity; try discriminate; cbn [marker is_sized]; auto. Qed.
Lemma marker_unsized t : is_fixed t = false -> is_sized (marker t) = false.
Proof. destruct t as [| | | | | | | | | | | | |x|x|ts|k v]; try reflexivity; try discriminate; cbn [marker is_sized]; auto; destruct (is_fixed x); reflexivity. Qed.
Lemma compares_refl t : compares (marker t) (marker t).
Proof.
  induction t as [| | | | | | | | | | | | |x IH|x IH|ts|k _ v _]; cbn [marker]; try (constructor; reflexivity || fail).
  - destruct (is_fixed x); constructor; exact IH.
  - destruct (is_fixed x) eqn:E; [apply c_maybe_fixed|apply c_maybe]; auto using marker_sized.
Qed.
Lemma compares_sym a b : compares a b -> compares b a.
Proof. induction 1; try (constructor; assumption). Qed.
Lemma maybe_option x : compares (YRef (marker (TM x))) (YOption (YRef (marker x))) <-> sp_size x <> None.
Proof.
  rewrite sp_size_of. cbn [marker]. unfold is_fixed. destruct (size_of x) eqn:E.
  - split; [discriminate|]. intros _. apply c_maybe_fixed_option; [apply marker_sized; unfold is_fixed; now rewrite E|apply compares_refl].
  - split; [|congruence]. intros H. inversion H.
Qed.
Lemma gstring_only r : compares GString r <-> r = GString.
Proof. split; [intros H; inversion H; [discriminate|reflexivity]|intros ->; apply c_gstring]. Qed.

Lemma no_og_sub t : sp_no_og t -> match t with TA x | TM x => sp_no_og x | TO | TG => False | _ => True end.
Proof.
  unfold sp_no_og. destruct t as [| | | | | | | | | | | | |x|x|ts|k v]; auto; cbn [sp_show app]; intros [H1 H2].
  - apply H1. now left.
  - apply H2. now left.
  - split; intros H; [apply H1|apply H2]; now right.
  - split; intros H; [apply H1|apply H2]; now right.
Qed.
Lemma marker_inj t : sp_no_og t -> forall t', sp_no_og t' -> marker t = marker t' -> t = t'.
Proof.
  induction t as [| | | | | | | | | | | | |x IH|x IH|ts|k _ v _]; intros H t' H' E; apply no_og_sub in H; try (now elim H);
    apply no_og_sub in H';
    destruct t' as [| | | | | | | | | | | | |x'|x'|ts'|k' v']; try (now elim H'); try reflexivity; try discriminate E; cbn [marker] in E;
    try (destruct (is_fixed x'); discriminate E); try (destruct (is_fixed x); discriminate E).
  - f_equal. apply IH; auto. destruct (is_fixed x), (is_fixed x'); congruence.
  - destruct (is_fixed x), (is_fixed x'); discriminate E.
  - destruct (is_fixed x), (is_fixed x'); discriminate E.
  - f_equal. apply IH; auto. destruct (is_fixed x), (is_fixed x'); congruence.
  - now injection E as ->.
  - now injection E as -> ->.
Qed.

Lemma stands_view h q r w : stands h (NView q) r w -> forall t, sp_no_og t -> r = marker t \/ r = YRef (marker t) -> view h t q /\ read h t q = Ok w.
Proof.
  intros H. remember (NView q) as n eqn:En. induction H as [t' q' w Ho Hv Hr| | | |n r w H IH| | | | |]; try discriminate; intros t Ht E.
  - injection En as ->. destruct E as [E|E]; [|destruct t'; try discriminate E; cbn [marker] in E; destruct (is_fixed t'); discriminate E].
    apply marker_inj in E; auto. now subst t'.
  - destruct E as [E|E]; [destruct t; try discriminate E; cbn [marker] in E; destruct (is_fixed t); discriminate E|].
    injection E as ->. apply IH; auto.
Qed.
Lemma no_ref t r : marker t <> YRef r.
Proof. destruct t; try discriminate; cbn [marker]; destruct (is_fixed t); discriminate. Qed.
Scheme stands_ind2 := Induction for stands Sort Prop with stands_all_ind2 := Induction for stands_all Sort Prop.

Lemma stands_marker h n r w : stands h n r w -> forall t, sp_no_og t -> r = marker t ->
  (exists q, n = NView q /\ view h t q /\ read h t q = Ok w) \/
  (exists l e ws, r = YSlice e /\ n = NSeq l /\ w = VArray ws /\ stands_all h l e ws).
Proof.
  intros H t Ht E. destruct H as [t' q w Ho Hv Hr|b|d|d|n r w H|l r ws H|l r ws H|l r ws H|r|q r w H].
  - left. exists q. apply marker_inj in E; auto. subst t'. auto.
  - destruct t; try discriminate E; cbn [marker] in E; destruct (is_fixed t); discriminate E.
  - destruct t; try discriminate E; cbn [marker] in E; destruct (is_fixed t); discriminate E.
  - destruct t; try discriminate E; cbn [marker] in E; destruct (is_fixed t); discriminate E.
  - now elim (no_ref t r).
  - right. exists l, r, ws. auto.
  - destruct t; try discriminate E; cbn [marker] in E; destruct (is_fixed t); discriminate E.
  - destruct t; try discriminate E; cbn [marker] in E; destruct (is_fixed t); discriminate E.
  - destruct t; try discriminate E; cbn [marker] in E; destruct (is_fixed t); discriminate E.
  - destruct t; try discriminate E; cbn [marker] in E; destruct (is_fixed t); discriminate E.
Qed.
Lemma stands_strip h n r w : stands h n (YRef r) w -> stands h n r w.
Proof.
  intros H. remember (YRef r) as b eqn:E. destruct H; try discriminate E.
  - now elim (no_ref t r).
  - injection E as ->. exact H.
Qed.
Lemma fixed_same x x' : is_fixed x = true -> compares (marker x) (marker x') -> marker x = marker x'.
Proof.
  intros F H. destruct x as [| | | | | | | | | | | | |x|x|ts|k v]; try discriminate F; cbn [marker] in *; inversion H; subst; try reflexivity;
    match goal with E : YBool = marker ?y |- _ => destruct y; try discriminate E; cbn [marker] in E; destruct (is_fixed y); discriminate E end.
Qed.
Lemma seq_all h x l b ws : (forall n w, stands h n b w -> native_value h x n w) -> stands_all h l b ws -> native_values h x l ws.
Proof. intros A H. induction H; constructor; auto. Qed.

Lemma self_value h t n w : sp_no_og t -> (forall e, marker t <> YSlice e) -> stands h n (marker t) w -> native_value h t n w.
Proof.
  intros Ht He Hs. destruct (stands_marker _ _ _ _ Hs _ Ht eq_refl) as [(q & -> & Hv & Hr)|(l & e & ws & E & _)]; [now apply nv_view|now elim (He e)].
Qed.
Lemma accepted_value h t : sp_no_og t -> forall b n w, compares (marker t) b -> stands h n b w -> native_value h t n w.
Proof.
  induction t as [| | | | | | | | | | | | |x IH|x IH|ts|k _ v _]; intros Ht b n w Hc Hs; pose proof (no_og_sub _ Ht) as Hx; try (now elim Hx).
  all: try (cbn [marker] in Hc; inversion Hc; subst; (apply self_value; [exact Ht|discriminate|exact Hs])).
  - cbn [marker] in Hc. inversion Hc; subst; try discriminate; try (apply self_value; [exact Ht|discriminate|exact Hs]).
    remember YBool as r eqn:Er. destruct Hs; try discriminate Er; [|apply nv_bool].
    destruct t; try discriminate Er; cbn [marker] in Er; destruct (is_fixed t); discriminate Er.
  - cbn [marker] in Hc. inversion Hc; subst; try discriminate; try (apply self_value; [exact Ht|discriminate|exact Hs]).
    remember YStr as r eqn:Er. destruct Hs; try discriminate Er; [|apply nv_str; auto].
    destruct t; try discriminate Er; cbn [marker] in Er; destruct (is_fixed t); discriminate Er.
  - specialize (IH Hx). cbn [marker] in Hc. destruct (is_fixed x) eqn:F.
    + assert (Hseq : forall l c ws, compares (marker x) c -> stands_all h l c ws -> native_value h (TA x) (NSeq l) (VArray ws)).
      { intros l c ws H Hl. apply nv_seq. apply (seq_all h x l c); [|exact Hl]. intros n0 w0. now apply IH. }
      inversion Hc; subst; try discriminate.
      * remember (YSlice b0) as r eqn:Er. destruct Hs; try discriminate Er.
        -- assert (marker t = marker (TA x)) as E.
           { cbn [marker]. rewrite F, Er. f_equal. symmetry.
             destruct t as [| | | | | | | | | | | | |y|y|ts|k v]; try discriminate Er; cbn [marker] in Er;
               destruct (is_fixed y); try discriminate Er. injection Er as <-. now apply fixed_same. }
           apply marker_inj in E; auto. subst t. now apply nv_view.
        -- injection Er as ->. eapply Hseq; eauto.
      * remember (YArray b0) as r eqn:Er. destruct Hs; try discriminate Er.
        -- destruct t; try discriminate Er; cbn [marker] in Er; destruct (is_fixed t); discriminate Er.
        -- injection Er as ->. eapply Hseq; eauto.
      * remember (YVec b0) as r eqn:Er. destruct Hs; try discriminate Er.
        -- destruct t; try discriminate Er; cbn [marker] in Er; destruct (is_fixed t); discriminate Er.
        -- injection Er as ->. eapply Hseq; eauto.
      * match goal with E : YRef ?c = marker x |- _ => now elim (no_ref x c) | E : marker x = YRef ?c |- _ => now elim (no_ref x c) end.
    + inversion Hc; subst; try discriminate.
      * apply self_value; [exact Ht|cbn [marker]; rewrite F; discriminate|cbn [marker]; rewrite F; exact Hs].
      * remember (YSlice (YRef b0)) as r eqn:Er. destruct Hs; try discriminate Er.
        -- destruct t as [| | | | | | | | | | | | |y|y|ts|k v]; try discriminate Er; cbn [marker] in Er; destruct (is_fixed y); try discriminate Er.
           injection Er as Er. now elim (no_ref y b0).
        -- injection Er as ->. apply nv_seq. apply (seq_all h x l (YRef b0)); [|assumption]. intros n0 w0 Hn. apply stands_strip in Hn. eapply IH; eauto.
  - cbn [marker] in Hc. apply self_value; [exact Ht|cbn [marker]; destruct (is_fixed x); discriminate|].
    cbn [marker]. destruct (is_fixed x) eqn:F; inversion Hc; subst; try discriminate; try exact Hs.
    rewrite marker_unsized in * by exact F. discriminate.
Qed.
Lemma accepted_ref h t b n w : sp_no_og t -> compares (YRef (marker t)) b -> stands h n b w -> native_value h t n w.
Proof.
  intros Ht Hc Hs. inversion Hc; subst.
  - discriminate.
  - destruct t; try discriminate; cbn [marker] in *; destruct (is_fixed t); discriminate.
  - apply stands_strip in Hs. eapply accepted_value; eauto.
  - apply (accepted_value h t Ht (YArray b0)); [|exact Hs]. rewrite <- H. now constructor.
  - apply (accepted_value h t Ht (YVec b0)); [|exact Hs]. rewrite <- H. now constructor.
  - destruct t as [| | | | | | | | | | | | |y|y|ts|k v]; try discriminate; cbn [marker] in *; destruct (is_fixed y) eqn:F; try discriminate.
    match goal with E : GMaybeFixed _ = GMaybeFixed _ |- _ => injection E as E; subst end. assert (Hz : sp_size y <> None) by (rewrite sp_size_of; unfold is_fixed in F; destruct (size_of y); discriminate).
    pose proof (no_og_sub _ Ht) as Hy. remember (YOption (YRef (marker y))) as r eqn:Er. destruct Hs; try discriminate Er.
    + destruct t; try discriminate Er; cbn [marker] in Er; destruct (is_fixed t); discriminate Er.
    + now apply nv_none.
    + injection Er as ->. destruct (stands_view _ _ _ _ Hs y Hy (or_introl eq_refl)) as [Hv Hr]. now apply nv_some.
Qed.
Lemma accepted_claim h t b n w r v : sp_no_og t -> compares (YRef (marker t)) b -> stands h n b w ->
  view h t r -> read h t r = Ok v -> eq_native h t r n = Ok (sp_veq v w).
Proof. intros Ht Hc Hs Hr Er. apply eq_native_claim; auto. now apply (accepted_ref h t b). Qed.
Lemma readme_refuted : ~ compares GString (YRef YStr).
Proof. intros H. apply gstring_only in H. discriminate. Qed.
Lemma interface_refuted :
  (exists x y, usable (TM x) /\ usable (TM y) /\
    compares (YRef (marker (TM x))) (YOption (YRef (marker x))) /\
    ~ compares (YRef (marker (TM y))) (YOption (YRef (marker y))) /\
    implements TrHash (marker (TM x)) = true /\ implements TrPartialOrd (marker (TM x)) = true) /\
  (forall y, sp_size y = None -> implements TrHash (marker (TM y)) = false /\ implements TrPartialOrd (marker (TM y)) = false).
Proof.
  split.
  - exists TI, TS. split; [split; reflexivity|]. split; [split; reflexivity|]. rewrite !maybe_option.
    split; [discriminate|]. split; [intros H; now elim H|]. split; reflexivity.
  - intros y H. rewrite sp_size_of in H. cbn [marker]. unfold is_fixed. rewrite H. split; reflexivity.
Qed.
