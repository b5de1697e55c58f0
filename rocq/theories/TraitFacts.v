(** Proofs about [SerializeTo]. *)
From Verif Require Import Base BaseFacts Types Layout Spec Histories TypesFacts LayoutFacts Ser SerSpec Marker Traits TraitSpec.

Lemma marker_text t : rust_text (marker t) = marker_type t.
Proof.
  induction t as [| | | | | | | | | | | | |x IH|x IH|ts|k IHk v IHv]; try reflexivity;
    cbn [marker marker_type]; unfold is_fixed; destruct (size_of x); cbn [rust_text]; now rewrite IH.
Qed.

(** ** Views *)
Fixpoint as_is (t : ty) : bool :=
  match t with
  | TA x => as_is x
  | TM x => as_is x && negb (match x with TB => true | _ => false end)
  | TTuple _ | TDict _ _ => false
  | _ => true
  end.
Lemma fixed_copy x : is_fixed x = true -> is_copy (marker x) = true.
Proof. destruct x; cbn; try reflexivity; try discriminate; auto. Qed.
Lemma self_number r : serializes r r -> is_number r = true \/ (exists x, r = YSlice x) \/ (exists x, r = GArray x) \/
  (exists x, r = GMaybe x).
Proof.
  intros H. inversion H; subst; eauto; try (cbn in *; congruence).
Qed.
Lemma view_ok t : serializes (YRef (marker t)) (marker t) <-> as_is t = true.
Proof.
  induction t as [| | | | | | | | | | | | |x IH|x IH|ts|k IHk v IHv]; cbn [marker as_is];
    try (split; [reflexivity|intros _; constructor; reflexivity]).
  - destruct (is_fixed x) eqn:F; rewrite <- IH.
    + split; intros H.
      * inversion H; subst; try discriminate. cbn [item] in *. congruence.
      * eapply s_slice; [reflexivity|exact H|apply fixed_copy, F].
    + split; intros H.
      * inversion H; subst; try discriminate. cbn [item] in *. congruence.
      * eapply s_array; [reflexivity|exact H].
  - destruct (is_fixed x) eqn:F.
    + rewrite andb_true_iff, <- IH. split; intros H.
      * inversion H as [| | | | | | | | | | |g H1 H2 E| | | | |]; subst; try discriminate.
        split; [assumption|]. destruct x; try reflexivity.
        exfalso. inversion H1; discriminate.
      * destruct H as [H B]. apply s_maybe_fixed_view; [|exact H]. apply IH in H.
        destruct x; cbn [as_is] in H; try discriminate; constructor; reflexivity.
    + rewrite andb_true_iff, <- IH. split; intros H.
      * inversion H; subst; try discriminate. cbn [item] in *.
        split; [congruence|]. destruct x; try reflexivity. discriminate F.
      * destruct H as [H _]. eapply s_maybe; [reflexivity|exact H].
  - split; [|discriminate]. intros H. inversion H; discriminate.
  - split; [|discriminate]. intros H. inversion H; discriminate.
Qed.

(** ** The same on strings *)
Lemma show_b x r : sp_show x = "b"%byte :: r -> x = TB.
Proof. destruct x; cbn; intros H; try discriminate H; reflexivity. Qed.
Lemma as_is_show t : as_is t = true <-> ~ sp_writes_structure t /\ ~ sp_writes_maybe_bool t.
Proof.
  unfold sp_writes_structure, sp_writes_maybe_bool.
  assert (L : forall c : byte, (forall a b, [c] <> a ++ bs "mb" ++ b)).
  { intros c a b E. apply (f_equal (@length byte)) in E. rewrite !app_length in E. cbn in E. lia. }
  assert (S1 : forall c : byte, c <> "("%byte -> c <> "{"%byte -> ~ (In "("%byte [c] \/ In "{"%byte [c])).
  { intros c H1 H2 [[H|[]]|[H|[]]]; auto. }
  induction t as [| | | | | | | | | | | | |x IH|x IH|ts|k IHk v IHv]; cbn [sp_show as_is];
    try (split; [intros _|reflexivity]; split; [apply S1; discriminate|intros (a & b & E); exact (L _ _ _ E)]).
  - rewrite IH. split; intros [H1 H2]; split.
    + intros [[E|H]|[E|H]]; try discriminate E; tauto.
    + intros ([|c a] & b & E); [discriminate E|]. injection E as _ E. apply H2. exists a, b. exact E.
    + intros [H|H]; apply H1; cbn; tauto.
    + intros (a & b & E). apply H2. exists ("a"%byte :: a), b. now rewrite E.
  - rewrite andb_true_iff, IH. split.
    + intros [[H1 H2] B]. split.
      * intros [[E|H]|[E|H]]; try discriminate E; tauto.
      * intros ([|c a] & b & E).
        -- cbn in E. injection E as E. apply show_b in E. subst x. discriminate B.
        -- injection E as _ E. apply H2. exists a, b. exact E.
    + intros [H1 H2]. split; [split|].
      * intros [H|H]; apply H1; cbn; tauto.
      * intros (a & b & E). apply H2. exists ("m"%byte :: a), b. now rewrite E.
      * destruct x; try reflexivity. exfalso. apply H2. exists [], []. reflexivity.
  - split; [discriminate|]. intros [H _]. exfalso. apply H. left. now left.
  - split; [discriminate|]. intros [H _]. exfalso. apply H. right. now left.
Qed.
Lemma view_claim t : serializes (YRef (marker t)) (marker t) <->
  ~ sp_writes_structure t /\ ~ sp_writes_maybe_bool t.
Proof. rewrite view_ok. apply as_is_show. Qed.

(** ** Every type *)
Lemma natural_copy t : is_copy (sp_natural t) = true.
Proof. induction t as [| | | | | | | | | | | | |x IH|x IH|ts|k IHk v IHv]; cbn; auto. destruct (sp_size x); auto. Qed.
Lemma natural_ok t : serializes (sp_natural t) (marker t).
Proof.
  induction t as [| | | | | | | | | | | | |x IH|x IH|ts IH|k v IHk IHv] using ty_ind';
    cbn [sp_natural marker]; try (constructor; reflexivity).
  - destruct (is_fixed x) eqn:F.
    + eapply s_slice; [reflexivity|exact IH|apply fixed_copy, F].
    + eapply s_array; [reflexivity|exact IH].
  - pose proof (sp_fixed_of x) as E. unfold sp_fixed in E. destruct (sp_size x).
    + rewrite <- E. apply s_maybe_fixed; [exact IH|apply natural_copy].
    + rewrite <- E. eapply s_maybe; [reflexivity|exact IH].
  - apply s_struct. cbn [children_of]. induction ts as [|t ts IHts]; cbn [map]; [constructor|].
    inversion IH; subst. constructor; [assumption|apply natural_copy|auto].
  - apply s_struct. cbn [children_of]. repeat constructor; try assumption; apply natural_copy.
Qed.

(** ** What must not be *)
Lemma bytes_not_str : ~ serializes (YRef (YSlice YU8)) GStr.
Proof. intros H. inversion H; subst; discriminate. Qed.
Lemma gstring_not_str : ~ serializes GString GStr /\ ~ serializes (YRef GString) GStr.
Proof. split; intros H; inversion H; subst; discriminate. Qed.

(** ** What is passed is what [ser] takes *)
Scheme serializes_min := Minimality for serializes Sort Prop
  with members_min := Minimality for members Sort Prop.
Lemma values_forall vs r : values_of vs r <-> Forall (fun v => value_of v r) vs.
Proof.
  split.
  - induction vs as [|v vs IH]; intros H; [constructor|]. inversion H; subst. constructor; auto.
  - induction 1; constructor; auto.
Qed.
Lemma item_values s i v : item s = Some i -> value_of v s ->
  exists vs, Forall (fun v => value_of v i) vs /\
    (v = RList vs \/ (v = ROpt None /\ vs = []) \/ exists w, v = ROpt (Some w) /\ vs = [w]).
Proof.
  assert (K : forall (f : rty -> rty), (forall w r, value_of w r -> value_of w (f r)) ->
    forall s r v, In s [YSlice r; YVec r; YArray r; YIter r; GArray r; YOption r; GMaybeFixed r; GMaybe r] ->
    value_of v s -> exists vs, Forall (fun v => value_of v (f r)) vs /\
    (v = RList vs \/ (v = ROpt None /\ vs = []) \/ exists w, v = ROpt (Some w) /\ vs = [w])).
  { intros f Hf s0 r v0 Hi Hv. inversion Hv; subst; cbn [In] in Hi;
      try (exfalso; intuition discriminate).
    - assert (r0 = r). { cbn [In] in *. clear - Hi H. intuition congruence. }
      subst r0. exists vs. split; [|auto]. apply values_forall in H0. eapply Forall_impl; [|exact H0]. auto.
    - exists []. split; [constructor|auto].
    - assert (r0 = r). { cbn [In] in *. clear - Hi H. intuition congruence. }
      subst r0. exists [v1]. split; [repeat constructor; auto|eauto 6]. }
  intros Hi Hv.
  destruct s as [| | | | | | | | | | | | | | |s|s|s|s|t|s|s|s|rs|s|s|s|t s]; try discriminate Hi.
  - destruct s as [| | | | | | | | | | | | | | |s|s|s|s|t|s|s|s|rs|s|s|s|t s]; try discriminate Hi; injection Hi as <-;
      inversion Hv; subst; try (cbn [In] in *; intuition discriminate);
      (eapply (K YRef); [intros; now constructor| |eassumption]; cbn [In]; tauto).
  - injection Hi as <-. eapply (K (fun r => r)); [auto| |exact Hv]; cbn [In]; tauto.
  - injection Hi as <-. eapply (K (fun r => r)); [auto| |exact Hv]; cbn [In]; tauto.
  - injection Hi as <-. eapply (K (fun r => r)); [auto| |exact Hv]; cbn [In]; tauto.
  - injection Hi as <-. eapply (K (fun r => r)); [auto| |exact Hv]; cbn [In]; tauto.
Qed.

Lemma marker_slice t g : marker t = YSlice g -> exists x, t = TA x /\ is_fixed x = true /\ g = marker x.
Proof.
  destruct t; cbn [marker]; try discriminate; destruct (is_fixed t) eqn:F; try discriminate.
  intros [= <-]. eauto.
Qed.
Lemma marker_array t g : marker t = GArray g -> exists x, t = TA x /\ is_fixed x = false /\ g = marker x.
Proof.
  destruct t; cbn [marker]; try discriminate; destruct (is_fixed t) eqn:F; try discriminate.
  intros [= <-]. eauto.
Qed.
Lemma marker_maybe_fixed t g : marker t = GMaybeFixed g -> exists x, t = TM x /\ is_fixed x = true /\ g = marker x.
Proof.
  destruct t; cbn [marker]; try discriminate; destruct (is_fixed t) eqn:F; try discriminate.
  intros [= <-]. eauto.
Qed.
Lemma marker_maybe t g : marker t = GMaybe g -> exists x, t = TM x /\ is_fixed x = false /\ g = marker x.
Proof.
  destruct t; cbn [marker]; try discriminate; destruct (is_fixed t) eqn:F; try discriminate.
  intros [= <-]. eauto.
Qed.
Lemma marker_str t : marker t = GStr -> t = TS \/ t = TO \/ t = TG.
Proof. destruct t; cbn [marker]; try discriminate; try tauto; destruct (is_fixed t); discriminate. Qed.
Lemma marker_variant t : marker t = GVariant -> t = TV.
Proof. destruct t; cbn [marker]; try discriminate; try tauto; destruct (is_fixed t); discriminate. Qed.
Lemma marker_bool t : marker t = GBool -> t = TB.
Proof. destruct t; cbn [marker]; try discriminate; try tauto; destruct (is_fixed t); discriminate. Qed.
Lemma marker_struct t u : marker t = GStruct u -> t = u /\ is_struct t.
Proof. destruct t; cbn [marker is_struct]; try discriminate; try (destruct (is_fixed t); discriminate); intros [= <-]; auto. Qed.

Definition all_typed x := fix all (rs : list rval) : Prop := match rs with [] => True | r :: rs => rtyped x r /\ all rs end.
Lemma all_seen x i vs : (forall v, value_of v i -> rtyped x (seen x v)) -> Forall (fun v => value_of v i) vs ->
  all_typed x (map (seen x) vs).
Proof. intros H. induction 1; cbn; auto. Qed.

Definition typed_at s g := forall t, g = marker t -> forall v, value_of v s -> rtyped t (seen t v).
Definition seen_all := fix go (vs : list rval) (ts : list ty) :=
  match vs, ts with
  | v :: vs', t :: ts' => seen t v :: go vs' ts'
  | vs, _ => vs
  end.
Definition typed_all := fix all2 (rs : list rval) (ts : list ty) : Prop :=
  match rs, ts with
  | [], [] => True
  | r :: rs, t :: ts => rtyped t r /\ all2 rs ts
  | _, _ => False
  end.
Lemma value_ref v r : value_of v (YRef r) -> value_of v r.
Proof. intros H. inversion H; subst; try assumption; cbn in *; intuition discriminate. Qed.
Lemma value_box v r : value_of v (YBox r) -> value_of v r.
Proof. intros H. inversion H; subst; try assumption; cbn in *; intuition discriminate. Qed.
Lemma number_typed t v : is_number (marker t) = true -> value_of v (marker t) -> rtyped t (seen t v).
Proof.
  destruct t; cbn [marker is_number]; try discriminate; try (destruct (is_fixed t); discriminate);
    intros _ Hv; inversion Hv; subst; cbn [rtyped seen]; try assumption; cbn in *; intuition discriminate.
Qed.
Ltac inv H := inversion H; subst; try (cbn in *; intuition discriminate).
Lemma serializes_typed s g : serializes s g -> typed_at s g.
Proof.
  intros H0. induction H0 using serializes_min with
    (P0 := fun rs ts => forall vs, members_of vs rs -> typed_all (seen_all vs ts) ts); unfold typed_at in *.
  - intros t -> v Hv. now apply number_typed.
  - intros t -> v Hv. apply number_typed; [assumption|]. now apply value_ref.
  - intros t E v Hv. symmetry in E. apply value_ref in Hv. inv Hv. apply marker_str in E as [-> |[-> | ->]]; exact I.
  - intros t E v Hv. symmetry in E. apply value_ref in Hv. inv Hv. apply marker_str in E as [-> |[-> | ->]]; assumption.
  - intros t E v Hv. apply IHserializes; [assumption|]. now apply value_ref.
  - intros t E v Hv. symmetry in E. apply value_ref, value_box in Hv. inv Hv. apply marker_str in E as [-> |[-> | ->]]; exact I.
  - intros t E v Hv. symmetry in E. apply value_ref in Hv. inv Hv. apply marker_str in E as [-> |[-> | ->]]; assumption.
  - intros t E v Hv. symmetry in E. apply value_ref in Hv. inv Hv. apply marker_variant in E as ->. exact I.
  - intros u E v Hv. symmetry in E. apply marker_variant in E as ->. inv Hv.
    cbn [rtyped seen]. split; [split; assumption|]. now apply IHserializes.
  - intros t E v Hv. symmetry in E. apply marker_slice in E as (x & -> & F & ->).
    destruct (item_values _ _ _ H Hv) as (vs & Hvs & D).
    assert (A : all_typed x (map (seen x) vs)) by (eapply all_seen; [|exact Hvs]; auto).
    destruct D as [->|[[-> ->]|(w & -> & ->)]]; exact A.
  - intros t E v Hv. symmetry in E. apply marker_array in E as (x & -> & F & ->).
    destruct (item_values _ _ _ H Hv) as (vs & Hvs & D).
    assert (A : all_typed x (map (seen x) vs)) by (eapply all_seen; [|exact Hvs]; auto).
    destruct D as [->|[[-> ->]|(w & -> & ->)]]; exact A.
  - intros t E v Hv. symmetry in E. apply marker_maybe_fixed in E as (x & -> & F & ->).
    apply value_ref in Hv. inv Hv. cbn [rtyped seen]. apply IHserializes1; [reflexivity|].
    cbn [In] in *. assert (r = marker x) by intuition congruence. now subst r.
  - intros t E v Hv. symmetry in E. apply marker_maybe_fixed in E as (x & -> & F & ->).
    apply value_ref in Hv. inv Hv. cbn [rtyped seen]. apply IHserializes; [reflexivity|].
    cbn [In] in *. assert (r0 = r) by intuition congruence. now subst r0.
  - intros t E v Hv. symmetry in E. apply marker_maybe in E as (x & -> & F & ->).
    destruct (item_values _ _ _ H Hv) as (vs & Hvs & D).
    assert (A : all_typed x (map (seen x) vs)) by (eapply all_seen; [|exact Hvs]; auto).
    destruct D as [->|[[-> ->]|(w & -> & ->)]]; cbn [rtyped seen]; [|exact I|exact (proj1 A)].
    split; [|exact A]. rewrite sp_fixed_of. exact F.
  - intros t E v Hv. symmetry in E. apply value_ref in Hv. inv Hv. apply marker_bool in E as ->. exact I.
  - intros t E v Hv. symmetry in E. apply value_ref in Hv. inv Hv. apply marker_bool in E as ->. exact I.
  - intros u E v Hv. symmetry in E. apply marker_struct in E as [-> S]. apply value_ref in Hv. inv Hv.
    specialize (IHserializes _ H2). destruct t; cbn [is_struct] in S; try (destruct S); cbn [children_of] in IHserializes.
    + exact IHserializes.
    + cbn [rtyped seen children_of]. clear - IHserializes H2 H.
      change (match seen_all vs [t1; t2] with [x; y] => rtyped t1 x /\ rtyped t2 y | _ => False end).
      destruct (seen_all vs [t1; t2]) as [|a [|b [|c l]]]; cbn in IHserializes; try tauto.
  - intros vs Hv. inversion Hv; subst. exact I.
  - intros vs Hv. inv Hv. cbn. split; [now apply IHserializes|auto].
Qed.
Lemma typed_claim s t v : serializes s (marker t) -> value_of v s -> rtyped t (seen t v).
Proof. intros H Hv. exact (serializes_typed _ _ H t eq_refl v Hv). Qed.
Lemma view_refuted : exists t, usable t /\ ~ serializes (YRef (marker t)) (marker t).
Proof. exists (TM TB). split; [split; reflexivity|]. rewrite view_claim. intros [_ H]. apply H. exists [], []. reflexivity. Qed.
Lemma natural_claim t : serializes (sp_natural t) (marker t) /\ is_copy (sp_natural t) = true.
Proof. split; [apply natural_ok|apply natural_copy]. Qed.

(** ** Members *)
Lemma size_spec_fixed t : is_fixed t = true <-> sp_size t <> None.
Proof. unfold is_fixed. rewrite sp_size_of. destruct (size_of t); split; congruence. Qed.
Fixpoint copy_claim (r : rty) {struct r} : is_copy r = true <-> forall x, sp_holds r x -> ~ sp_uncopied x.
Proof.
  assert (Hleaf : forall r, sp_uncopied r -> (forall x, sp_holds r x -> ~ sp_uncopied x) -> False)
    by (intros r' H1 H2; exact (H2 r' (h_here r') H1)).
  destruct r as [ | | | | | | | | | | | | | | |r|r|r|r|t|r|r|r|rs|r|r|r|t r]; cbn [is_copy];
    try (split; [intros _ x Hx; inversion Hx; subst; cbn; tauto|reflexivity]; fail);
    try (split; [discriminate|intros H; exfalso; refine (Hleaf _ _ H); exact I]; fail).
  - rewrite size_spec_fixed. split; [intros H x Hx; inversion Hx; subst; exact H|]. intros H. exact (H _ (h_here _)).
  - rewrite (copy_claim r). split; intros H x Hx.
    + inversion Hx; subst; [cbn; tauto|auto].
    + apply H. now constructor.
  - rewrite forallb_forall. split.
    + intros H x Hx. inversion Hx as [| | | |? r ? Hin Hr]; subst; [cbn; tauto|].
      revert r Hin Hr. clear Hx. induction rs as [|a rs IHrs]; intros r Hin Hr; [destruct Hin|].
      destruct Hin as [<-|Hin].
      * refine (proj1 (copy_claim a) _ x Hr). apply H. now left.
      * apply (IHrs ltac:(intros; apply H; now right) r Hin Hr).
    + intros H. induction rs as [|a rs IHrs]; intros r Hin; [destruct Hin|]. destruct Hin as [<-|Hin].
      * refine (proj2 (copy_claim a) _). intros x Hx. apply H. apply (h_tuple _ a); [now left|exact Hx].
      * apply IHrs; [|exact Hin]. intros x Hx. inversion Hx as [| | | |? r' ? Hin' Hr]; subst; [cbn; tauto|].
        apply H. apply (h_tuple _ r'); [now right|exact Hr].
  - rewrite (copy_claim r). split; intros H x Hx.
    + inversion Hx; subst; [cbn; tauto|auto].
    + apply H. now constructor.
  - rewrite (copy_claim r). split; intros H x Hx.
    + inversion Hx; subst; [cbn; tauto|auto].
    + apply H. now constructor.
Qed.
Lemma members_all rs ts : members rs ts -> length rs = length ts /\ Forall (fun r => is_copy r = true) rs.
Proof.
  revert ts. induction rs as [|r rs IH]; intros ts H; inversion H; subst; [now split|].
  destruct (IH _ ltac:(eassumption)) as [El HF]. split; [cbn [length]; now rewrite El|]. now constructor.
Qed.
Lemma members_claim t s : serializes s (GStruct t) ->
  exists rs, s = YRef (YTuple rs) /\ length rs = length (children_of t) /\
    (forall r x, In r rs -> sp_holds r x -> ~ sp_uncopied x).
Proof.
  intros H. inversion H; subst; try discriminate.
  exists rs. destruct (members_all _ _ ltac:(eassumption)) as [Hl HF]. split; [reflexivity|]. split; [exact Hl|].
  intros r x Hr. apply copy_claim. rewrite Forall_forall in HF. auto.
Qed.
