(** Expressions and statements over fixed-size values (C141). *)
From Verif Require Import Base Types Layout AlignedBytes Strs Spec Deser Ser Buf Histories SerSpec
  BaseFacts TypesFacts LayoutFacts AlignedFacts Utf8Facts DeserFacts ArrayFacts StructFacts ReadFacts AccessFacts
  ReadClaims EncFacts RoundFacts SerMain ViewFacts SwapFacts Mut MutSpec MutFacts Copies CopiesSpec CopiesFacts.
From Coq Require Import Lia ZifyBool ZifyNat ZifyN.
Ltac Zify.zify_post_hook ::= idtac.

(** ** Defaults *)
Lemma lay_zero its : forall bodies pos, Forall (Forall (eq x00)) bodies -> Forall (eq x00) (fst (sp_lay_struct pos its bodies)).
Proof.
  induction its as [|[al s] its IH]; intros [|b bodies] pos HF; try (constructor; fail). inversion HF as [|? ? Hb HF']; subst.
  cbn [sp_lay_struct]. specialize (IH bodies (pad_to al pos + len b) HF'). destruct (sp_lay_struct _ its bodies) as [rest ends].
  cbn [fst] in *. apply Forall_app. split; [|apply Forall_app; auto]. unfold nuls. clear. induction (N.to_nat _); cbn; constructor; auto.
Qed.
Lemma all_zero d : Forall (eq x00) d -> d = zeros (blen d).
Proof.
  intros H. unfold zeros, blen. rewrite Nat2N.id. induction H as [|b d <- _ IH]; [reflexivity|]. cbn [length repeat]. now rewrite <- IH.
Qed.
Lemma zeros_zero n : Forall (eq x00) (zeros n).
Proof. unfold zeros. induction (N.to_nat n); cbn; constructor; auto. Qed.
Lemma whole_zero t n : is_struct t -> size_of t = Some n ->
  whole t n (map (fun c => zeros (size_or_0 c)) (children_of t)) = zeros n.
Proof.
  intros Hs Hn.
  assert (HF : fits_in t (map (fun c => zeros (size_or_0 c)) (children_of t))).
  { unfold fits_in. generalize (children_of t). induction l; cbn [map]; constructor; auto. apply blen_zeros. }
  destruct (whole_cut t n _ Hs Hn HF) as [Hl _]. rewrite <- Hl at 2. apply all_zero. unfold whole, sp_struct_bytes.
  pose proof (lay_zero (items_of (children_of t)) (map (fun c => zeros (size_or_0 c)) (children_of t)) 0) as HZ.
  destruct (sp_lay_struct _ _ _) as [body ends]. cbn [fst] in HZ. apply Forall_app. split; [|exact (zeros_zero _)]. apply HZ.
  apply Forall_forall. intros x Hx. apply in_map_iff in Hx as (c & <- & _). apply zeros_zero.
Qed.
Lemma default_struct t : is_struct t -> has_default t = forallb has_default (children_of t).
Proof. destruct t; cbn [is_struct]; try tauto; intros _; cbn [has_default children_of forallb]; try reflexivity. now rewrite andb_true_r. Qed.
Lemma defaulted_struct junk t : is_struct t ->
  defaulted junk t = let* vals := mapM (defaulted junk) (children_of t) in struct_new junk t vals.
Proof.
  destruct t as [| | | | | | | | | | | | |x|x|ts|a b]; cbn [is_struct]; try tauto; intros _; cbn [defaulted children_of].
  - f_equal. induction ts as [|c ts IH]; [reflexivity|]. cbn [mapM]. destruct (defaulted junk c); cbn [bind]; [|reflexivity]. now rewrite IH.
  - cbn [mapM]. destruct (defaulted junk a); cbn [bind]; [|reflexivity]. destruct (defaulted junk b); reflexivity.
Qed.
Lemma decode_none big t n : size_of t = Some n -> sp_decode big t None = sp_decode big t (Some (zeros n)).
Proof.
  intros Hn. rewrite (sp_decode_norm big t None), (norm_fixed t n None Hn). reflexivity.
Qed.
Lemma defaulted_exact junk t : forall n, size_of t = Some n -> macro_ok t = true -> has_default t = true -> defaulted junk t = Ok (zeros n).
Proof.
  induction t as [t Hns _|t Hs IH] using ty_struct_ind; intros n Hn Hm Hd.
  - destruct t; cbn [is_struct] in Hns; try tauto; cbn in Hn; try discriminate; injection Hn as <-; try discriminate Hd; reflexivity.
  - rewrite defaulted_struct by assumption. rewrite default_struct in Hd by assumption.
    pose proof (fixed_children t n Hs Hn) as Hfix. pose proof Hm as Hm'. rewrite macro_ok_struct in Hm' by assumption.
    apply andb_true_iff in Hm' as [Hmc _].
    assert (E : mapM (defaulted junk) (children_of t) = Ok (map (fun c => zeros (size_or_0 c)) (children_of t))).
    { revert IH Hfix Hmc Hd. generalize (children_of t). clear. induction l as [|c ts IHl]; intros IH Hfix Hmc Hd; [reflexivity|].
      inversion IH; subst. inversion Hfix as [|? ? Hc Hfix']; subst. cbn [forallb] in *. apply andb_true_iff in Hmc as [? ?]. apply andb_true_iff in Hd as [? ?].
      cbn [mapM map]. unfold is_fixed in Hc. unfold size_or_0 at 1. destruct (size_of c) as [k|] eqn:Ek; [|discriminate].
      rewrite (H1 k) by auto. cbn [bind]. now rewrite IHl. }
    rewrite E. cbn [bind]. rewrite (struct_new_bytes junk t n) by (auto; generalize (children_of t); induction l; cbn [map]; constructor; auto; apply blen_zeros).
    f_equal. now apply whole_zero.
Qed.
Lemma zeros_normal big t : forall n, size_of t = Some n -> normal big t (zeros n).
Proof.
  induction t as [t Hns _|t Hs IH] using ty_struct_ind; intros n Hn.
  - destruct t; cbn [is_struct] in Hns; try tauto; cbn in Hn; try discriminate; injection Hn as <-; destruct big; vm_compute; reflexivity.
  - rewrite <- (whole_zero t n) by assumption. apply whole_normal; auto.
    + unfold fits_in. generalize (children_of t). induction l; cbn [map]; constructor; auto. apply blen_zeros.
    + pose proof (fixed_children t n Hs Hn) as Hfix. revert IH Hfix. generalize (children_of t). clear. induction l as [|c ts IHl]; intros IH Hfix; cbn [map]; constructor.
      * inversion IH; subst. inversion Hfix as [|? ? Hc _]; subst. unfold is_fixed, size_or_0 in *. destruct (size_of c) as [k|]; [auto|discriminate].
      * inversion IH; inversion Hfix; subst. auto.
Qed.

(** ** Expressions *)
Definition good (m : memory) : Prop :=
  Forall (fun v => macro_ok (fst v) = true /\ size_of (fst v) = Some (blen (snd v))) m.
Lemma values_good m : holds_values m -> good m.
Proof. apply Forall_impl. intros [t d] [[Hm _] Hn]. rewrite sp_size_of in Hn. auto. Qed.
Lemma values_nth big m x t d : nth_error m x = Some (t, d) -> nth_error (the_values big m) x = Some (t, sp_decode big t (Some d)).
Proof. intros H. unfold the_values. rewrite nth_error_map, H. reflexivity. Qed.
Lemma type_at_memory big m x p t : sp_type_at (the_values big m) x p = Some t ->
  exists u d o, nth_error m x = Some (u, d) /\ sp_member u p = Some (o, t).
Proof.
  unfold sp_type_at, the_values. rewrite nth_error_map. destruct (nth_error m x) as [[u d]|]; [|discriminate]. cbn [option_map fst snd].
  destruct (sp_member u p) as [[o c]|] eqn:E; [|discriminate]. intros [= ->]. eauto 6.
Qed.
Lemma expr_ind' (P : expr -> Prop) :
  (forall z, P (EInt z)) -> (forall b, P (EDouble b)) -> (forall x p, P (ECopy x p)) -> P EDefault ->
  (forall es, Forall P es -> P (ENew es)) -> forall e, P e.
Proof.
  intros H1 H2 H3 H4 H5. fix IH 1. intros [z|b|x p| |es]; [apply H1|apply H2|apply H3|exact H4|]. apply H5. induction es as [|e es IHes]; constructor; [apply IH|exact IHes].
Qed.
Definition esteps (m : vars) := fix all (es : list expr) (ts : list ty) : Prop :=
  match es, ts with
  | [], [] => True
  | e :: es, t :: ts => etyped m t e /\ all es ts
  | _, _ => False
  end.
Lemma eval_exact h junk m e : good m -> forall t n, size_of t = Some n -> macro_ok t = true ->
  etyped (the_values (h_big_endian h) m) t e ->
  exists d, eval h junk m t e = Ok d /\ blen d = n /\
    sp_decode (h_big_endian h) t (Some d) = sp_eval (h_big_endian h) (the_values (h_big_endian h) m) t e /\
    (all_normal (h_big_endian h) m -> normal (h_big_endian h) t d).
Proof.
  intros Hg. set (big := h_big_endian h) in *. induction e as [z|b|x p| |es IH] using expr_ind'; intros t n Hn Hm Ht; cbn [etyped] in Ht.
  - destruct (image_exact h junk t n (RInt z) Hn Hm Ht eq_refl) as (H1 & H2 & H3 & H4). fold big in H1, H2, H3, H4.
    exists (sp_image big t (RInt z)). cbn [eval sp_eval]. split; [exact H1|]. split; [exact H2|].
    assert (Ev : rvalue false big t (RInt z) = VInt z) by (destruct t; reflexivity).
    split; [now rewrite H3|]. intros _. unfold normal. rewrite H3. now apply H4.
  - destruct (image_exact h junk t n (RDouble b) Hn Hm Ht eq_refl) as (H1 & H2 & H3 & H4). fold big in H1, H2, H3, H4.
    exists (sp_image big t (RDouble b)). cbn [eval sp_eval]. split; [exact H1|]. split; [exact H2|].
    assert (Ev : rvalue false big t (RDouble b) = VDouble b) by (destruct t; reflexivity).
    split; [now rewrite H3|]. intros _. unfold normal. rewrite H3. now apply H4.
  - destruct (type_at_memory big m x p t Ht) as (u & d & o & Hx & Hp). cbn [eval sp_eval]. rewrite Hx.
    pose proof (proj1 (Forall_forall _ _) Hg _ (nth_error_In _ _ Hx)) as [Hmu Hnu]. cbn [fst snd] in Hmu, Hnu.
    destruct (member_exact big p u (blen d) o t Hnu Hmu Hp) as (Hpl & Hmc & _).
    destruct (member_read big p u (blen d) o t Hnu Hp) as (k & Hk & Hle & Hd). assert (k = n) by congruence. subst k.
    destruct (Hd d eq_refl) as [Hv HN]. rewrite Hpl. cbn [bind fst snd]. destruct (ty_dec t t) as [_|]; [|congruence].
    assert (Esz : sized t = n) by (unfold sized; now rewrite (mem_layout_ok t n)). rewrite Esz.
    exists (sub d o n). change (take n (drop o d)) with (sub d o n).
    assert (Hl : blen (sub d o n) = n) by (apply sub_len_min; lia).
    split; [now apply (copied_exact junk t n)|]. split; [exact Hl|]. split.
    + rewrite <- Hv. erewrite (nth_error_nth (the_values big m) x); [|apply (values_nth big); exact Hx]. reflexivity.
    + intros Hall. apply HN. exact (proj1 (Forall_forall _ _) Hall _ (nth_error_In _ _ Hx)).
  - exists (zeros n). cbn [eval sp_eval]. split; [now apply defaulted_exact|]. split; [apply blen_zeros|].
    split; [symmetry; now apply decode_none|]. intros _. now apply zeros_normal.
  - destruct Ht as [Hst Hall]. change (esteps (the_values big m) es (sp_components t)) in Hall.
    assert (Hs : is_struct t) by (destruct t; cbn in Hst |- *; auto; discriminate).
    assert (Ec : sp_components t = children_of t) by (destruct t; cbn in Hs; tauto || reflexivity). rewrite Ec in Hall.
    pose proof (fixed_children t n Hs Hn) as Hfix. pose proof Hm as Hm'. rewrite macro_ok_struct in Hm' by assumption.
    apply andb_true_iff in Hm' as [Hmc _].
    assert (HE : exists ds, mapM (fun q => eval h junk m (fst q) (snd q)) (combine (children_of t) es) = Ok ds /\ fits_in t ds /\
      map (fun q => sp_decode big (fst q) (Some (snd q))) (combine (children_of t) ds) =
        map (fun q => sp_eval big (the_values big m) (fst q) (snd q)) (combine (children_of t) es) /\
      (all_normal big m -> Forall2 (normal big) (children_of t) ds) /\ length es = length (children_of t)).
    { unfold fits_in. revert Hall Hfix Hmc. generalize (children_of t). clear -IH. induction IH as [|e es He _ IHes]; intros [|c ts] Hall Hfix Hmc; cbn [esteps] in Hall; try tauto.
      - exists []. cbn. repeat split; auto.
      - destruct Hall as [Ht Hall]. inversion Hfix as [|? ? Hc Hfix']; subst. cbn [forallb] in Hmc. apply andb_true_iff in Hmc as [Hm1 Hm2].
        destruct (IHes ts Hall Hfix' Hm2) as (ds & H1 & H2 & H3 & H4 & H5).
        unfold is_fixed in Hc. destruct (size_of c) as [k|] eqn:Ek; [|discriminate].
        destruct (He c k Ek Hm1 Ht) as (d & G1 & G2 & G3 & G4). exists (d :: ds). cbn [combine mapM map fst snd length]. rewrite G1. cbn [bind]. rewrite H1. cbn [bind].
        split; [reflexivity|]. split; [constructor; [unfold size_or_0; now rewrite Ek|exact H2]|]. split; [now rewrite G3, H3|]. split; [|now rewrite H5].
        intros Ha. constructor; auto. }
    destruct HE as (ds & H1 & H2 & H3 & H4 & H5). exists (whole t n ds).
    assert (EV : eval h junk m t (ENew es) = let* vals := mapM (fun q => eval h junk m (fst q) (snd q)) (combine (children_of t) es) in struct_new junk t vals).
    { assert (E : forall ts, (fix go (es : list expr) (ts : list ty) : res (list (list byte)) :=
                            match es, ts with
                            | e :: es', t :: ts' =>
                                let* v := eval h junk m t e in let* vs := go es' ts' in Ok (v :: vs)
                            | _, _ => Ok []
                            end) es ts = mapM (fun q => eval h junk m (fst q) (snd q)) (combine ts es)).
      { clear. induction es as [|e es IHe]; intros [|c ts]; try reflexivity. cbn [combine mapM fst snd]. now rewrite IHe. }
      destruct t; cbn [is_struct] in Hs; try tauto; cbn [eval children_of] in *; rewrite <- H5, Nat.eqb_refl, E; reflexivity. }
    assert (SV : sp_eval big (the_values big m) t (ENew es) = VTuple (map (fun q => sp_eval big (the_values big m) (fst q) (snd q)) (combine (children_of t) es))).
    { cbn [sp_eval]. rewrite Ec. f_equal. generalize (children_of t). clear. induction es as [|e es IHe]; intros [|c ts]; try reflexivity. cbn [combine map fst snd]. now rewrite IHe. }
    rewrite EV, H1. cbn [bind]. split; [now apply struct_new_bytes|].
    split; [now apply (whole_cut t n ds)|]. split; [rewrite whole_decode by assumption; now rewrite SV, H3|].
    intros Ha. apply whole_normal; auto.
Qed.

(** ** Statements *)
Lemma store_nth m x o new y : nth_error (store m x o new) y =
  if Nat.eqb y x then match nth_error m y with Some (t, d) => Some (t, splice d o new) | None => None end else nth_error m y.
Proof.
  revert x y. induction m as [|[t d] m IH]; intros [|x] [|y]; cbn [store nth_error Nat.eqb]; try reflexivity; [now destruct (Nat.eqb _ _)|]. apply IH.
Qed.
Lemma store_length m x o new : length (store m x o new) = length m.
Proof. revert x. induction m as [|[t d] m IH]; intros [|x]; cbn [store length]; auto. Qed.
Lemma Forall_nth {A} (P : A -> Prop) l : (forall i a, nth_error l i = Some a -> P a) -> Forall P l.
Proof. intros H. apply Forall_forall. intros x Hx. apply In_nth_error in Hx as [i Hi]. eauto. Qed.
Lemma set_exact big m x p new u d o t k :
  holds_values m -> nth_error m x = Some (u, d) -> sp_member u p = Some (o, t) -> size_of t = Some k -> blen new = k ->
  holds_values (store m x o new) /\
  the_values big (store m x o new) = sp_set (the_values big m) x p (sp_decode big t (Some new)) /\
  (all_normal big m -> normal big t new -> all_normal big (store m x o new)).
Proof.
  intros Hh Hx Hp Hk Hl.
  pose proof (proj1 (Forall_forall _ _) Hh _ (nth_error_In _ _ Hx)) as [Hu Hn]. cbn [fst snd] in Hu, Hn. pose proof Hu as [Hmu _].
  rewrite sp_size_of in Hn. change (len d) with (blen d) in Hn.
  destruct (member_exact big p u (blen d) o t Hn Hmu Hp) as (_ & _ & k' & Hk' & Hle & Hdec). assert (k' = k) by congruence. subst k'.
  destruct (member_read big p u (blen d) o t Hn Hp) as (k' & Hk2 & _ & Hrd). assert (k' = k) by congruence. subst k'.
  destruct (Hrd d eq_refl) as [_ HN].
  assert (Hcase : forall y v, nth_error (store m x o new) y = Some v ->
    (y = x /\ v = (u, splice d o new)) \/ (y <> x /\ nth_error m y = Some v)).
  { intros y v Hy. rewrite store_nth in Hy. destruct (Nat.eqb y x) eqn:E; [apply Nat.eqb_eq in E; subst y; rewrite Hx in Hy|apply Nat.eqb_neq in E; auto].
    injection Hy as <-. auto. }
  split; [|split].
  - apply Forall_nth. intros y v Hy. destruct (Hcase y v Hy) as [[_ ->]|[_ Hy']].
    + cbn [fst snd]. split; [exact Hu|]. rewrite sp_size_of, Hn. f_equal. change (@len byte) with (@blen byte). rewrite splice_len; lia.
    + exact (proj1 (Forall_forall _ _) Hh _ (nth_error_In _ _ Hy')).
  - apply nth_error_same.
    { unfold sp_set, the_values. rewrite !map_length, combine_length, seq_length, !map_length, store_length. lia. }
    intros y a b Ha Hb. unfold the_values in Ha. rewrite nth_error_map in Ha.
    destruct (nth_error (store m x o new) y) as [v|] eqn:Ey; [|discriminate]. injection Ha as <-.
    assert (Hy0 : exists w, nth_error m y = Some w).
    { destruct (nth_error m y) eqn:E; [eauto|]. apply nth_error_None in E. rewrite <- (store_length m x o new) in E. apply nth_error_None in E. congruence. }
    destruct Hy0 as [[tw dw] Hw]. unfold sp_set in Hb.
    rewrite (map_at_nth (fun j w => if Nat.eqb j x then (fst w, sp_replace (snd w) p (sp_decode big t (Some new))) else w) _ 0 y _ (values_nth big m y _ _ Hw)) in Hb.
    cbn [Nat.add fst snd] in Hb. injection Hb as <-. destruct (Hcase y v Ey) as [[-> ->]|[Hne Hy']].
    + rewrite Nat.eqb_refl. rewrite Hx in Hw. injection Hw as <- <-. cbn [fst snd]. now rewrite (Hdec d new eq_refl Hl).
    + rewrite (proj2 (Nat.eqb_neq y x) Hne). rewrite Hw in Hy'. injection Hy' as <-. reflexivity.
  - intros Ha HNw. apply Forall_nth. intros y v Hy. destruct (Hcase y v Hy) as [[_ ->]|[_ Hy']].
    + cbn [fst snd]. apply HN; auto. exact (proj1 (Forall_forall _ _) Ha _ (nth_error_In _ _ Hx)).
    + exact (proj1 (Forall_forall _ _) Ha _ (nth_error_In _ _ Hy')).
Qed.
Lemma set_place_exact h junk m0 m x p e t k : let big := h_big_endian h in
  holds_values m0 -> holds_values m -> sp_type_at (the_values big m) x p = Some t -> etyped (the_values big m0) t e -> size_of t = Some k -> macro_ok t = true ->
  exists m', set_place m x p (fun t => eval h junk m0 t e) = Ok m' /\ holds_values m' /\
    the_values big m' = sp_set (the_values big m) x p (sp_eval big (the_values big m0) t e) /\
    (all_normal big m0 -> all_normal big m -> all_normal big m').
Proof.
  intros big Hh0 Hh Ht He Hk Hmk. destruct (type_at_memory big m x p t Ht) as (u & d & o & Hx & Hp).
  destruct (eval_exact h junk m0 e (values_good m0 Hh0) t k Hk Hmk He) as (new & E & Hl & Hv & HN). fold big in Hv, HN.
  pose proof (proj1 (Forall_forall _ _) (values_good m Hh) _ (nth_error_In _ _ Hx)) as [Hmu Hnu]. cbn [fst snd] in Hmu, Hnu.
  destruct (member_exact big p u (blen d) o t Hnu Hmu Hp) as (Hpl & _).
  destruct (set_exact big m x p new u d o t k Hh Hx Hp Hk Hl) as (H1 & H2 & H3).
  exists (store m x o new). unfold set_place. rewrite Hx, Hpl. cbn [bind fst snd]. rewrite E. cbn [bind].
  split; [reflexivity|]. split; [exact H1|]. split; [now rewrite H2, Hv|]. intros Ha0 Ha. auto.
Qed.
Lemma type_at_sized big m x p t : holds_values m -> sp_type_at (the_values big m) x p = Some t ->
  exists k, size_of t = Some k /\ macro_ok t = true.
Proof.
  intros Hh Ht. destruct (type_at_memory big m x p t Ht) as (u & d & o & Hx & Hp).
  pose proof (proj1 (Forall_forall _ _) (values_good m Hh) _ (nth_error_In _ _ Hx)) as [Hmu Hnu]. cbn [fst snd] in Hmu, Hnu.
  destruct (member_exact big p u (blen d) o t Hnu Hmu Hp) as (_ & Hm & k & Hk & _). eauto.
Qed.
Lemma type_at_set m x p v y q : sp_type_at (sp_set m x p v) y q = sp_type_at m y q.
Proof.
  unfold sp_type_at, sp_set.
  destruct (nth_error m y) as [[u w]|] eqn:E.
  - rewrite (map_at_nth (fun j w => if Nat.eqb j x then (fst w, sp_replace (snd w) p v) else w) m 0 y _ E). cbn [Nat.add fst snd].
    now destruct (Nat.eqb y x).
  - assert (E2 : nth_error (map (fun jw => if Nat.eqb (fst jw) x then (fst (snd jw), sp_replace (snd (snd jw)) p v) else snd jw) (combine (seq 0 (length m)) m)) y = None).
    { apply nth_error_None. apply nth_error_None in E. rewrite map_length, combine_length, seq_length. lia. }
    now rewrite E2.
Qed.
Lemma exec_exact h junk m s : let big := h_big_endian h in
  holds_values m -> stmt_ok (the_values big m) s ->
  exists m', exec h junk m s = Ok m' /\ holds_values m' /\ the_values big m' = sp_exec big (the_values big m) s /\
    (all_normal big m -> all_normal big m').
Proof.
  intros big Hh Hs. destruct s as [t e|x p e|x p y q]; cbn [stmt_ok exec sp_exec] in *.
  - destruct Hs as (Hu & Hf & He). unfold sp_fixed in Hf. destruct (sp_size t) as [k|] eqn:Ek; [|discriminate]. rewrite sp_size_of in Ek.
    destruct (eval_exact h junk m e (values_good m Hh) t k Ek (proj1 Hu) He) as (d & E & Hl & Hv & HN). fold big in Hv, HN.
    exists (m ++ [(t, d)]). rewrite E. cbn [bind]. split; [reflexivity|]. split; [|split].
    + apply Forall_app. split; [exact Hh|]. constructor; [|constructor]. cbn [fst snd]. split; [exact Hu|]. rewrite sp_size_of, Ek. f_equal. now symmetry.
    + unfold the_values. rewrite map_app. cbn [map fst snd]. now rewrite Hv.
    + intros Ha. apply Forall_app. split; [exact Ha|]. constructor; [|constructor]. now apply HN.
  - destruct Hs as (t & Ht & He). destruct (type_at_sized big m x p t Hh Ht) as (k & Hk & Hmk).
    destruct (set_place_exact h junk m m x p e t k Hh Hh Ht He Hk Hmk) as (m' & E & H1 & H2 & H3). fold big in H2, H3.
    exists m'. rewrite Ht. auto.
  - destruct Hs as (t & Ht & Ht'). destruct (type_at_sized big m x p t Hh Ht) as (k & Hk & Hmk).
    destruct (set_place_exact h junk m m x p (ECopy y q) t k Hh Hh Ht Ht' Hk Hmk) as (m1 & E & H1 & H2 & H3). fold big in H2, H3.
    assert (Ht1 : sp_type_at (the_values big m1) y q = Some t) by now rewrite H2, type_at_set.
    destruct (set_place_exact h junk m m1 y q (ECopy x p) t k Hh H1 Ht1 Ht Hk Hmk) as (m2 & E2 & G1 & G2 & G3). fold big in G2, G3.
    exists m2. rewrite E. cbn [bind]. rewrite E2, Ht. split; [reflexivity|]. split; [exact G1|]. split; [now rewrite G2, H2|]. auto.
Qed.
Lemma execs_exact h ss : let big := h_big_endian h in forall m,
  holds_values m -> stmts_ok big (the_values big m) (map snd ss) ->
  exists m', execs h m ss = Ok m' /\ holds_values m' /\ the_values big m' = sp_execs big (the_values big m) (map snd ss) /\
    (all_normal big m -> all_normal big m').
Proof.
  intros big. induction ss as [|[junk s] ss IH]; intros m Hh Hs; cbn [map snd stmts_ok execs sp_execs] in *.
  - exists m. auto.
  - destruct Hs as [H1 H2]. destruct (exec_exact h junk m s Hh H1) as (m1 & E & G1 & G2 & G3). fold big in G2, G3.
    rewrite <- G2 in H2. destruct (IH m1 G1 H2) as (m2 & E2 & K1 & K2 & K3).
    exists m2. rewrite E. cbn [bind]. split; [exact E2|]. split; [exact K1|]. split; [now rewrite K2, G2|]. auto.
Qed.

(** ** Statements used by the property file *)
Lemma copy_claim junk t n d : usable t -> sp_size t = Some n -> len d = n -> copied junk t d = Ok d.
Proof. intros [Hm _] Hn Hd. rewrite sp_size_of in Hn. now apply (copied_exact junk t n). Qed.
Lemma default_claim junk h t n : usable t -> sp_size t = Some n -> has_default t = true ->
  defaulted junk t = Ok (nuls n) /\ sp_encode (h_big_endian h) t (sp_default (h_big_endian h) t) = nuls n.
Proof.
  intros [Hm _] Hn Hd. rewrite sp_size_of in Hn. split; [now apply defaulted_exact|].
  unfold sp_default. rewrite (decode_none _ t n Hn). symmetry. now apply zeros_normal.
Qed.
Lemma records_claim h m ss : let big := h_big_endian h in
  holds_values m -> stmts_ok big (the_values big m) (map snd ss) ->
  exists m', execs h m ss = Ok m' /\ holds_values m' /\
    Forall2 (fun b v => fst b = fst v /\ forall a, a mod sp_align (fst b) = 0 -> decode h (fst b) (Slice a (snd b)) = Ok (snd v))
      m' (sp_execs big (the_values big m) (map snd ss)).
Proof.
  intros big Hh Hs. destruct (execs_exact h ss m Hh Hs) as (m' & E & H1 & H2 & _). fold big in H2. exists m'. split; [exact E|]. split; [exact H1|].
  rewrite <- H2. clear -H1. unfold the_values. induction H1 as [|[t d] m [Hu Hn] _ IH]; cbn [map fst snd] in *; constructor; [|exact IH].
  cbn [fst snd]. split; [reflexivity|]. intros a Ha. now apply (fixed_decode_claim h t (Slice a d) (len d) Hu Hn Ha).
Qed.
Lemma normal_claim h m ss : let big := h_big_endian h in
  holds_values m -> stmts_ok big (the_values big m) (map snd ss) -> all_normal big m ->
  exists m', execs h m ss = Ok m' /\ all_normal big m'.
Proof.
  intros big Hh Hs Ha. destruct (execs_exact h ss m Hh Hs) as (m' & E & _ & _ & H). exists m'. split; [exact E|]. now apply H.
Qed.
