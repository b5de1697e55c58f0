(** Values with parts of the program's own: what is written. *)
From Verif Require Import Base Types Layout AlignedBytes Strs Spec Deser Ser Histories SerSpec Custom CustomSpec
  BaseFacts TypesFacts LayoutFacts AlignedFacts Utf8Facts DeserFacts ArrayFacts StructFacts ReadFacts AccessFacts EncFacts RoundFacts SerFacts SerStruct SerMain.
From Coq Require Import Lia ZifyBool ZifyNat ZifyN.
Ltac Zify.zify_post_hook ::= idtac.

Lemma cval_nest (P : cval -> Prop) :
  (forall i, P (COwn i)) -> (forall r, P (CPlain r)) ->
  (forall t c, P c -> P (CWrap t c)) -> (forall cs, Forall P cs -> P (CList cs)) ->
  (forall o, (forall c, o = Some c -> P c) -> P (COpt o)) -> (forall cs, Forall P cs -> P (CTuple cs)) ->
  forall c, P c.
Proof.
  intros H1 H2 H3 H4 H5 H6. fix IH 1. intros [i|r|t c|cs|[c|]|cs].
  - apply H1. - apply H2.
  - apply H3, IH.
  - apply H4. induction cs as [|c cs IHr]; constructor; [apply IH|apply IHr].
  - apply H5. intros c' E. apply Some_inj in E as <-. apply IH.
  - apply H5. discriminate.
  - apply H6. induction cs as [|c cs IHr]; constructor; [apply IH|apply IHr].
Qed.

(** ** Structures, uniformly *)
Definition csers {K} {W : Write K} (h : host) (own : N -> M K N) (ts : list ty) (cs : list cval) : list (M K N) :=
  map (fun p => cser h own (snd p) (fst p)) (combine ts cs).
Lemma ctyped_struct t cs : is_struct t -> ctyped t (CTuple cs) -> Forall2 ctyped (children_of t) cs.
Proof.
  intros Hs H. destruct t as [| | | | | | | | | | | | |x|x|ts|a b]; cbn [is_struct] in Hs; try tauto; cbn [ctyped children_of] in *.
  - revert ts H. clear Hs. induction cs as [|c cs IH]; intros [|t ts] H; try contradiction; constructor; try tauto. apply IH. tauto.
  - destruct cs as [|x [|y [|]]]; try contradiction. destruct H. repeat constructor; auto.
Qed.
Lemma cparts_struct t cs : is_struct t ->
  cparts t (CTuple cs) = flat_map (fun p => cparts (fst p) (snd p)) (combine (children_of t) cs).
Proof.
  intros Hs. destruct t as [| | | | | | | | | | | | |x|x|ts|a b]; cbn [is_struct] in Hs; try tauto; cbn [cparts children_of].
  - clear Hs. revert ts. induction cs as [|r rs IH]; intros [|t ts]; try reflexivity. cbn [combine flat_map fst snd]. now rewrite IH.
  - destruct cs as [|x [|y [|]]]; reflexivity.
Qed.
Lemma cbytes_struct say big t cs : is_struct t ->
  cbytes say big t (CTuple cs) =
  sp_struct_bytes (size_of t) (items_of (children_of t)) (map (fun p => cbytes say big (fst p) (snd p)) (combine (children_of t) cs)).
Proof.
  intros Hs.
  assert (HI : forall ts, map (fun t => (sp_align t, sp_size t)) ts = items_of ts).
  { intros ts. unfold items_of. apply map_ext. intros. now rewrite sp_align_of, sp_size_of. }
  destruct t as [| | | | | | | | | | | | |x|x|ts|a b]; cbn [is_struct] in Hs; try tauto; cbn [cbytes children_of];
    rewrite sp_size_of, HI; f_equal.
  - clear Hs. revert ts. induction cs as [|r rs IH]; intros [|t ts]; try reflexivity. cbn [combine map fst snd]. now rewrite IH.
  - destruct cs as [|x [|y [|]]]; reflexivity.
Qed.
Lemma cvalue_struct say big t cs : is_struct t ->
  cvalue say big t (CTuple cs) = VTuple (map (fun p => cvalue say big (fst p) (snd p)) (combine (children_of t) cs)).
Proof.
  intros Hs. destruct t as [| | | | | | | | | | | | |x|x|ts|a b]; cbn [is_struct] in Hs; try tauto; cbn [cvalue children_of]; f_equal.
  - clear Hs. revert ts. induction cs as [|r rs IH]; intros [|t ts]; try reflexivity. cbn [combine map fst snd]. now rewrite IH.
  - destruct cs as [|x [|y [|]]]; reflexivity.
Qed.
Lemma ctails_struct say big t cs : is_struct t -> ctails say big t (CTuple cs) ->
  forall c x, In (c, x) (combine (children_of t) cs) -> ctails say big c x.
Proof.
  intros Hs. destruct t as [| | | | | | | | | | | | |x|x|ts|a b]; cbn [is_struct] in Hs; try tauto; cbn [ctails children_of].
  - clear Hs. revert ts. induction cs as [|r rs IH]; intros [|t ts] H c x Hin; try contradiction. cbn [combine] in Hin.
    destruct H as [H1 H2]. destruct Hin as [E|Hin]; [now inversion E; subst|]. exact (IH ts H2 c x Hin).
  - intros H c x Hin. destruct cs as [|x1 [|x2 cs]]; cbn [combine] in Hin.
    + destruct Hin.
    + destruct Hin as [E|[]]. inversion E; subst. tauto.
    + destruct H as (H1 & H2 & _). destruct Hin as [E|[E|[]]]; inversion E; subst; auto.
Qed.
Lemma cser_struct_eq {K} {W : Write K} h own t cs : is_struct t -> length cs = length (children_of t) ->
  cser h own (CTuple cs) t = ser_struct h t (csers h own (children_of t) cs).
Proof.
  intros Hs Hl. destruct t as [| | | | | | | | | | | | |x|x|ts|a b]; cbn [is_struct] in Hs; try tauto; cbn [cser children_of] in *;
    rewrite Hl, Nat.eqb_refl; f_equal.
  - clear Hs Hl. revert ts. induction cs as [|r rs IH]; intros [|t ts]; try reflexivity. unfold csers in *. cbn [combine map fst snd]. now rewrite IH.
  - destruct cs as [|x [|y [|]]]; reflexivity.
Qed.
Lemma ctyped_list x cs : ctyped (TA x) (CList cs) <-> Forall (ctyped x) cs.
Proof.
  cbn [ctyped]. induction cs as [|r rs IH]; [split; auto|]. rewrite IH. split; [intros []; constructor; auto|intros H; inversion H; auto].
Qed.
Lemma ctyped_mlist x cs : ctyped (TM x) (CList cs) <-> sp_fixed x = false /\ Forall (ctyped x) cs.
Proof. change (ctyped (TM x) (CList cs)) with (sp_fixed x = false /\ ctyped (TA x) (CList cs)). now rewrite ctyped_list. Qed.

(** ** Sizes *)
Definition own_sizes (say : N -> list byte) (l : list (ty * (N + rval))) : Prop :=
  forall t i n, In (t, inl i) l -> sp_size t = Some n -> len (say i) = n.
Lemma cbytes_fixed say big t : forall c n, size_of t = Some n -> ctyped t c -> own_sizes say (cparts t c) ->
  len (cbytes say big t c) = n.
Proof.
  induction t as [t Hns IH|t Hs IH] using ty_struct_ind; intros c n Hn Ht Ho.
  - destruct c as [i|r|u c|cs|o|cs].
    + assert (E : cbytes say big t (COwn i) = say i) by (destruct t; reflexivity). rewrite E.
      apply (Ho t i n); [destruct t; left; reflexivity|]. now rewrite sp_size_of.
    + assert (E : cbytes say big t (CPlain r) = sp_written big t (rvalue true big t r)) by (destruct t; reflexivity). rewrite E.
      apply (fixed_len true big t r n Hn). destruct t; exact Ht.
    + destruct t; cbn [ctyped] in Ht; try tauto; discriminate.
    + destruct t; cbn [ctyped] in Ht; try tauto; discriminate.
    + destruct t; cbn [ctyped] in Ht; try tauto; discriminate.
    + destruct t; cbn [ctyped is_struct] in *; tauto.
  - destruct c as [i|r|u c|cs|o|cs].
    + assert (E : cbytes say big t (COwn i) = say i) by (destruct t; reflexivity). rewrite E.
      apply (Ho t i n); [destruct t; left; reflexivity|]. now rewrite sp_size_of.
    + assert (E : cbytes say big t (CPlain r) = sp_written big t (rvalue true big t r)) by (destruct t; reflexivity). rewrite E.
      apply (fixed_len true big t r n Hn). destruct t; exact Ht.
    + destruct t; cbn [ctyped is_struct] in *; tauto.
    + destruct t; cbn [ctyped is_struct] in *; tauto.
    + destruct t; cbn [ctyped is_struct] in *; tauto.
    + apply ctyped_struct in Ht; [|assumption]. rewrite cbytes_struct by assumption. rewrite Hn.
      rewrite cparts_struct in Ho by assumption.
      pose proof (fixed_children t n Hs Hn) as Hfix. pose proof (size_of_fixed_struct t n Hs Hn) as Hsz.
      assert (Ei : items_of (children_of t) = map (fun it => (fst it, Some (snd it))) (fixed_items (children_of t))).
      { unfold items_of, fixed_items. rewrite map_map. apply map_ext_in. intros c Hc. cbn [fst snd].
        rewrite Forall_forall in Hfix. specialize (Hfix c Hc). unfold is_fixed, size_or_0 in *. now destruct (size_of c). }
      rewrite Ei. apply struct_bytes_fixed.
      * unfold fixed_items. clear -IH Ht Ho Hfix. revert Ho.
        induction Ht as [|c x cs xs Hc _ IHF]; intros Ho; cbn [map combine]; constructor.
        -- cbn [fst snd]. inversion Hfix; inversion IH; subst. unfold size_or_0, is_fixed in *. destruct (size_of c) as [m|] eqn:E; [|discriminate].
           match goal with H : forall c n, _ |- _ => apply (H x m eq_refl Hc) end.
           intros t' i n' Hin. apply (Ho t' i n'). cbn [combine flat_map fst snd]. apply in_or_app. now left.
        -- inversion Hfix; inversion IH; subst. apply IHF; auto.
           intros t' i n' Hin. apply (Ho t' i n'). cbn [combine flat_map fst snd]. apply in_or_app. now right.
      * unfold fixed_items. apply Forall_map. apply Forall_forall. intros. cbn. auto with al.
      * destruct (children_of t); [cbn; lia|]. rewrite Hsz. apply pad_to_ge. auto with al.
Qed.

(** ** What is written *)
Definition own_honest (own : N -> M sink N) (say : N -> list byte) (l : list (ty * (N + rval))) : Prop :=
  forall t i, In (t, inl i) l -> writes (own i) (say i) (SOk (len (say i))).
Definition plain_good (l : list (ty * (N + rval))) : Prop := forall t r, In (t, inr r) l -> no_nuls t r.
Definition anything : list byte -> Prop := fun _ => True.
Lemma fits_children say big cs : forall ts, Forall2 ctyped ts cs ->
  own_sizes say (flat_map (fun p => cparts (fst p) (snd p)) (combine ts cs)) ->
  Forall2 fits (items_of ts) (map (fun p => cbytes say big (fst p) (snd p)) (combine ts cs)).
Proof.
  intros ts H. induction H as [|t c ts cs Hc _ IH]; intros Ho; [constructor|]. unfold items_of in *. cbn [combine map fst snd flat_map] in *. constructor.
  - unfold fits. cbn [snd]. destruct (size_of t) as [n|] eqn:E; [|exact I]. apply cbytes_fixed; auto.
    intros t' i n' Hin. apply Ho. apply in_or_app. now left.
  - apply IH. intros t' i n' Hin. apply Ho. apply in_or_app. now right.
Qed.
Lemma forallb_true {A} (l : list A) : forallb id (map (fun _ => true) l) = true.
Proof. induction l; [reflexivity|]. cbn [map forallb]. now rewrite IHl. Qed.

Lemma cser_exact h own say c : forall t, macro_ok t = true -> ctyped t c ->
  own_honest own say (cparts t c) -> own_sizes say (cparts t c) -> plain_good (cparts t c) ->
  let d := cbytes say (h_big_endian h) t c in
  len d < 2 ^ 63 -> fate anything (cser h own c t) d (len d) true.
Proof.
  set (big := h_big_endian h). cbv zeta.
  induction c as [i|r|u c IH|cs IH|o IH|cs IH] using cval_nest; intros t Hm Ht Ho Hz Hp Hl.
  - assert (E : cbytes say big t (COwn i) = say i) by (destruct t; reflexivity). rewrite E.
    assert (Em : cser h own (COwn i) t = own i) by (destruct t; reflexivity). rewrite Em.
    apply (Ho t i). destruct t; left; reflexivity.
  - assert (E : cbytes say big t (CPlain r) = sp_written big t (rvalue true big t r)) by (destruct t; reflexivity). rewrite E in *.
    assert (Em : cser h own (CPlain r) t = ser h r t) by (destruct t; reflexivity). rewrite Em.
    assert (Hr : rtyped t r) by (destruct t; exact Ht).
    assert (Hn : rgood t r = true) by (apply rgood_iff; apply (Hp t r); destruct t; left; reflexivity).
    pose proof (ser_exact anything h r t Hm Hr (fun _ _ => I) Hl) as G. cbv zeta in G. rewrite Hn in G. exact G.
  - destruct t; cbn [ctyped] in Ht; try tauto. destruct Ht as [[Hu _] Ht]. cbn [cbytes cser cparts] in *.
    change @len with @blen in *. rewrite !blen_app in *. change (blen [x00]) with 1 in *. rewrite <- display_show in *.
    assert (HU : usize_lim = 2 * 2 ^ 63) by reflexivity.
    eapply fate_then; [apply IH; auto; change @len with @blen; lia|].
    eapply writes_bind; [apply writes_all|]. eapply writes_end; [apply writes_all|].
    change @len with @blen. eapply writes_then_lift; [apply uadd_ok; lia|]. apply writes_lift.
    rewrite uadd_ok by lia. f_equal. lia.
  - destruct t as [| | | | | | | | | | | | |x|x|ts|a b]; try (cbn [ctyped] in Ht; tauto).
    + rewrite ctyped_list in Ht. apply macro_array in Hm. cbn [cbytes cser cparts] in *.
      rewrite sp_fixed_of in *. rewrite Forall_forall in *.
      assert (HA : is_alignment (sp_align x)) by (rewrite sp_align_of; auto with al).
      assert (HI : fates anything (map (fun c => cser h own c x) cs) (map (cbytes say big x) cs) (map (fun _ => true) cs)).
      { apply fates_map. intros c Hc. assert (Hsub : forall p, In p (cparts x c) -> In p (flat_map (cparts x) cs)) by (intros; apply in_flat_map; eauto).
        apply IH; auto.
        - intros t i Hin. eapply Ho; eauto.
        - intros t i n Hin. eapply Hz; eauto.
        - intros t r Hin. eapply Hp; eauto.
        - apply (in_map (cbytes say big x)) in Hc.
          destruct (is_fixed x); [apply concat_len in Hc|apply (array_bytes_len true (sp_align x)) in Hc; auto]; lia. }
      destruct (is_fixed x) eqn:Ef.
      * rewrite <- (forallb_true cs). apply (ser_seq_fate anything h _ _ _ 0 HI). rewrite N.add_0_l. exact Hl.
      * rewrite trait_align_of. rewrite sp_align_of in *.
        assert (G := ser_nfwa_fate anything h (align_of x) _ HA _ _ 0 [] HI). cbv zeta in G. rewrite N.add_0_l in G. cbn [app] in G.
        unfold sp_array_bytes in *. destruct (sp_lay (align_of x) 0 _) as [body ends]. cbn [fst snd] in G.
        rewrite N.add_0_l in *.
        replace (len (body ++ nuls (pad_to (align_of x) (len body) - len body))) with (pad_to (align_of x) (len body)) in *.
        2:{ change @len with @blen. change nuls with zeros. rewrite blen_app, blen_zeros. pose proof (pad_to_ge (align_of x) (blen body) HA). lia. }
        rewrite <- app_assoc in *. rewrite forallb_true in G. apply G; [apply N.mod_0_l; destruct HA as [|[|[|]]]; lia|exact Hl].
    + rewrite ctyped_mlist in Ht. destruct Ht as [Hf Ht]. apply macro_maybe in Hm. rewrite sp_fixed_of in Hf.
      destruct cs as [|c cs]; cbn [cbytes cser cparts] in *; rewrite Hf.
      * apply fate_ok, writes_ret.
      * inversion IH as [|? ? IHr _]; subst. inversion Ht as [|? ? Htr _]; subst.
        change @len with @blen in *. rewrite blen_app in *. change (blen [x00]) with 1 in *.
        eapply fate_then; [apply IHr; auto; change @len with @blen; lia|]. eapply writes_end; [apply writes_all|].
        apply writes_lift. apply uadd_ok. change @len with @blen. unfold usize_lim. lia.
  - destruct t as [| | | | | | | | | | | | |x|x|ts|a b]; try (cbn [ctyped] in Ht; tauto).
    apply macro_maybe in Hm. destruct o as [c|]; cbn [cbytes cser cparts ctyped] in *.
    + rewrite sp_fixed_of in *. destruct (is_fixed x).
      * apply (IH c); auto.
      * change @len with @blen in *. rewrite blen_app in *. change (blen [x00]) with 1 in *.
        eapply fate_then; [apply (IH c); auto; change @len with @blen; lia|]. eapply writes_end; [apply writes_all|].
        apply writes_lift. apply uadd_ok. change @len with @blen. unfold usize_lim. lia.
    + apply fate_ok, writes_ret.
  - assert (Hs : is_struct t) by (destruct t; cbn [ctyped] in Ht; try tauto; exact I).
    pose proof (ctyped_struct t _ Hs Ht) as HF. pose proof (Forall2_length _ _ _ HF) as Hlen.
    rewrite cser_struct_eq by auto. rewrite cparts_struct in * by assumption. rewrite cbytes_struct in * by assumption.
    rewrite <- (forallb_true (combine (children_of t) cs)).
    apply ser_struct_fate; auto.
    + unfold csers. apply fates_map. intros [c x] Hin. cbn [fst snd].
      assert (Hsub : forall p, In p (cparts c x) -> In p (flat_map (fun p => cparts (fst p) (snd p)) (combine (children_of t) cs)))
        by (intros p Hpin; apply in_flat_map; exists (c, x); auto).
      rewrite Forall_forall in IH. apply IH.
      * eapply in_combine_r; eauto.
      * eapply macro_children; eauto. eapply in_combine_l; eauto.
      * pose proof (Forall2_combine _ _ _ HF) as G. rewrite Forall_forall in G. exact (G _ Hin).
      * intros t' i Hin'. eapply Ho; eauto.
      * intros t' i n Hin'. eapply Hz; eauto.
      * intros t' r Hin'. eapply Hp; eauto.
      * eapply N.le_lt_trans; [|exact Hl]. apply struct_bytes_len.
        -- unfold items_of. rewrite !map_length, combine_length. lia.
        -- apply in_map_iff. exists (c, x). auto.
    + unfold csers. rewrite map_length, combine_length. lia.
    + now apply fits_children.
Qed.

(** ** Reading it back *)
Lemma struct_cuts_bodies t ds : is_struct t -> Forall2 fits (items_of (children_of t)) ds ->
  len (sp_struct_bytes (size_of t) (items_of (children_of t)) ds) < 2 ^ 64 ->
  struct_cuts t (sp_struct_bytes (size_of t) (items_of (children_of t)) ds) = map Some ds /\
  size_good t (len (sp_struct_bytes (size_of t) (items_of (children_of t)) ds)).
Proof.
  intros Hs HF Hl. unfold struct_cuts. destruct (size_of t) as [n|] eqn:Hn.
  - pose proof (fixed_children t n Hs Hn) as Hfix. pose proof (size_of_fixed_struct t n Hs Hn) as Hsz.
    assert (Ei : items_of (children_of t) = map (fun it => (fst it, Some (snd it))) (fixed_items (children_of t))).
    { unfold items_of, fixed_items. rewrite map_map. apply map_ext_in. intros c Hc. cbn [fst snd].
      rewrite Forall_forall in Hfix. specialize (Hfix c Hc). unfold is_fixed, size_or_0 in *. now destruct (size_of c). }
    rewrite Ei in *. unfold size_good. rewrite Hn. apply struct_bytes_fixed.
    + clear -HF. revert ds HF. induction (fixed_items (children_of t)) as [|[a s] l IH]; intros ds H; cbn [map] in H; inversion H; subst; constructor; auto.
    + unfold fixed_items. apply Forall_map. apply Forall_forall. intros. cbn. auto with al.
    + destruct (children_of t); [cbn; lia|]. rewrite Hsz. apply pad_to_ge. auto with al.
  - split; [|unfold size_good; rewrite Hn; destruct t; cbn in Hs; tauto].
    apply struct_bytes_var; auto. apply items_of_alignment.
Qed.
Lemma ctails_list say big x cs : ctails say big (TA x) (CList cs) ->
  (sp_fixed x = false -> len (last (map (cbytes say big x) cs) []) mod sp_align x = 0) /\ forall c, In c cs -> ctails say big x c.
Proof.
  cbn [ctails]. intros [H1 H2]. split; [exact H1|]. clear H1. induction cs as [|c cs IH]; intros c' Hc; [contradiction|].
  destruct H2 as [H2 H3]. destruct Hc as [<-|Hc]; auto.
Qed.
Lemma cbytes_back say big c : forall t, ctyped t c -> own_sizes say (cparts t c) -> plain_good (cparts t c) ->
  ctails say big t c -> len (cbytes say big t c) < 2 ^ 64 -> sp_decode big t (Some (cbytes say big t c)) = cvalue say big t c.
Proof.
  induction c as [i|r|u c IH|cs IH|o IH|cs IH] using cval_nest; intros t Ht Hz Hp HT Hl.
  - destruct t; reflexivity.
  - assert (E : cbytes say big t (CPlain r) = sp_written big t (rvalue true big t r)) by (destruct t; reflexivity). rewrite E in *.
    assert (Ev : cvalue say big t (CPlain r) = rvalue true big t r) by (destruct t; reflexivity). rewrite Ev.
    assert (Hr : rtyped t r) by (destruct t; exact Ht).
    assert (HT' : sp_tails big t (rvalue true big t r) = true) by (destruct t; exact HT).
    apply written_back_iff; auto. apply rvalue_typed; auto. apply (Hp t r). destruct t; left; reflexivity.
  - destruct t; cbn [ctyped] in Ht; try tauto. cbn [cbytes cvalue sp_decode app]. unfold sp_variant.
    rewrite split_back by apply show_nul. reflexivity.
  - destruct t as [| | | | | | | | | | | | |x|x|ts|a b]; try (cbn [ctyped] in Ht; tauto).
    + rewrite ctyped_list in Ht. apply ctails_list in HT as [HT1 HT2]. cbn [cbytes cparts] in *. rewrite Forall_forall in *.
      assert (Hsub : forall c, In c cs -> own_sizes say (cparts x c) /\ plain_good (cparts x c)).
      { intros c Hc. split; [intros t' i n Hin; eapply Hz|intros t' r Hin; eapply Hp]; apply in_flat_map; eauto. }
      assert (Hle : forall c, In c cs -> len (cbytes say big x c) < 2 ^ 64).
      { intros c Hc. apply (in_map (cbytes say big x)) in Hc. rewrite sp_fixed_of, sp_align_of in Hl.
        destruct (is_fixed x); [apply concat_len in Hc|apply (array_bytes_len true (align_of x)) in Hc; auto with al]; lia. }
      assert (Hmap : map (fun c => sp_decode big x (Some (cbytes say big x c))) cs = map (cvalue say big x) cs).
      { apply map_ext_in. intros c Hc. destruct (Hsub c Hc). apply IH; auto. }
      cbn [cvalue sp_decode]. rewrite sp_size_of. rewrite sp_fixed_of in *. unfold is_fixed in *. destruct (size_of x) as [n|] eqn:En.
      * pose proof (size_of_props x n En) as [Hpos _].
        assert (Hlen : Forall (fun b => len b = n) (map (cbytes say big x) cs)).
        { apply Forall_map. apply Forall_forall. intros c Hc. destruct (Hsub c Hc). apply cbytes_fixed; auto. }
        rewrite (concat_same_len n) by assumption. rewrite N.mul_comm, N.mod_mul by lia. cbn [N.eqb].
        rewrite pieces_concat; [|lia| |lia].
        2:{ eapply Forall_impl; [|exact Hlen]. intros b Hb. unfold len in Hb. lia. }
        rewrite !map_map. now rewrite Hmap.
      * destruct (array_bytes_cut true (sp_align x) (map (cbytes say big x) cs)) as [HC _];
          [rewrite sp_align_of; auto with al|assumption|]. rewrite HC by (right; auto).
        rewrite !map_map. now rewrite Hmap.
    + rewrite ctyped_mlist in Ht. destruct Ht as [Hf Ht]. cbn [cbytes cparts cvalue ctails sp_decode] in *.
      rewrite sp_size_of. rewrite sp_fixed_of in Hf. unfold is_fixed in Hf.
      destruct (size_of x); [discriminate|]. destruct cs as [|c cs]; [reflexivity|].
      inversion IH as [|? ? IHr _]; subst. inversion Ht as [|? ? Htr _]; subst.
      destruct (cbytes say big x c ++ [x00]) eqn:E; [destruct (cbytes say big x c); discriminate|]. rewrite <- E in *.
      rewrite removelast_last. change @len with @blen in *. rewrite blen_app in Hl. rewrite IHr; auto. lia.
  - destruct t as [| | | | | | | | | | | | |x|x|ts|a b]; try (cbn [ctyped] in Ht; tauto).
    destruct o as [c|]; cbn [cbytes cparts cvalue ctails ctyped sp_decode] in *; rewrite sp_size_of; rewrite ?sp_fixed_of in *; unfold is_fixed in *.
    + destruct (size_of x) as [n|] eqn:En.
      * rewrite (cbytes_fixed say big x c n) by assumption. rewrite N.eqb_refl. rewrite (IH c); auto.
      * destruct (cbytes say big x c ++ [x00]) eqn:E; [destruct (cbytes say big x c); discriminate|]. rewrite <- E in *.
        rewrite removelast_last. change @len with @blen in *. rewrite blen_app in Hl. rewrite (IH c); auto. lia.
    + destruct (size_of x) as [n|] eqn:En; [|reflexivity]. pose proof (size_of_props x n En) as [Hpos _].
      change (len (@nil byte)) with 0. replace (0 =? n) with false by lia. reflexivity.
  - assert (Hs : is_struct t) by (destruct t; cbn [ctyped] in Ht; try tauto; exact I).
    pose proof (ctyped_struct t _ Hs Ht) as HF. pose proof (Forall2_length _ _ _ HF) as Hlen.
    pose proof (ctails_struct say big t cs Hs HT) as HT'.
    rewrite cparts_struct in * by assumption. rewrite cbytes_struct in * by assumption. rewrite cvalue_struct by assumption.
    destruct (struct_cuts_bodies t _ Hs (fits_children say big cs _ HF Hz) Hl) as [Hc Hg].
    rewrite sp_decode_struct by assumption. rewrite Hc. f_equal. unfold dec_all.
    assert (HB : forall c x, In (c, x) (combine (children_of t) cs) -> sp_decode big c (Some (cbytes say big c x)) = cvalue say big c x).
    { intros c x Hin. assert (Hsub : forall p, In p (cparts c x) -> In p (flat_map (fun p => cparts (fst p) (snd p)) (combine (children_of t) cs)))
        by (intros p Hpin; apply in_flat_map; exists (c, x); auto).
      rewrite Forall_forall in IH. apply IH.
      - eapply in_combine_r; eauto.
      - pose proof (Forall2_combine _ _ _ HF) as G. rewrite Forall_forall in G. exact (G _ Hin).
      - intros t' i n Hin'. eapply Hz; eauto.
      - intros t' r Hin'. eapply Hp; eauto.
      - auto.
      - eapply N.le_lt_trans; [|exact Hl]. apply struct_bytes_len.
        + unfold items_of. rewrite !map_length, combine_length. lia.
        + apply in_map_iff. exists (c, x). auto. }
    clear -HB. revert cs HB. induction (children_of t) as [|c ts IH]; intros [|x cs] HB; try reflexivity.
    cbn [combine map fst snd]. rewrite HB by now left. f_equal. apply IH. intros. apply HB. now right.
Qed.

(** ** The same as something else *)
Section Same.
Context {K : Type} {W : Write K}.
Definition alike {A} (m m' : M K A) : Prop := forall k, m k = m' k.
Lemma alike_refl {A} (m : M K A) : alike m m. Proof. intros k. reflexivity. Qed.
Lemma alike_bind {A B} (m m' : M K A) (f f' : A -> M K B) : alike m m' -> (forall a, alike (f a) (f' a)) -> alike (sbind m f) (sbind m' f').
Proof. intros H1 H2 k. unfold sbind. rewrite H1. destruct (m' k) as [k' [a|e|c]]; auto. apply H2. Qed.
Lemma alike_seq h l l' : Forall2 alike l l' -> forall b, alike (ser_seq h l b) (ser_seq h l' b).
Proof.
  intros H. induction H as [|m m' l l' Hm _ IH]; intros b; cbn [ser_seq]; [apply alike_refl|].
  apply alike_bind; [exact Hm|]. intros n. apply alike_bind; [apply alike_refl|auto].
Qed.
Lemma alike_nfwa h al l l' : Forall2 alike l l' -> forall b o, alike (ser_nfwa h al l b o) (ser_nfwa h al l' b o).
Proof.
  intros H. induction H as [|m m' l l' Hm _ IH]; intros b o; cbn [ser_nfwa]; [apply alike_refl|].
  apply alike_bind; [exact Hm|]. intros n. repeat (apply alike_bind; [apply alike_refl|intros]). auto.
Qed.
Lemma alike_nth (l l' : list (M K N)) n : Forall2 alike l l' ->
  match nth_error l n, nth_error l' n with Some a, Some b => alike a b | None, None => True | _, _ => False end.
Proof. intros H. revert n. induction H as [|m m' l l' Hm _ IH]; intros [|n]; cbn [nth_error]; auto. apply IH. Qed.
Lemma alike_cmds h l l' : Forall2 alike l l' -> forall cmds off fo, alike (run_cmds h cmds l off fo) (run_cmds h cmds l' off fo).
Proof.
  intros H. induction cmds as [|c cmds IH]; intros off fo; cbn [run_cmds]; [apply alike_refl|].
  destruct c as [n|n|A|n|n|i].
  - apply alike_bind; [apply alike_refl|auto].
  - apply alike_bind; [apply alike_refl|auto].
  - apply alike_bind; [apply alike_refl|]. intros. apply alike_bind; [apply alike_refl|auto].
  - pose proof (alike_nth l l' n H) as G. destruct (nth_error l n), (nth_error l' n); try contradiction; [|apply alike_refl].
    apply alike_bind; auto.
  - pose proof (alike_nth l l' n H) as G. destruct (nth_error l n), (nth_error l' n); try contradiction; [|apply alike_refl].
    apply alike_bind; auto. intros. apply alike_bind; [apply alike_refl|auto].
  - destruct (i <? 0)%Z; [apply alike_refl|]. destruct (set_nth fo (Z.to_nat i) off); [auto|apply alike_refl].
Qed.
Lemma alike_struct h t l l' : Forall2 alike l l' -> alike (ser_struct h t l) (ser_struct h t l').
Proof.
  intros H. unfold ser_struct. destruct (size_of t).
  - destruct (packed_struct t) as [[pads final]|]; [|apply alike_refl]. destruct (mem_layout t) as [[size al]|]; [|apply alike_refl].
    apply alike_bind; [now apply alike_cmds|]. intros. apply alike_refl.
  - cbv zeta. apply alike_bind; [now apply alike_cmds|]. intros. apply alike_refl.
Qed.
Lemma alike_map {A B} (f : A -> M K N) (g : B -> M K N) (p : A -> B) l : (forall a, In a l -> alike (f a) (g (p a))) ->
  Forall2 alike (map f l) (map g (map p l)).
Proof. induction l as [|a l IH]; intros H; cbn [map]; constructor; [apply H; now left|]. apply IH. intros. apply H. now right. Qed.
Lemma cser_plain h own put c : forall t, (forall t' i, In (t', inl i) (cparts t c) -> alike (own i) (ser h (put i) t')) ->
  alike (cser h own c t) (ser h (cplain put c) t).
Proof.
  induction c as [i|r|u c IH|cs IH|o IH|cs IH] using cval_nest; intros t H.
  - assert (E : cser h own (COwn i) t = own i) by (destruct t; reflexivity). rewrite E. cbn [cplain]. apply H. destruct t; left; reflexivity.
  - assert (E : cser h own (CPlain r) t = ser h r t) by (destruct t; reflexivity). rewrite E. apply alike_refl.
  - destruct t; cbn [cplain cser ser cparts] in *; try apply alike_refl.
    apply alike_bind; [now apply IH|]. intros. apply alike_refl.
  - destruct t as [| | | | | | | | | | | | |x|x|ts|a b]; cbn [cplain cser ser cparts] in *; try apply alike_refl; rewrite Forall_forall in IH.
    + assert (HF : Forall2 alike (map (fun c => cser h own c x) cs) (map (fun r => ser h r x) (map (cplain put) cs))).
      { apply alike_map. intros c Hc. apply IH; auto. intros t' i Hin. apply H. apply in_flat_map. eauto. }
      destruct (is_fixed x); [now apply alike_seq|now apply alike_nfwa].
    + destruct (is_fixed x); [apply alike_refl|]. destruct cs as [|c cs]; cbn [map]; [apply alike_refl|].
      apply alike_bind; [apply IH; [now left|auto]|]. intros. apply alike_refl.
  - destruct t as [| | | | | | | | | | | | |x|x|ts|a b]; cbn [cplain cser ser cparts] in *; try apply alike_refl.
    destruct o as [c|]; cbn [option_map]; [|apply alike_refl].
    destruct (is_fixed x); [now apply (IH c)|]. apply alike_bind; [now apply (IH c)|]. intros. apply alike_refl.
  - destruct t as [| | | | | | | | | | | | |x|x|ts|a b]; try apply alike_refl.
    + cbn [cplain cser ser children_of cparts] in *. rewrite map_length. destruct (length ts =? length cs)%nat; [|apply alike_refl].
      apply alike_struct. clear -IH H. revert ts H. induction IH as [|c cs Hc _ IHF]; intros [|t ts] H; cbn [map]; constructor.
      * apply Hc. intros t' i Hin. apply H. apply in_or_app. now left.
      * apply IHF. intros t' i Hin. apply H. apply in_or_app. now right.
    + cbn [cplain cser ser children_of cparts] in *. rewrite map_length. destruct (length [a; b] =? length cs)%nat; [|apply alike_refl].
      apply alike_struct. generalize dependent [a; b]. clear -IH. intros ts. revert ts. induction IH as [|c cs Hc _ IHF]; intros [|t ts] H; cbn [map]; constructor.
      * apply Hc. intros t' i Hin. apply H. apply in_or_app. now left.
      * apply IHF. intros t' i Hin. apply H. apply in_or_app. now right.
Qed.
End Same.
