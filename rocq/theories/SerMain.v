(** Serialising writes exactly [sp_written] of the value meant. *)
From Verif Require Import Base Types Layout AlignedBytes Strs Spec Deser Ser Histories SerSpec
  BaseFacts TypesFacts LayoutFacts AlignedFacts Utf8Facts DeserFacts ArrayFacts StructFacts ReadFacts AccessFacts EncFacts RoundFacts SerFacts SerStruct.
From Coq Require Import Lia ZifyBool ZifyNat ZifyN.
Ltac Zify.zify_post_hook ::= Z.div_mod_to_equations.

Lemma rval_nest (P : rval -> Prop) :
  (forall z, P (RInt z)) -> (forall b, P (RDouble b)) -> (forall b, P (RBool b)) -> (forall b, P (RBoolView b)) ->
  (forall s, P (RStr s)) -> (forall d, P (RStrView d)) -> (forall d, P (RVariant d)) ->
  (forall t r, P r -> P (RWrap t r)) -> (forall rs, Forall P rs -> P (RList rs)) ->
  (forall o, (forall r, o = Some r -> P r) -> P (ROpt o)) -> (forall rs, Forall P rs -> P (RTuple rs)) ->
  forall r, P r.
Proof.
  intros H1 H2 H3 H4 H5 H6 H7 H8 H9 H10 H11. fix IH 1. intros [z|b|b|b|s|d|d|t r|rs|[r|]|rs].
  - apply H1. - apply H2. - apply H3. - apply H4. - apply H5. - apply H6. - apply H7.
  - apply H8, IH.
  - apply H9. induction rs as [|r rs IHr]; constructor; [apply IH|apply IHr].
  - apply H10. intros r' E. apply Some_inj in E as <-. apply IH.
  - apply H10. discriminate.
  - apply H11. induction rs as [|r rs IHr]; constructor; [apply IH|apply IHr].
Qed.

(** ** Structures, uniformly *)
Definition rvals (tail big : bool) (ts : list ty) (rs : list rval) : list value :=
  map (fun p => rvalue tail big (fst p) (snd p)) (combine ts rs).
Definition rstrs (ts : list ty) (rs : list rval) : list (list byte) :=
  flat_map (fun p => rstrings (fst p) (snd p)) (combine ts rs).
Definition sers (h : host) (ts : list ty) (rs : list rval) : list (M sink N) :=
  map (fun p => ser h (snd p) (fst p)) (combine ts rs).
Lemma rtyped_struct t r : is_struct t -> rtyped t r -> exists rs, r = RTuple rs /\ Forall2 rtyped (children_of t) rs.
Proof.
  intros Hs H. destruct t as [| | | | | | | | | | | | |x|x|ts|a b]; cbn [is_struct] in Hs; try tauto;
    destruct r as [| | | | | | | | | |rs]; cbn [rtyped] in H; try tauto; exists rs; (split; [reflexivity|]); cbn [children_of].
  - revert ts H. clear Hs. induction rs as [|r rs IH]; intros [|t ts] H; try contradiction; constructor; try tauto. apply IH. tauto.
  - destruct rs as [|x [|y [|]]]; try contradiction. destruct H. repeat constructor; auto.
Qed.
Lemma rvalue_struct tail big t rs : is_struct t -> rvalue tail big t (RTuple rs) = VTuple (rvals tail big (children_of t) rs).
Proof.
  intros Hs. destruct t as [| | | | | | | | | | | | |x|x|ts|a b]; cbn [is_struct] in Hs; try tauto; cbn [rvalue children_of]; f_equal.
  - clear Hs. revert ts. induction rs as [|r rs IH]; intros [|t ts]; try reflexivity. unfold rvals in *. cbn [combine map fst snd]. now rewrite IH.
  - destruct rs as [|x [|y [|]]]; reflexivity.
Qed.
Lemma rstrings_struct t rs : is_struct t -> rstrings t (RTuple rs) = rstrs (children_of t) rs.
Proof.
  intros Hs. destruct t as [| | | | | | | | | | | | |x|x|ts|a b]; cbn [is_struct] in Hs; try tauto; cbn [rstrings children_of].
  - clear Hs. revert ts. induction rs as [|r rs IH]; intros [|t ts]; try reflexivity. unfold rstrs in *. cbn [combine flat_map fst snd]. now rewrite IH.
  - destruct rs as [|x [|y [|]]]; reflexivity.
Qed.
Lemma ser_struct_eq h t rs : is_struct t -> length rs = length (children_of t) ->
  ser h (RTuple rs) t = ser_struct h t (sers h (children_of t) rs).
Proof.
  intros Hs Hl. destruct t as [| | | | | | | | | | | | |x|x|ts|a b]; cbn [is_struct] in Hs; try tauto; cbn [ser children_of] in *;
    rewrite Hl, Nat.eqb_refl; f_equal.
  - clear Hs Hl. revert ts. induction rs as [|r rs IH]; intros [|t ts]; try reflexivity. unfold sers in *. cbn [combine map fst snd]. now rewrite IH.
  - destruct rs as [|x [|y [|]]]; reflexivity.
Qed.
Lemma rtyped_list x rs : rtyped (TA x) (RList rs) <-> Forall (rtyped x) rs.
Proof.
  cbn [rtyped]. induction rs as [|r rs IH]; [split; auto|]. rewrite IH. split; [intros []; constructor; auto|intros H; inversion H; auto].
Qed.
Lemma rtyped_mlist x rs : rtyped (TM x) (RList rs) <-> sp_fixed x = false /\ Forall (rtyped x) rs.
Proof. change (rtyped (TM x) (RList rs)) with (sp_fixed x = false /\ rtyped (TA x) (RList rs)). now rewrite rtyped_list. Qed.

(** ** Typing *)
Lemma no_nuls_list x rs r : no_nuls (TA x) (RList rs) -> In r rs -> no_nuls x r.
Proof. intros H Hr s Hs. apply H. cbn [rstrings]. apply in_flat_map. eauto. Qed.
Lemma no_nuls_struct t rs c r : is_struct t -> no_nuls t (RTuple rs) -> In (c, r) (combine (children_of t) rs) -> no_nuls c r.
Proof. intros Hs H Hr s Hi. apply H. rewrite rstrings_struct by assumption. apply in_flat_map. exists (c, r). auto. Qed.
Lemma typed_struct_intro t vs : is_struct t -> Forall2 sp_typed (children_of t) vs -> sp_typed t (VTuple vs).
Proof.
  intros Hs H. destruct t as [| | | | | | | | | | | | |x|x|ts|a b]; cbn [is_struct] in Hs; try tauto; cbn [children_of sp_typed] in *.
  - clear Hs. induction H; auto.
  - inversion H as [|? ? ? ? H1 H2]; subst. inversion H2 as [|? ? ? ? H3 H4]; subst. inversion H4; subst. auto.
Qed.
Lemma show_nul u : ~ In x00 (sp_show u).
Proof.
  rewrite <- display_show. intros H. pose proof (display_chars u) as G. rewrite Forall_forall in G. apply G in H.
  cbn in H. decompose [or] H; discriminate || contradiction.
Qed.
Lemma split_typed d : exists ts dat, sp_variant d = VVariant ts dat /\ ~ In x00 ts.
Proof.
  unfold sp_variant. pose proof (sp_split_last_spec d) as H. destruct (sp_split_last d) as [[a b]|].
  - exists b, a. split; [reflexivity|]. now destruct H.
  - exists ["("; ")"]%byte, []. split; [reflexivity|]. cbn. intros [H1|[H1|[]]]; discriminate.
Qed.
Lemma rvalue_typed tail big r : forall t, rtyped t r -> no_nuls t r -> sp_typed t (rvalue tail big t r).
Proof.
  induction r as [z|b|b|b|s|d|d|u r IH|rs IH|o IH|rs IH] using rval_nest; intros t Ht Hn.
  - destruct t; cbn [rtyped] in Ht; try tauto; exact Ht.
  - destruct t; cbn [rtyped] in Ht; try tauto; exact Ht.
  - destruct t; cbn [rtyped] in Ht; try tauto; exact I.
  - destruct t; cbn [rtyped] in Ht; try tauto; exact I.
  - assert (good_string s) by (split; [|apply (Hn s); destruct t; left; reflexivity]; destruct t; cbn [rtyped] in Ht; tauto).
    destruct t; cbn [rtyped] in Ht; try tauto.
  - assert (good_string (sp_string d)) by (rewrite <- to_str_spec; apply to_str_good).
    destruct t; cbn [rtyped] in Ht; try tauto.
  - destruct t; cbn [rtyped] in Ht; try tauto. cbn [rvalue sp_decode]. destruct (split_typed d) as (ts & dat & -> & H). exact H.
  - destruct t; cbn [rtyped] in Ht; try tauto. cbn [rvalue sp_typed]. apply show_nul.
  - destruct t as [| | | | | | | | | | | | |x|x|ts|a b]; try (cbn [rtyped] in Ht; tauto).
    + rewrite rtyped_list in Ht. cbn [rvalue]. apply typed_array. apply Forall_map. rewrite Forall_forall in *.
      intros r Hr. apply IH; auto. eapply no_nuls_list; eauto.
    + rewrite rtyped_mlist in Ht. destruct Ht as [_ Ht]. destruct rs as [|r rs]; [exact I|]. cbn [rvalue sp_typed].
      inversion IH; inversion Ht; subst. auto.
  - destruct t as [| | | | | | | | | | | | |x|x|ts|a b]; try (cbn [rtyped] in Ht; tauto).
    destruct o as [r|]; [|exact I]. cbn [rvalue sp_typed rtyped] in *. apply (IH r); auto.
  - assert (Hs : is_struct t) by (destruct t; cbn [rtyped] in Ht; try tauto; exact I).
    destruct (rtyped_struct t _ Hs Ht) as (rs' & E & HF). inversion E; subst rs'. rewrite rvalue_struct by assumption.
    apply typed_struct_intro; auto.
    assert (HN : forall c r, In (c, r) (combine (children_of t) rs) -> no_nuls c r) by (intros; eapply no_nuls_struct; eauto).
    clear -IH HF HN. revert IH HN. induction HF as [|c r cs rs Hc _ IHF]; intros IH HN; [constructor|].
    inversion IH; subst. unfold rvals in *. cbn [combine map fst snd]. constructor.
    + apply H1; auto. apply HN. now left.
    + apply IHF; auto. intros. apply HN. now right.
Qed.
Lemma fixed_no_strings t : forall r n, size_of t = Some n -> rtyped t r -> rstrings t r = [].
Proof.
  induction t as [t Hns IH|t Hs IH] using ty_struct_ind; intros r n Hn Ht.
  - destruct t; cbn [is_struct] in Hns; try tauto; try discriminate; destruct r; cbn [rtyped] in Ht; try tauto; reflexivity.
  - destruct (rtyped_struct t _ Hs Ht) as (rs & -> & HF). rewrite rstrings_struct by assumption.
    pose proof (fixed_children t n Hs Hn) as Hfix. clear -HF IH Hfix. revert IH Hfix.
    induction HF as [|c r cs rs Hc _ IHF]; intros IH Hfix; [reflexivity|]. inversion IH; inversion Hfix; subst.
    unfold rstrs in *. cbn [combine flat_map fst snd]. rewrite IHF by auto. unfold is_fixed in *.
    destruct (size_of c) eqn:E; [|discriminate]. erewrite H1; eauto.
Qed.
Lemma fixed_len tail big t r n : size_of t = Some n -> rtyped t r -> len (sp_bytes tail big t (rvalue tail big t r)) = n.
Proof.
  intros Hn Ht. apply bytes_fixed; auto. apply rvalue_typed; auto. intros s Hs.
  rewrite (fixed_no_strings t r n) in Hs by assumption. contradiction.
Qed.

(** ** The main theorem *)
Definition rgood (t : ty) (r : rval) : bool := forallb (fun s => negb (has_nul s)) (rstrings t r).
Lemma has_nul_in s : has_nul s = true <-> In x00 s.
Proof.
  unfold has_nul. rewrite existsb_exists. split.
  - intros (b & Hb & E). apply byte_eqb_eq in E. now subst.
  - intros H. exists x00. split; auto.
Qed.
Lemma rgood_iff t r : rgood t r = true <-> no_nuls t r.
Proof.
  unfold rgood, no_nuls. rewrite forallb_forall. split; intros H s Hs; specialize (H s Hs).
  - rewrite <- has_nul_in. destruct (has_nul s); [discriminate|congruence].
  - destruct (has_nul s) eqn:E; [|reflexivity]. apply has_nul_in in E. contradiction.
Qed.
Lemma rgood_flat {A} (f : A -> list (list byte)) l :
  forallb (fun s => negb (has_nul s)) (flat_map f l) = forallb id (map (fun a => forallb (fun s => negb (has_nul s)) (f a)) l).
Proof. induction l as [|a l IH]; [reflexivity|]. cbn [flat_map map forallb]. now rewrite forallb_app, IH. Qed.
Lemma int_bytes_sp h k z : int_bytes h k z = sp_int (h_big_endian h) k z.
Proof. reflexivity. Qed.
Lemma double_bytes_sp h b : b < 2 ^ 64 -> to_ne h 8 b = sp_int (h_big_endian h) 8 (Z.of_N b).
Proof.
  intros Hb. rewrite <- int_bytes_sp. unfold int_bytes. rewrite Z.mod_small by (change (8 * Z.of_nat 8)%Z with 64%Z; lia).
  now rewrite N2Z.id.
Qed.
Lemma fates_map {A} P (f : A -> M sink N) (g : A -> list byte) (ok : A -> bool) l :
  (forall a, In a l -> fate P (f a) (g a) (len (g a)) (ok a)) -> fates P (map f l) (map g l) (map ok l).
Proof.
  induction l as [|a l IH]; intros H; [split; [constructor|reflexivity]|]. cbn [map]. apply fates_cons; [apply H; now left|].
  apply IH. intros. apply H. now right.
Qed.
Lemma macro_array x : macro_ok (TA x) = true -> macro_ok x = true. Proof. intros H; exact H. Qed.
Lemma macro_maybe x : macro_ok (TM x) = true -> macro_ok x = true. Proof. intros H; exact H. Qed.
Lemma macro_children t c : is_struct t -> macro_ok t = true -> In c (children_of t) -> macro_ok c = true.
Proof.
  intros Hs H Hc. rewrite macro_ok_struct in H by assumption. apply andb_true_iff in H as [H _].
  rewrite forallb_forall in H. auto.
Qed.
Lemma writes_str P h s d : good_string s \/ True -> d = s ++ [x00] -> len d < 2 ^ 63 ->
  fate P (do _ <- write_all s; do _ <- write_all [x00]; lift (uadd h (blen s) 1)) d (len d) true.
Proof.
  intros _ -> Hl. change @len with @blen in *. rewrite blen_app in *. change (blen [x00]) with 1 in *.
  eapply fate_first; [apply writes_all|]. apply fate_ok. eapply writes_end; [apply writes_all|].
  apply writes_lift. apply uadd_ok. unfold usize_lim. lia.
Qed.
Lemma combine_map_l {A B C} (f : A -> B) l (g : A -> C) : combine (map f l) (map g l) = map (fun a => (f a, g a)) l.
Proof. induction l; cbn; congruence. Qed.

Lemma ser_exact (P : list byte -> Prop) h r : forall t, macro_ok t = true -> rtyped t r ->
  (forall s, In s (rstrings t r) -> P s) ->
  let d := sp_written (h_big_endian h) t (rvalue true (h_big_endian h) t r) in
  len d < 2 ^ 63 -> fate P (ser h r t) d (len d) (rgood t r).
Proof.
  set (big := h_big_endian h). cbv zeta. unfold sp_written.
  induction r as [z|b|b|b|s|dd|dd|u r IH|rs IH|o IH|rs IH] using rval_nest; intros t Hm Ht HP;
    match goal with |- len ?x < _ -> _ => set (d := x) end; intros Hl.
  - assert (HG : rgood t (RInt z) = true) by (destruct t; reflexivity). rewrite HG.
    destruct t; cbn [rtyped] in Ht; try tauto; subst d; cbn [rvalue sp_bytes ser]; rewrite sp_int_len;
      apply fate_ok; (eapply writes_end; [rewrite int_bytes_sp; apply writes_all|apply writes_ret]).
  - assert (HG : rgood t (RDouble b) = true) by (destruct t; reflexivity). rewrite HG.
    destruct t; cbn [rtyped] in Ht; try tauto; subst d; cbn [rvalue sp_bytes ser]; rewrite sp_int_len;
      apply fate_ok; (eapply writes_end; [rewrite double_bytes_sp by assumption; apply writes_all|apply writes_ret]).
  - assert (HG : rgood t (RBool b) = true) by (destruct t; reflexivity). rewrite HG.
    destruct t; cbn [rtyped] in Ht; try tauto; subst d; cbn [rvalue sp_bytes ser].
    apply fate_ok. eapply writes_end; [apply writes_all|apply writes_ret].
  - assert (HG : rgood t (RBoolView b) = true) by (destruct t; reflexivity). rewrite HG.
    destruct t; cbn [rtyped] in Ht; try tauto; subst d; cbn [rvalue ser].
    assert (E : sp_bytes true big TB (sp_decode big TB (Some [b])) = [if 0 <? b2n b then x01 else x00]).
    { cbn [sp_decode]. change (len [b] =? 1) with true. cbv iota. cbn [sp_bytes sp_num].
      destruct b; destruct big; reflexivity. }
    rewrite E. apply fate_ok. eapply writes_end; [apply writes_all|apply writes_ret].
  - assert (Es : rstrings t (RStr s) = [s]) by (destruct t; reflexivity).
    assert (Eg : rgood t (RStr s) = negb (has_nul s)) by (unfold rgood; rewrite Es; cbn [forallb]; now rewrite andb_true_r).
    assert (Ed : d = s ++ [x00]) by (destruct t; cbn [rtyped] in Ht; try tauto; reflexivity).
    assert (Em : ser h (RStr s) t = if has_nul s then serror EInvalidInput else
              (do _ <- write_all s; do _ <- write_all [x00]; lift (uadd h (blen s) 1))) by (destruct t; cbn [rtyped] in Ht; try tauto; reflexivity).
    rewrite Em, Eg. destruct (has_nul s) eqn:En; cbn [negb].
    + exists [], s, []. rewrite Ed. cbn [app]. split; [reflexivity|]. split; [apply HP; rewrite Es; now left|].
      split; [now apply has_nul_in|apply writes_error].
    + apply writes_str; auto.
  - assert (HG : rgood t (RStrView dd) = true) by (destruct t; reflexivity). rewrite HG.
    assert (Ed : d = to_str dd ++ [x00]) by (destruct t; cbn [rtyped] in Ht; try tauto; subst d; cbn [rvalue sp_decode sp_bytes]; now rewrite to_str_spec).
    assert (Em : ser h (RStrView dd) t = (do _ <- write_all (to_str dd); do _ <- write_all [x00]; lift (uadd h (blen (to_str dd)) 1)))
      by (destruct t; cbn [rtyped] in Ht; try tauto; reflexivity).
    rewrite Em. apply writes_str; auto.
  - assert (HG : rgood t (RVariant dd) = true) by (destruct t; reflexivity). rewrite HG.
    destruct t; cbn [rtyped] in Ht; try tauto; subst d; cbn [rvalue ser sp_decode] in *.
    destruct (variant_split_ok h (Slice 0 dd)) as (ts & dat & -> & _ & E & _); [reflexivity|]. cbn [s_data] in E. rewrite E in *.
    cbn [sp_bytes] in *. change @len with @blen in *. rewrite !blen_app in *. change (blen [x00]) with 1 in *.
    eapply fate_lift; [reflexivity|]. cbv zeta. cbn [fst snd]. assert (HU : usize_lim = 2 * 2 ^ 63) by reflexivity.
    eapply fate_first; [apply writes_all|]. eapply fate_first; [apply writes_all|]. apply fate_ok.
    eapply writes_end; [apply writes_all|]. eapply writes_then_lift; [apply uadd_ok; lia|]. apply writes_lift.
    rewrite uadd_ok by lia. f_equal. lia.
  - destruct t; cbn [rtyped] in Ht; try tauto. destruct Ht as [[Hu _] Ht]. subst d. cbn [rvalue ser sp_bytes] in *.
    change (rgood TV (RWrap u r)) with (rgood u r). cbn [rstrings] in HP.
    change @len with @blen in *. rewrite !blen_app in *. change (blen [x00]) with 1 in *. rewrite <- display_show in *.
    assert (HU : usize_lim = 2 * 2 ^ 63) by reflexivity.
    eapply fate_then; [apply IH; auto; change @len with @blen; lia|].
    eapply writes_bind; [apply writes_all|]. eapply writes_end; [apply writes_all|].
    change @len with @blen. eapply writes_then_lift; [apply uadd_ok; lia|]. apply writes_lift.
    rewrite uadd_ok by lia. f_equal. lia.
  - destruct t as [| | | | | | | | | | | | |x|x|ts|a b]; try (cbn [rtyped] in Ht; tauto).
    + rewrite rtyped_list in Ht. apply macro_array in Hm. subst d. cbn [rvalue sp_bytes ser] in *. rewrite map_map in *.
      rewrite sp_fixed_of in *. cbn [rstrings] in HP. rewrite Forall_forall in *.
      assert (HA : is_alignment (sp_align x)) by (rewrite sp_align_of; auto with al).
      assert (HI : fates P (map (fun r => ser h r x) rs) (map (fun r => sp_bytes true big x (rvalue true big x r)) rs) (map (rgood x) rs)).
      { apply fates_map. intros r Hr. apply IH; auto.
        - intros s Hs. apply HP. apply in_flat_map. eauto.
        - assert (Hin : In (sp_bytes true big x (rvalue true big x r)) (map (fun r => sp_bytes true big x (rvalue true big x r)) rs))
            by (apply in_map_iff; eauto).
          destruct (is_fixed x); [apply concat_len in Hin|apply (array_bytes_len true (sp_align x)) in Hin; auto]; lia. }
      unfold rgood. cbn [rstrings]. rewrite rgood_flat. fold (rgood x).
      change (map (fun a => forallb (fun s => negb (has_nul s)) (rstrings x a)) rs) with (map (rgood x) rs).
      destruct (is_fixed x) eqn:Ef.
      * apply (ser_seq_fate P h _ _ _ 0 HI). rewrite N.add_0_l. exact Hl.
      * rewrite trait_align_of. rewrite sp_align_of in *.
        assert (G := ser_nfwa_fate P h (align_of x) _ HA _ _ 0 [] HI). cbv zeta in G. rewrite N.add_0_l in G. cbn [app] in G.
        unfold sp_array_bytes in *. destruct (sp_lay (align_of x) 0 _) as [body ends]. cbn [fst snd] in G.
        rewrite N.add_0_l in *.
        replace (len (body ++ nuls (pad_to (align_of x) (len body) - len body))) with (pad_to (align_of x) (len body)) in *.
        2:{ change @len with @blen. change nuls with zeros. rewrite blen_app, blen_zeros. pose proof (pad_to_ge (align_of x) (blen body) HA). lia. }
        rewrite <- app_assoc in *. apply G; [apply N.mod_0_l; destruct HA as [|[|[|]]]; lia|exact Hl].
    + rewrite rtyped_mlist in Ht. destruct Ht as [Hf Ht]. apply macro_maybe in Hm. rewrite sp_fixed_of in Hf.
      destruct rs as [|r rs].
      * subst d. cbn [rvalue sp_bytes ser]. rewrite Hf. apply fate_ok, writes_ret.
      * inversion IH as [|? ? IHr _]; subst. inversion Ht as [|? ? Htr _]; subst.
        subst d. cbn [rvalue sp_bytes ser] in *. rewrite sp_fixed_of, Hf in *. change (rgood (TM x) (RList (r :: rs))) with (rgood x r).
        cbn [rstrings] in HP. change @len with @blen in *. rewrite blen_app in *. change (blen [x00]) with 1 in *.
        eapply fate_then; [apply IHr; auto; change @len with @blen; lia|]. eapply writes_end; [apply writes_all|].
        apply writes_lift. apply uadd_ok. change @len with @blen. unfold usize_lim. lia.
  - destruct t as [| | | | | | | | | | | | |x|x|ts|a b]; try (cbn [rtyped] in Ht; tauto).
    apply macro_maybe in Hm. destruct o as [r|].
    + cbn [rtyped] in Ht. subst d. cbn [rvalue sp_bytes ser] in *. rewrite sp_fixed_of in *.
      change (rgood (TM x) (ROpt (Some r))) with (rgood x r). cbn [rstrings] in HP. destruct (is_fixed x).
      * apply (IH r); auto.
      * change @len with @blen in *. rewrite blen_app in *. change (blen [x00]) with 1 in *.
        eapply fate_then; [apply (IH r); auto; change @len with @blen; lia|]. eapply writes_end; [apply writes_all|].
        apply writes_lift. apply uadd_ok. change @len with @blen. unfold usize_lim. lia.
    + subst d. cbn [rvalue sp_bytes ser]. apply fate_ok, writes_ret.
  - assert (Hs : is_struct t) by (destruct t; cbn [rtyped] in Ht; try tauto; exact I).
    destruct (rtyped_struct t _ Hs Ht) as (rs' & E & HF). inversion E; subst rs'. clear E.
    pose proof (Forall2_length _ _ _ HF) as Hlen.
    rewrite ser_struct_eq by auto. subst d. rewrite rvalue_struct in * by assumption.
    assert (Hlv : length (rvals true big (children_of t) rs) = length (children_of t)).
    { unfold rvals. rewrite map_length, combine_length. lia. }
    assert (Hgo : rgood t (RTuple rs) = forallb id (map (fun p => rgood (fst p) (snd p)) (combine (children_of t) rs))).
    { unfold rgood. rewrite rstrings_struct by assumption. unfold rstrs. now rewrite rgood_flat. }
    rewrite Hgo.
    assert (Henc : enc_all true big (children_of t) (rvals true big (children_of t) rs) =
                   map (fun p => sp_bytes true big (fst p) (rvalue true big (fst p) (snd p))) (combine (children_of t) rs)).
    { clear. unfold enc_all, rvals. revert rs. induction (children_of t) as [|c cs IH]; intros [|r rs]; try reflexivity.
      cbn [combine map fst snd]. now rewrite IH. }
    assert (Hle : forall b, In b (enc_all true big (children_of t) (rvals true big (children_of t) rs)) ->
               len b <= len (sp_bytes true big t (VTuple (rvals true big (children_of t) rs)))) by (intros; now apply enc_len).
    rewrite Henc in Hle. rewrite bytes_struct in * by assumption. rewrite Henc in *.
    apply ser_struct_fate; auto.
    + unfold sers. apply fates_map. intros [c r] Hin. cbn [fst snd].
      rewrite Forall_forall in IH. apply IH.
      * eapply in_combine_r; eauto.
      * eapply macro_children; eauto. eapply in_combine_l; eauto.
      * pose proof (Forall2_combine _ _ _ HF) as G. rewrite Forall_forall in G. exact (G _ Hin).
      * intros s Hs'. apply HP. rewrite rstrings_struct by assumption. apply in_flat_map. exists (c, r). auto.
      * eapply N.le_lt_trans; [apply Hle|exact Hl]. apply in_map_iff. exists (c, r). auto.
    + unfold sers. rewrite map_length, combine_length. lia.
    + clear -HF. unfold items_of. induction HF as [|c r cs rs Hc _ IH]; cbn [combine map fst snd]; constructor; auto.
      unfold fits. cbn [fst snd]. destruct (size_of c) eqn:E; [|exact I]. now apply fixed_len.
Qed.
