(** The text of [{:#?}] tells the value (C118, C120). *)
From Verif Require Import Base Types Layout AlignedBytes Strs Spec Deser Buf Histories
  BaseFacts TypesFacts LayoutFacts Utf8Facts DeserFacts StructFacts ReadFacts ReadClaims EqFacts MoveFacts Fmt FmtSpec FmtFacts
  CoreFmt PrintSpec PrintFacts LossyFacts TellFacts Flags FlagSpec FlagFacts.
From Coq Require Import Lia ZifyBool ZifyNat ZifyN.

(** ** Blocks *)
Lemma line_S d : sp_line (S d) = sp_line d ++ bs "    ".
Proof.
  unfold sp_line. cbn [app]. f_equal. induction d as [|d IH]; [reflexivity|]. cbn [repeat concat] in *. rewrite IH at 1.
  now rewrite <- app_assoc.
Qed.
Lemma line_close d c q r : sp_line (S d) ++ q = sp_line d ++ c :: r -> c <> " "%byte -> False.
Proof. rewrite line_S, <- app_assoc. intros E H. apply app_inv_head in E. cbn in E. congruence. Qed.
Definition item (d : nat) (y : list byte) : list byte := sp_line (S d) ++ y ++ bs ",".
Lemma block_app d l r : sp_block d l ++ r = concat (map (item d) l) ++ sp_line d ++ r.
Proof. unfold sp_block. now rewrite <- app_assoc. Qed.

Lemma list_code {A} (p : A -> list byte) (Q : A -> Prop) (R : A -> A -> Prop) d c : c <> " "%byte -> forall l, Forall (coded p Q R) l -> forall l' r r', Forall Q l' ->
  concat (map (item d) (map p l)) ++ sp_line d ++ c :: r = concat (map (item d) (map p l')) ++ sp_line d ++ c :: r' -> Forall2 R l l' /\ r = r'.
Proof.
  intros Hc. induction 1 as [|a l Ha _ IH]; intros l' r r' HQ E; destruct HQ as [|b l' Hb HQ]; cbn [map concat] in E.
  - cbn [app] in E. apply app_inv_head in E. injection E as <-. auto.
  - exfalso. unfold item at 1 in E. rewrite <- !app_assoc in E. cbn [app] in E. symmetry in E. eapply line_close; eauto.
  - exfalso. unfold item at 1 in E. rewrite <- !app_assoc in E. cbn [app] in E. eapply line_close; eauto.
  - unfold item at 1 3 in E. rewrite <- !app_assoc in E. apply app_inv_head in E.
    apply Ha in E as [Hab E]; [|exact Hb|apply stop_cons; cbn; tauto|apply stop_cons; cbn; tauto].
    apply app_inv_head in E. destruct (IH l' r r' HQ E) as [Hl ->]. auto.
Qed.

Section pretty.
  Context (shown : N -> bool) (double : N -> list byte) (HD : numeric double).
  Let F := core_fmts shown double.
  Let G := pretty shown double.

  (** Only slices, maybes and structures differ from [{:?}]. *)
  Lemma flat_same t v d : shaped t v -> match t with TA x => sp_size x = None | TM _ | TTuple _ | TDict _ _ => False | _ => True end ->
    sp_flags F G d t v = sp_print F t v.
  Proof.
    intros Hv Ht. destruct Hv as [a|t a Hin|a|t a Hin Ha|ts e|x vs HV|x|x v HV|t vs Hs HV]; try tauto; try reflexivity.
    - cbn in Hin. decompose [or] Hin; subst; tauto || reflexivity.
    - cbn in Hin. decompose [or] Hin; subst; tauto || reflexivity.
    - cbn [sp_flags]. now rewrite Ht.
    - destruct t; cbn in Hs; tauto.
  Qed.

  Lemma members_pretty d ts : Forall (fun t => forall d v w r r', shaped t v -> shaped t w ->
      stop r -> stop r' -> sp_flags F G d t v ++ r = sp_flags F G d t w ++ r' -> alike double v w /\ r = r') ts ->
    forall vs ws r r', Forall2 shaped ts vs -> Forall2 shaped ts ws ->
      concat (map (item d) (map (fun q => sp_flags F G (S d) (fst q) (snd q)) (combine ts vs))) ++ r =
      concat (map (item d) (map (fun q => sp_flags F G (S d) (fst q) (snd q)) (combine ts ws))) ++ r' ->
      Forall2 (alike double) vs ws /\ r = r'.
  Proof.
    induction 1 as [|t ts Ht _ IH]; intros vs ws r r' Hv Hw E.
    - inversion Hv; inversion Hw; subst. cbn in E. auto.
    - inversion Hv as [|? v ? vs' V1 V2]; inversion Hw as [|? w ? ws' W1 W2]; subst.
      cbn [combine map concat fst snd] in E. unfold item at 1 3 in E.
      rewrite <- !app_assoc in E. apply app_inv_head in E.
      apply Ht in E as [HA E]; auto; try (apply stop_cons; cbn; tauto).
      apply app_inv_head in E. destruct (IH vs' ws' r r') as [HB ->]; auto.
  Qed.

  Lemma struct_flags d t vs : is_struct t -> length vs = length (children_of t) ->
    sp_flags F G d t (VTuple vs) = bs "(" ++ (match children_of t with [] => [] | _ => sp_block d (items F G (S d) t vs) end) ++ bs ")".
  Proof.
    intros Hs Hl. destruct t as [| | | | | | | | | | | | |x|x|ts|k x]; cbn in Hs; try tauto; cbn [children_of] in *.
    - destruct ts as [|c ts]; [destruct vs; [reflexivity|discriminate]|]. now rewrite tuple_flags.
    - destruct vs as [|a [|b [|c vs]]]; cbn [length] in Hl; try lia. reflexivity.
  Qed.

  Lemma pretty_prefix t : forall d v w r r', shaped t v -> shaped t w ->
    stop r -> stop r' -> sp_flags F G d t v ++ r = sp_flags F G d t w ++ r' -> alike double v w /\ r = r'.
  Proof.
    induction t as [t Hns IH|t Hs IH] using ty_struct_ind; intros d v w r r' Hv Hw Hr Hr' E.
    - assert (Hflat : match t with TA x => sp_size x = None | TM _ | TTuple _ | TDict _ _ => False | _ => True end -> alike double v w /\ r = r').
      { intros Ht. rewrite !flat_same in E by assumption. eapply print_prefix; eauto. }
      destruct t as [| | | | | | | | | | | | |x|x|ts|k x]; try (apply Hflat; exact I); try (cbn in Hns; tauto).
      + destruct (sp_size x) as [n|] eqn:En; [|now apply Hflat].
        inversion Hv as [|? ? Hin| |? ? Hin| |? vs HV| | |? ? Hs']; subst; try (cbn in Hin; decompose [or] Hin; discriminate || tauto); [|cbn in Hs'; tauto].
        inversion Hw as [|? ? Hin| |? ? Hin| |? ws HW| | |? ? Hs']; subst; try (cbn in Hin; decompose [or] Hin; discriminate || tauto); [|cbn in Hs'; tauto].
        cbn [sp_flags] in E. rewrite En in E. change (g_alternate G) with true in E. cbv iota in E.
        rewrite <- !app_assoc in E. apply app_inv_head in E.
        set (Q := shaped x).
        assert (HQw : Forall Q ws) by (rewrite Forall_forall in *; unfold Q; auto).
        assert (Hc : Forall (coded (sp_flags F G (S d) x) Q (alike double)) vs).
        { rewrite Forall_forall in *. intros v Hin b q q' B1 Hq Hq' Eq.
          apply (IH x (or_introl eq_refl)) in Eq; auto. }
        assert (E2 : vs = [] /\ ws = [] /\ r = r' \/ concat (map (item d) (map (sp_flags F G (S d) x) vs)) ++ sp_line d ++ "]"%byte :: r =
           concat (map (item d) (map (sp_flags F G (S d) x) ws)) ++ sp_line d ++ "]"%byte :: r').
        { destruct vs as [|v vs], ws as [|w ws].
          - left. cbn in E. injection E as <-. auto.
          - exfalso. discriminate.
          - exfalso. discriminate.
          - right. rewrite !block_app in E. exact E. }
        destruct E2 as [(-> & -> & ->) | E2]; [auto using al_array|].
        apply (list_code _ Q (alike double)) in E2 as [HA ->]; auto using al_array. discriminate.
      + inversion Hv as [|? ? Hin| |? ? Hin| | |?|? v' HV|? ? Hs']; subst; try (cbn in Hin; decompose [or] Hin; discriminate || tauto); try (cbn in Hs'; tauto);
        inversion Hw as [|? ? Hin| |? ? Hin| | |?|? w' HW|? ? Hs']; subst; try (cbn in Hin; decompose [or] Hin; discriminate || tauto); try (cbn in Hs'; tauto).
        * cbn in E. injection E as <-. auto using al_nothing.
        * cbn in E. discriminate.
        * cbn in E. discriminate.
        * cbn [sp_flags] in E. change (g_alternate G) with true in E. cbv iota in E.
          rewrite <- !app_assoc in E. apply app_inv_head in E. rewrite !block_app in E.
          unfold item in E. cbn [map concat] in E. rewrite !app_nil_r, <- !app_assoc in E. apply app_inv_head in E.
          apply (IH x (or_intror eq_refl)) in E as [HA E]; auto; try (apply stop_cons; cbn; tauto).
          apply app_inv_head in E. apply app_inv_head in E. apply app_inv_head in E. subst. auto using al_just.
    - assert (HS : forall v, shaped t v -> exists vs, v = VTuple vs /\ Forall2 shaped (children_of t) vs).
      { intros u Hu. destruct Hu as [a|t a Hin|a|t a Hin Ha|ts e|x vs HV|x|x u HV|t vs Ht HV]; try (cbn in Hs; tauto);
          try (exfalso; cbn in Hin; decompose [or] Hin; subst; cbn in Hs; tauto). eauto. }
      apply HS in Hv as (vs & -> & HV). apply HS in Hw as (ws & -> & HW).
      
      rewrite !struct_flags in E by (auto; symmetry; eapply Forall2_length; eauto).
      rewrite <- !app_assoc in E. apply app_inv_head in E.
      destruct (children_of t) as [|c cs] eqn:Ec.
      + inversion HV; inversion HW; subst. cbn in E. injection E as <-. auto using al_tuple.
      + rewrite !block_app in E. unfold items in E. rewrite Ec in E.
        apply (members_pretty d (c :: cs) IH) in E as [HA E]; auto.
        apply app_inv_head in E. cbn in E. injection E as <-. auto using al_tuple.
  Qed.

  Lemma pretty_alike t : forall d v w, shaped t v -> shaped t w -> alike double v w -> sp_flags F G d t v = sp_flags F G d t w.
  Proof.
    induction t as [t Hns IH|t Hs IH] using ty_struct_ind; intros d v w Hv Hw HA.
    - assert (Hflat : match t with TA x => sp_size x = None | TM _ | TTuple _ | TDict _ _ => False | _ => True end ->
        sp_flags F G d t v = sp_flags F G d t w).
      { intros Ht. rewrite !flat_same by assumption. now apply print_alike. }
      destruct t as [| | | | | | | | | | | | |x|x|ts|k x]; try (apply Hflat; exact I); try (cbn in Hns; tauto).
      + destruct (sp_size x) as [n|] eqn:En; [|now apply Hflat]. clear Hflat.
        inversion Hv as [|? ? Hin| |? ? Hin| |? vs HV| | |? ? Hs']; subst; try (cbn in Hin; decompose [or] Hin; discriminate || tauto); [|cbn in Hs'; tauto].
        inversion HA as [| | | | |? ws HA'| | |]; subst. inversion Hw as [| | | | |? ? HW| | |]; subst.
        cbn [sp_flags]. rewrite En. change (g_alternate G) with true. cbv iota.
        inversion HA' as [|a b vs' ws' H1 H2]; subst; [reflexivity|].
        erewrite (map_alike (sp_flags F G (S d) x)); [reflexivity| |exact HV|exact HW|exact HA'].
        intros a' b'. apply IH. now left.
      + clear Hflat. inversion HA; subst; inversion Hv; subst; try (cbn in *; tauto); inversion Hw; subst; try reflexivity; try (cbn in *; tauto).
        cbn [sp_flags]. change (g_alternate G) with true. cbv iota.
        erewrite (IH _ (or_intror eq_refl)); eauto.
    - assert (HS : forall v, shaped t v -> exists vs, v = VTuple vs /\ Forall2 shaped (children_of t) vs).
      { intros u Hu. destruct Hu as [a|t a Hin|a|t a Hin Ha|ts e|x vs HV|x|x u HV|t vs Ht HV]; try (cbn in Hs; tauto);
          try (exfalso; cbn in Hin; decompose [or] Hin; subst; cbn in Hs; tauto). eauto. }
      apply HS in Hv as (vs & -> & HV). apply HS in Hw as (ws & -> & HW). inversion HA; subst.
      rewrite !struct_flags by (auto; symmetry; eapply Forall2_length; eauto).
      unfold items. rewrite (members_alike double (sp_flags F G (S d)) (children_of t)) with (ws := ws); auto.
      rewrite Forall_forall in *. auto.
  Qed.

  Lemma pretty_alike_claim h h' t r r' v v' : view h t r -> view h' t r' ->
    read h t r = Ok v -> read h' t r' = Ok v' ->
    ((exists s, fmt_flags h F G t r = Ok s /\ fmt_flags h' F G t r' = Ok s) <-> alike double v v').
  Proof.
    unfold F, G. intros V V' R R'.
    assert (Hd : forall n, one_line (double n)).
    { intros n H. destruct (HD n) as [_ HF]. rewrite Forall_forall in HF. apply (num_char_one x0a); [apply HF; exact H|reflexivity]. }
    rewrite (pretty_claim shown double h t r v Hd V R), (pretty_claim shown double h' t r' v' Hd V' R').
    apply view_ok in V as (H1 & _ & _). apply view_ok in V' as (H2 & _ & _).
    assert (Hm : macro_ok t = true) by apply H1.
    apply read_shaped in R, R'; [|exact Hm|exact Hm].
    change (sp_pretty (core_fmts shown double)) with (sp_flags F G 0). split; [intros (s & E & E')|intros E].
    - apply (pretty_prefix t 0 v v' [] []); auto; try (left; reflexivity). rewrite !app_nil_r. congruence.
    - eexists. split; [reflexivity|]. f_equal. symmetry. now apply pretty_alike.
  Qed.
End pretty.

Lemma pretty_tells shown double : writes_doubles double -> forall h h' t r r' v v' s, view h t r -> view h' t r' ->
  read h t r = Ok v -> read h' t r' = Ok v' -> legible v -> legible v' ->
  fmt_flags h (core_fmts shown double) (pretty shown double) t r = Ok s ->
  fmt_flags h' (core_fmts shown double) (pretty shown double) t r' = Ok s -> v = v'.
Proof.
  intros HD h h' t r r' v v' s V V' R R' L L' E E'. eapply legible_alike; eauto.
  apply (pretty_alike_claim shown double (proj1 HD) h h' t r r'); auto. eauto.
Qed.
