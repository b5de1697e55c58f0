(** The text of [{:?}] tells the value (C90, C91, C120). *)
From Verif Require Import Base Types Layout AlignedBytes Strs Spec Deser Buf Histories
  BaseFacts TypesFacts LayoutFacts Utf8Facts DeserFacts StructFacts ReadFacts ReadClaims EqFacts MoveFacts Fmt FmtSpec FmtFacts
  CoreFmt PrintSpec PrintFacts LossyFacts.
From Coq Require Import Lia ZifyBool ZifyNat ZifyN.

Section separated.
  Context {A : Type} (p : A -> list byte) (Q : A -> Prop) (R : A -> A -> Prop).
  Definition coded (a : A) : Prop := forall b r r', Q b -> stop r -> stop r' -> p a ++ r = p b ++ r' -> R a b /\ r = r'.
  Context (Hhead : forall a, Q a -> opens (p a)).

  Lemma tail_stop l r : stop r -> stop (concat (map (fun y => bs ", " ++ y) l) ++ r).
  Proof. destruct l; [auto|]. intros _. cbn. apply stop_cons. cbn. tauto. Qed.
  Lemma tail_code l : Forall coded l -> Forall Q l -> forall l' r r', Forall Q l' ->
    concat (map (fun y => bs ", " ++ y) (map p l)) ++ bs "]" ++ r =
    concat (map (fun y => bs ", " ++ y) (map p l')) ++ bs "]" ++ r' -> Forall2 R l l' /\ r = r'.
  Proof.
    induction 1 as [|a l Ha _ IH]; intros HQ l' r r' HQ' E; destruct HQ' as [|b l' Hb HQ']; cbn [map concat] in E.
    - cbn in E. injection E as <-. auto.
    - cbn in E. discriminate.
    - cbn in E. discriminate.
    - rewrite <- !app_assoc in E. apply app_inv_head in E. inversion HQ; subst.
      apply Ha in E as [Hab E]; [|exact Hb|apply tail_stop; apply stop_cons; cbn; tauto|apply tail_stop; apply stop_cons; cbn; tauto].
      destruct (IH ltac:(assumption) l' r r' HQ' E) as [Hl ->]. auto.
  Qed.
  Lemma sep_code l : Forall coded l -> Forall Q l -> forall l' r r', Forall Q l' ->
    sp_sep (bs ", ") (map p l) ++ bs "]" ++ r = sp_sep (bs ", ") (map p l') ++ bs "]" ++ r' -> Forall2 R l l' /\ r = r'.
  Proof.
    intros Hc HQ l' r r' HQ' E. destruct Hc as [|a l Ha Hc], HQ' as [|b l' Hb HQ']; cbn [map sp_sep] in E.
    - cbn in E. injection E as <-. auto.
    - destruct (Hhead b Hb) as (c & q & E' & Hn). rewrite E' in E. cbn in E. injection E as <- _. cbn in Hn. tauto.
    - inversion HQ; subst. destruct (Hhead a ltac:(assumption)) as (c & q & E' & Hn). rewrite E' in E. cbn in E. injection E as -> _. cbn in Hn. tauto.
    - rewrite <- !app_assoc in E. inversion HQ; subst.
      apply Ha in E as [Hab E]; [|exact Hb|apply tail_stop; apply stop_cons; cbn; tauto|apply tail_stop; apply stop_cons; cbn; tauto].
      destruct (tail_code l Hc ltac:(assumption) l' r r' HQ' E) as [Hl ->]. auto.
  Qed.
  Lemma trail_code l : Forall coded l -> Forall Q l -> forall l' r r', Forall Q l' ->
    sp_trail (bs ", ") (map p l) ++ bs "]" ++ r = sp_trail (bs ", ") (map p l') ++ bs "]" ++ r' -> Forall2 R l l' /\ r = r'.
  Proof.
    unfold sp_trail.
    induction 1 as [|a l Ha _ IH]; intros HQ l' r r' HQ' E; destruct HQ' as [|b l' Hb HQ']; cbn [map concat] in E.
    - cbn in E. injection E as <-. auto.
    - destruct (Hhead b Hb) as (c & q & E' & Hn). rewrite E' in E. cbn in E. injection E as <- _. cbn in Hn. tauto.
    - inversion HQ; subst. destruct (Hhead a ltac:(assumption)) as (c & q & E' & Hn). rewrite E' in E. cbn in E. injection E as -> _. cbn in Hn. tauto.
    - rewrite <- !app_assoc in E. inversion HQ; subst.
      apply Ha in E as [Hab E]; [|exact Hb|apply stop_cons; cbn; tauto|apply stop_cons; cbn; tauto].
      apply app_inv_head in E. destruct (IH ltac:(assumption) l' r r' HQ' E) as [Hl ->]. auto.
  Qed.
End separated.

Lemma Forall2_same {A} (l l' : list A) : Forall2 eq l l' -> l = l'.
Proof. induction 1; congruence. Qed.
Lemma byte_code (a : byte) : coded (fun b => core_int (Z.of_N (b2n b))) (fun _ => True) eq a.
Proof.
  intros b r r' _ Hr Hr' E. apply int_code in E as [E ->]; auto. split; [|reflexivity].
  apply b2n_inj. lia.
Qed.

Section print.
  Context (shown : N -> bool) (double : N -> list byte) (HD : numeric double).
  Let F := core_fmts shown double.

  Lemma print_opens t v : shaped t v -> opens (sp_print F t v).
  Proof.
    assert (Hlit : forall c q, ~ In c (bs ",)]") -> opens (c :: q)) by (intros c q H; exists c, q; auto).
    intros H. destruct H.
    - destruct b; apply Hlit; cbn; intuition discriminate.
    - replace (sp_print F t (VInt z)) with (core_int z) by (cbn in H; decompose [or] H; subst; tauto || reflexivity).
      apply num_opens; apply core_int_chars.
    - apply num_opens; apply HD.
    - replace (sp_print F t (VStr s)) with (core_str shown s) by (cbn in H; decompose [or] H; subst; tauto || reflexivity).
      apply Hlit. cbn. intuition discriminate.
    - apply Hlit. cbn. intuition discriminate.
    - apply Hlit. cbn. intuition discriminate.
    - apply Hlit. cbn. intuition discriminate.
    - apply Hlit. cbn. intuition discriminate.
    - assert (Hl : length vs = length (children_of t)).
      { clear H. induction H0; cbn; congruence. }
      rewrite print_struct by assumption. rewrite tuple_sep. apply Hlit. cbn. intuition discriminate.
  Qed.

  Lemma members_code ts : Forall (fun t => forall v w r r', shaped t v -> shaped t w ->
      stop r -> stop r' -> sp_print F t v ++ r = sp_print F t w ++ r' -> alike double v w /\ r = r') ts ->
    forall vs ws r r', Forall2 shaped ts vs -> Forall2 shaped ts ws ->
      stop r -> stop r' ->
      concat (map (fun y => bs ", " ++ y) (map (fun q => sp_print F (fst q) (snd q)) (combine ts vs))) ++ r =
      concat (map (fun y => bs ", " ++ y) (map (fun q => sp_print F (fst q) (snd q)) (combine ts ws))) ++ r' ->
      Forall2 (alike double) vs ws /\ r = r'.
  Proof.
    induction 1 as [|t ts Ht _ IH]; intros vs ws r r' Hv Hw Hr Hr' E.
    - inversion Hv; inversion Hw; subst. cbn in E. auto.
    - inversion Hv as [|? v ? vs' V1 V2]; inversion Hw as [|? w ? ws' W1 W2]; subst.
      cbn [combine map concat fst snd] in E.
      rewrite <- !app_assoc in E. apply app_inv_head in E.
      apply Ht in E as [HA E]; auto using tail_stop.
      destruct (IH vs' ws' r r') as [HB ->]; auto.
  Qed.

  Lemma print_prefix t : forall v w r r', shaped t v -> shaped t w ->
    stop r -> stop r' -> sp_print F t v ++ r = sp_print F t w ++ r' -> alike double v w /\ r = r'.
  Proof.
    induction t as [t Hns IH|t Hs IH] using ty_struct_ind; intros v w r r' Hv Hw Hr Hr' E.
    - assert (Hint : forall a b, core_int a ++ r = core_int b ++ r' -> alike double (VInt a) (VInt b) /\ r = r').
      { intros a b H. apply int_code in H as [-> ->]; auto using al_int. }
      assert (Hstr : forall a b, is_utf8 a -> is_utf8 b -> core_str shown a ++ r = core_str shown b ++ r' -> alike double (VStr a) (VStr b) /\ r = r').
      { intros a b Ha Hb H. apply core_str_prefix in H as [-> ->]; auto using al_str. }
      destruct Hv as [a|t a Hin|a|t a Hin Ha|ts d|x vs HV|x|x v HV|t vs Ht HV].
      + inversion Hw as [b|? ? Hin'| |? ? Hin'| | | | |? ? Hs']; subst;
          try (cbn in Hin'; decompose [or] Hin'; discriminate || tauto); [|cbn in Hs'; tauto].
        destruct a, b; cbn in E; try discriminate; injection E as <-; auto using al_bool.
      + inversion Hw as [b|? b Hin'| |? ? Hin'| | | | |? ? Hs']; subst; cbn in Hin;
          try (decompose [or] Hin; discriminate || tauto);
          try (exfalso; cbn in Hin'; decompose [or] Hin; decompose [or] Hin'; subst; discriminate || tauto);
          try tauto.
        decompose [or] Hin; (subst t; apply Hint; exact E) || tauto.
      + inversion Hw as [b|? ? Hin'|b|? ? Hin'| | | | |? ? Hs']; subst;
          try (cbn in Hin'; decompose [or] Hin'; discriminate || tauto); [|cbn in Hs'; tauto].
        cbn in E. pose proof HD as H1.
        destruct (span_eq num_char _ _ _ _ (proj2 (H1 a)) (proj2 (H1 b)) (num_stop r Hr) (num_stop r' Hr') E) as [E1 E2].
        subst. auto using al_double.
      + inversion Hw as [b|? ? Hin'| |? b Hin' Hb| | | | |? ? Hs']; subst; cbn in Hin;
          try (decompose [or] Hin; discriminate || tauto);
          try (exfalso; cbn in Hin'; decompose [or] Hin; decompose [or] Hin'; subst; discriminate || tauto);
          try tauto.
        decompose [or] Hin; (subst t; apply Hstr; auto; exact E) || tauto.
      + inversion Hw as [b|? ? Hin'| |? ? Hin'|ts' d'| | | |? ? Hs']; subst;
          try (cbn in Hin'; decompose [or] Hin'; discriminate || tauto); [|cbn in Hs'; tauto].
        cbn [sp_print] in E. rewrite <- !app_assoc in E. apply app_inv_head in E.
        change (f_str F) with (core_str shown) in E. change (f_lossy F) with core_lossy in E.
        apply core_str_prefix in E as [E1 E]; auto using lossy_valid.
        apply app_inv_head in E.
        apply (sep_code (fun b => core_int (Z.of_N (b2n b))) (fun _ => True) eq) with (r := bs " }" ++ r) (r' := bs " }" ++ r') in E as [E2 E].
        * apply app_inv_head in E. apply Forall2_same in E2. subst. split; [|reflexivity].
          eapply al_variant; apply lossy_claim; [reflexivity|congruence].
        * intros b _. apply num_opens; apply core_int_chars.
        * apply Forall_forall. intros b _. apply byte_code.
        * now apply Forall_forall.
        * now apply Forall_forall.
      + inversion Hw as [b|? ? Hin'| |? ? Hin'| |? ws HW| | |? ? Hs']; subst;
          try (cbn in Hin'; decompose [or] Hin'; discriminate || tauto); [|cbn in Hs'; tauto].
        cbn [sp_print] in E.
        rewrite <- !app_assoc in E. apply app_inv_head in E.
        set (Q := shaped x).
        assert (HQv : Forall Q vs) by (rewrite Forall_forall in *; unfold Q; auto).
        assert (HQw : Forall Q ws) by (rewrite Forall_forall in *; unfold Q; auto).
        assert (Hc : Forall (coded (sp_print F x) Q (alike double)) vs).
        { rewrite Forall_forall in *. intros v Hin b q q' B1 Hq Hq' Eq.
          apply (IH x (or_introl eq_refl)) in Eq; auto. }
        assert (Hh : forall v, Q v -> opens (sp_print F x v)) by (intros v V; now apply print_opens).
        destruct (sp_size x).
        * apply (sep_code _ Q (alike double)) in E as [HA ->]; auto using al_array.
        * apply (trail_code _ Q (alike double)) in E as [HA ->]; auto using al_array.
      + inversion Hw as [b|? ? Hin'| |? ? Hin'| | |?|? w' HW|? ? Hs']; subst;
          try (cbn in Hin'; decompose [or] Hin'; discriminate || tauto); try (cbn in Hs'; tauto).
        * cbn in E. injection E as <-. auto using al_nothing.
        * cbn in E. discriminate.
      + inversion Hw as [b|? ? Hin'| |? ? Hin'| | |?|? w' HW|? ? Hs']; subst;
          try (cbn in Hin'; decompose [or] Hin'; discriminate || tauto); try (cbn in Hs'; tauto).
        * cbn in E. discriminate.
        * cbn [sp_print] in E. rewrite <- !app_assoc in E. apply app_inv_head in E.
          apply (IH x (or_intror eq_refl)) in E as [HA E]; auto; try (apply stop_cons; cbn; tauto).
          apply app_inv_head in E. subst. auto using al_just.
      + tauto.
    - assert (HS : forall v, shaped t v -> exists vs, v = VTuple vs /\ Forall2 shaped (children_of t) vs).
      { intros u Hu. destruct Hu as [a|t a Hin|a|t a Hin Ha|ts d|x vs HV|x|x u HV|t vs Ht HV]; try (cbn in Hs; tauto);
          try (exfalso; cbn in Hin; decompose [or] Hin; subst; cbn in Hs; tauto). eauto. }
      apply HS in Hv as (vs & -> & HV). apply HS in Hw as (ws & -> & HW).
      
      assert (HL : forall vs, Forall2 shaped (children_of t) vs -> length vs = length (children_of t)).
      { intros us Hu. symmetry. eapply Forall2_length; exact Hu. }
      rewrite !print_struct in E by auto. rewrite !tuple_sep in E. rewrite <- !app_assoc in E. apply app_inv_head in E.
      assert (Hn : forall us, Forall2 shaped (children_of t) us ->
        len (map (fun q => sp_print F (fst q) (snd q)) (combine (children_of t) us)) = N.of_nat (length (children_of t))).
      { intros us Hu. unfold len. rewrite map_length, combine_length, (HL us Hu). lia. }
      rewrite !Hn in E by assumption.
      set (fin := fun r : list byte => (if N.of_nat (length (children_of t)) =? 1 then bs "," else []) ++ bs ")" ++ r) in *.
      assert (Hfin : forall q, stop (fin q)).
      { intros q. unfold fin. destruct (_ =? 1); apply stop_cons; cbn; tauto. }
      assert (E2 : Forall2 (alike double) vs ws /\ fin r = fin r').
      { clear Hn HL Hs. change (sp_sep (bs ", ") (map (fun q => sp_print F (fst q) (snd q)) (combine (children_of t) vs)) ++ fin r =
          sp_sep (bs ", ") (map (fun q => sp_print F (fst q) (snd q)) (combine (children_of t) ws)) ++ fin r') in E.
        clearbody fin. destruct IH as [|c cs Hc IH].
        - inversion HV; inversion HW; subst. cbn in E. auto.
        - inversion HV as [|? v0 ? vs' V1 V2]; inversion HW as [|? w0 ? ws' W1 W2]; subst.
          cbn [combine map sp_sep fst snd] in E. rewrite <- !app_assoc in E.
          apply Hc in E as [HA E]; auto using tail_stop.
          apply (members_code cs IH) in E as [HB ->]; auto. }
      destruct E2 as [HA E2]. split; [now apply al_tuple|]. unfold fin in E2. apply app_inv_head in E2. now apply app_inv_head in E2.
  Qed.

  Lemma map_alike {A B} (p : A -> B) (Q : A -> Prop) (R : A -> A -> Prop) : (forall a b, Q a -> Q b -> R a b -> p a = p b) ->
    forall l l', Forall Q l -> Forall Q l' -> Forall2 R l l' -> map p l = map p l'.
  Proof.
    intros H l l' HQ HQ' HR. revert HQ HQ'. induction HR as [|a b l l' Hab _ IH]; intros HQ HQ'; [reflexivity|].
    inversion HQ; inversion HQ'; subst. cbn [map]. f_equal; auto.
  Qed.
  Lemma members_alike (p : ty -> value -> list byte) ts : Forall (fun t => forall v w, shaped t v -> shaped t w -> alike double v w -> p t v = p t w) ts ->
    forall vs ws, Forall2 shaped ts vs -> Forall2 shaped ts ws -> Forall2 (alike double) vs ws ->
    map (fun q => p (fst q) (snd q)) (combine ts vs) = map (fun q => p (fst q) (snd q)) (combine ts ws).
  Proof.
    induction 1 as [|t ts Ht _ IH]; intros vs ws Hv Hw HA; [reflexivity|].
    inversion Hv as [|? v ? vs' V1 V2]; inversion Hw as [|? w ? ws' W1 W2]; subst. inversion HA; subst.
    cbn [combine map fst snd]. f_equal; auto.
  Qed.
  Lemma print_alike t : forall v w, shaped t v -> shaped t w -> alike double v w -> sp_print F t v = sp_print F t w.
  Proof.
    induction t as [t Hns IH|t Hs IH] using ty_struct_ind; intros v w Hv Hw HA.
    - destruct HA as [b|z|a b Hab|s|ts ts' o d Ho Ho'|vs ws HA| |v w HA|vs ws HA]; try reflexivity.
      + inversion Hv as [| |? |? ? Hin| | | | |]; subst. cbn [sp_print]. exact Hab.
      + inversion Hv; subst. cbn [sp_print]. change (f_lossy F) with core_lossy.
        apply lossy_claim in Ho, Ho'. now rewrite <- Ho, <- Ho'.
      + inversion Hv as [| | | | |x ? HV| | |]; subst. inversion Hw as [| | | | |? ? HW| | |]; subst. cbn [sp_print].
        erewrite map_alike; [reflexivity| |exact HV|exact HW|exact HA]. intros a b. apply IH. now left.
      + inversion Hv; subst. inversion Hw; subst. cbn [sp_print]. erewrite (IH _ (or_intror eq_refl)); eauto.
      + inversion Hv; subst. tauto.
    - assert (HS : forall v, shaped t v -> exists vs, v = VTuple vs /\ Forall2 shaped (children_of t) vs).
      { intros u Hu. destruct Hu as [a|t a Hin|a|t a Hin Ha|ts d|x vs HV|x|x u HV|t vs Ht HV]; try (cbn in Hs; tauto);
          try (exfalso; cbn in Hin; decompose [or] Hin; subst; cbn in Hs; tauto). eauto. }
      apply HS in Hv as (vs & -> & HV). apply HS in Hw as (ws & -> & HW). inversion HA; subst.
      rewrite !print_struct by (auto; symmetry; eapply Forall2_length; eauto).
      erewrite members_alike; eauto.
  Qed.

  Lemma alike_claim h h' t r r' v v' : view h t r -> view h' t r' ->
    read h t r = Ok v -> read h' t r' = Ok v' ->
    ((exists s, fmt_debug h F t r = Ok s /\ fmt_debug h' F t r' = Ok s) <-> alike double v v').
  Proof.
    intros V V' R R'. rewrite (fmt_claim h F t r v V R), (fmt_claim h' F t r' v' V' R').
    apply view_ok in V as (H1 & _ & _). apply view_ok in V' as (H2 & _ & _).
    assert (Hm : macro_ok t = true) by apply H1.
    apply read_shaped in R, R'; [|exact Hm|exact Hm]. split; [intros (s & E & E')|intros E].
    - apply (print_prefix t v v' [] []); auto; try (left; reflexivity). rewrite !app_nil_r. congruence.
    - eexists. split; [reflexivity|]. f_equal. symmetry. now apply print_alike.
  Qed.
End print.

Definition value_ind' (P : value -> Prop) (Hb : forall b, P (VBool b)) (Hi : forall z, P (VInt z)) (Hd : forall b, P (VDouble b))
  (Hs : forall s, P (VStr s)) (Hv : forall ts d, P (VVariant ts d)) (Ha : forall vs, Forall P vs -> P (VArray vs))
  (Hn : P (VMaybe None)) (Hj : forall v, P v -> P (VMaybe (Some v))) (Ht : forall vs, Forall P vs -> P (VTuple vs)) : forall v, P v :=
  fix go v := let all := fix all vs : Forall P vs := match vs with [] => Forall_nil P | v :: r => Forall_cons v (go v) (all r) end in
    match v with
    | VBool b => Hb b | VInt z => Hi z | VDouble b => Hd b | VStr s => Hs s | VVariant ts d => Hv ts d
    | VArray vs => Ha vs (all vs) | VMaybe None => Hn | VMaybe (Some v) => Hj v (go v) | VTuple vs => Ht vs (all vs)
    end.
Lemma legible_alike double : writes_doubles double -> forall v w, legible v -> legible w -> alike double v w -> v = w.
Proof.
  intros [_ HD].
  assert (HL : forall vs, Forall (fun v => forall w, legible v -> legible w -> alike double v w -> v = w) vs ->
    forall ws, Forall legible vs -> Forall legible ws -> Forall2 (alike double) vs ws -> vs = ws).
  { induction 1 as [|v vs Hv _ IH]; intros ws Lv Lw HA; inversion HA; subst; [reflexivity|].
    inversion Lv; inversion Lw; subst. f_equal; auto. }
  induction v as [b|z|b|s|ts d|vs IH| |v IH|vs IH] using value_ind'; intros w Lv Lw HA; inversion HA; subst; try reflexivity.
  - f_equal. apply HD; auto.
  - match goal with H : mended ts ?o, H' : mended ?ts' ?o |- _ => apply lossy_claim in H, H' end. cbn [legible] in Lv, Lw. apply lossy_same in Lv, Lw. congruence.
  - f_equal. cbn [legible] in Lv, Lw. rewrite legible_list in Lv, Lw. now apply HL.
  - do 2 f_equal. apply IH; assumption.
  - f_equal. cbn [legible] in Lv, Lw. rewrite legible_list in Lv, Lw. now apply HL.
Qed.
Lemma print_claim shown double : writes_doubles double -> forall h h' t r r' v v' s, view h t r -> view h' t r' ->
  read h t r = Ok v -> read h' t r' = Ok v' -> legible v -> legible v' ->
  fmt_debug h (core_fmts shown double) t r = Ok s -> fmt_debug h' (core_fmts shown double) t r' = Ok s -> v = v'.
Proof.
  intros HD h h' t r r' v v' s V V' R R' L L' E E'. eapply legible_alike; eauto.
  apply (alike_claim shown double (proj1 HD) h h' t r r'); auto. eauto.
Qed.

Lemma variants_alike shown double : exists (h : host) (r r' : slice) (v v' : value) (s : list byte),
  view h TV r /\ view h TV r' /\ read h TV r = Ok v /\ read h TV r' = Ok v' /\ v <> v' /\
  fmt_debug h (core_fmts shown double) TV r = Ok s /\ fmt_debug h (core_fmts shown double) TV r' = Ok s.
Proof.
  exists (Host false true true 0 0), (Slice 16 [x05; x00; xff]), (Slice 16 [x05; x00; xfe]),
    (VVariant [xff] [x05]), (VVariant [xfe] [x05]). eexists.
  assert (HV : forall d, view (Host false true true 0 0) TV (Slice 16 [x05; x00; d])).
  { intros d. exists TV, (Slice 16 [x05; x00; d]). split; [split; reflexivity|]. split; [reflexivity|].
    split; [reflexivity|]. apply reach_cast. reflexivity. }
  split; [apply HV|]. split; [apply HV|]. split; [reflexivity|]. split; [reflexivity|].
  split; [discriminate|]. split; [vm_compute; reflexivity|]. vm_compute. reflexivity.
Qed.
Lemma nans_alike shown double : (forall b, sp_nan b = true -> double b = bs "NaN") ->
  exists (h : host) (r r' : slice) (v v' : value) (s : list byte),
  view h TD r /\ view h TD r' /\ read h TD r = Ok v /\ read h TD r' = Ok v' /\ v <> v' /\
  fmt_debug h (core_fmts shown double) TD r = Ok s /\ fmt_debug h (core_fmts shown double) TD r' = Ok s.
Proof.
  intros HN.
  exists (Host false true true 0 0), (Slice 16 [x01; x00; x00; x00; x00; x00; xf8; x7f]),
    (Slice 16 [x02; x00; x00; x00; x00; x00; xf8; x7f]),
    (VDouble 0x7ff8000000000001), (VDouble 0x7ff8000000000002), (bs "NaN").
  assert (HV : forall d, view (Host false true true 0 0) TD (Slice 16 [d; x00; x00; x00; x00; x00; xf8; x7f])).
  { intros d. exists TD, (Slice 16 [d; x00; x00; x00; x00; x00; xf8; x7f]). split; [split; reflexivity|]. split; [reflexivity|].
    split; [reflexivity|]. apply reach_cast. reflexivity. }
  split; [apply HV|]. split; [apply HV|]. split; [reflexivity|]. split; [reflexivity|].
  split; [discriminate|]. split; cbn [fmt_debug core_fmts f_double]; f_equal; apply HN; vm_compute; reflexivity.
Qed.
