(** Facts about the errors of the type-string parser (C86-C88). *)
From Verif Require Import Base Types Layout Spec BaseFacts TypesFacts Errors ParseSpec.
Local Open Scope nat_scope.

Notation items ts := (concat (map display ts)) (only parsing).

Lemma display_prefix a b r r' : display a ++ r = display b ++ r' -> a = b /\ r = r'.
Proof.
  intros H. destruct (display_cons a) as (c & s & E & _). destruct (display_cons b) as (c' & s' & E' & _).
  rewrite E, E' in H. cbn [app] in H. injection H as <- H.
  pose (f := 2 * length (display a) + 2 * length (display b)).
  pose proof (parse_one_display a f c s r E ltac:(unfold f; lia)) as Pa.
  pose proof (parse_one_display b f c s' r' E' ltac:(unfold f; lia)) as Pb.
  rewrite H, Pb in Pa. inversion Pa. auto.
Qed.

Definition starter (c : byte) : Prop := exists t s, display t = c :: s.
Lemma starter_nclose c : starter c -> c <> ")"%byte /\ c <> "}"%byte.
Proof. intros (t & s & E). destruct t; cbn in E; injection E as <- _; split; discriminate. Qed.
Lemma starter_cases c : starter c ->
  (exists t, basic_letter c = Some t) \/ c = "a"%byte \/ c = "m"%byte \/ c = "("%byte \/ c = "{"%byte.
Proof. intros (t & s & E). destruct t; cbn in E; injection E as <- _; eauto 7; left; eexists; reflexivity. Qed.

Lemma item_cons ts c s r : items ts ++ ")"%byte :: r = c :: s ->
  (ts = [] /\ c = ")"%byte /\ s = r) \/
  (exists t ts', ts = t :: ts' /\ starter c /\ display t ++ items ts' ++ ")"%byte :: r = c :: s).
Proof.
  destruct ts as [|t ts]; cbn [map concat app]; intros H.
  - injection H as <- <-. auto.
  - right. exists t, ts. split; [reflexivity|]. rewrite <- app_assoc in H. split; [|exact H].
    destruct (display_cons t) as (c' & s' & E & _). rewrite E in H. cbn [app] in H. injection H as <- _.
    eexists _, _; exact E.
Qed.

(** How a printed type with a given first letter goes on. *)
Lemma display_a t r s : display t ++ r = "a"%byte :: s -> exists x, t = TA x /\ s = display x ++ r.
Proof. destruct t; cbn; intros H; try discriminate. injection H as <-. eauto. Qed.
Lemma display_m t r s : display t ++ r = "m"%byte :: s -> exists x, t = TM x /\ s = display x ++ r.
Proof. destruct t; cbn; intros H; try discriminate. injection H as <-. eauto. Qed.
Lemma display_p t r s : display t ++ r = "("%byte :: s ->
  exists ts, t = TTuple ts /\ s = items ts ++ ")"%byte :: r.
Proof.
  destruct t; cbn; intros H; try discriminate. injection H as <-. rewrite <- app_assoc. eauto.
Qed.
Lemma display_d t r s : display t ++ r = "{"%byte :: s ->
  exists k v, t = TDict k v /\ s = display k ++ display v ++ "}"%byte :: r.
Proof.
  destruct t; cbn; intros H; try discriminate. injection H as <-. rewrite <- !app_assoc. eauto.
Qed.

(** What may come after the input, for each way of running out of it. *)
Definition eof (e : perr) : Prop :=
  e = EArray \/ e = EMaybe \/ e = EEofTuple \/ e = EEofDict \/ e = EEofClose.
Definition allowed (e : perr) (d : byte) : Prop :=
  match e with
  | EArray | EMaybe | EEofDict => starter d
  | EEofTuple => starter d \/ d = ")"%byte
  | EEofClose => d = "}"%byte
  | _ => True
  end.
Definition tail_ok (e : perr) (s : list byte) : Prop :=
  match e with
  | EArray => ends_in s "a"
  | EMaybe => ends_in s "m"
  | _ => ~ ends_in s "a" /\ ~ ends_in s "m"
  end%byte.
(** A text that makes it possible to go on. *)
Definition closer (e : perr) (q : list byte) : Prop :=
  match e with
  | EEofTuple => exists q', q = ")"%byte :: q'
  | EEofClose => exists q', q = "}"%byte :: q'
  | _ => q <> []
  end.

Lemma ends_in_cons c x s : ends_in (x :: s) c -> (s = [] /\ x = c) \/ ends_in s c.
Proof.
  intros [[|y p] E]; cbn in E; injection E as -> E; [auto|]. right. exists p. exact E.
Qed.
Lemma cons_ends_in c x s : ends_in s c -> ends_in (x :: s) c.
Proof. intros [p ->]. exists (x :: p). reflexivity. Qed.
Lemma ends_in_app c p s : ends_in s c -> ends_in (p ++ s) c.
Proof. intros [q ->]. exists (p ++ q). now rewrite app_assoc. Qed.
Lemma ends_in_split c p s : ends_in (p ++ s) c -> (s = [] /\ ends_in p c) \/ ends_in s c.
Proof.
  intros [q E]. destruct s as [|x s] using rev_ind; [left; split; [auto|exists q; now rewrite app_nil_r in E]|].
  right. rewrite app_assoc in E. apply app_inj_tail in E as [_ ->]. exists s. reflexivity.
Qed.
Lemma ends_in_nil c : ~ ends_in [] c.
Proof. intros [p E]. destruct p; discriminate. Qed.
Lemma ends_in_one c x p : ends_in (p ++ [x]) c -> x = c.
Proof. intros [q E]. apply app_inj_tail in E. tauto. Qed.
Lemma display_tail t : ~ ends_in (display t) "a"%byte /\ ~ ends_in (display t) "m"%byte.
Proof.
  induction t as [ | | | | | | | | | | | | |x [I1 I2]|x [I1 I2]|ts Hts|k v [I1 I2] [J1 J2]] using ty_ind'; cbn [display];
    try (split; (intros H; apply ends_in_cons in H as [[_ H]|H]; [discriminate|exact (ends_in_nil _ H)])).
  - split; intros H; apply ends_in_cons in H as [[H H']|H]; try tauto;
      destruct (display_cons x) as (? & ? & E & _); rewrite E in H; discriminate.
  - split; intros H; apply ends_in_cons in H as [[H H']|H]; try tauto;
      destruct (display_cons x) as (? & ? & E & _); rewrite E in H; discriminate.
  - split; intros H; change ("("%byte :: concat (map display ts) ++ [")"%byte])
      with (("("%byte :: concat (map display ts)) ++ [")"%byte]) in H; apply ends_in_one in H; discriminate.
  - split; intros H; rewrite app_assoc in H;
      change ("{"%byte :: (display k ++ display v) ++ ["}"%byte])
      with (("{"%byte :: display k ++ display v) ++ ["}"%byte]) in H; apply ends_in_one in H; discriminate.
Qed.

(** Running out of input: the text can be finished, only allowed letters follow,
    and its last letter tells the kind. *)
Lemma ran_out_one fuel :
  (forall c it e, parse_one fuel c it = inl e -> eof e ->
     (exists q t, closer e q /\ c :: it ++ q = display t) /\
     (forall d q t r, c :: it ++ d :: q = display t ++ r -> allowed e d) /\ tail_ok e (c :: it)) /\
  (forall it acc e, parse_items fuel it acc = inl e -> eof e ->
     (exists q ts, closer e q /\ it ++ q = items ts ++ [")"%byte]) /\
     (forall d q ts r, it ++ d :: q = items ts ++ ")"%byte :: r -> allowed e d) /\
     (it <> [] -> tail_ok e it) /\ (it = [] -> e = EEofTuple)).
Proof.
  assert (Hcl : forall e q q', eof e -> closer e q -> closer e (q ++ q')).
  { intros e q q' He H. destruct e; cbn in *; try (destruct q; cbn; congruence); destruct H as [q0 ->]; cbn; eauto. }
  assert (Htc : forall e x s, eof e -> s <> [] -> tail_ok e s -> tail_ok e (x :: s)).
  { intros e x s He Hs H. unfold eof in He.
    decompose [or] He; subst e; cbn [tail_ok] in *; try (now apply cons_ends_in);
    destruct H as [H1 H2]; split; intros H; apply ends_in_cons in H as [[H _]|H]; tauto. }
  assert (Hta : forall e p s, eof e -> s <> [] -> tail_ok e s -> tail_ok e (p ++ s)).
  { intros e p s He Hs H. induction p as [|x p IH]; [exact H|]. cbn [app]. apply Htc; auto.
    destruct p; cbn; [exact Hs|discriminate]. }
  induction fuel as [|fuel [IH1 IH2]].
  { split; intros ? ? ? H He; cbn in H; injection H as <-; unfold eof in He; decompose [or] He; discriminate. }
  pose proof (proj1 (parse_sound fuel)) as Hsnd.
  split.
  - intros c it e H He. cbn [parse_one] in H.
    destruct (basic_letter c) as [b|] eqn:Eb; [discriminate|].
    destruct (byte_eqb c "a") eqn:Ea.
    { apply byte_eqb_eq in Ea. subst c. destruct it as [|c' it'].
      { injection H as <-. split; [|split; [|try split]].
        - exists ["b"%byte], (TA TB). split; [discriminate|reflexivity].
        - intros d q t r H. cbn [app] in H. symmetry in H. apply display_a in H as (x & -> & H).
          destruct (display_cons x) as (y & s & E & _). rewrite E in H. cbn [app] in H. injection H as <- _.
          eexists _, _; exact E.
        - exists []. reflexivity. }
      destruct (parse_one fuel c' it') as [e'|[x it'']] eqn:E; [|discriminate]. injection H as ->.
      destruct (IH1 _ _ _ E He) as ((q & t & Q1 & Q2) & HF & HT). repeat split.
      - exists q, (TA t). split; [exact Q1|]. cbn [app display]. now rewrite Q2.
      - intros d q' t' r H. cbn [app] in H. symmetry in H. apply display_a in H as (x & -> & H).
        exact (HF _ _ _ _ H).
      - apply Htc; auto. discriminate. }
    destruct (byte_eqb c "m") eqn:Em.
    { apply byte_eqb_eq in Em. subst c. destruct it as [|c' it'].
      { injection H as <-. split; [|split; [|try split]].
        - exists ["b"%byte], (TM TB). split; [discriminate|reflexivity].
        - intros d q t r H. cbn [app] in H. symmetry in H. apply display_m in H as (x & -> & H).
          destruct (display_cons x) as (y & s & E & _). rewrite E in H. cbn [app] in H. injection H as <- _.
          eexists _, _; exact E.
        - exists []. reflexivity. }
      destruct (parse_one fuel c' it') as [e'|[x it'']] eqn:E; [|discriminate]. injection H as ->.
      destruct (IH1 _ _ _ E He) as ((q & t & Q1 & Q2) & HF & HT). repeat split.
      - exists q, (TM t). split; [exact Q1|]. cbn [app display]. now rewrite Q2.
      - intros d q' t' r H. cbn [app] in H. symmetry in H. apply display_m in H as (x & -> & H).
        exact (HF _ _ _ _ H).
      - apply Htc; auto. discriminate. }
    destruct (byte_eqb c "(") eqn:Ep.
    { apply byte_eqb_eq in Ep. subst c.
      destruct (parse_items fuel it []) as [e'|[ts it']] eqn:E; [|discriminate]. injection H as ->.
      destruct (IH2 _ _ _ E He) as ((q & ts & Q1 & Q2) & HF & HT & HN). repeat split.
      - exists q, (TTuple ts). split; [exact Q1|]. cbn [display]. now rewrite Q2.
      - intros d q' t' r H. cbn [app] in H. symmetry in H. apply display_p in H as (x & -> & H).
        exact (HF _ _ _ _ H).
      - destruct it as [|c it]; [|apply Htc; auto; [discriminate|apply HT; discriminate]].
        rewrite (HN eq_refl). cbn. split; intros H; apply ends_in_cons in H as [[_ H]|H];
          [discriminate|exact (ends_in_nil _ H)|discriminate|exact (ends_in_nil _ H)]. }
    destruct (byte_eqb c "{") eqn:Eq.
    2:{ injection H as <-. unfold eof in He. decompose [or] He; discriminate. }
    apply byte_eqb_eq in Eq. subst c. destruct it as [|c1 it1].
    { injection H as <-. split; [|split; [|try split]].
      - exists (bs "bb}"), (TDict TB TB). split; [discriminate|reflexivity].
      - intros d q t r H. cbn [app] in H. symmetry in H. apply display_d in H as (k & v & -> & H).
        destruct (display_cons k) as (y & s & E & _). rewrite E in H. cbn [app] in H. injection H as <- _.
        eexists _, _; exact E.
      - intros H; apply ends_in_cons in H as [[_ H]|H]; [discriminate|exact (ends_in_nil _ H)].
      - intros H; apply ends_in_cons in H as [[_ H]|H]; [discriminate|exact (ends_in_nil _ H)]. }
    destruct (parse_one fuel c1 it1) as [e'|[a [|c2 it2]]] eqn:E1.
    { injection H as ->. destruct (IH1 _ _ _ E1 He) as ((q & t & Q1 & Q2) & HF & HT). repeat split.
      - exists (q ++ bs "b}"), (TDict t TB). split; [now apply Hcl|]. cbn [app display]. rewrite app_assoc.
        change (c1 :: (it1 ++ q) ++ bs "b}") with ((c1 :: it1 ++ q) ++ bs "b}"). now rewrite Q2.
      - intros d q' t' r H. cbn [app] in H. symmetry in H. apply display_d in H as (k & v & -> & H).
        exact (HF _ _ _ _ H).
      - apply Htc; auto. discriminate. }
    { injection H as <-. apply Hsnd in E1. rewrite app_nil_r in E1. rewrite E1. repeat split.
      - exists (bs "b}"), (TDict a TB). split; [discriminate|].
        reflexivity.
      - intros d q t r H. symmetry in H. apply display_d in H as (k & v & -> & H).
        apply display_prefix in H as [_ H].
        destruct (display_cons v) as (y & s & E & _). rewrite E in H. cbn [app] in H. injection H as -> _.
        eexists _, _; exact E.
      - intros H; apply ends_in_cons in H as [[_ H]|H]; [discriminate|exact (proj1 (display_tail a) H)].
      - intros H; apply ends_in_cons in H as [[_ H]|H]; [discriminate|exact (proj2 (display_tail a) H)]. }
    apply Hsnd in E1.
    destruct (parse_one fuel c2 it2) as [e'|[b [|c3 it3]]] eqn:E2.
    { injection H as ->. destruct (IH1 _ _ _ E2 He) as ((q & t & Q1 & Q2) & HF & HT). repeat split.
      - exists (q ++ bs "}"), (TDict a t). split; [now apply Hcl|]. cbn [display].
        change ((c1 :: it1) ++ q ++ bs "}") with ((c1 :: it1) ++ (q ++ bs "}")). rewrite E1, <- app_assoc.
        rewrite <- Q2. cbn [app]. now rewrite <- app_assoc.
      - intros d q' t' r H. rewrite E1, <- app_assoc in H. symmetry in H.
        apply display_d in H as (k & v & -> & H).
        apply display_prefix in H as [_ H]. exact (HF _ _ _ _ H).
      - apply Htc; auto; [discriminate|]. rewrite E1. apply Hta; auto. discriminate. }
    { injection H as <-. apply Hsnd in E2. rewrite app_nil_r in E2. rewrite E1, E2. repeat split.
      - exists (bs "}"), (TDict a b). split; [eexists; reflexivity|].
        cbn [display]. now rewrite <- app_assoc.
      - intros d q t r H. rewrite <- app_assoc in H. symmetry in H.
        apply display_d in H as (k & v & -> & H).
        apply display_prefix in H as [_ H]. apply display_prefix in H as [_ H]. cbn. congruence.
      - intros H; apply ends_in_cons in H as [[_ H]|H]; [discriminate|].
        apply ends_in_split in H as [[H _]|H]; [|exact (proj1 (display_tail b) H)].
        rewrite <- E2 in H. discriminate.
      - intros H; apply ends_in_cons in H as [[_ H]|H]; [discriminate|].
        apply ends_in_split in H as [[H _]|H]; [|exact (proj2 (display_tail b) H)].
        rewrite <- E2 in H. discriminate. }
    destruct (byte_eqb c3 "}"); [discriminate|]. injection H as <-.
    unfold eof in He. decompose [or] He; discriminate.
  - intros it acc e H He. cbn [parse_items] in H.
    destruct it as [|c it'].
    { injection H as <-. repeat split; try congruence.
      - exists (bs ")"), []. split; [eexists; reflexivity|reflexivity].
      - intros d q ts r H. cbn [app] in H. symmetry in H. apply item_cons in H as [(_ & -> & _)|(t & ts' & _ & Hs & _)]; cbn; auto. }
    destruct (byte_eqb c ")") eqn:Ec; [discriminate|].
    destruct (parse_one fuel c it') as [e'|[t it'']] eqn:E.
    { injection H as ->. destruct (IH1 _ _ _ E He) as ((q & t & Q1 & Q2) & HF & HT). repeat split; try congruence; auto.
      - exists (q ++ bs ")"), [t]. split; [now apply Hcl|]. cbn [app map concat]. rewrite app_assoc.
        change (c :: (it' ++ q) ++ bs ")") with ((c :: it' ++ q) ++ bs ")"). rewrite Q2. now rewrite app_nil_r.
      - intros d q' ts r H. cbn [app] in H. symmetry in H.
        apply item_cons in H as [(_ & H & _)|(t' & ts' & -> & Hs & H)].
        + apply byte_eqb_neq in Ec. congruence.
        + symmetry in H. exact (HF _ _ _ _ H). }
    apply Hsnd in E.
    destruct (IH2 _ _ _ H He) as ((q & ts & Q1 & Q2) & HF & HT & HN). repeat split; try congruence.
    + exists q, (t :: ts). split; [exact Q1|]. rewrite E, <- app_assoc, Q2. cbn [map concat]. now rewrite app_assoc.
    + intros d q' ts' r H'. rewrite E, <- app_assoc in H'. symmetry in H'.
      destruct ts' as [|t' ts'].
      { cbn [map concat app] in H'. destruct (display_cons t) as (y & s & Ey & Hy). rewrite Ey in H'.
        cbn [app] in H'. congruence. }
      cbn [map concat] in H'. rewrite <- app_assoc in H'. apply display_prefix in H' as [_ H'].
      symmetry in H'. exact (HF _ _ _ _ H').
    + intros _. destruct it'' as [|x it''].
      * rewrite (HN eq_refl). rewrite app_nil_r in E. rewrite E. apply display_tail.
      * rewrite E. apply Hta; auto; [discriminate|]. apply HT. discriminate.
Qed.

(** A wrong character: up to it the text could be finished, with it not. *)
Definition odd (e : perr) : Prop := e = EChar \/ e = EClose.
Lemma wrong_one fuel :
  (forall c it e, parse_one fuel c it = inl e -> odd e -> exists p d r, c :: it = p ++ d :: r /\
     (exists q t, q <> [] /\ p ++ q = display t) /\
     (forall q t r, p ++ d :: q <> display t ++ r) /\
     (e = EClose -> exists q t, p ++ "}"%byte :: q = display t) /\
     (e = EChar -> forall q t r, p ++ "}"%byte :: q <> display t ++ r)) /\
  (forall it acc e, parse_items fuel it acc = inl e -> odd e -> exists p d r, it = p ++ d :: r /\
     (exists q ts, q <> [] /\ p ++ q = items ts ++ [")"%byte]) /\
     (forall q ts r, p ++ d :: q <> items ts ++ ")"%byte :: r) /\
     (e = EClose -> exists q ts, p ++ "}"%byte :: q = items ts ++ [")"%byte]) /\
     (e = EChar -> forall q ts r, p ++ "}"%byte :: q <> items ts ++ ")"%byte :: r)).
Proof.
  assert (Hne : forall e : perr, e = EArray \/ e = EMaybe \/ e = EEofTuple \/ e = EEofDict \/ e = EEofClose \/ e = EFuel -> ~ odd e).
  { intros e He [H|H]; decompose [or] He; congruence. }
  induction fuel as [|fuel [IH1 IH2]].
  { split; intros ? ? ? H He; cbn in H; injection H as <-; apply Hne in He; tauto. }
  pose proof (proj1 (parse_sound fuel)) as Hsnd.
  split.
  - intros c it e H He. cbn [parse_one] in H.
    destruct (basic_letter c) as [b|] eqn:Eb; [discriminate|].
    destruct (byte_eqb c "a") eqn:Ea.
    { apply byte_eqb_eq in Ea. subst c. destruct it as [|c' it'].
      { injection H as <-. apply Hne in He; tauto. }
      destruct (parse_one fuel c' it') as [e'|[x it'']] eqn:E; [|discriminate]. injection H as ->.
      destruct (IH1 _ _ _ E He) as (p & d & r & -> & (q & t & Q1 & Q2) & HD & HC & HX).
      exists ("a"%byte :: p), d, r. split; [reflexivity|]. split; [|split; [|split]].
      - exists q, (TA t). split; [exact Q1|]. cbn [app display]. now rewrite Q2.
      - intros q' t' r' H. cbn [app] in H. symmetry in H. apply display_a in H as (x & -> & H).
        exact (HD _ _ _ H).
      - intros Ee. destruct (HC Ee) as (q' & t' & H). exists q', (TA t'). cbn [app display]. now rewrite H.
      - intros Ee q' t' r' H. cbn [app] in H. symmetry in H. apply display_a in H as (x & -> & H).
        exact (HX Ee _ _ _ H). }
    destruct (byte_eqb c "m") eqn:Em.
    { apply byte_eqb_eq in Em. subst c. destruct it as [|c' it'].
      { injection H as <-. apply Hne in He; tauto. }
      destruct (parse_one fuel c' it') as [e'|[x it'']] eqn:E; [|discriminate]. injection H as ->.
      destruct (IH1 _ _ _ E He) as (p & d & r & -> & (q & t & Q1 & Q2) & HD & HC & HX).
      exists ("m"%byte :: p), d, r. split; [reflexivity|]. split; [|split; [|split]].
      - exists q, (TM t). split; [exact Q1|]. cbn [app display]. now rewrite Q2.
      - intros q' t' r' H. cbn [app] in H. symmetry in H. apply display_m in H as (x & -> & H).
        exact (HD _ _ _ H).
      - intros Ee. destruct (HC Ee) as (q' & t' & H). exists q', (TM t'). cbn [app display]. now rewrite H.
      - intros Ee q' t' r' H. cbn [app] in H. symmetry in H. apply display_m in H as (x & -> & H).
        exact (HX Ee _ _ _ H). }
    destruct (byte_eqb c "(") eqn:Ep.
    { apply byte_eqb_eq in Ep. subst c.
      destruct (parse_items fuel it []) as [e'|[ts it']] eqn:E; [|discriminate]. injection H as ->.
      destruct (IH2 _ _ _ E He) as (p & d & r & -> & (q & ts & Q1 & Q2) & HD & HC & HX).
      exists ("("%byte :: p), d, r. split; [reflexivity|]. split; [|split; [|split]].
      - exists q, (TTuple ts). split; [exact Q1|]. cbn [app display]. now rewrite Q2.
      - intros q' t' r' H. cbn [app] in H. symmetry in H. apply display_p in H as (x & -> & H).
        exact (HD _ _ _ H).
      - intros Ee. destruct (HC Ee) as (q' & ts' & H). exists q', (TTuple ts'). cbn [app display]. now rewrite H.
      - intros Ee q' t' r' H. cbn [app] in H. symmetry in H. apply display_p in H as (x & -> & H).
        exact (HX Ee _ _ _ H). }
    destruct (byte_eqb c "{") eqn:Eq.
    2:{ injection H as <-. exists [], c, it. split; [reflexivity|]. split; [|split; [|split]].
        - exists ["b"%byte], TB. split; [discriminate|reflexivity].
        - intros q t r H. cbn [app] in H.
          assert (Hs : starter c).
          { destruct (display_cons t) as (y & s & E & _). rewrite E in H. cbn [app] in H. injection H as -> _.
            eexists _, _; exact E. }
          apply starter_cases in Hs. apply byte_eqb_neq in Ea. apply byte_eqb_neq in Em.
          apply byte_eqb_neq in Ep. apply byte_eqb_neq in Eq.
          destruct Hs as [[b Hb]|Hs]; [congruence|tauto].
        - discriminate.
        - intros _ q t r H. cbn [app] in H. destruct t; cbn in H; discriminate. }
    apply byte_eqb_eq in Eq. subst c. destruct it as [|c1 it1].
    { injection H as <-. apply Hne in He; tauto. }
    destruct (parse_one fuel c1 it1) as [e'|[a [|c2 it2]]] eqn:E1.
    { injection H as ->. destruct (IH1 _ _ _ E1 He) as (p & d & r & -> & (q & t & Q1 & Q2) & HD & HC & HX).
      exists ("{"%byte :: p), d, r. split; [reflexivity|]. split; [|split; [|split]].
      - exists (q ++ bs "b}"), (TDict t TB). split; [destruct q; [congruence|discriminate]|].
        cbn [app display]. rewrite app_assoc, Q2. reflexivity.
      - intros q' t' r' H. cbn [app] in H. symmetry in H. apply display_d in H as (k & v & -> & H).
        exact (HD _ _ _ H).
      - intros Ee. destruct (HC Ee) as (q' & t' & H). exists (q' ++ bs "b}"), (TDict t' TB).
        cbn [app display]. rewrite <- H, <- app_assoc. reflexivity.
      - intros Ee q' t' r' H. cbn [app] in H. symmetry in H. apply display_d in H as (k & v & -> & H).
        exact (HX Ee _ _ _ H). }
    { injection H as <-. apply Hne in He; tauto. }
    apply Hsnd in E1. rewrite E1.
    destruct (parse_one fuel c2 it2) as [e'|[b [|c3 it3]]] eqn:E2.
    { injection H as ->. destruct (IH1 _ _ _ E2 He) as (p & d & r & -> & (q & t & Q1 & Q2) & HD & HC & HX).
      exists ("{"%byte :: display a ++ p), d, r. split; [cbn [app]; now rewrite app_assoc|]. split; [|split; [|split]].
      - exists (q ++ bs "}"), (TDict a t). split; [destruct q; [congruence|discriminate]|].
        cbn [app display]. rewrite <- Q2, <- !app_assoc. reflexivity.
      - intros q' t' r' H. cbn [app] in H. rewrite <- app_assoc in H. symmetry in H.
        apply display_d in H as (k & v & -> & H). apply display_prefix in H as [_ H].
        exact (HD _ _ _ H).
      - intros Ee. destruct (HC Ee) as (q' & t' & H). exists (q' ++ bs "}"), (TDict a t').
        cbn [app display]. rewrite <- H, <- !app_assoc. reflexivity.
      - intros Ee q' t' r' H. cbn [app] in H. rewrite <- app_assoc in H. symmetry in H.
        apply display_d in H as (k & v & -> & H). apply display_prefix in H as [_ H].
        exact (HX Ee _ _ _ H). }
    { injection H as <-. apply Hne in He; tauto. }
    apply Hsnd in E2. rewrite E2.
    destruct (byte_eqb c3 "}") eqn:Ec; [discriminate|]. injection H as <-. apply byte_eqb_neq in Ec.
    exists ("{"%byte :: display a ++ display b), c3, it3. split; [cbn [app]; now rewrite app_assoc|].
    split; [|split; [|split]].
    + exists (bs "}"), (TDict a b). split; [discriminate|]. cbn [app display]. now rewrite <- app_assoc.
    + intros q' t' r' H. cbn [app] in H. rewrite <- app_assoc in H. symmetry in H.
      apply display_d in H as (k & v & -> & H). apply display_prefix in H as [_ H].
      apply display_prefix in H as [_ H]. congruence.
    + intros _. exists [], (TDict a b). cbn [app display]. now rewrite <- app_assoc.
    + discriminate.
  - intros it acc e H He. cbn [parse_items] in H.
    destruct it as [|c it'].
    { injection H as <-. apply Hne in He; tauto. }
    destruct (byte_eqb c ")") eqn:Ec; [discriminate|].
    apply byte_eqb_neq in Ec.
    destruct (parse_one fuel c it') as [e'|[t it'']] eqn:E.
    { injection H as ->. destruct (IH1 _ _ _ E He) as (p & d & r & Hp & (q & t & Q1 & Q2) & HD & HC & HX).
      exists p, d, r. split; [exact Hp|]. split; [|split; [|split]].
      - exists (q ++ bs ")"), [t]. split; [destruct q; [congruence|discriminate]|].
        cbn [map concat]. rewrite app_assoc, Q2, app_nil_r. reflexivity.
      - intros q' ts r' H. destruct ts as [|t' ts'].
        + cbn [map concat app] in H. destruct p as [|x p]; cbn [app] in H, Hp; congruence.
        + cbn [map concat] in H. rewrite <- app_assoc in H. exact (HD _ _ _ H).
      - intros Ee. destruct (HC Ee) as (q' & t' & H). exists (q' ++ bs ")"), [t'].
        cbn [map concat]. rewrite app_nil_r, <- H, <- app_assoc. reflexivity.
      - intros Ee q' ts r' H. destruct ts as [|t' ts'].
        + cbn [map concat app] in H. destruct p as [|x p]; cbn [app] in H, Hp; congruence.
        + cbn [map concat] in H. rewrite <- app_assoc in H. exact (HX Ee _ _ _ H). }
    apply Hsnd in E. rewrite E.
    destruct (IH2 _ _ _ H He) as (p & d & r & -> & (q & ts & Q1 & Q2) & HD & HC & HX).
    assert (Hnil : forall q' r', display t ++ q' <> items [] ++ ")"%byte :: r').
    { intros q' r' H'. cbn [map concat app] in H'. destruct (display_cons t) as (y & s & Ey & Hy).
      rewrite Ey in H'. cbn [app] in H'. congruence. }
    exists (display t ++ p), d, r. split; [now rewrite app_assoc|]. split; [|split; [|split]].
    + exists q, (t :: ts). split; [exact Q1|]. cbn [map concat]. now rewrite <- !app_assoc, Q2.
    + intros q' [|t' ts'] r' H'; rewrite <- app_assoc in H'; [exact (Hnil _ _ H')|].
      cbn [map concat] in H'. rewrite <- app_assoc in H'. apply display_prefix in H' as [_ H'].
      exact (HD _ _ _ H').
    + intros Ee. destruct (HC Ee) as (q' & ts' & H'). exists q', (t :: ts').
      cbn [map concat]. now rewrite <- !app_assoc, H'.
    + intros Ee q' [|t' ts'] r' H'; rewrite <- app_assoc in H'; [exact (Hnil _ _ H')|].
      cbn [map concat] in H'. rewrite <- app_assoc in H'. apply display_prefix in H' as [_ H'].
      exact (HX Ee _ _ _ H').
Qed.

(** ** The kinds of error, as the specification tells them apart *)
Definition says (e : perr) (s : list byte) : Prop :=
  match e with
  | EEmpty => s = []
  | EMore => exists p r, s = p ++ r /\ r <> [] /\ type_string p
  | EArray => unfinished s /\ ends_in s "a"
  | EMaybe => unfinished s /\ ends_in s "m"
  | EEofTuple => may_follow s ")"
  | EEofClose => may_follow s "}"
  | EEofDict => s <> [] /\ unfinished s /\ ~ ends_in s "a" /\ ~ ends_in s "m" /\
                ~ may_follow s ")" /\ ~ may_follow s "}"
  | EClose => exists p d, wrong_at s p d /\ may_follow p "}"
  | EChar => exists p d, wrong_at s p d /\ ~ may_follow p "}"
  | EFuel => False
  end%byte.

Lemma unfinished_iff s : unfinished s <-> exists q t, q <> [] /\ s ++ q = display t.
Proof.
  split.
  - intros (q & Hq & H). apply type_string_display in H as [t H]. eauto.
  - intros (q & t & Hq & H). exists q. split; [exact Hq|]. rewrite H. apply display_type_string.
Qed.
Lemma may_follow_iff s c : may_follow s c <-> exists q t, s ++ c :: q = display t.
Proof.
  split.
  - intros (q & H). apply type_string_display in H as [t H]. exists q, t. symmetry. exact H.
  - intros (q & t & H). exists q. cbn [app]. rewrite H. apply display_type_string.
Qed.
Lemma may_follow_unfinished s c : may_follow s c -> unfinished s.
Proof. intros [q H]. exists (c :: q). split; [discriminate|exact H]. Qed.

Lemma says_forward s e : one s = inl e -> says e s.
Proof.
  destruct s as [|c it]; [intros H; injection H as <-; reflexivity|].
  unfold one. destruct (parse_one _ c it) as [e'|[t rest]] eqn:E.
  - intros H. injection H as ->.
    assert (Hf : e <> EFuel).
    { intros ->. apply (proj1 (parse_no_fuel (2 * length (c :: it) + 2))) in E; [exact E|cbn [length]; lia]. }
    assert (Hm : e <> EMore /\ e <> EEmpty).
    { clear Hf. revert E. generalize (2 * length (c :: it) + 2). intros f. revert c it.
      assert (H : (forall c it e', parse_one f c it = inl e' -> e' <> EMore /\ e' <> EEmpty) /\
                  (forall it acc e', parse_items f it acc = inl e' -> e' <> EMore /\ e' <> EEmpty)).
      { induction f as [|f [IH1 IH2]]; [split; intros ? ? ? H; injection H as <-; split; discriminate|]. split.
        - intros c it e' H. cbn [parse_one] in H.
          repeat match goal with
          | H : context [match ?x with _ => _ end] |- _ =>
              let Q := fresh "Q" in destruct x eqn:Q;
              try (apply IH1 in Q; injection H as <-; exact Q);
              try (apply IH2 in Q; injection H as <-; exact Q)
          end; try discriminate; injection H as <-; split; discriminate.
        - intros it acc e' H. cbn [parse_items] in H.
          repeat match goal with
          | H : context [match ?x with _ => _ end] |- _ =>
              let Q := fresh "Q" in destruct x eqn:Q;
              try (apply IH1 in Q; injection H as <-; exact Q)
          end; try discriminate; try (apply IH2 in H; exact H); injection H as <-; split; discriminate. }
      intros c it. apply (proj1 H). }
    assert (Hk : eof e \/ odd e).
    { unfold eof, odd. destruct Hm. destruct e; tauto. }
    destruct Hk as [Hk|Hk].
    + destruct (proj1 (ran_out_one _) _ _ _ E Hk) as ((q & t & Q1 & Q2) & HF & HT).
      assert (HF' : forall d, may_follow (c :: it) d -> allowed e d).
      { intros d Hd. apply may_follow_iff in Hd as (q' & t' & Hd). apply (HF d q' t' []).
        rewrite app_nil_r. exact Hd. }
      assert (HU : unfinished (c :: it)).
      { apply unfinished_iff. exists q, t. split; [|exact Q2].
        destruct e; cbn in Q1; try congruence; try (destruct Q1 as [? ->]; discriminate);
        unfold eof in Hk; decompose [or] Hk; discriminate. }
      unfold eof in Hk. decompose [or] Hk; subst e; cbn [says tail_ok closer allowed] in *.
      * auto.
      * auto.
      * destruct Q1 as [q' ->]. apply may_follow_iff. eauto.
      * split; [discriminate|]. split; [exact HU|]. split; [tauto|]. split; [tauto|]. split.
        -- intros Hd. apply HF', starter_nclose in Hd. tauto.
        -- intros Hd. apply HF', starter_nclose in Hd. tauto.
      * destruct Q1 as [q' ->]. apply may_follow_iff. eauto.
    + destruct (proj1 (wrong_one _) _ _ _ E Hk) as (p & d & r & Hp & HU & HD & HC & HX).
      assert (HW : wrong_at (c :: it) p d).
      { split; [exists r; exact Hp|]. split; [now apply unfinished_iff|].
        intros Hd. apply may_follow_iff in Hd as (q' & t' & Hd). apply (HD q' t' []). now rewrite app_nil_r. }
      destruct Hk as [-> | ->]; cbn [says]; exists p, d; (split; [exact HW|]).
      * intros Hd. apply may_follow_iff in Hd as (q' & t' & Hd). apply (HX eq_refl q' t' []). now rewrite app_nil_r.
      * apply may_follow_iff. auto.
  - destruct rest as [|x rest]; [discriminate|]. intros H. injection H as <-.
    apply (proj1 (parse_sound _)) in E. cbn [says]. exists (display t), (x :: rest).
    split; [exact E|]. split; [discriminate|]. apply display_type_string.
Qed.

Lemma one_more_facts s e : one s = inl e -> eof e ->
  (forall d, may_follow s d -> allowed e d) /\ tail_ok e s.
Proof.
  destruct s as [|c it].
  { intros H. injection H as <-. intros H. unfold eof in H. decompose [or] H; discriminate. }
  unfold one. destruct (parse_one _ c it) as [e'|[t [|x rest]]] eqn:E; intros H; [|discriminate|].
  - injection H as ->. intros Hk. destruct (proj1 (ran_out_one _) _ _ _ E Hk) as (_ & HF & HT).
    split; [|exact HT]. intros d Hd. apply may_follow_iff in Hd as (q' & t' & Hd). apply (HF d q' t' []).
    rewrite app_nil_r. exact Hd.
  - injection H as <-. intros H. unfold eof in H. decompose [or] H; discriminate.
Qed.

Lemma unfinished_type s r t : unfinished s -> s = display t ++ r -> False.
Proof.
  intros H. apply unfinished_iff in H as (q & t' & Hq & H). intros ->.
  rewrite <- app_assoc in H. rewrite <- (app_nil_r (display t')) in H.
  apply display_prefix in H as [_ H]. apply app_eq_nil in H. tauto.
Qed.
Lemma unfinished_wrong s p d : unfinished s -> wrong_at s p d -> False.
Proof.
  intros (q & _ & H) ([r ->] & _ & W). apply W. exists (r ++ q). rewrite <- !app_assoc in H. exact H.
Qed.
Lemma app_cases {A} (a b c d : list A) : a ++ b = c ++ d ->
  (exists x, c = a ++ x /\ b = x ++ d) \/ (exists x y, a = c ++ x :: y /\ d = x :: y ++ b).
Proof.
  revert c. induction a as [|x a IH]; intros c H.
  - left. exists c. auto.
  - destruct c as [|y c].
    + right. exists x, a. cbn in *. auto.
    + cbn in H. injection H as <- H. destruct (IH c H) as [(z & -> & ->)|(z & w & -> & ->)].
      * left. exists z. auto.
      * right. exists z, w. auto.
Qed.
Lemma type_wrong s t r p d : s = display t ++ r -> wrong_at s p d -> False.
Proof.
  intros -> ([r' H] & U & W). apply app_cases in H as [(x & -> & _)|(x & y & E & H)].
  - exact (unfinished_type _ _ _ U eq_refl).
  - cbn [app] in H. injection H as <- _. apply W. exists y. cbn [app]. rewrite <- E. apply display_type_string.
Qed.
Lemma wrong_unique s p d p' d' : wrong_at s p d -> wrong_at s p' d' -> p = p' /\ d = d'.
Proof.
  intros ([r H] & U & W) ([r' H'] & U' & W'). rewrite H in H'. apply app_cases in H' as [(x & -> & E)|(x & y & -> & E)].
  - destruct x as [|x y]; [cbn in E; injection E as -> _; now rewrite app_nil_r|].
    cbn [app] in E. injection E as <- _. exfalso. apply W.
    destruct U' as (q & _ & Hq). exists (y ++ q). rewrite <- app_assoc in Hq. exact Hq.
  - cbn [app] in E. injection E as <- _. exfalso. apply W'.
    destruct U as (q & _ & Hq). exists (y ++ q). rewrite <- app_assoc in Hq. exact Hq.
Qed.

Lemma no_start s c : (c = ")"%byte \/ c = "}"%byte) -> may_follow s c -> s <> [].
Proof.
  intros Hc H ->. apply may_follow_iff in H as (q & t & H). cbn [app] in H.
  assert (Hs : starter c) by (exists t, q; auto). apply starter_nclose in Hs. tauto.
Qed.
Lemma eof_unfinished s e : says e s -> eof e -> s <> [] /\ unfinished s.
Proof.
  intros H He. unfold eof in He. decompose [or] He; subst e; cbn [says] in H.
  - destruct H as [H E]. split; [intros ->; exact (ends_in_nil _ E)|exact H].
  - destruct H as [H E]. split; [intros ->; exact (ends_in_nil _ E)|exact H].
  - split; [exact (no_start _ _ (or_introl eq_refl) H)|exact (may_follow_unfinished _ _ H)].
  - tauto.
  - split; [exact (no_start _ _ (or_intror eq_refl) H)|exact (may_follow_unfinished _ _ H)].
Qed.
Lemma kinds e : e = EEmpty \/ e = EMore \/ e = EFuel \/ eof e \/ odd e.
Proof. unfold eof, odd. destruct e; tauto. Qed.
Lemma odd_wrong s e : says e s -> odd e -> exists p d, wrong_at s p d.
Proof. intros H [-> | ->]; cbn in H; destruct H as (p & d & H & _); eauto. Qed.

Theorem says_iff s e : one s = inl e <-> says e s.
Proof.
  split; [apply says_forward|]. intros H.
  destruct (one s) as [e'|t] eqn:E.
  - f_equal. pose proof (says_forward _ _ E) as H'.
    assert (Hnil : forall k, says k [] -> k = EEmpty).
    { intros k Hk. destruct (kinds k) as [ -> | [ -> | [ -> | [K|K]]]]; auto.
      - cbn in Hk. destruct Hk as (p & r & Hk & Hr & _). symmetry in Hk. apply app_eq_nil in Hk. tauto.
      - cbn in Hk. tauto.
      - apply eof_unfinished in Hk; [|exact K]. tauto.
      - apply odd_wrong in Hk as (p & d & ([r Hr] & _)); [|exact K]. destruct p; discriminate. }
    assert (Hmore : says EMore s -> exists t r, s = display t ++ r).
    { intros (p & r & -> & _ & Ht). apply type_string_display in Ht as [t <-]. eauto. }
    destruct (kinds e) as [ -> | [ -> | [ -> | [K|K]]]].
    + cbn in H. subst s. cbn in E. congruence.
    + destruct (Hmore H) as (t & r & Hs).
      destruct (kinds e') as [ -> | [ -> | [ -> | [K'|K']]]]; auto.
      * cbn in H'. subst s. cbn in H. destruct H as (p & r' & Hk & Hr & _). symmetry in Hk. apply app_eq_nil in Hk. tauto.
      * cbn in H'. tauto.
      * apply eof_unfinished in H'; [|exact K']. exfalso. exact (unfinished_type _ _ _ (proj2 H') Hs).
      * apply odd_wrong in H' as (p & d & W); [|exact K']. exfalso. exact (type_wrong _ _ _ _ _ Hs W).
    + cbn in H. tauto.
    + destruct (eof_unfinished _ _ H K) as [Hn HU].
      destruct (kinds e') as [ -> | [ -> | [ -> | [K'|K']]]]; auto.
      * cbn in H'. tauto.
      * destruct (Hmore H') as (t & r & Hs). exfalso. exact (unfinished_type _ _ _ HU Hs).
      * cbn in H'. tauto.
      * destruct (one_more_facts _ _ E K') as [HF HT].
        assert (Ham : forall P : Prop, ends_in s "a"%byte -> ends_in s "m"%byte -> P).
        { intros P [p ->] Hm. apply ends_in_one in Hm. discriminate. }
        assert (Hst : ~ starter ")"%byte /\ ~ starter "}"%byte).
        { split; intros Hs; apply starter_nclose in Hs; tauto. }
        unfold eof in K. decompose [or] K; subst e; cbn [says] in H.
        -- destruct H as [_ Ha]. unfold eof in K'. decompose [or] K'; subst e'; cbn [tail_ok] in HT; auto; try tauto. now apply Ham.
        -- destruct H as [_ Ha]. unfold eof in K'. decompose [or] K'; subst e'; cbn [tail_ok] in HT; auto; try tauto. now apply Ham.
        -- apply HF in H. unfold eof in K'. decompose [or] K'; subst e'; cbn [allowed] in H; auto; try tauto; discriminate.
        -- unfold eof in K'. decompose [or] K'; subst e'; cbn [says] in H'; auto; tauto.
        -- apply HF in H. unfold eof in K'. decompose [or] K'; subst e'; cbn [allowed] in H; auto; try tauto.
           destruct H; [tauto|discriminate].
      * apply odd_wrong in H' as (p & d & W); [|exact K']. exfalso. exact (unfinished_wrong _ _ _ HU W).
    + destruct (odd_wrong _ _ H K) as (p & d & W).
      destruct (kinds e') as [ -> | [ -> | [ -> | [K'|K']]]]; auto.
      * cbn in H'. subst s. apply Hnil in H. destruct K; congruence.
      * destruct (Hmore H') as (t & r & Hs). exfalso. exact (type_wrong _ _ _ _ _ Hs W).
      * cbn in H'. tauto.
      * apply eof_unfinished in H'; [|exact K']. exfalso. exact (unfinished_wrong _ _ _ (proj2 H') W).
      * destruct K as [-> | ->], K' as [-> | ->]; auto; cbn in H, H';
          destruct H as (q & c & Hw & Hm), H' as (q' & c' & Hw' & Hm');
          destruct (wrong_unique _ _ _ _ _ Hw Hw') as [-> _]; tauto.
  - exfalso. apply one_sound in E. symmetry in E. rewrite <- (app_nil_r (display t)) in E.
    destruct (kinds e) as [ -> | [ -> | [ -> | [K|K]]]].
    + cbn in H. subst s. destruct (display_cons t) as (c & r & Ht & _). rewrite Ht in E. discriminate.
    + destruct H as (p & r & Hs & Hr & Ht). apply type_string_display in Ht as [t' <-].
      rewrite Hs in E. apply display_prefix in E as [_ E]. congruence.
    + exact H.
    + apply eof_unfinished in H; [|exact K]. exact (unfinished_type _ _ _ (proj2 H) E).
    + apply odd_wrong in H as (p & d & W); [|exact K]. exact (type_wrong _ _ _ _ _ E W).
Qed.

(** Texts. *)
Lemma message_inj e e' : e <> EFuel -> e' <> EFuel -> perr_display e = perr_display e' -> e = e'.
Proof. destruct e, e'; intros; try congruence; try reflexivity; vm_compute in H1; discriminate. Qed.
Theorem parse_error_iff s e : e <> EFuel -> parse_error s = Some (perr_display e) <-> says e s.
Proof.
  intros He. rewrite <- says_iff. unfold parse_error. destruct (one s) as [e'|t] eqn:E.
  - split; intros H.
    + assert (H2 : perr_display e' = perr_display e) by congruence. f_equal.
      apply message_inj in H2; auto. intros ->. exact (one_no_fuel _ E).
    + congruence.
  - split; discriminate.
Qed.
Lemma parse_error_empty s : parse_error s = Some (bs "Parse Error: Type string is empty") <-> s = [].
Proof. exact (parse_error_iff s EEmpty ltac:(discriminate)). Qed.
Lemma parse_error_more s : parse_error s = Some (bs "Parse Error: More than one type in type string") <->
  exists p r, s = p ++ r /\ r <> [] /\ type_string p.
Proof. exact (parse_error_iff s EMore ltac:(discriminate)). Qed.
Lemma parse_error_array s : parse_error s = Some (bs "Parse Error: Array item type required") <->
  unfinished s /\ ends_in s "a".
Proof. exact (parse_error_iff s EArray ltac:(discriminate)). Qed.
Lemma parse_error_maybe s : parse_error s = Some (bs "Parse Error: Maybe item type required") <->
  unfinished s /\ ends_in s "m".
Proof. exact (parse_error_iff s EMaybe ltac:(discriminate)). Qed.
Lemma parse_error_tuple s : parse_error s = Some (bs "Parse Error: EOF when inside tuple definition") <->
  may_follow s ")".
Proof. exact (parse_error_iff s EEofTuple ltac:(discriminate)). Qed.
Lemma parse_error_dict s : parse_error s = Some (bs "Parse Error: EOF: Dict entry requires two types") <->
  s <> [] /\ unfinished s /\ ~ ends_in s "a" /\ ~ ends_in s "m" /\
  ~ may_follow s ")" /\ ~ may_follow s "}".
Proof. exact (parse_error_iff s EEofDict ltac:(discriminate)). Qed.
Lemma parse_error_close s : parse_error s = Some (bs "Parse Error: EOF when expecting }") <->
  may_follow s "}".
Proof. exact (parse_error_iff s EEofClose ltac:(discriminate)). Qed.
Lemma parse_error_notclose s : parse_error s = Some (bs "Parse Error: Expected }, got something else") <->
  exists p d, wrong_at s p d /\ may_follow p "}".
Proof. exact (parse_error_iff s EClose ltac:(discriminate)). Qed.
Lemma parse_error_char s : parse_error s = Some (bs "Parse Error: Unexpected charactor") <->
  exists p d, wrong_at s p d /\ ~ may_follow p "}".
Proof. exact (parse_error_iff s EChar ltac:(discriminate)). Qed.
Lemma parse_error_none s : parse_error s = None <-> type_string s.
Proof.
  rewrite <- one_accepts. unfold parse_error. destruct (one s) as [e|t]; split.
  - discriminate.
  - intros [t H]; discriminate.
  - eauto.
  - reflexivity.
Qed.

(** ** GVariant's own grammar *)
Lemma g_basic_display t : basic_type t = true -> g_basic (display t).
Proof. destruct t; cbn; intros H; try discriminate; constructor; cbn; tauto. Qed.
Lemma g_of_display t : basic_keys t = true -> g_type (display t).
Proof.
  induction t using ty_ind'; cbn [basic_keys display]; intros Hk;
    try (apply g_of_basic; constructor; cbn; tauto); try (constructor; auto; fail).
  - apply (g_tuple (map display ts)). apply Forall_map. rewrite forallb_forall in Hk.
    rewrite Forall_forall in *. auto.
  - apply andb_true_iff in Hk as [H1 H2]. apply (g_entry (display t1) (display t2)); [now apply g_basic_display|auto].
Qed.
Fixpoint g_type_ind' (P : list byte -> Prop)
  (Hb : forall s, g_basic s -> P s) (Hv : P ["v"%byte])
  (Ha : forall s, P s -> P ("a"%byte :: s))
  (Hm : forall s, P s -> P ("m"%byte :: s))
  (Ht : forall ss, Forall P ss -> P (["("%byte] ++ concat ss ++ [")"%byte]))
  (He : forall k v, g_basic k -> P v -> P (["{"%byte] ++ k ++ v ++ ["}"%byte]))
  s (H : g_type s) {struct H} : P s :=
  match H in g_type s return P s with
  | g_of_basic s Hs => Hb s Hs
  | g_variant => Hv
  | g_array s H => Ha s (g_type_ind' P Hb Hv Ha Hm Ht He s H)
  | g_maybe s H => Hm s (g_type_ind' P Hb Hv Ha Hm Ht He s H)
  | g_tuple ss Hs => Ht ss
      ((fix go ss (Hs : Forall g_type ss) : Forall P ss :=
          match Hs in Forall _ ss return Forall P ss with
          | Forall_nil _ => Forall_nil _
          | @Forall_cons _ _ x l H H' =>
              Forall_cons x (g_type_ind' P Hb Hv Ha Hm Ht He x H) (go l H')
          end) ss Hs)
  | g_entry k v Hk Hv' => He k v Hk (g_type_ind' P Hb Hv Ha Hm Ht He v Hv')
  end.
Lemma g_basic_ty s : g_basic s -> ~ In "h"%byte s -> exists t, display t = s /\ basic_type t = true.
Proof.
  intros [c Hc] Hh. cbn in Hc. decompose [or] Hc; subst; try (cbn in Hh; tauto);
    [exists TB|exists TY|exists TN|exists TQ|exists TI|exists TU|exists TX|exists TT|exists TD
      |exists TS|exists TO|exists TG]; auto.
Qed.
Lemma basic_basic_keys t : basic_type t = true -> basic_keys t = true.
Proof. destruct t; auto; discriminate. Qed.
Lemma g_to_display s : g_type s -> ~ In "h"%byte s -> exists t, display t = s /\ basic_keys t = true.
Proof.
  induction 1 as [s Hs| |s IH|s IH|ss Hss|k v Hk IH] using g_type_ind'; intros Hh.
  - destruct (g_basic_ty _ Hs Hh) as (t & E & Hb). exists t. split; [exact E|now apply basic_basic_keys].
  - exists TV. auto.
  - destruct IH as (t & <- & Ht); [intros H; apply Hh; right; exact H|]. exists (TA t). auto.
  - destruct IH as (t & <- & Ht); [intros H; apply Hh; right; exact H|]. exists (TM t). auto.
  - assert (exists ts, map display ts = ss /\ forallb basic_keys ts = true) as (ts & <- & Hts).
    { assert (Hh' : ~ In "h"%byte (concat ss)).
      { intros H. apply Hh. rewrite !in_app_iff. tauto. }
      clear Hh. induction Hss as [|s ss Hs _ IH]; [exists []; auto|].
      cbn [concat] in Hh'. rewrite in_app_iff in Hh'.
      destruct Hs as (t & <- & Ht); [tauto|]. destruct IH as (ts & <- & Hts); [tauto|].
      exists (t :: ts). cbn. rewrite Ht. auto. }
    exists (TTuple ts). auto.
  - cbn [app] in Hh. assert (Hh' : ~ In "h"%byte k /\ ~ In "h"%byte v).
    { split; intros H; apply Hh; right; rewrite !in_app_iff; tauto. }
    destruct (g_basic_ty _ Hk (proj1 Hh')) as (a & <- & Ha). destruct IH as (b & <- & Hb); [tauto|].
    exists (TDict a b). cbn. rewrite Ha. auto.
Qed.
Lemma display_no_h t : ~ In "h"%byte (display t).
Proof.
  intros H. pose proof (display_chars t) as Hc. rewrite Forall_forall in Hc. apply Hc in H.
  cbn in H. decompose [or] H; try discriminate; tauto.
Qed.
Theorem one_g s t : one s = inr t -> (g_type s <-> basic_keys t = true).
Proof.
  intros H. apply one_sound in H. subst s. split; [|apply g_of_display].
  intros H. apply g_to_display in H as (t' & E & Hb); [|apply display_no_h].
  apply display_inj in E. congruence.
Qed.
Theorem g_accepted s : g_type s -> (exists t, one s = inr t) <-> ~ In "h"%byte s.
Proof.
  intros H. split.
  - intros [t Ht]. apply one_sound in Ht. subst s. apply display_no_h.
  - intros Hh. apply g_to_display in H as (t & <- & _); [|exact Hh]. exists t. apply one_display.
Qed.

Lemma keys_witness : exists (s : list byte) (t : ty), one s = inr t /\ ~ g_type s.
Proof.
  exists (bs "a{vs}"), (TA (TDict TV TS)). split; [reflexivity|].
  intros H. apply (proj1 (one_g (bs "a{vs}") (TA (TDict TV TS)) eq_refl)) in H. discriminate.
Qed.
Lemma handles_witness : exists s : list byte, g_type s /\ forall t : ty, one s <> inr t.
Proof.
  exists (bs "h"). split; [|discriminate]. apply g_of_basic, gb. cbn. tauto.
Qed.
