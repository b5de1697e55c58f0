(** Sizes, alignments, structure tables and memory layouts (C02-C05, C07, C40). *)
From Verif Require Import Base Types Layout AlignedBytes Spec Deser BaseFacts TypesFacts.

Arguments align : simpl never.
Arguments pad_to : simpl never.
Arguments round_up : simpl never.

Definition items_of (ts : list ty) : list (N * option N) :=
  map (fun t => (align_of t, size_of t)) ts.
Definition is_struct (t : ty) : Prop :=
  match t with TTuple _ | TDict _ _ => True | _ => False end.

Lemma Some_inj {A} (x y : A) : Some x = Some y -> x = y.
Proof. congruence. Qed.

(** ** Alignment *)
Lemma align_of_alignment t : is_alignment (align_of t).
Proof.
  induction t using ty_ind'; cbn; try (unfold is_alignment; lia); auto.
  - induction H as [|t ts Ht _ IH]; cbn; [unfold is_alignment; lia|].
    now apply is_alignment_max.
  - now apply is_alignment_max.
Qed.
Lemma sp_align_of t : sp_align t = align_of t.
Proof.
  induction t using ty_ind'; cbn; auto.
  - induction H as [|t ts Ht _ IH]; cbn; [reflexivity|]. now rewrite Ht, IH.
  - now rewrite IHt1, IHt2.
Qed.
Lemma trait_align_of t : trait_align t = align_of t.
Proof. induction t using ty_ind'; cbn; auto. Qed.
Lemma trait_alignment t : is_alignment (trait_align t).
Proof. rewrite trait_align_of. apply align_of_alignment. Qed.
Lemma align_of_pos t : 0 < align_of t.
Proof. apply alignment_pos, align_of_alignment. Qed.
#[global] Hint Resolve align_of_alignment trait_alignment : al.

Lemma children_align t c : is_struct t -> In c (children_of t) -> align_of c <= align_of t.
Proof.
  destruct t; cbn [is_struct]; try tauto; intros _ H; cbn [children_of align_of] in *.
  - induction ts as [|x ts IH]; cbn in *; [tauto|]. destruct H as [->|H]; [lia|].
    specialize (IH H). lia.
  - cbn in H. destruct H as [<-|[<-|[]]]; lia.
Qed.

(** ** Size *)
Lemma size_walk_spec items pos :
  Forall (fun it => is_alignment (fst it)) items ->
  size_walk pos items =
  match all_some (map snd items) with
  | Some szs => Some (fold_left (fun pos it => pad_to (fst it) pos + snd it)
                                (combine (map fst items) szs) pos)
  | None => None
  end.
Proof.
  intros H. revert pos. induction H as [|[al sz] items Ha _ IH]; intros pos; [reflexivity|].
  cbn [size_walk map snd all_some fst]. cbn [fst] in Ha.
  rewrite align_pad_to by assumption.
  destruct sz as [s|]; [|reflexivity].
  rewrite IH. destruct (all_some (map snd items)); reflexivity.
Qed.

Lemma items_of_alignment ts : Forall (fun it => is_alignment (fst it)) (items_of ts).
Proof. induction ts; constructor; auto. apply align_of_alignment. Qed.
Lemma map_fst_items ts : map fst (items_of ts) = map align_of ts.
Proof. unfold items_of. rewrite map_map. reflexivity. Qed.
Lemma map_snd_items ts : map snd (items_of ts) = map size_of ts.
Proof. unfold items_of. rewrite map_map. reflexivity. Qed.

Lemma size_of_tuple ts :
  size_of (TTuple ts) =
  match all_some (map size_of ts) with
  | Some szs => Some (sp_struct_size (align_of (TTuple ts)) (combine (map align_of ts) szs))
  | None => None
  end.
Proof.
  destruct ts as [|t ts]; [reflexivity|].
  change (size_of (TTuple (t :: ts))) with
    (match size_walk 0 (items_of (t :: ts)) with
     | Some pos => Some (align pos (align_of (TTuple (t :: ts))))
     | None => None
     end).
  rewrite size_walk_spec by apply items_of_alignment.
  rewrite map_fst_items, map_snd_items.
  destruct (all_some (map size_of (t :: ts))) as [szs|] eqn:E; [|reflexivity].
  rewrite align_pad_to by apply align_of_alignment.
  cbn [map all_some] in E. destruct (size_of t); [|discriminate].
  destruct (all_some (map size_of ts)); [|discriminate]. injection E as <-. reflexivity.
Qed.
Lemma size_of_dict k v :
  size_of (TDict k v) =
  match all_some (map size_of [k; v]) with
  | Some szs => Some (sp_struct_size (align_of (TDict k v)) (combine (map align_of [k; v]) szs))
  | None => None
  end.
Proof.
  cbn [size_of map all_some]. destruct (size_of k) as [a|]; [|reflexivity].
  destruct (size_of v) as [b|]; [|reflexivity].
  rewrite !align_pad_to by apply align_of_alignment.
  cbn [sp_struct_size combine fold_left fst snd].
  rewrite pad_to_0 by apply align_of_alignment. reflexivity.
Qed.
Lemma size_of_struct t : is_struct t ->
  size_of t =
  match all_some (map size_of (children_of t)) with
  | Some szs => Some (sp_struct_size (align_of t) (combine (map align_of (children_of t)) szs))
  | None => None
  end.
Proof. destruct t; cbn [is_struct]; try tauto; intros _; [apply size_of_tuple|apply size_of_dict]. Qed.

Lemma sp_size_of t : sp_size t = size_of t.
Proof.
  induction t using ty_ind'; try reflexivity.
  - rewrite size_of_tuple. cbn [sp_size]. rewrite sp_align_of.
    assert (E1 : map sp_size ts = map size_of ts).
    { induction H as [|t ts Ht _ IH]; cbn; [reflexivity|]. now rewrite Ht, IH. }
    assert (E2 : map sp_align ts = map align_of ts) by (apply map_ext; intros; apply sp_align_of).
    rewrite E1, E2. reflexivity.
  - rewrite size_of_dict. cbn [sp_size map all_some]. rewrite IHt1, IHt2, !sp_align_of.
    destruct (size_of t1); [|reflexivity]. destruct (size_of t2); reflexivity.
Qed.
Lemma sp_fixed_of t : sp_fixed t = is_fixed t.
Proof. unfold sp_fixed, is_fixed. now rewrite sp_size_of. Qed.
Lemma sp_items_of ts : map (fun t => (sp_align t, sp_size t)) ts = items_of ts.
Proof. apply map_ext. intros. now rewrite sp_align_of, sp_size_of. Qed.

Lemma all_some_Some {A B} (f : A -> option B) l r :
  all_some (map f l) = Some r <-> map f l = map Some r.
Proof.
  revert r. induction l as [|x l IH]; intros r; cbn.
  - destruct r; split; cbn; congruence.
  - destruct (f x) as [y|].
    + destruct (all_some (map f l)) as [ys|].
      * split.
        -- intros H; injection H as <-. cbn. f_equal. now apply IH.
        -- destruct r as [|z r]; cbn; [discriminate|]. intros H; injection H as -> H.
           apply IH in H. congruence.
      * split; [discriminate|]. destruct r as [|z r]; cbn; [discriminate|].
        intros H; injection H as -> H. apply IH in H. discriminate.
    + split; [discriminate|]. destruct r; cbn; discriminate.
Qed.

Lemma fold_lay_ge items pos :
  Forall (fun it => is_alignment (fst it)) items ->
  pos <= fold_left (fun pos it => pad_to (fst it) pos + snd it) items pos.
Proof.
  intros H. revert pos. induction H as [|[al sz] items Ha _ IH]; intros pos; cbn [fold_left fst snd]; [lia|].
  cbn [fst] in Ha. specialize (IH (pad_to al pos + sz)). pose proof (pad_to_ge al pos Ha). lia.
Qed.
Lemma combine_alignment ts (szs : list N) :
  Forall (fun it => is_alignment (fst it)) (combine (map align_of ts) szs).
Proof.
  revert szs. induction ts as [|t ts IH]; intros [|s szs]; cbn; constructor; auto.
  apply align_of_alignment.
Qed.

Lemma size_of_props t n : size_of t = Some n -> 0 < n /\ n mod align_of t = 0.
Proof.
  revert n. induction t using ty_ind'; intros n Hn;
    try (cbn in Hn |- *; injection Hn as <-; split; reflexivity || lia); try discriminate.
  - rewrite size_of_tuple in Hn.
    destruct (all_some (map size_of ts)) as [szs|] eqn:E; [|discriminate]. apply Some_inj in Hn as <-.
    apply all_some_Some in E.
    destruct ts as [|t ts].
    { cbn. split; [lia|reflexivity]. }
    destruct szs as [|s szs]; [discriminate|]. cbn in E. injection E as Es E.
    pose proof (align_of_alignment (TTuple (t :: ts))) as HA.
    remember (align_of (TTuple (t :: ts))) as A eqn:EA. clear EA.
    cbn [map combine sp_struct_size].
    split.
    + inversion H; subst. destruct (H2 s Es) as [Hs _].
      cbn [fold_left fst snd].
      remember (pad_to (align_of t) 0 + s) as x eqn:Ex.
      pose proof (fold_lay_ge (combine (map align_of ts) szs) x (combine_alignment ts szs)).
      pose proof (pad_to_ge A
        (fold_left (fun pos it => pad_to (fst it) pos + snd it) (combine (map align_of ts) szs) x)
        HA). lia.
    + now apply pad_to_mod.
  - rewrite size_of_dict in Hn. cbn [map all_some] in Hn.
    destruct (size_of t1) as [a|] eqn:E1; [|discriminate].
    destruct (size_of t2) as [b|] eqn:E2; [|discriminate]. apply Some_inj in Hn as <-.
    destruct (IHt1 a eq_refl) as [Ha _]. destruct (IHt2 b eq_refl) as [Hb _].
    pose proof (align_of_alignment (TDict t1 t2)) as HA.
    remember (align_of (TDict t1 t2)) as A eqn:EA. clear EA.
    cbn [map combine sp_struct_size fold_left fst snd]. split.
    + remember (pad_to (align_of t2) (pad_to (align_of t1) 0 + a) + b) as x eqn:Ex.
      pose proof (pad_to_ge A x HA). lia.
    + now apply pad_to_mod.
Qed.

Lemma size_of_no_var t : (exists n, size_of t = Some n) <-> sp_no_var t = true.
Proof.
  induction t using ty_ind'; cbn [sp_no_var];
    try (split; [reflexivity || (intros [n Hn]; discriminate) | intros _; eexists; reflexivity || discriminate]);
    try (split; [intros [n Hn]; discriminate | discriminate]).
  - rewrite size_of_tuple, forallb_forall. rewrite Forall_forall in H. split.
    + intros [n Hn] x Hx. destruct (all_some (map size_of ts)) as [szs|] eqn:E; [|discriminate].
      apply all_some_Some in E. apply H; [assumption|].
      apply (in_map size_of) in Hx. rewrite E in Hx. apply in_map_iff in Hx as (m & <- & _). eauto.
    + intros Hx. assert (exists szs, map size_of ts = map Some szs) as [szs E].
      { clear - H Hx. induction ts as [|t ts IH]; [exists []; reflexivity|].
        destruct IH as [szs E].
        - intros; apply H; cbn; auto.
        - intros; apply Hx; cbn; auto.
        - destruct (proj2 (H t (or_introl eq_refl)) (Hx t (or_introl eq_refl))) as [n Hn].
          exists (n :: szs). cbn. now rewrite Hn, E. }
      apply all_some_Some in E. rewrite E. eauto.
  - rewrite size_of_dict. cbn [map all_some]. rewrite andb_true_iff, <- IHt1, <- IHt2. split.
    + intros [n Hn]. destruct (size_of t1); [|discriminate]. destruct (size_of t2); [|discriminate]. eauto.
    + intros [[a ->] [b ->]]. eauto.
Qed.

(** ** Pad arithmetic *)
Lemma pad_to_add al x y : is_alignment al -> y mod al = 0 -> pad_to al (x + y) = pad_to al x + y.
Proof. intros [->|[->|[->| ->]]]; unfold pad_to; lia. Qed.
Lemma pad_to_pad b al x : is_alignment b -> is_alignment al -> b <= al ->
  pad_to al (pad_to b x) = pad_to al x.
Proof.
  intros Hb Hal Hle.
  pose proof (pad_to_ge b x Hb). pose proof (pad_to_lt b x Hb).
  pose proof (pad_to_mono al x (pad_to b x) Hal H).
  assert (pad_to b x <= pad_to al x).
  { apply pad_to_least; auto using pad_to_ge.
    apply (align_divides b al); auto. now apply pad_to_mod. }
  apply N.le_antisymm; [|assumption].
  apply pad_to_least; auto. now apply pad_to_mod.
Qed.
Lemma merge_rule_1 al b x c : is_alignment al -> is_alignment b -> al <= b ->
  pad_to al (pad_to b x + c) = pad_to b x + pad_to al c.
Proof.
  intros Hal Hb Hle. rewrite N.add_comm, pad_to_add; auto; [lia|].
  apply (align_divides al b); auto. now apply pad_to_mod.
Qed.
Lemma merge_rule_2 al b x c : is_alignment al -> is_alignment b -> b <= al ->
  pad_to al (pad_to b x + c) = pad_to al (x + pad_to b c).
Proof.
  intros Hal Hb Hle.
  rewrite <- (pad_to_pad b al (pad_to b x + c)), <- (pad_to_pad b al (x + pad_to b c)) by assumption.
  f_equal. rewrite merge_rule_1 by (auto; lia).
  rewrite pad_to_add by (auto using pad_to_mod). reflexivity.
Qed.

(** ** The table (C07) *)
Definition row_pos (ends : nat -> N) (r : row) : N :=
  let '(i, a, b, c) := r in pad_to b (sp_prev_end ends (Z.to_nat (i + 1)) + a) + c.

Lemma table_go_pos ends children : forall k a b c,
  is_alignment b ->
  map (row_pos ends) (table_go (Z.of_nat k - 1) a b c children) =
  sp_starts ends (pad_to b (sp_prev_end ends k + a) + c) k (items_of children).
Proof.
  induction children as [|child rest IH]; intros k a b c Hb; [reflexivity|].
  pose proof (align_of_alignment child) as Hal.
  cbn [items_of map sp_starts table_go]. fold (items_of rest).
  set (al := align_of child) in *.
  assert (Hk : Z.to_nat (Z.of_nat k - 1 + 1) = k) by lia.
  destruct (al <=? b) eqn:E.
  - apply N.leb_le in E. cbn [map]. unfold row_pos at 1. rewrite Hk.
    rewrite align_pad_to by assumption. rewrite merge_rule_1 by assumption.
    f_equal. destruct (size_of child) as [sz|].
    + rewrite IH by assumption. f_equal. lia.
    + replace (Z.of_nat k - 1 + 1)%Z with (Z.of_nat (S k) - 1)%Z by lia.
      rewrite IH by (left; reflexivity). cbn [sp_prev_end]. rewrite pad_to_1. f_equal. lia.
  - apply N.leb_gt in E. cbn [map]. unfold row_pos at 1. rewrite Hk.
    rewrite (align_pad_to b c) by assumption. rewrite merge_rule_2 by (auto; lia).
    rewrite <- (N.add_assoc (sp_prev_end ends k) a (pad_to b c)), N.add_0_r.
    f_equal. destruct (size_of child) as [sz|].
    + rewrite IH by assumption. rewrite N.add_0_l; reflexivity.
    + replace (Z.of_nat k - 1 + 1)%Z with (Z.of_nat (S k) - 1)%Z by lia.
      rewrite IH by (left; reflexivity). cbn [sp_prev_end]. rewrite pad_to_1. f_equal. lia.
Qed.
Lemma table_pos ends children :
  map (row_pos ends) (generate_table children) = sp_starts ends 0 0 (items_of children).
Proof.
  exact (table_go_pos ends children 0 0 1 0 (or_introl eq_refl)).
Qed.
Lemma table_go_length children : forall i a b c, length (table_go i a b c children) = length children.
Proof.
  induction children as [|child rest IH]; intros; [reflexivity|]. cbn [table_go].
  destruct (align_of child <=? b); destruct (size_of child); cbn [length]; rewrite IH; reflexivity.
Qed.

(** Every row: b is an alignment at least that of the child, and c is a multiple
    of the child's alignment. *)
Definition row_ok (child : ty) (r : row) : Prop :=
  let '(_, _, b, c) := r in is_alignment b /\ align_of child <= b /\ c mod align_of child = 0.
Lemma table_go_ok children : forall i a b c,
  is_alignment b -> Forall2 row_ok children (table_go i a b c children).
Proof.
  induction children as [|child rest IH]; intros i a b c Hb; [constructor|].
  pose proof (align_of_alignment child) as Hal. cbn [table_go].
  destruct (align_of child <=? b) eqn:E.
  - apply N.leb_le in E. constructor.
    + cbn. rewrite align_pad_to by assumption. auto using pad_to_mod.
    + destruct (size_of child); apply IH; auto. left; reflexivity.
  - apply N.leb_gt in E. constructor.
    + cbn. repeat split; auto; lia.
    + destruct (size_of child); apply IH; auto. left; reflexivity.
Qed.
Lemma table_ok children : Forall2 row_ok children (generate_table children).
Proof. apply table_go_ok. left; reflexivity. Qed.

(** Bound on the numbers in a table. *)
Definition size_or_0 (t : ty) : N := match size_of t with Some s => s | None => 0 end.
Fixpoint lay_bound (ts : list ty) : N :=
  match ts with [] => 0 | t :: r => 8 + size_or_0 t + lay_bound r end.
Lemma table_go_bound children : forall i a b c,
  is_alignment b ->
  Forall (fun r : row => let '(_, a', _, c') := r in a' + c' <= a + c + lay_bound children)
         (table_go i a b c children).
Proof.
  induction children as [|child rest IH]; intros i a b c Hb; [constructor|].
  pose proof (align_of_alignment child) as Hal. cbn [table_go lay_bound].
  assert (Hb8 : b <= 8) by (destruct Hb as [->|[->|[->| ->]]]; lia).
  assert (Hal8 : align_of child <= 8) by (destruct Hal as [->|[->|[->| ->]]]; lia).
  unfold size_or_0.
  destruct (align_of child <=? b) eqn:E.
  - apply N.leb_le in E. rewrite align_pad_to by assumption.
    pose proof (pad_to_lt (align_of child) c Hal). constructor; [destruct (size_of child); lia|].
    destruct (size_of child) as [s|].
    + eapply Forall_impl; [|apply IH; assumption]. intros [[[? ?] ?] ?]; lia.
    + eapply Forall_impl; [|apply IH; left; reflexivity]. intros [[[? ?] ?] ?]; lia.
  - apply N.leb_gt in E. rewrite align_pad_to by assumption.
    pose proof (pad_to_lt b c Hb). constructor; [destruct (size_of child); lia|].
    destruct (size_of child) as [s|].
    + eapply Forall_impl; [|apply IH; assumption]. intros [[[? ?] ?] ?]; lia.
    + eapply Forall_impl; [|apply IH; left; reflexivity]. intros [[[? ?] ?] ?]; lia.
Qed.
Lemma table_bound children :
  Forall (fun r : row => let '(_, a, _, c) := r in a + c <= lay_bound children)
         (generate_table children).
Proof.
  eapply Forall_impl; [|apply table_go_bound; left; reflexivity]. intros [[[? ?] ?] ?]; lia.
Qed.

(** Sizes are bounded by the length of the type string. *)
Definition type_len (t : ty) : N := blen (display t).
Lemma type_len_pos t : 1 <= type_len t.
Proof. unfold type_len, blen. destruct t; cbn [display length]; lia. Qed.
Lemma fold_lay_bound ts : forall szs pos,
  Forall2 (fun t s => s + 8 <= 16 * type_len t) ts szs ->
  fold_left (fun pos it => pad_to (fst it) pos + snd it) (combine (map align_of ts) szs) pos
  <= pos + 16 * blen (concat (map display ts)).
Proof.
  induction ts as [|t ts IH]; intros szs pos H; inversion H as [|? s ? szs' Hs Hr]; subst; [cbn; lia|].
  cbn [map combine fold_left fst snd concat].
  rewrite blen_app. fold (type_len t).
  specialize (IH szs' (pad_to (align_of t) pos + s) Hr).
  pose proof (pad_to_lt (align_of t) pos (align_of_alignment t)).
  assert (align_of t <= 8) by (destruct (align_of_alignment t) as [->|[->|[->| ->]]]; lia). lia.
Qed.
Lemma size_of_bound t n : size_of t = Some n -> n + 8 <= 16 * type_len t.
Proof.
  revert n. induction t using ty_ind'; intros n Hn;
    try (cbn in Hn; injection Hn as <-; vm_compute; discriminate); try discriminate.
  - rewrite size_of_tuple in Hn.
    destruct (all_some (map size_of ts)) as [szs|] eqn:E; [|discriminate]. apply Some_inj in Hn as <-.
    apply all_some_Some in E.
    assert (HF : Forall2 (fun t s => s + 8 <= 16 * type_len t) ts szs).
    { clear - H E. revert szs E. induction H as [|t ts Ht _ IH]; intros [|s szs] E; try discriminate; constructor.
      - cbn in E. injection E as E1 E2. auto.
      - cbn in E. injection E as E1 E2. auto. }
    pose proof (fold_lay_bound ts szs 0 HF) as HB.
    assert (Hlen : type_len (TTuple ts) = 2 + blen (concat (map display ts))).
    { unfold type_len. cbn [display]. rewrite blen_cons, blen_app, blen_cons, blen_nil. lia. }
    destruct (combine (map align_of ts) szs) as [|p l] eqn:Ec.
    + cbn [sp_struct_size]. lia.
    + rewrite <- Ec in *. unfold sp_struct_size. rewrite Ec. rewrite <- Ec.
      pose proof (pad_to_lt (align_of (TTuple ts))
        (fold_left (fun pos it => pad_to (fst it) pos + snd it) (combine (map align_of ts) szs) 0)
        (align_of_alignment _)).
      assert (align_of (TTuple ts) <= 8) by (destruct (align_of_alignment (TTuple ts)) as [->|[->|[->| ->]]]; lia).
      lia.
  - rewrite size_of_dict in Hn. cbn [map all_some] in Hn.
    destruct (size_of t1) as [a|] eqn:E1; [|discriminate].
    destruct (size_of t2) as [b|] eqn:E2; [|discriminate]. apply Some_inj in Hn as <-.
    specialize (IHt1 a eq_refl). specialize (IHt2 b eq_refl).
    pose proof (fold_lay_bound [t1; t2] [a; b] 0 ltac:(repeat constructor; assumption)) as HB.
    assert (Hlen : type_len (TDict t1 t2) = 2 + blen (concat (map display [t1; t2]))).
    { unfold type_len. cbn [display map concat].
      rewrite blen_cons, !blen_app, blen_cons, blen_nil. lia. }
    unfold sp_struct_size. cbn [map combine] in *.
    match goal with |- pad_to ?al ?x + _ <= _ =>
      pose proof (pad_to_lt al x (align_of_alignment (TDict t1 t2))) end.
    assert (align_of (TDict t1 t2) <= 8) by (destruct (align_of_alignment (TDict t1 t2)) as [->|[->|[->| ->]]]; lia).
    lia.
Qed.
Lemma size_or_0_bound t : size_or_0 t + 8 <= 16 * type_len t.
Proof.
  unfold size_or_0. destruct (size_of t) eqn:E; [now apply size_of_bound|].
  pose proof (type_len_pos t). lia.
Qed.
Lemma lay_bound_len ts : lay_bound ts <= 16 * blen (concat (map display ts)).
Proof.
  induction ts as [|t ts IH]; cbn [lay_bound map concat]; [lia|].
  rewrite blen_app. fold (type_len t). pose proof (size_or_0_bound t). lia.
Qed.
Lemma children_len t : is_struct t -> blen (concat (map display (children_of t))) + 2 = type_len t.
Proof.
  destruct t; cbn [is_struct]; try tauto; intros _; unfold type_len; cbn [children_of display map concat].
  - rewrite blen_cons, blen_app, blen_cons, blen_nil. lia.
  - rewrite blen_cons, !blen_app, blen_cons, blen_nil. lia.
Qed.
Lemma child_len t c : is_struct t -> In c (children_of t) -> type_len c < type_len t.
Proof.
  intros Hs Hc. rewrite <- (children_len t Hs). apply in_split in Hc as (l1 & l2 & ->).
  rewrite map_app, concat_app, blen_app. cbn [map concat]. rewrite blen_app. unfold type_len. lia.
Qed.

(** ** calc_start computes the row position *)
Lemma calc_start_ok h child b fo a c :
  is_alignment b -> align_of child <= b -> c mod align_of child = 0 ->
  fo + a + c + 16 < usize_lim ->
  calc_start h (trait_align child) b fo a c = Ok (pad_to b (fo + a) + c).
Proof.
  intros Hb Hle Hc Hlt. unfold calc_start.
  assert (b <= 8) by (destruct Hb as [->|[->|[->| ->]]]; lia).
  rewrite uadd_ok by lia. cbn [bind].
  rewrite align_offset_ok by (auto; lia). cbn [bind].
  rewrite trait_align_of. unfold ao_into.
  destruct (align_of child <=? b) eqn:E; [|lia]. cbn [bind].
  unfold try_new. rewrite Hc. cbn [N.eqb bind].
  unfold ao_add. apply uadd_ok. pose proof (pad_to_lt b (fo + a) Hb). lia.
Qed.

(** ** The packed structure (C04, C05) *)
Lemma lor_add_land a b : N.lor a b + N.land a b = a + b.
Proof.
  assert (E1 : a = N.ldiff a b + N.land a b).
  { assert (Z0 : N.land (N.ldiff a b) (N.land a b) = 0).
    { apply N.bits_inj. intros n. rewrite !N.land_spec, N.ldiff_spec, N.bits_0.
      destruct (N.testbit a n), (N.testbit b n); reflexivity. }
    rewrite N.add_nocarry_lxor by assumption. rewrite N.lxor_lor by assumption.
    symmetry. apply N.lor_ldiff_and. }
  assert (E2 : N.lor a b = N.ldiff a b + b).
  { assert (Z0 : N.land (N.ldiff a b) b = 0).
    { apply N.bits_inj. intros n. rewrite !N.land_spec, N.ldiff_spec, N.bits_0.
      destruct (N.testbit a n), (N.testbit b n); reflexivity. }
    rewrite N.add_nocarry_lxor by assumption. rewrite N.lxor_lor by assumption.
    apply N.bits_inj. intros n. rewrite !N.lor_spec, N.ldiff_spec.
    destruct (N.testbit a n), (N.testbit b n); reflexivity. }
  lia.
Qed.
Lemma land_multiple al a b : is_alignment al -> a mod al = 0 -> N.land a b mod al = 0.
Proof.
  intros Hal Ha. destruct (alignment_pow al Hal) as (k & -> & _).
  rewrite <- N.land_ones in Ha |- *.
  rewrite <- N.land_assoc, (N.land_comm b), N.land_assoc, Ha. apply N.land_0_l.
Qed.

(** The rows whose start [align(a, b) | c] is the sum it should be. *)
Definition row_exact (r : row) : bool :=
  let '(_, a, b, c) := r in N.land (align a b) c =? 0.
(** Padding before each item, walking from [pos]; and where the last one ends. *)
Fixpoint walk_pads (pos : N) (items : list (N * N)) : list N :=
  match items with
  | [] => []
  | (al, s) :: rest => (pad_to al pos - pos) :: walk_pads (pad_to al pos + s) rest
  end.
Fixpoint walk_end (pos : N) (items : list (N * N)) : N :=
  match items with
  | [] => pos
  | (al, s) :: rest => walk_end (pad_to al pos + s) rest
  end.
Lemma walk_end_fold items pos :
  walk_end pos items = fold_left (fun pos it => pad_to (fst it) pos + snd it) items pos.
Proof. revert pos. induction items as [|[al s] items IH]; intros; cbn; auto. Qed.
Definition fixed_items (ts : list ty) : list (N * N) := map (fun t => (align_of t, size_or_0 t)) ts.

Lemma packed_go_exact ts : forall a b c,
  is_alignment b ->
  Forall (fun t => is_fixed t = true) ts ->
  packed_go (combine (table_go (-1) a b c ts) (map size_or_0 ts)) (pad_to b a + c) =
  if forallb row_exact (table_go (-1) a b c ts)
  then Some (walk_pads (pad_to b a + c) (fixed_items ts), walk_end (pad_to b a + c) (fixed_items ts))
  else None.
Proof.
  induction ts as [|t ts IH]; intros a b c Hb HF; [reflexivity|].
  inversion HF as [|? ? Ht HF']; subst.
  unfold is_fixed in Ht. destruct (size_of t) as [sz|] eqn:Esz; [|discriminate].
  pose proof (align_of_alignment t) as Hal.
  assert (Es : size_or_0 t = sz) by (unfold size_or_0; now rewrite Esz).
  cbn [table_go fixed_items map combine]. fold (fixed_items ts). rewrite Esz, Es.
  cbn [walk_pads walk_end].
  destruct (align_of t <=? b) eqn:E.
  - apply N.leb_le in E. rewrite align_pad_to by assumption.
    cbn [combine packed_go forallb row_exact].
    rewrite align_pad_to by assumption.
    rewrite merge_rule_1 by assumption.
    pose proof (lor_add_land (pad_to b a) (pad_to (align_of t) c)) as HL.
    pose proof (pad_to_ge (align_of t) c Hal). pose proof (pad_to_lt (align_of t) c Hal).
    destruct (N.land (pad_to b a) (pad_to (align_of t) c) =? 0) eqn:El.
    + apply N.eqb_eq in El. rewrite El in HL. rewrite N.add_0_r in HL. rewrite HL.
      replace (pad_to b a + c <=? pad_to b a + pad_to (align_of t) c) with true by (symmetry; apply N.leb_le; lia).
      rewrite <- N.add_assoc. rewrite IH by assumption. cbn [andb].
      destruct (forallb row_exact (table_go (-1) a b (pad_to (align_of t) c + sz) ts)); reflexivity.
    + apply N.eqb_neq in El. cbn [andb].
      pose proof (land_multiple b (pad_to b a) (pad_to (align_of t) c) Hb (pad_to_mod b a Hb)) as HM.
      assert (b <= N.land (pad_to b a) (pad_to (align_of t) c)).
      { apply N.mod_divide in HM; [|pose proof (alignment_pos b Hb); lia].
        destruct HM as [q Hq]. rewrite Hq in El |- *. destruct q as [|q]; nia. }
      replace (pad_to b a + c <=? N.lor (pad_to b a) (pad_to (align_of t) c)) with false
        by (symmetry; apply N.leb_gt; lia).
      reflexivity.
  - apply N.leb_gt in E. rewrite (align_pad_to b c) by assumption.
    cbn [combine packed_go forallb row_exact].
    rewrite align_pad_to by assumption.
    rewrite N.lor_0_r, N.land_0_r. cbn [N.eqb andb].
    rewrite merge_rule_2 by (auto; lia).
    replace (pad_to b a + c <=? pad_to (align_of t) (a + pad_to b c)) with true.
    2: { symmetry; apply N.leb_le. rewrite <- (merge_rule_2 (align_of t) b a c) by (auto; lia).
         now apply pad_to_ge. }
    rewrite N.add_0_l. rewrite IH by assumption.
    destruct (forallb row_exact (table_go (-1) (a + pad_to b c) (align_of t) sz ts)); reflexivity.
Qed.

Lemma sizes_of_fixed ts : Forall (fun t => is_fixed t = true) ts ->
  all_some (map size_of ts) = Some (map size_or_0 ts).
Proof.
  intros H. apply all_some_Some. induction H as [|t ts Ht _ IH]; [reflexivity|].
  cbn [map]. rewrite IH. f_equal. unfold is_fixed in Ht. unfold size_or_0.
  destruct (size_of t); [reflexivity|discriminate].
Qed.
Lemma fixed_children t n : is_struct t -> size_of t = Some n ->
  Forall (fun t => is_fixed t = true) (children_of t).
Proof.
  intros Hs Hn. rewrite size_of_struct in Hn by assumption.
  destruct (all_some (map size_of (children_of t))) as [szs|] eqn:E; [|discriminate].
  apply all_some_Some in E. clear Hn Hs. revert szs E.
  induction (children_of t) as [|c cs IH]; intros [|s szs] E; try discriminate; constructor.
  - cbn in E. injection E as E1 E2. unfold is_fixed. now rewrite E1.
  - cbn in E. injection E as E1 E2. eauto.
Qed.
Lemma fixed_items_combine ts : combine (map align_of ts) (map size_or_0 ts) = fixed_items ts.
Proof. induction ts as [|t ts IH]; [reflexivity|]. cbn. now rewrite IH. Qed.
Lemma size_of_fixed_struct t n : is_struct t -> size_of t = Some n ->
  n = match children_of t with [] => 1 | _ => pad_to (align_of t) (walk_end 0 (fixed_items (children_of t))) end.
Proof.
  intros Hs Hn. pose proof (fixed_children t n Hs Hn) as HF.
  rewrite size_of_struct in Hn by assumption. rewrite sizes_of_fixed in Hn by assumption.
  rewrite fixed_items_combine in Hn. apply Some_inj in Hn as <-.
  rewrite walk_end_fold. destruct (children_of t); reflexivity.
Qed.

Definition struct_exact (t : ty) : bool := forallb row_exact (generate_table (children_of t)).

Lemma packed_struct_exact t n : is_struct t -> size_of t = Some n ->
  packed_struct t =
  if struct_exact t
  then Some (walk_pads 0 (fixed_items (children_of t)),
             n - walk_end 0 (fixed_items (children_of t)))
  else None.
Proof.
  intros Hs Hn. pose proof (fixed_children t n Hs Hn) as HF.
  pose proof (size_of_fixed_struct t n Hs Hn) as Hsz.
  unfold packed_struct. rewrite Hn. unfold struct_exact, generate_table.
  change (map _ (children_of t)) with (map size_or_0 (children_of t)).
  change 0 with (pad_to 1 0 + 0) at 7.
  rewrite packed_go_exact by (auto; left; reflexivity).
  change (pad_to 1 0 + 0) with 0.
  destruct (forallb row_exact (table_go (-1) 0 1 0 (children_of t))); [|reflexivity].
  replace (walk_end 0 (fixed_items (children_of t)) <=? n) with true; [reflexivity|].
  symmetry. apply N.leb_le. subst n. destruct (children_of t).
  - cbn. lia.
  - apply pad_to_ge. apply align_of_alignment.
Qed.

Lemma struct_macro_ok_exact t : is_struct t ->
  struct_macro_ok t = if is_fixed t then struct_exact t else true.
Proof.
  intros Hs. unfold struct_macro_ok. unfold is_fixed. destruct (size_of t) as [n|] eqn:E; [|reflexivity].
  rewrite (packed_struct_exact t n) by assumption. destruct (struct_exact t); reflexivity.
Qed.

Lemma table_anchored ts : forall a b c,
  is_alignment b -> Forall (fun t => is_fixed t = true) ts ->
  forallb row_exact (table_go (-1) a b c ts) =
  sp_anchored (pad_to b a) b (pad_to b a + c) (fixed_items ts).
Proof.
  induction ts as [|t ts IH]; intros a b c Hb HF; [reflexivity|].
  inversion HF as [|? ? Ht HF']; subst.
  unfold is_fixed in Ht. destruct (size_of t) as [sz|] eqn:Esz; [|discriminate].
  pose proof (align_of_alignment t) as Hal.
  assert (Es : size_or_0 t = sz) by (unfold size_or_0; now rewrite Esz).
  cbn [table_go fixed_items map sp_anchored]. fold (fixed_items ts). rewrite Esz, Es.
  destruct (align_of t <=? b) eqn:E.
  - apply N.leb_le in E. cbn [forallb row_exact].
    rewrite !align_pad_to by assumption. rewrite merge_rule_1 by assumption.
    rewrite IH by assumption. rewrite N.add_assoc.
    replace (pad_to b a + pad_to (align_of t) c - pad_to b a) with (pad_to (align_of t) c) by lia.
    reflexivity.
  - apply N.leb_gt in E. cbn [forallb row_exact].
    rewrite (align_pad_to b c) by assumption. rewrite N.land_0_r. cbn [N.eqb andb].
    rewrite IH by assumption. rewrite N.add_0_l. rewrite merge_rule_2 by (auto; lia). reflexivity.
Qed.
Lemma struct_exact_anchored t n : is_struct t -> size_of t = Some n ->
  struct_exact t = sp_anchored 0 1 0 (fixed_items (children_of t)).
Proof.
  intros Hs Hn. unfold struct_exact, generate_table.
  rewrite table_anchored; [reflexivity|left; reflexivity|]. eapply fixed_children; eassumption.
Qed.
Lemma anchored_0 m items pos : (forall it, In it items -> fst it <= m) ->
  sp_anchored 0 m pos items = true.
Proof.
  revert pos. induction items as [|[al s] items IH]; intros pos H; [reflexivity|].
  cbn [sp_anchored]. pose proof (H _ (or_introl eq_refl)) as Hle. cbn [fst] in Hle.
  apply N.leb_le in Hle. rewrite Hle. rewrite N.land_0_l. cbn [N.eqb andb].
  apply IH. intros; apply H; now right.
Qed.
Lemma anchored_first al s items :
  is_alignment al -> (forall it, In it items -> fst it <= al) ->
  sp_anchored 0 1 0 ((al, s) :: items) = true.
Proof.
  intros Hal H. cbn [sp_anchored]. rewrite pad_to_0 by assumption.
  destruct (al <=? 1) eqn:E.
  - rewrite N.land_0_l. cbn [N.eqb andb]. apply anchored_0.
    intros it Hi. apply N.leb_le in E. specialize (H it Hi). lia.
  - apply anchored_0. assumption.
Qed.

(** rustc's layout of the emitted fields. *)
Definition declared (ts : list ty) : list (N * N) := map (fun t => (size_or_0 t, align_of t)) ts.
Lemma round_up_1 x : round_up x 1 = x.
Proof. rewrite round_up_pad_to by (left; reflexivity). apply pad_to_1. Qed.
Lemma fold_max_le (l : list N) a : a <= fold_left N.max l a.
Proof. revert a. induction l as [|x l IH]; intros a; cbn; [lia|]. specialize (IH (N.max a x)). lia. Qed.

Lemma repr_interleave ts final : forall pos al0, 1 <= al0 ->
  exists os,
    repr_c_go pos al0 (map snd (interleave (walk_pads pos (fixed_items ts)) (declared ts) final)) =
      (os, walk_end pos (fixed_items ts) + final, fold_left N.max (map align_of ts) al0) /\
    keep (map fst (interleave (walk_pads pos (fixed_items ts)) (declared ts) final)) os =
      sp_field_offsets pos (fixed_items ts) /\
    pos + fold_right N.add 0 (map (fun f => fst (snd f))
        (interleave (walk_pads pos (fixed_items ts)) (declared ts) final)) =
      walk_end pos (fixed_items ts) + final.
Proof.
  induction ts as [|t ts IH]; intros pos al0 H0.
  - cbn [fixed_items map walk_pads declared interleave walk_end fold_left sp_field_offsets].
    destruct (0 <? final) eqn:E.
    + exists [pos]. cbn [map snd fst repr_c_go keep fold_right app].
      rewrite round_up_1. replace (N.max al0 1) with al0 by lia. repeat split; lia.
    + apply N.ltb_ge in E. replace final with 0 by lia.
      exists []. cbn. rewrite N.add_0_r. auto.
  - cbn [fixed_items map walk_pads declared interleave walk_end fold_left sp_field_offsets].
    fold (fixed_items ts) (declared ts).
    pose proof (align_of_alignment t) as Hal.
    pose proof (align_of_pos t).
    set (start := pad_to (align_of t) pos).
    assert (Hge : pos <= start) by (now apply pad_to_ge).
    assert (Hr : round_up start (align_of t) = start).
    { rewrite round_up_pad_to by assumption. apply pad_to_id; auto. now apply pad_to_mod. }
    destruct (IH (start + size_or_0 t) (N.max al0 (align_of t))) as (os & E1 & E2 & E3); [lia|].
    destruct (0 <? start - pos) eqn:E.
    + apply N.ltb_lt in E. exists (pos :: start :: os).
      cbn [app map snd fst repr_c_go keep fold_right].
      rewrite round_up_1. replace (pos + (start - pos)) with start by lia. rewrite Hr.
      replace (N.max al0 1) with al0 by lia. rewrite E1, E2. repeat split. lia.
    + apply N.ltb_ge in E. assert (start = pos) by lia. exists (start :: os).
      cbn [app map snd fst repr_c_go keep fold_right].
      replace (round_up pos (align_of t)) with start by congruence.
      rewrite E1, E2. repeat split. lia.
Qed.

Lemma fold_max_app (l : list N) a : fold_left N.max l a = N.max a (fold_right N.max 0 l).
Proof. revert a. induction l as [|x l IH]; intros a; cbn; [lia|]. rewrite IH. lia. Qed.
Lemma struct_align_max t : is_struct t ->
  fold_left N.max (map align_of (children_of t)) 1 = align_of t.
Proof.
  destruct t as [| | | | | | | | | | | | | | |ts|k v]; cbn [is_struct]; try tauto; intros _;
    cbn [children_of].
  - rewrite fold_max_app. change (align_of (TTuple ts)) with (fold_right N.max 1 (map align_of ts)).
    induction (map align_of ts) as [|x l IH]; cbn [fold_right]; lia.
  - cbn [map fold_left align_of]. pose proof (align_of_pos k). lia.
Qed.

(** The declared fields of the generated struct for a fixed-size structure. *)
Definition decl_fields (t : ty) (n : N) : list (bool * (N * N)) :=
  interleave (walk_pads 0 (fixed_items (children_of t))) (declared (children_of t))
             (n - walk_end 0 (fixed_items (children_of t))).
Lemma struct_layout t n : is_struct t -> size_of t = Some n ->
  exists os,
    repr_c (map snd (decl_fields t n)) = (os, n, align_of t) /\
    keep (map fst (decl_fields t n)) os = sp_field_offsets 0 (fixed_items (children_of t)) /\
    fold_right N.add 0 (map (fun f => fst (snd f)) (decl_fields t n)) = n.
Proof.
  intros Hs Hn.
  destruct (repr_interleave (children_of t) (n - walk_end 0 (fixed_items (children_of t))) 0 1 (N.le_refl 1))
    as (os & E1 & E2 & E3).
  fold (decl_fields t n) in E1, E2, E3.
  assert (Hle : walk_end 0 (fixed_items (children_of t)) <= n).
  { rewrite (size_of_fixed_struct t n Hs Hn). destruct (children_of t); [cbn; lia|].
    apply pad_to_ge, align_of_alignment. }
  replace (walk_end 0 _ + (n - walk_end 0 _)) with n in E1, E3 by lia.
  exists os. unfold repr_c. rewrite E1, struct_align_max by assumption.
  rewrite round_up_pad_to by apply align_of_alignment.
  rewrite pad_to_id; [|apply align_of_alignment|now apply size_of_props].
  repeat split; auto.
Qed.

Lemma mem_layout_struct t : is_struct t ->
  mem_layout t =
  match packed_struct t, mem_layouts (children_of t) with
  | Some (pads, final), Some ls =>
      let '(_, size, al) := repr_c (map snd (interleave pads ls final)) in Some (size, al)
  | _, _ => None
  end.
Proof.
  destruct t as [| | | | | | | | | | | | | | |ts|k v]; cbn [is_struct]; try (intros H; destruct H; fail); intros _.
  - reflexivity.
  - cbn [mem_layout children_of mem_layouts]. destruct (packed_struct (TDict k v)) as [[pads final]|]; [|reflexivity].
    destruct (mem_layout k); [|reflexivity]. destruct (mem_layout v); reflexivity.
Qed.

Lemma macro_ok_struct t : is_struct t ->
  macro_ok t = forallb macro_ok (children_of t) && struct_macro_ok t.
Proof.
  destruct t as [| | | | | | | | | | | | | | |ts|k v]; cbn [is_struct]; try tauto; intros _;
    unfold macro_ok; cbn [generate_types children_of].
  - rewrite forallb_app. cbn [forallb]. rewrite andb_true_r. f_equal.
    induction ts as [|x ts IH]; [reflexivity|]. cbn. rewrite forallb_app. now rewrite IH.
  - rewrite !forallb_app. cbn [forallb]. rewrite !andb_true_r. now rewrite andb_assoc.
Qed.

Lemma mem_layouts_declared ts :
  Forall (fun t => mem_layout t = Some (size_or_0 t, align_of t)) ts ->
  mem_layouts ts = Some (declared ts).
Proof. induction 1 as [|t ts Ht _ IH]; [reflexivity|]. cbn. now rewrite Ht, IH. Qed.

Lemma ty_struct_ind (P : ty -> Prop) :
  (forall t, ~ is_struct t -> (forall x, t = TA x \/ t = TM x -> P x) -> P t) ->
  (forall t, is_struct t -> Forall P (children_of t) -> P t) ->
  forall t, P t.
Proof.
  intros HA HS t. induction t using ty_ind'; try (apply HA; [cbn; tauto|intros ? [E|E]; congruence]).
  - apply HS; cbn; auto.
  - apply HS; cbn; auto.
Qed.

Lemma mem_layout_ok t n : size_of t = Some n -> macro_ok t = true ->
  mem_layout t = Some (n, align_of t).
Proof.
  revert n. induction t as [t Hns _|t Hs IH] using ty_struct_ind; intros n Hn Hm.
  - destruct t; cbn in Hns; try tauto; try discriminate; cbn in Hn; injection Hn as <-; reflexivity.
  - rewrite macro_ok_struct in Hm by assumption. apply andb_true_iff in Hm as [Hc Hm].
    rewrite mem_layout_struct by assumption.
    rewrite struct_macro_ok_exact in Hm by assumption. unfold is_fixed in Hm. rewrite Hn in Hm.
    rewrite (packed_struct_exact t n), Hm by assumption.
    pose proof (fixed_children t n Hs Hn) as HF.
    rewrite mem_layouts_declared.
    + destruct (struct_layout t n Hs Hn) as (os & E & _ & _). unfold decl_fields in E. rewrite E. reflexivity.
    + rewrite forallb_forall in Hc. rewrite Forall_forall in *. intros x Hx.
      specialize (HF x Hx). unfold is_fixed in HF. unfold size_or_0.
      destruct (size_of x) as [m|] eqn:Em; [|discriminate]. apply IH; auto.
Qed.
Lemma field_offsets_ok t n : is_struct t -> size_of t = Some n -> macro_ok t = true ->
  field_offsets t = Some (sp_field_offsets 0 (fixed_items (children_of t))).
Proof.
  intros Hs Hn Hm.
  rewrite macro_ok_struct in Hm by assumption. apply andb_true_iff in Hm as [Hc Hm].
  unfold field_offsets.
  rewrite struct_macro_ok_exact in Hm by assumption. unfold is_fixed in Hm. rewrite Hn in Hm.
  rewrite (packed_struct_exact t n), Hm by assumption.
  pose proof (fixed_children t n Hs Hn) as HF.
  rewrite mem_layouts_declared.
  - destruct (struct_layout t n Hs Hn) as (os & E & E2 & _). unfold decl_fields in E, E2. rewrite E, E2. reflexivity.
  - rewrite forallb_forall in Hc. rewrite Forall_forall in *. intros x Hx.
    specialize (HF x Hx). unfold is_fixed in HF. unfold size_or_0.
    destruct (size_of x) as [m|] eqn:Em; [|discriminate]. apply mem_layout_ok; auto.
Qed.

(** ** Statements used by the property files *)
Lemma is_struct_sp t : sp_is_struct t = true <-> is_struct t.
Proof. destruct t; cbn; intuition congruence. Qed.
Lemma align_values t : In (align_of t) [1; 2; 4; 8].
Proof. destruct (align_of_alignment t) as [->|[->|[->| ->]]]; cbn; auto. Qed.
Lemma component_align t c : In c (sp_components t) -> align_of c <= align_of t.
Proof.
  destruct t; cbn [sp_components]; try (intros []; fail).
  - intros [<-|[]]. cbn. lia.
  - intros [<-|[]]. cbn. lia.
  - intros H. apply (children_align (TTuple ts)); cbn; auto.
  - intros H. apply (children_align (TDict t1 t2)); cbn; auto.
Qed.
Lemma alignment_le_divide a b : is_alignment a -> is_alignment b -> a <= b -> N.divide a b.
Proof.
  intros Ha Hb H. apply N.mod_divide; [pose proof (alignment_pos a Ha); lia|].
  apply (align_divides a b b); auto. apply N.mod_same. pose proof (alignment_pos b Hb); lia.
Qed.
Lemma component_align_divides t c : In c (sp_components t) -> N.divide (align_of c) (align_of t).
Proof. intros H. apply alignment_le_divide; auto using align_of_alignment, component_align. Qed.
Lemma component_narrow t c (s : slice) : In c (sp_components t) ->
  as_aligned (trait_align t) (trait_align c) s = Ok s.
Proof.
  intros H. unfold as_aligned, aligned_to. rewrite !trait_align_of.
  apply component_align in H. apply N.leb_le in H. now rewrite H.
Qed.

Lemma fixed_items_sp ts szs : map sp_size ts = map Some szs ->
  combine (map sp_align ts) szs = fixed_items ts.
Proof.
  revert szs. induction ts as [|t ts IH]; intros [|s szs] E; try discriminate; [reflexivity|].
  cbn in E. injection E as E1 E2. cbn. rewrite IH by assumption. f_equal.
  rewrite sp_align_of. unfold size_or_0. rewrite <- sp_size_of, E1. reflexivity.
Qed.
Lemma fixed_struct_layout t n szs :
  sp_is_struct t = true -> sp_size t = Some n -> map sp_size (sp_components t) = map Some szs ->
  macro_ok t = true ->
  mem_layout t = Some (n, sp_align t) /\
  field_offsets t = Some (sp_field_offsets 0 (combine (map sp_align (sp_components t)) szs)).
Proof.
  intros Hs Hn Hc Hm. apply is_struct_sp in Hs. rewrite sp_size_of in Hn. rewrite sp_align_of. split.
  - now apply mem_layout_ok.
  - rewrite (fixed_items_sp _ _ Hc).
    rewrite (field_offsets_ok t n) by assumption.
    destruct t; cbn in Hs; try tauto; reflexivity.
Qed.
Lemma declared_bytes_ok t n :
  sp_is_struct t = true -> sp_size t = Some n -> macro_ok t = true -> declared_bytes t = Some n.
Proof.
  intros Hs Hn Hm. apply is_struct_sp in Hs. rewrite sp_size_of in Hn.
  rewrite macro_ok_struct in Hm by assumption. apply andb_true_iff in Hm as [Hc Hm].
  unfold declared_bytes.
  rewrite struct_macro_ok_exact in Hm by assumption. unfold is_fixed in Hm. rewrite Hn in Hm.
  rewrite (packed_struct_exact t n), Hm by assumption.
  pose proof (fixed_children t n Hs Hn) as HF.
  rewrite mem_layouts_declared.
  - destruct (struct_layout t n Hs Hn) as (os & _ & _ & E). unfold decl_fields in E. now rewrite E.
  - rewrite forallb_forall in Hc. rewrite Forall_forall in *. intros x Hx.
    specialize (HF x Hx). unfold is_fixed in HF. unfold size_or_0.
    destruct (size_of x) as [m|] eqn:Em; [|discriminate]. apply mem_layout_ok; auto.
Qed.

Lemma macro_ok_all t : macro_ok t = true <-> forall s, In s (generate_types t) -> struct_macro_ok s = true.
Proof. apply forallb_forall. Qed.
Lemma struct_macro_ok_spec t szs :
  sp_is_struct t = true -> map sp_size (sp_components t) = map Some szs ->
  struct_macro_ok t = sp_anchored 0 1 0 (combine (map sp_align (sp_components t)) szs).
Proof.
  intros Hs Hc. apply is_struct_sp in Hs. rewrite (fixed_items_sp _ _ Hc).
  assert (Ec : sp_components t = children_of t) by (destruct t; cbn in Hs; try tauto; reflexivity).
  rewrite Ec in *. rewrite struct_macro_ok_exact by assumption.
  assert (Hn : exists n, size_of t = Some n).
  { rewrite size_of_struct by assumption.
    assert (E : map size_of (children_of t) = map Some szs).
    { rewrite <- Hc. apply map_ext. intros; symmetry; apply sp_size_of. }
    apply all_some_Some in E. rewrite E. eauto. }
  destruct Hn as [n Hn]. unfold is_fixed. rewrite Hn. now apply struct_exact_anchored with n.
Qed.
Lemma struct_macro_ok_var t : sp_size t = None -> struct_macro_ok t = true.
Proof. intros H. rewrite sp_size_of in H. unfold struct_macro_ok, is_fixed. now rewrite H. Qed.
Lemma first_strictest_ok t c cs :
  sp_is_struct t = true -> sp_components t = c :: cs -> sp_align c = sp_align t ->
  struct_macro_ok t = true.
Proof.
  intros Hs Hc Ha. destruct (sp_size t) as [n|] eqn:Hn; [|now apply struct_macro_ok_var].
  rewrite sp_size_of in Hn. pose proof Hs as Hs'. apply is_struct_sp in Hs.
  pose proof (fixed_children t n Hs Hn) as HF. apply sizes_of_fixed in HF.
  apply all_some_Some in HF.
  assert (Ec : sp_components t = children_of t) by (destruct t; cbn in Hs; try tauto; reflexivity).
  rewrite (struct_macro_ok_spec t (map size_or_0 (children_of t))); auto.
  2: { rewrite Ec, <- HF. apply map_ext. apply sp_size_of. }
  rewrite Ec in *. rewrite Hc in *. cbn [map combine].
  apply anchored_first; [rewrite sp_align_of; apply align_of_alignment|].
  intros [al s] Hin. cbn [fst]. apply in_combine_l in Hin. apply in_map_iff in Hin as (x & <- & Hx).
  rewrite Ha, !sp_align_of. apply children_align; [assumption|]. rewrite Hc. now right.
Qed.

(** Index of the variable-size child a row refers to. *)
Fixpoint n_var (ts : list ty) : nat :=
  match ts with [] => O | t :: r => (if is_fixed t then O else 1%nat) + n_var r end.
Lemma table_go_index children : forall k a b c j i' a' b' c',
  nth_error (table_go (Z.of_nat k - 1) a b c children) j = Some (i', a', b', c') ->
  i' = (Z.of_nat (k + n_var (firstn j children)) - 1)%Z.
Proof.
  induction children as [|child rest IH]; intros k a b c j i' a' b' c' H.
  { destruct j; discriminate. }
  cbn [table_go] in H.
  destruct j as [|j].
  { destruct (align_of child <=? b); cbn in H; injection H as <- <- <- <-; cbn; lia. }
  cbn [firstn n_var]. unfold is_fixed.
  destruct (align_of child <=? b), (size_of child); cbn [nth_error] in H.
  - apply IH in H. rewrite H. lia.
  - replace (Z.of_nat k - 1 + 1)%Z with (Z.of_nat (S k) - 1)%Z in H by lia. apply IH in H. rewrite H. lia.
  - apply IH in H. rewrite H. lia.
  - replace (Z.of_nat k - 1 + 1)%Z with (Z.of_nat (S k) - 1)%Z in H by lia. apply IH in H. rewrite H. lia.
Qed.
Lemma n_var_sp ts : n_var ts = length (filter (fun t => negb (sp_no_var t)) ts).
Proof.
  induction ts as [|t ts IH]; [reflexivity|]. cbn [n_var filter]. rewrite IH.
  pose proof (size_of_no_var t) as H. unfold is_fixed.
  destruct (size_of t) as [n|], (sp_no_var t); cbn [negb length Nat.add]; auto.
  - destruct H as [H _]. discriminate H; eauto.
  - destruct H as [_ H]. destruct H as [n Hn]; [reflexivity|discriminate].
Qed.

Lemma Forall2_nth_error {A B} (R : A -> B -> Prop) l l' j x y :
  Forall2 R l l' -> nth_error l j = Some x -> nth_error l' j = Some y -> R x y.
Proof.
  intros H. revert j. induction H as [|a b l l' Hab _ IH]; intros [|j] Hx Hy; try discriminate.
  - cbn in *. congruence.
  - eauto.
Qed.
Lemma table_correct h ends t j child i a b c :
  sp_is_struct t = true -> nth_error (sp_components t) j = Some child ->
  nth_error (generate_table (sp_components t)) j = Some (i, a, b, c) ->
  blen (sp_show t) < 2 ^ 32 ->
  (forall k, ends k < 2 ^ 63) ->
  let k := length (filter (fun t => negb (sp_no_var t)) (firstn j (sp_components t))) in
  i = (Z.of_nat k - 1)%Z /\
  calc_start h (trait_align child) b (sp_prev_end ends k) a c =
  Ok (nth j (sp_starts ends 0 0 (map (fun t => (sp_align t, sp_size t)) (sp_components t))) 0).
Proof.
  intros Hs Hch Hrow Hlen Hends k. subst k. apply is_struct_sp in Hs.
  assert (Ec : sp_components t = children_of t) by (destruct t; cbn in Hs; try tauto; reflexivity).
  rewrite Ec in *. rewrite <- n_var_sp.
  pose proof (table_go_index (children_of t) 0 0 1 0 j i a b c Hrow) as Hi.
  split; [exact Hi|].
  pose proof (Forall2_nth_error _ _ _ _ _ _ (table_ok (children_of t)) Hch Hrow) as (Hb & Hle & Hc).
  pose proof (table_bound (children_of t)) as HB. rewrite Forall_forall in HB.
  specialize (HB _ (nth_error_In _ _ Hrow)). cbn in HB.
  pose proof (lay_bound_len (children_of t)) as HL.
  pose proof (children_len t Hs) as HC. unfold type_len in HC.
  assert (Hd : display t = sp_show t).
  { clear. induction t using ty_ind'; cbn [display sp_show app]; try congruence.
    f_equal. f_equal. rewrite flat_map_concat_map.
    induction H as [|t ts Ht _ IH]; [reflexivity|]. cbn [map concat]. now rewrite Ht, IH. }
  rewrite Hd in HC.
  rewrite calc_start_ok; auto.
  - f_equal. rewrite sp_items_of, <- (table_pos ends (children_of t)).
    rewrite (nth_error_nth _ _ 0 (map_nth_error (row_pos ends) _ _ Hrow)).
    unfold row_pos. rewrite Hi. f_equal. f_equal. f_equal. f_equal. lia.
  - assert (sp_prev_end ends (n_var (firstn j (children_of t))) < 2 ^ 63).
    { destruct (n_var _); cbn; [lia|apply Hends]. }
    rewrite usize_lim_val. lia.
Qed.

Lemma yii_panics : exists t : ty, one (bs "(yii)") = inr t /\ sp_size t = Some 12 /\ macro_ok t = false.
Proof. exists (TTuple [TY; TI; TI]). repeat split; reflexivity. Qed.
Lemma b_struct_ill_typed : exists t : ty,
  one (bs "(b)") = inr t /\ sp_size t = Some 1 /\ macro_ok t = true /\ defaults_typecheck t = false.
Proof. exists (TTuple [TB]). repeat split; reflexivity. Qed.
Lemma macro_ok_occurs t :
  macro_ok t = true <->
  forall s, sp_is_struct s = true -> sp_occurs s t -> struct_macro_ok s = true.
Proof.
  rewrite macro_ok_all. split.
  - intros H s Hs Ho. apply H. apply generate_types_iff. auto.
  - intros H s Hi. apply generate_types_iff in Hi as [Hs Ho]. auto.
Qed.
Lemma int_literal_in t : int_literal_ok t = true <-> In t [TY; TN; TQ; TI; TU; TX; TT].
Proof.
  split.
  - destruct t; cbn; intros; try discriminate; tauto.
  - cbn. intros H. decompose [or] H; subst; try reflexivity; tauto.
Qed.
Lemma comps_children t : sp_is_struct t = true -> sp_components t = children_of t.
Proof. destruct t; cbn; try discriminate; reflexivity. Qed.
Lemma defaults_typecheck_spec t : sp_is_struct t = true -> sp_no_var t = true ->
  (defaults_typecheck t = true <->
   forall c, In c (sp_components t) -> In c [TY; TN; TQ; TI; TU; TX; TT]).
Proof.
  intros Hs Hf. apply size_of_no_var in Hf as [n Hn]. unfold defaults_typecheck, is_fixed. rewrite Hn.
  rewrite comps_children by assumption. rewrite forallb_forall.
  split; intros H c Hc; apply int_literal_in; auto.
Qed.
Lemma fixed_sizes t : is_struct t -> (exists n, size_of t = Some n) <->
  exists szs, map sp_size (sp_components t) = map Some szs.
Proof.
  intros Hs. rewrite comps_children by (now apply is_struct_sp).
  rewrite (map_ext sp_size size_of sp_size_of). rewrite size_of_struct by assumption. split.
  - intros [n Hn]. destruct (all_some (map size_of (children_of t))) as [szs|] eqn:E; [|discriminate].
    apply all_some_Some in E. eauto.
  - intros [szs E]. apply all_some_Some in E. rewrite E. eauto.
Qed.
Lemma gv_usable_spec t :
  gv_usable t = true <->
  NoDup (generate_types t) /\
  forall s, sp_is_struct s = true -> sp_occurs s t ->
    len (sp_components s) <= 12 /\
    (forall szs, map sp_size (sp_components s) = map Some szs ->
       sp_anchored 0 1 0 (combine (map sp_align (sp_components s)) szs) = true /\
       forall c, In c (sp_components s) -> In c [TY; TN; TQ; TI; TU; TX; TT]).
Proof.
  unfold gv_usable. rewrite !andb_true_iff, names_once_nodup, names_nodup, macro_ok_occurs, forallb_forall.
  split.
  - intros [[Hm Hd] Ha]. split; [assumption|]. intros s Hs Ho.
    assert (Hin : In s (generate_types t)) by (apply generate_types_iff; auto).
    specialize (Ha s Hin). apply andb_true_iff in Ha as [Ha Hd']. split.
    + unfold arity_ok in Ha. apply N.leb_le in Ha. rewrite comps_children by assumption. exact Ha.
    + intros szs Hz. rewrite <- (struct_macro_ok_spec s szs) by assumption. split; [auto|].
      apply defaults_typecheck_spec; auto. apply size_of_no_var. apply fixed_sizes; [now apply is_struct_sp|eauto].
  - intros [Hd H]. repeat split; auto.
    + intros s Hs Ho. destruct (H s Hs Ho) as [_ Hz].
      destruct (size_of s) as [n|] eqn:E.
      * destruct (proj1 (fixed_sizes s (proj1 (is_struct_sp s) Hs))) as [szs Hszs]; [eauto|].
        rewrite (struct_macro_ok_spec s szs) by assumption. now apply Hz.
      * apply struct_macro_ok_var. now rewrite sp_size_of.
    + intros s Hin. apply generate_types_iff in Hin as [Hs Ho]. destruct (H s Hs Ho) as [Ha Hz].
      apply andb_true_iff. split.
      * unfold arity_ok. apply N.leb_le. rewrite comps_children in Ha by assumption. exact Ha.
      * destruct (size_of s) as [n|] eqn:E.
        -- destruct (proj1 (fixed_sizes s (proj1 (is_struct_sp s) Hs))) as [szs Hszs]; [eauto|].
           apply defaults_typecheck_spec; auto; [apply size_of_no_var; eauto|]. now apply (Hz szs).
        -- unfold defaults_typecheck, is_fixed. now rewrite E.
Qed.
