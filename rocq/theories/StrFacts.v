(** GString (C35, C36, C37). *)
From Verif Require Import Base Types Strs Spec AlignedBytes Deser Buf Histories BaseFacts Utf8Facts.

Definition gs_holds (g : gstring) (s : list byte) : Prop :=
  g_data g = s ++ [x00] /\ good_string s /\ blen s + 1 <= g_cap g.

Lemma grow_to_ge cap n c : n <= grow_to cap n c /\ cap <= grow_to cap n c.
Proof. unfold grow_to. destruct (n <=? cap) eqn:E; lia. Qed.
Lemma good_nil : good_string [].
Proof. split; [exists []; split; [constructor|reflexivity]|cbn; tauto]. Qed.
Lemma good_app s t : good_string s -> is_utf8 t -> sp_nul_free t = true -> good_string (s ++ t).
Proof.
  intros [Hu Hn] Ht Hf. split.
  - apply valid_utf8_ok. apply valid_utf8_app; now apply valid_utf8_ok.
  - rewrite in_app_iff. intros [H|H]; [tauto|]. rewrite sp_nul_free_spec in Hf.
    apply has_nul_iff in H. rewrite H in Hf. discriminate.
Qed.
Lemma gs_init_ok s g : gs_init s g -> gs_holds g s.
Proof.
  intros [c|n c1 c2|s' cap c g' Hu Hc H|d c].
  - repeat split; try apply good_nil. cbn [gs_new g_cap]. unfold with_cap. rewrite blen_nil. lia.
  - repeat split; try apply good_nil. cbn [gs_with_capacity gs_new g_cap]. unfold with_cap.
    rewrite blen_nil. lia.
  - unfold gs_try_from in H. destruct (has_nul s') eqn:E; [discriminate|]. injection H as <-.
    repeat split; cbn [g_data g_cap]; auto.
    + rewrite <- has_nul_iff. congruence.
    + apply grow_to_ge.
  - rewrite <- to_str_spec. repeat split; try apply to_str_good.
    cbn [g_cap str_to_owned gs_from_str_unchecked]. unfold with_cap. lia.
Qed.
Lemma run_gs_op_ok g s o : gs_holds g s -> gs_op_wf o ->
  let '(g', r) := run_gs_op g o in let '(s', r') := plain_gs_op s o in
  r = r' /\ gs_holds g' s'.
Proof.
  intros (Hd & Hg & Hc) Hw. destruct o as [t c1 c2 c3|c|n c]; cbn [run_gs_op plain_gs_op gs_op_wf] in *.
  - unfold gs_try_push_str. rewrite sp_nul_free_spec.
    destruct (has_nul t) eqn:E; cbn [negb].
    + split; [reflexivity|]. repeat split; auto; apply Hg.
    + split; [reflexivity|]. unfold pop. rewrite Hd, removelast_last.
      split; [reflexivity|].
      split; [apply good_app; auto; rewrite sp_nul_free_spec, E; reflexivity|].
      cbn [g_cap].
      match goal with |- _ <= grow_to ?x ?y ?z => pose proof (grow_to_ge x y z) as [H _] end.
      rewrite !blen_app, blen_cons, blen_nil in *. lia.
  - split; [reflexivity|]. split; [reflexivity|]. split; [apply good_nil|].
    cbn [g_cap gs_clear]. apply grow_to_ge.
  - split; [reflexivity|]. split; [exact Hd|]. split; [exact Hg|].
    cbn [g_cap gs_reserve]. pose proof (grow_to_ge (g_cap g) (blen (g_data g) + n) c). lia.
Qed.
Lemma run_gs_ok os : forall g s, gs_holds g s -> Forall gs_op_wf os ->
  let '(g', r) := run_gs g os in let '(s', r') := plain_gs s os in r = r' /\ gs_holds g' s'.
Proof.
  induction os as [|o os IH]; intros g s Hh Hos; cbn [run_gs plain_gs]; [auto|].
  inversion Hos as [|? ? Ho Hos']; subst. pose proof (run_gs_op_ok g s o Hh Ho) as H.
  destruct (run_gs_op g o) as [g1 r1], (plain_gs_op s o) as [s1 r1']. destruct H as [-> Hh1].
  specialize (IH g1 s1 Hh1 Hos'). destruct (run_gs g1 os) as [g2 r2], (plain_gs s1 os) as [s2 r2'].
  destruct IH as [-> IH]. auto.
Qed.

Lemma removelast_snoc (s : list byte) b : removelast (s ++ [b]) = s.
Proof. apply removelast_last. Qed.
Lemma gs_observe h g s : gs_holds g s ->
  gs_as_str h g = Ok s /\ gs_len h g = Ok (blen s) /\ gs_is_empty h g = Ok (blen s =? 0) /\
  gs_into_string g = s /\ gs_into_cstring g = Ok s /\
  gs_deref g = s ++ [x00] /\ to_str (gs_deref g) = s /\ is_utf8 (g_data g).
Proof.
  intros (Hd & Hg & Hc).
  assert (Hl : usub h (blen (g_data g)) 1 = Ok (blen s)).
  { rewrite Hd, blen_app, blen_cons, blen_nil. rewrite usub_ok by lia. f_equal. lia. }
  repeat split.
  - unfold gs_as_str. rewrite Hl. cbn [bind]. rewrite Hd.
    assert (Hcb : char_boundary (s ++ [x00]) (blen s) = true).
    { unfold char_boundary.
      replace (N.to_nat (blen s)) with (length s) by (unfold blen; lia).
      rewrite nth_error_app2 by lia. rewrite Nat.sub_diag. cbn [nth_error].
      change (negb (cont x00)) with true. apply orb_true_r. }
    rewrite Hcb, blen_app. replace (blen s <=? blen s + blen [x00]) with true by (symmetry; apply N.leb_le; lia).
    cbn [andb]. now rewrite take_app_eq.
  - exact Hl.
  - unfold gs_is_empty, gs_len. rewrite Hl. reflexivity.
  - unfold gs_into_string, pop. rewrite Hd. apply removelast_last.
  - unfold gs_into_cstring. rewrite Hd, rev_app_distr. cbn [rev app].
    replace (has_nul (rev s)) with false.
    + now rewrite rev_involutive.
    + symmetry. destruct (has_nul (rev s)) eqn:E; [|reflexivity]. apply has_nul_iff in E.
      apply in_rev in E. destruct Hg. tauto.
  - exact Hd.
  - unfold gs_deref. rewrite Hd. now apply to_str_normal.
  - rewrite Hd. apply valid_utf8_ok. apply valid_utf8_app; [apply valid_utf8_ok; apply Hg|reflexivity].
Qed.

Lemma gs_history h s0 g0 os : gs_init s0 g0 -> Forall gs_op_wf os ->
  let '(g, r) := run_gs g0 os in
  let '(s, r') := plain_gs s0 os in
  r = r' /\ good_string s /\ g_data g = s ++ [x00] /\ is_utf8 (g_data g) /\
  gs_as_str h g = Ok s /\ gs_len h g = Ok (len s) /\ gs_is_empty h g = Ok (len s =? 0) /\
  gs_into_string g = s /\ gs_into_cstring g = Ok s /\ to_str (gs_deref g) = s.
Proof.
  intros Hi Hos. pose proof (run_gs_ok os g0 s0 (gs_init_ok _ _ Hi) Hos) as H.
  destruct (run_gs g0 os) as [g r], (plain_gs s0 os) as [s r']. destruct H as [-> Hh].
  destruct (gs_observe h g s Hh) as (H1 & H2 & H3 & H4 & H5 & H6 & H7 & H8).
  destruct Hh as (Hd & Hg & _). repeat split; auto; apply Hg.
Qed.
Lemma gs_try_from_nul s cap c : gs_try_from s cap c = None <-> In x00 s.
Proof.
  unfold gs_try_from. rewrite <- has_nul_iff. destruct (has_nul s); split; congruence.
Qed.

(** C36 *)
Lemma bytes_cmp_nul s t : ~ In x00 s -> ~ In x00 t ->
  bytes_cmp (s ++ [x00]) (t ++ [x00]) = bytes_cmp s t.
Proof.
  revert t. induction s as [|a s IH]; intros [|b t] Hs Ht; cbn [app bytes_cmp] in *.
  - reflexivity.
  - destruct (N.compare_spec (b2n x00) (b2n b)) as [E|E|E].
    + exfalso. apply Ht. left. apply b2n_inj. now rewrite <- E.
    + reflexivity.
    + cbn in E. lia.
  - destruct (N.compare_spec (b2n a) (b2n x00)) as [E|E|E].
    + exfalso. apply Hs. left. apply b2n_inj. now rewrite E.
    + cbn in E. lia.
    + reflexivity.
  - rewrite IH by (cbn in *; tauto). reflexivity.
Qed.
Lemma bytes_cmp_spec s t :
  match bytes_cmp s t with Eq => s = t | Lt => sp_lt s t | Gt => sp_lt t s end.
Proof.
  revert t. induction s as [|a s IH]; intros [|b t]; cbn [bytes_cmp]; try constructor.
  specialize (IH t). destruct (N.compare_spec (b2n a) (b2n b)) as [E|E|E].
  - apply b2n_inj in E. subst b. destruct (bytes_cmp s t); [congruence| |]; now constructor.
  - now constructor.
  - now constructor.
Qed.
Lemma gs_cmp_spec g1 g2 s1 s2 : good_string s1 -> good_string s2 ->
  g_data g1 = s1 ++ [x00] -> g_data g2 = s2 ++ [x00] ->
  match gs_cmp g1 g2 with Eq => s1 = s2 | Lt => sp_lt s1 s2 | Gt => sp_lt s2 s1 end.
Proof.
  intros [_ H1] [_ H2] E1 E2. unfold gs_cmp. rewrite E1, E2, bytes_cmp_nul by assumption.
  apply bytes_cmp_spec.
Qed.
Lemma gs_eq_spec g1 g2 s1 s2 : good_string s1 -> good_string s2 ->
  g_data g1 = s1 ++ [x00] -> g_data g2 = s2 ++ [x00] ->
  (gs_eq g1 g2 = true <-> s1 = s2) /\ str_eq (gs_deref g1) (gs_deref g2) = gs_eq g1 g2.
Proof.
  intros H1 H2 E1 E2. unfold gs_eq, gs_deref. rewrite E1, E2.
  assert (Hi : bytes_eqb (s1 ++ [x00]) (s2 ++ [x00]) = true <-> s1 = s2).
  { rewrite bytes_eqb_eq. split; [|congruence]. intros H. now apply app_inj_tail in H. }
  split; [exact Hi|]. unfold str_eq. rewrite !nonconf_app.
  destruct (to_str_normal s1 H1) as [-> _]. destruct (to_str_normal s2 H2) as [-> _].
  rewrite orb_diag. destruct (bytes_eqb s1 s2) eqn:E.
  - apply bytes_eqb_eq in E. apply Hi in E. now rewrite E.
  - destruct (bytes_eqb (s1 ++ [x00]) _) eqn:E'; [|reflexivity].
    destruct Hi as [Hi _]. specialize (Hi eq_refl). apply bytes_eqb_neq in E. congruence.
Qed.

(** C37 *)
Lemma with_capacity_too_small : exists h n c1 c2,
  gs_capacity h (gs_with_capacity n c1 c2) = Ok 0 /\ 0 < n.
Proof. exists (Host false true true 0 0), 100, 0, 0. split; [reflexivity|lia]. Qed.
Lemma with_capacity_is_new n c1 c2 : gs_with_capacity n c1 c2 = gs_new c2.
Proof. reflexivity. Qed.
Lemma reserve_ok h g s n c : gs_holds g s ->
  exists k, gs_capacity h (gs_reserve g n c) = Ok k /\ blen s + n <= k.
Proof.
  intros (Hd & _ & Hc). unfold gs_capacity, gs_reserve. cbn [g_cap].
  pose proof (grow_to_ge (g_cap g) (blen (g_data g) + n) c) as [H1 H2].
  rewrite Hd, blen_app, blen_cons, blen_nil in *.
  rewrite usub_ok by lia. eexists. split; [reflexivity|]. lia.
Qed.
Lemma reserve_history h s0 g0 os n c : gs_init s0 g0 -> Forall gs_op_wf os ->
  exists k, gs_capacity h (gs_reserve (fst (run_gs g0 os)) n c) = Ok k /\
            len (fst (plain_gs s0 os)) + n <= k.
Proof.
  intros Hi Hos. pose proof (run_gs_ok os g0 s0 (gs_init_ok _ _ Hi) Hos) as H.
  destruct (run_gs g0 os) as [g r], (plain_gs s0 os) as [s r']. destruct H as [_ Hh].
  now apply reserve_ok.
Qed.
