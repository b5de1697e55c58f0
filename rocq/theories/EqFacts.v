(** [==] compares the values that reading gives. *)
From Verif Require Import Base Types Layout AlignedBytes Strs Spec Deser Histories
  BaseFacts TypesFacts LayoutFacts AlignedFacts Utf8Facts DeserFacts ArrayFacts StructFacts ReadFacts AccessFacts ReadClaims.
From Coq Require Import Lia ZifyBool ZifyNat ZifyN.
Ltac Zify.zify_post_hook ::= Z.div_mod_to_equations.

(** ** Leaves *)
Lemma sp_beq_eqb a b : sp_beq a b = bytes_eqb a b.
Proof.
  unfold sp_beq. destruct (list_eq_dec _ a b) as [->|H]; [symmetry; apply bytes_eqb_refl|].
  destruct (bytes_eqb a b) eqn:E; [|reflexivity]. apply bytes_eqb_eq in E. contradiction.
Qed.
Lemma signed_eqb bits a b : 0 < bits -> a < 2 ^ bits -> b < 2 ^ bits ->
  (signed bits a =? signed bits b)%Z = (a =? b).
Proof.
  intros H0 Ha Hb. rewrite !signed_ok by assumption. unfold sp_signed.
  assert (H2 : (2 ^ Z.of_N bits)%Z = Z.of_N (2 ^ bits)) by now rewrite N2Z.inj_pow.
  rewrite H2. clear H2. remember (2 ^ bits) as P. remember (2 ^ (bits - 1)) as Q. clear HeqP HeqQ.
  destruct (a <? Q) eqn:E1, (b <? Q) eqn:E2; lia.
Qed.
Lemma str_eq_values a b : str_eq a b = sp_beq (to_str a) (to_str b).
Proof.
  unfold str_eq. rewrite sp_beq_eqb. destruct (bytes_eqb (as_bytes_non_conformant a) _) eqn:E; [|reflexivity].
  apply bytes_eqb_eq in E. unfold to_str. rewrite E. symmetry. apply bytes_eqb_refl.
Qed.
Lemma land_low a : N.land a 0x7FFFFFFFFFFFFFFF = a mod 2 ^ 63.
Proof. change 0x7FFFFFFFFFFFFFFF with (N.ones 63). apply N.land_ones. Qed.
Lemma f64_eq_spec a b : f64_eq a b = sp_feq a b.
Proof.
  unfold f64_eq, sp_feq, f64_is_nan, sp_nan. rewrite !land_low.
  change (2047 * 2 ^ 52) with 0x7FF0000000000000.
  destruct (_ <? a mod 2 ^ 63); cbn [orb negb andb]; [reflexivity|].
  destruct (_ <? b mod 2 ^ 63); cbn [orb negb andb]; [reflexivity|].
  f_equal. destruct ((a mod 2 ^ 63 =? 0) && (b mod 2 ^ 63 =? 0)) eqn:E.
  - apply andb_true_iff in E as [E1 E2]. apply N.eqb_eq in E1, E2. apply N.eqb_eq.
    rewrite <- N.land_ones in *. rewrite N.land_lor_distr_l, E1, E2. reflexivity.
  - destruct (N.lor a b mod 2 ^ 63 =? 0) eqn:E3; [|reflexivity]. apply N.eqb_eq in E3. rewrite <- !N.land_ones in *.
    rewrite N.land_lor_distr_l in E3. apply N.lor_eq_0_iff in E3 as [E1 E2]. rewrite E1, E2 in E. discriminate.
Qed.

(** ** Lists *)
Fixpoint all2 (xs ys : list value) : bool :=
  match xs, ys with
  | [], [] => true
  | x :: xs, y :: ys => sp_veq x y && all2 xs ys
  | _, _ => false
  end.
Lemma veq_array xs ys : sp_veq (VArray xs) (VArray ys) = all2 xs ys.
Proof. cbn [sp_veq]. revert ys. induction xs as [|x xs IH]; intros [|y ys]; cbn [all2]; congruence. Qed.
Lemma veq_tuple xs ys : sp_veq (VTuple xs) (VTuple ys) = all2 xs ys.
Proof. cbn [sp_veq]. revert ys. induction xs as [|x xs IH]; intros [|y ys]; cbn [all2]; congruence. Qed.
Lemma all2_len xs : forall ys, length xs <> length ys -> all2 xs ys = false.
Proof.
  induction xs as [|x xs IH]; intros [|y ys] H; cbn [all2 length] in *; try reflexivity; try lia.
  rewrite IH by lia. apply andb_false_r.
Qed.
Lemma mapM_length {A B} (f : A -> res B) l ys : mapM f l = Ok ys -> length ys = length l.
Proof.
  revert ys. induction l as [|a l IH]; intros ys E; cbn [mapM] in E; [now inversion E|].
  destruct (f a); [|discriminate]. cbn [bind] in E. destruct (mapM f l); [|discriminate]. cbn [bind] in E.
  inversion E. cbn [length]. f_equal. now apply IH.
Qed.

Definition eq_good (h : host) (x : ty) (a b : slice) : Prop :=
  forall va vb, read h x a = Ok va -> read h x b = Ok vb -> gv_eq h x a b = Ok (sp_veq va vb).
Lemma eq_all_values h x : forall rs qs vs ws,
  (forall r q, In r rs -> In q qs -> eq_good h x r q) ->
  mapM (read h x) rs = Ok vs -> mapM (read h x) qs = Ok ws ->
  eq_all (gv_eq h x) rs qs = Ok (all2 vs ws).
Proof.
  induction rs as [|r rs IH]; intros [|q qs] vs ws Hg E1 E2; cbn [mapM eq_all] in *;
    try (inversion E1; subst); try (inversion E2; subst); try reflexivity.
  - destruct (read h x q); [|discriminate]. cbn [bind] in E2. destruct (mapM (read h x) qs); [|discriminate].
    cbn [bind] in E2. inversion E2; subst. reflexivity.
  - destruct (read h x r); [|discriminate]. cbn [bind] in E1. destruct (mapM (read h x) rs); [|discriminate].
    cbn [bind] in E1. inversion E1; subst. reflexivity.
  - destruct (read h x r) as [v|] eqn:Er; [|discriminate]. cbn [bind] in E1.
    destruct (mapM (read h x) rs) as [vs'|] eqn:Ers; [|discriminate]. cbn [bind] in E1. inversion E1; subst.
    destruct (read h x q) as [w|] eqn:Eq; [|discriminate]. cbn [bind] in E2.
    destruct (mapM (read h x) qs) as [ws'|] eqn:Eqs; [|discriminate]. cbn [bind] in E2. inversion E2; subst.
    rewrite (Hg r q (or_introl eq_refl) (or_introl eq_refl) v w Er Eq). cbn [bind all2].
    destruct (sp_veq v w); [|reflexivity]. cbn [andb]. apply IH; auto. intros. apply Hg; now right.
Qed.

Lemma nfwa_eq_go_values h x eqx a b : aligned (align_of x) a -> aligned (align_of x) b ->
  slen a < usize_lim -> slen b < usize_lim -> arr_n (s_data a) = arr_n (s_data b) ->
  forall k i fuel rs qs, i + N.of_nat k = arr_n (s_data a) -> (k < fuel)%nat ->
  mapM (elem_at h x a) (indices i k) = Ok rs -> mapM (elem_at h x b) (indices i k) = Ok qs ->
  nfwa_eq_go h x eqx fuel (iter_at a i) (iter_at b i) = eq_all eqx rs qs.
Proof.
  intros Ha Hb Hla Hlb Hn. induction k as [|k IH]; intros i fuel rs qs Hi Hf E1 E2; (destruct fuel as [|fuel]; [lia|]);
    cbn [nfwa_eq_go].
  - cbn in E1, E2. inversion E1; inversion E2; subst. replace i with (arr_n (s_data a)) by lia.
    rewrite nfwa_next_end. reflexivity.
  - rewrite indices_S in E1, E2. cbn [mapM] in E1, E2.
    rewrite nfwa_next_ok by (auto; lia). rewrite (nfwa_next_ok h x b) by (auto; lia).
    destruct (elem_at h x a i) as [r|]; [|discriminate]. destruct (elem_at h x b i) as [q|]; [|discriminate].
    cbn [bind] in *. destruct (mapM (elem_at h x a) _) as [rs'|] eqn:F1; [|discriminate].
    destruct (mapM (elem_at h x b) _) as [qs'|] eqn:F2; [|discriminate]. cbn [bind] in *.
    inversion E1; inversion E2; subst. cbn [bind fst snd eq_all].
    destruct (eqx r q) as [[|]|]; cbn [bind]; try reflexivity. apply IH; auto; lia.
Qed.

Lemma mapM_combine_eq h t : is_struct t -> forall ra rb, length ra = length (children_of t) -> length rb = length (children_of t) ->
  forall va vb, 
  Forall (fun p => eq_good h (fst p) (fst (snd p)) (snd (snd p))) (combine (children_of t) (combine ra rb)) ->
  mapM (fun p => read h (fst p) (snd p)) (combine (children_of t) ra) = Ok va ->
  mapM (fun p => read h (fst p) (snd p)) (combine (children_of t) rb) = Ok vb ->
  forall a b, to_tuple h t a = Ok ra -> to_tuple h t b = Ok rb ->
  gv_eq h t a b = Ok (all2 va vb).
Proof.
  intros Hs ra rb Hla Hlb va vb HF E1 E2 a b Ta Tb.
  destruct t as [| | | | | | | | | | | | |x|x|ts|k v]; cbn [is_struct] in Hs; try tauto; cbn [gv_eq children_of] in *;
    rewrite Ta, Tb; cbn [bind].
  - clear Ta Tb Hs a b. revert ra rb Hla Hlb va vb HF E1 E2.
    induction ts as [|t ts IH]; intros [|x ra] [|y rb] Hla Hlb va vb HF E1 E2; cbn [length] in *; try lia;
      cbn [combine mapM fst snd] in *.
    + now inversion E1; inversion E2; subst.
    + destruct (read h t x) as [v|] eqn:Ex; [|discriminate]. destruct (read h t y) as [w|] eqn:Ey; [|discriminate].
      cbn [bind] in *. destruct (mapM _ (combine ts ra)) as [vs|] eqn:F1; [|discriminate].
      destruct (mapM _ (combine ts rb)) as [ws|] eqn:F2; [|discriminate]. cbn [bind] in *.
      inversion E1; inversion E2; subst. inversion HF; subst. cbn [fst snd] in *.
      rewrite (H1 v w Ex Ey). cbn [bind all2]. destruct (sp_veq v w); [|reflexivity]. cbn [andb].
      apply IH; auto; lia.
  - destruct ra as [|r1 [|r2 [|r3 ra]]]; cbn [length] in Hla; try lia.
    destruct rb as [|q1 [|q2 [|q3 rb]]]; cbn [length] in Hlb; try lia. cbn [combine mapM fst snd] in *.
    destruct (read h k r1) as [v1|] eqn:X1; [|discriminate]. destruct (read h v r2) as [v2|] eqn:X2; [|discriminate].
    destruct (read h k q1) as [w1|] eqn:Y1; [|discriminate]. destruct (read h v q2) as [w2|] eqn:Y2; [|discriminate].
    cbn [bind] in *. inversion E1; inversion E2; subst. inversion HF as [|p l G1 G2]; subst. inversion G2 as [|p' l' G3 G4]; subst.
    cbn [fst snd] in *. rewrite (G1 v1 w1 X1 Y1). cbn [bind all2]. destruct (sp_veq v1 w1); [|reflexivity].
    rewrite (G3 v2 w2 X2 Y2). cbn [andb]. now rewrite andb_true_r.
Qed.

(** ** The theorem *)
Lemma read_child_ok h s c r : placed h c s r -> ref_ok c r -> slen s < 2 ^ 63 -> short c r.
Proof.
  intros Hp Hr Hl. unfold short. destruct (is_fixed c) eqn:E; [now left|right].
  pose proof (placed_len h c s r Hp Hr E). lia.
Qed.
Lemma child_short h t s c r : is_struct t -> In c (children_of t) -> short t s -> placed h c s r -> ref_ok c r -> short c r.
Proof.
  intros Hs Hc [Hf|Hl] Hp Hr; [|eapply read_child_ok; eauto]. left.
  unfold is_fixed in Hf. destruct (size_of t) as [n|] eqn:En; [|discriminate].
  pose proof (fixed_children t n Hs En) as HA. now apply (proj1 (Forall_forall _ _) HA).
Qed.
Lemma eq_exact h t : readable t -> forall a b, ref_ok t a -> ref_ok t b -> short t a -> short t b -> eq_good h t a b.
Proof.
  induction t as [t Hns IH|t Hs IH] using ty_struct_ind; intros Hrd a b Hra Hrb Hsa Hsb va vb Ea Eb.
  - destruct t as [| | | | | | | | | | | | |x|x|ts|k v]; cbn [is_struct] in Hns; try tauto;
      try (pose proof (proj2 Hra) as Ga; pose proof (proj2 Hrb) as Gb; unfold size_good in Ga, Gb; cbn [size_of] in Ga, Gb;
           unfold slen in Ga, Gb; pose proof (of_ne_bound' h _ _ Ga) as Ba; pose proof (of_ne_bound' h _ _ Gb) as Bb;
           cbn [read] in Ea, Eb; inversion Ea; inversion Eb; subst; cbn [gv_eq sp_veq]; f_equal;
           try (symmetry; apply signed_eqb; [reflexivity|assumption|assumption]); try lia; fail).
    + (* double *) cbn [read] in Ea, Eb. inversion Ea; inversion Eb; subst. cbn [gv_eq sp_veq]. now rewrite f64_eq_spec.
    + cbn [read] in Ea, Eb. inversion Ea; inversion Eb; subst. cbn [gv_eq sp_veq]. now rewrite str_eq_values.
    + cbn [read] in Ea, Eb. inversion Ea; inversion Eb; subst. cbn [gv_eq sp_veq]. now rewrite str_eq_values.
    + cbn [read] in Ea, Eb. inversion Ea; inversion Eb; subst. cbn [gv_eq sp_veq]. now rewrite str_eq_values.
    + (* variant *) cbn [read gv_eq] in *. destruct (variant_split h a) as [p|]; [|discriminate].
      destruct (variant_split h b) as [q|]; [|discriminate]. cbn [bind] in *. inversion Ea; inversion Eb; subst.
      cbn [sp_veq]. now rewrite !sp_beq_eqb.
    + (* array *) pose proof (readable_part _ x (or_introl eq_refl) Hrd) as Hx. pose proof Hx as [Hm _].
      destruct Hsa as [Hf|Hla]; [discriminate|]. destruct Hsb as [Hf|Hlb]; [discriminate|].
      pose proof Hra as [Haa _]. pose proof Hrb as [Hab _]. change (align_of (TA x)) with (align_of x) in Haa, Hab.
      assert (Hgood : forall r q, ref_ok x r -> ref_ok x q -> placed h x a r -> placed h x b q -> eq_good h x r q).
      { intros r q R1 R2 P1 P2. apply IH; auto; eapply read_child_ok; eauto. }
      cbn [read] in Ea, Eb. cbn [gv_eq]. unfold array_refs in Ea, Eb. destruct (size_of x) as [n|] eqn:En.
      * rewrite (mem_layout_ok x n) in * by assumption. cbn [bind] in Ea, Eb.
        destruct (mapM (read h x) (slice_elems n a)) as [vs|] eqn:E1; [|discriminate].
        destruct (mapM (read h x) (slice_elems n b)) as [ws|] eqn:E2; [|discriminate]. cbn [bind] in Ea, Eb.
        inversion Ea; inversion Eb; subst. rewrite veq_array.
        destruct (slice_elems_ok x n a En Hra) as [_ Fa]. destruct (slice_elems_ok x n b En Hrb) as [_ Fb].
        rewrite Forall_forall in Fa, Fb.
        assert (Ee : eq_all (gv_eq h x) (slice_elems n a) (slice_elems n b) = Ok (all2 vs ws)).
        { apply eq_all_values; auto. intros r q Hr Hq. destruct (Fa r Hr), (Fb q Hq). apply Hgood; auto; now left. }
        destruct (slen a / n =? slen b / n) eqn:El; [exact Ee|].
        rewrite all2_len; [reflexivity|]. apply mapM_length in E1, E2. rewrite E1, E2. unfold slice_elems.
        rewrite !map_length, !seq_length. lia.
      * rewrite !nfwa_items_ok in * by (auto; unfold usize_lim; lia).
        destruct (mapM (elem_at h x a) _) as [rs|] eqn:F1 in Ea; [|discriminate].
        destruct (mapM (elem_at h x b) _) as [qs|] eqn:F2 in Eb; [|discriminate]. cbn [bind] in Ea, Eb.
        destruct (mapM (read h x) rs) as [vs|] eqn:E1; [|discriminate].
        destruct (mapM (read h x) qs) as [ws|] eqn:E2; [|discriminate]. cbn [bind] in Ea, Eb.
        inversion Ea; inversion Eb; subst. rewrite veq_array. unfold nfwa_eq.
        rewrite !nfwa_len_ok by (unfold usize_lim; lia). cbn [bind].
        destruct (arr_n (s_data a) =? arr_n (s_data b)) eqn:El.
        -- apply N.eqb_eq in El. rewrite !nfwa_into_iter_ok by (auto; unfold usize_lim; lia). cbn [bind].
           rewrite <- El in F2.
           rewrite (nfwa_eq_go_values h x (gv_eq h x) a b Haa Hab) with (k := N.to_nat (arr_n (s_data a))) (rs := rs) (qs := qs);
             auto; try (unfold usize_lim; lia).
           ++ pose proof (mapM_elem_safe h x a (indices 0 (N.to_nat (arr_n (s_data a)))) Hm Haa En) as Ga. rewrite F1 in Ga.
              pose proof (mapM_elem_safe h x b (indices 0 (N.to_nat (arr_n (s_data a)))) Hm Hab En) as Gb. rewrite F2 in Gb.
              rewrite Forall_forall in Ga, Gb. apply eq_all_values; auto.
              intros r q Hr Hq. destruct (Ga r Hr), (Gb q Hq). apply Hgood; auto.
           ++ pose proof (arr_n_le (s_data a)) as H. unfold blen in H. lia.
        -- rewrite all2_len; [reflexivity|]. apply mapM_length in E1, E2, F1, F2. rewrite E1, E2, F1, F2.
           unfold indices. rewrite !map_length, !seq_length. lia.
    + (* maybe *) pose proof (readable_part _ x (or_intror eq_refl) Hrd) as Hx.
      pose proof (access_safe h (TM x) a AcOption Hrd Hra Hsa I) as Aa.
      pose proof (access_safe h (TM x) b AcOption Hrd Hrb Hsb I) as Ab. cbn [run_access] in Aa, Ab.
      destruct Hsa as [Hf|Hla]; [discriminate|]. destruct Hsb as [Hf|Hlb]; [discriminate|].
      cbn [read gv_eq] in *. destruct (to_option h x a) as [[r|]|]; [| |discriminate];
        (destruct (to_option h x b) as [[q|]|]; [| |discriminate]); cbn [bind] in *.
      * destruct (read h x r) as [v|] eqn:Er; [|discriminate]. destruct (read h x q) as [w|] eqn:Eq; [|discriminate].
        cbn [bind] in *. inversion Ea; inversion Eb; subst. cbn [sp_veq].
        destruct Aa as (_ & A1 & A2 & _). destruct Ab as (_ & B1 & B2 & _).
        apply IH; auto; eapply read_child_ok; eauto.
      * destruct (read h x r); [|discriminate]. cbn [bind] in *. now inversion Ea; inversion Eb; subst.
      * destruct (read h x q); [|discriminate]. cbn [bind] in *. now inversion Ea; inversion Eb; subst.
      * now inversion Ea; inversion Eb; subst.
  - destruct (to_tuple_short h t a Hs Hrd Hra Hsa) as [(ra & Ta & Fa)|(Ta & _)].
    2:{ destruct t; try contradiction; cbn [read] in Ea; rewrite Ta in Ea; discriminate. }
    destruct (to_tuple_short h t b Hs Hrd Hrb Hsb) as [(rb & Tb & Fb)|(Tb & _)].
    2:{ destruct t; try contradiction; cbn [read] in Eb; rewrite Tb in Eb; discriminate. }
    pose proof (Forall2_length _ _ _ Fa) as La. pose proof (Forall2_length _ _ _ Fb) as Lb.
    rewrite (read_struct h t a ra) in Ea by auto. rewrite (read_struct h t b rb) in Eb by auto.
    destruct (mapM _ (combine (children_of t) ra)) as [vs|] eqn:E1; [|discriminate].
    destruct (mapM _ (combine (children_of t) rb)) as [ws|] eqn:E2; [|discriminate]. cbn [bind] in *.
    inversion Ea; inversion Eb; subst. rewrite veq_tuple.
    apply (mapM_combine_eq h t Hs ra rb) with (a := a) (b := b); auto.
    apply Forall_forall. intros [c [r q]] Hin. cbn [fst snd].
    apply In_nth_error in Hin as [k Hk]. rewrite !nth_error_combine in Hk.
    destruct (nth_error (children_of t) k) as [c'|] eqn:K1; [|discriminate].
    destruct (nth_error ra k) as [r'|] eqn:K2; [|discriminate].
    destruct (nth_error rb k) as [q'|] eqn:K3; [|discriminate]. injection Hk as -> -> ->.
    pose proof (Forall2_nth _ _ _ Fa k c r K1 K2) as [A1 A2].
    pose proof (Forall2_nth _ _ _ Fb k c q K1 K3) as [B1 B2].
    assert (Hc : In c (children_of t)) by (eapply nth_error_In; eauto).
    rewrite Forall_forall in IH. apply IH; auto.
    + exact (readable_child t c Hs Hrd Hc).
    + exact (child_short h t a c r Hs Hc Hsa A2 A1).
    + exact (child_short h t b c q Hs Hc Hsb B2 B1).
Qed.

(** ** Comparing never does worse than panic *)
Lemma bad_max h t n m c : bad h t n c -> bad h t (N.max n m) c.
Proof. apply bad_child; [auto|lia]. Qed.
Lemma bad_max_r h t n m c : bad h t m c -> bad h t (N.max n m) c.
Proof. apply bad_child; [auto|lia]. Qed.
Lemma child_eq h t c a b r q : (sp_tame t = true -> sp_tame c = true) -> readable c ->
  ref_ok c r -> placed h c a r -> ref_ok c q -> placed h c b q ->
  (slen a < 2 ^ 63 /\ slen b < 2 ^ 63) \/ is_fixed c = true ->
  (short c r -> short c q -> good_or_bad h c (N.max (slen r) (slen q)) (gv_eq h c r q)) ->
  good_or_bad h t (N.max (slen a) (slen b)) (gv_eq h c r q).
Proof.
  intros Ht Hc Hr Hpr Hq Hpq Hl H. destruct (is_fixed c) eqn:Ef.
  - destruct (fixed_read h c r Ef Hc Hr) as [v Ev]. destruct (fixed_read h c q Ef Hc Hq) as [w Ew].
    rewrite (eq_exact h c Hc r q Hr Hq (or_introl Ef) (or_introl Ef) v w Ev Ew). exact I.
  - destruct Hl as [[La Lb]|Hl]; [|congruence].
    pose proof (placed_len h c a r Hpr Hr Ef). pose proof (placed_len h c b q Hpq Hq Ef).
    assert (S1 : short c r) by (right; lia). assert (S2 : short c q) by (right; lia). specialize (H S1 S2).
    destruct (gv_eq h c r q); [exact I|].
    apply (bad_child h t c (N.max (slen a) (slen b)) (N.max (slen r) (slen q))); auto. lia.
Qed.
Lemma eq_all_good h t n e : forall rs qs, (forall r q, In r rs -> In q qs -> good_or_bad h t n (e r q)) ->
  good_or_bad h t n (eq_all e rs qs).
Proof.
  induction rs as [|r rs IH]; intros [|q qs] H; cbn [eq_all]; try exact I.
  pose proof (H r q (or_introl eq_refl) (or_introl eq_refl)) as H1.
  destruct (e r q) as [[|]|]; cbn [bind]; [|exact I|exact H1]. apply IH. intros. apply H; now right.
Qed.
Lemma nfwa_eq_go_good h x e a b : aligned (align_of x) a -> aligned (align_of x) b -> macro_ok x = true -> size_of x = None ->
  slen a < usize_lim -> slen b < usize_lim -> arr_n (s_data a) = arr_n (s_data b) ->
  (forall r q, good_elem h (TA x) x a r -> good_elem h (TA x) x b q ->
     good_or_bad h (TA x) (N.max (slen a) (slen b)) (e r q)) ->
  forall k i fuel, i + N.of_nat k = arr_n (s_data a) -> (k < fuel)%nat ->
  good_or_bad h (TA x) (N.max (slen a) (slen b)) (nfwa_eq_go h x e fuel (iter_at a i) (iter_at b i)).
Proof.
  intros Ha Hb Hm Hnn Hla Hlb Hn He. induction k as [|k IH]; intros i fuel Hi Hf; (destruct fuel as [|fuel]; [lia|]);
    cbn [nfwa_eq_go].
  - replace i with (arr_n (s_data a)) by lia. rewrite nfwa_next_end. exact I.
  - rewrite nfwa_next_ok by (auto; lia). rewrite (nfwa_next_ok h x b) by (auto; lia).
    pose proof (elem_at_safe h x a i Hm Ha Hnn) as Sa. pose proof (elem_at_safe h x b i Hm Hb Hnn) as Sb.
    destruct (elem_at h x a i) as [r|]; cbn [bind fst snd]; [|apply bad_max; exact Sa].
    destruct (elem_at h x b i) as [q|]; cbn [bind fst snd]; [|apply bad_max_r; exact Sb].
    pose proof (He r q Sa Sb) as H. destruct (e r q) as [[|]|]; cbn [bind]; [|exact I|exact H].
    apply IH; lia.
Qed.
Lemma struct_eq_good h t n : is_struct t -> forall ra rb,
  length ra = length (children_of t) -> length rb = length (children_of t) ->
  Forall (fun p => good_or_bad h t n (gv_eq h (fst p) (fst (snd p)) (snd (snd p)))) (combine (children_of t) (combine ra rb)) ->
  forall a b, to_tuple h t a = Ok ra -> to_tuple h t b = Ok rb ->
  good_or_bad h t n (gv_eq h t a b).
Proof.
  intros Hs ra rb Hla Hlb HF a b Ta Tb. generalize dependent HF. 
  destruct t as [| | | | | | | | | | | | |x|x|ts|k v]; cbn [is_struct] in Hs; try tauto; cbn [gv_eq children_of] in *;
    rewrite Ta, Tb; cbn [bind]; clear Ta Tb.
  - generalize (TTuple ts) as T. intros T. revert ra rb Hla Hlb.
    induction ts as [|t ts IH]; intros [|x ra] [|y rb] Hla Hlb HF; cbn [length] in *; try lia; cbn [combine] in HF.
    + exact I.
    + inversion HF as [|p l G1 G2]; subst. cbn [fst snd] in G1.
      destruct (gv_eq h t x y) as [[|]|]; cbn [bind]; [|exact I|exact G1]. apply IH; auto; lia.
  - intros HF. destruct ra as [|r1 [|r2 [|r3 ra]]]; cbn [length] in Hla; try lia.
    destruct rb as [|q1 [|q2 [|q3 rb]]]; cbn [length] in Hlb; try lia. cbn [combine] in HF.
    inversion HF as [|p l G1 G2]; subst. inversion G2 as [|p' l' G3 G4]; subst. cbn [fst snd] in *.
    destruct (gv_eq h k r1 q1) as [[|]|]; cbn [bind]; [exact G3|exact I|exact G1].
Qed.
Lemma eq_safe h t : readable t -> forall a b, ref_ok t a -> ref_ok t b -> short t a -> short t b ->
  good_or_bad h t (N.max (slen a) (slen b)) (gv_eq h t a b).
Proof.
  induction t as [t Hns IH|t Hs IH] using ty_struct_ind; intros Hrd a b Hra Hrb Hsa Hsb.
  - destruct t as [| | | | | | | | | | | | |x|x|ts|k v]; cbn [is_struct] in Hns; try tauto; try exact I.
    + cbn [gv_eq]. destruct Hra as [Ha _], Hrb as [Hb _].
      destruct (variant_split_ok h a Ha) as (ts & dat & -> & _).
      destruct (variant_split_ok h b Hb) as (ts' & dat' & -> & _). exact I.
    + pose proof (readable_part _ x (or_introl eq_refl) Hrd) as Hx. pose proof Hx as [Hm _].
      destruct Hsa as [Hf|Hla]; [discriminate|]. destruct Hsb as [Hf|Hlb]; [discriminate|].
      pose proof Hra as [Haa _]. pose proof Hrb as [Hab _]. change (align_of (TA x)) with (align_of x) in Haa, Hab.
      assert (Ht : sp_tame (TA x) = true -> sp_tame x = true)
        by (cbn [sp_tame]; intros H; apply andb_true_iff in H; tauto).
      cbn [gv_eq]. destruct (size_of x) as [n|] eqn:En.
      * rewrite (mem_layout_ok x n) in * by assumption.
        destruct (slice_elems_ok x n a En Hra) as [_ Fa]. destruct (slice_elems_ok x n b En Hrb) as [_ Fb].
        rewrite Forall_forall in Fa, Fb. destruct (_ =? _); [|exact I].
        apply eq_all_good. intros r q Hr Hq. destruct (Fa r Hr), (Fb q Hq). apply child_eq; auto; now left.
      * unfold nfwa_eq. rewrite !nfwa_len_ok by (unfold usize_lim; lia). cbn [bind].
        destruct (arr_n (s_data a) =? arr_n (s_data b)) eqn:El; [|exact I].
        rewrite !nfwa_into_iter_ok by (auto; unfold usize_lim; lia). cbn [bind]. apply N.eqb_eq in El.
        apply (nfwa_eq_go_good h x (gv_eq h x) a b Haa Hab Hm En) with (k := N.to_nat (arr_n (s_data a)));
          auto; try (unfold usize_lim; lia).
        -- intros r q [R1 R2] [Q1 Q2]. apply child_eq; auto.
        -- pose proof (arr_n_le (s_data a)) as H. unfold blen in H. lia.
    + pose proof (readable_part _ x (or_intror eq_refl) Hrd) as Hx.
      pose proof (access_safe h (TM x) a AcOption Hrd Hra Hsa I) as Aa.
      pose proof (access_safe h (TM x) b AcOption Hrd Hrb Hsb I) as Ab. cbn [run_access] in Aa, Ab.
      destruct Hsa as [Hf|Hla]; [discriminate|]. destruct Hsb as [Hf|Hlb]; [discriminate|].
      cbn [gv_eq] in *. destruct (to_option h x a) as [oa|c]; cbn [bind] in *.
      2:{ destruct Aa as [Aa|(i & Aa & _)]; [apply bad_max; exact Aa|discriminate]. }
      destruct (to_option h x b) as [ob|c]; cbn [bind] in *.
      2:{ destruct Ab as [Ab|(i & Ab & _)]; [apply bad_max_r; exact Ab|discriminate]. }
      destruct oa as [r|], ob as [q|]; try exact I.
      destruct Aa as (_ & A1 & A2 & _). destruct Ab as (_ & B1 & B2 & _).
      apply child_eq; auto. cbn [sp_tame]; intros H; apply andb_true_iff in H; tauto.
  - destruct (to_tuple_short h t a Hs Hrd Hra Hsa) as [(ra & Ta & Fa)|(Ta & Ho & Hl)].
    2:{ assert (E : gv_eq h t a b = Crash POverflow)
          by (destruct t; try contradiction; cbn [gv_eq]; rewrite Ta; reflexivity).
        rewrite E. apply bad_max. right. auto. }
    destruct (to_tuple_short h t b Hs Hrd Hrb Hsb) as [(rb & Tb & Fb)|(Tb & Ho & Hl)].
    2:{ assert (E : gv_eq h t a b = Crash POverflow)
          by (destruct t; try contradiction; cbn [gv_eq]; rewrite Ta, Tb; reflexivity).
        rewrite E. apply bad_max_r. right. auto. }
    pose proof (Forall2_length _ _ _ Fa) as La. pose proof (Forall2_length _ _ _ Fb) as Lb.
    apply (struct_eq_good h t _ Hs ra rb); auto.
    apply Forall_forall. intros [c [r q]] Hin. cbn [fst snd].
    apply In_nth_error in Hin as [k Hk]. rewrite !nth_error_combine in Hk.
    destruct (nth_error (children_of t) k) as [c'|] eqn:K1; [|discriminate].
    destruct (nth_error ra k) as [r'|] eqn:K2; [|discriminate].
    destruct (nth_error rb k) as [q'|] eqn:K3; [|discriminate]. injection Hk as -> -> ->.
    pose proof (Forall2_nth _ _ _ Fa k c r K1 K2) as [A1 A2].
    pose proof (Forall2_nth _ _ _ Fb k c q K1 K3) as [B1 B2].
    assert (Hc : In c (children_of t)) by (eapply nth_error_In; eauto).
    pose proof (readable_child t c Hs Hrd Hc) as Hrc. rewrite Forall_forall in IH.
    apply child_eq; auto.
    + intros Ht. destruct t; try contradiction; cbn [children_of sp_tame] in *.
      * rewrite forallb_forall in Ht. auto.
      * apply andb_true_iff in Ht. destruct Hc as [<-|[<-|[]]]; tauto.
    + destruct Hsa as [Hf|Hla].
      * right. unfold is_fixed in Hf. destruct (size_of t) as [n|] eqn:En; [|discriminate].
        pose proof (fixed_children t n Hs En) as HA. now apply (proj1 (Forall_forall _ _) HA).
      * destruct Hsb as [Hf|Hlb]; [|left; auto].
        right. unfold is_fixed in Hf. destruct (size_of t) as [n|] eqn:En; [|discriminate].
        pose proof (fixed_children t n Hs En) as HA. now apply (proj1 (Forall_forall _ _) HA).
Qed.

(** ** The relation on values *)
Section VALUE_IND.
  Variable P : value -> Prop.
  Hypothesis Hint : forall z, P (VInt z).
  Hypothesis Hdouble : forall n, P (VDouble n).
  Hypothesis Hbool : forall b, P (VBool b).
  Hypothesis Hstr : forall s, P (VStr s).
  Hypothesis Hvariant : forall s d, P (VVariant s d).
  Hypothesis Harray : forall vs, Forall P vs -> P (VArray vs).
  Hypothesis Hnone : P (VMaybe None).
  Hypothesis Hsome : forall v, P v -> P (VMaybe (Some v)).
  Hypothesis Htuple : forall vs, Forall P vs -> P (VTuple vs).
  Fixpoint value_nest (v : value) : P v :=
    let fix all (vs : list value) : Forall P vs :=
      match vs with [] => Forall_nil P | w :: vs' => Forall_cons w (value_nest w) (all vs') end in
    match v with
    | VInt z => Hint z
    | VDouble n => Hdouble n
    | VBool b => Hbool b
    | VStr s => Hstr s
    | VVariant s d => Hvariant s d
    | VArray vs => Harray vs (all vs)
    | VMaybe None => Hnone
    | VMaybe (Some w) => Hsome w (value_nest w)
    | VTuple vs => Htuple vs (all vs)
    end.
End VALUE_IND.

Lemma beq_iff a b : sp_beq a b = true <-> a = b.
Proof. unfold sp_beq. destruct (list_eq_dec _ a b); split; congruence. Qed.
Lemma beq_sym a b : sp_beq a b = sp_beq b a.
Proof. apply eq_true_iff_eq. rewrite !beq_iff. split; congruence. Qed.
Lemma feq_sym a b : sp_feq a b = sp_feq b a.
Proof. unfold sp_feq. rewrite (N.eqb_sym b a). destruct (sp_nan a), (sp_nan b), (a =? b), (a mod _ =? 0), (b mod _ =? 0); reflexivity. Qed.
Lemma feq_trans a b c : sp_feq a b = true -> sp_feq b c = true -> sp_feq a c = true.
Proof.
  unfold sp_feq. destruct (a =? b) eqn:E; [apply N.eqb_eq in E; subst; auto|].
  destruct (b =? c) eqn:F; [apply N.eqb_eq in F; subst; rewrite E; auto|].
  destruct (sp_nan a), (sp_nan b), (sp_nan c), (a =? c), (a mod _ =? 0), (b mod _ =? 0), (c mod _ =? 0); cbn; auto.
Qed.
Lemma veq_sym v : forall w, sp_veq v w = sp_veq w v.
Proof.
  assert (HA : forall vs, Forall (fun v => forall w, sp_veq v w = sp_veq w v) vs -> forall ws, all2 vs ws = all2 ws vs).
  { induction 1 as [|x xs Hx _ IH]; intros [|y ys]; cbn [all2]; try reflexivity. now rewrite Hx, IH. }
  induction v using value_nest; intros w; destruct w as [z'|n'|b'|s'|s' d'|ws|[w|]|ws]; try reflexivity; rewrite ?veq_array, ?veq_tuple; auto;
    cbn [sp_veq]; auto using Z.eqb_sym, feq_sym, beq_sym.
  - destruct b, b'; reflexivity.
  - now rewrite (beq_sym s), (beq_sym d).
Qed.
Lemma veq_trans v : forall w u, sp_veq v w = true -> sp_veq w u = true -> sp_veq v u = true.
Proof.
  assert (HA : forall vs, Forall (fun v => forall w u, sp_veq v w = true -> sp_veq w u = true -> sp_veq v u = true) vs ->
    forall ws us, all2 vs ws = true -> all2 ws us = true -> all2 vs us = true).
  { induction 1 as [|x xs Hx _ IH]; intros [|y ys] [|z zs]; cbn [all2]; try discriminate; auto.
    rewrite !andb_true_iff. intros [? ?] [? ?]. eauto. }
  induction v using value_nest; intros w u; destruct w as [z'|n'|b'|s'|s' d'|ws|[w|]|ws]; try discriminate;
    destruct u as [z2|n2|b2|s2|s2 d2|us|[u|]|us]; try discriminate; rewrite ?veq_array, ?veq_tuple; eauto;
    cbn [sp_veq]; eauto using feq_trans.
  - rewrite !Z.eqb_eq. congruence.
  - rewrite !Bool.eqb_true_iff. congruence.
  - rewrite !beq_iff. congruence.
  - rewrite !andb_true_iff, !beq_iff. intuition congruence.
Qed.

(** Values without a double. *)
Fixpoint plain (v : value) : Prop :=
  let fix all (vs : list value) : Prop := match vs with [] => True | w :: vs' => plain w /\ all vs' end in
  match v with
  | VDouble _ => False
  | VArray vs | VTuple vs => all vs
  | VMaybe (Some w) => plain w
  | _ => True
  end.
Lemma plain_list vs : (fix all (vs : list value) : Prop := match vs with [] => True | w :: vs' => plain w /\ all vs' end) vs <->
  Forall plain vs.
Proof.
  induction vs as [|v vs IH]; [split; auto|]. rewrite IH. split; [intros []; constructor; auto|].
  intros H; inversion H; auto.
Qed.
Lemma veq_plain v : plain v -> forall w, plain w -> (sp_veq v w = true <-> v = w).
Proof.
  assert (HA : forall vs, Forall (fun v => plain v -> forall w, plain w -> (sp_veq v w = true <-> v = w)) vs ->
    Forall plain vs -> forall ws, Forall plain ws -> (all2 vs ws = true <-> vs = ws)).
  { induction 1 as [|x xs Hx _ IH]; intros HP [|y ys] HQ; cbn [all2]; try (split; congruence).
    inversion HP; inversion HQ; subst. rewrite andb_true_iff, Hx, IH by assumption. split; [intuition congruence|].
    intros E. inversion E. auto. }
  induction v using value_nest; intros Hv w Hw; destruct w as [z'|n'|b'|s'|s' d'|ws|[w|]|ws];
    try (cbn [sp_veq]; split; congruence); try contradiction;
    cbn [plain] in Hv, Hw; rewrite ?plain_list in Hv; rewrite ?plain_list in Hw; rewrite ?veq_array, ?veq_tuple.
  - cbn [sp_veq]. rewrite Z.eqb_eq. split; congruence.
  - cbn [sp_veq]. rewrite Bool.eqb_true_iff. split; congruence.
  - cbn [sp_veq]. rewrite beq_iff. split; congruence.
  - cbn [sp_veq]. rewrite andb_true_iff, !beq_iff. split; [intuition congruence|]. intros E; inversion E; auto.
  - rewrite (HA vs H Hv ws Hw). split; congruence.
  - cbn [sp_veq]. rewrite IHv by assumption. split; congruence.
  - rewrite (HA vs H Hv ws Hw). split; congruence.
Qed.

Lemma mapM_plain {A} (f : A -> res value) l vs : (forall a v, In a l -> f a = Ok v -> plain v) -> mapM f l = Ok vs -> Forall plain vs.
Proof.
  revert vs. induction l as [|a l IH]; intros vs H E; cbn [mapM] in E; [inversion E; constructor|].
  destruct (f a) eqn:Ea; [|discriminate]. cbn [bind] in E. destruct (mapM f l); [|discriminate]. cbn [bind] in E.
  inversion E; subst. constructor; [eapply H; [now left|eauto]|]. apply IH; auto. intros. eapply H; [right|]; eauto.
Qed.
Lemma read_plain h t : sp_no_double t = true -> forall s v, read h t s = Ok v -> plain v.
Proof.
  induction t as [t Hns IH|t Hs IH] using ty_struct_ind; intros Hd s v E.
  - destruct t as [| | | | | | | | | | | | |x|x|ts|k w]; cbn [is_struct] in Hns; try tauto;
      cbn [sp_no_double] in Hd; try discriminate; cbn [read] in E; try (inversion E; exact I).
    + destruct (variant_split h s); [|discriminate]. cbn [bind] in E. now inversion E.
    + destruct (array_refs h x s) as [rs|]; [|discriminate]. cbn [bind] in E.
      destruct (mapM (read h x) rs) as [vs|] eqn:F; [|discriminate]. cbn [bind] in E. inversion E; subst.
      cbn [plain]. rewrite plain_list. eapply mapM_plain; [|exact F]. eauto.
    + destruct (to_option h x s) as [[r|]|]; [| |discriminate]; cbn [bind] in E.
      * destruct (read h x r) as [w|] eqn:F; [|discriminate]. cbn [bind] in E. inversion E; subst. cbn [plain]. eauto.
      * now inversion E.
  - assert (Hc : forall c, In c (children_of t) -> sp_no_double c = true).
    { intros c Hc. destruct t; try contradiction; cbn [children_of sp_no_double] in *.
      - rewrite forallb_forall in Hd. auto.
      - apply andb_true_iff in Hd. destruct Hc as [<-|[<-|[]]]; tauto. }
    rewrite Forall_forall in IH.
    destruct t as [| | | | | | | | | | | | |x|x|ts|k w]; cbn [is_struct] in Hs; try tauto; cbn [read children_of] in *;
      (destruct (to_tuple h _ s) as [rs|]; [|discriminate]); cbn [bind] in E.
    + match type of E with (let* vs := ?g ts rs in _) = _ => set (go := g) in E end.
      assert (HG : forall l rs vs, (forall c, In c l -> In c ts) -> go l rs = Ok vs -> Forall plain vs).
      { induction l as [|c l IHl]; intros rs' vs Hin G; [cbn in G; inversion G; constructor|].
        destruct rs' as [|r rs']; cbn in G; [inversion G; constructor|].
        destruct (read h c r) eqn:R; [|discriminate]. cbn [bind] in G. fold go in G.
        destruct (go l rs') eqn:G'; [|discriminate]. cbn [bind] in G. inversion G; subst.
        assert (In c ts) by (apply Hin; now left). constructor; [eapply IH; eauto|].
        eapply IHl; [|exact G']. intros. apply Hin. now right. }
      destruct (go ts rs) as [vs|] eqn:G; [|discriminate]. cbn [bind] in E. inversion E; subst.
      cbn [plain]. rewrite plain_list. eapply HG; [|exact G]. auto.
    + destruct rs as [|r [|q [|]]]; try (inversion E; exact I). destruct (read h k r) as [v1|] eqn:R; [|discriminate].
      cbn [bind] in E. destruct (read h w q) as [v2|] eqn:Q; [|discriminate]. cbn [bind] in E. inversion E; subst.
      cbn [plain]. split; [eapply (IH k); [now left| |eauto]; apply Hc; now left|].
      split; [|exact I]. eapply (IH w); [right; now left| |eauto]. apply Hc. right. now left.
Qed.

(** ** C20 *)
Lemma view_ok h t r : view h t r -> readable t /\ ref_ok t r /\ short t r.
Proof.
  intros (t0 & s & Hu & Ha & Hl & H). rewrite sp_align_of in Ha. apply usable_readable in Hu.
  destruct (reach_safe h t0 s t r Hu Ha Hl H) as (H1 & H2 & _ & H4). auto.
Qed.
Lemma eq_claim h t r q v w : view h t r -> view h t q -> read h t r = Ok v -> read h t q = Ok w ->
  gv_eq h t r q = Ok (sp_veq v w).
Proof.
  intros H1 H2. apply view_ok in H1 as (? & ? & ?). apply view_ok in H2 as (? & ? & ?). now apply eq_exact.
Qed.
Lemma eq_plain_claim h t r q v w : sp_no_double t = true -> view h t r -> view h t q ->
  read h t r = Ok v -> read h t q = Ok w -> (gv_eq h t r q = Ok true <-> v = w).
Proof.
  intros Hd H1 H2 E1 E2. rewrite (eq_claim h t r q v w) by assumption.
  rewrite <- (veq_plain v (read_plain h t Hd r v E1) w (read_plain h t Hd q w E2)). split; congruence.
Qed.
Lemma eq_sym_claim h t r q v w : view h t r -> view h t q -> read h t r = Ok v -> read h t q = Ok w ->
  gv_eq h t r q = gv_eq h t q r.
Proof. intros. rewrite (eq_claim h t r q v w), (eq_claim h t q r w v), veq_sym by assumption. reflexivity. Qed.
Lemma eq_trans_claim h t r q p v w u : view h t r -> view h t q -> view h t p ->
  read h t r = Ok v -> read h t q = Ok w -> read h t p = Ok u ->
  gv_eq h t r q = Ok true -> gv_eq h t q p = Ok true -> gv_eq h t r p = Ok true.
Proof.
  intros. rewrite (eq_claim h t r q v w) in * by assumption. rewrite (eq_claim h t q p w u) in * by assumption.
  rewrite (eq_claim h t r p v u) by assumption. f_equal. apply (veq_trans v w u); congruence.
Qed.
Lemma eq_safe_claim h t r q c : view h t r -> view h t q -> gv_eq h t r q = Crash c ->
  (c = PUnwrap /\ sp_tame t = false) \/
  (c = POverflow /\ h_overflow_checks h = true /\ 2 ^ 32 <= N.max (len (s_data r)) (len (s_data q))).
Proof.
  intros H1 H2 E. apply view_ok in H1 as (? & ? & ?). apply view_ok in H2 as (? & ? & ?).
  pose proof (eq_safe h t H r q H0 H3 H1 H4) as G. rewrite E in G. exact G.
Qed.
