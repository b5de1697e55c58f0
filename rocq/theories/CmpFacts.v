(** Comparing with native values; ordering and hashing maybes. *)
From Verif Require Import Base Types Layout AlignedBytes Strs Spec Deser Histories
  BaseFacts TypesFacts LayoutFacts AlignedFacts Utf8Facts DeserFacts ArrayFacts StructFacts ReadFacts AccessFacts ReadClaims EqFacts
  Cmp CmpSpec.
From Coq Require Import Lia ZifyBool ZifyNat ZifyN.
Ltac Zify.zify_post_hook ::= Z.div_mod_to_equations.

Scheme nv_ind2 := Induction for native_value Sort Prop
  with nvs_ind2 := Induction for native_values Sort Prop.
Combined Scheme nv_mutind from nv_ind2, nvs_ind2.

Lemma str_eq_str_values a b : str_eq_str a b = sp_beq (to_str a) b.
Proof. unfold str_eq_str. now rewrite sp_beq_eqb. Qed.

(** One right-hand side against every readable view of its type. *)
Definition native_good (h : host) (t : ty) (n : native) (w : value) : Prop :=
  readable t -> forall r v, ref_ok t r -> short t r -> read h t r = Ok v ->
  eq_native h t r n = Ok (sp_veq v w).

Lemma slice_eq_seq_values h x : forall rs l vs ws,
  Forall2 (fun n w => native_good h x n w) l ws -> readable x ->
  Forall (fun r => ref_ok x r /\ short x r) rs ->
  mapM (read h x) rs = Ok vs -> length rs = length l ->
  slice_eq_seq (map (fun m r => eq_native h x r m) l) rs = Ok (all2 vs ws).
Proof.
  induction rs as [|r rs IH]; intros [|n l] vs ws HF Hx Hr E Hl; cbn [length] in Hl; try lia;
    inversion HF as [|? w ? ws' Hn HF']; subst; cbn [mapM map slice_eq_seq] in *.
  - inversion E. reflexivity.
  - destruct (read h x r) as [v|] eqn:Er; [|discriminate]. cbn [bind] in E.
    destruct (mapM (read h x) rs) as [vs'|] eqn:Es; [|discriminate]. cbn [bind] in E. inversion E; subst.
    inversion Hr as [|? ? [H1 H2] Hr']; subst.
    rewrite (Hn Hx r v H1 H2 Er). cbn [bind all2]. destruct (sp_veq v w); [|reflexivity]. cbn [andb].
    apply IH; auto.
Qed.

Lemma nfwa_eq_seq_values h x a : aligned (align_of x) a -> slen a < 2 ^ 63 -> macro_ok x = true -> size_of x = None ->
  readable x ->
  forall l i rs vs ws, i + N.of_nat (length l) = arr_n (s_data a) ->
  Forall2 (fun n w => native_good h x n w) l ws ->
  mapM (elem_at h x a) (indices i (length l)) = Ok rs -> mapM (read h x) rs = Ok vs ->
  nfwa_eq_seq h x (map (fun m r => eq_native h x r m) l) (iter_at a i) = Ok (all2 vs ws).
Proof.
  intros Ha Hla Hm Hnn Hx. induction l as [|n l IH]; intros i rs vs ws Hi HF E1 E2;
    inversion HF as [|? w ? ws' Hn HF']; subst; cbn [length] in *.
  - cbn in E1. inversion E1; subst. cbn in E2. inversion E2; subst.
    cbn [map nfwa_eq_seq]. replace i with (arr_n (s_data a)) by lia.
    rewrite nfwa_next_end. reflexivity.
  - rewrite indices_S in E1. cbn [mapM] in E1. cbn [map nfwa_eq_seq].
    rewrite nfwa_next_ok by (auto; unfold usize_lim; lia).
    pose proof (elem_at_safe h x a i Hm Ha Hnn) as Hs.
    destruct (elem_at h x a i) as [r|]; [|discriminate]. cbn [bind] in *.
    destruct (mapM (elem_at h x a) _) as [rs'|] eqn:F1; [|discriminate]. cbn [bind] in E1. inversion E1; subst.
    cbn [mapM] in E2. destruct (read h x r) as [v|] eqn:Er; [|discriminate]. cbn [bind] in E2.
    destruct (mapM (read h x) rs') as [vs'|] eqn:F2; [|discriminate]. cbn [bind] in E2. inversion E2; subst.
    cbn [fst snd]. destruct Hs as [H1 H2].
    assert (H3 : short x r).
    { right. pose proof (placed_len h x a r H2 H1) as Hp. unfold is_fixed in Hp. rewrite Hnn in Hp. specialize (Hp eq_refl). lia. }
    rewrite (Hn Hx r v H1 H3 Er). cbn [bind all2]. destruct (sp_veq v w); [|reflexivity]. cbn [andb].
    apply (IH (i + 1) rs' vs' ws'); auto. lia.
Qed.

Lemma native_all h :
  (forall t n w, native_value h t n w -> native_good h t n w) /\
  (forall x l ws, native_values h x l ws -> Forall2 (native_good h x) l ws).
Proof.
  apply (nv_mutind h (fun t n w _ => native_good h t n w) (fun x l ws _ => Forall2 (native_good h x) l ws)).
  - intros t q w Hv Eq Hrd r v Hr Hs Er. apply view_ok in Hv as (_ & Hq & Hsq). cbn [eq_native].
    now apply eq_exact.
  - intros b _ r v Hr Hs Er. cbn [read] in Er. now inversion Er; subst.
  - intros t d Ht _ r v Hr Hs Er.
    destruct Ht as [->|[->| ->]]; cbn [read eq_native] in *; inversion Er; subst; cbn [sp_veq]; now rewrite str_eq_str_values.
  - intros x l ws _ HF Hrd r v Hr Hs Er.
    pose proof (readable_part _ x (or_introl eq_refl) Hrd) as Hx. pose proof Hx as [Hm _].
    destruct Hs as [Hf|Hl]; [discriminate|]. pose proof Hr as [Ha _]. change (align_of (TA x)) with (align_of x) in Ha.
    pose proof (Forall2_length _ _ _ HF) as Hlw.
    cbn [read] in Er. cbn [eq_native]. unfold array_refs in Er. destruct (size_of x) as [n|] eqn:En.
    + rewrite (mem_layout_ok x n) in * by assumption. cbn [bind] in Er.
      destruct (mapM (read h x) (slice_elems n r)) as [vs|] eqn:E1; [|discriminate]. cbn [bind] in Er.
      inversion Er; subst. rewrite veq_array.
      destruct (slice_elems_ok x n r En Hr) as [_ Fa]. rewrite Forall_forall in Fa.
      assert (Hn : length (slice_elems n r) = N.to_nat (slen r / n)) by (unfold slice_elems; now rewrite map_length, seq_length).
      destruct (slen r / n =? N.of_nat (length l)) eqn:El.
      * apply N.eqb_eq in El. apply slice_eq_seq_values; auto.
        -- apply Forall_forall. intros q Hq. destruct (Fa q Hq) as [H1 H2]. split; [exact H1|].
           left. unfold is_fixed. now rewrite En.
        -- lia.
      * rewrite all2_len; [reflexivity|]. apply mapM_length in E1. lia.
    + rewrite nfwa_items_ok in Er by (auto; unfold usize_lim; lia).
      destruct (mapM (elem_at h x r) _) as [rs|] eqn:F1 in Er; [|discriminate]. cbn [bind] in Er.
      destruct (mapM (read h x) rs) as [vs|] eqn:E1; [|discriminate]. cbn [bind] in Er.
      inversion Er; subst. rewrite veq_array.
      rewrite nfwa_len_ok by (unfold usize_lim; lia). cbn [bind].
      destruct (arr_n (s_data r) =? N.of_nat (length l)) eqn:El.
      * apply N.eqb_eq in El. rewrite nfwa_into_iter_ok by (auto; unfold usize_lim; lia). cbn [bind].
        replace (N.to_nat (arr_n (s_data r))) with (length l) in F1 by lia.
        apply (nfwa_eq_seq_values h x r Ha Hl Hm En Hx) with (rs := rs); auto.
      * rewrite all2_len; [reflexivity|]. apply mapM_length in E1, F1.
        unfold indices in F1. rewrite map_length, seq_length in F1. lia.
  - intros x Hn _ r v Hr Hs Er. rewrite sp_size_of in Hn. cbn [read eq_native] in *.
    destruct (size_of x) as [n|]; [|congruence]. destruct (to_option h x r) as [[q|]|]; [| |discriminate]; cbn [bind] in *.
    + destruct (read h x q); [|discriminate]. cbn [bind] in Er. inversion Er; subst. reflexivity.
    + inversion Er; subst. reflexivity.
  - intros x q w Hn Hv Eq Hrd r v Hr Hs Er. rewrite sp_size_of in Hn. cbn [eq_native].
    apply view_ok in Hv as (Hx & Hq & Hsq).
    pose proof (access_safe h (TM x) r AcOption Hrd Hr Hs I) as Ar. cbn [run_access read] in *.
    destruct (size_of x) as [n|] eqn:En; [|congruence].
    destruct (to_option h x r) as [[p|]|]; [| |discriminate]; cbn [bind] in *.
    + destruct (read h x p) as [u|] eqn:Ep; [|discriminate]. cbn [bind] in Er. inversion Er; subst. cbn [sp_veq].
      destruct Ar as (_ & A1 & A2 & _). apply eq_exact; auto. left. unfold is_fixed. now rewrite En.
    + inversion Er; subst. reflexivity.
  - constructor.
  - intros. now constructor.
Qed.

Lemma eq_native_claim h t r n v w : view h t r -> read h t r = Ok v -> native_value h t n w ->
  eq_native h t r n = Ok (sp_veq v w).
Proof.
  intros Hv Er Hn. apply view_ok in Hv as (H1 & H2 & H3). now apply (proj1 (native_all h) t n w Hn).
Qed.

(** ** Doubles *)
Lemma nan_spec a : f64_is_nan a = sp_nan a.
Proof. unfold f64_is_nan, sp_nan. rewrite land_low. reflexivity. Qed.
Definition mag_val (m : N) : N :=
  if m / 2 ^ 52 =? 0 then m mod 2 ^ 52 else (2 ^ 52 + m mod 2 ^ 52) * 2 ^ (m / 2 ^ 52 - 1).
Lemma mag_lt m m' : m < m' -> mag_val m < mag_val m'.
Proof.
  intros H. unfold mag_val.
  assert (B : 2 ^ 52 <> 0) by (apply N.pow_nonzero; lia).
  pose proof (N.div_mod m (2 ^ 52) B) as D. pose proof (N.div_mod m' (2 ^ 52) B) as D'.
  pose proof (N.mod_lt m (2 ^ 52) B) as L. pose proof (N.mod_lt m' (2 ^ 52) B) as L'.
  remember (2 ^ 52) as P. remember (m / P) as e. remember (m' / P) as e'.
  remember (m mod P) as f. remember (m' mod P) as f'. clear Heqe Heqe' Heqf Heqf' HeqP.
  assert (Hc : e = e' /\ f < f' \/ e < e') by nia. clear H D D' m m'.
  assert (Hp : forall k, 0 < 2 ^ k) by (intros; apply N.neq_0_lt_0, N.pow_nonzero; lia).
  destruct Hc as [[-> Hf]|He].
  - destruct (e' =? 0); [assumption|]. pose proof (Hp (e' - 1)). nia.
  - replace (e' =? 0) with false by (symmetry; apply N.eqb_neq; lia).
    pose proof (Hp (e' - 1)) as H1.
    destruct (e =? 0) eqn:E0; [nia|]. apply N.eqb_neq in E0.
    replace (e' - 1) with ((e - 1) + 1 + (e' - 1 - e)) by lia.
    rewrite !N.pow_add_r. pose proof (Hp (e - 1)) as H2. pose proof (Hp (e' - 1 - e)) as H3.
    change (2 ^ 1) with 2. remember (2 ^ (e - 1)) as X. remember (2 ^ (e' - 1 - e)) as Y. clear -L L' H2 H3.
    assert ((P + f) * X < 2 * P * X) by nia. nia.
Qed.
Lemma mag_cmp m m' : (mag_val m ?= mag_val m') = (m ?= m').
Proof.
  destruct (m ?= m') eqn:E.
  - apply N.compare_eq_iff in E. subst. apply N.compare_refl.
  - apply N.compare_lt_iff in E. apply N.compare_lt_iff. now apply mag_lt.
  - apply N.compare_gt_iff in E. apply N.compare_gt_iff. now apply mag_lt.
Qed.
Lemma mag_zero m : mag_val m = 0 <-> m = 0.
Proof.
  split; intros H; [|subst; reflexivity]. destruct (N.eq_dec m 0) as [|Hn]; [assumption|].
  pose proof (mag_lt 0 m ltac:(lia)) as Hl. change (mag_val 0) with 0 in Hl. lia.
Qed.
Lemma mod_mod52 a : (a mod 2 ^ 63) mod 2 ^ 52 = a mod 2 ^ 52.
Proof.
  change (2 ^ 63) with (2 ^ 52 * 2 ^ 11). rewrite N.mod_mul_r by (apply N.pow_nonzero; lia).
  rewrite N.mul_comm, N.mod_add by (apply N.pow_nonzero; lia). apply N.mod_mod. apply N.pow_nonzero; lia.
Qed.
Lemma scaled_mag a : sp_fscaled a =
  let m := Z.of_N (mag_val (a mod 2 ^ 63)) in if 2 ^ 63 <=? a then (- m)%Z else m.
Proof. unfold sp_fscaled, mag_val. now rewrite mod_mod52. Qed.
Lemma testbit63 a : a < 2 ^ 64 -> N.testbit a 63 = (2 ^ 63 <=? a).
Proof.
  intros Ha. destruct (2 ^ 63 <=? a) eqn:E.
  - apply N.leb_le in E. apply N.testbit_true. replace (a / 2 ^ 63) with 1; [reflexivity|].
    apply (N.div_unique a (2 ^ 63) 1 (a - 2 ^ 63)); lia.
  - apply N.leb_gt in E. apply N.testbit_false. now rewrite N.div_small.
Qed.
Lemma f64_cmp_spec a b : a < 2 ^ 64 -> b < 2 ^ 64 -> f64_cmp a b = sp_vcmp (VDouble a) (VDouble b).
Proof.
  intros Ha Hb. unfold f64_cmp. cbn [sp_vcmp]. rewrite !nan_spec. destruct (_ || _); [reflexivity|]. f_equal.
  unfold f64_key. rewrite !testbit63, !land_low, !scaled_mag by assumption. cbv zeta.
  assert (Hneg : forall m m', (0 < mag_val m <-> 0 < m) /\ (0 < mag_val m' <-> 0 < m')).
  { intros m m'. pose proof (mag_zero m). pose proof (mag_zero m'). lia. }
  specialize (Hneg (a mod 2 ^ 63) (b mod 2 ^ 63)). pose proof (mag_cmp (a mod 2 ^ 63) (b mod 2 ^ 63)) as Hc.
  remember (a mod 2 ^ 63) as m. remember (b mod 2 ^ 63) as m'. remember (mag_val m) as v. remember (mag_val m') as v'.
  clear - Hneg Hc.
  assert (H1 : v < v' <-> m < m') by (rewrite <- !N.compare_lt_iff; now rewrite Hc).
  assert (H2 : v = v' <-> m = m') by (rewrite <- !N.compare_eq_iff; now rewrite Hc). clear Hc.
  set (p := if 2 ^ 63 <=? a then (- Z.of_N m)%Z else Z.of_N m).
  set (q := if 2 ^ 63 <=? b then (- Z.of_N m')%Z else Z.of_N m').
  destruct (p ?= q)%Z eqn:E; [apply Z.compare_eq_iff in E|change (p < q)%Z in E|apply Z.compare_gt_iff in E];
    symmetry; [apply Z.compare_eq_iff|apply Z.compare_lt_iff|apply Z.compare_gt_iff]; subst p q;
    (destruct (2 ^ 63 <=? a), (2 ^ 63 <=? b)); lia.
Qed.

(** ** The order of maybes *)
Lemma gv_cmp_values h x a b v w : sp_number x = true -> ref_ok x a -> ref_ok x b ->
  read h x a = Ok v -> read h x b = Ok w -> gv_cmp h x a b = Ok (sp_vcmp v w).
Proof.
  intros Hx [_ Ga] [_ Gb] Ea Eb. unfold size_good, slen in *.
  destruct x; try discriminate; cbn [size_of] in *; pose proof (of_ne_bound' h _ _ Ga) as Ba; pose proof (of_ne_bound' h _ _ Gb) as Bb;
    cbn [read] in Ea, Eb; inversion Ea; inversion Eb; subst; cbn [gv_cmp].
  all: try (cbn [sp_vcmp]; now rewrite N2Z.inj_compare).
  all: try reflexivity.
  f_equal. apply f64_cmp_spec; assumption.
Qed.
Lemma number_fixed x : sp_number x = true -> exists n, size_of x = Some n.
Proof. destruct x; try discriminate; cbn [size_of]; eauto. Qed.
Lemma maybe_cmp_claim h x r q v w : sp_number x = true -> view h (TM x) r -> view h (TM x) q ->
  read h (TM x) r = Ok v -> read h (TM x) q = Ok w -> maybe_cmp h x r q = Ok (sp_vcmp v w).
Proof.
  intros Hx H1 H2 E1 E2. apply view_ok in H1 as (Hrd & Hr & Hs). apply view_ok in H2 as (_ & Hq & Hs').
  pose proof (access_safe h (TM x) r AcOption Hrd Hr Hs I) as A. pose proof (access_safe h (TM x) q AcOption Hrd Hq Hs' I) as B.
  destruct (number_fixed x Hx) as [n En]. unfold maybe_cmp. rewrite En.
  cbn [run_access read] in *. destruct (to_option h x r) as [[r'|]|]; [| |discriminate];
    (destruct (to_option h x q) as [[q'|]|]; [| |discriminate]); cbn [bind] in *.
  - destruct (read h x r') as [v'|] eqn:Ev; [|discriminate]. destruct (read h x q') as [w'|] eqn:Ew; [|discriminate].
    cbn [bind] in *. inversion E1; inversion E2; subst. destruct A as (_ & A1 & _). destruct B as (_ & B1 & _).
    cbn [sp_vcmp]. now apply gv_cmp_values.
  - destruct (read h x r') as [v'|] eqn:Ev; [|discriminate]. cbn [bind] in *. inversion E1; inversion E2; subst. reflexivity.
  - destruct (read h x q') as [w'|] eqn:Ew; [|discriminate]. cbn [bind] in *. inversion E1; inversion E2; subst. reflexivity.
  - inversion E1; inversion E2; subst. reflexivity.
Qed.

(** [partial_cmp] says [Equal] exactly when [==] holds. *)
Lemma scaled_feq a b : a < 2 ^ 64 -> b < 2 ^ 64 -> sp_vcmp (VDouble a) (VDouble b) = Some Eq <-> sp_feq a b = true.
Proof.
  intros Ha Hb. cbn [sp_vcmp]. unfold sp_feq. destruct (sp_nan a) eqn:N1; [cbn [orb negb andb]; split; discriminate|].
  destruct (sp_nan b) eqn:N2; [cbn [orb negb andb]; split; discriminate|]. cbn [orb negb andb].
  pose proof (f64_cmp_spec a b Ha Hb) as E. unfold f64_cmp in E. cbn [sp_vcmp] in E. rewrite !nan_spec, N1, N2 in E.
  cbn [orb] in E. rewrite <- E. clear E. unfold f64_key. rewrite !testbit63, !land_low by assumption.
  change (2 ^ 64) with (2 * 2 ^ 63) in *. remember (2 ^ 63) as P.
  assert (HP : 0 < P) by (subst; reflexivity). clear HeqP N1 N2.
  assert (Hma : a mod P = if P <=? a then a - P else a).
  { destruct (P <=? a) eqn:E; [apply N.leb_le in E; symmetry; apply (N.mod_unique a P 1); lia|apply N.leb_gt in E; now apply N.mod_small]. }
  assert (Hmb : b mod P = if P <=? b then b - P else b).
  { destruct (P <=? b) eqn:E; [apply N.leb_le in E; symmetry; apply (N.mod_unique b P 1); lia|apply N.leb_gt in E; now apply N.mod_small]. }
  rewrite Hma, Hmb. split.
  - intros H. apply Some_inj in H. apply Z.compare_eq_iff in H. clear Hma Hmb.
    destruct (P <=? a) eqn:E1, (P <=? b) eqn:E2; lia.
  - intros H. f_equal. apply Z.compare_eq_iff. clear Hma Hmb. destruct (P <=? a) eqn:E1, (P <=? b) eqn:E2; lia.
Qed.
Definition num_value (x : ty) (v : value) : Prop :=
  match v with VInt _ => x <> TD | VDouble b => x = TD /\ b < 2 ^ 64 | _ => False end.
Lemma read_number h x r v : sp_number x = true -> ref_ok x r -> read h x r = Ok v -> num_value x v.
Proof.
  intros Hx [_ Hg] E. unfold size_good, slen in Hg.
  destruct x; try discriminate; cbn [size_of] in Hg; pose proof (of_ne_bound' h _ _ Hg) as B; cbn [read] in E; inversion E; subst;
    cbn [num_value]; try discriminate. split; [reflexivity|exact B].
Qed.
Lemma number_cmp_eq x v w : num_value x v -> num_value x w -> sp_vcmp v w = Some Eq <-> sp_veq v w = true.
Proof.
  intros Hv Hw. destruct v; try contradiction; destruct w; try contradiction; cbn [num_value] in *; try tauto.
  - cbn [sp_vcmp sp_veq]. split; intros H.
    + apply Some_inj in H. apply Z.compare_eq_iff in H. now apply Z.eqb_eq.
    + apply Z.eqb_eq in H. subst. now rewrite Z.compare_refl.
  - cbn [sp_veq]. now apply scaled_feq.
Qed.
Lemma maybe_number h x r v : sp_number x = true -> view h (TM x) r -> read h (TM x) r = Ok v ->
  v = VMaybe None \/ exists u, v = VMaybe (Some u) /\ num_value x u.
Proof.
  intros Hx H1 E1. apply view_ok in H1 as (Hrd & Hr & Hs).
  pose proof (access_safe h (TM x) r AcOption Hrd Hr Hs I) as A. cbn [run_access read] in *.
  destruct (to_option h x r) as [[r'|]|]; [| |discriminate]; cbn [bind] in *.
  - destruct (read h x r') as [v'|] eqn:Ev; [|discriminate]. cbn [bind] in *. inversion E1; subst.
    destruct A as (_ & A1 & _). right. exists v'. split; [reflexivity|]. eapply read_number; eauto.
  - inversion E1; subst. now left.
Qed.
Lemma maybe_cmp_eq_claim h x r q v w : sp_number x = true -> view h (TM x) r -> view h (TM x) q ->
  read h (TM x) r = Ok v -> read h (TM x) q = Ok w ->
  (maybe_cmp h x r q = Ok (Some Eq) <-> gv_eq h (TM x) r q = Ok true).
Proof.
  intros Hx H1 H2 E1 E2. rewrite (maybe_cmp_claim h x r q v w), (eq_claim h (TM x) r q v w) by assumption.
  destruct (maybe_number h x r v Hx H1 E1) as [->|(u & -> & Hu)];
    destruct (maybe_number h x q w Hx H2 E2) as [->|(u' & -> & Hu')]; cbn [sp_vcmp sp_veq]; try (split; discriminate); try tauto.
  pose proof (number_cmp_eq x u u' Hu Hu') as H. split; intros E; f_equal; injection E as E; apply H; exact E.
Qed.

(** ** Hashing *)
Lemma integer_fixed x : sp_integer x = true -> sp_number x = true.
Proof. destruct x; auto. Qed.
Lemma of_le_inj a b : blen a = blen b -> of_le a = of_le b -> a = b.
Proof.
  intros Hl H. rewrite <- (to_le_of_le a), <- (to_le_of_le b), H. f_equal. unfold blen in Hl. lia.
Qed.
Lemma of_ne_inj h a b : blen a = blen b -> of_ne h a = of_ne h b -> a = b.
Proof.
  intros Hl. unfold of_ne. destruct (h_big_endian h); [|now apply of_le_inj].
  intros H. rewrite <- (rev_involutive a), <- (rev_involutive b). f_equal. apply of_le_inj; [|exact H].
  unfold blen in *. rewrite !rev_length. exact Hl.
Qed.
Lemma int_bytes h x a b v w : sp_integer x = true -> ref_ok x a -> ref_ok x b ->
  read h x a = Ok v -> read h x b = Ok w -> (s_data a = s_data b <-> v = w).
Proof.
  intros Hx [_ Ga] [_ Gb] Ea Eb. unfold size_good, slen in *.
  assert (Hl : blen (s_data a) = blen (s_data b)) by (destruct x; try discriminate; cbn [size_of] in *; congruence).
  split.
  - intros E. destruct x; try discriminate; cbn [read] in *; rewrite E in Ea; congruence.
  - intros <-. apply (of_ne_inj h _ _ Hl).
    destruct x; try discriminate; cbn [size_of] in *; pose proof (of_ne_bound' h _ _ Ga) as Ba; pose proof (of_ne_bound' h _ _ Gb) as Bb;
    cbn [read] in Ea, Eb; inversion Ea; subst; inversion Eb as [E']; try lia.
    all: match type of E' with signed ?bits _ = _ => 
      apply Z.eqb_eq in E'; rewrite (signed_eqb bits) in E' by (lia || assumption); now apply N.eqb_eq in E' end.
Qed.
Lemma maybe_hash_claim h x r q v w : sp_integer x = true -> view h (TM x) r -> view h (TM x) q ->
  read h (TM x) r = Ok v -> read h (TM x) q = Ok w ->
  exists a b, maybe_hash h x r = Ok a /\ maybe_hash h x q = Ok b /\ (a = b <-> v = w).
Proof.
  intros Hx H1 H2 E1 E2. apply view_ok in H1 as (Hrd & Hr & Hs). apply view_ok in H2 as (_ & Hq & Hs').
  pose proof (access_safe h (TM x) r AcOption Hrd Hr Hs I) as A. pose proof (access_safe h (TM x) q AcOption Hrd Hq Hs' I) as B.
  assert (Hh : forall s, maybe_hash h x s = (let* o := to_option h x s in
    match o with None => Ok [inl 0%Z] | Some r => Ok [inl 1%Z; inr (s_data r)] end))
    by (intros; destruct x; try discriminate; reflexivity).
  rewrite !Hh. cbn [run_access read] in *. destruct (to_option h x r) as [[r'|]|]; [| |discriminate];
    (destruct (to_option h x q) as [[q'|]|]; [| |discriminate]); cbn [bind] in *.
  - destruct (read h x r') as [v'|] eqn:Ev; [|discriminate]. destruct (read h x q') as [w'|] eqn:Ew; [|discriminate].
    cbn [bind] in *. inversion E1; inversion E2; subst. destruct A as (_ & A1 & _). destruct B as (_ & B1 & _).
    do 2 eexists. split; [reflexivity|]. split; [reflexivity|].
    pose proof (int_bytes h x r' q' v' w' Hx A1 B1 Ev Ew) as H. split; intros E.
    + do 2 f_equal. apply H. congruence.
    + f_equal. f_equal. f_equal. apply H. congruence.
  - destruct (read h x r') as [v'|] eqn:Ev; [|discriminate]. cbn [bind] in *. inversion E1; inversion E2; subst.
    do 2 eexists. split; [reflexivity|]. split; [reflexivity|]. split; discriminate.
  - destruct (read h x q') as [w'|] eqn:Ew; [|discriminate]. cbn [bind] in *. inversion E1; inversion E2; subst.
    do 2 eexists. split; [reflexivity|]. split; [reflexivity|]. split; discriminate.
  - inversion E1; inversion E2; subst. do 2 eexists. split; [reflexivity|]. split; [reflexivity|]. tauto.
Qed.
