(** Proofs about the comparison traits and about offsets. *)
From Verif Require Import Base Types Layout Strs Spec AlignedBytes Deser Histories PrintSpec CoreFmt Traits Offsets BaseFacts TypesFacts LayoutFacts AlignedFacts EqFacts PrintFacts.
From Coq Require Import Lia.

Lemma eq_which t : implements TrEq (marker t) = true <->
  (forall c, In c (bs "dv({") -> ~ In c (sp_show t)).
Proof.
  induction t as [| | | | | | | | | | | | |x IH|x IH|ts|k IHk v IHv]; cbn [marker];
    try (split; [intros _ c H; vm_compute in H; intros [<-|[]]; intuition discriminate|reflexivity]).
  - split; [discriminate|]. intros H. exfalso. apply (H "d"%byte); vm_compute; tauto.
  - split; [discriminate|]. intros H. exfalso. apply (H "v"%byte); vm_compute; tauto.
  - replace (implements TrEq _) with (implements TrEq (marker x)) by (destruct (is_fixed x); reflexivity).
    rewrite IH. cbn [sp_show app]. split; intros H c Hc; specialize (H c Hc).
    + intros [<-|H']; [vm_compute in Hc; intuition discriminate|auto].
    + intros H'. apply H. now right.
  - replace (implements TrEq _) with (implements TrEq (marker x)) by (destruct (is_fixed x); reflexivity).
    rewrite IH. cbn [sp_show app]. split; intros H c Hc; specialize (H c Hc).
    + intros [<-|H']; [vm_compute in Hc; intuition discriminate|auto].
    + intros H'. apply H. now right.
  - split; [discriminate|]. intros H. exfalso. apply (H "("%byte); [vm_compute; tauto|now left].
  - split; [discriminate|]. intros H. exfalso. apply (H "{"%byte); [vm_compute; tauto|now left].
Qed.
Lemma eq_no_double t : implements TrEq (marker t) = true -> sp_no_double t = true.
Proof.
  induction t as [| | | | | | | | | | | | |x IH|x IH|ts|k IHk v IHv]; cbn [marker sp_no_double]; try (intros; reflexivity || discriminate).
  - destruct (is_fixed x); exact IH.
  - destruct (is_fixed x); exact IH.
Qed.
Lemma eq_lawful h t r q v w : implements TrEq (marker t) = true -> view h t r -> view h t q ->
  read h t r = Ok v -> read h t q = Ok w ->
  gv_eq h t r r = Ok true /\ (gv_eq h t r q = Ok true <-> v = w).
Proof.
  intros He Hr Hq Er Eq. apply eq_no_double in He. split; [|now apply eq_plain_claim].
  apply (eq_plain_claim h t r r v v); auto.
Qed.


(** ** Order and hashes *)
Definition base (t : ty) : bool := match t with TA _ | TM _ | TTuple _ | TDict _ _ => false | _ => true end.
Lemma base_show t : base t = true -> exists c, sp_show t = [c].
Proof. destruct t; try discriminate; cbn; eauto. Qed.
Lemma show_base t c : sp_show t = [c] -> base t = true.
Proof.
  destruct t as [| | | | | | | | | | | | |x|x|ts|k v]; cbn; try reflexivity; intros E; exfalso;
    apply (f_equal (@length byte)) in E; cbn in E; try (destruct x; discriminate).
  - rewrite app_length in E. cbn in E. lia.
  - rewrite !app_length in E. cbn in E. lia.
Qed.
(** A trait that only fixed-size bases, slices and perhaps maybes of them have. *)
Lemma which tr cs (m : bool) :
  (forall t, base t = true -> (implements tr (marker t) = true <-> exists c, In c cs /\ sp_show t = [c])) ->
  tr <> TrEq -> (m = true <-> tr <> TrOrd) ->
  forall t, implements tr (marker t) = true <->
    exists p c, In p ([[]; bs "a"] ++ (if m then [bs "m"] else [])) /\ In c cs /\ sp_show t = p ++ [c].
Proof.
  intros HB Hq Hm t.
  assert (Hfix : forall x, base x = true -> implements tr (marker x) = true -> is_fixed x = true).
  { intros x Hx Hi. destruct x; try discriminate Hx; try reflexivity; destruct tr; try discriminate Hi; now elim Hq. }
  assert (Hpre : forall p (c : byte), In p ([[]; bs "a"] ++ (if m then [bs "m"] else [])) -> p = [] \/ p = bs "a" \/ (p = bs "m" /\ m = true)).
  { intros p c [<-|[<-|H]]; auto. destruct m; [destruct H as [<-|[]]; auto|destruct H]. }
  destruct (base t) eqn:B.
  - rewrite (HB t B). split.
    + intros (c & Hc & E). exists [], c. split; [now left|]. auto.
    + intros (p & c & Hp & Hc & E). exists c. split; [exact Hc|]. apply base_show in B as (c' & E').
      rewrite E' in *. apply (f_equal (@length byte)) in E as E2. rewrite app_length in E2. cbn in E2.
      destruct p; [exact E|cbn in E2; lia].
  - assert (Hnb : forall c, sp_show t = [] ++ [c] -> False).
    { intros c E. apply show_base in E. congruence. }
    assert (Hx : forall x, (exists c, In c cs /\ sp_show x = [c]) <-> base x = true /\ implements tr (marker x) = true).
    { intros x. split.
      - intros (c & Hc & E). pose proof (show_base _ _ E). split; [assumption|]. apply HB; eauto.
      - intros [Hb Hi]. now apply HB. }
    destruct t as [| | | | | | | | | | | | |x|x|ts|k v]; try discriminate B; cbn [marker].
    + split.
      * intros H. assert (E : exists c, In c cs /\ sp_show x = [c]).
        { apply Hx. destruct (is_fixed x) eqn:F; [|destruct tr; try discriminate H; now elim Hq].
          cbn [implements] in H. split; [|exact H]. destruct x; try reflexivity; discriminate. }
        destruct E as (c & Hc & E). exists (bs "a"), c. split; [right; now left|]. split; [exact Hc|]. cbn [sp_show app]. now rewrite E.
      * intros (p & c & Hp & Hc & E). destruct (Hpre p c Hp) as [->|[->|[-> _]]]; [now elim (Hnb c)| |discriminate E].
        cbn in E. injection E as E. destruct (proj1 (Hx x)) as [Hb Hi]; [eauto|].
        rewrite (Hfix x Hb Hi). exact Hi.
    + split.
      * intros H. assert (F : is_fixed x = true).
        { destruct (is_fixed x) eqn:F; [reflexivity|]. destruct tr; try discriminate H. now elim Hq. }
        rewrite F in H. assert (Ho : tr <> TrOrd) by (intros ->; discriminate H).
        assert (H' : implements tr (marker x) = true) by (destruct tr; try exact H; now elim Ho).
        assert (Hb : base x = true).
        { destruct x; try reflexivity; try discriminate F. all: destruct tr; discriminate H'. }
        destruct (proj2 (Hx x)) as (c & Hc & E); [auto|]. apply Hm in Ho. rewrite Ho.
        exists (bs "m"), c. split; [right; right; now left|]. split; [exact Hc|]. cbn [sp_show app]. now rewrite E.
      * intros (p & c & Hp & Hc & E). destruct (Hpre p c Hp) as [->|[->|[-> Hm']]]; [now elim (Hnb c)|discriminate E|].
        cbn in E. injection E as E. destruct (proj1 (Hx x)) as [Hb Hi]; [eauto|].
        rewrite (Hfix x Hb Hi). apply Hm in Hm'. destruct tr; try exact Hi. now elim Hm'.
    + split; [intros H; destruct tr; discriminate H|]. intros (p & c & Hp & Hc & E).
      destruct (Hpre p c Hp) as [->|[->|[-> _]]]; [now elim (Hnb c)|discriminate E|discriminate E].
    + split; [intros H; destruct tr; discriminate H|]. intros (p & c & Hp & Hc & E).
      destruct (Hpre p c Hp) as [->|[->|[-> _]]]; [now elim (Hnb c)|discriminate E|discriminate E].
Qed.
Ltac bases := clear; intros t B; destruct t; try discriminate B; vm_compute;
  (split; [intros H; (discriminate H || (eexists; split; [|reflexivity]; tauto))
          |intros (c & H & E); injection E as <-; try reflexivity; intuition discriminate]).
Lemma owned_which tr : implements tr GString = true <-> tr <> TrHash.
Proof. destruct tr; cbn; split; congruence. Qed.
Lemma hash_which t : implements TrHash (marker t) = true <->
  exists p c, In p [[]; bs "a"; bs "m"] /\ In c (bs "ynqiuxt") /\ sp_show t = p ++ [c].
Proof. apply (which TrHash (bs "ynqiuxt") true); [bases|discriminate|]. split; [discriminate|reflexivity]. Qed.
Lemma partial_ord_which t : implements TrPartialOrd (marker t) = true <->
  exists p c, In p [[]; bs "a"; bs "m"] /\ In c (bs "ynqiuxtd") /\ sp_show t = p ++ [c].
Proof. apply (which TrPartialOrd (bs "ynqiuxtd") true); [bases|discriminate|]. split; [discriminate|reflexivity]. Qed.
Lemma ord_which t : implements TrOrd (marker t) = true <->
  exists p c, In p [[]; bs "a"] /\ In c (bs "ynqiuxt") /\ sp_show t = p ++ [c].
Proof. apply (which TrOrd (bs "ynqiuxt") false); [bases|discriminate|]. split; [discriminate|]. intros H. now elim H. Qed.

(** ** Offsets *)
Lemma offsets_claim A a n m : try_new A n = Some a ->
  ao_to_usize a = n /\
  (ao_eq_usize a m = true <-> n = m) /\ ao_eq_usize a m = usize_eq_ao m a /\
  (op_lt (ao_cmp_usize a m) = true <-> n < m) /\ (op_le (ao_cmp_usize a m) = true <-> n <= m) /\
  (op_lt (usize_cmp_ao m a) = true <-> m < n) /\ (op_le (usize_cmp_ao m a) = true <-> m <= n).
Proof.
  unfold try_new. destruct (n mod A =? 0); [|discriminate]. intros H. injection H as <-.
  unfold ao_to_usize, ao_eq_usize, usize_eq_ao, ao_cmp_usize, usize_cmp_ao, op_lt, op_le.
  split; [reflexivity|]. rewrite N.eqb_eq. split; [split; intros; congruence|]. split; [reflexivity|].
  repeat split; intros H; destruct (n ?= m) eqn:E1; destruct (m ?= n) eqn:E2; try discriminate H; try reflexivity;
    try (apply N.compare_eq_iff in E1); try (apply N.compare_eq_iff in E2); rewrite ?N.compare_lt_iff, ?N.compare_gt_iff in *; lia.
Qed.
Lemma digits_lead f : forall n, 0 < n -> n < 2 ^ N.of_nat f -> exists c r, digits f 10 n = c :: r /\ c <> "0"%byte.
Proof.
  induction f as [|f IH]; intros n H0 Hn; [cbn in Hn; lia|]. cbn [digits]. destruct (N.ltb_spec n 10).
  - exists (digit n), []. split; [reflexivity|]. intros E.
    assert (D : In n [1;2;3;4;5;6;7;8;9]) by (cbn [In]; lia). cbn [In] in D. revert E.
    decompose [or] D; subst; try tauto; discriminate.
  - rewrite Nat2N.inj_succ, N.pow_succ_r' in Hn. pose proof (N.div_mod n 10 ltac:(lia)). pose proof (N.mod_lt n 10 ltac:(lia)).
    destruct (IH (n / 10)) as (c & r & -> & Hc); [lia|lia|]. exists c, (r ++ [digit (n mod 10)]). now split.
Qed.
Lemma offset_display_claim a :
  (forall c, In c (ao_display a) -> In c (bs "0123456789")) /\ sp_number 10 (ao_display a) = a /\
  (exists c r, ao_display a = c :: r /\ (c = "0"%byte -> r = [])) /\
  (forall b, ao_display a = ao_display b <-> a = b).
Proof.
  assert (E : ao_display a = radix 10 a) by (unfold ao_display; destruct a; reflexivity).
  split; [|split; [|split]].
  - rewrite E. apply Forall_forall, radix10_chars.
  - rewrite E. apply radix_val; lia.
  - rewrite E. destruct (N.eq_dec a 0) as [->|Ha]; [exists "0"%byte, []; now split|].
    destruct (digits_lead (S (N.to_nat (N.log2 a))) a) as (c & r & Er & Hc); [lia| |exists c, r; split; [exact Er|congruence]].
    rewrite Nat2N.inj_succ, N2Nat.id. apply N.log2_spec. lia.
  - intros b. split; [|congruence]. unfold ao_display. intros H. apply core_int_inj in H. lia.
Qed.
Lemma offset_try_claim A n : 0 < A -> (ao_try_from A n = Some n <-> exists k, n = k * A) /\ (ao_try_from A n = None <-> ~ exists k, n = k * A).
Proof.
  intros HA. unfold ao_try_from, try_new.
  assert (E : n mod A = 0 <-> exists k, n = k * A).
  { rewrite N.mod_divide by lia. reflexivity. }
  destruct (n mod A =? 0) eqn:B.
  - apply N.eqb_eq, E in B. split; split; intros; auto; try discriminate. now elim H.
  - apply N.eqb_neq in B. rewrite E in B. split; split; intros; auto; try discriminate. now elim B.
Qed.
Lemma slice_eq_claim a b : as_eq a b = true <-> s_data a = s_data b.
Proof. apply bytes_eqb_eq. Qed.
Lemma derive_claim tr :
  (offset_implements tr <-> tr = StDebug \/ tr = StCopy \/ tr = StClone) /\
  (slice_implements tr <-> tr = StDebug \/ tr = StPartialEq).
Proof. unfold offset_implements, slice_implements, derived_offset, derived_slice, derived_alignment. destruct tr; cbn; intuition discriminate. Qed.
Lemma derive_offset_refuted : In StPartialEq derived_offset /\ ~ offset_implements StPartialEq.
Proof. split; [cbn; tauto|]. intros H. apply derive_claim in H. intuition discriminate. Qed.
Lemma derive_slice_refuted : In StEq derived_slice /\ ~ slice_implements StEq.
Proof. split; [cbn; tauto|]. intros H. apply derive_claim in H. intuition discriminate. Qed.
