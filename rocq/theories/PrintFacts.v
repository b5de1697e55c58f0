(** [{:?}] with the standard library's formats tells values apart (C90, C91). *)
From Verif Require Import Base Types Layout AlignedBytes Strs Spec Deser Buf Histories
  BaseFacts TypesFacts LayoutFacts Utf8Facts DeserFacts StructFacts ReadFacts ReadClaims EqFacts MoveFacts Fmt FmtSpec FmtFacts
  CoreFmt PrintSpec.
From Coq Require Import Lia ZifyBool ZifyNat ZifyN.
Ltac Zify.zify_post_hook ::= Z.div_mod_to_equations.

(** ** Texts cut at the first character of a class *)
Lemma span_eq {A} (P : A -> Prop) a b r r' :
  Forall P a -> Forall P b ->
  (forall c q, r = c :: q -> ~ P c) -> (forall c q, r' = c :: q -> ~ P c) ->
  a ++ r = b ++ r' -> a = b /\ r = r'.
Proof.
  intros Ha. revert b. induction Ha as [|x a Hx Ha IH]; intros b Hb Hr Hr' E.
  - destruct Hb as [|y b Hy Hb]; [auto|]. exfalso. cbn in E. exact (Hr y (b ++ r') E Hy).
  - destruct Hb as [|y b Hy Hb].
    + exfalso. cbn in E. symmetry in E. exact (Hr' x (a ++ r) E Hx).
    + cbn in E. injection E as <- E. destruct (IH b Hb Hr Hr' E) as [-> ->]. auto.
Qed.

(** ** Numbers *)
Lemma digit_val d : d < 16 -> sp_digit (digit d) = d.
Proof.
  intros H. unfold sp_digit, digit. change Byte.to_N with b2n.
  destruct (d <? 10) eqn:E; rewrite b2n_n2b.
  - replace ((48 + d) mod 256) with (48 + d) by lia. destruct (48 + d <? 97) eqn:E'; lia.
  - replace ((87 + d) mod 256) with (87 + d) by lia. destruct (87 + d <? 97) eqn:E'; lia.
Qed.
Lemma digits_val base : 2 <= base -> base <= 16 -> forall fuel n, n < base ^ N.of_nat fuel -> (0 < fuel)%nat ->
  sp_number base (digits fuel base n) = n.
Proof.
  intros H2 H16. induction fuel as [|f IH]; intros n Hn Hf; [lia|]. cbn [digits].
  destruct (n <? base) eqn:E.
  - unfold sp_number. cbn [fold_left]. rewrite digit_val by lia. lia.
  - rewrite Nat2N.inj_succ, N.pow_succ_r' in Hn.
    assert (Hd : n / base < base ^ N.of_nat f) by (apply N.div_lt_upper_bound; lia).
    assert (Hf' : (0 < f)%nat).
    { destruct f; [|lia]. cbn in Hd. assert (1 <= n / base); [|lia].
      apply N.div_le_lower_bound; lia. }
    unfold sp_number in *. rewrite fold_left_app, (IH _ Hd Hf'). cbn [fold_left].
    assert (n mod base < base) by (apply N.mod_lt; lia).
    rewrite digit_val by lia. rewrite (N.div_mod n base) at 3 by lia. lia.
Qed.
Lemma radix_val base n : 2 <= base -> base <= 16 -> sp_number base (radix base n) = n.
Proof.
  intros H2 H16. unfold radix. apply digits_val; auto; [|lia].
  rewrite Nat2N.inj_succ, N2Nat.id.
  destruct (N.eq_dec n 0) as [->|Hn]; [apply N.neq_0_lt_0, N.pow_nonzero; lia|].
  destruct (N.log2_spec n) as [_ H]; [lia|].
  eapply N.lt_le_trans; [exact H|]. apply N.pow_le_mono_l. exact H2.
Qed.
Lemma radix_inj base a b : 2 <= base -> base <= 16 -> radix base a = radix base b -> a = b.
Proof. intros H2 H16 E. rewrite <- (radix_val base a), <- (radix_val base b), E; auto. Qed.
Lemma digits_chars base fuel : 2 <= base -> base <= 16 -> forall n,
  Forall (fun c => exists d, d < base /\ c = digit d) (digits fuel base n).
Proof.
  intros H2 H16. induction fuel as [|f IH]; intros n; cbn [digits]; [constructor|].
  destruct (n <? base) eqn:E.
  - constructor; [exists n; split; [lia|reflexivity]|constructor].
  - apply Forall_app. split; [apply IH|]. constructor; [|constructor].
    exists (n mod base). split; [apply N.mod_lt; lia|reflexivity].
Qed.
Lemma radix_nonempty base n : radix base n <> [].
Proof.
  unfold radix. cbn [digits]. destruct (n <? base); [discriminate|].
  intros E. apply app_eq_nil in E as [_ E]. discriminate.
Qed.
Definition decimal_char (c : byte) : Prop := In c (bs "0123456789").
Definition hex_char (c : byte) : Prop := In c (bs "0123456789abcdef").
Lemma digit_below k d : d < N.of_nat k -> In (digit d) (map (fun i => digit (N.of_nat i)) (seq 0 k)).
Proof.
  intros H. apply in_map_iff. exists (N.to_nat d). split; [now rewrite N2Nat.id|]. apply in_seq. lia.
Qed.
Lemma radix10_chars n : Forall decimal_char (radix 10 n).
Proof.
  unfold radix. eapply Forall_impl; [|apply digits_chars; lia].
  intros c (d & Hd & ->). apply (digit_below 10). exact Hd.
Qed.
Lemma radix16_chars n : Forall hex_char (radix 16 n).
Proof.
  unfold radix. eapply Forall_impl; [|apply digits_chars; lia].
  intros c (d & Hd & ->). apply (digit_below 16). exact Hd.
Qed.
Lemma core_int_val z : sp_int (core_int z) = z.
Proof.
  destruct z as [|p|p]; cbn [core_int].
  - reflexivity.
  - pose proof (radix10_chars (Z.to_N (Zpos p))) as Hc. pose proof (radix_val 10 (Z.to_N (Zpos p)) ltac:(lia) ltac:(lia)) as Hv.
    pose proof (radix_nonempty 10 (Z.to_N (Zpos p))) as Hn.
    destruct (radix 10 (Z.to_N (Zpos p))) as [|c r]; [congruence|].
    assert (Hz : Z.of_N (sp_number 10 (c :: r)) = Zpos p) by (rewrite Hv; reflexivity).
    inversion Hc as [|? ? H1 _]; subst. unfold decimal_char in H1. cbn in H1.
    decompose [or] H1; subst; try tauto; cbn [sp_int]; exact Hz.
  - change (sp_int (bs "-" ++ radix 10 (Npos p))) with (- Z.of_N (sp_number 10 (radix 10 (Npos p))))%Z.
    rewrite radix_val by lia. reflexivity.
Qed.
Lemma core_int_inj a b : core_int a = core_int b -> a = b.
Proof. intros E. rewrite <- (core_int_val a), <- (core_int_val b). now rewrite E. Qed.
Definition num_char (c : byte) : Prop := In c (bs "0123456789.e-infNa").
Lemma decimal_num c : decimal_char c -> num_char c.
Proof. unfold decimal_char, num_char. cbn. intuition auto. Qed.
Lemma core_int_chars z : core_int z <> [] /\ Forall num_char (core_int z).
Proof.
  assert (H : forall n, radix 10 n <> [] /\ Forall num_char (radix 10 n)).
  { intros n. split; [apply radix_nonempty|]. eapply Forall_impl; [apply decimal_num|apply radix10_chars]. }
  destruct z; cbn [core_int]; try apply H. split; [discriminate|]. constructor; [cbn; tauto|apply H].
Qed.

(** ** Strings *)
Lemma low6_bt x : x < 64 -> (128 + x) mod 256 mod 64 = x.
Proof. intros H. rewrite (N.mod_small (128 + x)) by lia. lia. Qed.
Lemma char_cons c r : scalar c -> chars (utf8_of c ++ r) = c :: chars r.
Proof.
  intros Hc. unfold scalar in Hc. unfold utf8_of.
  destruct (c <? 128) eqn:E1; [|destruct (c <? 2048) eqn:E2; [|destruct (c <? 65536) eqn:E3]];
    apply N.ltb_lt in E1 || apply N.ltb_ge in E1;
    try (apply N.ltb_lt in E2 || apply N.ltb_ge in E2);
    try (apply N.ltb_lt in E3 || apply N.ltb_ge in E3); cbn [app chars]; unfold low6; rewrite !b2n_bt.
  - rewrite (proj2 (N.ltb_lt _ _)) by lia. f_equal. lia.
  - rewrite (proj2 (N.ltb_ge _ _)) by lia. rewrite (proj2 (N.ltb_lt _ _)) by lia. f_equal. lia.
  - rewrite (proj2 (N.ltb_ge _ _)) by lia. rewrite (proj2 (N.ltb_ge _ _)) by lia.
    rewrite (proj2 (N.ltb_lt _ _)) by lia. f_equal.
    rewrite !low6_bt by (apply N.mod_lt; discriminate).
    change 4096 with (64 * 64). rewrite <- N.div_div by discriminate.
    pose proof (split_by c 64 ltac:(discriminate)). pose proof (split_by (c / 64) 64 ltac:(discriminate)).
    assert (Hq : c / 64 / 64 < 16) by lia. revert Hq H H0. generalize (c / 64) (c mod 64) (c / 64 mod 64) (c / 64 / 64).
    intros z y x q. intros. replace ((224 + q) mod 256 mod 32) with q by lia. lia.
  - assert (Hq : c / 262144 < 5) by (apply N.div_lt_upper_bound; lia).
    rewrite (N.mod_small (240 + c / 262144)) by lia.
    rewrite (proj2 (N.ltb_ge _ _)) by lia. rewrite (proj2 (N.ltb_ge _ _)) by lia.
    rewrite (proj2 (N.ltb_ge _ _)) by lia. f_equal.
    rewrite !low6_bt by (apply N.mod_lt; discriminate). revert Hq.
    change 262144 with (64 * 64 * 64). change 4096 with (64 * 64). rewrite <- !N.div_div by discriminate.
    pose proof (split_by c 64 ltac:(discriminate)) as H1. pose proof (split_by (c / 64) 64 ltac:(discriminate)) as H2.
    pose proof (split_by (c / 64 / 64) 64 ltac:(discriminate)) as H3. clear E1 E2 E3 Hc. revert H1 H2 H3.
    generalize (c / 64) (c / 64 / 64) (c mod 64) (c / 64 mod 64) (c / 64 / 64 mod 64) (c / 64 / 64 / 64).
    intros v u z y x q. intros. replace ((240 + q) mod 8) with q by lia. lia.
Qed.
Lemma chars_of cs : Forall scalar cs -> chars (concat (map utf8_of cs)) = cs.
Proof.
  induction 1 as [|c cs Hc _ IH]; [reflexivity|]. cbn [map concat]. rewrite char_cons by exact Hc. now rewrite IH.
Qed.
Lemma utf8_prefix a b r r' : scalar a -> scalar b -> utf8_of a ++ r = utf8_of b ++ r' -> a = b /\ r = r'.
Proof.
  intros Ha Hb E. pose proof (f_equal chars E) as H. rewrite !char_cons in H by assumption.
  injection H as -> _. apply app_inv_head in E. auto.
Qed.
Lemma utf8_head c : exists b q, utf8_of c = b :: q /\ (b2n b = c \/ (128 <= c /\ 128 <= b2n b) \/ 1114112 <= c).
Proof.
  unfold utf8_of. destruct (c <? 128) eqn:E1; [|destruct (c <? 2048) eqn:E2; [|destruct (c <? 65536) eqn:E3]];
    eexists _, _; (split; [reflexivity|]); rewrite b2n_bt; lia.
Qed.

Lemma escape_cases shown c : scalar c ->
  (exists x, escape shown c = [n2b 92; x] /\ In (c, x) [(0, "0"); (9, "t"); (13, "r"); (10, "n"); (34, x22); (92, x5c)]%byte) \/
  (escape shown c = utf8_of c /\ c <> 34 /\ c <> 92) \/
  escape shown c = bs "\u{" ++ radix 16 c ++ bs "}".
Proof.
  intros Hc. unfold escape.
  destruct (c =? 0) eqn:E0; [apply N.eqb_eq in E0; subst; left; eexists; split; [reflexivity|cbn; tauto]|].
  destruct (c =? 9) eqn:E1; [apply N.eqb_eq in E1; subst; left; eexists; split; [reflexivity|cbn; tauto]|].
  destruct (c =? 13) eqn:E2; [apply N.eqb_eq in E2; subst; left; eexists; split; [reflexivity|cbn; tauto]|].
  destruct (c =? 10) eqn:E3; [apply N.eqb_eq in E3; subst; left; eexists; split; [reflexivity|cbn; tauto]|].
  destruct (c =? 34) eqn:E4; [apply N.eqb_eq in E4; subst; left; eexists; split; [reflexivity|cbn; tauto]|].
  destruct (c =? 92) eqn:E5; [apply N.eqb_eq in E5; subst; left; eexists; split; [reflexivity|cbn; tauto]|].
  apply N.eqb_neq in E4, E5. cbn [orb]. destruct (shown c); auto.
Qed.
Lemma raw_head c : scalar c -> c <> 34 -> c <> 92 -> exists b q, utf8_of c = b :: q /\ b <> n2b 34 /\ b <> n2b 92.
Proof.
  intros Hs H1 H2. destruct (utf8_head c) as (b & q & E & Hb). exists b, q. split; [exact E|].
  unfold scalar in Hs. split; intros ->; [change (b2n (n2b 34)) with 34 in Hb|change (b2n (n2b 92)) with 92 in Hb]; lia.
Qed.
Lemma hex_span a b r r' : bs "\u{" ++ radix 16 a ++ bs "}" ++ r = bs "\u{" ++ radix 16 b ++ bs "}" ++ r' -> a = b /\ r = r'.
Proof.
  intros E. apply app_inv_head in E.
  assert (Hh : forall s c q, bs "}" ++ s = c :: q -> ~ hex_char c).
  { intros s c q H. cbn [bs String.list_byte_of_string app] in H. injection H as <- _. unfold hex_char. cbn. intuition discriminate. }
  destruct (span_eq hex_char _ _ _ _ (radix16_chars a) (radix16_chars b) (Hh r) (Hh r') E) as [E1 E2].
  apply app_inv_head in E2. apply radix_inj in E1; [auto|lia|lia].
Qed.
Lemma escape_prefix shown a b r r' : scalar a -> scalar b ->
  escape shown a ++ r = escape shown b ++ r' -> a = b /\ r = r'.
Proof.
  intros Ha Hb.
  destruct (escape_cases shown a Ha) as [(x & -> & Hx)|[(-> & A1 & A2)| ->]];
  destruct (escape_cases shown b Hb) as [(y & -> & Hy)|[(-> & B1 & B2)| ->]]; intros E.
  - cbn [app] in E. injection E as <- ->. split; [|reflexivity].
    cbn in Hx, Hy. decompose [or] Hx; decompose [or] Hy; tauto || congruence.
  - destruct (raw_head b Hb B1 B2) as (c & q & E' & C1 & C2). rewrite E' in E. cbn [app] in E. congruence.
  - exfalso. rewrite <- !app_assoc in E. cbn in E. injection E as -> _.
    cbn in Hx. decompose [or] Hx; try congruence; try tauto.
  - destruct (raw_head a Ha A1 A2) as (c & q & E' & C1 & C2). rewrite E' in E. cbn [app] in E. congruence.
  - apply utf8_prefix; assumption.
  - destruct (raw_head a Ha A1 A2) as (c & q & E' & C1 & C2). rewrite E', <- !app_assoc in E. cbn in E. exfalso. apply C2. injection E as E _. rewrite E || rewrite <- E. reflexivity.
  - exfalso. rewrite <- !app_assoc in E. cbn in E. injection E as <- _.
    cbn in Hy. decompose [or] Hy; try congruence; try tauto.
  - destruct (raw_head b Hb B1 B2) as (c & q & E' & C1 & C2). rewrite E', <- !app_assoc in E. cbn in E. exfalso. apply C2. injection E as E _. rewrite E || rewrite <- E. reflexivity.
  - rewrite <- !app_assoc in E. apply hex_span in E. exact E.
Qed.
Lemma escape_head shown c : scalar c -> exists b q, escape shown c = b :: q /\ b <> n2b 34.
Proof.
  intros Hc. destruct (escape_cases shown c Hc) as [(x & -> & Hx)|[(-> & A1 & A2)| ->]].
  - eexists _, _. split; [reflexivity|discriminate].
  - destruct (raw_head c Hc A1 A2) as (b & q & E & H1 & _). eauto.
  - eexists _, _. split; [reflexivity|discriminate].
Qed.
Lemma quoted_prefix shown cs : Forall scalar cs -> forall ds r r', Forall scalar ds ->
  concat (map (escape shown) cs) ++ n2b 34 :: r = concat (map (escape shown) ds) ++ n2b 34 :: r' -> cs = ds /\ r = r'.
Proof.
  induction 1 as [|c cs Hc _ IH]; intros ds r r' Hd E; destruct Hd as [|d ds Hd Hds]; cbn [map concat app] in E.
  - injection E as <-. auto.
  - destruct (escape_head shown d Hd) as (b & q & E' & Hb). rewrite E' in E. cbn [app] in E. congruence.
  - destruct (escape_head shown c Hc) as (b & q & E' & Hb). rewrite E' in E. cbn [app] in E. congruence.
  - rewrite <- !app_assoc in E. apply escape_prefix in E as [-> E]; [|assumption|assumption].
    destruct (IH ds r r' Hds E) as [-> ->]. auto.
Qed.
Lemma core_str_prefix shown a b r r' : is_utf8 a -> is_utf8 b ->
  core_str shown a ++ r = core_str shown b ++ r' -> a = b /\ r = r'.
Proof.
  intros (cs & Hcs & ->) (ds & Hds & ->) E. unfold core_str in E. rewrite !chars_of in E by assumption.
  rewrite <- !app_assoc in E. apply app_inv_head in E. cbn [app] in E.
  destruct (quoted_prefix shown cs Hcs ds r r' Hds E) as [-> ->]. auto.
Qed.

(** ** Lossy conversion *)
Lemma lossy_valid_go n : forall d, (length d <= n)%nat -> valid_utf8 (core_lossy d) = true.
Proof.
  induction n as [|n IH]; intros d Hd.
  { destruct d; [reflexivity|cbn in Hd; lia]. }
  destruct d as [|b0 r0]; [reflexivity|]. cbn [length] in Hd.
  assert (Hrep : forall r, valid_utf8 (replacement ++ r) = valid_utf8 r) by reflexivity.
  cbn [core_lossy]. destruct (in_rng 0 127 b0) eqn:R1; [cbn [valid_utf8]; rewrite R1; apply IH; lia|].
  destruct (in_rng 194 223 b0) eqn:R2.
  { destruct r0 as [|b1 r1]; [reflexivity|]. cbn [length] in Hd.
    destruct (cont b1) eqn:C1; [|rewrite Hrep; apply IH; cbn [length]; lia].
    cbn [valid_utf8]. rewrite R1, R2, C1. apply IH. lia. }
  destruct (in_rng 224 239 b0) eqn:R3.
  { destruct r0 as [|b1 r1]; [reflexivity|]. cbn [length] in Hd.
    match goal with |- context [if ?c then _ else replacement ++ core_lossy (b1 :: r1)] => destruct c eqn:C1 end;
      [|rewrite Hrep; apply IH; cbn [length]; lia].
    destruct r1 as [|b2 r2]; [reflexivity|]. cbn [length] in Hd.
    destruct (cont b2) eqn:C2; [|rewrite Hrep; apply IH; cbn [length]; lia].
    cbn [valid_utf8]. rewrite R1, R2, R3, C1, C2. apply IH. lia. }
  destruct (in_rng 240 244 b0) eqn:R4; [|rewrite Hrep; apply IH; lia].
  destruct r0 as [|b1 r1]; [reflexivity|]. cbn [length] in Hd.
  match goal with |- context [if ?c then _ else replacement ++ core_lossy (b1 :: r1)] => destruct c eqn:C1 end;
    [|rewrite Hrep; apply IH; cbn [length]; lia].
  destruct r1 as [|b2 r2]; [reflexivity|]. cbn [length] in Hd.
  destruct (cont b2) eqn:C2; [|rewrite Hrep; apply IH; cbn [length]; lia].
  destruct r2 as [|b3 r3]; [reflexivity|]. cbn [length] in Hd.
  destruct (cont b3) eqn:C3; [|rewrite Hrep; apply IH; cbn [length]; lia].
  cbn [valid_utf8]. rewrite R1, R2, R3, R4, C1, C2, C3. apply IH. lia.
Qed.
Lemma lossy_same_go n : forall d, (length d <= n)%nat -> valid_utf8 d = true -> core_lossy d = d.
Proof.
  induction n as [|n IH]; intros d Hd H.
  { destruct d; [reflexivity|cbn in Hd; lia]. }
  destruct d as [|b0 r0]; [reflexivity|]. cbn [length] in Hd. cbn [core_lossy valid_utf8] in *.
  destruct (in_rng 0 127 b0) eqn:R1; [now rewrite IH by (lia || assumption)|].
  destruct (in_rng 194 223 b0) eqn:R2.
  { destruct r0 as [|b1 r1]; [discriminate|]. cbn [length] in Hd. apply andb_true_iff in H as [C1 H].
    rewrite C1. now rewrite IH by (lia || assumption). }
  destruct (in_rng 224 239 b0) eqn:R3.
  { destruct r0 as [|b1 [|b2 r2]]; try discriminate. cbn [length] in Hd.
    apply andb_true_iff in H as [H1 H]. apply andb_true_iff in H1 as [C1 C2].
    rewrite C1, C2. now rewrite IH by (lia || assumption). }
  destruct (in_rng 240 244 b0) eqn:R4; [|discriminate].
  destruct r0 as [|b1 [|b2 [|b3 r3]]]; try discriminate. cbn [length] in Hd.
  apply andb_true_iff in H as [H1 H]. apply andb_true_iff in H1 as [H1 C3]. apply andb_true_iff in H1 as [C1 C2].
  rewrite C1, C2, C3. now rewrite IH by (lia || assumption).
Qed.
Theorem lossy_valid d : is_utf8 (core_lossy d).
Proof. apply valid_utf8_ok. now apply lossy_valid_go with (n := length d). Qed.
Theorem lossy_same d : core_lossy d = d <-> is_utf8 d.
Proof.
  split; [intros <-; apply lossy_valid|]. intros H. apply valid_utf8_ok in H.
  now apply lossy_same_go with (n := length d).
Qed.

(** ** Whole values *)
Definition stop (r : list byte) : Prop := r = [] \/ exists c q, r = c :: q /\ In c (bs ",)]").
Lemma stop_cons c q : In c (bs ",)]") -> stop (c :: q).
Proof. right. eauto. Qed.
Definition opens (s : list byte) : Prop := exists c q, s = c :: q /\ ~ In c (bs ",)]").

Inductive shaped : ty -> value -> Prop :=
| sh_bool b : shaped TB (VBool b)
| sh_int t z : In t [TY; TN; TQ; TI; TU; TX; TT] -> shaped t (VInt z)
| sh_double b : shaped TD (VDouble b)
| sh_str t s : In t [TS; TO; TG] -> is_utf8 s -> shaped t (VStr s)
| sh_variant ts d : shaped TV (VVariant ts d)
| sh_array x vs : Forall (shaped x) vs -> shaped (TA x) (VArray vs)
| sh_nothing x : shaped (TM x) (VMaybe None)
| sh_just x v : shaped x v -> shaped (TM x) (VMaybe (Some v))
| sh_struct t vs : is_struct t -> Forall2 shaped (children_of t) vs -> shaped t (VTuple vs).

Lemma legible_list vs : (fix all (vs : list value) : Prop :=
  match vs with [] => True | v :: r => legible v /\ all r end) vs <-> Forall legible vs.
Proof.
  induction vs as [|v vs IH]; [split; auto|]. rewrite IH. split; [intros []; auto|intros H; inversion H; auto].
Qed.

Lemma to_str_utf8 d : is_utf8 (to_str d).
Proof.
  unfold to_str. apply valid_utf8_ok. destruct (has_nul _); [reflexivity|].
  destruct (valid_utf8 (as_bytes_non_conformant d)) eqn:E; [exact E|reflexivity].
Qed.
Lemma mapM_shaped {A} (f : A -> res value) x l vs : (forall a v, In a l -> f a = Ok v -> shaped x v) ->
  mapM f l = Ok vs -> Forall (shaped x) vs.
Proof.
  revert vs. induction l as [|a l IH]; intros vs H E; cbn [mapM] in E; [inversion E; constructor|].
  destruct (f a) eqn:Ea; [|discriminate]. cbn [bind] in E. destruct (mapM f l); [|discriminate]. cbn [bind] in E.
  inversion E; subst. constructor; [eapply H; [now left|eauto]|]. apply IH; auto. intros. eapply H; [right|]; eauto.
Qed.
Lemma macro_child t c : is_struct t -> macro_ok t = true -> In c (children_of t) -> macro_ok c = true.
Proof.
  intros Hs Hm Hc. pose proof (struct_children_ok t Hs Hm) as H. rewrite Forall_forall in H. apply H, Hc.
Qed.
Lemma read_shaped h t : macro_ok t = true -> forall s v, read h t s = Ok v -> shaped t v.
Proof.
  induction t as [t Hns IH|t Hs IH] using ty_struct_ind; intros Hm s v E.
  - destruct t as [| | | | | | | | | | | | |x|x|ts|k w]; cbn [is_struct] in Hns; try tauto; cbn [read] in E;
      try (injection E as <-; first [apply sh_bool | apply sh_int; cbn; tauto | apply sh_double | apply sh_str; [cbn; tauto|apply to_str_utf8]]).
    + destruct (variant_split h s); [|discriminate]. cbn [bind] in E. injection E as <-. constructor.
    + destruct (array_refs h x s) as [rs|]; [|discriminate]. cbn [bind] in E.
      destruct (mapM (read h x) rs) as [vs|] eqn:F; [|discriminate]. cbn [bind] in E. injection E as <-.
      constructor. eapply mapM_shaped; [|exact F]. intros a v _. apply IH; [auto|exact Hm].
    + destruct (to_option h x s) as [[r|]|]; [| |discriminate]; cbn [bind] in E.
      * destruct (read h x r) as [w|] eqn:F; [|discriminate]. cbn [bind] in E. injection E as <-. constructor. eapply IH; eauto.
      * injection E as <-. constructor.
  - destruct (to_tuple h t s) as [rs|c] eqn:Et.
    2:{ destruct t; cbn [is_struct] in Hs; try tauto; cbn [read] in E; rewrite Et in E; discriminate. }
    pose proof (to_tuple_length h t s rs Hs Hm Et) as Hl.
    rewrite (read_struct h t s rs Hs Et Hl) in E.
    destruct (mapM _ _) as [vs|] eqn:F; [|discriminate]. cbn [bind] in E. injection E as <-.
    constructor; [exact Hs|].
    assert (Hc : forall c, In c (children_of t) -> macro_ok c = true) by (intros c; now apply macro_child).
    clear Et Hm. revert rs vs Hl F. induction IH as [|c cs Hc1 _ IHc]; intros rs vs Hl F.
    + cbn in F. injection F as <-. constructor.
    + destruct rs as [|r rs]; [discriminate|]. cbn [combine mapM fst snd] in F.
      destruct (read h c r) as [v|] eqn:R; [|discriminate]. cbn [bind] in F.
      destruct (mapM _ (combine cs rs)) as [ws|] eqn:G; [|discriminate]. cbn [bind] in F. injection F as <-.
      constructor; [eapply Hc1; [apply Hc; now left|exact R]|].
      apply (IHc) with (rs := rs); auto. intros c' H'. apply Hc. now right.
Qed.

Lemma num_stop r : stop r -> forall c q, r = c :: q -> ~ num_char c.
Proof.
  intros [-> | (c & q & -> & Hc)] c' q' E; [discriminate|]. injection E as <- <-. unfold num_char. cbn in *.
  decompose [or] Hc; subst; try tauto; intuition discriminate.
Qed.
Lemma num_opens s : s <> [] -> Forall num_char s -> opens s.
Proof.
  intros Hn H. destruct H as [|c q Hc _]; [congruence|]. exists c, q. split; [reflexivity|].
  intros H. exact (num_stop (c :: q) (stop_cons _ _ H) c q eq_refl Hc).
Qed.
Lemma int_code a b r r' : stop r -> stop r' -> core_int a ++ r = core_int b ++ r' -> a = b /\ r = r'.
Proof.
  intros Hr Hr' E.
  destruct (span_eq num_char _ _ _ _ (proj2 (core_int_chars a)) (proj2 (core_int_chars b)) (num_stop r Hr) (num_stop r' Hr') E) as [E1 E2].
  apply core_int_inj in E1. auto.
Qed.
