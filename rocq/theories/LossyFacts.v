(** [from_utf8_lossy] (C91). *)
From Verif Require Import Base Types Spec Strs BaseFacts Utf8Facts CoreFmt PrintSpec PrintFacts.
From Coq Require Import Lia ZifyBool ZifyNat ZifyN.
Ltac Zify.zify_post_hook ::= Z.div_mod_to_equations.

(** Length of the character a byte begins, 0 if none; which bytes may follow. *)
Definition need (b : byte) : nat :=
  if in_rng 0 127 b then 1 else if in_rng 194 223 b then 2
  else if in_rng 224 239 b then 3 else if in_rng 240 244 b then 4 else 0.
Definition second (b0 b1 : byte) : bool :=
  if b2n b0 =? 224 then in_rng 160 191 b1
  else if b2n b0 =? 237 then in_rng 128 159 b1
  else if b2n b0 =? 240 then in_rng 144 191 b1
  else if b2n b0 =? 244 then in_rng 128 143 b1
  else cont b1.
Definition follow (b0 : byte) (q : list byte) : bool :=
  match q with [] => true | b1 :: q' => second b0 b1 && forallb cont q' end.

Lemma char_shape c b0 q : scalar c -> utf8_of c = b0 :: q -> length (b0 :: q) = need b0 /\ follow b0 q = true.
Proof.
  intros Hc E. pose proof (valid_utf8_char c [] Hc) as V. rewrite app_nil_r, E in V. cbn [valid_utf8] in V.
  assert (L : forall n, n < 256 -> n mod 256 = n) by (intros n H; apply N.mod_small; exact H).
  unfold utf8_of in E. unfold scalar in Hc. unfold need, follow, second.
  destruct (c <? 128) eqn:E1; [|destruct (c <? 2048) eqn:E2; [|destruct (c <? 65536) eqn:E3]];
    pose proof (f_equal (hd x00) E) as E4; pose proof (f_equal (@tl byte) E) as E5; cbn [hd tl] in E4, E5; subst b0 q; clear E; cbn [length].
  - assert (B : b2n (bt c) = c) by (rewrite b2n_bt; apply L; lia).
    rewrite (in_rng_true 0 127) by lia. auto.
  - assert (B : b2n (bt (192 + c / 64)) = 192 + c / 64) by (rewrite b2n_bt; apply L; lia).
    rewrite (in_rng_false 0 127), (in_rng_true 194 223) in V by lia.
    rewrite (in_rng_false 0 127), (in_rng_true 194 223) by lia. split; [reflexivity|].
    rewrite andb_true_iff in V. rewrite B. cbn [forallb].
    replace (192 + c / 64 =? 224) with false by lia. replace (192 + c / 64 =? 237) with false by lia.
    replace (192 + c / 64 =? 240) with false by lia. replace (192 + c / 64 =? 244) with false by lia. destruct V as [-> _]. reflexivity.
  - assert (B : b2n (bt (224 + c / 4096)) = 224 + c / 4096) by (rewrite b2n_bt; apply L; lia).
    rewrite (in_rng_false 0 127), (in_rng_false 194 223), (in_rng_true 224 239) in V by lia.
    rewrite (in_rng_false 0 127), (in_rng_false 194 223), (in_rng_true 224 239) by lia. split; [reflexivity|].
    rewrite B in *. cbn [forallb]. rewrite !andb_true_iff in V. destruct V as [[V1 V2] _]. rewrite V2.
    destruct (224 + c / 4096 =? 224); [now rewrite V1|]. destruct (224 + c / 4096 =? 237); [now rewrite V1|].
    replace (224 + c / 4096 =? 240) with false by lia. replace (224 + c / 4096 =? 244) with false by lia. now rewrite V1.
  - assert (B : b2n (bt (240 + c / 262144)) = 240 + c / 262144) by (rewrite b2n_bt; apply L; lia).
    rewrite (in_rng_false 0 127), (in_rng_false 194 223), (in_rng_false 224 239), (in_rng_true 240 244) in V by lia.
    rewrite (in_rng_false 0 127), (in_rng_false 194 223), (in_rng_false 224 239), (in_rng_true 240 244) by lia. split; [reflexivity|].
    rewrite B in *. cbn [forallb]. rewrite !andb_true_iff in V. destruct V as [[[V1 V2] V3] _]. rewrite V2, V3.
    replace (240 + c / 262144 =? 224) with false by lia. replace (240 + c / 262144 =? 237) with false by lia.
    destruct (240 + c / 262144 =? 240); [now rewrite V1|]. destruct (240 + c / 262144 =? 244); now rewrite V1.
Qed.
Lemma utf8_cons c : exists b q, utf8_of c = b :: q.
Proof. destruct (utf8_of c) eqn:E; [|eauto]. pose proof (utf8_of_length c). rewrite E in H. cbn in H. lia. Qed.
Lemma second_e b0 b1 : in_rng 224 239 b0 = true ->
  second b0 b1 = if b2n b0 =? 224 then in_rng 160 191 b1 else if b2n b0 =? 237 then in_rng 128 159 b1 else cont b1.
Proof.
  intros R. apply in_rng_iff in R. unfold second.
  replace (b2n b0 =? 240) with false by lia. replace (b2n b0 =? 244) with false by lia. reflexivity.
Qed.
Lemma second_f b0 b1 : in_rng 240 244 b0 = true ->
  second b0 b1 = if b2n b0 =? 240 then in_rng 144 191 b1 else if b2n b0 =? 244 then in_rng 128 143 b1 else cont b1.
Proof.
  intros R. apply in_rng_iff in R. unfold second.
  replace (b2n b0 =? 224) with false by lia. replace (b2n b0 =? 237) with false by lia. reflexivity.
Qed.
Lemma second_c b0 b1 : in_rng 194 223 b0 = true -> second b0 b1 = cont b1.
Proof.
  intros R. apply in_rng_iff in R. unfold second.
  replace (b2n b0 =? 224) with false by lia. replace (b2n b0 =? 237) with false by lia.
  replace (b2n b0 =? 240) with false by lia. replace (b2n b0 =? 244) with false by lia. reflexivity.
Qed.
Lemma shape_char b0 q : length (b0 :: q) = need b0 -> follow b0 q = true -> exists c, scalar c /\ utf8_of c = b0 :: q.
Proof.
  intros Hn Hf.
  assert (V : valid_utf8 (b0 :: q) = true).
  { unfold need in Hn. cbn [valid_utf8]. destruct (in_rng 0 127 b0) eqn:R1.
    { destruct q; [reflexivity|discriminate]. }
    destruct (in_rng 194 223 b0) eqn:R2.
    { destruct q as [|b1 [|b2 q]]; try discriminate. cbn [follow forallb] in Hf. rewrite second_c in Hf by assumption. exact Hf. }
    destruct (in_rng 224 239 b0) eqn:R3.
    { destruct q as [|b1 [|b2 [|b3 q]]]; try discriminate. cbn [follow forallb] in Hf. rewrite second_e, andb_true_r in Hf by assumption.
      now rewrite Hf. }
    destruct (in_rng 240 244 b0) eqn:R4; [|discriminate].
    destruct q as [|b1 [|b2 [|b3 [|b4 q]]]]; try discriminate. cbn [follow forallb] in Hf. rewrite second_f, andb_true_r, andb_assoc in Hf by assumption.
    now rewrite Hf. }
  apply valid_utf8_inv in V as [V|(c & r & Hc & E & _)]; [discriminate|]. exists c. split; [exact Hc|].
  destruct (utf8_cons c) as (b & p & Ec). rewrite Ec in *. injection E as <- E.
  destruct (char_shape c b0 p Hc Ec) as [Hl _]. rewrite E in Hn. cbn [length] in *. rewrite app_length in Hn.
  assert (r = []) as -> by (destruct r; [reflexivity|cbn [length] in Hn; lia]). now rewrite E, app_nil_r.
Qed.
Lemma need_some b0 : need b0 <> O -> exists q, length (b0 :: q) = need b0 /\ follow b0 q = true /\
  forall p, follow b0 p = true -> (length (b0 :: p) <= need b0)%nat -> exists r, length (b0 :: p ++ r) = need b0 /\ follow b0 (p ++ r) = true.
Proof.
  intros Hn. set (b1 := if b2n b0 =? 224 then xa0 else if b2n b0 =? 240 then x90 else x80).
  assert (S1 : second b0 b1 = true).
  { unfold second, b1. destruct (b2n b0 =? 224); [reflexivity|]. destruct (b2n b0 =? 237) eqn:E.
    - replace (b2n b0 =? 240) with false by lia. reflexivity.
    - destruct (b2n b0 =? 240); [reflexivity|]. destruct (b2n b0 =? 244); reflexivity. }
  assert (A : forall p, follow b0 p = true -> (length (b0 :: p) <= need b0)%nat -> exists r, length (b0 :: p ++ r) = need b0 /\ follow b0 (p ++ r) = true).
  { intros p Hp Hl. cbn [length] in Hl. assert (C : forall k, forallb cont (repeat x80 k) = true) by (induction k; [reflexivity|exact IHk]).
    destruct p as [|a p].
    - destruct (need b0) as [|[|k]]; [congruence| |].
      + exists []. split; reflexivity.
      + exists (b1 :: repeat x80 k). cbn [app length follow]. rewrite repeat_length, S1. split; [reflexivity|apply C].
    - exists (repeat x80 (need b0 - length (b0 :: a :: p))). cbn [follow app] in *. rewrite app_comm_cons.
      apply andb_true_iff in Hp as [H1 H2]. rewrite H1, forallb_app, H2, C. split; [|reflexivity].
      cbn [length app] in *. rewrite app_length, repeat_length. lia. }
  destruct (A [] eq_refl) as (q & H1 & H2); [cbn; lia|]. exists q. auto.
Qed.
Lemma begins_iff b0 p : begins_char (b0 :: p) <-> (length (b0 :: p) <= need b0)%nat /\ follow b0 p = true.
Proof.
  split.
  - intros (c & r & Hc & E). destruct (char_shape c b0 (p ++ r) Hc E) as [Hl Hf]. cbn [length] in *. rewrite app_length in Hl.
    split; [lia|]. destruct p as [|b1 p]; [reflexivity|]. cbn [app follow] in *. rewrite forallb_app in Hf.
    rewrite !andb_true_iff in *. tauto.
  - intros [Hl Hf]. destruct (need_some b0) as (_ & _ & _ & A); [cbn [length] in Hl; lia|].
    destruct (A p Hf Hl) as (r & H1 & H2). destruct (shape_char b0 (p ++ r) H1 H2) as (c & Hc & E). exists c, r. auto.
Qed.
Lemma begins_prefix p q : begins_char (p ++ q) -> begins_char p.
Proof. intros (c & r & Hc & E). exists c, (q ++ r). split; [exact Hc|]. now rewrite E, app_assoc. Qed.

(** One replacement. *)
Lemma mend_bad b0 p r o : p = [] \/ follow b0 p = true -> (p = [] /\ need b0 = O \/ (length (b0 :: p) < need b0)%nat) ->
  (forall x s, r = x :: s -> ~ begins_char (b0 :: p ++ [x])) -> mended r o -> mended (b0 :: p ++ r) (utf8_of 65533 ++ o).
Proof.
  intros Hp Hn Hx Hm. change (b0 :: p ++ r) with ((b0 :: p) ++ r).
  assert (Hmax : forall q s, (b0 :: p) ++ r = q ++ s -> begins_char q -> (length q <= length (b0 :: p))%nat).
  { intros q s E Hq. destruct (le_lt_dec (length q) (length (b0 :: p))) as [H|H]; [exact H|exfalso].
    assert (E2 : exists x q', q = (b0 :: p) ++ x :: q').
    { assert (Eq : firstn (length (b0 :: p)) q = b0 :: p).
      { assert (F : firstn (length (b0 :: p)) ((b0 :: p) ++ r) = firstn (length (b0 :: p)) (q ++ s)) by now rewrite E.
        rewrite firstn_app, firstn_all, Nat.sub_diag, app_nil_r in F. rewrite firstn_app in F.
        replace (length (b0 :: p) - length q)%nat with O in F by lia. rewrite app_nil_r in F. now symmetry. }
      destruct (skipn (length (b0 :: p)) q) as [|x q'] eqn:Es.
      - assert (length (skipn (length (b0 :: p)) q) = O) by now rewrite Es. rewrite skipn_length in H0. lia.
      - exists x, q'. rewrite <- Eq at 1. rewrite <- Es. symmetry. apply firstn_skipn. }
    destruct E2 as (x & q' & ->). rewrite <- app_assoc in E. apply app_inv_head in E.
    apply (Hx x (q' ++ s) E). apply (begins_prefix _ q'). cbn [app]. rewrite <- app_assoc. exact Hq. }
  apply mended_bad; [discriminate| | |exact Hmax|exact Hm].
  - destruct Hn as [[-> _]|Hn]; [now right|]. left. apply begins_iff. split; [lia|]. destruct Hp as [->|Hp]; [reflexivity|exact Hp].
  - intros c r' Hc E. destruct (utf8_cons c) as (b & q & Ec).
    assert (Hb : begins_char (utf8_of c)) by (exists c, []; split; [exact Hc|now rewrite app_nil_r]).
    specialize (Hmax _ _ E Hb). rewrite Ec in *. injection E as <- E.
    destruct (char_shape c b0 q Hc Ec) as [Hl _]. destruct Hn as [[-> Hn]|Hn]; cbn [length] in *; lia.
Qed.
Lemma mend_good b0 q r o : length (b0 :: q) = need b0 -> follow b0 q = true -> mended r o -> mended (b0 :: q ++ r) (b0 :: q ++ o).
Proof.
  intros H1 H2 Hm. destruct (shape_char b0 q H1 H2) as (c & Hc & E).
  change (b0 :: q ++ r) with ((b0 :: q) ++ r). change (b0 :: q ++ o) with ((b0 :: q) ++ o). rewrite <- E. now apply mended_char.
Qed.
Ltac no_begin := let H := fresh in intros ? ? H; injection H as <- <-; cbn [app]; rewrite begins_iff; intros [_ H];
  cbn [follow forallb] in H; rewrite ?andb_true_r in H.
Lemma lossy_mended n : forall d, (length d <= n)%nat -> mended d (core_lossy d).
Proof.
  induction n as [|n IH]; intros d Hd.
  { destruct d; [constructor|cbn [length] in Hd; lia]. }
  destruct d as [|b0 r0]; [constructor|]. cbn [length] in Hd. cbn [core_lossy].
  change replacement with (utf8_of 65533).
  assert (E0 : utf8_of 65533 = utf8_of 65533 ++ []) by now rewrite app_nil_r.
  destruct (in_rng 0 127 b0) eqn:R1.
  { apply (mend_good b0 [] r0); [unfold need; now rewrite R1|reflexivity|apply IH; lia]. }
  destruct (in_rng 194 223 b0) eqn:R2.
  { assert (N2 : need b0 = 2%nat) by (unfold need; now rewrite R1, R2).
    destruct r0 as [|b1 r1].
    { rewrite E0. apply (mend_bad b0 [] []); auto; [right; rewrite N2; cbn; lia|discriminate|constructor]. }
    cbn [length] in Hd. destruct (cont b1) eqn:C1.
    - apply (mend_good b0 [b1] r1); [now rewrite N2|cbn [follow forallb]; rewrite second_c, C1 by assumption; reflexivity|apply IH; lia].
    - apply (mend_bad b0 [] (b1 :: r1)); auto; [right; rewrite N2; cbn; lia| |apply IH; cbn [length]; lia].
      no_begin. rewrite second_c in H by assumption. congruence. }
  destruct (in_rng 224 239 b0) eqn:R3.
  { assert (N3 : need b0 = 3%nat) by (unfold need; now rewrite R1, R2, R3).
    destruct r0 as [|b1 r1].
    { rewrite E0. apply (mend_bad b0 [] []); auto; [right; rewrite N3; cbn; lia|discriminate|constructor]. }
    rewrite <- second_e by assumption. cbn [length] in Hd. destruct (second b0 b1) eqn:C1.
    2: { apply (mend_bad b0 [] (b1 :: r1)); auto; [right; rewrite N3; cbn; lia| |apply IH; cbn [length]; lia]. no_begin. congruence. }
    destruct r1 as [|b2 r2].
    { rewrite E0. apply (mend_bad b0 [b1] []); [right; cbn [follow forallb]; now rewrite C1|right; rewrite N3; cbn; lia|discriminate|constructor]. }
    cbn [length] in Hd. destruct (cont b2) eqn:C2.
    - apply (mend_good b0 [b1; b2] r2); [now rewrite N3|cbn [follow forallb]; now rewrite C1, C2|apply IH; lia].
    - apply (mend_bad b0 [b1] (b2 :: r2)); [right; cbn [follow forallb]; now rewrite C1|right; rewrite N3; cbn; lia| |apply IH; cbn [length]; lia].
      no_begin. rewrite C2, andb_false_r in H. discriminate. }
  destruct (in_rng 240 244 b0) eqn:R4.
  { assert (N4 : need b0 = 4%nat) by (unfold need; now rewrite R1, R2, R3, R4).
    destruct r0 as [|b1 r1].
    { rewrite E0. apply (mend_bad b0 [] []); auto; [right; rewrite N4; cbn; lia|discriminate|constructor]. }
    rewrite <- second_f by assumption. cbn [length] in Hd. destruct (second b0 b1) eqn:C1.
    2: { apply (mend_bad b0 [] (b1 :: r1)); auto; [right; rewrite N4; cbn; lia| |apply IH; cbn [length]; lia]. no_begin. congruence. }
    destruct r1 as [|b2 r2].
    { rewrite E0. apply (mend_bad b0 [b1] []); [right; cbn [follow forallb]; now rewrite C1|right; rewrite N4; cbn; lia|discriminate|constructor]. }
    cbn [length] in Hd. destruct (cont b2) eqn:C2.
    2: { apply (mend_bad b0 [b1] (b2 :: r2)); [right; cbn [follow forallb]; now rewrite C1|right; rewrite N4; cbn; lia| |apply IH; cbn [length]; lia].
         no_begin. rewrite C2, andb_false_r in H. discriminate. }
    destruct r2 as [|b3 r3].
    { rewrite E0. apply (mend_bad b0 [b1; b2] []); [right; cbn [follow forallb]; now rewrite C1, C2|right; rewrite N4; cbn; lia|discriminate|constructor]. }
    cbn [length] in Hd. destruct (cont b3) eqn:C3.
    - apply (mend_good b0 [b1; b2; b3] r3); [now rewrite N4|cbn [follow forallb]; now rewrite C1, C2, C3|apply IH; lia].
    - apply (mend_bad b0 [b1; b2] (b3 :: r3)); [right; cbn [follow forallb]; now rewrite C1, C2|right; rewrite N4; cbn; lia| |apply IH; cbn [length]; lia].
      no_begin. rewrite C3, !andb_false_r in H. discriminate. }
  assert (N0 : need b0 = O) by (unfold need; now rewrite R1, R2, R3, R4).
  apply (mend_bad b0 [] r0); auto; [|apply IH; lia].
  intros x s _. cbn [app]. rewrite begins_iff, N0. cbn. lia.
Qed.
(** There is one way to do it. *)
Lemma app_same_length {A} (a b c d : list A) : a ++ b = c ++ d -> length a = length c -> a = c /\ b = d.
Proof.
  revert c. induction a as [|x a IH]; intros [|y c] E L; try discriminate; [auto|].
  injection E as <- E. destruct (IH c E) as [-> ->]; auto.
Qed.
Lemma mended_det d o : mended d o -> forall o', mended d o' -> o = o'.
Proof.
  induction 1 as [|c r o Hc Hm IH|p r o H1 H2 H3 H4 Hm IH]; intros o' H'.
  - inversion H' as [|c r o2 Hc Hm E|p r o2 P1 P2 P3 P4 Pm E]; [reflexivity| |].
    + destruct (utf8_cons c) as (b & q & Ec). rewrite Ec in E. discriminate.
    + destruct p; [congruence|discriminate].
  - remember (utf8_of c ++ r) as d eqn:E. destruct H' as [|c' r' o2 Hc' Hm'|p r' o2 P1 P2 P3 P4 Pm].
    + destruct (utf8_cons c) as (b & q & Ec). rewrite Ec in E. discriminate.
    + symmetry in E. destruct (utf8_prefix c c' r r' Hc Hc' E) as [<- <-]. f_equal. now apply IH.
    + exfalso. now apply (P3 c r).
  - remember (p ++ r) as d eqn:E. destruct H' as [|c' r' o2 Hc' Hm'|p' r' o2 P1 P2 P3 P4 Pm].
    + destruct p; [congruence|discriminate].
    + exfalso. apply (H3 c' r'); [exact Hc'|now symmetry].
    + assert (L : length p = length p').
      { assert (G1 : begins_char p -> (length p <= length p')%nat) by (intros G; now apply (P4 p r)).
        assert (G2 : begins_char p' -> (length p' <= length p)%nat) by (intros G; apply (H4 p' r'); [now symmetry|exact G]).
        assert ((1 <= length p)%nat) by (destruct p; [congruence|cbn; lia]).
        assert ((1 <= length p')%nat) by (destruct p'; [congruence|cbn; lia]).
        destruct H2 as [H2|H2], P2 as [P2|P2]; try specialize (G1 H2); try specialize (G2 P2); lia. }
      destruct (app_same_length p r p' r') as [-> ->]; [now symmetry|exact L|]. f_equal. now apply IH.
Qed.
Lemma lossy_claim d o : mended d o <-> o = core_lossy d.
Proof.
  split.
  - intros H. apply (mended_det d); [exact H|]. now apply (lossy_mended (length d)).
  - intros ->. now apply (lossy_mended (length d)).
Qed.
