(** UTF-8 validation is correct: the byte table accepts exactly the encodings of
    sequences of Unicode scalar values. *)
From Verif Require Import Base Types Strs Spec BaseFacts.

Lemma to_N_bt n : Byte.to_N (bt n) = n mod 256.
Proof. exact (b2n_n2b n). Qed.
Lemma b2n_bt n : b2n (bt n) = n mod 256.
Proof. exact (b2n_n2b n). Qed.
Lemma bt_b2n b n : n mod 256 = b2n b -> bt n = b.
Proof. intros H. apply b2n_inj. now rewrite b2n_bt. Qed.

Lemma in_rng_true lo hi b : lo <= b2n b -> b2n b <= hi -> in_rng lo hi b = true.
Proof. intros. unfold in_rng. lia. Qed.
Lemma in_rng_false lo hi b : b2n b < lo \/ hi < b2n b -> in_rng lo hi b = false.
Proof. intros. unfold in_rng. lia. Qed.

Lemma valid_utf8_char c r : scalar c -> valid_utf8 (utf8_of c ++ r) = valid_utf8 r.
Proof.
  intros Hc. unfold scalar in Hc. unfold utf8_of.
  destruct (c <? 128) eqn:E1; [|destruct (c <? 2048) eqn:E2; [|destruct (c <? 65536) eqn:E3]];
    apply N.ltb_lt in E1 || apply N.ltb_ge in E1;
    try (apply N.ltb_lt in E2 || apply N.ltb_ge in E2);
    try (apply N.ltb_lt in E3 || apply N.ltb_ge in E3); cbn [app valid_utf8].
  - rewrite in_rng_true by (rewrite b2n_bt; lia). reflexivity.
  - rewrite (in_rng_false 0 127) by (rewrite b2n_bt; lia).
    rewrite (in_rng_true 194 223) by (rewrite b2n_bt; lia).
    unfold cont. rewrite (in_rng_true 128 191) by (rewrite b2n_bt; lia). reflexivity.
  - rewrite (in_rng_false 0 127) by (rewrite b2n_bt; lia).
    rewrite (in_rng_false 194 223) by (rewrite b2n_bt; lia).
    rewrite (in_rng_true 224 239) by (rewrite b2n_bt; lia).
    unfold cont. rewrite (in_rng_true 128 191 (bt (128 + c mod 64))) by (rewrite b2n_bt; lia).
    rewrite !b2n_bt.
    destruct ((224 + c / 4096) mod 256 =? 224) eqn:E4.
    + apply N.eqb_eq in E4. rewrite in_rng_true by (rewrite b2n_bt; lia). reflexivity.
    + apply N.eqb_neq in E4. destruct ((224 + c / 4096) mod 256 =? 237) eqn:E5.
      * apply N.eqb_eq in E5. rewrite in_rng_true by (rewrite b2n_bt; lia). reflexivity.
      * rewrite in_rng_true by (rewrite b2n_bt; lia). reflexivity.
  - rewrite (in_rng_false 0 127) by (rewrite b2n_bt; lia).
    rewrite (in_rng_false 194 223) by (rewrite b2n_bt; lia).
    rewrite (in_rng_false 224 239) by (rewrite b2n_bt; lia).
    rewrite (in_rng_true 240 244) by (rewrite b2n_bt; lia).
    unfold cont. rewrite (in_rng_true 128 191 (bt (128 + c mod 64))) by (rewrite b2n_bt; lia).
    rewrite (in_rng_true 128 191 (bt (128 + c / 64 mod 64))) by (rewrite b2n_bt; lia).
    rewrite !b2n_bt.
    destruct ((240 + c / 262144) mod 256 =? 240) eqn:E4.
    + apply N.eqb_eq in E4. rewrite in_rng_true by (rewrite b2n_bt; lia). reflexivity.
    + apply N.eqb_neq in E4. destruct ((240 + c / 262144) mod 256 =? 244) eqn:E5.
      * apply N.eqb_eq in E5. rewrite in_rng_true by (rewrite b2n_bt; lia). reflexivity.
      * rewrite in_rng_true by (rewrite b2n_bt; lia). reflexivity.
Qed.

Lemma in_rng_iff lo hi b : in_rng lo hi b = true <-> lo <= b2n b /\ b2n b <= hi.
Proof. unfold in_rng. rewrite andb_true_iff, !N.leb_le. tauto. Qed.

Lemma valid_utf8_inv d : valid_utf8 d = true ->
  d = [] \/ exists c r, scalar c /\ d = utf8_of c ++ r /\ valid_utf8 r = true.
Proof.
  destruct d as [|b0 r0]; [auto|]. intros H. right. cbn [valid_utf8] in H.
  pose proof (b2n_lt b0) as L0.
  destruct (in_rng 0 127 b0) eqn:R1.
  { apply in_rng_iff in R1. exists (b2n b0), r0. repeat split; auto.
    - unfold scalar. lia.
    - unfold utf8_of. destruct (b2n b0 <? 128) eqn:E; [|lia]. cbn [app]. f_equal. symmetry. apply bt_b2n. lia. }
  destruct (in_rng 194 223 b0) eqn:R2.
  { apply in_rng_iff in R2. destruct r0 as [|b1 r1]; [discriminate|].
    apply andb_true_iff in H as [H1 H]. apply in_rng_iff in H1.
    exists ((b2n b0 - 192) * 64 + (b2n b1 - 128)), r1. repeat split; auto.
    - unfold scalar. lia.
    - unfold utf8_of. set (c := (b2n b0 - 192) * 64 + (b2n b1 - 128)).
      assert (Ec : c = (b2n b0 - 192) * 64 + (b2n b1 - 128)) by reflexivity. clearbody c.
      destruct (c <? 128) eqn:E1; [lia|]. destruct (c <? 2048) eqn:E2; [|lia].
      cbn [app]. f_equal; [symmetry; apply bt_b2n; lia|]. f_equal. symmetry. apply bt_b2n. lia. }
  destruct (in_rng 224 239 b0) eqn:R3.
  { apply in_rng_iff in R3. destruct r0 as [|b1 [|b2 r2]]; try discriminate.
    apply andb_true_iff in H as [H1 H]. apply andb_true_iff in H1 as [H1 H2].
    apply in_rng_iff in H2.
    assert (H1' : 128 <= b2n b1 /\ b2n b1 <= 191 /\ (b2n b0 = 224 -> 160 <= b2n b1) /\ (b2n b0 = 237 -> b2n b1 <= 159)).
    { destruct (b2n b0 =? 224) eqn:E4; [|destruct (b2n b0 =? 237) eqn:E5]; apply in_rng_iff in H1; lia. }
    clear H1.
    exists ((b2n b0 - 224) * 4096 + (b2n b1 - 128) * 64 + (b2n b2 - 128)), r2. repeat split; auto.
    - unfold scalar. lia.
    - unfold utf8_of. set (c := (b2n b0 - 224) * 4096 + (b2n b1 - 128) * 64 + (b2n b2 - 128)).
      assert (Ec : c = (b2n b0 - 224) * 4096 + (b2n b1 - 128) * 64 + (b2n b2 - 128)) by reflexivity. clearbody c.
      destruct (c <? 128) eqn:E1; [lia|]. destruct (c <? 2048) eqn:E2; [lia|].
      destruct (c <? 65536) eqn:E3; [|lia].
      cbn [app]. f_equal; [symmetry; apply bt_b2n; lia|]. f_equal; [symmetry; apply bt_b2n; lia|].
      f_equal. symmetry. apply bt_b2n. lia. }
  destruct (in_rng 240 244 b0) eqn:R4; [|discriminate].
  apply in_rng_iff in R4. destruct r0 as [|b1 [|b2 [|b3 r3]]]; try discriminate.
  apply andb_true_iff in H as [H1 H]. apply andb_true_iff in H1 as [H1 H3].
  apply andb_true_iff in H1 as [H1 H2]. apply in_rng_iff in H2, H3.
  assert (H1' : 128 <= b2n b1 /\ b2n b1 <= 191 /\ (b2n b0 = 240 -> 144 <= b2n b1) /\ (b2n b0 = 244 -> b2n b1 <= 143)).
  { destruct (b2n b0 =? 240) eqn:E4; [|destruct (b2n b0 =? 244) eqn:E5]; apply in_rng_iff in H1; lia. }
  clear H1.
  exists ((b2n b0 - 240) * 262144 + (b2n b1 - 128) * 4096 + (b2n b2 - 128) * 64 + (b2n b3 - 128)), r3.
  repeat split; auto.
  - unfold scalar. lia.
  - unfold utf8_of. set (c := (b2n b0 - 240) * 262144 + (b2n b1 - 128) * 4096 + (b2n b2 - 128) * 64 + (b2n b3 - 128)).
    assert (Ec : c = (b2n b0 - 240) * 262144 + (b2n b1 - 128) * 4096 + (b2n b2 - 128) * 64 + (b2n b3 - 128)) by reflexivity. clearbody c.
    destruct (c <? 128) eqn:E1; [lia|]. destruct (c <? 2048) eqn:E2; [lia|].
    destruct (c <? 65536) eqn:E3; [lia|].
    cbn [app]. f_equal; [symmetry; apply bt_b2n; lia|]. f_equal; [symmetry; apply bt_b2n; lia|].
    f_equal; [symmetry; apply bt_b2n; lia|]. f_equal. symmetry. apply bt_b2n. lia.
Qed.

Lemma utf8_of_length c : (1 <= length (utf8_of c) <= 4)%nat.
Proof.
  unfold utf8_of. destruct (c <? 128); [|destruct (c <? 2048); [|destruct (c <? 65536)]]; cbn; lia.
Qed.

Lemma valid_utf8_ok d : valid_utf8 d = true <-> is_utf8 d.
Proof.
  split.
  - remember (length d) as n eqn:En. revert d En.
    induction n as [n IH] using lt_wf_ind. intros d En H.
    apply valid_utf8_inv in H as [->|(c & r & Hc & -> & Hr)].
    + exists []. split; [constructor|reflexivity].
    + rewrite app_length in En. pose proof (utf8_of_length c).
      destruct (IH (length r)) with (d := r) as (cs & Hcs & E); auto; [lia|].
      exists (c :: cs). split; [now constructor|]. cbn. now rewrite E.
  - intros (cs & Hcs & ->). induction Hcs as [|c cs Hc _ IH]; [reflexivity|].
    cbn [map concat]. now rewrite valid_utf8_char.
Qed.

Lemma valid_utf8_app a b : valid_utf8 a = true -> valid_utf8 b = true -> valid_utf8 (a ++ b) = true.
Proof.
  rewrite !valid_utf8_ok. intros (cs & Hcs & ->) (ds & Hds & ->).
  exists (cs ++ ds). split; [now apply Forall_app|]. now rewrite map_app, concat_app.
Qed.

(** The decidable specification. *)
Lemma starts_with_char_sound n d : starts_with_char n d = true ->
  exists c, scalar c /\ utf8_of c = firstn n d.
Proof.
  unfold starts_with_char. intros H. apply andb_true_iff in H as [H1 H2].
  destruct (list_eq_dec _ _ _) as [E|]; [|discriminate].
  eexists. split; [|exact E]. unfold scalar. lia.
Qed.
Lemma lead_bt k q : k + q < 256 -> (k + q) mod 256 - k = q.
Proof. intros H. rewrite N.mod_small by exact H. lia. Qed.
Lemma cont_bt c : (128 + c mod 64) mod 256 - 128 = c mod 64.
Proof. apply lead_bt. pose proof (N.mod_lt c 64 ltac:(discriminate)). lia. Qed.
Lemma split_by c m : m <> 0 -> c = c / m * m + c mod m.
Proof. intros H. rewrite N.mul_comm. apply N.div_mod. exact H. Qed.
Lemma starts_with_char_complete c r : scalar c ->
  starts_with_char (length (utf8_of c)) (utf8_of c ++ r) = true.
Proof.
  intros Hc. unfold starts_with_char.
  rewrite firstn_app, Nat.sub_diag, firstn_all. cbn [firstn]. rewrite app_nil_r.
  assert (E : match map Byte.to_N (utf8_of c) with
    | [a] => a
    | [a; b] => (a - 192) * 64 + (b - 128)
    | [a; b; c] => (a - 224) * 4096 + (b - 128) * 64 + (c - 128)
    | [a; b; c; e] => (a - 240) * 262144 + (b - 128) * 4096 + (c - 128) * 64 + (e - 128)
    | _ => 1114112
    end = c).
  { unfold scalar in Hc. unfold utf8_of.
    destruct (c <? 128) eqn:E1; [|destruct (c <? 2048) eqn:E2; [|destruct (c <? 65536) eqn:E3]];
      cbn [map]; rewrite ?to_N_bt, ?cont_bt.
    - lia.
    - rewrite lead_bt by lia. symmetry. now apply split_by.
    - rewrite lead_bt by lia. change 4096 with (64 * 64). rewrite <- N.div_div by discriminate.
      clear E1 E2 E3 Hc.
      pose proof (split_by c 64 ltac:(discriminate)) as H1. pose proof (split_by (c / 64) 64 ltac:(discriminate)) as H2.
      revert H1 H2. generalize (c / 64) (c mod 64) (c / 64 mod 64) (c / 64 / 64). intros. lia.
    - rewrite lead_bt by lia. change 262144 with (64 * 64 * 64). change 4096 with (64 * 64). rewrite <- !N.div_div by discriminate.
      clear E1 E2 E3 Hc.
      pose proof (split_by c 64 ltac:(discriminate)) as H1. pose proof (split_by (c / 64) 64 ltac:(discriminate)) as H2.
      pose proof (split_by (c / 64 / 64) 64 ltac:(discriminate)) as H3. revert H1 H2 H3.
      generalize (c / 64) (c / 64 / 64) (c mod 64) (c / 64 mod 64) (c / 64 / 64 mod 64) (c / 64 / 64 / 64).
      intros. lia. }
  rewrite E. destruct (list_eq_dec _ _ _) as [_|N]; [|congruence].
  unfold scalar in Hc. lia.
Qed.

Lemma sp_utf8_go_sound f : forall d, sp_utf8_go f d = true -> valid_utf8 d = true.
Proof.
  induction f as [|f IH]; intros d H; [destruct d; [reflexivity|discriminate]|].
  destruct d as [|b d]; [reflexivity|]. cbn [sp_utf8_go] in H.
  set (l := b :: d) in *.
  assert (Hs : forall n, starts_with_char n l = true -> sp_utf8_go f (skipn n l) = true -> valid_utf8 l = true).
  { intros n Hn Hr. apply starts_with_char_sound in Hn as (c & Hc & E).
    rewrite <- (firstn_skipn n l), <- E, valid_utf8_char by assumption. now apply IH. }
  destruct (starts_with_char 1 l) eqn:E1; [now apply (Hs 1%nat)|].
  destruct (starts_with_char 2 l) eqn:E2; [now apply (Hs 2%nat)|].
  destruct (starts_with_char 3 l) eqn:E3; [now apply (Hs 3%nat)|].
  destruct (starts_with_char 4 l) eqn:E4; [now apply (Hs 4%nat)|discriminate].
Qed.
Lemma sp_utf8_go_complete f : forall d, (length d <= f)%nat -> valid_utf8 d = true -> sp_utf8_go f d = true.
Proof.
  induction f as [|f IH]; intros d Hl H.
  { destruct d; [reflexivity|cbn in Hl; lia]. }
  destruct d as [|b d]; [reflexivity|]. cbn [sp_utf8_go].
  set (l := b :: d) in *.
  assert (Hs : forall n, (1 <= n)%nat -> starts_with_char n l = true -> sp_utf8_go f (skipn n l) = true).
  { intros n Hn1 Hn. apply starts_with_char_sound in Hn as (c & Hc & E). apply IH.
    - rewrite skipn_length. subst l. cbn [length] in *. lia.
    - rewrite <- (firstn_skipn n l), <- E, valid_utf8_char in H by assumption. exact H. }
  destruct (starts_with_char 1 l) eqn:E1; [apply (Hs 1%nat); auto; lia|].
  destruct (starts_with_char 2 l) eqn:E2; [apply (Hs 2%nat); auto; lia|].
  destruct (starts_with_char 3 l) eqn:E3; [apply (Hs 3%nat); auto; lia|].
  destruct (starts_with_char 4 l) eqn:E4; [apply (Hs 4%nat); auto; lia|].
  exfalso. apply valid_utf8_inv in H as [H|(c & r & Hc & E & _)]; [discriminate|].
  pose proof (starts_with_char_complete c r Hc) as Hx. rewrite <- E in Hx.
  pose proof (utf8_of_length c) as Hn.
  destruct (length (utf8_of c)) as [|[|[|[|[|n]]]]]; try lia; congruence.
Qed.
Lemma sp_utf8_valid d : sp_utf8 d = valid_utf8 d.
Proof.
  unfold sp_utf8. destruct (valid_utf8 d) eqn:E.
  - apply sp_utf8_go_complete; auto.
  - destruct (sp_utf8_go (length d) d) eqn:E2; [|reflexivity].
    apply sp_utf8_go_sound in E2. congruence.
Qed.
Lemma sp_utf8_ok d : sp_utf8 d = true <-> is_utf8 d.
Proof. rewrite sp_utf8_valid. apply valid_utf8_ok. Qed.

(** ** NUL bytes *)
Lemma has_nul_iff d : has_nul d = true <-> In x00 d.
Proof.
  unfold has_nul. rewrite existsb_exists. split.
  - intros (b & Hb & E). apply byte_eqb_eq in E. now subst.
  - intros H. exists x00. split; auto.
Qed.
Lemma sp_nul_free_spec d : sp_nul_free d = negb (has_nul d).
Proof.
  unfold sp_nul_free. destruct (in_dec _ _ _) as [H|H]; [apply has_nul_iff in H; now rewrite H|].
  destruct (has_nul d) eqn:E; [apply has_nul_iff in E; tauto|reflexivity].
Qed.
Lemma has_nul_app a b : has_nul (a ++ b) = has_nul a || has_nul b.
Proof. apply existsb_app. Qed.

Lemma nonconf_app s : as_bytes_non_conformant (s ++ [x00]) = s.
Proof. unfold as_bytes_non_conformant. rewrite rev_app_distr. cbn. apply rev_involutive. Qed.
Lemma nonconf_nil : as_bytes_non_conformant [] = [].
Proof. reflexivity. Qed.
Lemma nonconf_snoc s b : b <> x00 -> as_bytes_non_conformant (s ++ [b]) = [].
Proof.
  intros H. unfold as_bytes_non_conformant. rewrite rev_app_distr. cbn.
  destruct b; reflexivity || congruence.
Qed.
Lemma snoc_cases (d : list byte) : d = [] \/ exists s b, d = s ++ [b].
Proof. destruct d as [|x d] using rev_ind; eauto. Qed.

Lemma to_str_spec d : to_str d = sp_string d.
Proof.
  destruct (snoc_cases d) as [->|(s & b & ->)]; [reflexivity|].
  assert (Hsp : sp_string (s ++ [b]) =
     if Byte.eqb b x00 && sp_utf8 s && sp_nul_free s then s else []).
  { unfold sp_string. rewrite last_last, removelast_last.
    destruct (s ++ [b]) eqn:E; [destruct s; discriminate|reflexivity]. }
  rewrite Hsp. destruct (Byte.eqb b x00) eqn:E.
  - apply Byte.byte_dec_bl in E. subst b. unfold to_str. rewrite nonconf_app. cbn [andb].
    rewrite sp_utf8_valid, sp_nul_free_spec. destruct (has_nul s), (valid_utf8 s); reflexivity.
  - unfold to_str. rewrite nonconf_snoc by (intros ->; discriminate). reflexivity.
Qed.
Lemma to_str_good d : good_string (to_str d).
Proof.
  unfold to_str. destruct (has_nul _) eqn:E1.
  { split; [exists []; split; [constructor|reflexivity]|cbn; tauto]. }
  destruct (valid_utf8 _) eqn:E2.
  - split; [now apply valid_utf8_ok|]. rewrite <- has_nul_iff. congruence.
  - split; [exists []; split; [constructor|reflexivity]|cbn; tauto].
Qed.
Lemma to_str_normal s : good_string s -> to_str (s ++ [x00]) = s /\ as_bytes_non_conformant (s ++ [x00]) = s.
Proof.
  intros [Hu Hn]. rewrite nonconf_app. split; [|reflexivity]. unfold to_str. rewrite nonconf_app.
  rewrite <- has_nul_iff in Hn. apply valid_utf8_ok in Hu. rewrite Hu.
  destruct (has_nul s); [tauto|reflexivity].
Qed.
Lemma to_str_bad d : (forall s, good_string s -> d <> s ++ [x00]) -> to_str d = [].
Proof.
  intros H. rewrite to_str_spec. destruct (snoc_cases d) as [->|(s & b & ->)]; [reflexivity|].
  unfold sp_string. rewrite last_last, removelast_last.
  destruct (s ++ [b]) eqn:E; [reflexivity|]. rewrite <- E in *.
  destruct (Byte.eqb b x00 && sp_utf8 s && sp_nul_free s) eqn:Eb; [|reflexivity].
  apply andb_true_iff in Eb as [Eb E3]. apply andb_true_iff in Eb as [E1 E2].
  apply Byte.byte_dec_bl in E1. subst b. exfalso. apply (H s); [|reflexivity].
  split; [now apply sp_utf8_ok|]. rewrite sp_nul_free_spec in E3. rewrite <- has_nul_iff.
  destruct (has_nul s); [discriminate|congruence].
Qed.
