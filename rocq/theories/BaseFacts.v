(** Lemmas about the machine model and arithmetic of alignments. *)
From Coq Require Export Lia ZifyBool ZifyNat ZifyN.
From Verif Require Import Base Layout AlignedBytes Spec.
Ltac Zify.zify_post_hook ::= Z.div_mod_to_equations.
Arguments usize_lim : simpl never.

Lemma usize_lim_val : usize_lim = 18446744073709551616.
Proof. reflexivity. Qed.

Ltac ulia := unfold usize_lim in *; lia.

(** ** res *)
Lemma bind_ok {A B} (m : res A) (f : A -> res B) b :
  bind m f = Ok b -> exists a, m = Ok a /\ f a = Ok b.
Proof. destruct m; simpl; [eauto|discriminate]. Qed.

Lemma mapM_ok_map {A B} (f : A -> res B) (g : A -> B) l :
  (forall x, In x l -> f x = Ok (g x)) -> mapM f l = Ok (map g l).
Proof.
  induction l as [|x l IH]; intros H; [reflexivity|].
  cbn [mapM]. rewrite (H x (or_introl eq_refl)). cbn [bind].
  rewrite IH by (intros; apply H; right; assumption). reflexivity.
Qed.

(** ** lengths *)
Lemma blen_nil {A} : blen (@nil A) = 0. Proof. reflexivity. Qed.
Lemma blen_cons {A} (x : A) l : blen (x :: l) = 1 + blen l.
Proof. unfold blen. cbn [length]. lia. Qed.
Lemma blen_app {A} (a b : list A) : blen (a ++ b) = blen a + blen b.
Proof. unfold blen. rewrite app_length. lia. Qed.
Lemma blen_rev {A} (a : list A) : blen (rev a) = blen a.
Proof. unfold blen. now rewrite rev_length. Qed.
Lemma blen_map {A B} (f : A -> B) l : blen (map f l) = blen l.
Proof. unfold blen. now rewrite map_length. Qed.
Lemma blen_take {A} n (l : list A) : blen (take n l) = N.min n (blen l).
Proof. unfold blen, take. rewrite firstn_length. lia. Qed.
Lemma blen_take_le {A} n (l : list A) : n <= blen l -> blen (take n l) = n.
Proof. rewrite blen_take. lia. Qed.
Lemma blen_drop {A} n (l : list A) : blen (drop n l) = blen l - n.
Proof. unfold blen, drop. rewrite skipn_length. lia. Qed.
Lemma blen_zeros n : blen (zeros n) = n.
Proof. unfold blen, zeros. rewrite repeat_length. lia. Qed.
Lemma blen_0 {A} (l : list A) : blen l = 0 -> l = [].
Proof. destruct l; [reflexivity|rewrite blen_cons; lia]. Qed.
Lemma len_blen {A} (l : list A) : len l = blen l.
Proof. reflexivity. Qed.

Lemma take_0 {A} (l : list A) : take 0 l = []. Proof. reflexivity. Qed.
Lemma drop_0 {A} (l : list A) : drop 0 l = l. Proof. reflexivity. Qed.
Lemma take_all {A} n (l : list A) : blen l <= n -> take n l = l.
Proof. intros. unfold take. apply firstn_all2. unfold blen in *. lia. Qed.
Lemma drop_all {A} n (l : list A) : blen l <= n -> drop n l = [].
Proof. intros. unfold drop. apply skipn_all2. unfold blen in *. lia. Qed.
Lemma take_drop {A} n (l : list A) : take n l ++ drop n l = l.
Proof. apply firstn_skipn. Qed.
Lemma take_take {A} n m (l : list A) : take n (take m l) = take (N.min n m) l.
Proof. unfold take. rewrite firstn_firstn. f_equal. lia. Qed.
Lemma drop_drop {A} n m (l : list A) : drop n (drop m l) = drop (m + n) l.
Proof.
  unfold drop. replace (N.to_nat (m + n)) with (N.to_nat m + N.to_nat n)%nat by lia.
  generalize (N.to_nat m) as a, (N.to_nat n) as b. clear. intros a; revert l.
  induction a as [|a IH]; intros l b; [reflexivity|].
  destruct l as [|x l]; cbn [skipn plus]; [now rewrite skipn_nil | apply IH].
Qed.
Lemma drop_take {A} n m (l : list A) : drop n (take m l) = take (m - n) (drop n l).
Proof. unfold drop, take. rewrite skipn_firstn_comm. f_equal. lia. Qed.
Lemma take_drop_comm {A} n m (l : list A) : take n (drop m l) = drop m (take (m + n) l).
Proof. rewrite drop_take. f_equal. lia. Qed.
Lemma take_app_le {A} n (a b : list A) : n <= blen a -> take n (a ++ b) = take n a.
Proof.
  intros. unfold take. rewrite firstn_app.
  replace (N.to_nat n - length a)%nat with 0%nat by (unfold blen in *; lia).
  cbn. apply app_nil_r.
Qed.
Lemma take_app_eq {A} n (a b : list A) : n = blen a -> take n (a ++ b) = a.
Proof. intros ->. rewrite take_app_le by lia. apply take_all. lia. Qed.
Lemma drop_app_eq {A} n (a b : list A) : n = blen a -> drop n (a ++ b) = b.
Proof.
  intros ->. unfold drop. rewrite skipn_app.
  replace (N.to_nat (blen a) - length a)%nat with 0%nat by (unfold blen; lia).
  rewrite skipn_all2 by (unfold blen; lia). reflexivity.
Qed.
Lemma drop_app_ge {A} n (a b : list A) : blen a <= n -> drop n (a ++ b) = drop (n - blen a) b.
Proof.
  intros. unfold drop. rewrite skipn_app.
  rewrite skipn_all2 by (unfold blen in *; lia). cbn [app]. f_equal. unfold blen. lia.
Qed.
Lemma drop_app_le {A} n (a b : list A) : n <= blen a -> drop n (a ++ b) = drop n a ++ b.
Proof.
  intros. unfold drop. rewrite skipn_app.
  replace (N.to_nat n - length a)%nat with 0%nat by (unfold blen in *; lia). reflexivity.
Qed.
Lemma take_app_ge {A} n (a b : list A) : blen a <= n -> take n (a ++ b) = a ++ take (n - blen a) b.
Proof.
  intros. unfold take. rewrite firstn_app.
  rewrite firstn_all2 by (unfold blen in *; lia). f_equal. f_equal. unfold blen. lia.
Qed.

Lemma sub_take_drop d p n : sub d p n = take n (drop p d).
Proof. reflexivity. Qed.
Lemma nuls_zeros n : nuls n = zeros n. Proof. reflexivity. Qed.
Lemma zeros_app a b : zeros a ++ zeros b = zeros (a + b).
Proof. unfold zeros. rewrite <- repeat_app. f_equal. lia. Qed.
Lemma zeros_0 : zeros 0 = []. Proof. reflexivity. Qed.
Lemma drop_zeros a n : drop a (zeros n) = zeros (n - a).
Proof.
  destruct (N.le_gt_cases a n).
  - replace n with (a + (n - a)) at 1 by lia. rewrite <- zeros_app.
    apply drop_app_eq. now rewrite blen_zeros.
  - rewrite drop_all by (rewrite blen_zeros; lia).
    replace (n - a) with 0 by lia. reflexivity.
Qed.
Lemma take_zeros a n : take a (zeros n) = zeros (N.min a n).
Proof.
  destruct (N.le_gt_cases a n).
  - replace n with (a + (n - a)) at 1 by lia. rewrite <- zeros_app.
    rewrite take_app_eq by now rewrite blen_zeros. f_equal. lia.
  - rewrite take_all by (rewrite blen_zeros; lia). f_equal. lia.
Qed.

(** ** bytes *)
Lemma byte_eqb_eq a b : byte_eqb a b = true <-> a = b.
Proof.
  unfold byte_eqb. split; intro H.
  - apply Byte.byte_dec_bl. exact H.
  - subst. apply Byte.byte_dec_lb. reflexivity.
Qed.
Lemma byte_eqb_neq a b : byte_eqb a b = false <-> a <> b.
Proof.
  rewrite <- byte_eqb_eq. destruct (byte_eqb a b); split; congruence.
Qed.
Lemma byte_eqb_refl a : byte_eqb a a = true.
Proof. now apply byte_eqb_eq. Qed.
Lemma bytes_eqb_eq a b : bytes_eqb a b = true <-> a = b.
Proof.
  revert b. induction a as [|x a IH]; destruct b as [|y b]; cbn; try (split; congruence).
  rewrite andb_true_iff, byte_eqb_eq, IH. split; [intros [-> ->]; auto|].
  intros H; injection H; auto.
Qed.
Lemma bytes_eqb_refl a : bytes_eqb a a = true.
Proof. now apply bytes_eqb_eq. Qed.
Lemma bytes_eqb_neq a b : bytes_eqb a b = false <-> a <> b.
Proof. rewrite <- bytes_eqb_eq. destruct (bytes_eqb a b); split; congruence. Qed.

Lemma b2n_lt b : b2n b < 256.
Proof. unfold b2n. pose proof (Byte.to_N_bounded b). lia. Qed.
Lemma b2n_n2b n : b2n (n2b n) = n mod 256.
Proof.
  unfold b2n, n2b. pose proof (Byte.to_of_N_option_map (n mod 256)).
  assert (n mod 256 <=? 255 = true) as Hb by (apply N.leb_le; pose proof (N.mod_lt n 256); lia).
  destruct (Byte.of_N (n mod 256)) eqn:E.
  - apply Byte.to_of_N in E. exact E.
  - apply Byte.of_N_None_iff in E. lia.
Qed.
Lemma n2b_b2n b : n2b (b2n b) = b.
Proof.
  unfold n2b, b2n. rewrite N.mod_small by (pose proof (Byte.to_N_bounded b); lia).
  now rewrite Byte.of_to_N.
Qed.
Lemma b2n_inj a b : b2n a = b2n b -> a = b.
Proof. intros H. rewrite <- (n2b_b2n a), <- (n2b_b2n b). now rewrite H. Qed.
Lemma b2n_0 b : b2n b = 0 <-> b = x00.
Proof. split; intro H; [apply b2n_inj; rewrite H; reflexivity | subst; reflexivity]. Qed.

Lemma le_num_of_le d : le_num d = of_le d.
Proof. induction d; cbn; [reflexivity|]. now rewrite IHd. Qed.
Lemma num_le_to_le k n : num_le k n = to_le k n.
Proof. revert n; induction k; intros; cbn; [reflexivity|]. now rewrite IHk. Qed.
Lemma length_to_le k n : length (to_le k n) = k.
Proof. revert n; induction k; intros; cbn; auto. Qed.
Lemma blen_to_le k n : blen (to_le k n) = N.of_nat k.
Proof. unfold blen. now rewrite length_to_le. Qed.
Lemma of_le_to_le k n : of_le (to_le k n) = n mod 256 ^ N.of_nat k.
Proof.
  revert n. induction k as [|k IH]; intros.
  - cbn. now rewrite N.mod_1_r.
  - cbn [to_le of_le]. rewrite IH, b2n_n2b.
    replace (N.of_nat (S k)) with (1 + N.of_nat k) by lia.
    rewrite N.pow_add_r, N.pow_1_r.
    rewrite N.mod_mul_r; [reflexivity| lia |]. apply N.pow_nonzero. lia.
Qed.
Lemma of_le_bound d : of_le d < 256 ^ blen d.
Proof.
  induction d as [|b d IH]; [cbn; lia|].
  cbn [of_le]. rewrite blen_cons, N.pow_add_r, N.pow_1_r.
  pose proof (b2n_lt b). nia.
Qed.
Lemma to_le_of_le d : to_le (length d) (of_le d) = d.
Proof.
  induction d as [|b d IH]; [reflexivity|].
  cbn [length to_le of_le]. pose proof (b2n_lt b).
  replace ((b2n b + 256 * of_le d) / 256) with (of_le d).
  - rewrite IH. f_equal. unfold n2b.
    replace ((b2n b + 256 * of_le d) mod 256) with (b2n b).
    + unfold b2n. now rewrite Byte.of_to_N.
    + rewrite N.mul_comm, N.mod_add by lia. now rewrite N.mod_small.
  - rewrite N.mul_comm, N.div_add by lia. rewrite N.div_small by lia. lia.
Qed.
Lemma of_le_zeros n : of_le (zeros n) = 0.
Proof. unfold zeros. induction (N.to_nat n); cbn; [reflexivity|]. now rewrite IHn0. Qed.

Lemma sp_num_of_ne h d : sp_num (h_big_endian h) d = of_ne h d.
Proof. unfold sp_num, of_ne. destruct (h_big_endian h); apply le_num_of_le. Qed.

(** ** alignments *)
Lemma alignment_pos A : is_alignment A -> 0 < A.
Proof. unfold is_alignment; lia. Qed.

Lemma ldiff_mask k x : N.ldiff x (2 ^ k - 1) = x / 2 ^ k * 2 ^ k.
Proof.
  replace (2 ^ k - 1) with (N.ones k) by (rewrite N.ones_equiv; lia).
  rewrite N.ldiff_ones_r, N.shiftl_mul_pow2, N.shiftr_div_pow2. reflexivity.
Qed.
Lemma alignment_pow A : is_alignment A -> exists k, A = 2 ^ k /\ k <= 3.
Proof.
  intros [H|[H|[H|H]]]; subst; [exists 0|exists 1|exists 2|exists 3]; split; reflexivity || lia.
Qed.
Lemma align_round A x : is_alignment A -> align x A = (x + A - 1) / A * A.
Proof.
  intros HA. destruct (alignment_pow A HA) as (k & -> & _). unfold align.
  now rewrite ldiff_mask.
Qed.
Lemma pad_to_round A x : is_alignment A -> pad_to A x = (x + A - 1) / A * A.
Proof. intros HA. unfold pad_to. destruct HA as [->|[->|[->| ->]]]; lia. Qed.
Lemma align_pad_to A x : is_alignment A -> align x A = pad_to A x.
Proof. intros. now rewrite align_round, pad_to_round. Qed.
Lemma round_up_pad_to A x : is_alignment A -> round_up x A = pad_to A x.
Proof. intros. rewrite pad_to_round by assumption. reflexivity. Qed.

Lemma pad_to_ge A x : is_alignment A -> x <= pad_to A x.
Proof. intros. unfold pad_to. lia. Qed.
Lemma pad_to_lt A x : is_alignment A -> pad_to A x < x + A.
Proof. intros [->|[->|[->| ->]]]; unfold pad_to; lia. Qed.
Lemma pad_to_mod A x : is_alignment A -> pad_to A x mod A = 0.
Proof. intros HA. rewrite pad_to_round by assumption. apply N.mod_mul. destruct HA; lia. Qed.
Lemma pad_to_id A x : is_alignment A -> x mod A = 0 -> pad_to A x = x.
Proof. intros [->|[->|[->| ->]]]; unfold pad_to; lia. Qed.
Lemma pad_to_0 A : is_alignment A -> pad_to A 0 = 0.
Proof. intros [->|[->|[->| ->]]]; reflexivity. Qed.
Lemma pad_to_least A x y : is_alignment A -> x <= y -> y mod A = 0 -> pad_to A x <= y.
Proof. intros [->|[->|[->| ->]]]; unfold pad_to; lia. Qed.
Lemma pad_to_mono A x y : is_alignment A -> x <= y -> pad_to A x <= pad_to A y.
Proof. intros [->|[->|[->| ->]]]; unfold pad_to; lia. Qed.
Lemma pad_to_1 x : pad_to 1 x = x.
Proof. unfold pad_to. lia. Qed.

(** Alignments divide larger ones. *)
Lemma align_divides a b x : is_alignment a -> is_alignment b -> a <= b -> x mod b = 0 -> x mod a = 0.
Proof. intros [->|[->|[->| ->]]] [->|[->|[->| ->]]]; lia. Qed.
Lemma align_add a x y : is_alignment a -> x mod a = 0 -> y mod a = 0 -> (x + y) mod a = 0.
Proof. intros [->|[->|[->| ->]]]; lia. Qed.
Lemma align_sub a x y : is_alignment a -> x mod a = 0 -> y mod a = 0 -> (x - y) mod a = 0.
Proof. intros [->|[->|[->| ->]]]; lia. Qed.
Lemma align_add_inv a x y : is_alignment a -> x mod a = 0 -> (x + y) mod a = 0 -> y mod a = 0.
Proof. intros [->|[->|[->| ->]]]; lia. Qed.
Lemma is_alignment_max a b : is_alignment a -> is_alignment b -> is_alignment (N.max a b).
Proof. unfold is_alignment. lia. Qed.

(** ** usize arithmetic *)
Lemma uadd_ok h a b : a + b < usize_lim -> uadd h a b = Ok (a + b).
Proof. intros. unfold uadd. destruct (a + b <? usize_lim) eqn:E; [reflexivity|lia]. Qed.
Lemma usub_ok h a b : b <= a -> usub h a b = Ok (a - b).
Proof. intros. unfold usub. destruct (b <=? a) eqn:E; [reflexivity|lia]. Qed.
Lemma umul_ok h a b : a * b < usize_lim -> umul h a b = Ok (a * b).
Proof. intros. unfold umul. destruct (a * b <? usize_lim) eqn:E; [reflexivity|lia]. Qed.

Lemma uand_unot x m : x < usize_lim -> m < usize_lim -> uand x (unot m) = N.ldiff x m.
Proof.
  intros Hx Hm. unfold uand, unot, usize_lim in *.
  destruct (N.eq_dec x 0) as [->|Hx0]; [now rewrite N.land_0_l, N.ldiff_0_l|].
  rewrite (N.ldiff_land_low x m 64) by (apply N.log2_lt_pow2; lia).
  f_equal. destruct (N.eq_dec m 0) as [->|Hm0]; [reflexivity|].
  rewrite N.lnot_sub_low by (apply N.log2_lt_pow2; lia). reflexivity.
Qed.

(** Rounding with a mask is what it should be, as long as [idx + A] fits. *)
Lemma align_offset_ok h A idx :
  is_alignment A -> idx + A < usize_lim -> align_offset h A idx = Ok (pad_to A idx).
Proof.
  intros HA Hlt. unfold align_offset.
  rewrite uadd_ok by assumption. cbn [bind].
  assert (1 <= A) by (destruct HA; lia).
  rewrite usub_ok by lia. cbn [bind]. rewrite usub_ok by lia. cbn [bind].
  rewrite uand_unot by (unfold usize_lim in *; lia).
  rewrite <- align_pad_to by assumption. reflexivity.
Qed.

(** Whatever happens, the result is a multiple of the alignment. *)
Lemma uadd_lt h a b c : a < usize_lim -> b < usize_lim -> uadd h a b = Ok c -> c < usize_lim.
Proof.
  unfold uadd. intros. destruct (a + b <? usize_lim) eqn:E; [inversion H1; lia|].
  destruct (h_overflow_checks h); inversion H1. apply N.mod_lt. unfold usize_lim; lia.
Qed.
Lemma usub_lt h a b c : a < usize_lim -> b < usize_lim -> usub h a b = Ok c -> c < usize_lim.
Proof.
  unfold usub. intros. destruct (b <=? a) eqn:E; [inversion H1; lia|].
  destruct (h_overflow_checks h); inversion H1. lia.
Qed.
Lemma align_offset_mod h A idx r :
  is_alignment A -> idx < usize_lim -> align_offset h A idx = Ok r -> r mod A = 0 /\ r < usize_lim.
Proof.
  intros HA Hi H. unfold align_offset in H.
  apply bind_ok in H as (x & Hx & H). apply bind_ok in H as (y & Hy & H).
  apply bind_ok in H as (m & Hm & H). inversion H; subst r.
  assert (A < usize_lim) by (unfold usize_lim; destruct HA; lia).
  assert (1 <= A) by (destruct HA; lia).
  assert (y < usize_lim).
  { eapply (usub_lt h x 1); [eapply (uadd_lt h idx A); eauto | unfold usize_lim; lia | exact Hy]. }
  rewrite usub_ok in Hm by lia. inversion Hm; subst m.
  rewrite uand_unot by (unfold usize_lim in *; lia).
  destruct (alignment_pow A HA) as (k & -> & _).
  rewrite ldiff_mask. split; [apply N.mod_mul; lia|].
  pose proof (N.mul_div_le y (2 ^ k)). lia.
Qed.

(** ** slices *)
Lemma sl_to_ok s e : e <= slen s -> sl_to s e = Ok (Slice (s_addr s) (take e (s_data s))).
Proof. intros. unfold sl_to. destruct (e <=? slen s) eqn:E; [reflexivity|lia]. Qed.
Lemma sl_from_ok s b : b <= slen s -> sl_from s b = Ok (Slice (s_addr s + b) (drop b (s_data s))).
Proof. intros. unfold sl_from. destruct (b <=? slen s) eqn:E; [reflexivity|lia]. Qed.
Lemma bs_from_ok l b : b <= blen l -> bs_from l b = Ok (drop b l).
Proof. intros. unfold bs_from. destruct (b <=? blen l) eqn:E; [reflexivity|lia]. Qed.
Lemma bs_range_ok l b e : b <= e -> e <= blen l -> bs_range l b e = Ok (take (e - b) (drop b l)).
Proof.
  intros. unfold bs_range.
  destruct ((b <=? e) && (e <=? blen l)) eqn:E; [|lia]. now rewrite drop_take.
Qed.
Lemma bs_at_ok l i : i < blen l -> bs_at l i = Ok (nth (N.to_nat i) l x00).
Proof.
  intros. unfold bs_at. destruct (i <? blen l) eqn:E; [|lia].
  rewrite (nth_error_nth' l x00) by (unfold blen in *; lia). reflexivity.
Qed.
