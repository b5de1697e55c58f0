(** Byte order (C99). *)
From Verif Require Import Base BaseFacts Types Layout LayoutFacts AlignedBytes AlignedFacts Spec Deser DeserFacts Histories LongSpec ArrayFacts StructFacts ReadFacts EncFacts RoundFacts LongFacts
  EqFacts WildFacts SizeFacts AccessFacts Ser SerSpec SerMain SerClaims SwapSpec.
From Coq Require Import Lia ZifyBool ZifyNat ZifyN.
Ltac Zify.zify_post_hook ::= Z.div_mod_to_equations.

(** ** Numbers *)
Lemma num_le_le_num d k : length d = k -> num_le k (le_num d) = d.
Proof. intros <-. rewrite num_le_to_le, le_num_of_le. apply to_le_of_le. Qed.
Lemma le_num_lt d k : length d = k -> le_num d < 256 ^ N.of_nat k.
Proof. intros <-. rewrite le_num_of_le. apply of_le_bound. Qed.
Lemma flip_num d k : length d = k -> sp_flip k (le_num d) = le_num (rev d).
Proof. intros H. unfold sp_flip. now rewrite num_le_le_num. Qed.
Lemma flip_lt k n : sp_flip k n < 256 ^ N.of_nat k.
Proof. apply le_num_lt. rewrite rev_length. apply num_le_length. Qed.
Lemma num_le_flip k n : num_le k (sp_flip k n) = rev (num_le k n).
Proof. apply num_le_le_num. rewrite rev_length. apply num_le_length. Qed.
Lemma sp_num_flip big d k : length d = k -> sp_num (negb big) d = sp_flip k (sp_num big d).
Proof.
  intros H. unfold sp_num. destruct big; cbn [negb].
  - rewrite (flip_num (rev d) k) by (now rewrite rev_length). now rewrite rev_involutive.
  - now rewrite (flip_num d k).
Qed.
Lemma sp_num_lt big d k : length d = k -> sp_num big d < 256 ^ N.of_nat k.
Proof. intros H. unfold sp_num. apply le_num_lt. destruct big; now rewrite ?rev_length. Qed.
Lemma signed_mod bits n : 0 < bits -> n < 2 ^ bits -> Z.to_N (sp_signed bits n mod 2 ^ Z.of_N bits) = n.
Proof.
  intros Hb Hn. unfold sp_signed.
  assert (E : Z.of_N (2 ^ bits) = (2 ^ Z.of_N bits)%Z) by (rewrite N2Z.inj_pow; reflexivity).
  destruct (n <? 2 ^ (bits - 1)).
  - rewrite Z.mod_small by lia. lia.
  - rewrite <- (Z_mod_plus_full _ 1), Z.mul_1_l, Z.sub_add, Z.mod_small by lia. lia.
Qed.
Lemma flip_signed k n : (0 < k)%nat -> n < 256 ^ N.of_nat k -> sp_flip_int k (sp_signed (8 * N.of_nat k) n) = sp_flip k n.
Proof.
  intros Hk Hn. unfold sp_flip_int. f_equal.
  replace (8 * Z.of_nat k)%Z with (Z.of_N (8 * N.of_nat k)) by lia. apply signed_mod; [lia|].
  rewrite N.pow_mul_r. exact Hn.
Qed.
Lemma flip_unsigned k n : n < 256 ^ N.of_nat k -> sp_flip_int k (Z.of_N n) = sp_flip k n.
Proof.
  intros Hn. unfold sp_flip_int. f_equal. rewrite Z.mod_small; [lia|].
  replace (2 ^ (8 * Z.of_nat k))%Z with (Z.of_N (256 ^ N.of_nat k)); [lia|].
  change 256 with (2 ^ 8). rewrite <- N.pow_mul_r, N2Z.inj_pow. f_equal. lia.
Qed.

(** ** Values *)
Definition swap_all (ts : list ty) (vs : list value) : list value := map (fun p => sp_swap (fst p) (snd p)) (combine ts vs).
Lemma swap_struct t vs : is_struct t -> length vs = length (children_of t) ->
  sp_swap t (VTuple vs) = VTuple (swap_all (children_of t) vs).
Proof.
  intros Hs Hl. destruct t as [| | | | | | | | | | | | |x|x|ts|a b]; cbn [is_struct] in Hs; try tauto; cbn [sp_swap children_of] in *.
  - f_equal. revert vs Hl. clear Hs. induction ts as [|t ts IH]; intros [|v vs] Hl; try discriminate; [reflexivity|].
    unfold swap_all in *. cbn [combine map fst snd]. f_equal. apply IH. cbn in Hl. lia.
  - destruct vs as [|x [|y [|]]]; try discriminate. reflexivity.
Qed.
Lemma sized_length (d : option (list byte)) n : length (match d with Some b => if len b =? n then b else nuls n | None => nuls n end) = N.to_nat n.
Proof.
  assert (H : length (nuls n) = N.to_nat n) by apply repeat_length.
  destruct d as [b|]; [|exact H]. destruct (len b =? n) eqn:E; [|exact H]. unfold len in E. lia.
Qed.
Lemma one_flip n : n < 256 -> sp_flip 1 n = n.
Proof. intros H. unfold sp_flip. change (rev (num_le 1 n)) with (num_le 1 n). now apply num_le_back. Qed.
Lemma decode_swap big t : forall d, sp_decode (negb big) t d = sp_swap t (sp_decode big t d).
Proof.
  induction t as [t Hns IH|t Hs IH] using ty_struct_ind; intros d.
  - destruct t as [| | | | | | | | | | | | |x|x|ts|k v]; cbn [is_struct] in Hns; try tauto; cbn [sp_decode sp_swap].
    + do 3 f_equal. rewrite (sp_num_flip _ _ 1) by apply sized_length. apply one_flip. apply (sp_num_lt _ _ 1). apply sized_length.
    + do 2 f_equal. rewrite (sp_num_flip _ _ 1) by apply sized_length. apply one_flip. apply (sp_num_lt _ _ 1). apply sized_length.
    + do 2 f_equal. rewrite (flip_signed 2) by (try (apply sp_num_lt; apply sized_length); lia). apply sp_num_flip, sized_length.
    + do 2 f_equal. rewrite (flip_unsigned 2) by (apply sp_num_lt; apply sized_length). apply sp_num_flip, sized_length.
    + do 2 f_equal. rewrite (flip_signed 4) by (try (apply sp_num_lt; apply sized_length); lia). apply sp_num_flip, sized_length.
    + do 2 f_equal. rewrite (flip_unsigned 4) by (apply sp_num_lt; apply sized_length). apply sp_num_flip, sized_length.
    + do 2 f_equal. rewrite (flip_signed 8) by (try (apply sp_num_lt; apply sized_length); lia). apply sp_num_flip, sized_length.
    + do 2 f_equal. rewrite (flip_unsigned 8) by (apply sp_num_lt; apply sized_length). apply sp_num_flip, sized_length.
    + f_equal. apply sp_num_flip, sized_length.
    + f_equal. rewrite map_map. apply map_ext. intros c. apply IH. now left.
    + destruct (sp_size x).
      * destruct (_ =? _); [|reflexivity]. cbn. do 2 f_equal. apply IH. now right.
      * destruct (match d with Some b => b | None => [] end); [reflexivity|]. do 2 f_equal. apply IH. now right.
  - rewrite sp_decode_norm, (sp_decode_norm big). pose proof (norm_good t d) as Hg.
    rewrite !sp_decode_struct by assumption. rewrite swap_struct; [|assumption|].
    + f_equal. unfold dec_all, swap_all. generalize (struct_cuts t (norm t d)). clear Hs Hg.
      induction IH as [|c cs Hc _ IHc]; intros [|x xs]; cbn [combine map fst snd]; try reflexivity.
      f_equal; [apply Hc|apply IHc].
    + unfold dec_all. rewrite map_length, combine_length, struct_cuts_length. lia.
Qed.
Lemma int_swap_s big k z : (0 < k)%nat -> sp_int (negb big) k z = sp_int big k (sp_signed (8 * N.of_nat k) (sp_flip_int k z)).
Proof.
  intros Hk. unfold sp_int. replace (8 * Z.of_nat k)%Z with (Z.of_N (8 * N.of_nat k)) by lia.
  rewrite signed_mod; [|lia|rewrite N.pow_mul_r; apply flip_lt].
  unfold sp_flip_int. rewrite num_le_flip. replace (Z.of_N (8 * N.of_nat k)) with (8 * Z.of_nat k)%Z by lia.
  destruct big; cbn [negb]; [now rewrite rev_involutive|reflexivity].
Qed.
Lemma int_swap_u big k z : sp_int (negb big) k z = sp_int big k (Z.of_N (sp_flip_int k z)).
Proof.
  unfold sp_int. pose proof (flip_lt k (Z.to_N (z mod 2 ^ (8 * Z.of_nat k)))) as Hl. fold (sp_flip_int k z) in Hl.
  rewrite (Z.mod_small (Z.of_N _)).
  - rewrite N2Z.id. unfold sp_flip_int. rewrite num_le_flip.
    destruct big; cbn [negb]; [now rewrite rev_involutive|reflexivity].
  - replace (2 ^ (8 * Z.of_nat k))%Z with (Z.of_N (256 ^ N.of_nat k)); [lia|].
    change 256 with (2 ^ 8). rewrite <- N.pow_mul_r, N2Z.inj_pow. f_equal. lia.
Qed.
Lemma bytes_swap tail big t : forall v, sp_typed t v -> sp_bytes tail (negb big) t v = sp_bytes tail big t (sp_swap t v).
Proof.
  induction t as [t Hns IH|t Hs IH] using ty_struct_ind; intros v Ht.
  - destruct t as [| | | | | | | | | | | | |x|x|ts|k w]; cbn [is_struct] in Hns; try tauto; destruct v as [z|bits|b|s|s d|vs|o|vs]; cbn [sp_typed] in Ht; try tauto; cbn [sp_bytes sp_swap]; try reflexivity.
    + unfold sp_int. now destruct big.
    + apply (int_swap_s big 2). lia.
    + apply int_swap_u.
    + apply (int_swap_s big 4). lia.
    + apply int_swap_u.
    + apply (int_swap_s big 8). lia.
    + apply int_swap_u.
    + rewrite int_swap_u. do 2 f_equal. apply flip_unsigned. exact Ht.
    + apply (typed_array x) in Ht. rewrite map_map.
      assert (E : map (sp_bytes tail (negb big) x) vs = map (fun v => sp_bytes tail big x (sp_swap x v)) vs).
      { clear - IH Ht. induction Ht; cbn [map]; [reflexivity|]. f_equal; [apply IH; auto|exact IHHt]. }
      now rewrite E.
    + destruct o as [w|]; [|reflexivity]. rewrite (IH x) by auto. reflexivity.
  - destruct (typed_struct t v Hs Ht) as (vs & -> & H). assert (Hl : length (children_of t) = length vs) by (eapply Forall2_length; exact H).
    rewrite swap_struct, !bytes_struct by (auto; unfold swap_all; rewrite ?map_length, ?combine_length; lia).
    f_equal. unfold enc_all, swap_all. clear Hs Ht Hl. revert IH. induction H as [|c v cs vs Hv _ IHc]; intros HF; cbn [combine map fst snd]; [reflexivity|].
    inversion HF; subst. f_equal; auto.
Qed.
Lemma flip_flip k n : n < 256 ^ N.of_nat k -> sp_flip k (sp_flip k n) = n.
Proof. intros H. unfold sp_flip at 1. rewrite num_le_flip, rev_involutive. now apply num_le_back. Qed.
Lemma pow256 k : Z.of_N (256 ^ N.of_nat k) = (2 ^ (8 * Z.of_nat k))%Z.
Proof. change 256 with (2 ^ 8). rewrite <- N.pow_mul_r, N2Z.inj_pow. f_equal. lia. Qed.
Lemma signed_of bits z : 0 < bits -> (- 2 ^ (Z.of_N bits - 1) <= z < 2 ^ (Z.of_N bits - 1))%Z ->
  sp_signed bits (Z.to_N (z mod 2 ^ Z.of_N bits)) = z.
Proof.
  intros Hb Hz. unfold sp_signed.
  assert (E : (2 ^ Z.of_N bits = 2 * 2 ^ (Z.of_N bits - 1))%Z).
  { rewrite <- Z.pow_succ_r by lia. f_equal. lia. }
  assert (E' : Z.of_N (2 ^ (bits - 1)) = (2 ^ (Z.of_N bits - 1))%Z).
  { rewrite N2Z.inj_pow. f_equal. lia. }
  rewrite E. remember (2 ^ (Z.of_N bits - 1))%Z as p eqn:Ep. clear Ep.
  assert (Hm : (z mod (2 * p) = if z <? 0 then z + 2 * p else z)%Z).
  { destruct (z <? 0)%Z eqn:Ez.
    - rewrite <- (Z_mod_plus_full z 1). rewrite Z.mul_1_l. apply Z.mod_small. lia.
    - apply Z.mod_small. lia. }
  rewrite Hm. destruct (z <? 0)%Z eqn:Ez.
  - replace (Z.to_N (z + 2 * p) <? 2 ^ (bits - 1)) with false by (symmetry; apply N.ltb_ge; lia). lia.
  - replace (Z.to_N z <? 2 ^ (bits - 1)) with true by (symmetry; apply N.ltb_lt; lia). lia.
Qed.
Lemma signed_range bits n : 0 < bits -> n < 2 ^ bits ->
  (- 2 ^ (Z.of_N bits - 1) <= sp_signed bits n < 2 ^ (Z.of_N bits - 1))%Z.
Proof.
  intros Hb Hn. unfold sp_signed.
  assert (E : (2 ^ Z.of_N bits = 2 * 2 ^ (Z.of_N bits - 1))%Z).
  { rewrite <- Z.pow_succ_r by lia. f_equal. lia. }
  assert (E' : Z.of_N (2 ^ (bits - 1)) = (2 ^ (Z.of_N bits - 1))%Z).
  { rewrite N2Z.inj_pow. f_equal. lia. }
  assert (E2 : Z.of_N (2 ^ bits) = (2 ^ Z.of_N bits)%Z) by (rewrite N2Z.inj_pow; reflexivity).
  destruct (n <? 2 ^ (bits - 1)) eqn:Ez; lia.
Qed.
Lemma swap_s k bits z : bits = 8 * N.of_nat k -> (0 < k)%nat -> (- 2 ^ (Z.of_N bits - 1) <= z < 2 ^ (Z.of_N bits - 1))%Z ->
  (- 2 ^ (Z.of_N bits - 1) <= sp_signed bits (sp_flip_int k z) < 2 ^ (Z.of_N bits - 1))%Z /\
  sp_signed bits (sp_flip_int k (sp_signed bits (sp_flip_int k z))) = z.
Proof.
  intros -> Hk Hz. split; [apply signed_range; [lia|]; rewrite N.pow_mul_r; apply flip_lt|].
  rewrite (flip_signed k) by (auto; apply flip_lt). unfold sp_flip_int. rewrite flip_flip.
  - replace (8 * Z.of_nat k)%Z with (Z.of_N (8 * N.of_nat k)) by lia. apply signed_of; [lia|exact Hz].
  - pose proof (pow256 k). pose proof (Z.mod_pos_bound z (2 ^ (8 * Z.of_nat k))). lia.
Qed.
Lemma swap_u k z : (0 <= z < 2 ^ (8 * Z.of_nat k))%Z ->
  (0 <= Z.of_N (sp_flip_int k z) < 2 ^ (8 * Z.of_nat k))%Z /\ Z.of_N (sp_flip_int k (Z.of_N (sp_flip_int k z))) = z.
Proof.
  intros Hz. pose proof (pow256 k) as Hp. split; [pose proof (flip_lt k (Z.to_N (z mod 2 ^ (8 * Z.of_nat k)))) as Hl; unfold sp_flip_int; lia|].
  rewrite flip_unsigned by apply flip_lt. unfold sp_flip_int. rewrite Z.mod_small by exact Hz. rewrite flip_flip by lia. lia.
Qed.
Lemma swap_typed t : forall v, sp_typed t v -> sp_typed t (sp_swap t v) /\ sp_swap t (sp_swap t v) = v.
Proof.
  induction t as [t Hns IH|t Hs IH] using ty_struct_ind; intros v Ht.
  - destruct t as [| | | | | | | | | | | | |x|x|ts|k w]; cbn [is_struct] in Hns; try tauto; destruct v as [z|bits|b|s|s d|vs|o|vs]; cbn [sp_typed] in Ht; try tauto; cbn [sp_swap]; try (split; [exact Ht|reflexivity]).
    + destruct (swap_s 2 16 z) as [H1 H2]; [reflexivity|lia|exact Ht|]. split; [exact H1|now f_equal].
    + destruct (swap_u 2 z Ht) as [H1 H2]. split; [exact H1|now f_equal].
    + destruct (swap_s 4 32 z) as [H1 H2]; [reflexivity|lia|exact Ht|]. split; [exact H1|now f_equal].
    + destruct (swap_u 4 z Ht) as [H1 H2]. split; [exact H1|now f_equal].
    + destruct (swap_s 8 64 z) as [H1 H2]; [reflexivity|lia|exact Ht|]. split; [exact H1|now f_equal].
    + destruct (swap_u 8 z Ht) as [H1 H2]. split; [exact H1|now f_equal].
    + split; [apply (flip_lt 8)|]. f_equal. now apply flip_flip.
    + apply (typed_array x) in Ht. rewrite (typed_array x). split.
      * apply Forall_map. eapply Forall_impl; [|exact Ht]. intros w Hw. apply IH; auto.
      * f_equal. rewrite map_map. clear -Ht IH. induction Ht; cbn [map]; [reflexivity|]. f_equal; [apply IH; auto|assumption].
    + destruct o as [w|]; [|now split]. cbn [sp_typed sp_swap]. destruct (IH x (or_intror eq_refl) w Ht) as [H1 H2]. split; [exact H1|now do 2 f_equal].
  - destruct (typed_struct t v Hs Ht) as (vs & -> & H). assert (Hl : length (children_of t) = length vs) by (eapply Forall2_length; exact H).
    assert (Hl' : length (swap_all (children_of t) vs) = length (children_of t)) by (unfold swap_all; rewrite map_length, combine_length; lia).
    rewrite swap_struct by auto. rewrite swap_struct by auto.
    assert (G : Forall2 sp_typed (children_of t) (swap_all (children_of t) vs) /\
                swap_all (children_of t) (swap_all (children_of t) vs) = vs).
    { clear Hs Ht Hl Hl'. revert IH. induction H as [|c v cs vs Hv _ IHc]; intros HF; [split; [constructor|reflexivity]|].
      inversion HF; subst. destruct (IHc ltac:(assumption)) as [G1 G2]. match goal with X : forall v, sp_typed c v -> _ |- _ => destruct (X v Hv) as [K1 K2] end.
      unfold swap_all in *. cbn [combine map fst snd]. split; [constructor; auto|]. f_equal; auto. }
    destruct G as [G1 G2]. split; [now apply typed_struct_intro|now rewrite G2].
Qed.
Lemma swap_portable t : sp_portable t = true -> forall v, sp_typed t v -> sp_swap t v = v.
Proof.
  induction t as [t Hns IH|t Hs IH] using ty_struct_ind; intros Hp v Ht.
  - destruct t as [| | | | | | | | | | | | |x|x|ts|k w]; cbn [is_struct] in Hns; try tauto; cbn [sp_portable] in Hp; try discriminate;
      destruct v as [z|bits|b|s|s d|vs|o|vs]; cbn [sp_typed] in Ht; try tauto; cbn [sp_swap]; try reflexivity.
    + apply (typed_array x) in Ht. f_equal. induction Ht; cbn [map]; [reflexivity|]. f_equal; [apply IH; auto|assumption].
    + destruct o as [w|]; [|reflexivity]. do 2 f_equal. apply IH; auto.
  - destruct (typed_struct t v Hs Ht) as (vs & -> & H). assert (Hl : length (children_of t) = length vs) by (eapply Forall2_length; exact H).
    rewrite swap_struct by auto. f_equal.
    assert (HF : Forall (fun c => sp_portable c = true) (children_of t)).
    { destruct t; cbn [is_struct] in Hs; try tauto; cbn [sp_portable children_of] in *.
      - apply forallb_forall in Hp || (apply Forall_forall; now apply forallb_forall).
      - apply andb_true_iff in Hp as []. auto. }
    clear Hs Ht Hl Hp. revert IH HF. unfold swap_all. induction H as [|c v cs vs Hv _ IHc]; intros H1 H2; [reflexivity|].
    inversion H1; inversion H2; subst. cbn [combine map fst snd]. f_equal; auto.
Qed.

(** ** A value that tells the byte orders apart *)
Fixpoint ones (t : ty) : value :=
  match t with
  | TB => VBool true
  | TY | TN | TQ | TI | TU | TX | TT => VInt 1
  | TD => VDouble 1
  | TS | TO | TG => VStr []
  | TV => VVariant ["("; ")"]%byte []
  | TA x => VArray [ones x]
  | TM x => VMaybe (Some (ones x))
  | TTuple ts => VTuple (map ones ts)
  | TDict a b => VTuple [ones a; ones b]
  end.
Lemma ones_struct t : is_struct t -> ones t = VTuple (map ones (children_of t)).
Proof. destruct t; cbn [is_struct]; try tauto; reflexivity. Qed.
Lemma good_nil : good_string [].
Proof. split; [apply Utf8Facts.sp_utf8_ok; reflexivity|intros []]. Qed.
Lemma ones_typed t : sp_typed t (ones t).
Proof.
  induction t as [t Hns IH|t Hs IH] using ty_struct_ind.
  - destruct t; cbn [is_struct] in Hns; try tauto; cbn [sp_typed ones]; try exact I; try lia; try exact good_nil.
    + intros H. cbn in H. intuition discriminate.
    + split; [apply IH; now left|exact I].
    + apply IH. now right.
  - rewrite ones_struct by assumption. apply typed_struct_intro; [assumption|].
    clear Hs. induction IH; cbn [map]; constructor; auto.
Qed.
Lemma ones_swap t : sp_portable t = false -> sp_swap t (ones t) <> ones t.
Proof.
  induction t as [t Hns IH|t Hs IH] using ty_struct_ind; intros Hp E.
  - destruct t; cbn [is_struct] in Hns; try tauto; cbn [sp_portable] in Hp; try discriminate; cbn [sp_swap ones] in E; lazymatch type of E with VArray _ = _ => idtac | VMaybe _ = _ => idtac | _ => vm_compute in E; discriminate end.
    + injection E as E. eapply IH; eauto.
    + injection E as E. eapply IH; eauto.
  - rewrite ones_struct, swap_struct in E by (auto; now rewrite map_length). injection E as E.
    assert (HF : exists c, In c (children_of t) /\ sp_portable c = false).
    { destruct t; cbn [is_struct] in Hs; try tauto; cbn [sp_portable children_of] in *.
      - clear -Hp. induction ts as [|c ts IHt]; cbn [forallb] in Hp; [discriminate|]. apply andb_false_iff in Hp as [H|H].
        + exists c. split; [now left|exact H]. + destruct (IHt H) as (d & ? & ?). exists d. split; [now right|assumption].
      - apply andb_false_iff in Hp as [H|H]; [exists t1|exists t2]; (split; [cbn; auto|exact H]). }
    destruct HF as (c & Hc & Hf). clear Hs Hp. revert E IH. unfold swap_all.
    induction (children_of t) as [|d ds IHd]; [contradiction|]. cbn [map combine fst snd]. intros E HF.
    inversion HF as [|? ? Hd Hds]; subst. injection E as E1 E2. destruct Hc as [->|Hc]; [exact (Hd Hf E1)|exact (IHd Hc E2 Hds)].
Qed.
Lemma lay_struct_upper items : Forall (fun it => is_alignment (fst it)) items -> forall bodies pos,
  len (fst (sp_lay_struct pos items bodies)) <= len (concat bodies) + 7 * len bodies /\
  len (snd (sp_lay_struct pos items bodies)) <= len bodies.
Proof.
  induction 1 as [|[al size] items Hal _ IH]; intros [|b bodies] pos; cbn [sp_lay_struct]; try (cbn [fst snd]; unfold len; cbn [length]; lia).
  specialize (IH bodies (pad_to al pos + len b)). destruct (sp_lay_struct _ items bodies) as [rest ends] eqn:E.
  cbn [fst snd concat] in *. pose proof (pad_to_ge al pos Hal). pose proof (pad_to_lt al pos Hal). cbn [fst] in *.
  assert (pad_to al pos - pos <= 7) by (destruct Hal as [->|[->|[->| ->]]]; lia).
  assert (El : len (nuls (pad_to al pos - pos) ++ b ++ rest) = pad_to al pos - pos + len b + len rest)
    by (change @len with @blen in *; change nuls with zeros; rewrite !blen_app, blen_zeros; lia).
  assert (Ec : len (b ++ concat bodies) = len b + len (concat bodies)) by apply blen_app.
  assert (Es : len (b :: bodies) = len bodies + 1) by (unfold len; cbn [length]; lia).
  rewrite El, Ec, Es. split; [lia|]. destruct size, items; try lia. unfold len in *; cbn [length]; lia.
Qed.
Lemma ones_len big t : len (sp_encode big t (ones t)) + 20 <= 40 * type_len t.
Proof.
  unfold sp_encode. induction t as [t Hns IH|t Hs IH] using ty_struct_ind.
  - pose proof (type_len_pos t) as Hp.
    destruct t as [| | | | | | | | | | | | |x|x|ts|a b]; cbn [is_struct] in Hns; try tauto; cbn [sp_bytes ones];
      try (destruct big; change 20 with (20 * 1); cbn - [type_len N.mul N.add]; lia).
    + pose proof (IH x (or_introl eq_refl)) as H. assert (El : type_len (TA x) = type_len x + 1) by (unfold type_len, blen; cbn [display length]; lia).
      cbn [map]. rewrite El. destruct (sp_fixed x).
      * cbn [concat]. rewrite app_nil_r. lia.
      * unfold sp_array_bytes. cbn [sp_lay]. rewrite app_nil_r.
        assert (E0 : pad_to (sp_align x) 0 = 0) by (rewrite sp_align_of; pose proof (align_of_alignment x) as HA; destruct HA as [->|[->|[->| ->]]]; reflexivity).
        rewrite E0. change (nuls (0 - 0)) with (@nil byte). cbn [app]. rewrite N.add_0_l.
        unfold sp_offsets. assert (Ea : forall a b : list byte, len (a ++ b) = len a + len b) by (intros; apply blen_app).
        rewrite Ea, nums_len. pose proof (fit_width_pos (len (sp_bytes false big x (ones x))) (len [len (sp_bytes false big x (ones x))])).
        change (len [len (sp_bytes false big x (ones x))]) with 1 in *. lia.
    + pose proof (IH x (or_intror eq_refl)) as H. assert (El : type_len (TM x) = type_len x + 1) by (unfold type_len, blen; cbn [display length]; lia).
      rewrite El. destruct (sp_fixed x); [lia|].
      assert (Ea : forall a b : list byte, len (a ++ b) = len a + len b) by (intros; apply blen_app). rewrite Ea. change (len [x00]) with 1. lia.
  - pose proof (ones_typed t) as Ht. destruct (size_of t) as [n|] eqn:En.
    + rewrite (bytes_fixed false big t n) by assumption. pose proof (size_of_bound t n En). pose proof (type_len_pos t). lia.
    + rewrite ones_struct, bytes_struct, En by (auto; now rewrite map_length).
      unfold sp_struct_bytes. set (items := items_of (children_of t)). set (bodies := enc_all false big (children_of t) (map ones (children_of t))).
      assert (HA : Forall (fun it => is_alignment (fst it)) items).
      { unfold items, items_of. apply Forall_map. apply Forall_forall. intros c _. cbn [fst]. apply align_of_alignment. }
      pose proof (lay_struct_upper items HA bodies 0) as [H1 H2]. destruct (sp_lay_struct 0 items bodies) as [body ends]. cbn [fst snd] in *.
      assert (Ea : forall a b : list byte, len (a ++ b) = len a + len b) by (intros; apply blen_app).
      unfold sp_offsets. rewrite Ea, nums_len. pose proof (fit_width_pos (len body) (len (rev ends))) as Hf.
      assert (Hr : len (rev ends) = len ends) by (unfold len; now rewrite rev_length). rewrite Hr in *.
      assert (Hw : N.of_nat (N.to_nat (sp_fit_width (len body) (len ends))) * len ends <= 8 * len bodies).
      { rewrite N2Nat.id. nia. }
      assert (Hb : len (concat bodies) + 20 * len bodies <= 40 * blen (concat (map display (children_of t)))).
      { unfold bodies, enc_all. clear -IH. induction IH as [|c cs Hc _ IHc]; [cbn; lia|]. cbn [map combine fst snd concat].
        match goal with |- len (?a ++ ?b) + 20 * len (?x :: ?y) <= 40 * blen (?d ++ ?e) =>
          assert (len (a ++ b) = len a + len b) by apply blen_app;
          assert (len (x :: y) = len y + 1) by (unfold len; cbn [length]; lia);
          assert (blen (d ++ e) = blen d + blen e) by apply blen_app;
          change (blen d) with (type_len c) in * end. lia. }
      pose proof (children_len t Hs). lia.
Qed.

(** ** C99 *)
Lemma swap_claim h t s : usable t -> aligned (sp_align t) s -> len (s_data s) < 2 ^ 63 -> sp_near t (Some (s_data s)) = true ->
  decode (other h) t s = match decode h t s with Ok v => Ok (sp_swap t v) | Crash c => Crash c end.
Proof.
  intros Hu Ha Hl Hn. rewrite !long_claim by assumption. destruct (sp_reads t (Some (s_data s))); [|reflexivity].
  f_equal. cbn [other h_big_endian]. apply decode_swap.
Qed.
(** Reading gives values of the type. *)
Lemma string_good d : good_string (sp_string d).
Proof.
  unfold sp_string. destruct d as [|b d]; [exact good_nil|].
  destruct (_ && sp_nul_free _) eqn:E; [|exact good_nil].
  apply andb_true_iff in E as [E1 E2]. apply andb_true_iff in E1 as [_ E1].
  split; [now apply Utf8Facts.sp_utf8_ok|]. unfold sp_nul_free in E2. destruct (in_dec _ _ _); [discriminate|assumption].
Qed.
Lemma decode_typed big t : forall d, sp_typed t (sp_decode big t d).
Proof.
  induction t as [t Hns IH|t Hs IH] using ty_struct_ind; intros d.
  - assert (HN : forall k n, N.of_nat k = n -> sp_num big (match d with Some b => if len b =? n then b else nuls n | None => nuls n end) < 256 ^ n).
    { intros k n <-. apply sp_num_lt. rewrite sized_length. apply Nat2N.id. }
    destruct t as [| | | | | | | | | | | | |x|x|ts|k v]; cbn [is_struct] in Hns; try tauto; cbn [sp_decode];
      try exact (string_good _).
    + exact I.
    + pose proof (HN 1%nat 1 eq_refl). cbn [sp_typed]. lia.
    + apply (signed_range 16); [lia|]. apply (HN 2%nat). reflexivity.
    + pose proof (HN 2%nat 2 eq_refl). cbn [sp_typed]. lia.
    + apply (signed_range 32); [lia|]. apply (HN 4%nat). reflexivity.
    + pose proof (HN 4%nat 4 eq_refl). cbn [sp_typed]. lia.
    + apply (signed_range 64); [lia|]. apply (HN 8%nat). reflexivity.
    + pose proof (HN 8%nat 8 eq_refl). cbn [sp_typed]. lia.
    + apply (HN 8%nat). reflexivity.
    + unfold sp_variant. pose proof (sp_split_last_spec (match d with Some b => b | None => [] end)) as H.
      destruct (sp_split_last _) as [[a b]|]; [exact (proj2 H)|]. intros Hc. cbn in Hc. intuition discriminate.
    + apply (typed_array x). apply Forall_map. apply Forall_forall. intros c _. apply IH. now left.
    + cbn [sp_typed]. destruct (sp_size x); [destruct (_ =? _); [|exact I]|destruct (match d with Some b => b | None => [] end); [exact I|]]; apply IH; now right.
  - rewrite sp_decode_norm. pose proof (norm_good t d) as Hg. rewrite sp_decode_struct by assumption.
    apply typed_struct_intro; [assumption|]. unfold dec_all. pose proof (struct_cuts_length t (norm t d)) as Hl.
    revert Hl. generalize (struct_cuts t (norm t d)). clear Hs Hg. induction IH as [|c cs Hc _ IHc]; intros [|x xs] Hl; try discriminate; cbn [combine map fst snd]; constructor.
    + apply Hc.
    + apply IHc. cbn in Hl. lia.
Qed.
Lemma zero_aligned t : 0 mod sp_align t = 0.
Proof. rewrite sp_align_of. pose proof (align_of_alignment t) as HA. destruct HA as [->|[->|[->| ->]]]; reflexivity. Qed.
Lemma not_portable_claim h t : usable t -> sp_portable t = false ->
  exists d v, decode h t (Slice 0 d) = Ok v /\ decode (other h) t (Slice 0 d) = Ok (sp_swap t v) /\ sp_swap t v <> v.
Proof.
  intros Hu Hp. exists (sp_encode (h_big_endian h) t (ones t)), (ones t).
  assert (Hl : len (sp_encode (h_big_endian h) t (ones t)) < 2 ^ 63).
  { pose proof (ones_len (h_big_endian h) t). destruct Hu as [_ Hu]. rewrite type_len_show in Hu. lia. }
  assert (E : decode h t (Slice 0 (sp_encode (h_big_endian h) t (ones t))) = Ok (ones t)).
  { apply encode_claim; auto using ones_typed, zero_aligned. }
  split; [exact E|]. split; [|now apply ones_swap].
  rewrite swap_claim; [now rewrite E|exact Hu|exact (zero_aligned t)|exact Hl|].
  apply encode_near; [apply ones_typed|exact Hl].
Qed.
Lemma write_swap_claim h t r v : usable t -> rtyped t r -> no_nuls t r ->
  rvalue true (negb (h_big_endian h)) t r = v ->
  len (sp_written (negb (h_big_endian h)) t v) < 2 ^ 63 ->
  sp_output (serialize (other h) t r None) = sp_written (h_big_endian h) t (sp_swap t v).
Proof.
  intros Hu Ht Hn <- Hl. rewrite ser_claim; auto. cbn [other h_big_endian]. unfold sp_deliver, sp_output. cbn [fst k_out].
  apply bytes_swap. now apply rvalue_typed.
Qed.
