(** How much a reader can be made to produce: proofs. *)
From Verif Require Import Base Types Layout AlignedBytes Spec Deser Histories LongSpec SizeSpec
  BaseFacts TypesFacts LayoutFacts DeserFacts ArrayFacts StructFacts ReadFacts AccessFacts ReadClaims EqFacts EncFacts LongFacts.
Local Open Scope N_scope.

(** ** Weight of what is read *)
Definition wsum (vs : list value) : N := fold_right (fun v n => sp_weight v + n) 0 vs.
Lemma wsum_le (b : N) vs : Forall (fun v => sp_weight v <= b) vs -> wsum vs <= blen vs * b.
Proof.
  induction 1 as [|v vs Hv _ IH]; [change (wsum []) with 0; lia|].
  rewrite blen_cons. change (wsum (v :: vs)) with (sp_weight v + wsum vs). nia.
Qed.
Lemma wsum_parts (f : ty -> N) ts : forall vs,
  Forall2 (fun t v => sp_weight v <= f t) ts vs -> wsum vs <= fold_right (fun t n => f t + n) 0 ts.
Proof.
  induction ts as [|t ts IH]; intros vs H; inversion H; subst; [reflexivity|].
  cbn [fold_right]. change (wsum (y :: l')) with (sp_weight y + wsum l'). specialize (IH _ H4). lia.
Qed.
Lemma dec_all_forall2 big (P : ty -> value -> Prop) ts : forall cs, length cs = length ts ->
  (forall t c, In t ts -> In c cs -> P t (sp_decode big t c)) -> Forall2 P ts (dec_all big ts cs).
Proof.
  unfold dec_all. induction ts as [|t ts IH]; intros [|c cs] Hl H; try discriminate; cbn [combine map]; constructor.
  - cbn [fst snd]. apply H; now left.
  - apply IH; [now injection Hl|]. intros. apply H; now right.
Qed.
Lemma sum_types k ts : fold_right (fun t n => k * type_len t + n) 0 ts = k * blen (concat (map display ts)).
Proof.
  induction ts as [|t ts IH]; cbn [fold_right map concat]; [change (blen (@nil byte)) with 0; lia|].
  rewrite blen_app, IH. fold (type_len t). lia.
Qed.
Lemma norm_len_var t d : size_of t = None -> blen (norm t d) <= blen (opt_bytes d).
Proof.
  intros Hn. unfold norm, seen_bytes, default_bytes. destruct d as [b|]; cbn [opt_bytes]; rewrite Hn; [|cbn; lia].
  destruct (size_good_dec t _); [lia|]. change (blen (@nil byte)) with 0. lia.
Qed.
Lemma norm_good t d : size_good t (blen (norm t d)).
Proof.
  destruct (size_of t) as [n|] eqn:Hn.
  - unfold size_good. rewrite Hn. now apply norm_fixed_len.
  - destruct d as [b|]; cbn [norm]; unfold seen_bytes, default_bytes; rewrite ?Hn.
    + destruct (size_good_dec t _) as [H|_]; [exact H|]. unfold size_good. rewrite Hn.
      destruct t; auto. destruct (size_of t) as [m|] eqn:Em; [|exact I].
      apply size_of_props in Em as [Em _]. change (blen (@nil byte)) with 0. apply N.mod_0_l. lia.
    + unfold size_good. rewrite Hn. destruct t; auto. destruct (size_of t) as [m|] eqn:Em; [|exact I].
      apply size_of_props in Em as [Em _]. change (blen (@nil byte)) with 0. apply N.mod_0_l. lia.
Qed.
Lemma weight_fixed big t : forall n, size_of t = Some n -> forall d, sp_weight (sp_decode big t d) <= type_len t.
Proof.
  induction t as [t Hs IH|t Hs IH] using ty_struct_ind; intros n Hn d.
  - pose proof (type_len_pos t). destruct t; try discriminate Hn; cbn [is_struct] in Hs; try tauto;
      cbn [sp_decode sp_weight]; lia.
  - rewrite sp_decode_norm. rewrite sp_decode_struct by (auto using norm_good). cbn [sp_weight].
    fold (wsum (dec_all big (children_of t) (struct_cuts t (norm t d)))).
    pose proof (children_len t Hs) as HL.
    assert (H : Forall2 (fun t v => sp_weight v <= 1 * type_len t) (children_of t) (dec_all big (children_of t) (struct_cuts t (norm t d)))).
    { apply dec_all_forall2; [apply struct_cuts_length|]. intros c b Hc _. rewrite N.mul_1_l.
      pose proof (fixed_children t n Hs Hn) as HF. rewrite Forall_forall in HF, IH.
      specialize (HF c Hc). unfold is_fixed in HF. destruct (size_of c) as [m|] eqn:Em; [|discriminate].
      exact (IH c Hc m Em b). }
    apply wsum_parts in H. rewrite sum_types in H. lia.
Qed.

Lemma removelast_le (l : list byte) : blen (removelast l) <= blen l.
Proof.
  induction l as [|x l IH]; [reflexivity|]. cbn [removelast]. destruct l; rewrite ?blen_cons; [change (blen (@nil byte)) with 0; lia|].
  rewrite blen_cons in IH. lia.
Qed.
Lemma sp_string_len d : len (sp_string d) <= len d.
Proof.
  change (@len byte) with (@blen byte). unfold sp_string. destruct d as [|b d]; [reflexivity|].
  destruct (_ && _ && _); [|change (blen (@nil byte)) with 0; lia].
  apply removelast_le.
Qed.
Lemma split_last_len d : forall a b, sp_split_last d = Some (a, b) -> len a + len b + 1 = len d.
Proof.
  change (@len byte) with (@blen byte). induction d as [|x d IH]; intros a b; cbn [sp_split_last]; [discriminate|].
  destruct (sp_split_last d) as [[p q]|] eqn:E.
  - intros H. injection H as <- <-. specialize (IH _ _ eq_refl). rewrite !blen_cons. lia.
  - destruct (Byte.eqb x x00); [|discriminate]. intros H. injection H as <- <-.
    rewrite blen_cons. change (blen (@nil byte)) with 0. lia.
Qed.
Lemma pieces_len k : forall fuel d, (0 < k)%nat -> blen (sp_pieces fuel k d) <= blen d.
Proof.
  induction fuel as [|f IH]; intros d Hk; destruct d as [|b d]; cbn [sp_pieces]; try (change (blen (@nil (list byte))) with 0; lia).
  specialize (IH (skipn k (b :: d)) Hk). rewrite blen_cons. destruct k as [|k]; [lia|].
  cbn [skipn] in *. assert (blen (skipn k d) <= blen d) by (unfold blen; rewrite skipn_length; lia).
  rewrite blen_cons. lia.
Qed.
Lemma pow_step (n k : N) : (n + 1) ^ (1 + k) = (n + 1) * (n + 1) ^ k.
Proof. rewrite N.pow_add_r, N.pow_1_r. reflexivity. Qed.
Lemma pow_ge1 (n k : N) : 1 <= (n + 1) ^ k.
Proof. pose proof (N.pow_nonzero (n + 1) k). lia. Qed.
Lemma pow_mono (a b k l : N) : a <= b -> k <= l -> (a + 1) ^ k <= (b + 1) ^ l.
Proof. intros H1 H2. apply N.pow_le_mono; lia. Qed.
Lemma nest_child t c : is_struct t -> In c (children_of t) -> sp_nest c <= sp_nest t.
Proof.
  destruct t as [| | | | | | | | | | | | |x|x|ts|k v]; cbn [is_struct]; try tauto; intros _ Hc; cbn [children_of] in Hc.
  - cbn [sp_nest]. induction ts as [|t ts IH]; [destruct Hc|]. cbn [fold_right].
    destruct Hc as [->|Hc]; [lia|]. specialize (IH Hc). lia.
  - cbn [sp_nest]. destruct Hc as [->|[->|[]]]; lia.
Qed.
Lemma weight_bound big t : forall d,
  sp_weight (sp_decode big t d) <= 3 * type_len t * (blen (opt_bytes d) + 1) ^ (1 + sp_nest t).
Proof.
  induction t as [t Hs IH|t Hs IH] using ty_struct_ind; intros d.
  - destruct (size_of t) as [n|] eqn:Hn.
    { pose proof (weight_fixed big t n Hn d). pose proof (pow_ge1 (blen (opt_bytes d)) (1 + sp_nest t)). nia. }
    set (m := blen (opt_bytes d)). pose proof (type_len_pos t) as Hp.
    destruct t as [| | | | | | | | | | | | |x|x|ts|k v]; try discriminate Hn; cbn [is_struct] in Hs; try tauto.
    1,2,3: cbn [sp_decode sp_weight sp_nest]; fold (opt_bytes d); rewrite pow_step, N.pow_0_r;
         pose proof (sp_string_len (opt_bytes d)) as H; change (len (opt_bytes d)) with m in H; nia.
    + cbn [sp_decode sp_nest]; fold (opt_bytes d); rewrite pow_step, N.pow_0_r. unfold sp_variant.
      destruct (sp_split_last (opt_bytes d)) as [[a b]|] eqn:E.
      * apply split_last_len in E. change (len (opt_bytes d)) with m in E. cbn [sp_weight]. nia.
      * change (sp_weight _) with 3. nia.
    + rewrite (type_len_parts (TA x) x) by auto. cbn [sp_decode sp_nest]. fold (opt_bytes d). rewrite sp_size_of.
      cbn [sp_weight]. 
      destruct (size_of x) as [k|] eqn:Hx.
      * pose proof (size_of_props x k Hx) as [Hk _]. rewrite pow_step, N.pow_0_r.
        match goal with |- context [fold_right _ 0 ?l] => fold (wsum l); assert (HW : wsum l <= blen l * type_len x) end.
        { apply wsum_le. apply Forall_forall. intros v Hv. apply in_map_iff in Hv as (b & <- & _).
          now apply (weight_fixed big x k). }
        match goal with H : wsum ?l <= _ |- _ => assert (HL : blen l <= m) end.
        { unfold blen at 1. rewrite map_length. destruct (_ =? 0); [|unfold m; change (N.of_nat _) with 0; lia].
          rewrite map_length. apply pieces_len. lia. }
        nia.
      * match goal with |- context [fold_right _ 0 ?l] => fold (wsum l);
          assert (HW : wsum l <= blen l * (3 * type_len x * (m + 1) ^ (1 + sp_nest x))) end.
        { apply wsum_le. apply Forall_forall. intros v Hv. apply in_map_iff in Hv as (b & <- & Hb).
          pose proof (IH x (or_introl eq_refl) b) as H. etransitivity; [exact H|]. apply N.mul_le_mono_l.
          apply pow_mono; [|lia]. rewrite sp_array_children_map in Hb. apply in_map_iff in Hb as (i & Hb & _).
          destruct b as [b|]; cbn [opt_bytes]; [apply arr_cut_len in Hb; exact Hb|change (blen (@nil byte)) with 0; lia]. }
        match goal with H : wsum ?l <= _ |- _ => assert (HL : blen l <= m) end.
        { unfold blen at 1. rewrite map_length, sp_array_children_map, map_length. unfold indices.
          rewrite map_length, seq_length, N2Nat.id. apply arr_n_le. }
        rewrite (pow_step m (1 + sp_nest x)). pose proof (pow_ge1 m (1 + sp_nest x)) as HQ.
        remember ((m + 1) ^ (1 + sp_nest x)) as Q. clear HeqQ. 
        match type of HW with _ <= ?a * _ => remember a as c; clear Heqc end.
        pose proof (N.mul_le_mono_r _ _ (3 * type_len x * Q) HL) as HM.
        replace (3 * (1 + type_len x) * ((m + 1) * Q)) with (m * (3 * type_len x * Q) + 3 * type_len x * Q + 3 * (m + 1) * Q) by ring.
        nia.
    + rewrite (type_len_parts (TM x) x) by auto. cbn [sp_decode sp_nest]. fold (opt_bytes d). rewrite sp_size_of.
      cbn [sp_weight]. fold m. pose proof (pow_ge1 m (1 + sp_nest x)) as HQ.
      destruct (size_of x) as [k|] eqn:Hx.
      * destruct (_ =? _); [|nia].
        pose proof (weight_fixed big x k Hx (Some (opt_bytes d))). nia.
      * destruct (opt_bytes d) as [|b l] eqn:E; [nia|].
        pose proof (IH x (or_intror eq_refl) (Some (removelast (b :: l)))) as H. cbn [opt_bytes] in H.
        assert (Hr : blen (removelast (b :: l)) <= m).
        { unfold m. apply removelast_le. }
        pose proof (pow_mono _ _ (1 + sp_nest x) (1 + sp_nest x) Hr (N.le_refl _)) as HP. nia.
  - destruct (size_of t) as [n|] eqn:Hn.
    { pose proof (weight_fixed big t n Hn d). pose proof (pow_ge1 (blen (opt_bytes d)) (1 + sp_nest t)). nia. }
    rewrite sp_decode_norm. rewrite sp_decode_struct by (auto using norm_good). cbn [sp_weight].
    pose proof (norm_len_var t d Hn) as HN. remember (norm t d) as e. clear Heqe.
    remember (blen (opt_bytes d)) as m. clear Heqm.
    fold (wsum (dec_all big (children_of t) (struct_cuts t e))).
    pose proof (children_len t Hs) as HL. pose proof (pow_ge1 m (1 + sp_nest t)) as HQ.
    assert (H : Forall2 (fun c v => sp_weight v <= 3 * (m + 1) ^ (1 + sp_nest t) * type_len c) (children_of t)
        (dec_all big (children_of t) (struct_cuts t e))).
    { apply dec_all_forall2; [apply struct_cuts_length|]. intros c b Hc Hb. rewrite Forall_forall in IH.
      pose proof (IH c Hc b) as H. etransitivity; [exact H|].
      assert (HB : blen (opt_bytes b) <= m).
      { destruct b as [b|]; cbn [opt_bytes]; [apply struct_cuts_len in Hb; lia|change (blen (@nil byte)) with 0; lia]. }
      pose proof (pow_mono _ _ (1 + sp_nest c) (1 + sp_nest t) HB) as HP.
      pose proof (nest_child t c Hs Hc). specialize (HP ltac:(lia)). nia. }
    apply wsum_parts in H. rewrite sum_types in H. nia.
Qed.

(** ** Bytes that read as far more *)
Definition again (m : nat) (c : N) : list N := c :: concat (repeat [0; c] m).
Definition blow (m : nat) (d : list byte) : list byte := d ++ sp_offsets (len d) (again m (len d)).
Fixpoint tower (m k : nat) : list byte :=
  match k with
  | O => repeat x61 m ++ [x00]
  | S k => blow m (tower m k)
  end.
Lemma again_len m c : len (again m c) = 1 + 2 * N.of_nat m.
Proof.
  unfold again. change (@len N) with (@blen N). rewrite blen_cons. unfold blen.
  induction m as [|m IH]; cbn [repeat concat app length]; lia.
Qed.
Lemma again_last m c : last (again m c) 0 = c.
Proof.
  unfold again. induction m as [|m IH]; [reflexivity|]. cbn [repeat concat app].
  change (last (c :: 0 :: c :: concat (repeat [0; c] m)) 0) with (last (c :: concat (repeat [0; c] m)) 0). exact IH.
Qed.
Lemma again_range m c : Forall (fun x => x <= c) (again m c).
Proof.
  unfold again. constructor; [lia|]. induction m as [|m IH]; cbn [repeat concat app]; auto.
  constructor; [lia|]. constructor; [lia|exact IH].
Qed.
Lemma blow_len m d : exists w, 1 <= w <= 8 /\ len (blow m d) = len d + w * (1 + 2 * N.of_nat m).
Proof.
  exists (sp_fit_width (len d) (len (again m (len d)))). split; [apply fit_width_pos|].
  unfold blow. change (len (d ++ ?x)) with (blen (d ++ x)).
  change (blen (d ++ sp_offsets (len d) (again m (len d))) = len d + sp_fit_width (len d) (len (again m (len d))) * (1 + 2 * N.of_nat m)).
  rewrite blen_app. unfold sp_offsets. f_equal. change (@blen byte) with (@len byte). rewrite nums_len, N2Nat.id, again_len. reflexivity.
Qed.
(** Any framing offsets after any content. *)
Lemma raw_array al content ends : ends <> [] -> last ends 0 = len content ->
  Forall (fun x => x <= len content) ends -> len (content ++ sp_offsets (len content) ends) < 2 ^ 63 ->
  let d := content ++ sp_offsets (len content) ends in
  sp_array_children al d = sp_array_cut al d (len content) 0 ends /\ sp_array_near d = true.
Proof.
  intros Hne Hlast Hb Hd d.
  assert (Hm : 0 < len ends) by (unfold len; destruct ends; [congruence|cbn [length]; lia]).
  remember (sp_fit_width (len content) (len ends)) as w.
  assert (Hw : 1 <= w <= 8) by (subst w; apply fit_width_pos).
  assert (Hdl : len d = len content + w * len ends).
  { unfold d. change @len with @blen. rewrite blen_app. f_equal. change @blen with @len. unfold sp_offsets. rewrite nums_len.
    rewrite <- Heqw. lia. }
  assert (Hwd : sp_width (len d) = w) by (rewrite Hdl; subst w; now apply fit_width_read).
  fold d in Hd.
  assert (Hrange : len content < 256 ^ w) by (subst w; apply fit_width_range; lia).
  assert (Hoff : forall i x, nth_error ends i = Some x -> le_num (sub d (len content + N.of_nat i * w) w) = x).
  { intros i x Hx. unfold d. rewrite sub_app_r by lia.
    replace (len content + N.of_nat i * w - len content) with (N.of_nat i * w) by lia. unfold sp_offsets.
    rewrite <- Heqw. pose proof (nums_sub (N.to_nat w) ends i x Hx) as E. rewrite N2Nat.id in E. rewrite E.
    apply num_le_back. rewrite N2Nat.id. apply nth_error_In in Hx. rewrite Forall_forall in Hb. specialize (Hb x Hx). lia. }
  assert (Hlo : le_num (sub d (len d - w) w) = len content).
  { rewrite <- Hlast. rewrite <- (Hoff (length ends - 1)%nat (last ends 0)).
    - f_equal. f_equal. rewrite Hdl. unfold len in *. nia.
    - now apply nth_error_last. }
  assert (Ediff : len d - len content = len ends * w) by lia.
  split.
  - unfold sp_array_children. rewrite Hwd, Hlo. replace (len d =? 0) with false by lia.
    replace (len content <=? len d) with true by lia. cbn [andb].
    rewrite Ediff. rewrite N.mod_mul by lia. cbn [N.eqb]. rewrite N.div_mul by lia.
    replace (N.to_nat (len ends)) with (length ends) by (unfold len; lia).
    rewrite (map_seq_nth _ ends); [reflexivity|]. exact Hoff.
  - unfold sp_array_near. rewrite Hwd, Hlo. replace (len d =? 0) with false by lia.
    replace (len content <=? len d) with true by lia. cbn [andb].
    rewrite Ediff. rewrite N.mod_mul by lia. cbn [N.eqb]. rewrite N.div_mul by lia.
    apply forallb_forall. intros i Hi. apply in_seq in Hi. unfold len in Hi.
    destruct (nth_error ends i) as [x|] eqn:Ex; [|apply nth_error_None in Ex; lia].
    rewrite (Hoff i x Ex). rewrite Forall_forall in Hb. apply nth_error_In in Ex. specialize (Hb x Ex).
    unfold near. lia.
Qed.
Lemma again_cut d c m : 0 < c -> sp_array_cut 1 d c 0 (again m c) =
  Some (sub d 0 c) :: concat (repeat [None; Some (sub d 0 c)] m).
Proof.
  intros Hc. unfold again. cbn [sp_array_cut]. unfold cut at 1. rewrite pad_to_1.
  replace ((0 <=? c) && (c <=? c)) with true by lia. rewrite N.sub_0_r. f_equal.
  induction m as [|m IH]; [reflexivity|]. cbn [repeat concat app sp_array_cut]. unfold cut at 1 2. rewrite !pad_to_1.
  replace ((c <=? 0) && (0 <=? c)) with false by lia. replace ((0 <=? c) && (c <=? c)) with true by lia.
  rewrite N.sub_0_r. f_equal. f_equal. exact IH.
Qed.
Lemma blow_children m d : 0 < len d -> len (blow m d) < 2 ^ 63 ->
  sp_array_children 1 (blow m d) = Some d :: concat (repeat [None; Some d] m) /\ sp_array_near (blow m d) = true.
Proof.
  intros Hd Hl. destruct (raw_array 1 d (again m (len d))) as [E1 E2]; auto using again_last, again_range; [discriminate|].
  split; [|exact E2]. unfold blow. rewrite E1, again_cut by assumption.
  assert (E : sub (d ++ sp_offsets (len d) (again m (len d))) 0 (len d) = d)
    by (rewrite sub_take_drop, drop_0; now apply take_app_eq).
  now rewrite !E.
Qed.
Definition arrays (k : nat) : ty := Nat.iter k TA TS.
Lemma arrays_size k : sp_size (arrays k) = None.
Proof. destruct k; reflexivity. Qed.
Lemma arrays_reads k : forall d, sp_reads (arrays k) d = true.
Proof.
  induction k as [|k IH]; intros d; [reflexivity|]. change (arrays (S k)) with (TA (arrays k)).
  cbn [sp_reads]. rewrite arrays_size. apply forallb_forall. intros c _. rewrite IH.
  destruct k; [reflexivity|]. change (arrays (S k)) with (TA (arrays k)). cbn [sp_whole].
  rewrite arrays_size. destruct c; reflexivity.
Qed.
Lemma arrays_plain k : sp_align (arrays k) = 1 /\ macro_ok (arrays k) = true /\
  len (sp_show (arrays k)) = 1 + N.of_nat k /\ sp_nest (arrays k) = N.of_nat k.
Proof.
  induction k as [|k (I2 & I3 & I4 & I5)]; [repeat split; reflexivity|].
  change (arrays (S k)) with (TA (arrays k)). repeat split; try exact I2; try exact I3.
  - change (len (sp_show (TA (arrays k)))) with (blen (x61 :: sp_show (arrays k))). rewrite blen_cons.
    change (blen (sp_show (arrays k))) with (len (sp_show (arrays k))). lia.
  - cbn [sp_nest]. rewrite arrays_size, I5. lia.
Qed.
Lemma arrays_near_none k : sp_near (arrays k) None = true.
Proof. destruct k; [reflexivity|]. change (arrays (S k)) with (TA (arrays k)). cbn [sp_near]. now rewrite arrays_size. Qed.
Lemma tower_pos m k : 0 < len (tower m k).
Proof.
  induction k as [|k IH]; cbn [tower].
  - change (@len byte) with (@blen byte). rewrite blen_app. change (blen [x00]) with 1. lia.
  - destruct (blow_len m (tower m k)) as (w & Hw & ->). lia.
Qed.
Lemma tower_len m k : len (tower m k) <= (N.of_nat m + 1) * (16 * N.of_nat k + 1).
Proof.
  induction k as [|k IH]; cbn [tower].
  - change (@len byte) with (@blen byte). rewrite blen_app. change (blen [x00]) with 1.
    unfold blen. rewrite repeat_length. lia.
  - destruct (blow_len m (tower m k)) as (w & Hw & ->).
    assert (w * (1 + 2 * N.of_nat m) <= 8 * (1 + 2 * N.of_nat m)) by (apply N.mul_le_mono_r; lia). lia.
Qed.
Lemma utf8_as m : sp_utf8 (repeat x61 m) = true.
Proof. induction m as [|m IH]; [reflexivity|]. cbn [repeat]. exact IH. Qed.
Lemma nul_free_as m : sp_nul_free (repeat x61 m) = true.
Proof. unfold sp_nul_free. destruct (in_dec _ _ _) as [H|]; [|reflexivity]. apply repeat_spec in H. discriminate. Qed.
Lemma wsum_again (f : option (list byte) -> value) d m :
  N.of_nat m * sp_weight (f (Some d)) <= wsum (map f (concat (repeat [None; Some d] m))).
Proof.
  induction m as [|m IH]; [lia|]. cbn [repeat concat app map].
  change (wsum (?a :: ?b :: ?l)) with (sp_weight a + (sp_weight b + wsum l)). lia.
Qed.
Lemma tower_read big m k : len (tower m k) < 2 ^ 63 ->
  sp_near (arrays k) (Some (tower m k)) = true /\
  (N.of_nat m + 1) ^ (1 + N.of_nat k) <= sp_weight (sp_decode big (arrays k) (Some (tower m k))).
Proof.
  induction k as [|k IH]; intros Hl.
  - split; [reflexivity|]. change (1 + N.of_nat 0) with 1. rewrite N.pow_1_r. cbn [arrays Nat.iter tower nat_rect sp_decode sp_weight].
    assert (E : sp_string (repeat x61 m ++ [x00]) = repeat x61 m).
    { unfold sp_string. destruct (repeat x61 m ++ [x00]) eqn:E; [destruct m; discriminate|]. rewrite <- E. clear E.
      rewrite removelast_last, last_last, utf8_as, nul_free_as. reflexivity. }
    rewrite E. unfold len. rewrite repeat_length. lia.
  - cbn [tower] in *. pose proof (tower_pos m k) as Hp.
    destruct (blow_children m (tower m k) Hp Hl) as [Ec En].
    destruct IH as [In Iw]. { destruct (blow_len m (tower m k)) as (w & Hw & E). lia. }
    destruct (arrays_plain k) as (Ea & _).
    change (arrays (S k)) with (TA (arrays k)). cbn [sp_near sp_decode]. rewrite arrays_size, Ea, Ec, En. split.
    + cbn [andb forallb]. rewrite In. cbn [andb]. apply forallb_forall. intros c Hc.
      apply in_concat in Hc as (l & Hl1 & Hl2). apply repeat_spec in Hl1. subst l.
      destruct Hl2 as [<-|[<-|[]]]; [apply arrays_near_none|exact In].
    + cbn [map sp_weight fold_right].
      fold (wsum (map (sp_decode big (arrays k)) (concat (repeat [None; Some (tower m k)] m)))).
      pose proof (wsum_again (sp_decode big (arrays k)) (tower m k) m) as HW.
      replace (1 + N.of_nat (S k)) with (1 + (1 + N.of_nat k)) by lia. rewrite pow_step.
      remember ((N.of_nat m + 1) ^ (1 + N.of_nat k)) as Q. clear HeqQ.
      assert (N.of_nat m * Q <= N.of_nat m * sp_weight (sp_decode big (arrays k) (Some (tower m k)))) by (apply N.mul_le_mono_l; exact Iw).
      lia.
Qed.
Lemma blow_claim h k n a : 1 <= n -> 1 + k < 2 ^ 32 -> n * (16 * k + 1) < 2 ^ 63 ->
  exists d v, len d <= n * (16 * k + 1) /\ decode h (Nat.iter (N.to_nat k) TA TS) (Slice a d) = Ok v /\
    n ^ (1 + k) <= sp_weight v.
Proof.
  intros Hn Hk Hl. remember (N.to_nat (n - 1)) as m. remember (N.to_nat k) as j.
  assert (Em : N.of_nat m + 1 = n) by lia. assert (Ek : N.of_nat j = k) by lia.
  pose proof (tower_len m j) as HL. rewrite Em, Ek in HL.
  destruct (tower_read (h_big_endian h) m j ltac:(lia)) as [Hnear HW]. rewrite Em, Ek in HW.
  exists (tower m j). eexists. split; [exact HL|]. split; [|exact HW].
  destruct (arrays_plain j) as (Ha & Hmo & Hsh & _).
  change (Nat.iter j TA TS) with (arrays j).
  rewrite (long_claim h (arrays j) (Slice a (tower m j))).
  - cbn [s_data]. rewrite arrays_reads. reflexivity.
  - split; [exact Hmo|]. rewrite Hsh. lia.
  - rewrite Ha. unfold aligned. apply N.mod_1_r.
  - cbn [s_data]. lia.
  - exact Hnear.
Qed.
