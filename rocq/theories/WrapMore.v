(** What is read from any bytes, with no condition on framing offsets: proofs of
    C85, C99 and C100. *)
From Verif Require Import Base Types Layout AlignedBytes Strs Spec Deser Ser Histories SerSpec LongSpec SizeSpec SwapSpec WrapSpec
  BaseFacts TypesFacts LayoutFacts DeserFacts ArrayFacts StructFacts ReadFacts AccessFacts ReadClaims EqFacts EncFacts LongFacts
  SerMain SizeFacts SwapFacts ViewFacts MoveFacts WrapReadFacts.
From Coq Require Import Lia.
Local Open Scope N_scope.

(** ** The value where sums wrap around *)
Lemma w_decode_swap big t : forall d, w_decode (negb big) t d = sp_swap t (w_decode big t d).
Proof.
  induction t as [t Hns IH|t Hs IH] using ty_struct_ind; intros d.
  - destruct t as [| | | | | | | | | | | | |x|x|ts|k v]; cbn [is_struct] in Hns; try tauto; try (apply decode_swap; fail); cbn [w_decode sp_swap].
    + f_equal. rewrite map_map. apply map_ext. intros c. apply IH. now left.
    + destruct (sp_size x).
      * destruct (_ =? _); [|reflexivity]. cbn. do 2 f_equal. apply IH. now right.
      * destruct (match d with Some b => b | None => [] end); [reflexivity|]. do 2 f_equal. apply IH. now right.
  - rewrite !w_decode_struct by assumption. rewrite swap_struct; [|assumption|].
    + f_equal. unfold w_dec_all, swap_all. generalize (w_cuts t (norm t d)). clear Hs.
      induction IH as [|c cs Hc _ IHc]; intros [|x xs]; cbn [combine map fst snd]; try reflexivity.
      f_equal; [apply Hc|apply IHc].
    + unfold w_dec_all. rewrite map_length, combine_length, w_cuts_length. lia.
Qed.
Lemma w_decode_typed big t : forall d, sp_typed t (w_decode big t d).
Proof.
  induction t as [t Hns IH|t Hs IH] using ty_struct_ind; intros d.
  - destruct t as [| | | | | | | | | | | | |x|x|ts|k v]; cbn [is_struct] in Hns; try tauto; try (apply decode_typed; fail); cbn [w_decode].
    + apply (typed_array x). apply Forall_map. apply Forall_forall. intros c _. apply IH. now left.
    + cbn [sp_typed]. destruct (sp_size x); [destruct (_ =? _); [|exact I]|destruct (match d with Some b => b | None => [] end); [exact I|]]; apply IH; now right.
  - rewrite w_decode_struct by assumption.
    apply typed_struct_intro; [assumption|]. unfold w_dec_all. pose proof (w_cuts_length t (norm t d)) as Hl.
    revert Hl. generalize (w_cuts t (norm t d)). clear Hs. induction IH as [|c cs Hc _ IHc]; intros [|x xs] Hl; try discriminate; cbn [combine map fst snd]; constructor.
    + apply Hc.
    + apply IHc. cbn in Hl. lia.
Qed.
Lemma w_dec_all_forall2 big (P : ty -> value -> Prop) ts : forall cs, length cs = length ts ->
  (forall t c, In t ts -> In c cs -> P t (w_decode big t c)) -> Forall2 P ts (w_dec_all big ts cs).
Proof.
  unfold w_dec_all. induction ts as [|t ts IH]; intros [|c cs] Hl H; try discriminate; cbn [combine map]; constructor.
  - cbn [fst snd]. apply H; now left.
  - apply IH; [now injection Hl|]. intros. apply H; now right.
Qed.
Lemma w_weight_bound big t : forall d,
  sp_weight (w_decode big t d) <= 3 * type_len t * (blen (opt_bytes d) + 1) ^ (1 + sp_nest t).
Proof.
  induction t as [t Hs IH|t Hs IH] using ty_struct_ind; intros d.
  - destruct (size_of t) as [n|] eqn:Hn.
    { rewrite (w_decode_fixed big t n Hn). apply weight_bound. }
    set (m := blen (opt_bytes d)). pose proof (type_len_pos t) as Hp.
    destruct t as [| | | | | | | | | | | | |x|x|ts|k v]; try discriminate Hn; cbn [is_struct] in Hs; try tauto; try (apply weight_bound; fail).
    + rewrite (type_len_parts (TA x) x) by auto. cbn [w_decode sp_nest]. fold (opt_bytes d). rewrite sp_size_of.
      cbn [sp_weight].
      destruct (size_of x) as [k|] eqn:Hx.
      * pose proof (size_of_props x k Hx) as [Hk _]. rewrite pow_step, N.pow_0_r.
        match goal with |- context [fold_right _ 0 ?l] => fold (wsum l); assert (HW : wsum l <= blen l * type_len x) end.
        { apply wsum_le. apply Forall_forall. intros v Hv. apply in_map_iff in Hv as (b & <- & _).
          rewrite (w_decode_fixed big x k Hx). now apply (weight_fixed big x k). }
        match goal with H : wsum ?l <= _ |- _ => assert (HL : blen l <= m) end.
        { unfold blen at 1. rewrite map_length. destruct (_ =? 0); [|unfold m; change (N.of_nat _) with 0; lia].
          rewrite map_length. apply pieces_len. lia. }
        nia.
      * match goal with |- context [fold_right _ 0 ?l] => fold (wsum l);
          assert (HW : wsum l <= blen l * (3 * type_len x * (m + 1) ^ (1 + sp_nest x))) end.
        { apply wsum_le. apply Forall_forall. intros v Hv. apply in_map_iff in Hv as (b & <- & Hb).
          pose proof (IH x (or_introl eq_refl) b) as H. etransitivity; [exact H|]. apply N.mul_le_mono_l.
          apply pow_mono; [|lia]. rewrite w_array_children_map in Hb. apply in_map_iff in Hb as (i & Hb & _).
          destruct b as [b|]; cbn [opt_bytes]; [apply w_arr_cut_len in Hb; exact Hb|change (blen (@nil byte)) with 0; lia]. }
        match goal with H : wsum ?l <= _ |- _ => assert (HL : blen l <= m) end.
        { unfold blen at 1. rewrite map_length, w_array_children_map, map_length. unfold indices.
          rewrite map_length, seq_length, N2Nat.id. apply arr_n_le. }
        rewrite (pow_step m (1 + sp_nest x)). pose proof (pow_ge1 m (1 + sp_nest x)) as HQ.
        remember ((m + 1) ^ (1 + sp_nest x)) as Q. clear HeqQ.
        match type of HW with _ <= ?a * _ => remember a as c; clear Heqc end.
        pose proof (N.mul_le_mono_r _ _ (3 * type_len x * Q) HL) as HM.
        replace (3 * (1 + type_len x) * ((m + 1) * Q)) with (m * (3 * type_len x * Q) + 3 * type_len x * Q + 3 * (m + 1) * Q) by ring.
        nia.
    + rewrite (type_len_parts (TM x) x) by auto. cbn [w_decode sp_nest]. fold (opt_bytes d). rewrite sp_size_of.
      cbn [sp_weight]. fold m. pose proof (pow_ge1 m (1 + sp_nest x)) as HQ.
      destruct (size_of x) as [k|] eqn:Hx.
      * destruct (_ =? _); [|nia]. rewrite (w_decode_fixed big x k Hx).
        pose proof (weight_fixed big x k Hx (Some (opt_bytes d))). nia.
      * destruct (opt_bytes d) as [|b l] eqn:E; [nia|].
        pose proof (IH x (or_intror eq_refl) (Some (removelast (b :: l)))) as H. cbn [opt_bytes] in H.
        assert (Hr : blen (removelast (b :: l)) <= m).
        { unfold m. apply removelast_le. }
        pose proof (pow_mono _ _ (1 + sp_nest x) (1 + sp_nest x) Hr (N.le_refl _)) as HP. nia.
  - destruct (size_of t) as [n|] eqn:Hn.
    { rewrite (w_decode_fixed big t n Hn). apply weight_bound. }
    rewrite w_decode_struct by assumption. cbn [sp_weight].
    pose proof (norm_len_var t d Hn) as HN. remember (norm t d) as e. clear Heqe.
    remember (blen (opt_bytes d)) as m. clear Heqm.
    fold (wsum (w_dec_all big (children_of t) (w_cuts t e))).
    pose proof (children_len t Hs) as HL. pose proof (pow_ge1 m (1 + sp_nest t)) as HQ.
    assert (H : Forall2 (fun c v => sp_weight v <= 3 * (m + 1) ^ (1 + sp_nest t) * type_len c) (children_of t)
        (w_dec_all big (children_of t) (w_cuts t e))).
    { apply w_dec_all_forall2; [apply w_cuts_length|]. intros c b Hc Hb. rewrite Forall_forall in IH.
      pose proof (IH c Hc b) as H. etransitivity; [exact H|].
      assert (HB : blen (opt_bytes b) <= m).
      { destruct b as [b|]; cbn [opt_bytes]; [apply w_cuts_len in Hb; lia|change (blen (@nil byte)) with 0; lia]. }
      pose proof (pow_mono _ _ (1 + sp_nest c) (1 + sp_nest t) HB) as HP.
      pose proof (nest_child t c Hs Hc). specialize (HP ltac:(lia)). nia. }
    apply wsum_parts in H. rewrite sum_types in H. nia.
Qed.

(** What is read is one of the two values. *)
Lemma decode_cases h t s v : usable t -> aligned (sp_align t) s -> len (s_data s) < 2 ^ 63 -> decode h t s = Ok v ->
  v = sp_decode (h_big_endian h) t (Some (s_data s)) \/ v = w_decode (h_big_endian h) t (Some (s_data s)).
Proof.
  intros Hu Ha Hl E. destruct (h_overflow_checks h) eqn:Ho.
  - left. destruct (checked_claim h t s Hu Ha Hl Ho) as [E'|[E' _]]; rewrite E' in E; [|discriminate].
    destruct (sp_reads _ _); congruence.
  - right. rewrite wrap_claim in E by assumption. destruct (w_reads _ _); congruence.
Qed.
Lemma weight_all_claim h t s v : usable t -> aligned (sp_align t) s -> len (s_data s) < 2 ^ 63 -> decode h t s = Ok v ->
  sp_weight v <= 3 * len (sp_show t) * (len (s_data s) + 1) ^ (1 + sp_nest t).
Proof.
  intros Hu Ha Hs Hd. rewrite type_len_show.
  destruct (decode_cases h t s v Hu Ha Hs Hd) as [-> | ->]; [apply (weight_bound _ t (Some (s_data s)))|apply (w_weight_bound _ t (Some (s_data s)))].
Qed.
Lemma typed_all_claim h t s v : usable t -> aligned (sp_align t) s -> len (s_data s) < 2 ^ 63 -> decode h t s = Ok v -> sp_typed t v.
Proof.
  intros Hu Ha Hs Hd. destruct (decode_cases h t s v Hu Ha Hs Hd) as [-> | ->]; [apply decode_typed|apply w_decode_typed].
Qed.

(** ** What panics does not depend on the byte order *)
Lemma next_other h x it : nfwa_next (other h) x it = nfwa_next h x it.
Proof. destruct h. reflexivity. Qed.
Lemma collect_other h x f : forall it, nfwa_collect (other h) x f it = nfwa_collect h x f it.
Proof. induction f as [|f IH]; intros it; [reflexivity|]. cbn [nfwa_collect]. rewrite next_other. destruct (nfwa_next h x it) as [[[r|] it']|]; cbn [bind fst snd]; [now rewrite IH|reflexivity|reflexivity]. Qed.
Lemma items_other h x s : nfwa_items (other h) x s = nfwa_items h x s.
Proof. unfold nfwa_items. change (nfwa_into_iter (other h) x s) with (nfwa_into_iter h x s) || (replace (nfwa_into_iter (other h) x s) with (nfwa_into_iter h x s) by (destruct h; reflexivity)).
  destruct (nfwa_into_iter h x s); [|reflexivity]. cbn [bind]. apply collect_other. Qed.
Lemma array_refs_other h x s : array_refs (other h) x s = array_refs h x s.
Proof. unfold array_refs. now rewrite items_other. Qed.
Lemma to_option_other h x s : to_option (other h) x s = to_option h x s.
Proof. destruct h. reflexivity. Qed.
Lemma split_other h s : variant_split (other h) s = variant_split h s.
Proof. destruct h. reflexivity. Qed.
Lemma child_other h t b d i a c sz l n : get_child_elem (other h) t b d i a c sz l n = get_child_elem h t b d i a c sz l n.
Proof. destruct h. reflexivity. Qed.
Lemma nonfixed_other h al nfo s cs : forall rows, nonfixed_refs (other h) al nfo s cs rows = nonfixed_refs h al nfo s cs rows.
Proof. induction cs as [|c cs IH]; intros rows; [reflexivity|]. destruct rows as [|[[[i a] b] e] rows]; [reflexivity|].
  cbn [nonfixed_refs]. destruct (as_aligned _ _ _); [|reflexivity]. cbn [bind]. rewrite child_other, IH. reflexivity. Qed.
Lemma to_tuple_other h t s : to_tuple (other h) t s = to_tuple h t s.
Proof. unfold to_tuple. now rewrite nonfixed_other. Qed.
Lemma cast_other h t s : cast (other h) t s = cast h t s.
Proof. destruct h. reflexivity. Qed.
Definition any {A B} (_ : A) (_ : B) : Prop := True.
Lemma read_list_other h ts : Forall (fun t => forall s, same any (read (other h) t s) (read h t s)) ts -> forall rs,
  let go h := (fix go (ts : list ty) (rs : list slice) : res (list value) :=
                 match ts, rs with
                 | t :: ts', r :: rs' => let* v := read h t r in let* vs := go ts' rs' in Ok (v :: vs)
                 | _, _ => Ok []
                 end) in
  same any (go (other h) ts rs) (go h ts rs).
Proof.
  induction 1 as [|t ts Ht _ IH]; intros rs; [exact I|]. destruct rs as [|r rs]; [exact I|]. cbv zeta in *.
  apply (same_bind any); [apply Ht|]. intros a b _. apply (same_bind any); [apply IH|]. intros; exact I.
Qed.
Lemma read_other h t : forall s, same any (read (other h) t s) (read h t s).
Proof.
  induction t as [t Hns IH|t Hs IH] using ty_struct_ind; intros s.
  - destruct t as [| | | | | | | | | | | | |x|x|ts|k v]; cbn [is_struct] in Hns; try tauto; try exact I; cbn [read].
    + rewrite split_other. destruct (variant_split h s); [exact I|reflexivity].
    + rewrite array_refs_other. destruct (array_refs h x s) as [rs|]; [|reflexivity]. cbn [bind].
      apply (same_bind (Forall2 any)); [|intros; exact I]. apply (same_mapM2 eq).
      * clear. induction rs; constructor; auto.
      * intros a b ->. apply IH. now left.
    + rewrite to_option_other. destruct (to_option h x s) as [[r|]|]; cbn [bind]; [|exact I|reflexivity].
      apply (same_bind any); [apply IH; now right|]. intros; exact I.
  - destruct t as [| | | | | | | | | | | | |x|x|ts|k v]; cbn [is_struct] in Hs; try tauto; cbn [read].
    + rewrite to_tuple_other. destruct (to_tuple h (TTuple ts) s) as [rs|]; [|reflexivity]. cbn [bind].
      apply (same_bind any); [exact (read_list_other h ts IH rs)|]. intros; exact I.
    + rewrite to_tuple_other. destruct (to_tuple h (TDict k v) s) as [rs|]; [|reflexivity]. cbn [bind].
      destruct rs as [|ra [|rb [|]]]; try exact I. inversion IH as [|? ? Ha IHb]; inversion IHb as [|? ? Hb _]; subst.
      apply (same_bind any); [apply Ha|]. intros a b _. apply (same_bind any); [apply Hb|]. intros; exact I.
Qed.
Lemma decode_other h t s : same any (decode (other h) t s) (decode h t s).
Proof.
  unfold decode. rewrite cast_other. destruct (cast h t s); [|reflexivity]. apply read_other.
Qed.

Lemma swap_all_claim h t s : usable t -> aligned (sp_align t) s -> len (s_data s) < 2 ^ 63 ->
  decode (other h) t s = match decode h t s with Ok v => Ok (sp_swap t v) | Crash c => Crash c end.
Proof.
  intros Hu Ha Hl. destruct (h_overflow_checks h) eqn:Ho.
  - pose proof (decode_other h t s) as HS. assert (Ho' : h_overflow_checks (other h) = true) by exact Ho.
    pose proof (checked_claim h t s Hu Ha Hl Ho) as H1. pose proof (checked_claim (other h) t s Hu Ha Hl Ho') as H2.
    destruct (decode h t s) as [v|c], (decode (other h) t s) as [v'|c']; cbn [same] in HS; try contradiction.
    + destruct H1 as [H1|[H1 _]], H2 as [H2|[H2 _]]; try discriminate. destruct (sp_reads _ _); [|discriminate].
      injection H1 as ->. injection H2 as ->. f_equal. cbn [other h_big_endian]. apply decode_swap.
    + now subst.
  - rewrite !wrap_claim by assumption. destruct (w_reads _ _); [|reflexivity].
    f_equal. cbn [other h_big_endian]. apply w_decode_swap.
Qed.
Lemma portable_all_claim h t s : usable t -> sp_portable t = true -> aligned (sp_align t) s -> len (s_data s) < 2 ^ 63 ->
  decode (other h) t s = decode h t s.
Proof.
  intros Hu Hp Ha Hl. rewrite swap_all_claim by assumption. destruct (decode h t s) as [v|] eqn:E; [|reflexivity].
  f_equal. apply swap_portable; [exact Hp|]. exact (typed_all_claim h t s v Hu Ha Hl E).
Qed.

(** ** The case of C19, read exactly *)
Lemma wrap_case h n a : h_overflow_checks h = false -> a mod 2 = 0 -> n mod 2 = 0 -> 2 ^ 32 <= n -> n + 16 < 2 ^ 63 ->
  exists v vs,
    w_decode (h_big_endian h) (TA (TA TN)) (Some (big_bytes n)) = VArray [VArray []; VArray (v :: vs)] /\
    sp_decode (h_big_endian h) (TA (TA TN)) (Some (big_bytes n)) = VArray [VArray []; VArray []].
Proof.
  intros Ho Ha He H1 H2. destruct (wrap_wrong h n a Ho Ha He H1 H2) as (v & vs & E & E'). exists v, vs. split; [|exact E'].
  rewrite wrap_claim in E; [|split; reflexivity|exact Ha|cbn [s_data]; change (@len byte) with (@blen byte); pose proof (big_len n) as Hl; change (@len byte) with (@blen byte) in Hl; lia|exact Ho].
  destruct (w_reads _ _); [|discriminate]. cbn [s_data] in E. congruence.
Qed.

(** ** Children without alignment and fixed size never start past the end of the sums *)
Lemma pad_1 x : pad_to 1 x = x.
Proof. unfold pad_to. rewrite N.mod_1_r. lia. Qed.
Lemma width_8 n : sp_width n <= 8.
Proof. unfold sp_width. repeat destruct (_ : bool); lia. Qed.
Lemma offset_lt d a w : w <= 8 -> le_num (sub d a w) < 2 ^ 64.
Proof.
  intros Hw. pose proof (le_num_lt (sub d a w) _ eq_refl) as H.
  eapply N.lt_le_trans; [exact H|]. change (2 ^ 64) with (256 ^ 8). apply N.pow_le_mono_r; [lia|].
  unfold sub. rewrite firstn_length. lia.
Qed.
Lemma array_cut_1 d limit : forall ends prev, prev < 2 ^ 64 -> Forall (fun e => e < 2 ^ 64) ends ->
  w_array_cut 1 d limit prev ends = sp_array_cut 1 d limit prev ends.
Proof.
  induction ends as [|e ends IH]; intros prev Hp He; [reflexivity|]. inversion He; subst. cbn [w_array_cut sp_array_cut].
  rewrite pad_1. unfold wrap. rewrite N.mod_small by assumption. now rewrite IH.
Qed.
Lemma array_children_1 d : w_array_children 1 d = sp_array_children 1 d.
Proof.
  unfold w_array_children, sp_array_children. destruct (_ =? 0); [reflexivity|]. destruct (_ && _); [|reflexivity].
  apply array_cut_1; [reflexivity|]. apply Forall_map. apply Forall_forall. intros i _. apply offset_lt, width_8.
Qed.
Lemma struct_cut_1 d w limit : w <= 8 -> forall items prev nth, prev < 2 ^ 64 -> Forall (fun it => it = (1, None)) items ->
  w_struct_cut d w limit prev nth items = sp_struct_cut d w limit prev nth items.
Proof.
  intros Hw. induction items as [|it items IH]; intros prev nth Hp Hi; [reflexivity|]. inversion Hi; subst.
  cbn [w_struct_cut sp_struct_cut]. rewrite pad_1. unfold wrap. rewrite N.mod_small by assumption.
  destruct items; [reflexivity|]. rewrite IH; [reflexivity|now apply offset_lt|assumption].
Qed.
Lemma struct_children_1 items d : Forall (fun it => it = (1, None)) items ->
  w_struct_children items d = sp_struct_children items d.
Proof.
  intros H. unfold w_struct_children, sp_struct_children. destruct (_ <=? _); [|reflexivity].
  apply struct_cut_1; [apply width_8|reflexivity|exact H].
Qed.
