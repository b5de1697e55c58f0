(** Writing through mutable references (C78-C81). *)
From Verif Require Import Base Types Layout AlignedBytes Strs Spec Deser Ser Buf Histories SerSpec
  BaseFacts TypesFacts LayoutFacts AlignedFacts Utf8Facts DeserFacts ArrayFacts StructFacts ReadFacts AccessFacts
  ReadClaims EncFacts RoundFacts SerMain ViewFacts Mut MutSpec.
From Coq Require Import Lia ZifyBool ZifyNat ZifyN.
Ltac Zify.zify_post_hook ::= Z.div_mod_to_equations.

(** ** Overwriting *)
Lemma overwrite_splice d o new : sp_overwrite d o new = splice d o new.
Proof. unfold sp_overwrite, splice. rewrite sub_to_end. unfold sub, take. cbn [N.to_nat skipn]. reflexivity. Qed.
Lemma splice_len d o new : o + blen new <= blen d -> blen (splice d o new) = blen d.
Proof. intros H. unfold splice. rewrite !blen_app, blen_take, blen_drop. lia. Qed.
Lemma splice_before d o new p n : p + n <= o -> o + blen new <= blen d -> sub (splice d o new) p n = sub d p n.
Proof.
  intros H Hl. unfold sub. fold (take (A := byte) n) (drop (A := byte) p). unfold splice.
  change (firstn (N.to_nat n) (skipn (N.to_nat p) (take o d ++ new ++ drop (o + blen new) d)))
    with (take n (drop p (take o d ++ new ++ drop (o + blen new) d))).
  change (firstn (N.to_nat n) (skipn (N.to_nat p) d)) with (take n (drop p d)).
  rewrite drop_app_le by (rewrite blen_take; lia). rewrite take_app_le by (rewrite blen_drop, blen_take; lia).
  rewrite drop_take, take_take. f_equal. lia.
Qed.
Lemma splice_after d o new p n : o + blen new <= p -> o + blen new <= blen d -> sub (splice d o new) p n = sub d p n.
Proof.
  intros H Hl. unfold sub, splice.
  change (firstn (N.to_nat n) (skipn (N.to_nat p) (take o d ++ new ++ drop (o + blen new) d)))
    with (take n (drop p (take o d ++ new ++ drop (o + blen new) d))).
  change (firstn (N.to_nat n) (skipn (N.to_nat p) d)) with (take n (drop p d)).
  rewrite drop_app_ge by (rewrite blen_take; lia). rewrite blen_take.
  rewrite drop_app_ge by lia. rewrite drop_drop. do 2 f_equal. lia.
Qed.
Lemma splice_inside d o new p n : p <= o -> o + blen new <= p + n -> p + n <= blen d ->
  sub (splice d o new) p n = splice (sub d p n) (o - p) new.
Proof.
  intros H1 H2 Hl. unfold sub, splice.
  change (firstn (N.to_nat n) (skipn (N.to_nat p) (take o d ++ new ++ drop (o + blen new) d)))
    with (take n (drop p (take o d ++ new ++ drop (o + blen new) d))).
  change (firstn (N.to_nat n) (skipn (N.to_nat p) d)) with (take n (drop p d)).
  rewrite drop_app_le by (rewrite blen_take; lia). rewrite drop_take.
  rewrite take_app_ge by (rewrite blen_take, blen_drop; lia). rewrite take_take.
  rewrite blen_take, blen_drop. rewrite take_app_ge by lia.
  replace (N.min (o - p) n) with (o - p) by lia. f_equal. f_equal.
  rewrite drop_take, drop_drop. f_equal; [lia|]. f_equal. lia.
Qed.
Lemma splice_whole d new : blen new = blen d -> splice d 0 new = new.
Proof. intros H. unfold splice. rewrite take_0, drop_all by lia. cbn [app]. apply app_nil_r. Qed.
Lemma splice_app_r a b o new : splice (a ++ b) (blen a + o) new = a ++ splice b o new.
Proof.
  unfold splice. rewrite take_app_ge by lia. rewrite drop_app_ge by lia.
  replace (blen a + o - blen a) with o by lia. replace (blen a + o + blen new - blen a) with (o + blen new) by lia.
  now rewrite <- app_assoc.
Qed.

(** ** The constructor *)
Lemma write_fields_sums vals : forall pre rest os,
  Forall2 (fun p v => True) os vals ->
  (forall k o, nth_error os k = Some o -> o = blen pre + blen (concat (firstn k vals))) ->
  blen (concat vals) <= blen rest ->
  write_fields (pre ++ rest) os vals = pre ++ concat vals ++ drop (blen (concat vals)) rest.
Proof.
  induction vals as [|v vals IH]; intros pre rest os HF Hos Hl.
  - inversion HF; subst. cbn [write_fields concat app]. now rewrite blen_nil, drop_0.
  - inversion HF as [|o ? os' ? _ HF']; subst. cbn [write_fields concat] in *.
    assert (Ho : o = blen pre) by (rewrite (Hos O o eq_refl); cbn; lia). rewrite blen_app in Hl.
    replace o with (blen pre + 0) by lia. rewrite splice_app_r. unfold splice. rewrite take_0, N.add_0_l. cbn [app].
    rewrite app_assoc. rewrite IH; auto.
    + rewrite blen_app, <- !app_assoc, drop_drop. reflexivity.
    + intros k o' Hk. specialize (Hos (S k) o' Hk). cbn [firstn concat] in Hos. rewrite blen_app in *. lia.
    + rewrite blen_drop. lia.
Qed.
(** Fields [repr(C)] lays out without gaps are at the sums of the sizes before them. *)
Lemma repr_go_end fields : Forall (fun f => 1 <= snd f) fields -> forall off al os e al', repr_c_go off al fields = (os, e, al') ->
  off + fold_right N.add 0 (map fst fields) <= e.
Proof.
  induction 1 as [|[fs fa] fields Hf _ IH]; intros off al os e al' E; cbn [repr_c_go map fold_right fst snd] in *.
  - injection E as <- <- <-. lia.
  - destruct (repr_c_go (round_up off fa + fs) (N.max al fa) fields) as [[os' e'] al''] eqn:E'.
    injection E as <- <- <-. specialize (IH _ _ _ _ _ E').
    assert (off <= round_up off fa) by (unfold round_up; nia). lia.
Qed.
Lemma repr_go_tight fields : Forall (fun f => 1 <= snd f) fields -> forall off al os e al', repr_c_go off al fields = (os, e, al') ->
  e <= off + fold_right N.add 0 (map fst fields) ->
  length os = length fields /\
  forall k o, nth_error os k = Some o -> o = off + fold_right N.add 0 (firstn k (map fst fields)).
Proof.
  induction 1 as [|[fs fa] fields Hf HF IH]; intros off al os e al' E He; cbn [repr_c_go map fold_right fst snd length] in *.
  - injection E as <- <- <-. split; [reflexivity|]. intros [|k] o H; discriminate.
  - destruct (repr_c_go (round_up off fa + fs) (N.max al fa) fields) as [[os' e'] al''] eqn:E'.
    injection E as <- <- <-. pose proof (repr_go_end fields HF _ _ _ _ _ E') as Hend.
    assert (Hr : off <= round_up off fa) by (unfold round_up; nia).
    assert (round_up off fa = off) by lia.
    destruct (IH _ _ _ _ _ E' ltac:(lia)) as [Hlen Hk]. split; [cbn; lia|].
    intros [|k] o Hn; cbn [nth_error firstn fold_right] in *; [injection Hn as <-; lia|].
    rewrite (Hk k o Hn). lia.
Qed.
Lemma field_values_lens pads : forall vals ls final, Forall2 (fun l v => blen v = fst l) ls vals ->
  map blen (field_values pads vals final) = map fst (map snd (interleave pads ls final)).
Proof.
  induction pads as [|p pads IH]; intros vals ls final HF; inversion HF as [|l v ls' vals' Hv HF']; subst;
    cbn [field_values interleave]; try (destruct (0 <? final); cbn [map fst snd]; rewrite ?blen_zeros; reflexivity).
  rewrite !map_app. cbn [map fst snd]. rewrite (IH vals' ls' final HF'), Hv. f_equal.
  destruct (0 <? p); cbn [map fst snd]; rewrite ?blen_zeros; reflexivity.
Qed.
Lemma field_values_concat its : forall vals pos final, Forall2 (fun it b => blen b = snd it) its vals ->
  concat (field_values (walk_pads pos its) vals final) =
  fst (sp_lay_struct pos (map (fun it => (fst it, Some (snd it))) its) vals) ++ zeros final.
Proof.
  induction its as [|[al s] its IH]; intros vals pos final HF; inversion HF as [|? v ? vals' Hv HF']; subst.
  - cbn [field_values walk_pads map sp_lay_struct fst app]. destruct (0 <? final) eqn:E; cbn [concat app]; [apply app_nil_r|].
    now replace final with 0 by lia.
  - cbn [field_values walk_pads map sp_lay_struct fst snd] in *. rewrite concat_app. cbn [concat].
    rewrite (IH vals' (pad_to al pos + s) final HF'). change (len v) with (blen v). rewrite Hv.
    destruct (sp_lay_struct _ _ vals') as [rest ends]. cbn [fst]. change nuls with zeros. rewrite <- !app_assoc. f_equal.
    destruct (0 <? pad_to al pos - pos) eqn:E; cbn [concat]; [apply app_nil_r|].
    now replace (pad_to al pos - pos) with 0 by lia.
Qed.
Lemma concat_firstn_len (vals : list (list byte)) : forall k,
  blen (concat (firstn k vals)) = fold_right N.add 0 (firstn k (map blen vals)).
Proof.
  induction vals as [|v vals IH]; intros [|k]; cbn [firstn concat map fold_right]; try reflexivity.
  rewrite blen_app, IH. reflexivity.
Qed.
Lemma concat_len_sum (vals : list (list byte)) : blen (concat vals) = fold_right N.add 0 (map blen vals).
Proof. induction vals as [|v vals IH]; cbn [concat map fold_right]; [reflexivity|]. now rewrite blen_app, IH. Qed.
Lemma declared_pos pads : forall ts final,
  Forall (fun f : N * N => 1 <= snd f) (map snd (interleave pads (declared ts) final)).
Proof.
  induction pads as [|p pads IH]; intros [|c ts] final; cbn [declared map interleave];
    try (destruct (0 <? final); cbn; repeat constructor; cbn; lia).
  fold (declared ts). rewrite map_app. apply Forall_app. split.
  - destruct (0 <? p); cbn; repeat constructor; cbn; lia.
  - cbn [map]. constructor; [cbn; pose proof (align_of_pos c); lia|apply IH].
Qed.
Lemma fixed_items_of t n : is_struct t -> size_of t = Some n ->
  items_of (children_of t) = map (fun it => (fst it, Some (snd it))) (fixed_items (children_of t)).
Proof.
  intros Hs Hn. pose proof (fixed_children t n Hs Hn) as Hfix.
  unfold items_of, fixed_items. rewrite map_map. apply map_ext_in. intros c Hc. cbn [fst snd].
  rewrite Forall_forall in Hfix. specialize (Hfix c Hc). unfold is_fixed, size_or_0 in *. now destruct (size_of c).
Qed.
Lemma fixed_end t n : is_struct t -> size_of t = Some n -> walk_end 0 (fixed_items (children_of t)) <= n.
Proof.
  intros Hs Hn. pose proof (size_of_fixed_struct t n Hs Hn) as Hsz. rewrite Hsz.
  destruct (children_of t); [cbn; lia|]. apply pad_to_ge. auto with al.
Qed.
Lemma fixed_items_al ts : Forall (fun it : N * N => is_alignment (fst it)) (fixed_items ts).
Proof. unfold fixed_items. apply Forall_map. apply Forall_forall. intros. cbn. auto with al. Qed.

Lemma struct_new_bytes junk t n vals : is_struct t -> size_of t = Some n -> macro_ok t = true ->
  Forall2 (fun c b => blen b = size_or_0 c) (children_of t) vals ->
  struct_new junk t vals = Ok (sp_struct_bytes (Some n) (items_of (children_of t)) vals).
Proof.
  intros Hs Hn Hm HF. unfold struct_new.
  pose proof Hm as Hm'. rewrite macro_ok_struct in Hm' by assumption. apply andb_true_iff in Hm' as [Hc Hx].
  rewrite struct_macro_ok_exact in Hx by assumption. unfold is_fixed in Hx. rewrite Hn in Hx.
  rewrite (packed_struct_exact t n), Hx by assumption.
  pose proof (fixed_children t n Hs Hn) as Hfix.
  rewrite mem_layouts_declared.
  2:{ rewrite forallb_forall in Hc. rewrite Forall_forall in *. intros x Hin. specialize (Hfix x Hin).
      unfold is_fixed in Hfix. unfold size_or_0. destruct (size_of x) eqn:Ex; [|discriminate]. now apply mem_layout_ok; auto. }
  destruct (struct_layout t n Hs Hn) as (os & E & _ & Esum). unfold decl_fields in E, Esum.
  set (ts := children_of t) in *. set (pads := walk_pads 0 (fixed_items ts)) in *.
  set (final := n - walk_end 0 (fixed_items ts)) in *.
  rewrite E. f_equal. clear Hc Hx Hm.
  unfold repr_c in E. destruct (repr_c_go 0 1 (map snd (interleave pads (declared ts) final))) as [[os' e] al] eqn:Ego.
  injection E as -> Er Eal.
  assert (Hal : 1 <= al) by (rewrite Eal; pose proof (align_of_pos t); lia).
  assert (He : e <= round_up e al) by (unfold round_up; nia). rewrite Er in He.
  assert (HF' : Forall2 (fun l v => blen v = fst l) (declared ts) vals).
  { unfold declared. clear -HF. induction HF; cbn [map]; constructor; auto. }
  pose proof (field_values_lens pads vals (declared ts) final HF') as Hlens.
  assert (Hsum : fold_right N.add 0 (map fst (map snd (interleave pads (declared ts) final))) = n).
  { rewrite map_map. exact Esum. }
  destruct (repr_go_tight _ (declared_pos pads ts final) _ _ _ _ _ Ego ltac:(rewrite Hsum; lia)) as [Hlen Hk].
  assert (Htot : blen (concat (field_values pads vals final)) = n) by now rewrite concat_len_sum, Hlens.
  set (mem := map junk (seq 0 (N.to_nat n))).
  assert (Hmem : blen mem = n) by (unfold mem; rewrite blen_map; unfold blen; rewrite seq_length; lia).
  pose proof (write_fields_sums (field_values pads vals final) [] mem os) as HW. cbn [app] in HW.
  rewrite HW; clear HW.
  - rewrite drop_all by lia. rewrite app_nil_r. unfold pads.
    assert (HF2 : Forall2 (fun it b => blen b = snd it) (fixed_items ts) vals).
    { unfold fixed_items. clear -HF. induction HF; cbn [map]; constructor; auto. }
    rewrite field_values_concat by exact HF2. unfold sp_struct_bytes.
    assert (Ei : items_of ts = map (fun it => (fst it, Some (snd it))) (fixed_items ts)) by exact (fixed_items_of t n Hs Hn).
    rewrite Ei.
    pose proof (lay_struct_fixed (fixed_items ts) vals 0 HF2 (fixed_items_al ts)) as HL.
    destruct (sp_lay_struct _ _ _) as [body ends]. cbn [fst] in *. change nuls with zeros. do 2 f_equal. unfold final. lia.
  - assert (HL : length os = length (field_values pads vals final)).
    { rewrite Hlen. apply (f_equal (@length N)) in Hlens. rewrite !map_length in *. lia. }
    clear -HL. revert HL. generalize (field_values pads vals final). induction os as [|o os IH]; intros [|v vs] HL; try discriminate; constructor; auto.
  - intros k o Ho. rewrite (Hk k o Ho), concat_firstn_len, Hlens. reflexivity.
  - lia.
Qed.

(** ** The bytes of a value *)
Definition images (big : bool) (ts : list ty) (rs : list rval) : list (list byte) :=
  map (fun p => sp_image big (fst p) (snd p)) (combine ts rs).
Lemma sp_image_struct big t rs : is_struct t ->
  sp_image big t (RTuple rs) = sp_struct_bytes (size_of t) (items_of (children_of t)) (images big (children_of t) rs).
Proof.
  intros Hs. assert (E : forall ts, (fix go rs ts := match rs, ts with
                          | r :: rs, t :: ts => sp_image big t r :: go rs ts
                          | _, _ => []
                          end) rs ts = images big ts rs).
  { unfold images. induction rs as [|r rs IH]; intros [|c ts]; try reflexivity. cbn [combine map fst snd]. now rewrite IH. }
  destruct t as [| | | | | | | | | | | | |x|x|ts|a b]; cbn [is_struct] in Hs; try tauto; cbn [sp_image sp_components children_of];
    rewrite E, sp_size_of; f_equal; apply sp_items_of.
Qed.
Lemma image_struct h junk t rs : is_struct t -> length rs = length (children_of t) ->
  image h junk t (RTuple rs) =
  let* vals := mapM (fun p => image h junk (fst p) (snd p)) (combine (children_of t) rs) in struct_new junk t vals.
Proof.
  intros Hs Hl. assert (E : forall ts, (fix go (rs : list rval) (ts : list ty) : res (list (list byte)) :=
                        match rs, ts with
                        | r :: rs', t :: ts' =>
                            let* v := image h junk t r in let* vs := go rs' ts' in Ok (v :: vs)
                        | _, _ => Ok []
                        end) rs ts = mapM (fun p => image h junk (fst p) (snd p)) (combine ts rs)).
  { clear. induction rs as [|r rs IH]; intros [|c ts]; try reflexivity. cbn [combine mapM fst snd]. now rewrite IH. }
  destruct t as [| | | | | | | | | | | | |x|x|ts|a b]; cbn [is_struct] in Hs; try tauto; cbn [image children_of] in *;
    rewrite Hl, Nat.eqb_refl, E; reflexivity.
Qed.
Lemma double_typed b : b < 2 ^ 64 -> sp_typed TD (VDouble b). Proof. intros H; exact H. Qed.
Lemma image_exact h junk t : forall n r, size_of t = Some n -> macro_ok t = true -> rtyped t r -> fieldable r = true ->
  let big := h_big_endian h in
  image h junk t r = Ok (sp_image big t r) /\ blen (sp_image big t r) = n /\
  sp_decode big t (Some (sp_image big t r)) = rvalue false big t r /\
  (tidy r = true -> sp_image big t r = sp_encode big t (rvalue false big t r)).
Proof.
  induction t as [t Hns _|t Hs IH] using ty_struct_ind; intros n r Hn Hm Ht Hf big.
  - assert (Hnum : forall v, sp_typed t v -> blen (sp_encode big t v) = n /\ sp_decode big t (Some (sp_encode big t v)) = v).
    { intros v Hv. pose proof (bytes_fixed false big t n v Hn Hv) as Hl. split; [exact Hl|].
      apply (encode_back big t v Hv). unfold sp_encode. rewrite Hl. clear -Hns Hn. destruct t; cbn [is_struct] in Hns; try tauto; cbn in Hn; try discriminate; injection Hn as <-; reflexivity. }
    assert (HnumI : forall z, r = RInt z -> sp_typed t (VInt z) -> image h junk t r = Ok (sp_encode big t (VInt z)) ->
      image h junk t r = Ok (sp_image big t r) /\ blen (sp_image big t r) = n /\
      sp_decode big t (Some (sp_image big t r)) = rvalue false big t r /\
      (tidy r = true -> sp_image big t r = sp_encode big t (rvalue false big t r))).
    { intros z -> Hz Hi. destruct (Hnum _ Hz) as [H1 H2].
      assert (E1 : sp_image big t (RInt z) = sp_encode big t (VInt z)) by (destruct t; reflexivity).
      assert (E2 : rvalue false big t (RInt z) = VInt z) by (destruct t; reflexivity).
      rewrite E1, E2. auto. }
    destruct t; cbn [is_struct] in Hns; try tauto; cbn in Hn; try discriminate; destruct r; cbn [rtyped] in Ht; try tauto; cbn [fieldable] in Hf; try discriminate;
      try (apply (HnumI z eq_refl); [cbn [sp_typed]; lia|cbn [image sp_encode sp_bytes]; now rewrite int_bytes_sp]).
    + cbn [image sp_image]. injection Hn as <-. repeat split. intros Hy. cbn [tidy] in Hy. apply orb_true_iff in Hy as [Hy|Hy];
        apply Byte.byte_dec_bl in Hy; subst b; subst big; destruct (h_big_endian h); reflexivity.
    + destruct (Hnum (VDouble bits) Ht) as [H1 H2]. cbn [image sp_image rvalue]. rewrite double_bytes_sp by exact Ht. auto.
  - destruct (rtyped_struct t r Hs Ht) as (rs & -> & HF). cbn [fieldable] in Hf.
    pose proof (fixed_children t n Hs Hn) as Hfix.
    rewrite macro_ok_struct in Hm by assumption. pose proof Hm as Hm2. apply andb_true_iff in Hm as [Hmc _].
    assert (HI : Forall2 (fun c r => image h junk c r = Ok (sp_image big c r) /\ blen (sp_image big c r) = size_or_0 c /\
       sp_decode big c (Some (sp_image big c r)) = rvalue false big c r /\
       (tidy r = true -> sp_image big c r = sp_encode big c (rvalue false big c r)) /\ rtyped c r) (children_of t) rs).
    { clear Ht Hm2. revert Hf. induction HF as [|c r cs rs Hcr _ IHF]; intros Hf; [constructor|].
      inversion IH as [|? ? IHc IHcs]; subst. inversion Hfix as [|? ? Hfc Hfcs]; subst. cbn [forallb] in Hf, Hmc.
      apply andb_true_iff in Hf as [Hf1 Hf2]. apply andb_true_iff in Hmc as [Hm1 Hm2']. constructor; [|auto].
      unfold is_fixed in Hfc. unfold size_or_0. destruct (size_of c) as [m|] eqn:Em; [|discriminate].
      destruct (IHc m r eq_refl Hm1 Hcr Hf1) as (H1 & H2 & H3 & H4). auto. }
    clear IH. assert (Hl : length rs = length (children_of t)) by (symmetry; eapply Forall2_length; eauto).
    rewrite image_struct by assumption. rewrite sp_image_struct by assumption. rewrite Hn.
    assert (HmapM : mapM (fun p => image h junk (fst p) (snd p)) (combine (children_of t) rs) = Ok (images big (children_of t) rs)).
    { unfold images. clear -HI. induction HI as [|c r cs rs (H1 & _) _ IH]; [reflexivity|]. cbn [combine mapM map fst snd].
      rewrite H1. cbn [bind]. now rewrite IH. }
    rewrite HmapM. cbn [bind].
    assert (Hsz : Forall2 (fun c b => blen b = size_or_0 c) (children_of t) (images big (children_of t) rs)).
    { unfold images. clear -HI. induction HI as [|c r cs rs (_ & H2 & _) _ IH]; cbn [combine map]; constructor; auto. }
    rewrite (struct_new_bytes junk t n) by (auto; now rewrite macro_ok_struct).
    assert (Hit : Forall2 (fun it b => len b = snd it) (fixed_items (children_of t)) (images big (children_of t) rs)).
    { unfold fixed_items. clear -Hsz. induction Hsz; cbn [map]; constructor; auto. }
    destruct (struct_bytes_fixed (fixed_items (children_of t)) _ n Hit (fixed_items_al _) (fixed_end t n Hs Hn)) as [Hcut Hlen].
    rewrite <- (fixed_items_of t n Hs Hn) in Hcut, Hlen.
    split; [reflexivity|]. split; [exact Hlen|]. split.
    + rewrite sp_decode_struct by (auto; unfold size_good; rewrite Hn; exact Hlen).
      rewrite rvalue_struct by assumption. unfold struct_cuts. rewrite Hn, Hcut. f_equal.
      unfold dec_all, rvals, images. clear -HI. induction HI as [|c r cs rs (_ & _ & H3 & _) _ IH]; [reflexivity|].
      cbn [combine map fst snd]. now rewrite H3, IH.
    + cbn [tidy]. intros Hy. rewrite rvalue_struct by assumption. unfold sp_encode. rewrite bytes_struct.
      * rewrite Hn. f_equal. unfold images, enc_all, rvals. clear -HI Hy. induction HI as [|c r cs rs (_ & _ & _ & H4 & _) _ IH]; [reflexivity|].
        cbn [combine map fst snd forallb] in *. apply andb_true_iff in Hy as [Hy1 Hy2]. now rewrite H4, IH.
      * assumption.
      * unfold rvals. rewrite map_length, combine_length. lia.
Qed.

(** ** Members *)
Lemma offsets_end its : Forall (fun it => is_alignment (fst it)) its -> forall pos i o al s,
  nth_error (sp_field_offsets pos its) i = Some o -> nth_error its i = Some (al, s) ->
  pos <= o /\ o + s <= walk_end pos its.
Proof.
  assert (Hge : forall its, Forall (fun it : N * N => is_alignment (fst it)) its -> forall pos, pos <= walk_end pos its).
  { clear. induction 1 as [|[a s] its Ha _ IH]; intros pos; cbn [walk_end]; [lia|].
    specialize (IH (pad_to a pos + s)). pose proof (pad_to_ge a pos Ha). lia. }
  induction 1 as [|[a s0] its Ha HF IH]; intros pos [|i] o al s Ho Hi; cbn [sp_field_offsets nth_error walk_end] in *; try discriminate.
  - injection Ho as <-. injection Hi as <- <-. pose proof (pad_to_ge a pos Ha). specialize (Hge its HF (pad_to a pos + s0)). lia.
  - destruct (IH _ _ _ _ _ Ho Hi) as [H1 H2]. pose proof (pad_to_ge a pos Ha). cbn [fst] in *. lia.
Qed.
Lemma offsets_apart its : Forall (fun it => is_alignment (fst it)) its -> forall pos i j o o' al s,
  nth_error (sp_field_offsets pos its) i = Some o -> nth_error its i = Some (al, s) ->
  nth_error (sp_field_offsets pos its) j = Some o' -> (i < j)%nat -> o + s <= o'.
Proof.
  induction 1 as [|[a s0] its Ha HF IH]; intros pos [|i] [|j] o o' al s Ho Hi Hj Hij; cbn [sp_field_offsets nth_error] in *; try discriminate; try lia.
  - injection Ho as <-. injection Hi as <- <-.
    assert (Hn : exists it, nth_error its j = Some it).
    { destruct (nth_error its j) eqn:E; [eauto|]. apply nth_error_None in E.
      assert (length (sp_field_offsets (pad_to a pos + s0) its) = length its).
      { generalize (pad_to a pos + s0). clear. induction its as [|[? ?] its IH]; intros; cbn; auto. }
      assert (nth_error (sp_field_offsets (pad_to a pos + s0) its) j = None) by (apply nth_error_None; lia). congruence. }
    destruct Hn as ([al' s'] & Hn). apply (offsets_end its HF _ _ _ _ _ Hj Hn).
  - apply (IH _ i j o o' al s Ho Hi Hj). lia.
Qed.
Lemma fixed_cut_nth d n its : Forall (fun it => is_alignment (fst it)) its -> forall pos, walk_end pos its <= n ->
  sp_struct_cut d 0 n pos 0 (map (fun it => (fst it, Some (snd it))) its) =
  map (fun p => Some (sub d (fst p) (snd (snd p)))) (combine (sp_field_offsets pos its) its).
Proof.
  induction 1 as [|[a s] its Ha HF IH]; intros pos Hn; [reflexivity|].
  cbn [map fst snd sp_struct_cut sp_field_offsets combine walk_end] in *. rewrite IH by exact Hn. f_equal.
  assert (Hge : forall its, Forall (fun it : N * N => is_alignment (fst it)) its -> forall pos, pos <= walk_end pos its).
  { clear. induction 1 as [|[a s] its Ha _ IH]; intros pos; cbn [walk_end]; [lia|].
    specialize (IH (pad_to a pos + s)). pose proof (pad_to_ge a pos Ha). lia. }
  specialize (Hge its HF (pad_to a pos + s)). unfold cut.
  replace (_ && _) with true by lia. do 2 f_equal. lia.
Qed.
Lemma map_at_nth {A B} (f : nat -> A -> B) l : forall k i a, nth_error l i = Some a ->
  nth_error (map (fun p => f (fst p) (snd p)) (combine (seq k (length l)) l)) i = Some (f (k + i)%nat a).
Proof.
  induction l as [|x l IH]; intros k [|i] a H; cbn [nth_error length seq combine map fst snd] in *; try discriminate.
  - injection H as <-. now rewrite Nat.add_0_r.
  - rewrite (IH (S k) i a H). do 2 f_equal. lia.
Qed.
Lemma nth_error_same {A} (l l' : list A) : length l = length l' -> (forall i a b, nth_error l i = Some a -> nth_error l' i = Some b -> a = b) -> l = l'.
Proof.
  revert l'. induction l as [|x l IH]; intros [|y l'] Hl H; try discriminate; [reflexivity|]. f_equal.
  - exact (H O x y eq_refl eq_refl).
  - apply IH; [now injection Hl|]. intros i a b Ha Hb. exact (H (S i) a b Ha Hb).
Qed.
Lemma nth_error_combine {A B} (l : list A) (l' : list B) : forall i a b, nth_error l i = Some a -> nth_error l' i = Some b ->
  nth_error (combine l l') i = Some (a, b).
Proof. revert l'. induction l as [|x l IH]; intros [|y l'] [|i] a b Ha Hb; cbn in *; try discriminate; [congruence|auto]. Qed.
Lemma combine_nth_error {A B} (l : list A) (l' : list B) : forall i p, nth_error (combine l l') i = Some p ->
  nth_error l i = Some (fst p) /\ nth_error l' i = Some (snd p).
Proof. revert l'. induction l as [|x l IH]; intros [|y l'] [|i] p H; cbn in *; try discriminate; [injection H as <-; auto|auto]. Qed.
Lemma offsets_length its : forall pos, length (sp_field_offsets pos its) = length its.
Proof. induction its as [|[a s] its IH]; intros pos; cbn; auto. Qed.

Lemma sub_len_min d p n : p + n <= blen d -> blen (sub d p n) = n.
Proof. intros H. apply (sub_len d p n H). Qed.

Lemma member_struct t i p o c : sp_member t (i :: p) = Some (o, c) -> (exists n, size_of t = Some n) -> is_struct t.
Proof.
  cbn [sp_member]. intros H [n Hn]. destruct t; cbn [is_struct]; auto; cbn in Hn; try discriminate; cbn [sp_components] in H;
    destruct i; discriminate.
Qed.
Lemma member_exact big p : forall t n o c, size_of t = Some n -> macro_ok t = true -> sp_member t p = Some (o, c) ->
  place t p = Ok (o, c) /\ macro_ok c = true /\
  exists m, size_of c = Some m /\ o + m <= n /\
    forall d new, blen d = n -> blen new = m ->
      sp_decode big t (Some (splice d o new)) = sp_replace (sp_decode big t (Some d)) p (sp_decode big c (Some new)).
Proof.
  induction p as [|i p IH]; intros t n o c Hn Hm H.
  - injection H as <- <-. split; [reflexivity|]. split; [exact Hm|]. exists n. split; [exact Hn|]. split; [lia|].
    intros d new Hd Hw. cbn [sp_replace]. now rewrite splice_whole by lia.
  - pose proof (member_struct t i p o c H (ex_intro _ n Hn)) as Hs. cbn [sp_member] in H.
    assert (Ei : combine (map sp_align (sp_components t)) (map (fun t => match sp_size t with Some n => n | None => 0 end) (sp_components t))
                 = fixed_items (children_of t)).
    { assert (Ec : sp_components t = children_of t) by (destruct t; cbn in Hs; tauto || reflexivity). rewrite Ec.
      rewrite <- fixed_items_combine. f_equal; apply map_ext; intros x; [apply sp_align_of|]. unfold size_or_0. now rewrite sp_size_of. }
    rewrite Ei in H. assert (Ec : sp_components t = children_of t) by (destruct t; cbn in Hs; tauto || reflexivity). rewrite Ec in H.
    set (ts := children_of t) in *. set (its := fixed_items ts) in *.
    destruct (nth_error (sp_field_offsets 0 its) i) as [oi|] eqn:Eo; [|discriminate].
    destruct (nth_error ts i) as [ci|] eqn:Eci; [|discriminate].
    destruct (sp_member ci p) as [[o' c']|] eqn:Em; [|discriminate]. injection H as <- <-.
    pose proof (fixed_children t n Hs Hn) as Hfix. fold ts in Hfix.
    assert (Hin : In ci ts) by (eapply nth_error_In; eauto).
    assert (Hmi : macro_ok ci = true) by (eapply macro_children; eauto).
    assert (Hsz : size_of ci = Some (size_or_0 ci)).
    { rewrite Forall_forall in Hfix. specialize (Hfix ci Hin). unfold is_fixed, size_or_0 in *. now destruct (size_of ci). }
    destruct (IH ci (size_or_0 ci) o' c' Hsz Hmi Em) as (Hp & Hmc & m & Hcm & Hle & Hdec).
    assert (Eit : nth_error its i = Some (align_of ci, size_or_0 ci)).
    { unfold its, fixed_items. rewrite nth_error_map, Eci. reflexivity. }
    pose proof (fixed_items_al ts) as HA. fold its in HA.
    destruct (offsets_end its HA 0 i oi _ _ Eo Eit) as [_ Hend]. pose proof (fixed_end t n Hs Hn) as Hwe. fold ts its in Hwe.
    split.
    { cbn [place]. rewrite (field_offsets_ok t n) by assumption. fold ts its. rewrite Eo. fold ts. rewrite Eci, Hp. reflexivity. }
    split; [exact Hmc|]. exists m. split; [exact Hcm|]. split; [lia|].
    intros d new Hd Hw.
    assert (Hdl : blen (splice d (oi + o') new) = n) by (rewrite splice_len; lia).
    rewrite !sp_decode_struct by (auto; unfold size_good; rewrite Hn; assumption).
    cbn [sp_replace]. f_equal. fold ts.
    assert (Hcuts : forall e, struct_cuts t e = map (fun q => Some (sub e (fst q) (snd (snd q)))) (combine (sp_field_offsets 0 its) its)).
    { intros e. unfold struct_cuts. rewrite Hn, (fixed_items_of t n) by assumption. fold ts its. now apply fixed_cut_nth. }
    assert (Hlen : forall e, length (dec_all big ts (struct_cuts t e)) = length ts).
    { intros e. unfold dec_all. rewrite map_length, combine_length, struct_cuts_length. fold ts. lia. }
    apply nth_error_same.
    { rewrite map_length, combine_length, seq_length, !Hlen. lia. }
    intros j a b Ha Hb. unfold dec_all in Ha. rewrite nth_error_map in Ha.
    destruct (nth_error (combine ts (struct_cuts t (splice d (oi + o') new))) j) as [[cj k1]|] eqn:Ej; [|discriminate]. injection Ha as <-.
    apply combine_nth_error in Ej as [Ej1 Ej2]. cbn [fst snd] in *. rewrite Hcuts, nth_error_map in Ej2.
    destruct (nth_error (combine (sp_field_offsets 0 its) its) j) as [[oj itj]|] eqn:Ej3; [|discriminate]. injection Ej2 as <-.
    assert (Ej4 := Ej3). apply combine_nth_error in Ej4 as [Eoj Eitj]. cbn [fst snd] in *.
    assert (Hitj : itj = (align_of cj, size_or_0 cj)).
    { unfold its, fixed_items in Eitj. rewrite nth_error_map, Ej1 in Eitj. now injection Eitj. }
    subst itj. cbn [snd].
    assert (Hold : nth_error (dec_all big ts (struct_cuts t d)) j = Some (sp_decode big cj (Some (sub d oj (size_or_0 cj))))).
    { unfold dec_all. rewrite nth_error_map.
      rewrite (nth_error_combine ts (struct_cuts t d) j cj (Some (sub d oj (size_or_0 cj)))); [reflexivity|exact Ej1|].
      rewrite Hcuts, nth_error_map, Ej3. reflexivity. }
    rewrite (map_at_nth (fun k w => if Nat.eqb k i then sp_replace w p (sp_decode big c' (Some new)) else w) _ 0 j _ Hold) in Hb.
    cbn [Nat.add] in Hb. injection Hb as <-.
    destruct (Nat.eqb j i) eqn:Eji.
    + apply Nat.eqb_eq in Eji. subst j. assert (cj = ci) by congruence. assert (oj = oi) by congruence. subst cj oj.
      rewrite splice_inside by lia. replace (oi + o' - oi) with o' by lia.
      apply Hdec; [apply sub_len_min; lia|exact Hw].
    + apply Nat.eqb_neq in Eji. destruct (offsets_end its HA 0 j oj _ _ Eoj Eitj) as [_ Hej].
      destruct (Nat.lt_total i j) as [Hij|[Hij|Hij]]; [|congruence|].
      * pose proof (offsets_apart its HA 0 i j oi oj _ _ Eo Eit Eoj Hij). now rewrite splice_after by lia.
      * pose proof (offsets_apart its HA 0 j i oj oi _ _ Eoj Eitj Eo Hij). now rewrite splice_before by lia.
Qed.

(** ** Assignment *)
Lemma assign_exact h junk t n s p r o c : size_of t = Some n -> macro_ok t = true ->
  sp_member t p = Some (o, c) -> rtyped c r -> fieldable r = true ->
  (aligned (align_of t) s \/ slen s = 0) ->
  assign h junk t s p r =
    Ok (if slen s =? n then Some (s_addr s + o, sp_image (h_big_endian h) c r) else None).
Proof.
  intros Hn Hm Hp Hr Hf Ha. destruct (member_exact (h_big_endian h) p t n o c Hn Hm Hp) as (Hpl & Hmc & m & Hcm & Hle & _).
  destruct (image_exact h junk c m r Hcm Hmc Hr Hf) as (Hi & _).
  unfold assign. rewrite Hpl. cbn [bind fst snd]. rewrite Hi. cbn [bind].
  assert (Et : try_from_aligned_slice_mut h t s = try_from_aligned_slice h t s).
  { destruct t; try reflexivity. discriminate. }
  rewrite Et. destruct Ha as [Ha|Ha].
  - rewrite try_from_ok by assumption. cbn [bind]. destruct (size_good_dec t (slen s)) as [Hg|Hg]; unfold size_good in Hg; rewrite Hn in Hg.
    + replace (slen s =? n) with true by lia. reflexivity.
    + replace (slen s =? n) with false by lia. reflexivity.
  - unfold try_from_aligned_slice. rewrite Hn. rewrite (mem_layout_ok t n Hn Hm).
    unfold try_cast_slice_to. rewrite Ha. destruct (size_of_props t n Hn) as [Hpos _].
    replace (n =? 0) with false by lia. replace (0 =? n) with false by lia. reflexivity.
Qed.

(** ** Slicing, also of an empty buffer, which may be misaligned *)
Definition ok_at (A : N) (s : slice) : Prop := aligned A s \/ slen s = 0.
Lemma part_empty s : part s 0 0 = Slice (s_addr s) [].
Proof. unfold part. rewrite N.add_0_r. reflexivity. Qed.
Lemma slen_zero s : slen s = 0 -> s = Slice (s_addr s) [].
Proof. destruct s as [a [|x d]]; unfold slen; cbn; [reflexivity|lia]. Qed.
Lemma run_op_empty h A a o : op_wf A o ->
  let s := Slice a [] in let '(b, e) := op_range s o in
  (b <= e /\ e <= 0 -> run_op h A s o = Ok s) /\ (~ (b <= e /\ e <= 0) -> run_op h A s o = Crash PIndex).
Proof.
  intros Hwf. cbn zeta. set (s := Slice a []). assert (Hs : slen s = 0) by reflexivity.
  assert (Hto : forall B, (let* x := sl_to s 0 in unchecked h B x) = Ok s).
  { intros B. rewrite sl_to_ok by lia. cbn [bind]. rewrite unchecked_empty; [reflexivity|reflexivity]. }
  assert (Hrg : forall B, (let* x := sl_range s 0 0 in unchecked h B x) = Ok s).
  { intros B. rewrite sl_range_ok by lia. cbn [bind]. rewrite part_empty, unchecked_empty; reflexivity. }
  assert (Hfr : forall B, (let* x := sl_from s 0 in unchecked h B x) = Ok s).
  { intros B. rewrite sl_from_ok by lia. cbn [bind]. rewrite unchecked_empty; [|reflexivity]. cbn [s_addr s_data]. rewrite N.add_0_r. reflexivity. }
  assert (Hto' : forall e B, 0 < e -> (let* x := sl_to s e in unchecked h B x) = Crash PIndex).
  { intros e B He. unfold sl_to. replace (e <=? slen s) with false by lia. reflexivity. }
  assert (Hrg' : forall b e B, ~ (b <= e /\ e <= 0) -> (let* x := sl_range s b e in unchecked h B x) = Crash PIndex).
  { intros b e B He. rewrite sl_range_bad by lia. reflexivity. }
  assert (Hfr' : forall b B, 0 < b -> (let* x := sl_from s b in unchecked h B x) = Crash PIndex).
  { intros e B He. unfold sl_from. replace (e <=? slen s) with false by lia. reflexivity. }
  destruct o; cbn [op_range run_op op_wf] in *; split; intros H; try lia; try rewrite Hs in *.
  - replace e with 0 by lia. apply Hto.
  - apply Hto'. lia.
  - unfold ix_to_incl. destruct (_ <? _); [|reflexivity]. apply Hto'. lia.
  - replace b with 0 by lia. replace e with 0 by lia. apply Hrg.
  - now apply Hrg'.
  - unfold ix_range_incl. destruct (_ <? _); [|reflexivity]. apply Hrg'. lia.
  - replace b with 0 by lia. apply Hfr.
  - apply Hfr'. lia.
  - reflexivity.
  - replace b with 0 by lia. replace e with 0 by lia. apply Hrg.
  - now apply Hrg'.
  - unfold ix_range_incl_al. destruct (_ <? _); [|reflexivity]. apply Hrg'. lia.
  - replace b with 0 by lia. apply Hfr.
  - apply Hfr'. lia.
  - replace mid with 0 by lia. unfold split_at. rewrite sl_to_ok, sl_from_ok by lia. cbn [bind]. rewrite unchecked_empty by reflexivity. reflexivity.
  - unfold split_at, sl_to. replace (mid <=? slen s) with false by lia. reflexivity.
  - replace mid with 0 by lia. unfold split_at. rewrite sl_to_ok, sl_from_ok by lia. cbn [bind]. rewrite unchecked_empty by reflexivity.
    cbn [bind snd s_addr s_data]. rewrite N.add_0_r. reflexivity.
  - unfold split_at, sl_to. replace (mid <=? slen s) with false by lia. reflexivity.
  - destruct Hwf as [_ Hle]. unfold as_aligned, aligned_to. replace (B <=? A) with true by lia. reflexivity.
Qed.
Lemma run_op_any h A s o : is_alignment A -> ok_at A s -> slen s < usize_lim -> op_wf A o ->
  let '(b, e) := op_range s o in
  (b <= e /\ e <= slen s -> run_op h A s o = Ok (part s b e) /\ ok_at (op_align A o) (part s b e)) /\
  (~ (b <= e /\ e <= slen s) -> run_op h A s o = Crash PIndex).
Proof.
  intros HA [Ha|Hz] Hl Hw.
  - pose proof (run_op_spec h A s o HA Ha Hl Hw) as H. destruct (op_range s o) as [b e]. destruct H as [H1 H2].
    split; [|exact H2]. intros Hb. destruct (H1 Hb). split; [assumption|now left].
  - pose proof (run_op_empty h A (s_addr s) o Hw) as H. cbn zeta in H. rewrite <- (slen_zero s Hz) in H.
    destruct (op_range s o) as [b e]. rewrite Hz. destruct H as [H1 H2]. split; [|exact H2].
    intros Hb. assert (b = 0) by lia. assert (e = 0) by lia. subst b e. rewrite part_empty, <- (slen_zero s Hz).
    split; [now apply H1|now right].
Qed.
Lemma sp_range_op s o : sp_range (slen s) o = op_range s o.
Proof. destruct o; reflexivity. Qed.
Lemma run_ops_any h ops : forall A s, is_alignment A -> ok_at A s -> slen s < usize_lim -> ops_wf A ops ->
  match sp_ranges (slen s) ops with
  | Some (b, n) => b + n <= slen s /\ run_ops h A s ops = Ok (part s b (b + n)) /\ ok_at (ops_align A ops) (part s b (b + n))
  | None => run_ops h A s ops = Crash PIndex
  end.
Proof.
  induction ops as [|o ops IH]; intros A s HA Ha Hl Hw; cbn [sp_ranges run_ops ops_align].
  - rewrite N.add_0_l, part_full. repeat split; [lia|exact Ha].
  - destruct Hw as (Hw & Hm & Hws). pose proof (run_op_any h A s o HA Ha Hl Hw) as H. rewrite sp_range_op.
    destruct (op_range s o) as [b e]. destruct H as [H1 H2].
    destruct ((b <=? e) && (e <=? slen s)) eqn:E.
    + assert (Hb : b <= e /\ e <= slen s) by lia. destruct (H1 Hb) as [Hr Hal]. rewrite Hr. cbn [bind].
      assert (Hsl : slen (part s b e) = e - b) by (apply slen_part; lia).
      specialize (IH (op_align A o) (part s b e) (op_align_alignment A o HA Hw) Hal ltac:(lia) Hws). rewrite Hsl in IH.
      destruct (sp_ranges (e - b) ops) as [[o' m]|]; [|exact IH]. destruct IH as (Hm1 & Hr' & Hal').
      rewrite part_part in Hr', Hal' by lia. replace (b + o' + m) with (b + (o' + m)) by lia. repeat split; [lia|assumption..].
    + rewrite H2 by lia. reflexivity.
Qed.

(** ** Writing into a buffer *)
Lemma buf_store_ok h b d s o new : holds b d -> good_addr b -> buf_deref h b = Ok s -> 0 < blen new -> o + blen new <= blen d ->
  let b' := buf_store b (s_addr s + o) new in holds b' (splice d o new) /\ good_addr b'.
Proof.
  intros Hh Hg Hs Hp Hle. cbn zeta. unfold buf_deref in Hs. rewrite offset_to_align_ok in Hs by assumption. cbn [bind] in Hs.
  destruct d as [|x d]; [unfold blen in Hle at 2; cbn in Hle; lia|]. destruct Hh as (junk & E & Hj).
  assert (Hl : vlen b =? 0 = false).
  { apply N.eqb_neq. unfold vlen. rewrite E, blen_app, blen_cons. lia. }
  rewrite Hl in Hs. rewrite sl_from_ok in Hs by (unfold slen; cbn [s_data]; rewrite E, blen_app; lia).
  cbn [bind s_addr s_data] in Hs. pose proof (pad_of_spec b) as [_ Hm]. rewrite unchecked_ok in Hs by exact Hm. injection Hs as <-.
  cbn [s_addr]. split; [|exact Hg]. unfold buf_store. replace (v_addr b + pad_of b + o - v_addr b) with (blen junk + o) by lia.
  rewrite E, splice_app_r. set (e := splice (x :: d) o new).
  assert (He : blen e = blen (x :: d)) by (apply splice_len; exact Hle). unfold holds. cbn [v_data].
  destruct e; [rewrite blen_cons in He; change (blen (@nil byte)) with 0 in He; lia|].
  exists junk. split; [reflexivity|]. exact Hj.
Qed.
Lemma splice_small d o new : o + blen new <= blen d -> blen d < usize_lim -> blen (splice d o new) < usize_lim.
Proof. intros. rewrite splice_len; lia. Qed.
Lemma run_mut_op_ok h b d m : holds b d -> good_addr b -> blen d < usize_lim -> mut_op_wf m ->
  match plain_mut_op (h_big_endian h) d m with
  | Some d' => exists b', run_mut_op h b m = Ok b' /\ holds b' d' /\ good_addr b' /\ blen d' < usize_lim
  | None => run_mut_op h b m = Crash PIndex
  end.
Proof.
  intros Hh Hg Hl Hw. destruct m as [o|ops i x|ops junk t p r]; cbn [plain_mut_op run_mut_op mut_op_wf] in *.
  - destruct Hw as [Ho Hf]. pose proof (run_buf_op_ok h b d o Hh Hg Ho) as H.
    assert (Hsm : forall d', plain_op d o = Some d' -> blen d' < usize_lim).
    { intros d'. destruct o as [i x|f a1 a2|a2]; cbn [plain_op].
      - change (len d) with (blen d) at 1. destruct (i <? blen d) eqn:E; [|discriminate].
        rewrite <- upd_split by lia. intros H'. injection H' as <-. unfold blen. rewrite upd_length. exact Hl.
      - intros H'. injection H' as <-. apply Hf. exact Hl.
      - intros H'. injection H' as <-. exact Hl. }
    destruct (plain_op d o) as [d'|]; [|exact H]. destruct H as (b' & H1 & H2 & H3). exists b'. repeat split; auto.
  - destruct Hw as [Hw Hi]. destruct (buf_deref_ok h b d Hh Hg) as (s & Hs & Hd & Hal & _). rewrite Hs. cbn [bind].
    assert (Hsl : slen s = blen d) by (unfold slen; now rewrite Hd).
    assert (Hok : ok_at 8 s).
    { destruct d as [|y d]; [right; exact Hsl|left; apply Hal; discriminate]. }
    pose proof (run_ops_any h ops 8 s ltac:(right; right; right; reflexivity) Hok ltac:(lia) Hw) as H.
    change (len d) with (blen d). rewrite <- Hsl.
    destruct (sp_ranges (slen s) ops) as [[o n]|]; [|rewrite H; reflexivity]. destruct H as (Hle & -> & _). cbn [bind].
    unfold ix_byte. rewrite slen_part by lia. replace (o + n - o) with n by lia.
    destruct (i <? n) eqn:Ei; [|reflexivity]. cbn [bind]. eexists. split; [reflexivity|].
    replace (s_addr (part s o (o + n)) + i) with (s_addr s + (o + i)) by (unfold part; cbn [s_addr]; lia).
    rewrite overwrite_splice.
    assert (Hb : o + i + blen [x] <= blen d) by (change (blen [x]) with 1; lia).
    destruct (buf_store_ok h b d s (o + i) [x] Hh Hg Hs ltac:(reflexivity) Hb) as [H1 H2].
    split; [exact H1|]. split; [exact H2|]. now apply splice_small.
  - destruct Hw as (Hw & Hal8 & [Hm _] & Hfx & o' & c & Hp & Hr & Hf).
    destruct (buf_deref_ok h b d Hh Hg) as (s & Hs & Hd & Hal & _). rewrite Hs. cbn [bind].
    assert (Hsl : slen s = blen d) by (unfold slen; now rewrite Hd).
    assert (Hok : ok_at 8 s).
    { destruct d as [|y d]; [right; exact Hsl|left; apply Hal; discriminate]. }
    pose proof (run_ops_any h ops 8 s ltac:(right; right; right; reflexivity) Hok ltac:(lia) Hw) as H.
    change (len d) with (blen d). rewrite <- Hsl.
    destruct (sp_ranges (slen s) ops) as [[o n]|]; [|rewrite H; reflexivity]. destruct H as (Hle & -> & Hok'). cbn [bind].
    rewrite Hal8, sp_align_of in Hok'. rewrite Hp.
    unfold sp_fixed in Hfx. destruct (sp_size t) as [k|] eqn:Ek; [|discriminate]. rewrite sp_size_of in Ek.
    rewrite (assign_exact h junk t k _ p r o' c Ek Hm Hp Hr Hf Hok'). cbn [bind].
    rewrite slen_part by lia. replace (o + n - o) with n by lia.
    destruct (n =? k) eqn:En.
    + eexists. split; [reflexivity|]. destruct (member_exact (h_big_endian h) p t k o' c Ek Hm Hp) as (_ & Hmc & m & Hcm & Hom & _).
      destruct (image_exact h junk c m r Hcm Hmc Hr Hf) as (_ & Him & _).
      replace (s_addr (part s o (o + n)) + o') with (s_addr s + (o + o')) by (unfold part; cbn [s_addr]; lia).
      rewrite overwrite_splice. destruct (size_of_props c m Hcm) as [Hpos _].
      destruct (buf_store_ok h b d s (o + o') (sp_image (h_big_endian h) c r) Hh Hg Hs ltac:(lia) ltac:(lia)) as [H1 H2].
      split; [exact H1|]. split; [exact H2|]. apply splice_small; lia.
    + exists b. repeat split; auto.
Qed.
Lemma run_muts_ok h ms : forall b d, holds b d -> good_addr b -> blen d < usize_lim -> Forall mut_op_wf ms ->
  match plain_muts (h_big_endian h) d ms with
  | Some d' => exists b', run_muts h b ms = Ok b' /\ holds b' d' /\ good_addr b'
  | None => run_muts h b ms = Crash PIndex
  end.
Proof.
  induction ms as [|m ms IH]; intros b d Hh Hg Hl Hw; cbn [plain_muts run_muts].
  - eauto.
  - inversion Hw as [|? ? Hm Hws]; subst. pose proof (run_mut_op_ok h b d m Hh Hg Hl Hm) as H.
    destruct (plain_mut_op (h_big_endian h) d m) as [d'|].
    + destruct H as (b' & -> & H1 & H2 & H3). cbn [bind]. now apply IH.
    + rewrite H. reflexivity.
Qed.

(** ** Statements used by the property files *)
Lemma new_claim h t n r : usable t -> sp_size t = Some n -> rtyped t r -> fieldable r = true ->
  let big := h_big_endian h in
  exists d, (forall junk, image h junk t r = Ok d) /\ len d = n /\
    sp_decode big t (Some d) = rvalue false big t r /\
    (tidy r = true -> d = sp_encode big t (rvalue false big t r)).
Proof.
  intros [Hm _] Hn Hr Hf big. rewrite sp_size_of in Hn. exists (sp_image big t r).
  split; [intros junk; apply (image_exact h junk t n r Hn Hm Hr Hf)|].
  apply (image_exact h (fun _ => x00) t n r Hn Hm Hr Hf).
Qed.
Lemma assign_claim h junk t n s p r o c : usable t -> sp_size t = Some n -> aligned (sp_align t) s ->
  sp_member t p = Some (o, c) -> rtyped c r -> fieldable r = true ->
  (len (s_data s) <> n -> assign h junk t s p r = Ok None) /\
  (len (s_data s) = n -> exists new m v,
     assign h junk t s p r = Ok (Some (s_addr s + o, new)) /\
     sp_size c = Some m /\ len new = m /\ o + m <= n /\
     decode h t s = Ok v /\
     decode h t (Slice (s_addr s) (sp_overwrite (s_data s) o new)) =
       Ok (sp_replace v p (rvalue false (h_big_endian h) c r))).
Proof.
  intros Hu Hn Ha Hp Hr Hf. pose proof Hn as Hn'. rewrite sp_size_of in Hn'. pose proof Hu as [Hm _].
  pose proof Ha as Ha'. rewrite sp_align_of in Ha'.
  pose proof (assign_exact h junk t n s p r o c Hn' Hm Hp Hr Hf (or_introl Ha')) as E. unfold slen in E.
  change (blen (s_data s)) with (len (s_data s)) in E. split; intros Hl.
  - rewrite E. now replace (len (s_data s) =? n) with false by lia.
  - replace (len (s_data s) =? n) with true in E by lia.
    destruct (member_exact (h_big_endian h) p t n o c Hn' Hm Hp) as (_ & Hmc & m & Hcm & Hom & Hdec).
    destruct (image_exact h junk c m r Hcm Hmc Hr Hf) as (_ & Hlen & Hval & _).
    exists (sp_image (h_big_endian h) c r), m, (sp_decode (h_big_endian h) t (Some (s_data s))).
    split; [exact E|]. split; [now rewrite sp_size_of|]. split; [exact Hlen|]. split; [exact Hom|].
    split; [now apply (fixed_decode_claim h t s n)|].
    destruct (fixed_decode_claim h t (Slice (s_addr s) (sp_overwrite (s_data s) o (sp_image (h_big_endian h) c r))) n Hu Hn Ha) as [-> _].
    cbn [s_data]. rewrite overwrite_splice, (Hdec (s_data s) _ Hl Hlen), Hval. reflexivity.
Qed.
Lemma mut_history h v a ms :
  v_addr v + 8 < 2 ^ 64 -> a + 8 < 2 ^ 64 -> len (v_data v) < 2 ^ 64 -> Forall mut_op_wf ms ->
  let final := let* b := buf_from_vec h v a in run_muts h b ms in
  match plain_muts (h_big_endian h) (v_data v) ms with
  | Some d => exists b, final = Ok b /\
      (exists s, buf_deref h b = Ok s /\ s_data s = d /\ (d <> [] -> s_addr s mod 8 = 0)) /\
      (exists w, buf_into_vec h b = Ok w /\ v_data w = d)
  | None => final = Crash PIndex
  end.
Proof.
  intros Hv Ha Hl Hms. cbn zeta. unfold buf_from_vec.
  destruct (vec_align_spec h v a Ha Hv) as (b & -> & Hh & Hg). cbn [bind].
  pose proof (run_muts_ok h ms b (v_data v) Hh Hg Hl Hms) as H.
  destruct (plain_muts (h_big_endian h) (v_data v) ms) as [d|]; [|exact H].
  destruct H as (b' & E & Hh' & Hg'). exists b'. split; [exact E|]. split.
  - destruct (buf_deref_ok h b' d Hh' Hg') as (s & Hs & Hd & Hal & _). eauto.
  - destruct (vec_unalign_ok h b' d Hh' Hg') as (w & Hw & Hd & _). eauto.
Qed.
Lemma try_into_claim h t n s : In t [TY; TN; TQ; TI; TU; TX; TT; TD] -> sp_size t = Some n -> aligned (sp_align t) s ->
  (len (s_data s) mod n = 0 -> slice_try_into h t s = Ok (Some s)) /\
  (len (s_data s) mod n <> 0 -> slice_try_into h t s = Ok None).
Proof.
  intros Ht Hn Ha. rewrite sp_size_of in Hn. rewrite sp_align_of in Ha.
  assert (Hm : macro_ok t = true) by (cbn [In] in Ht; intuition (subst; reflexivity)).
  assert (E : slice_try_into h t s = cast_slice h (align_of t) (n, align_of t) s).
  { unfold slice_try_into. rewrite (mem_layout_ok t n Hn Hm), trait_align_of.
    cbn [In] in Ht. intuition (subst; reflexivity). }
  rewrite E. unfold cast_slice. destruct (size_of_props t n Hn) as [Hp _].
  replace (align_of t <? align_of t) with false by lia. pose proof (aligned_is_aligned _ _ Ha) as Hi. rewrite Hi.
  cbn [negb]. rewrite andb_false_r. replace (n =? 0) with false by lia.
  unfold slen. change (blen (s_data s)) with (len (s_data s)). split; intros H.
  - now replace (len (s_data s) mod n =? 0) with true by lia.
  - now replace (len (s_data s) mod n =? 0) with false by lia.
Qed.
Lemma aligned_pow a j s : aligned (2 ^ a) s -> j <= a -> is_aligned s (2 ^ j) = true.
Proof.
  intros H Hj. apply aligned_is_aligned. unfold aligned in *. replace a with (j + (a - j)) in H by lia.
  rewrite N.pow_add_r in H. pose proof (N.pow_nonzero 2 j ltac:(discriminate)). pose proof (N.pow_nonzero 2 (a - j) ltac:(discriminate)).
  rewrite N.mod_mul_r in H by assumption. apply N.eq_add_0 in H. apply H.
Qed.
Lemma cast_slice_claim h a j size s : 0 < size -> aligned (2 ^ a) s ->
  (a < j -> cast_slice h (2 ^ a) (size, 2 ^ j) s = Crash PAssert) /\
  (j <= a -> len (s_data s) mod size = 0 -> cast_slice h (2 ^ a) (size, 2 ^ j) s = Ok (Some s)) /\
  (j <= a -> len (s_data s) mod size <> 0 -> cast_slice h (2 ^ a) (size, 2 ^ j) s = Ok None).
Proof.
  intros Hs Ha. unfold cast_slice. split; [|split].
  - intros H. pose proof (N.pow_lt_mono_r 2 a j ltac:(lia) H). now replace (2 ^ a <? 2 ^ j) with true by lia.
  - intros Hj H. pose proof (N.pow_le_mono_r 2 j a ltac:(lia) Hj). replace (2 ^ a <? 2 ^ j) with false by lia.
    rewrite (aligned_pow a j s Ha Hj). cbn [negb]. rewrite andb_false_r. replace (size =? 0) with false by lia.
    change (slen s) with (len (s_data s)). now replace (len (s_data s) mod size =? 0) with true by lia.
  - intros Hj H. pose proof (N.pow_le_mono_r 2 j a ltac:(lia) Hj). replace (2 ^ a <? 2 ^ j) with false by lia.
    rewrite (aligned_pow a j s Ha Hj). cbn [negb]. rewrite andb_false_r. replace (size =? 0) with false by lia.
    change (slen s) with (len (s_data s)). now replace (len (s_data s) mod size =? 0) with false by lia.
Qed.
Lemma cast_value_claim h a j size :
  (j <= a -> forall s, aligned (2 ^ a) s ->
    (len (s_data s) = size -> try_cast_slice_to h (size, 2 ^ j) s = Ok (Some s)) /\
    (len (s_data s) <> size -> try_cast_slice_to h (size, 2 ^ j) s = Ok None)) /\
  (a < j -> exists s, aligned (2 ^ a) s /\ len (s_data s) = size /\
    try_cast_slice_to h (size, 2 ^ j) s = Crash (if h_debug h then PAssert else UBMisaligned)).
Proof.
  unfold try_cast_slice_to. split.
  - intros Hj s Ha. rewrite (aligned_pow a j s Ha Hj). cbn [negb]. rewrite andb_false_r.
    change (slen s) with (len (s_data s)). split; intros H.
    + now replace (size =? len (s_data s)) with true by lia.
    + now replace (size =? len (s_data s)) with false by lia.
  - intros Hj. exists (Slice (2 ^ a) (zeros size)). cbn [s_data s_addr aligned].
    assert (El : len (zeros size) = size) by apply blen_zeros. split; [|split; [exact El|]].
    + unfold aligned. cbn [s_addr]. apply N.mod_same, N.pow_nonzero. discriminate.
    + unfold slen, is_aligned. cbn [s_data s_addr]. change (blen (zeros size)) with (len (zeros size)). rewrite El, N.eqb_refl.
      pose proof (N.pow_lt_mono_r 2 a j ltac:(lia) Hj). rewrite N.mod_small by assumption.
      pose proof (N.pow_nonzero 2 a ltac:(discriminate)). replace (2 ^ a =? 0) with false by lia. now destruct (h_debug h).
Qed.
