(** Programs that compute with fixed-size values (C141). *)
From Verif Require Import Base Types Layout AlignedBytes Strs Spec Deser Ser Buf Histories SerSpec
  BaseFacts TypesFacts LayoutFacts AlignedFacts Utf8Facts DeserFacts ArrayFacts StructFacts ReadFacts AccessFacts
  ReadClaims EncFacts RoundFacts SerMain ViewFacts SwapFacts Mut MutSpec MutFacts Copies CopiesSpec.
From Coq Require Import Lia ZifyBool ZifyNat ZifyN.
Ltac Zify.zify_post_hook ::= idtac.

(** ** Copies *)
Lemma filter_interleave pads : forall ls final, length pads = length ls ->
  filter fst (interleave pads ls final) = map (pair true) ls.
Proof.
  induction pads as [|p pads IH]; intros [|l ls] final H; cbn [length] in H; try lia; cbn [interleave map].
  - now destruct (0 <? final).
  - rewrite filter_app. cbn [filter fst]. rewrite IH by lia. now destruct (0 <? p).
Qed.
Lemma walk_pads_length its : forall pos, length (walk_pads pos its) = length its.
Proof. induction its as [|[a s] its IH]; intros pos; cbn; auto. Qed.
Lemma take_splice_more d mem o n : blen mem = blen d -> o + n <= blen d -> take o mem = take o d ->
  take (o + n) (splice mem o (take n (drop o d))) = take (o + n) d.
Proof.
  intros Hl Hn He. unfold splice. rewrite He.
  assert (Hx : blen (take n (drop o d)) = n) by (rewrite blen_take, blen_drop; lia).
  rewrite take_app_ge by (rewrite blen_take; lia). rewrite blen_take.
  replace (o + n - N.min o (blen d)) with n by lia.
  rewrite take_app_le by lia. rewrite (take_all n (take n (drop o d))) by lia.
  rewrite <- (take_drop o (take (o + n) d)), take_take, drop_take. do 2 f_equal; lia.
Qed.
Lemma copy_fields_tight fs : forall cs os base d mem,
  Forall2 (fun c n => forall x, blen x = n -> c x = Ok x) cs (map (fun f => fst (snd f)) (filter fst fs)) ->
  length os = length fs ->
  (forall k o, nth_error os k = Some o -> o = base + fold_right N.add 0 (firstn k (map (fun f => fst (snd f)) fs))) ->
  blen mem = blen d -> base + fold_right N.add 0 (map (fun f => fst (snd f)) fs) <= blen d ->
  take base mem = take base d ->
  exists mem', copy_fields cs fs os d mem = Ok mem' /\ blen mem' = blen d /\
    let e := base + fold_right N.add 0 (map (fun f => fst (snd f)) fs) in take e mem' = take e d.
Proof.
  induction fs as [|[b [n a]] fs IH]; intros cs os base d mem HF Hlo Ho Hm Hd Ht; cbn [length map fold_right fst snd] in *.
  - destruct os; [|discriminate]. exists mem. cbn [copy_fields]. rewrite N.add_0_r. auto.
  - destruct os as [|o os]; [discriminate|].
    assert (E0 : o = base) by (rewrite (Ho O o eq_refl); cbn [firstn fold_right]; lia). subst o.
    set (total := fold_right N.add 0 (map (fun f : bool * (N * N) => fst (snd f)) fs)) in *.
    assert (Hx : blen (take n (drop base d)) = n) by (rewrite blen_take, blen_drop; lia).
    assert (Hnext : forall k o, nth_error os k = Some o -> o = (base + n) + fold_right N.add 0 (firstn k (map (fun f => fst (snd f)) fs))).
    { intros k o Hk. specialize (Ho (S k) o Hk). cbn [firstn fold_right] in Ho. rewrite Ho. apply N.add_assoc. }
    assert (Hm' : blen (splice mem base (take n (drop base d))) = blen d) by (rewrite splice_len; lia).
    pose proof (take_splice_more d mem base n Hm ltac:(lia) Ht) as Ht'.
    cbn [copy_fields]. destruct b; cbn [filter map fst snd] in HF.
    + inversion HF as [|c ? cs' ? Hc HF']; subst. rewrite (Hc _ Hx). cbn [bind].
      destruct (IH cs' os (base + n) d _ HF' (eq_add_S _ _ Hlo) Hnext Hm' ltac:(fold total; lia) Ht') as (mem' & E & Hl & He).
      exists mem'. split; [exact E|]. split; [exact Hl|]. cbv zeta in *. fold total in He. now rewrite N.add_assoc.
    + destruct (IH cs os (base + n) d _ HF (eq_add_S _ _ Hlo) Hnext Hm' ltac:(fold total; lia) Ht') as (mem' & E & Hl & He).
      exists mem'. split; [exact E|]. split; [exact Hl|]. cbv zeta in *. fold total in He. now rewrite N.add_assoc.
Qed.
Lemma copied_struct junk t d : is_struct t ->
  copied junk t d =
  match packed_struct t, mem_layouts (children_of t) with
  | Some (pads, final), Some ls =>
      let fs := interleave pads ls final in
      let '(os, size, _) := repr_c (map snd fs) in
      copy_fields (map (copied junk) (children_of t)) fs os d (map junk (seq 0 (N.to_nat size)))
  | _, _ => Crash NoCompile
  end.
Proof. destruct t; cbn [is_struct]; tauto || reflexivity. Qed.
Lemma copied_exact junk t : forall n d, size_of t = Some n -> macro_ok t = true -> blen d = n -> copied junk t d = Ok d.
Proof.
  induction t as [t Hns _|t Hs IH] using ty_struct_ind; intros n d Hn Hm Hd.
  - destruct t; cbn [is_struct] in Hns; try tauto; cbn in Hn; try discriminate; reflexivity.
  - rewrite copied_struct by assumption.
    pose proof Hm as Hm'. rewrite macro_ok_struct in Hm' by assumption. apply andb_true_iff in Hm' as [Hc Hx].
    rewrite struct_macro_ok_exact in Hx by assumption. unfold is_fixed in Hx. rewrite Hn in Hx.
    rewrite (packed_struct_exact t n), Hx by assumption.
    pose proof (fixed_children t n Hs Hn) as Hfix.
    rewrite mem_layouts_declared.
    2:{ rewrite forallb_forall in Hc. rewrite Forall_forall in *. intros x Hin. specialize (Hfix x Hin).
        unfold is_fixed in Hfix. unfold size_or_0. destruct (size_of x) eqn:Ex; [|discriminate]. now apply mem_layout_ok; auto. }
    destruct (struct_layout t n Hs Hn) as (os & E & _ & Esum). unfold decl_fields in E, Esum.
    set (ts := children_of t) in *. set (pads := walk_pads 0 (fixed_items ts)) in *.
    set (final := n - walk_end 0 (fixed_items ts)) in *. cbv zeta.
    rewrite E. unfold repr_c in E.
    destruct (repr_c_go 0 1 (map snd (interleave pads (declared ts) final))) as [[os' e] al] eqn:Ego.
    injection E as -> Er Eal.
    assert (Hal : 1 <= al) by (rewrite Eal; pose proof (align_of_pos t); lia).
    assert (He : e <= round_up e al).
    { unfold round_up. pose proof (N.div_mod (e + al - 1) al ltac:(lia)). pose proof (N.mod_lt (e + al - 1) al ltac:(lia)). nia. }
    rewrite Er in He.
    assert (Hsum : fold_right N.add 0 (map fst (map snd (interleave pads (declared ts) final))) = n).
    { rewrite map_map. exact Esum. }
    destruct (repr_go_tight _ (declared_pos pads ts final) _ _ _ _ _ Ego ltac:(rewrite Hsum; lia)) as [Hlen Hk].
    destruct (copy_fields_tight (interleave pads (declared ts) final) (map (copied junk) ts) os 0 d
                (map junk (seq 0 (N.to_nat n)))) as (mem' & E' & Hl & Ht).
    + rewrite filter_interleave.
      2:{ unfold pads. rewrite walk_pads_length. unfold fixed_items, declared. now rewrite !map_length. }
      unfold declared. rewrite !map_map. cbn [fst snd]. rewrite forallb_forall in Hc.
      assert (Hall : Forall (fun c => forall x, blen x = size_or_0 c -> copied junk c x = Ok x) ts).
      { rewrite Forall_forall in *. intros c Hin x Hxl. apply (IH c Hin (size_or_0 c)); auto.
        specialize (Hfix c Hin). unfold is_fixed, size_or_0 in *. now destruct (size_of c). }
      clear -Hall. induction Hall; cbn [map]; constructor; auto.
    + rewrite Hlen. now rewrite !map_length.
    + intros k o Hko. rewrite (Hk k o Hko), map_map. reflexivity.
    + rewrite blen_map. unfold blen. rewrite seq_length. unfold blen in Hd. lia.
    + rewrite Esum. lia.
    + reflexivity.
    + rewrite E'. f_equal. cbv zeta in Ht. rewrite Esum, N.add_0_l in Ht. now rewrite !take_all in Ht by lia.
Qed.

(** ** Structures and their parts *)
Definition whole (t : ty) (n : N) (bodies : list (list byte)) : list byte :=
  sp_struct_bytes (Some n) (items_of (children_of t)) bodies.
Definition fits_in (t : ty) (bodies : list (list byte)) : Prop :=
  Forall2 (fun c b => blen b = size_or_0 c) (children_of t) bodies.
Definition normal (big : bool) (t : ty) (d : list byte) : Prop := d = sp_encode big t (sp_decode big t (Some d)).
Lemma Forall2_len_eq {A B} (R : A -> B -> Prop) l l' : Forall2 R l l' -> length l = length l'.
Proof. induction 1; cbn [length]; auto. Qed.
Lemma fits_items t bodies : fits_in t bodies -> Forall2 (fun it b => len b = snd it) (fixed_items (children_of t)) bodies.
Proof. unfold fits_in, fixed_items. induction 1; cbn [map]; constructor; auto. Qed.
Lemma whole_cut t n bodies : is_struct t -> size_of t = Some n -> fits_in t bodies ->
  blen (whole t n bodies) = n /\ struct_cuts t (whole t n bodies) = map Some bodies.
Proof.
  intros Hs Hn HF.
  destruct (struct_bytes_fixed (fixed_items (children_of t)) _ n (fits_items _ _ HF) (fixed_items_al _) (fixed_end t n Hs Hn)) as [Hcut Hlen].
  rewrite <- (fixed_items_of t n Hs Hn) in Hcut, Hlen. split; [exact Hlen|]. unfold struct_cuts. rewrite Hn. exact Hcut.
Qed.
Lemma whole_decode big t n bodies : is_struct t -> size_of t = Some n -> fits_in t bodies ->
  sp_decode big t (Some (whole t n bodies)) = VTuple (map (fun p => sp_decode big (fst p) (Some (snd p))) (combine (children_of t) bodies)).
Proof.
  intros Hs Hn HF. destruct (whole_cut t n bodies Hs Hn HF) as [Hl Hc].
  rewrite sp_decode_struct by (auto; unfold size_good; now rewrite Hn). rewrite Hc. f_equal. unfold dec_all.
  clear. generalize (children_of t). intros ts. revert ts. induction bodies as [|b bodies IH]; intros [|c ts]; cbn [combine map fst snd]; try reflexivity.
  now rewrite IH.
Qed.
Lemma whole_normal big t n bodies : is_struct t -> size_of t = Some n -> fits_in t bodies ->
  Forall2 (normal big) (children_of t) bodies -> normal big t (whole t n bodies).
Proof.
  intros Hs Hn HF HN. unfold normal. rewrite whole_decode by assumption. unfold sp_encode.
  rewrite bytes_struct.
  2:{ assumption. }
  2:{ rewrite map_length, combine_length. pose proof (Forall2_len_eq _ _ _ HF). lia. }
  rewrite Hn. unfold whole. f_equal. unfold enc_all. clear -HN. induction HN as [|c b cs bs H _ IH]; [reflexivity|].
  cbn [combine map fst snd]. unfold sp_encode in *. f_equal; [exact H|exact IH].
Qed.
(** Anything of the right size is cut into parts ... *)
Definition parts (t : ty) (d : list byte) : list (list byte) :=
  map (fun q => sub d (fst q) (snd (snd q))) (combine (sp_field_offsets 0 (fixed_items (children_of t))) (fixed_items (children_of t))).
Lemma parts_cut t n d : is_struct t -> size_of t = Some n -> struct_cuts t d = map Some (parts t d).
Proof.
  intros Hs Hn. unfold struct_cuts, parts. rewrite Hn, (fixed_items_of t n) by assumption.
  rewrite (fixed_cut_nth d n) by (auto using fixed_items_al, fixed_end). now rewrite map_map.
Qed.
Lemma parts_nth t n d i o c : is_struct t -> size_of t = Some n ->
  nth_error (sp_field_offsets 0 (fixed_items (children_of t))) i = Some o -> nth_error (children_of t) i = Some c ->
  nth_error (parts t d) i = Some (sub d o (size_or_0 c)) /\ o + size_or_0 c <= n.
Proof.
  intros Hs Hn Ho Hc. set (its := fixed_items (children_of t)) in *.
  assert (Eit : nth_error its i = Some (align_of c, size_or_0 c)).
  { unfold its, fixed_items. rewrite nth_error_map, Hc. reflexivity. }
  split.
  - unfold parts. fold its. rewrite nth_error_map, (nth_error_combine _ _ i _ _ Ho Eit). reflexivity.
  - destruct (offsets_end its (fixed_items_al _) 0 i o _ _ Ho Eit) as [_ H]. pose proof (fixed_end t n Hs Hn) as H0. fold its in H0. lia.
Qed.
Lemma parts_fit t n d : is_struct t -> size_of t = Some n -> blen d = n -> fits_in t (parts t d).
Proof.
  intros Hs Hn Hd. unfold fits_in.
  assert (Hlen : length (parts t d) = length (children_of t)).
  { unfold parts. rewrite map_length, combine_length, offsets_length. unfold fixed_items. rewrite map_length. lia. }
  assert (H : forall i c b, nth_error (children_of t) i = Some c -> nth_error (parts t d) i = Some b -> blen b = size_or_0 c).
  { intros i c b Hc Hb.
    destruct (nth_error (sp_field_offsets 0 (fixed_items (children_of t))) i) as [o|] eqn:Eo.
    - destruct (parts_nth t n d i o c Hs Hn Eo Hc) as [E He]. rewrite E in Hb. injection Hb as <-. apply sub_len_min. lia.
    - apply nth_error_None in Eo. rewrite offsets_length in Eo. unfold fixed_items in Eo. rewrite map_length in Eo.
      apply nth_error_None in Eo. congruence. }
  clear -Hlen H. revert Hlen H. generalize (parts t d). generalize (children_of t).
  intros ts. induction ts as [|c ts IH]; intros [|b bs] Hl H; cbn [length] in Hl; try lia; constructor.
  - exact (H O c b eq_refl eq_refl).
  - apply IH; [lia|]. intros i. exact (H (S i)).
Qed.
Lemma parts_whole t n bodies : is_struct t -> size_of t = Some n -> fits_in t bodies -> parts t (whole t n bodies) = bodies.
Proof.
  intros Hs Hn HF. destruct (whole_cut t n bodies Hs Hn HF) as [_ H]. rewrite (parts_cut t n) in H by assumption.
  revert H. generalize (parts t (whole t n bodies)). clear. induction bodies as [|b bodies IH]; intros [|x l] H; cbn [map] in H; try discriminate; [reflexivity|].
  injection H as -> H. now rewrite (IH l H).
Qed.
Lemma decode_parts big t n d : is_struct t -> size_of t = Some n -> blen d = n ->
  sp_decode big t (Some d) = VTuple (map (fun p => sp_decode big (fst p) (Some (snd p))) (combine (children_of t) (parts t d))).
Proof.
  intros Hs Hn Hd. rewrite sp_decode_struct by (auto; unfold size_good; now rewrite Hn). f_equal. rewrite (parts_cut t n) by assumption.
  unfold dec_all. generalize (parts t d) (children_of t). clear. intros bodies.
  induction bodies as [|b bodies IH]; intros [|c ts]; cbn [combine map fst snd]; try reflexivity. now rewrite IH.
Qed.
(** ... and what is normal is made of normal parts. *)
Lemma normal_parts big t n d : is_struct t -> size_of t = Some n -> blen d = n -> normal big t d ->
  d = whole t n (parts t d) /\ Forall2 (normal big) (children_of t) (parts t d).
Proof.
  intros Hs Hn Hd HN. pose proof (parts_fit t n d Hs Hn Hd) as HF.
  assert (E : d = whole t n (map (fun p => sp_encode big (fst p) (sp_decode big (fst p) (Some (snd p)))) (combine (children_of t) (parts t d)))).
  { unfold normal in HN. rewrite (decode_parts big t n d) in HN by assumption. unfold sp_encode in HN. rewrite bytes_struct in HN.
    2:{ assumption. }
    2:{ rewrite map_length, combine_length. pose proof (Forall2_len_eq _ _ _ HF). lia. }
    rewrite Hn in HN. rewrite HN at 1. unfold whole. f_equal. unfold enc_all.
    generalize (children_of t) (parts t d). clear. induction l as [|c ts IH]; intros [|b bs]; cbn [combine map fst snd]; try reflexivity.
    now rewrite IH. }
  pose proof (fixed_children t n Hs Hn) as Hfix.
  assert (HF2 : fits_in t (map (fun p => sp_encode big (fst p) (sp_decode big (fst p) (Some (snd p)))) (combine (children_of t) (parts t d)))).
  { unfold fits_in in *. clear E. revert Hfix HF. generalize (children_of t) (parts t d). clear.
    induction l as [|c ts IH]; intros [|b bs] Hfix HF; inversion HF; subst; cbn [combine map fst snd]; constructor.
    - inversion Hfix as [|? ? Hc _]; subst. unfold is_fixed, size_or_0 in *. destruct (size_of c) as [k|] eqn:Ek; [|discriminate].
      exact (bytes_fixed false big c k _ Ek (decode_typed big c _)).
    - inversion Hfix; subst. auto. }
  assert (Ep : parts t d = map (fun p => sp_encode big (fst p) (sp_decode big (fst p) (Some (snd p)))) (combine (children_of t) (parts t d))).
  { rewrite E at 1. apply (parts_whole t n _ Hs Hn HF2). }
  split; [now rewrite Ep|]. clear E HF2. unfold fits_in in HF. revert HF Ep. generalize (children_of t) (parts t d). clear.
  induction l as [|c ts IH]; intros [|b bs] HF Ep; inversion HF; subst; constructor; cbn [combine map fst snd] in Ep; injection Ep as E1 E2; auto.
Qed.
(** Replacing one part. *)
Fixpoint put {A} (i : nat) (x : A) (l : list A) : list A :=
  match l, i with
  | _ :: l, O => x :: l
  | y :: l, S i => y :: put i x l
  | [], _ => []
  end.
Lemma lay_put its : forall bodies pos i o b b',
  Forall2 (fun it b => blen b = snd it) its bodies -> Forall (fun it => is_alignment (fst it)) its ->
  nth_error (sp_field_offsets pos its) i = Some o -> nth_error bodies i = Some b -> blen b' = blen b ->
  let items := map (fun it => (fst it, Some (snd it))) its in
  pos <= o /\
  fst (sp_lay_struct pos items (put i b' bodies)) = splice (fst (sp_lay_struct pos items bodies)) (o - pos) b' /\
  o - pos + blen b <= blen (fst (sp_lay_struct pos items bodies)).
Proof.
  induction its as [|[al s] its IH]; intros bodies pos i o b b' HF HA Ho Hb Hl; inversion HF as [|? x ? bodies' Hx HF']; subst.
  - destruct i; discriminate.
  - inversion HA as [|? ? Ha HA']; subst. cbn [fst] in Ha. pose proof (pad_to_ge al pos Ha) as Hp.
    cbn [map fst snd sp_field_offsets] in *. destruct i as [|i]; cbn [nth_error put] in *.
    + injection Ho as <-. injection Hb as ->. cbn [sp_lay_struct]. change (len b') with (blen b'). change (len b) with (blen b). rewrite Hl.
      destruct (sp_lay_struct (pad_to al pos + blen b) _ bodies') as [rest ends]. cbn [fst].
      split; [exact Hp|]. split.
      * change (nuls (pad_to al pos - pos)) with (zeros (pad_to al pos - pos)).
        assert (Hz : pad_to al pos - pos = blen (zeros (pad_to al pos - pos)) + 0) by (rewrite blen_zeros; lia).
        revert Hz. generalize (zeros (pad_to al pos - pos)). intros z Hz. rewrite Hz.
        rewrite splice_app_r. unfold splice. rewrite take_0. cbn [app]. rewrite N.add_0_l, Hl, drop_app_ge by lia. now rewrite N.sub_diag, drop_0.
      * rewrite !blen_app. change (nuls (pad_to al pos - pos)) with (zeros (pad_to al pos - pos)). rewrite blen_zeros. lia.
    + cbn [sp_lay_struct]. change (len x) with (blen x). rewrite Hx. cbn [snd].
      destruct (IH bodies' (pad_to al pos + s) i o b b' HF' HA' Ho Hb Hl) as (H1 & H2 & H3).
      destruct (sp_lay_struct (pad_to al pos + s) _ (put i b' bodies')) as [rest' ends'].
      destruct (sp_lay_struct (pad_to al pos + s) _ bodies') as [rest ends]. cbn [fst] in *. subst rest'.
      change (nuls (pad_to al pos - pos)) with (zeros (pad_to al pos - pos)).
      split; [lia|]. split.
      * rewrite !app_assoc. set (pre := zeros (pad_to al pos - pos) ++ x).
        assert (Hpre : blen pre = pad_to al pos - pos + s) by (unfold pre; rewrite blen_app, blen_zeros; cbn [snd] in Hx; lia).
        replace (o - pos) with (blen pre + (o - (pad_to al pos + s))) by lia. now rewrite splice_app_r.
      * rewrite !blen_app, blen_zeros. cbn [snd] in Hx. lia.
Qed.
Lemma put_fits t i c b' bodies : fits_in t bodies -> nth_error (children_of t) i = Some c -> blen b' = size_or_0 c -> fits_in t (put i b' bodies).
Proof.
  unfold fits_in. generalize (children_of t). intros ts HF. revert i. induction HF as [|x b ts bodies Hx HF IH]; intros [|i] Hc Hb; cbn [nth_error put] in *; try discriminate; constructor; auto.
  now injection Hc as ->.
Qed.
Lemma put_forall2 {A B} (R : A -> B -> Prop) ts bodies i c b' : Forall2 R ts bodies -> nth_error ts i = Some c -> R c b' -> Forall2 R ts (put i b' bodies).
Proof.
  intros HF. revert i. induction HF as [|x b ts bodies Hx HF IH]; intros [|i] Hc Hb; cbn [nth_error put] in *; try discriminate; constructor; auto.
  now injection Hc as ->.
Qed.
Lemma splice_app_l a b o new : o + blen new <= blen a -> splice (a ++ b) o new = splice a o new ++ b.
Proof.
  intros H. unfold splice. rewrite take_app_le by lia. rewrite drop_app_le by lia. now rewrite <- !app_assoc.
Qed.
Lemma whole_put t n bodies i o c b b' : is_struct t -> size_of t = Some n -> fits_in t bodies ->
  nth_error (sp_field_offsets 0 (fixed_items (children_of t))) i = Some o -> nth_error (children_of t) i = Some c ->
  nth_error bodies i = Some b -> blen b' = blen b ->
  whole t n (put i b' bodies) = splice (whole t n bodies) o b'.
Proof.
  intros Hs Hn HF Ho Hc Hb Hl. unfold whole, sp_struct_bytes. rewrite (fixed_items_of t n Hs Hn).
  destruct (lay_put (fixed_items (children_of t)) bodies 0 i o b b' (fits_items t bodies HF) (fixed_items_al _) Ho Hb Hl) as (_ & H2 & H3).
  rewrite N.sub_0_r in H2, H3.
  destruct (sp_lay_struct 0 _ (put i b' bodies)) as [r' e']. destruct (sp_lay_struct 0 _ bodies) as [r e]. cbn [fst] in *. subst r'.
  rewrite splice_app_l by lia. f_equal. do 2 f_equal. change (@len byte) with (@blen byte). rewrite splice_len; lia.
Qed.

(** ** Members *)
Lemma member_unfold t n i p o c : size_of t = Some n -> sp_member t (i :: p) = Some (o, c) -> is_struct t /\
  exists oi ci o', nth_error (sp_field_offsets 0 (fixed_items (children_of t))) i = Some oi /\ nth_error (children_of t) i = Some ci /\
    sp_member ci p = Some (o', c) /\ o = oi + o' /\ size_of ci = Some (size_or_0 ci).
Proof.
  intros Hn H. pose proof (member_struct t i p o c H (ex_intro _ n Hn)) as Hs. split; [exact Hs|]. cbn [sp_member] in H.
  assert (Ei : combine (map sp_align (sp_components t)) (map (fun t => match sp_size t with Some n => n | None => 0 end) (sp_components t))
               = fixed_items (children_of t)).
  { assert (Ec : sp_components t = children_of t) by (destruct t; cbn in Hs; tauto || reflexivity). rewrite Ec.
    rewrite <- fixed_items_combine. f_equal; apply map_ext; intros x; [apply sp_align_of|]. unfold size_or_0. now rewrite sp_size_of. }
  rewrite Ei in H. assert (Ec : sp_components t = children_of t) by (destruct t; cbn in Hs; tauto || reflexivity). rewrite Ec in H.
  destruct (nth_error (sp_field_offsets 0 (fixed_items (children_of t))) i) as [oi|] eqn:Eo; [|discriminate].
  destruct (nth_error (children_of t) i) as [ci|] eqn:Eci; [|discriminate].
  destruct (sp_member ci p) as [[o' c']|] eqn:Em; [|discriminate]. injection H as <- <-.
  exists oi, ci, o'. repeat split; auto.
  pose proof (fixed_children t n Hs Hn) as Hfix. rewrite Forall_forall in Hfix.
  assert (Hin : In ci (children_of t)) by (eapply nth_error_In; eauto). specialize (Hfix ci Hin).
  unfold is_fixed, size_or_0 in *. now destruct (size_of ci).
Qed.
Lemma sub_sub d a n o m : o + m <= n -> a + n <= blen d -> sub (sub d a n) o m = sub d (a + o) m.
Proof.
  intros H Hd. change (take m (drop o (take n (drop a d))) = take m (drop (a + o) d)).
  rewrite drop_take, take_take, drop_drop. replace (N.min m (n - o)) with m by lia. reflexivity.
Qed.
Lemma member_read big p : forall t n o c, size_of t = Some n -> sp_member t p = Some (o, c) ->
  exists m, size_of c = Some m /\ o + m <= n /\
  forall d, blen d = n ->
    sp_pick (sp_decode big t (Some d)) p = sp_decode big c (Some (sub d o m)) /\
    (normal big t d -> normal big c (sub d o m) /\
       forall new, blen new = m -> normal big c new -> normal big t (splice d o new)).
Proof.
  induction p as [|i p IH]; intros t n o c Hn H.
  - injection H as <- <-. exists n. split; [exact Hn|]. split; [lia|]. intros d Hd. cbn [sp_pick].
    assert (E : sub d 0 n = d) by (change (take n (drop 0 d) = d); rewrite drop_0, take_all; [reflexivity|lia]).
    rewrite E. split; [reflexivity|]. intros HN. split; [exact HN|]. intros new Hw HNw. now rewrite splice_whole by lia.
  - destruct (member_unfold t n i p o c Hn H) as (Hs & oi & ci & o' & Eo & Eci & Em & -> & Hsz).
    destruct (IH ci (size_or_0 ci) o' c Hsz Em) as (m & Hcm & Hle & Hd). exists m. split; [exact Hcm|].
    destruct (parts_nth t n (zeros n) i oi ci Hs Hn Eo Eci) as [_ Hend]. split; [lia|].
    intros d Hl. destruct (parts_nth t n d i oi ci Hs Hn Eo Eci) as [Hpi _].
    assert (Hls : blen (sub d oi (size_or_0 ci)) = size_or_0 ci) by (apply sub_len_min; lia).
    destruct (Hd _ Hls) as [Hv HN]. rewrite sub_sub in Hv, HN by lia. split.
    + rewrite (decode_parts big t n d) by assumption. cbn [sp_pick]. rewrite <- Hv. f_equal. apply nth_error_nth.
      rewrite nth_error_map, (nth_error_combine _ _ i _ _ Eci Hpi). reflexivity.
    + intros HNt. destruct (normal_parts big t n d Hs Hn Hl HNt) as [Ew HF].
      assert (Hci : normal big ci (sub d oi (size_or_0 ci))).
      { clear -HF Eci Hpi. revert i Eci Hpi. induction HF as [|x b xs bs Hx _ IHF]; intros [|i] E1 E2; cbn [nth_error] in *; try discriminate; [|eauto].
        injection E1 as ->. injection E2 as ->. exact Hx. }
      destruct (HN Hci) as [HN1 HN2]. split; [exact HN1|]. intros new Hw HNw. specialize (HN2 new Hw HNw).
      pose proof (parts_fit t n d Hs Hn Hl) as Hfit.
      assert (E : splice d (oi + o') new = whole t n (put i (splice (sub d oi (size_or_0 ci)) o' new) (parts t d))).
      { rewrite (whole_put t n (parts t d) i oi ci (sub d oi (size_or_0 ci))) by (auto; rewrite splice_len; lia). rewrite <- Ew.
        unfold splice, sub. fold (take (A := byte) (size_or_0 ci)) (drop (A := byte) oi).
        change (firstn (N.to_nat (size_or_0 ci)) (skipn (N.to_nat oi) d)) with (take (size_or_0 ci) (drop oi d)).
        assert (Hsx : blen (take o' (take (size_or_0 ci) (drop oi d)) ++ new ++ drop (o' + blen new) (take (size_or_0 ci) (drop oi d))) = size_or_0 ci).
        { rewrite !blen_app, blen_drop, !blen_take, blen_drop. lia. }
        rewrite Hsx. rewrite take_take. rewrite <- !app_assoc.
        replace (take (oi + o') d) with (take oi d ++ take (N.min o' (size_or_0 ci)) (drop oi d)).
        2:{ rewrite <- (take_drop oi (take (oi + o') d)), take_take, drop_take. do 2 f_equal; lia. }
        rewrite <- !app_assoc. do 3 f_equal.
        rewrite drop_take, drop_drop.
        rewrite <- (take_drop (size_or_0 ci - (o' + blen new)) (drop (oi + o' + blen new) d)). rewrite drop_drop. f_equal.
        - f_equal. f_equal. lia.
        - f_equal. lia. }
      rewrite E. apply whole_normal; auto.
      * apply (put_fits t i ci); auto. rewrite splice_len; lia.
      * apply (put_forall2 _ _ _ i ci); auto.
Qed.
