(** Reading does not depend on where the bytes are, as long as the address is
    the same modulo the alignment of the type. *)
From Verif Require Import Base Types Layout AlignedBytes Strs Spec Deser Ser Histories SerSpec
  BaseFacts TypesFacts LayoutFacts AlignedFacts Utf8Facts DeserFacts ArrayFacts StructFacts ReadFacts AccessFacts ViewFacts.
From Coq Require Import Lia ZifyBool ZifyNat ZifyN.
Ltac Zify.zify_post_hook ::= Z.div_mod_to_equations.

Definition moved (A : N) (s q : slice) : Prop := s_data s = s_data q /\ s_addr s mod A = s_addr q mod A.
Definition opt_rel {X Y} (R : X -> Y -> Prop) (a : option X) (b : option Y) : Prop :=
  match a, b with Some x, Some y => R x y | None, None => True | _, _ => False end.

Lemma same_bind {A B C D} (R : A -> B -> Prop) (Q : C -> D -> Prop) m n f g :
  same R m n -> (forall a b, R a b -> same Q (f a) (g b)) -> same Q (bind m f) (bind n g).
Proof. intros H HF. destruct m, n; cbn [same bind] in *; try contradiction; [now apply HF|exact H]. Qed.
Lemma same_eq {A} (m n : res A) : same eq m n -> m = n.
Proof. destruct m, n; cbn [same]; intros H; try contradiction; now subst. Qed.
Lemma same_refl {A} (R : A -> A -> Prop) (m : res A) : (forall a, R a a) -> same R m m.
Proof. destruct m; cbn [same]; auto. Qed.
Lemma same_impl {A B} (R Q : A -> B -> Prop) m n : (forall a b, R a b -> Q a b) -> same R m n -> same Q m n.
Proof. destruct m, n; cbn [same]; auto. Qed.
Lemma same_mapM2 {A B C D} (R : A -> B -> Prop) (Q : C -> D -> Prop) (f : A -> res C) (g : B -> res D) l l' :
  Forall2 R l l' -> (forall a b, R a b -> same Q (f a) (g b)) -> same (Forall2 Q) (mapM f l) (mapM g l').
Proof.
  intros HF H. induction HF as [|a b l l' Hab HF IH]; cbn [mapM]; [constructor|].
  apply (same_bind Q). { now apply H. }
  intros c d Hcd. apply (same_bind (Forall2 Q)); [exact IH|]. intros; now constructor.
Qed.

Lemma moved_refl A s : moved A s s. Proof. split; reflexivity. Qed.
Lemma moved_slen A s q : moved A s q -> slen s = slen q.
Proof. intros [H _]. unfold slen. now rewrite H. Qed.
Lemma moved_le a A s q : is_alignment a -> is_alignment A -> a <= A -> moved A s q -> moved a s q.
Proof.
  intros Ha HA Hle [H1 H2]. split; [exact H1|]. clear H1.
  generalize dependent (s_addr s). generalize dependent (s_addr q). intros y x H.
  assert (Hd : exists k, A = a * k).
  { destruct Ha as [->|[->|[->| ->]]], HA as [->|[->|[->| ->]]]; try lia;
      first [now exists 1|now exists 2|now exists 4|now exists 8]. }
  destruct Hd as [k ->].
  assert (a <> 0) by (destruct Ha as [->|[->|[->| ->]]]; discriminate).
  assert (k <> 0) by (intros ->; destruct HA as [HA|[HA|[HA|HA]]]; lia).
  rewrite !N.mod_mul_r in H by assumption.
  assert (E : forall u v w, u mod a + a * (v mod k) = u mod a + a * w -> True) by auto. clear E.
  assert (Hx : x mod a < a) by now apply N.mod_lt. assert (Hy : y mod a < a) by now apply N.mod_lt.
  remember ((x / a) mod k) as p. remember ((y / a) mod k) as r. remember (x mod a) as m. remember (y mod a) as n.
  clear - H Hx Hy. destruct (N.lt_trichotomy p r) as [L|[L|L]]; [|subst; lia|]; nia.
Qed.
Lemma moved_is_aligned A s q : moved A s q -> is_aligned s A = is_aligned q A.
Proof. intros [_ H]. unfold is_aligned. now rewrite H. Qed.
Lemma moved_make A s q k d : A <> 0 -> moved A s q -> moved A (Slice (s_addr s + k) d) (Slice (s_addr q + k) d).
Proof.
  intros HA [_ H]. split; [reflexivity|]. cbn [s_addr]. rewrite N.add_mod, H, <- N.add_mod by assumption. reflexivity.
Qed.
Lemma moved_data A s q d : moved A s q -> moved A (Slice (s_addr s) d) (Slice (s_addr q) d).
Proof. intros [_ H]. split; [reflexivity|exact H]. Qed.

Lemma moved_sl_to A s q e : moved A s q -> same (moved A) (sl_to s e) (sl_to q e).
Proof.
  intros H. unfold sl_to. rewrite (moved_slen _ _ _ H). destruct (_ <=? _); cbn [same]; [|reflexivity].
  destruct H as [H1 H2]. rewrite H1. now split.
Qed.
Lemma moved_sl_from A s q b : A <> 0 -> moved A s q -> same (moved A) (sl_from s b) (sl_from q b).
Proof.
  intros HA H. unfold sl_from. rewrite (moved_slen _ _ _ H). destruct (_ <=? _); cbn [same]; [|reflexivity].
  pose proof H as [H1 _]. rewrite H1. now apply moved_make.
Qed.
Lemma moved_unchecked h A s q : moved A s q -> same (moved A) (unchecked h A s) (unchecked h A q).
Proof.
  intros H. unfold unchecked. rewrite (moved_slen _ _ _ H), (moved_is_aligned _ _ _ H).
  destruct (_ && _); cbn [same]; auto.
Qed.
Lemma moved_ix_to h A s q e : moved A s q -> same (moved A) (ix_to h A s e) (ix_to h A q e).
Proof.
  intros H. unfold ix_to. apply (same_bind (moved A)); [now apply moved_sl_to|]. intros. now apply moved_unchecked.
Qed.
Lemma moved_ix_from h A s q b : A <> 0 -> moved A s q -> same (moved A) (ix_from_al h A s b) (ix_from_al h A q b).
Proof.
  intros HA H. unfold ix_from_al. apply (same_bind (moved A)); [now apply moved_sl_from|]. intros. now apply moved_unchecked.
Qed.
Lemma moved_split h A s q m : A <> 0 -> moved A s q ->
  same (fun a b => moved A (fst a) (fst b) /\ moved A (snd a) (snd b)) (split_at h A s m) (split_at h A q m).
Proof.
  intros HA H. unfold split_at. apply (same_bind (moved A)); [now apply moved_sl_to|]. intros a b Hab.
  apply (same_bind (moved A)); [now apply moved_sl_from|]. intros a' b' Hab'.
  apply (same_bind (moved A)); [now apply moved_unchecked|]. intros a2 b2 H2. cbn [same]. split; assumption.
Qed.
Lemma align_nz t : align_of t <> 0.
Proof. destruct (align_of_alignment t) as [->|[->|[->| ->]]]; discriminate. Qed.

Lemma moved_try h t s q : macro_ok t = true -> moved (align_of t) s q ->
  same (opt_rel (moved (align_of t))) (try_from_aligned_slice h t s) (try_from_aligned_slice h t q).
Proof.
  intros Hm H. unfold try_from_aligned_slice. destruct (size_of t) as [n|] eqn:En.
  - rewrite (mem_layout_ok t n) by assumption. unfold try_cast_slice_to.
    rewrite (moved_slen _ _ _ H), (moved_is_aligned _ _ _ H).
    destruct (_ =? _); [|exact I]. destruct (_ && _); [reflexivity|]. destruct (is_aligned _ _); [exact H|reflexivity].
  - destruct t as [| | | | | | | | | | | | |x|x|ts|k v]; try exact H.
    destruct (size_of x) as [n|] eqn:Ex; [|exact H]. rewrite (mem_layout_ok x n) by assumption.
    change (align_of (TA x)) with (align_of x) in *. unfold cast_slice.
    rewrite (moved_slen _ _ _ H), (moved_is_aligned _ _ _ H).
    destruct (_ <? _); [reflexivity|]. destruct (_ && _); [reflexivity|]. destruct (_ =? 0); [reflexivity|].
    destruct (_ =? 0); [|exact I]. destruct (is_aligned _ _); [exact H|reflexivity].
Qed.
Lemma moved_cast h t s q : macro_ok t = true -> moved (align_of t) s q ->
  same (moved (align_of t)) (from_aligned_slice h t s) (from_aligned_slice h t q).
Proof.
  intros Hm H. unfold from_aligned_slice. eapply same_bind; [now apply moved_try|].
  intros [a|] [b|] Hab; cbn [opt_rel] in Hab; try contradiction; [exact Hab|]. apply same_refl, moved_refl.
Qed.
Lemma moved_unwrap h t s q : macro_ok t = true -> moved (align_of t) s q ->
  same (moved (align_of t)) (cast_unwrap h t s) (cast_unwrap h t q).
Proof.
  intros Hm H. unfold cast_unwrap. eapply same_bind; [now apply moved_try|].
  intros [a|] [b|] Hab; cbn [opt_rel] in Hab; try contradiction; [exact Hab|reflexivity].
Qed.

(** ** Containers *)
Lemma moved_option h x s q : macro_ok x = true -> moved (align_of x) s q ->
  same (opt_rel (moved (align_of x))) (to_option h x s) (to_option h x q).
Proof.
  intros Hm H. unfold to_option. rewrite trait_align_of. destruct (size_of x) as [n|] eqn:En; [now apply moved_try|].
  rewrite (moved_slen _ _ _ H). destruct (_ =? 0); [exact I|].
  apply (same_bind eq); [now apply same_refl|]. intros a ? <-.
  eapply same_bind; [now apply moved_ix_to|]. intros b c Hbc.
  eapply same_bind; [now apply moved_unwrap|]. intros; assumption.
Qed.
Lemma moved_variant h s q : moved 8 s q ->
  same (fun a b => s_data (fst a) = s_data (fst b) /\ moved 8 (snd a) (snd b)) (variant_split h s) (variant_split h q).
Proof.
  intros H. unfold variant_split. pose proof H as [Hd _]. rewrite Hd. destruct (memrchr0 _) as [m|].
  - eapply same_bind; [apply moved_split; [discriminate|exact H]|]. intros a b [H1 H2].
    apply (same_bind (moved 8)); [apply moved_sl_from; [discriminate|exact H2]|]. intros c d [Hcd _]. cbn [same fst snd]. auto.
  - apply same_refl. intros. split; [reflexivity|apply moved_refl].
Qed.
Lemma moved_elems x n s q : size_of x = Some n -> moved (align_of x) s q ->
  Forall2 (moved (align_of x)) (slice_elems n s) (slice_elems n q).
Proof.
  intros Hn H. unfold slice_elems. rewrite (moved_slen _ _ _ H).
  induction (seq _ _) as [|i l IH]; cbn [map]; constructor; [|exact IH].
  unfold slice_elem. pose proof H as [Hd _]. rewrite Hd. apply moved_make; [apply align_nz|exact H].
Qed.
Definition moved_iter (A : N) (a b : nfwa_iter) : Prop :=
  moved A (it_data a) (it_data b) /\ it_offsets a = it_offsets b /\ it_next_start a = it_next_start b /\
  it_offset_idx a = it_offset_idx b /\ it_osz a = it_osz b.
Lemma moved_next h x a b : macro_ok x = true -> moved_iter (align_of x) a b ->
  same (fun p r => opt_rel (moved (align_of x)) (fst p) (fst r) /\ moved_iter (align_of x) (snd p) (snd r))
       (nfwa_next h x a) (nfwa_next h x b).
Proof.
  intros Hm H. pose proof H as (H1 & H2 & H3 & H4 & H5). unfold nfwa_next. rewrite H2, H3, H4, H5, trait_align_of.
  destruct (_ <=? _). { cbn [same fst snd opt_rel]. auto. }
  apply (same_bind eq); [now apply same_refl|]. intros st ? <-.
  apply (same_bind eq); [now apply same_refl|]. intros tail ? <-.
  apply (same_bind eq); [now apply same_refl|]. intros e ? <-.
  apply (same_bind eq); [now apply same_refl|]. intros idx ? <-.
  rewrite (moved_slen _ _ _ H1).
  assert (Hi : moved_iter (align_of x) (NfwaIter (it_data a) (it_offsets b) e idx (it_osz b))
                                       (NfwaIter (it_data b) (it_offsets b) e idx (it_osz b))).
  { unfold moved_iter. cbn. auto. }
  destruct (_ || _).
  - apply (same_bind eq); [now apply same_refl|]. intros z ? <-.
    apply (same_bind eq); [now apply same_refl|]. intros r ? <-. cbn [same fst snd opt_rel]. split; [apply moved_refl|exact Hi].
  - eapply same_bind; [now apply moved_ix_to|]. intros c d Hcd.
    eapply same_bind; [apply moved_ix_from; [apply align_nz|exact Hcd]|]. intros c' d' Hcd'.
    eapply same_bind; [now apply moved_unwrap|]. intros r r' Hr. cbn [same fst snd opt_rel]. auto.
Qed.
Lemma moved_collect h x : macro_ok x = true -> forall fuel a b, moved_iter (align_of x) a b ->
  same (Forall2 (moved (align_of x))) (nfwa_collect h x fuel a) (nfwa_collect h x fuel b).
Proof.
  intros Hm. induction fuel as [|fuel IH]; intros a b H; cbn [nfwa_collect]; [reflexivity|].
  eapply same_bind; [now apply moved_next|]. intros [p a'] [r b'] [H1 H2]. cbn [fst snd] in *.
  destruct p as [p|], r as [r|]; cbn [opt_rel] in H1; try contradiction; [|constructor].
  eapply same_bind; [now apply IH|]. intros; cbn [same]; now constructor.
Qed.
Lemma moved_items h x s q : macro_ok x = true -> moved (align_of x) s q ->
  same (Forall2 (moved (align_of x))) (nfwa_items h x s) (nfwa_items h x q).
Proof.
  intros Hm H. unfold nfwa_items. pose proof H as [Hd _]. rewrite Hd.
  apply (same_bind (moved_iter (align_of x))); [|intros; now apply moved_collect].
  unfold nfwa_into_iter. rewrite Hd, trait_align_of.
  apply (same_bind eq); [now apply same_refl|]. intros p ? <-.
  eapply same_bind; [apply moved_split; [apply align_nz|exact H]|]. intros a b [H1 [H2 _]].
  cbn [same]. unfold moved_iter. cbn. rewrite H2. auto.
Qed.
Lemma moved_child h t b s q i a c size last_child nfo : macro_ok t = true -> moved (align_of t) s q ->
  same (moved (align_of t)) (get_child_elem h t b s i a c size last_child nfo)
                            (get_child_elem h t b q i a c size last_child nfo).
Proof.
  intros Hm H. unfold get_child_elem. pose proof H as [Hd _]. rewrite Hd, trait_align_of.
  apply (same_bind eq); [now apply same_refl|]. intros [[st e]|] ? <-; [|apply same_refl, moved_refl].
  eapply same_bind; [now apply moved_ix_to|]. intros.
  eapply same_bind; [apply moved_ix_from; [apply align_nz|eassumption]|]. intros. now apply moved_cast.
Qed.
Lemma moved_nonfixed h al nfo s q : is_alignment al -> moved al s q -> forall children rows,
  Forall (fun t => macro_ok t = true /\ align_of t <= al) children ->
  same (Forall2 (fun p r => fst p = fst r /\ moved (align_of (fst p)) (snd p) (snd r)))
    (let* rs := nonfixed_refs h al nfo s children rows in Ok (combine children rs))
    (let* rs := nonfixed_refs h al nfo q children rows in Ok (combine children rs)).
Proof.
  intros Hal H. induction children as [|t children IH]; intros rows HF; [constructor|].
  destruct rows as [|[[[i a] b] c] rows]; [constructor|]. inversion HF as [|? ? [Hm Hle] HF']; subst.
  cbn [nonfixed_refs]. pose proof (moved_le _ _ s q (align_of_alignment t) Hal Hle H) as Ht.
  unfold as_aligned, aligned_to. rewrite trait_align_of. replace (align_of t <=? al) with true by lia. cbn [bind].
  pose proof (moved_child h t b s q i a c (size_of t) (match children with [] => true | _ => false end) nfo Hm Ht) as Hc.
  destruct (get_child_elem h t b s _ _ _ _ _ _) as [r|], (get_child_elem h t b q _ _ _ _ _ _) as [r'|];
    cbn [bind same] in *; try contradiction; try assumption.
  specialize (IH rows HF').
  destruct (nonfixed_refs h al nfo s children rows), (nonfixed_refs h al nfo q children rows);
    cbn [bind same combine] in *; try contradiction; try assumption. constructor; auto.
Qed.
Lemma moved_fields s q : forall ts offs,
  Forall (fun t => moved (align_of t) s q) ts ->
  same (Forall2 (fun p r => fst p = fst r /\ moved (align_of (fst p)) (snd p) (snd r)))
    (let* rs := field_refs s offs (declared ts) in Ok (combine ts rs))
    (let* rs := field_refs q offs (declared ts) in Ok (combine ts rs)).
Proof.
  induction ts as [|t ts IH]; intros offs HF; [destruct offs; constructor|].
  destruct offs as [|o offs]; [constructor|]. inversion HF as [|? ? H HF']; subst.
  cbn [declared map field_refs]. fold (declared ts). unfold field_ref.
  pose proof H as [Hd Hm]. rewrite Hd.
  assert (E : (s_addr s + o) mod align_of t = (s_addr q + o) mod align_of t).
  { pose proof (align_nz t). rewrite N.add_mod, Hm, <- N.add_mod by assumption. reflexivity. }
  rewrite E. destruct (_ =? 0); cbn [bind]; [|reflexivity].
  specialize (IH offs HF').
  destruct (field_refs s offs (declared ts)), (field_refs q offs (declared ts));
    cbn [bind same combine] in *; try contradiction; try assumption.
  constructor; [|assumption]. cbn [fst snd]. split; [reflexivity|]. apply moved_make; [apply align_nz|exact H].
Qed.
Lemma table_go_length : forall ts i a b c, length (table_go i a b c ts) = length ts.
Proof.
  induction ts as [|t ts IH]; intros i a b c; cbn [table_go length]; [reflexivity|].
  destruct (_ <=? _), (size_of t); cbn [length]; now rewrite IH.
Qed.
Lemma nonfixed_refs_length h al nfo s : forall ts rows rs, length rows = length ts ->
  nonfixed_refs h al nfo s ts rows = Ok rs -> length rs = length ts.
Proof.
  induction ts as [|t ts IH]; intros [|[[[i a] b] c] rows] rs Hl E; cbn [length nonfixed_refs] in *; try lia.
  - now injection E as <-.
  - destruct (as_aligned _ _ _); cbn [bind] in E; [|discriminate].
    destruct (get_child_elem _ _ _ _ _ _ _ _ _ _); cbn [bind] in E; [|discriminate].
    destruct (nonfixed_refs h al nfo s ts rows) eqn:E2; cbn [bind] in E; [|discriminate].
    injection E as <-. cbn [length]. f_equal. eapply IH; eauto.
Qed.
Lemma field_refs_length s : forall ts pos rs,
  field_refs s (sp_field_offsets pos (fixed_items ts)) (declared ts) = Ok rs -> length rs = length ts.
Proof.
  induction ts as [|t ts IH]; intros pos rs E; cbn [fixed_items map sp_field_offsets declared field_refs length] in *.
  - now injection E as <-.
  - destruct (field_ref _ _ _); cbn [bind] in E; [|discriminate].
    destruct (field_refs s _ _) eqn:E2; cbn [bind] in E; [|discriminate].
    injection E as <-. cbn [length]. f_equal. eapply IH; eauto.
Qed.
Lemma fixed_layouts t n : is_struct t -> macro_ok t = true -> size_of t = Some n ->
  mem_layouts (children_of t) = Some (declared (children_of t)).
Proof.
  intros Hs Hm En. pose proof (struct_children_ok t Hs Hm) as Hch.
  pose proof (fixed_children t n Hs En) as Hfix. apply mem_layouts_declared.
  rewrite Forall_forall in *. intros c Hc. specialize (Hfix c Hc). destruct (Hch c Hc) as [Hmc _].
  unfold is_fixed in Hfix. unfold size_or_0. destruct (size_of c) eqn:Ec; [|discriminate]. now apply mem_layout_ok.
Qed.
Lemma to_tuple_length h t s rs : is_struct t -> macro_ok t = true -> to_tuple h t s = Ok rs ->
  length rs = length (children_of t).
Proof.
  intros Hs Hm E. unfold to_tuple in E. destruct (size_of t) as [n|] eqn:En.
  - rewrite (field_offsets_ok t n), (fixed_layouts t n) in E by assumption. now apply field_refs_length in E.
  - eapply nonfixed_refs_length; [|exact E]. unfold generate_table. apply table_go_length.
Qed.
Lemma moved_tuple h t s q : is_struct t -> macro_ok t = true -> moved (align_of t) s q ->
  same (Forall2 (fun p r => fst p = fst r /\ moved (align_of (fst p)) (snd p) (snd r)))
    (let* rs := to_tuple h t s in Ok (combine (children_of t) rs))
    (let* rs := to_tuple h t q in Ok (combine (children_of t) rs)).
Proof.
  intros Hs Hm H. pose proof (struct_children_ok t Hs Hm) as Hch. unfold to_tuple.
  destruct (size_of t) as [n|] eqn:En.
  - rewrite (field_offsets_ok t n), (fixed_layouts t n) by assumption. apply moved_fields.
    eapply Forall_impl; [|exact Hch]. intros c [_ Hle]. eapply moved_le; eauto using align_of_alignment.
  - apply moved_nonfixed; auto using align_of_alignment.
Qed.
Lemma read_struct_any h t s : is_struct t -> macro_ok t = true ->
  read h t s = let* ps := (let* rs := to_tuple h t s in Ok (combine (children_of t) rs)) in
               let* vs := mapM (fun p => read h (fst p) (snd p)) ps in Ok (VTuple vs).
Proof.
  intros Hs Hm. destruct (to_tuple h t s) as [rs|c] eqn:E; cbn [bind].
  - apply read_struct; auto. eapply to_tuple_length; eauto.
  - destruct t; try contradiction; cbn [read]; rewrite E; reflexivity.
Qed.

(** Reading depends on the bytes and the address modulo the alignment. *)
Lemma read_moved h t : macro_ok t = true -> forall s q, moved (align_of t) s q -> read h t s = read h t q.
Proof.
  induction t as [t Hns IH|t Hs IH] using ty_struct_ind; intros Hm s q H.
  - destruct t as [| | | | | | | | | | | | |x|x|ts|k v]; cbn [is_struct] in Hns; try tauto;
      try (cbn [read]; pose proof H as [-> _]; reflexivity).
    + cbn [read]. apply same_eq. eapply same_bind; [apply moved_variant; exact H|].
      intros a b [H1 [H2 _]]. cbn [same]. now rewrite H1, H2.
    + pose proof (macro_ok_parts (TA x) x (or_introl eq_refl) Hm) as Hx. change (align_of (TA x)) with (align_of x) in H.
      cbn [read]. apply same_eq. apply (same_bind (Forall2 (moved (align_of x)))).
      * unfold array_refs. destruct (size_of x) as [n|] eqn:En; [|now apply moved_items].
        rewrite (mem_layout_ok x n) by assumption. cbn [same]. now apply (moved_elems x n).
      * intros l l' HF. apply (same_bind (Forall2 eq)).
        { eapply same_mapM2; [exact HF|]. intros a b Hab. rewrite (IH x (or_introl eq_refl) Hx a b Hab). now apply same_refl. }
        intros vs vs' Hv. cbn [same]. f_equal. clear -Hv. induction Hv; congruence.
    + pose proof (macro_ok_parts (TM x) x (or_intror eq_refl) Hm) as Hx. change (align_of (TM x)) with (align_of x) in H.
      cbn [read]. apply same_eq. eapply same_bind; [now apply moved_option|].
      intros [a|] [b|] Hab; cbn [opt_rel] in Hab; try contradiction; [|reflexivity].
      rewrite (IH x (or_intror eq_refl) Hx a b Hab). now apply same_refl.
  - rewrite !read_struct_any by assumption. pose proof (moved_tuple h t s q Hs Hm H) as HT.
    destruct (to_tuple h t s) as [rs|], (to_tuple h t q) as [rs'|]; cbn [bind same] in *; try contradiction;
      [|now subst].
    apply same_eq. apply (same_bind (Forall2 eq)).
    + assert (Hin : forall p, In p (combine (children_of t) rs) -> In (fst p) (children_of t)).
      { intros [c r] Hp. eapply in_combine_l; eauto. }
      revert HT Hin. generalize (combine (children_of t) rs') (combine (children_of t) rs). intros l' l HF Hin.
      rewrite Forall_forall in IH.
      assert (HF2 : Forall2 (fun p r : ty * slice => In (fst p) (children_of t) /\ fst p = fst r /\ moved (align_of (fst p)) (snd p) (snd r)) l l').
      { clear -HF Hin. induction HF; constructor; [split; auto; apply Hin; now left|]. apply IHHF. intros; apply Hin; now right. }
      eapply same_mapM2; [exact HF2|]. intros [c a] [c' b] (H1 & H2 & H3). cbn [fst snd] in *. subst c'.
      rewrite (IH c H1 (macro_ok_child t c Hs Hm H1) a b H3). now apply same_refl.
    + intros vs vs' Hv. cbn [same]. f_equal. clear -Hv. induction Hv; congruence.
Qed.
Lemma read_place h t s q : macro_ok t = true -> s_data s = s_data q -> aligned (align_of t) s -> aligned (align_of t) q ->
  read h t s = read h t q.
Proof. intros Hm Hd Hs Hq. apply read_moved; [exact Hm|]. split; [exact Hd|]. unfold aligned in *. congruence. Qed.
Lemma decode_place h t s q : macro_ok t = true -> s_data s = s_data q -> aligned (align_of t) s -> aligned (align_of t) q ->
  decode h t s = decode h t q.
Proof.
  intros Hm Hd Hs Hq. unfold decode. apply same_eq.
  eapply same_bind; [apply moved_cast; [exact Hm|split; [exact Hd|unfold aligned in *; congruence]]|].
  intros a b Hab. rewrite (read_moved h t Hm a b Hab). now apply same_refl.
Qed.
