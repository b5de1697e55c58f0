(** What the crate does with bytes does not depend on where they are, but for
    references that are not aligned. *)
From Verif Require Import Base Types Layout AlignedBytes Strs Spec Deser Buf Histories Ser SerSpec Cmp Fmt Mut MutSpec Iter
  BaseFacts TypesFacts LayoutFacts ViewFacts BuildFacts LooseSpec.
From Coq Require Import Lia ZifyBool ZifyNat ZifyN.
Ltac Zify.zify_post_hook ::= idtac.

Definition like (s q : slice) : Prop := s_data s = s_data q.
Definition opt_like (a b : option slice) : Prop :=
  match a, b with Some x, Some y => like x y | None, None => True | _, _ => False end.
Definition iter_like (a b : nfwa_iter) : Prop :=
  like (it_data a) (it_data b) /\ it_offsets a = it_offsets b /\ it_next_start a = it_next_start b /\
  it_offset_idx a = it_offset_idx b /\ it_osz a = it_osz b.
Lemma like_refl s : like s s. Proof. reflexivity. Qed.
Lemma like_slen s q : like s q -> slen s = slen q.
Proof. unfold like, slen. now intros ->. Qed.
Lemma opt_like_refl a : opt_like a a. Proof. destruct a; [apply like_refl|exact I]. Qed.

Section Loose.
  Context (h : host).
  (** Either of the two is in trouble, or they do the same. *)
  Definition lo {A B} (R : A -> B -> Prop) (m : res A) (n : res B) : Prop :=
    (exists c, m = Crash c /\ misaligned_crash h c) \/ (exists c, n = Crash c /\ misaligned_crash h c) \/ same R m n.
  Lemma lo_same {A B} (R : A -> B -> Prop) m n : same R m n -> lo R m n.
  Proof. intros H. right. now right. Qed.
  Lemma lo_ok {A B} (R : A -> B -> Prop) a b : R a b -> lo R (Ok a) (Ok b).
  Proof. intros H. apply lo_same. exact H. Qed.
  Lemma lo_refl {A} (R : A -> A -> Prop) (m : res A) : (forall a, R a a) -> lo R m m.
  Proof. intros H. apply lo_same. destruct m; cbn [same]; auto. Qed.
  Lemma lo_eq {A} (m : res A) : lo eq m m.
  Proof. now apply lo_refl. Qed.
  Lemma lo_bind {A B C D} (R : A -> B -> Prop) (Q : C -> D -> Prop) m n f g :
    lo R m n -> (forall a b, R a b -> lo Q (f a) (g b)) -> lo Q (bind m f) (bind n g).
  Proof.
    intros [(c & -> & Hc)|[(c & -> & Hc)|H]] HF.
    - left. now exists c.
    - right. left. now exists c.
    - destruct m as [a|c], n as [b|c']; cbn [same bind] in *; try contradiction; [now apply HF|]. now apply lo_same.
  Qed.
  Lemma lo_bind_eq {A C D} (Q : C -> D -> Prop) (m : res A) f g :
    (forall a, lo Q (f a) (g a)) -> lo Q (bind m f) (bind m g).
  Proof. intros HF. apply (lo_bind eq); [apply lo_eq|]. intros a ? <-. apply HF. Qed.
  Lemma lo_impl {A B} (R Q : A -> B -> Prop) m n : (forall a b, R a b -> Q a b) -> lo R m n -> lo Q m n.
  Proof. intros HI [H|[H|H]]; [now left|now (right; left)|]. apply lo_same. destruct m, n; cbn [same] in *; auto. Qed.
  Lemma lo_mapM {A B C D} (R : A -> B -> Prop) (Q : C -> D -> Prop) (f : A -> res C) (g : B -> res D) l l' :
    Forall2 R l l' -> (forall a b, R a b -> lo Q (f a) (g b)) -> lo (Forall2 Q) (mapM f l) (mapM g l').
  Proof.
    intros HF H. induction HF as [|a b l l' Hab HF IH]; cbn [mapM]; [now apply lo_ok|].
    apply (lo_bind Q). { now apply H. }
    intros c d Hcd. apply (lo_bind (Forall2 Q)); [exact IH|]. intros. apply lo_ok. now constructor.
  Qed.
  Lemma Forall2_eq {A} (l l' : list A) : Forall2 eq l l' -> l = l'.
  Proof. induction 1; congruence. Qed.
  Lemma lo_mapM_eq {A B C} (R : A -> B -> Prop) (f : A -> res C) (g : B -> res C) l l' :
    Forall2 R l l' -> (forall a b, R a b -> lo eq (f a) (g b)) -> lo eq (mapM f l) (mapM g l').
  Proof. intros HF H. apply (lo_impl (Forall2 eq)); [intros; now apply Forall2_eq|]. now apply (lo_mapM R). Qed.

  (** ** Slices *)
  Lemma lo_unchecked A s q : like s q -> lo like (unchecked h A s) (unchecked h A q).
  Proof.
    intros H. unfold unchecked. destruct (h_debug h) eqn:Hd; cbn [andb]; [|now apply lo_ok].
    destruct (negb _); [left; exists PAssert; split; [reflexivity|right; now split]|].
    destruct (negb _); [right; left; exists PAssert; split; [reflexivity|right; now split]|]. now apply lo_ok.
  Qed.
  Lemma lo_sl_to s q e : like s q -> lo like (sl_to s e) (sl_to q e).
  Proof. intros H. unfold sl_to. rewrite (like_slen _ _ H). destruct (_ <=? _); apply lo_same; [|reflexivity]. cbn. unfold like in *. cbn. now rewrite H. Qed.
  Lemma lo_sl_from s q e : like s q -> lo like (sl_from s e) (sl_from q e).
  Proof. intros H. unfold sl_from. rewrite (like_slen _ _ H). destruct (_ <=? _); apply lo_same; [|reflexivity]. cbn. unfold like in *. cbn. now rewrite H. Qed.
  Lemma lo_sl_range s q b e : like s q -> lo like (sl_range s b e) (sl_range q b e).
  Proof. intros H. unfold sl_range. rewrite (like_slen _ _ H). destruct (_ && _); apply lo_same; [|reflexivity]. cbn. unfold like in *. cbn. now rewrite H. Qed.
  Hint Resolve lo_unchecked lo_sl_to lo_sl_from lo_sl_range : lo.
  Lemma lo_ix_to A s q e : like s q -> lo like (ix_to h A s e) (ix_to h A q e).
  Proof. intros H. unfold ix_to. eapply lo_bind; auto with lo. Qed.
  Lemma lo_ix_from A s q e : like s q -> lo like (ix_from_al h A s e) (ix_from_al h A q e).
  Proof. intros H. unfold ix_from_al. eapply lo_bind; auto with lo. Qed.
  Lemma lo_split_at A s q m : like s q -> lo (fun a b => like (fst a) (fst b) /\ like (snd a) (snd b)) (split_at h A s m) (split_at h A q m).
  Proof.
    intros H. unfold split_at. eapply lo_bind; [eauto with lo|]. intros a b Hab. eapply lo_bind; [eauto with lo|]. intros a' b' Hab'.
    eapply lo_bind; [eauto with lo|]. intros a2 b2 H2. apply lo_ok. now split.
  Qed.
  Lemma lo_op A s q o : like s q -> lo like (run_op h A s o) (run_op h A q o).
  Proof.
    intros H. destruct o; cbn [run_op]; unfold ix_to_incl, ix_range, ix_range_incl, ix_from, ix_full, ix_range_al, ix_range_incl_al, as_aligned;
      try (destruct (_ <? _); [|apply lo_same; reflexivity]);
      try (eapply lo_bind; [eauto with lo|]; auto with lo; fail).
    - now apply lo_ok.
    - eapply lo_bind; [now apply lo_split_at|]. intros a b [Ha _]. now apply lo_ok.
    - eapply lo_bind; [now apply lo_split_at|]. intros a b [_ Ha]. now apply lo_ok.
    - destruct (aligned_to _ _); apply lo_same; [exact H|reflexivity].
  Qed.

  (** ** Casts *)
  Lemma lo_checked (X : res (option slice)) s q al : like s q -> lo opt_like
    (if h_debug h && negb (is_aligned s al) then Crash PAssert else if is_aligned s al then Ok (Some s) else Crash UBMisaligned)
    (if h_debug h && negb (is_aligned q al) then Crash PAssert else if is_aligned q al then Ok (Some q) else Crash UBMisaligned).
  Proof.
    intros H. destruct (is_aligned s al); cbn [negb].
    - rewrite Bool.andb_false_r. destruct (is_aligned q al); cbn [negb].
      + rewrite Bool.andb_false_r. now apply lo_ok.
      + right. left. destruct (h_debug h) eqn:Hd; cbn [andb]; eexists; (split; [reflexivity|]); [right; now split|now left].
    - left. destruct (h_debug h) eqn:Hd; cbn [andb]; eexists; (split; [reflexivity|]); [right; now split|now left].
  Qed.
  Lemma lo_cast_slice A lay s q : like s q -> lo opt_like (cast_slice h A lay s) (cast_slice h A lay q).
  Proof.
    destruct lay as [size al].
    intros H. unfold cast_slice. rewrite (like_slen _ _ H). destruct (_ <? _); [apply lo_same; reflexivity|].
      pose proof (lo_checked (Ok None) s q al H) as Hc.
      destruct (size =? 0); [|destruct (_ =? 0)].
      + destruct (h_debug h && negb (is_aligned s al)) eqn:E1, (h_debug h && negb (is_aligned q al)) eqn:E2; apply lo_same; reflexivity.
      + exact Hc.
      + destruct (h_debug h && negb (is_aligned s al)) eqn:E1.
        { left. exists PAssert. split; [reflexivity|]. apply andb_prop in E1 as [E1 _]. right. now split. }
        destruct (h_debug h && negb (is_aligned q al)) eqn:E2.
        { right. left. exists PAssert. split; [reflexivity|]. apply andb_prop in E2 as [E2 _]. right. now split. }
        now apply lo_ok.
  Qed.
  Lemma lo_try t s q : like s q -> lo opt_like (try_from_aligned_slice h t s) (try_from_aligned_slice h t q).
  Proof.
    intros H. unfold try_from_aligned_slice. destruct (size_of t) as [n|].
    - destruct (mem_layout t) as [[size al]|]; [|apply lo_same; reflexivity]. unfold try_cast_slice_to. rewrite (like_slen _ _ H).
      destruct (_ =? _); [|now apply lo_ok]. now apply (lo_checked (Ok None)).
    - destruct t as [| | | | | | | | | | | | |x|x|ts|k v]; try (now apply lo_ok).
      destruct (size_of x) as [n|]; [|now apply lo_ok]. destruct (mem_layout x) as [[size al]|]; [|apply lo_same; reflexivity].
      now apply lo_cast_slice.
  Qed.
  Lemma lo_cast t s q : like s q -> lo like (cast h t s) (cast h t q).
  Proof.
    intros H. unfold cast, from_aligned_slice. eapply lo_bind; [now apply lo_try|].
    intros [a|] [b|] Hab; cbn [opt_like] in Hab; try contradiction; [now apply lo_ok|]. apply lo_refl, like_refl.
  Qed.
  Lemma lo_unwrap t s q : like s q -> lo like (cast_unwrap h t s) (cast_unwrap h t q).
  Proof.
    intros H. unfold cast_unwrap. eapply lo_bind; [now apply lo_try|].
    intros [a|] [b|] Hab; cbn [opt_like] in Hab; try contradiction; [now apply lo_ok|]. apply lo_same. reflexivity.
  Qed.

  (** ** Containers *)
  Lemma lo_option x s q : like s q -> lo opt_like (to_option h x s) (to_option h x q).
  Proof.
    intros H. unfold to_option. destruct (size_of x) as [n|]; [now apply lo_try|].
    rewrite (like_slen _ _ H). destruct (_ =? 0); [now apply lo_ok|]. apply lo_bind_eq. intros a.
    eapply lo_bind; [now apply lo_ix_to|]. intros b c Hbc.
    eapply lo_bind; [now apply lo_unwrap|]. intros; now apply lo_ok.
  Qed.
  Lemma lo_split s q : like s q -> lo (fun a b => like (fst a) (fst b) /\ like (snd a) (snd b)) (variant_split h s) (variant_split h q).
  Proof.
    intros H. unfold variant_split. rewrite H. destruct (memrchr0 _) as [m|].
    - eapply lo_bind; [now apply lo_split_at|]. intros a b [H1 H2].
      eapply lo_bind; [apply lo_sl_from; exact H2|]. intros c d Hcd. now apply lo_ok.
    - apply lo_refl. intros; split; apply like_refl.
  Qed.
  Lemma lo_get t s q : like s q -> lo opt_like (variant_get h t s) (variant_get h t q).
  Proof.
    intros H. unfold variant_get. eapply lo_bind; [now apply lo_split|]. intros a b [H1 H2]. rewrite H1. destruct (bytes_eqb _ _); [|now apply lo_ok].
    unfold as_aligned. destruct (aligned_to _ _); cbn [bind]; [|apply lo_same; reflexivity].
    eapply lo_bind; [now apply lo_cast|]. intros; now apply lo_ok.
  Qed.
  Lemma like_elems n s q : like s q -> Forall2 like (slice_elems n s) (slice_elems n q).
  Proof.
    intros H. unfold slice_elems. rewrite (like_slen _ _ H).
    induction (seq _ _) as [|i l IH]; cbn [map]; constructor; [|exact IH].
    unfold slice_elem, like. cbn [s_data]. now rewrite H.
  Qed.
  Lemma lo_len s q : like s q -> nfwa_len h s = nfwa_len h q.
  Proof. intros H. unfold nfwa_len. now rewrite H, (like_slen _ _ H). Qed.
  Lemma lo_into_iter x s q : like s q -> lo iter_like (nfwa_into_iter h x s) (nfwa_into_iter h x q).
  Proof.
    intros H. unfold nfwa_into_iter. rewrite H. apply lo_bind_eq. intros p.
    eapply lo_bind; [now apply lo_split_at|]. intros a b [H1 H2]. apply lo_ok. unfold iter_like. cbn. now rewrite H2.
  Qed.
  Lemma lo_next x a b : iter_like a b ->
    lo (fun p r => opt_like (fst p) (fst r) /\ iter_like (snd p) (snd r)) (nfwa_next h x a) (nfwa_next h x b).
  Proof.
    intros H. pose proof H as (H1 & H2 & H3 & H4 & H5). unfold nfwa_next. rewrite H2, H3, H4, H5.
    destruct (_ <=? _). { apply lo_ok. now split. }
    assert (Hi : forall e idx, iter_like (NfwaIter (it_data a) (it_offsets b) e idx (it_osz b)) (NfwaIter (it_data b) (it_offsets b) e idx (it_osz b)))
      by now repeat split.
    do 4 (apply lo_bind_eq; intros ?). cbv beta zeta. rewrite (like_slen _ _ H1).
    destruct (_ || _).
    - do 2 (apply lo_bind_eq; intros ?). apply lo_ok. split; [apply like_refl|apply Hi].
    - eapply lo_bind; [now apply lo_ix_to|]. intros c d Hcd.
      eapply lo_bind; [now apply lo_ix_from|]. intros c' d' Hcd'.
      eapply lo_bind; [now apply lo_unwrap|]. intros r r' Hr. apply lo_ok. now split.
  Qed.
  (** One call of [next]; the iterators stay alike even when it panics. *)
  Lemma lo_step x a b : iter_like a b ->
    lo opt_like (snd (nfwa_step h x a)) (snd (nfwa_step h x b)) /\ iter_like (fst (nfwa_step h x a)) (fst (nfwa_step h x b)).
  Proof.
    intros H. pose proof H as (H1 & H2 & H3 & H4 & H5). unfold nfwa_step. rewrite H2, H3, H4, H5.
    destruct (_ <=? _). { split; [now apply lo_ok|exact H]. }
    match goal with |- context [match ?m with Ok _ => _ | Crash _ => _ end] => destruct m as [[[st e] idx]|c] end;
      cbn [fst snd]; [|split; [apply lo_same; reflexivity|exact H]].
    split; [|now repeat split]. rewrite (like_slen _ _ H1). destruct (_ || _).
    - do 2 (apply lo_bind_eq; intros ?). apply lo_ok. apply like_refl.
    - eapply lo_bind; [now apply lo_ix_to|]. intros c d Hcd.
      eapply lo_bind; [now apply lo_ix_from|]. intros c' d' Hcd'.
      eapply lo_bind; [now apply lo_unwrap|]. intros r r' Hr. now apply lo_ok.
  Qed.
  Lemma lo_hint a b : iter_like a b -> nfwa_size_hint h a = nfwa_size_hint h b.
  Proof. intros (_ & H2 & _ & H4 & H5). unfold nfwa_size_hint. now rewrite H2, H4, H5. Qed.
  Lemma lo_collect x : forall fuel a b, iter_like a b -> lo (Forall2 like) (nfwa_collect h x fuel a) (nfwa_collect h x fuel b).
  Proof.
    induction fuel as [|fuel IH]; intros a b H; cbn [nfwa_collect]; [apply lo_same; reflexivity|].
    eapply lo_bind; [now apply lo_next|]. intros [p a'] [r b'] [H1 H2]. cbn [fst snd] in *.
    destruct p as [p|], r as [r|]; cbn [opt_like] in H1; try contradiction; [|now apply lo_ok].
    eapply lo_bind; [now apply IH|]. intros; apply lo_ok; now constructor.
  Qed.
  Lemma lo_items x s q : like s q -> lo (Forall2 like) (nfwa_items h x s) (nfwa_items h x q).
  Proof.
    intros H. unfold nfwa_items. rewrite H. eapply lo_bind; [now apply lo_into_iter|]. intros. now apply lo_collect.
  Qed.
  Lemma lo_refs x s q : like s q -> lo (Forall2 like) (array_refs h x s) (array_refs h x q).
  Proof.
    intros H. unfold array_refs. destruct (size_of x) as [n|]; [|now apply lo_items].
    destruct (mem_layout x) as [[size al]|]; [|apply lo_same; reflexivity]. apply lo_ok. now apply like_elems.
  Qed.
  Lemma lo_index x s q i : like s q -> lo like (nfwa_index h x s i) (nfwa_index h x q i).
  Proof.
    intros H. unfold nfwa_index. rewrite H, (like_slen _ _ H). do 5 (apply lo_bind_eq; intros ?). destruct (_ && _).
    - eapply lo_bind; [now apply lo_ix_to|]. intros c d Hcd.
      eapply lo_bind; [now apply lo_ix_from|]. intros c' d' Hcd'. now apply lo_unwrap.
    - apply lo_bind_eq; intros ?. apply lo_refl, like_refl.
  Qed.
  Lemma lo_first x s q : like s q -> lo opt_like (nfwa_first h x s) (nfwa_first h x q).
  Proof.
    intros H. unfold nfwa_first, nfwa_is_empty. rewrite (lo_len _ _ H). apply lo_bind_eq. intros [|]; [now apply lo_ok|].
    eapply lo_bind; [now apply lo_index|]. intros. now apply lo_ok.
  Qed.
  Lemma lo_last x s q : like s q -> lo opt_like (nfwa_last h x s) (nfwa_last h x q).
  Proof.
    intros H. unfold nfwa_last, nfwa_is_empty. rewrite (lo_len _ _ H). apply lo_bind_eq. intros [|]; [now apply lo_ok|].
    do 2 (apply lo_bind_eq; intros ?). eapply lo_bind; [now apply lo_index|]. intros. now apply lo_ok.
  Qed.
  Lemma lo_child t b s q i a c size last_child nfo : like s q ->
    lo like (get_child_elem h t b s i a c size last_child nfo) (get_child_elem h t b q i a c size last_child nfo).
  Proof.
    intros H. unfold get_child_elem. rewrite H. apply lo_bind_eq. intros [[st e]|]; [|apply lo_refl, like_refl].
    eapply lo_bind; [now apply lo_ix_to|]. intros.
    eapply lo_bind; [eapply lo_ix_from; eassumption|]. intros. now apply lo_cast.
  Qed.
  Lemma lo_nonfixed al nfo s q : like s q -> forall children rows,
    lo (Forall2 like) (nonfixed_refs h al nfo s children rows) (nonfixed_refs h al nfo q children rows).
  Proof.
    intros H. induction children as [|t children IH]; intros rows; [now apply lo_ok|].
    destruct rows as [|[[[i a] b] c] rows]; [now apply lo_ok|]. cbn [nonfixed_refs].
    unfold as_aligned. destruct (aligned_to _ _); cbn [bind]; [|apply lo_same; reflexivity].
    eapply lo_bind; [now apply lo_child|]. intros r r' Hr. eapply lo_bind; [apply IH|]. intros. apply lo_ok. now constructor.
  Qed.
  Lemma lo_fields s q : like s q -> forall offs lays, lo (Forall2 like) (field_refs s offs lays) (field_refs q offs lays).
  Proof.
    intros H. induction offs as [|o offs IH]; intros lays; [now apply lo_ok|].
    destruct lays as [|[size al] lays]; [now apply lo_ok|]. cbn [field_refs]. unfold field_ref.
    destruct (_ =? 0); cbn [bind]; [|left; exists UBMisaligned; split; [reflexivity|now left]].
    destruct (_ =? 0); cbn [bind]; [|right; left; exists UBMisaligned; split; [reflexivity|now left]].
    eapply lo_bind; [apply IH|]. intros. apply lo_ok. constructor; [|assumption]. unfold like. cbn [s_data]. now rewrite H.
  Qed.
  Lemma lo_tuple t s q : like s q -> lo (Forall2 like) (to_tuple h t s) (to_tuple h t q).
  Proof.
    intros H. unfold to_tuple. destruct (size_of t); [|now apply lo_nonfixed].
    destruct (field_offsets t); [|apply lo_same; reflexivity]. destruct (mem_layouts (children_of t)); [|apply lo_same; reflexivity]. now apply lo_fields.
  Qed.
  Lemma lo_nth x : forall k a b, iter_like a b -> lo opt_like (nfwa_nth h x a k) (nfwa_nth h x b k).
  Proof.
    induction k as [|k IH]; intros a b H; cbn [nfwa_nth]; (eapply lo_bind; [now apply lo_next|]); intros p r [H1 H2]; [now apply lo_ok|now apply IH].
  Qed.
  Definition item_like (a b : option (ty * slice)) : Prop :=
    match a, b with Some x, Some y => fst x = fst y /\ like (snd x) (snd y) | None, None => True | _, _ => False end.
  Lemma like_elem n s q i : like s q -> opt_like (fixed_elem n s i) (fixed_elem n q i).
  Proof.
    intros H. unfold fixed_elem. rewrite (like_slen _ _ H). destruct (_ <? _); [|exact I]. cbn. unfold like, slice_elem. cbn. now rewrite H.
  Qed.
  Lemma lo_access t s q a : like s q -> lo item_like (run_access h t s a) (run_access h t q a).
  Proof.
    intros H.
    assert (S : forall x o o', opt_like o o' ->
      item_like (match o with Some r => Some (x, r) | None => None end) (match o' with Some r => Some (x, r) | None => None end)).
    { intros x [o|] [o'|] Ho; cbn in *; auto. }
    assert (N0 : lo item_like (Ok None) (Ok None)) by now apply lo_ok.
    destruct t as [| | | | | | | | | | | | |x|x|ts|k v], a as [i|k'| | | |k'|y|y]; cbn [run_access]; try exact N0.
    - (* get *) eapply lo_bind; [now apply lo_get|]. intros. apply lo_ok. now apply S.
    - eapply lo_bind; [now apply lo_split|]. intros u w [_ Hw]. unfold as_aligned. destruct (aligned_to _ _); cbn [bind]; [|apply lo_same; reflexivity].
      eapply lo_bind; [now apply lo_cast|]. intros. apply lo_ok. now split.
    - destruct (size_of x) as [n|]; [|eapply lo_bind; [now apply lo_index|]; intros; apply lo_ok; now split].
      pose proof (like_elem n s q i H) as He. destruct (fixed_elem n s i), (fixed_elem n q i); cbn in He; try contradiction; apply lo_same; [|reflexivity].
      now split.
    - destruct (size_of x) as [n|]; [apply lo_ok, S, like_elem, H|]. eapply lo_bind; [now apply lo_into_iter|]. intros.
      eapply lo_bind; [now apply lo_nth|]. intros. apply lo_ok. now apply S.
    - destruct (size_of x) as [n|]; [apply lo_ok, S, like_elem, H|]. eapply lo_bind; [now apply lo_first|]. intros. apply lo_ok. now apply S.
    - destruct (size_of x) as [n|].
      + rewrite (like_slen _ _ H). apply lo_ok, S. destruct (_ =? 0); [exact I|]. apply like_elem, H.
      + eapply lo_bind; [now apply lo_last|]. intros. apply lo_ok. now apply S.
    - eapply lo_bind; [now apply lo_option|]. intros. apply lo_ok. now apply S.
    - eapply lo_bind; [now apply lo_tuple|]. intros l l' HF. apply lo_ok.
      destruct (nth_error (children_of _) k'); [|exact I].
      clear -HF. revert k'. induction HF as [|u w l l' Hu _ IH]; intros [|k]; cbn [nth_error]; [exact I|exact I|now split|apply IH].
    - eapply lo_bind; [now apply lo_tuple|]. intros l l' HF. apply lo_ok.
      destruct (nth_error (children_of _) k'); [|exact I].
      clear -HF. revert k'. induction HF as [|u w l l' Hu _ IH]; intros [|k]; cbn [nth_error]; [exact I|exact I|now split|apply IH].
  Qed.

  (** ** Everything below a reference *)
  Lemma lo_list {B} (f : ty -> slice -> res B) ts : Forall (fun t => forall s q, like s q -> lo eq (f t s) (f t q)) ts -> forall rs rs',
    Forall2 like rs rs' ->
    let go := (fix go (ts : list ty) (rs : list slice) : res (list B) :=
                   match ts, rs with
                   | t :: ts', r :: rs' => let* v := f t r in let* vs := go ts' rs' in Ok (v :: vs)
                   | _, _ => Ok []
                   end) in
    lo eq (go ts rs) (go ts rs').
  Proof.
    induction 1 as [|t ts Ht _ IH]; intros rs rs' HF; [apply lo_eq|]. destruct HF as [|q q' rs rs' Hq HF]; [apply lo_eq|]. cbv zeta in *.
    apply (lo_bind eq); [now apply Ht|]. intros v ? <-. apply (lo_bind eq); [now apply IH|]. intros ? ? <-. apply lo_eq.
  Qed.
  Lemma lo_read t : forall s q, like s q -> lo eq (read h t s) (read h t q).
  Proof.
    induction t as [t Hns IH|t Hs IH] using ty_struct_ind; intros s q H.
    - destruct t as [| | | | | | | | | | | | |x|x|ts|k v]; cbn [is_struct] in Hns; try tauto; cbn [read]; try (rewrite H; apply lo_eq).
      + eapply lo_bind; [now apply lo_split|]. intros a b [H1 H2]. rewrite H1, H2. apply lo_eq.
      + eapply lo_bind; [now apply lo_refs|]. intros l l' HF. apply (lo_bind eq); [|intros ? ? <-; apply lo_eq].
        apply (lo_mapM_eq like); [exact HF|]. apply IH. now left.
      + eapply lo_bind; [now apply lo_option|]. intros [a|] [b|] Hab; cbn in Hab; try contradiction; [|apply lo_eq].
        apply (lo_bind eq); [apply IH; [auto|exact Hab]|]. intros ? ? <-. apply lo_eq.
    - destruct t as [| | | | | | | | | | | | |x|x|ts|k v]; cbn [is_struct] in Hs; try tauto; cbn [read].
      + eapply lo_bind; [now apply lo_tuple|]. intros l l' HF. apply (lo_bind eq); [|intros ? ? <-; apply lo_eq]. exact (lo_list (read h) ts IH l l' HF).
      + inversion IH as [|? ? Ha IHb]; inversion IHb as [|? ? Hb _]; subst.
        eapply lo_bind; [now apply lo_tuple|]. intros l l' HF.
        destruct HF as [|a a' l l' H1 HF]; [apply lo_eq|]. destruct HF as [|b b' l l' H2 HF]; [apply lo_eq|]. destruct HF; [|apply lo_eq].
        apply (lo_bind eq); [now apply Ha|]. intros ? ? <-. apply (lo_bind eq); [now apply Hb|]. intros ? ? <-. apply lo_eq.
  Qed.
  Lemma lo_view t : forall s q, like s q -> lo eq (view_rval h t s) (view_rval h t q).
  Proof.
    induction t as [t Hns IH|t Hs IH] using ty_struct_ind; intros s q H.
    - destruct t as [| | | | | | | | | | | | |x|x|ts|k v]; cbn [is_struct] in Hns; try tauto; cbn [view_rval]; try (rewrite H; apply lo_eq).
      + eapply lo_bind; [now apply lo_refs|]. intros l l' HF. apply (lo_bind eq); [|intros ? ? <-; apply lo_eq].
        apply (lo_mapM_eq like); [exact HF|]. apply IH. now left.
      + eapply lo_bind; [now apply lo_option|]. intros [a|] [b|] Hab; cbn in Hab; try contradiction; [|apply lo_eq].
        apply (lo_bind eq); [apply IH; [auto|exact Hab]|]. intros ? ? <-. apply lo_eq.
    - destruct t as [| | | | | | | | | | | | |x|x|ts|k v]; cbn [is_struct] in Hs; try tauto; cbn [view_rval].
      + eapply lo_bind; [now apply lo_tuple|]. intros l l' HF. apply (lo_bind eq); [|intros ? ? <-; apply lo_eq]. exact (lo_list (view_rval h) ts IH l l' HF).
      + inversion IH as [|? ? Ha IHb]; inversion IHb as [|? ? Hb _]; subst.
        eapply lo_bind; [now apply lo_tuple|]. intros l l' HF.
        destruct HF as [|a a' l l' H1 HF]; [apply lo_eq|]. destruct HF as [|b b' l l' H2 HF]; [apply lo_eq|]. destruct HF; [|apply lo_eq].
        apply (lo_bind eq); [now apply Ha|]. intros ? ? <-. apply (lo_bind eq); [now apply Hb|]. intros ? ? <-. apply lo_eq.
  Qed.
  Lemma lo_fmt_go x fx : (forall s q, like s q -> lo eq (fx s) (fx q)) -> forall f a b, iter_like a b ->
    lo eq (nfwa_fmt_go h x fx f a) (nfwa_fmt_go h x fx f b).
  Proof.
    intros Hx. induction f as [|f IH]; intros a b H; cbn [nfwa_fmt_go]; [apply lo_eq|].
    eapply lo_bind; [now apply lo_next|]. intros [p a'] [r b'] [H1 H2]. cbn [fst snd] in *.
    destruct p as [p|], r as [r|]; cbn in H1; try contradiction; [|apply lo_eq].
    apply (lo_bind eq); [now apply Hx|]. intros ? ? <-. apply (lo_bind eq); [now apply IH|]. intros ? ? <-. apply lo_eq.
  Qed.
  Lemma lo_debug F t : forall s q, like s q -> lo eq (fmt_debug h F t s) (fmt_debug h F t q).
  Proof.
    induction t as [t Hns IH|t Hs IH] using ty_struct_ind; intros s q H.
    - destruct t as [| | | | | | | | | | | | |x|x|ts|k v]; cbn [is_struct] in Hns; try tauto; cbn [fmt_debug]; try (rewrite H; apply lo_eq).
      + eapply lo_bind; [now apply lo_split|]. intros a b [H1 H2]. rewrite H1, H2. apply lo_eq.
      + destruct (size_of x).
        * eapply lo_bind; [now apply lo_refs|]. intros l l' HF. apply (lo_bind eq); [|intros ? ? <-; apply lo_eq].
          apply (lo_mapM_eq like); [exact HF|]. apply IH. now left.
        * rewrite H. eapply lo_bind; [now apply lo_into_iter|]. intros a b Hab. apply (lo_bind eq); [|intros ? ? <-; apply lo_eq].
          apply lo_fmt_go; [apply IH; now left|exact Hab].
      + eapply lo_bind; [now apply lo_option|]. intros [a|] [b|] Hab; cbn in Hab; try contradiction; [|apply lo_eq].
        apply (lo_bind eq); [apply IH; [auto|exact Hab]|]. intros ? ? <-. apply lo_eq.
    - destruct t as [| | | | | | | | | | | | |x|x|ts|k v]; cbn [is_struct] in Hs; try tauto; cbn [fmt_debug].
      + eapply lo_bind; [now apply lo_tuple|]. intros l l' HF. apply (lo_bind eq); [|intros ? ? <-; apply lo_eq]. exact (lo_list (fmt_debug h F) ts IH l l' HF).
      + inversion IH as [|? ? Ha IHb]; inversion IHb as [|? ? Hb _]; subst.
        eapply lo_bind; [now apply lo_tuple|]. intros l l' HF.
        destruct HF as [|a a' l l' H1 HF]; [apply lo_eq|]. destruct HF as [|b b' l l' H2 HF]; [apply lo_eq|]. destruct HF; [|apply lo_eq].
        apply (lo_bind eq); [now apply Ha|]. intros ? ? <-. apply (lo_bind eq); [now apply Hb|]. intros ? ? <-. apply lo_eq.
  Qed.
  (** ** Comparisons *)
  Definition lo_rel2 (e : slice -> slice -> res bool) : Prop := forall a a' b b', like a a' -> like b b' -> lo eq (e a b) (e a' b').
  Lemma lo_eq_go x e : lo_rel2 e -> forall f a a' b b', iter_like a a' -> iter_like b b' ->
    lo eq (nfwa_eq_go h x e f a b) (nfwa_eq_go h x e f a' b').
  Proof.
    intros He. induction f as [|f IH]; intros a a' b b' Ha Hb; cbn [nfwa_eq_go]; [apply lo_eq|].
    eapply lo_bind; [now apply lo_next|]. intros [p a2] [p' a2'] [H1 H2]. cbn [fst snd] in *.
    destruct p as [p|], p' as [p'|]; cbn in H1; try contradiction; [|apply lo_eq].
    eapply lo_bind; [now apply lo_next|]. intros [r b2] [r' b2'] [H3 H4]. cbn [fst snd] in *.
    destruct r as [r|], r' as [r'|]; cbn in H3; try contradiction; [|apply lo_eq].
    apply (lo_bind eq); [now apply He|]. intros [|] ? <-; [now apply IH|apply lo_eq].
  Qed.
  Lemma lo_eq_all e : lo_rel2 e -> forall xs xs', Forall2 like xs xs' -> forall ys ys', Forall2 like ys ys' -> lo eq (eq_all e xs ys) (eq_all e xs' ys').
  Proof.
    intros He. induction 1 as [|x x' xs xs' Hx _ IH]; intros ys ys' HY; destruct HY as [|y y' ys ys' Hy HY]; cbn [eq_all]; try apply lo_eq.
    apply (lo_bind eq); [now apply He|]. intros [|] ? <-; [now apply IH|apply lo_eq].
  Qed.
  Lemma lo_eq_list ts : Forall (fun t => lo_rel2 (gv_eq h t)) ts -> forall xs xs', Forall2 like xs xs' -> forall ys ys', Forall2 like ys ys' ->
    let go := (fix go (ts : list ty) (xs ys : list slice) : res bool :=
                   match ts, xs, ys with
                   | t :: ts', x :: xs', y :: ys' =>
                       let* e := gv_eq h t x y in
                       if e then go ts' xs' ys' else Ok false
                   | _, _, _ => Ok true
                   end) in
    lo eq (go ts xs ys) (go ts xs' ys').
  Proof.
    induction 1 as [|t ts Ht _ IH]; intros xs xs' HX ys ys' HY; [apply lo_eq|].
    destruct HX as [|x x' xs xs' Hx HX]; [apply lo_eq|]. destruct HY as [|y y' ys ys' Hy HY]; [apply lo_eq|]. cbv zeta in *.
    apply (lo_bind eq); [now apply Ht|]. intros [|] ? <-; [now apply IH|apply lo_eq].
  Qed.
  Lemma lo_gv_eq t : lo_rel2 (gv_eq h t).
  Proof.
    induction t as [t Hns IH|t Hs IH] using ty_struct_ind; intros s s' q q' H H'.
    - destruct t as [| | | | | | | | | | | | |x|x|ts|k v]; cbn [is_struct] in Hns; try tauto; cbn [gv_eq]; try (rewrite H, H'; apply lo_eq).
      + eapply lo_bind; [now apply lo_split|]. intros a b [H1 H2]. eapply lo_bind; [now apply lo_split|]. intros c d [H3 H4].
        rewrite H1, H2, H3, H4. apply lo_eq.
      + destruct (size_of x).
        * destruct (mem_layout x) as [[size al]|]; [|apply lo_eq]. rewrite (like_slen _ _ H), (like_slen _ _ H'). destruct (_ =? _); [|apply lo_eq].
          apply lo_eq_all; [apply IH; now left| |]; now apply like_elems.
        * unfold nfwa_eq. rewrite (lo_len _ _ H), (lo_len _ _ H'). do 2 (apply lo_bind_eq; intros ?). destruct (_ =? _); [|apply lo_eq].
          eapply lo_bind; [now apply lo_into_iter|]. intros. eapply lo_bind; [now apply lo_into_iter|]. intros. rewrite H.
          apply lo_eq_go; [apply IH; now left| |]; assumption.
      + eapply lo_bind; [now apply lo_option|]. intros a b Hab. eapply lo_bind; [now apply lo_option|]. intros c d Hcd.
        destruct a as [a|], b as [b|]; cbn in Hab; try contradiction; destruct c as [c|], d as [d|]; cbn in Hcd; try contradiction; try apply lo_eq.
        apply IH; auto.
    - destruct t as [| | | | | | | | | | | | |x|x|ts|k v]; cbn [is_struct] in Hs; try tauto; cbn [gv_eq].
      + eapply lo_bind; [now apply lo_tuple|]. intros l l' HF. eapply lo_bind; [now apply lo_tuple|]. intros m m' HG. exact (lo_eq_list ts IH l l' HF m m' HG).
      + inversion IH as [|? ? Ha IHb]; inversion IHb as [|? ? Hb _]; subst.
        eapply lo_bind; [now apply lo_tuple|]. intros l l' HF. eapply lo_bind; [now apply lo_tuple|]. intros m m' HG.
        destruct HF as [|a a' l l' H1 HF]; [apply lo_eq|]. destruct HF as [|b b' l l' H2 HF]; [apply lo_eq|]. destruct HF; [|apply lo_eq].
        destruct HG as [|c c' m m' H3 HG]; [apply lo_eq|]. destruct HG as [|d d' m m' H4 HG]; [apply lo_eq|]. destruct HG; [|apply lo_eq].
        apply (lo_bind eq); [now apply Ha|]. intros [|] ? <-; [now apply Hb|apply lo_eq].
  Qed.

  Inductive nlike : native -> native -> Prop :=
  | nl_view s q : like s q -> nlike (NView s) (NView q)
  | nl_bool b : nlike (NBool b) (NBool b)
  | nl_str d : nlike (NStr d) (NStr d)
  | nl_seq l l' : Forall2 nlike l l' -> nlike (NSeq l) (NSeq l')
  | nl_option o o' : opt_like o o' -> nlike (NOption o) (NOption o').
  Definition nsame (n n' : native) : Prop := forall t s q, like s q -> lo eq (eq_native h t s n) (eq_native h t q n').
  Definition fsame (e f : slice -> res bool) : Prop := forall s q, like s q -> lo eq (e s) (f q).
  Lemma lo_slice_seq : forall es fs, Forall2 fsame es fs -> forall rs rs', Forall2 like rs rs' -> lo eq (slice_eq_seq es rs) (slice_eq_seq fs rs').
  Proof.
    induction 1 as [|e f es fs He _ IH]; intros rs rs' HR; destruct HR as [|r r' rs rs' Hr HR]; cbn [slice_eq_seq]; try apply lo_eq.
    apply (lo_bind eq); [now apply He|]. intros [|] ? <-; [now apply IH|apply lo_eq].
  Qed.
  Lemma lo_nfwa_seq x : forall es fs, Forall2 fsame es fs -> forall a b, iter_like a b -> lo eq (nfwa_eq_seq h x es a) (nfwa_eq_seq h x fs b).
  Proof.
    induction 1 as [|e f es fs He _ IH]; intros a b H; cbn [nfwa_eq_seq];
      (eapply lo_bind; [now apply lo_next|]); intros [p a2] [p' a2'] [H1 H2]; cbn [fst snd] in *;
      (destruct p as [p|], p' as [p'|]; cbn in H1; try contradiction); try apply lo_eq.
    apply (lo_bind eq); [now apply He|]. intros [|] ? <-; [now apply IH|apply lo_eq].
  Qed.
  Fixpoint lo_native n n' (H : nlike n n') {struct H} : nsame n n'.
  Proof.
    destruct H as [s q H|b|d|l l' H|o o' H]; intros t r r' Hr.
    - cbn [eq_native]. now apply lo_gv_eq.
    - cbn [eq_native]. rewrite Hr. apply lo_eq.
    - cbn [eq_native]. rewrite Hr. apply lo_eq.
    - assert (HF : Forall2 nsame l l').
      { revert l l' H. fix IH 3. intros l l' H. destruct H as [|a b l l' Hab H]; [constructor|]. constructor; [now apply lo_native|now apply IH]. }
      cbn [eq_native]. destruct t as [| | | | | | | | | | | | |x|x|ts|k v]; try apply lo_eq.
      assert (HM : Forall2 fsame (map (fun m r => eq_native h x r m) l) (map (fun m r => eq_native h x r m) l')).
      { clear -HF. induction HF as [|a b l l' Hab _ IH]; cbn [map]; constructor; [|exact IH]. intros s q H. now apply Hab. }
      assert (HL : length l = length l') by (clear -H; induction H; cbn [length]; auto).
      cbv zeta. rewrite HL. destruct (size_of x).
      + destruct (mem_layout x) as [[size al]|]; [|apply lo_eq]. rewrite (like_slen _ _ Hr). destruct (_ =? _); [|apply lo_eq].
        apply lo_slice_seq; [exact HM|]. now apply like_elems.
      + rewrite (lo_len _ _ Hr). apply lo_bind_eq. intros m. destruct (_ =? _); [|apply lo_eq].
        eapply lo_bind; [now apply lo_into_iter|]. intros. now apply lo_nfwa_seq.
    - cbn [eq_native]. destruct t as [| | | | | | | | | | | | |x|x|ts|k v]; try apply lo_eq. destruct (size_of x); [|apply lo_eq].
      eapply lo_bind; [now apply lo_option|]. intros a b Hab.
      destruct a as [a|], b as [b|]; cbn in Hab; try contradiction; destruct o as [o|], o' as [o'|]; cbn in H; try contradiction; try apply lo_eq.
      now apply lo_gv_eq.
  Qed.
  Lemma lo_cmp x a a' b b' : like a a' -> like b b' -> lo eq (maybe_cmp h x a b) (maybe_cmp h x a' b').
  Proof.
    intros H H'. unfold maybe_cmp. destruct (size_of x); [|apply lo_eq].
    eapply lo_bind; [now apply lo_option|]. intros o o' Ho. eapply lo_bind; [now apply lo_option|]. intros p p' Hp.
    destruct o as [o|], o' as [o'|]; cbn in Ho; try contradiction; destruct p as [p|], p' as [p'|]; cbn in Hp; try contradiction; try apply lo_eq.
    unfold gv_cmp. rewrite Ho, Hp. apply lo_eq.
  Qed.
  Lemma lo_hash x a a' : like a a' -> lo eq (maybe_hash h x a) (maybe_hash h x a').
  Proof.
    intros H. unfold maybe_hash. destruct x; try apply lo_eq;
      (eapply lo_bind; [now apply lo_option|]; intros o o' Ho; destruct o as [o|], o' as [o'|]; cbn in Ho; try contradiction; [|apply lo_eq]; rewrite Ho; apply lo_eq).
  Qed.
  (** ** Owned values *)
  Lemma own_like t s q a1 a2 : like s q -> to_owned h t s a1 a2 = to_owned h t q a1 a2.
  Proof. intros H. unfold to_owned. now rewrite H. Qed.
  Lemma lo_cast_own t s q a3 a4 : like s q -> lo eq (let* r := cast h t s in to_owned h t r a3 a4) (let* r := cast h t q in to_owned h t r a3 a4).
  Proof. intros H. eapply lo_bind; [now apply lo_cast|]. intros a b Hab. rewrite (own_like t a b a3 a4 Hab). apply lo_eq. Qed.
  Lemma lo_try_into t s q : like s q -> lo opt_like (slice_try_into h t s) (slice_try_into h t q).
  Proof.
    intros H. destruct t; cbn [slice_try_into]; try (apply lo_same; reflexivity);
      (destruct (mem_layout _) as [lay|]; [|apply lo_same; reflexivity]; now apply lo_cast_slice).
  Qed.
End Loose.
