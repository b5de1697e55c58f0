(** How many steps reading takes: proofs. *)
From Verif Require Import Base Types Layout AlignedBytes Strs Spec Deser Histories Cost SizeSpec
  BaseFacts TypesFacts LayoutFacts DeserFacts ArrayFacts StructFacts ReadFacts AccessFacts SizeFacts.
From Coq Require Import Lia ZifyBool ZifyNat ZifyN.
Ltac Zify.zify_post_hook ::= idtac.
Local Open Scope N_scope.

(** ** Without the counts *)
Lemma er_ok {A B} n (a : A) (f : A -> timed B) : snd (tbind (costs n (Ok a)) f) = snd (f a).
Proof. reflexivity. Qed.
Lemma er_bind {A B} (m : timed A) (m' : res A) (f : A -> timed B) (f' : A -> res B) :
  snd m = m' -> (forall a, snd (f a) = f' a) -> snd (tbind m f) = bind m' f'.
Proof. intros <- H. unfold tbind. destruct (snd m); cbn [bind snd]; auto. Qed.
Ltac er_step :=
  match goal with
  | |- snd (tbind (costs _ (Ok _)) _) = _ => rewrite er_ok; cbv beta
  | |- snd (tbind _ _) = bind _ _ => apply er_bind; [|intros ?]
  | |- snd (let x := _ in _) = _ => cbv zeta
  | |- snd (if ?c then _ else _) = _ => destruct c
  | |- snd (match ?p with (_, _) => _ end) = _ => destruct p
  | |- snd (match ?o with Some _ => _ | None => _ end) = _ => destruct o
  | |- snd (match ?o with U0 => _ | U1 => _ | U2 => _ | U4 => _ | U8 => _ end) = _ => destruct o
  | |- snd (costs _ _) = _ => reflexivity
  | |- snd (now _) = _ => reflexivity
  | |- snd (unchecked_t _ _ _) = _ => reflexivity
  | |- snd (align_bytes_t _ _ _) = _ => reflexivity
  | |- snd (try_from_aligned_slice_t _ _ _) = _ => reflexivity
  | |- _ => solve [auto with er]
  end.
Ltac er := repeat er_step.
Lemma er_align h A x : snd (align_offset_t h A x) = align_offset h A x.
Proof. unfold align_offset_t, align_offset. er. Qed.
Lemma er_split_at h A s m : snd (split_at_t h A s m) = split_at h A s m.
Proof. unfold split_at_t, split_at. er. Qed.
Lemma er_ix_to h A s e : snd (ix_to_t h A s e) = ix_to h A s e.
Proof. unfold ix_to_t, ix_to. er. Qed.
Lemma er_ix_from h A s e : snd (ix_from_al_t h A s e) = ix_from_al h A s e.
Proof. unfold ix_from_al_t, ix_from_al. er. Qed.
#[local] Hint Resolve er_align er_split_at er_ix_to er_ix_from : er.
Lemma er_empty h A : snd (empty_aligned_t h A) = empty_aligned h A.
Proof. unfold empty_aligned_t, empty_aligned. er. Qed.
#[local] Hint Resolve er_empty : er.
Lemma er_default h t : snd (default_ref_t h t) = default_ref h t.
Proof.
  unfold default_ref_t. destruct (size_of t) eqn:En; [reflexivity|]. unfold default_ref. rewrite En.
  destruct t; try reflexivity; try apply er_empty. destruct (is_fixed t); [reflexivity|apply er_empty].
Qed.
#[local] Hint Resolve er_default : er.
Lemma er_cast h t s : snd (from_aligned_slice_t h t s) = from_aligned_slice h t s.
Proof. unfold from_aligned_slice_t, from_aligned_slice. er. Qed.
Lemma er_unwrap h t s : snd (cast_unwrap_t h t s) = cast_unwrap h t s.
Proof. unfold cast_unwrap_t, cast_unwrap. er. Qed.
Lemma er_read_uint h d z n : snd (read_uint_t h d z n) = read_uint h d z n.
Proof. unfold read_uint_t, read_uint. er. Qed.
#[local] Hint Resolve er_cast er_unwrap er_read_uint : er.
Lemma er_last_offset h d : snd (read_last_frame_offset_t h d) = read_last_frame_offset h d.
Proof. unfold read_last_frame_offset_t, read_last_frame_offset. er. Qed.
#[local] Hint Resolve er_last_offset : er.
Lemma er_len h s : snd (nfwa_len_t h s) = nfwa_len h s.
Proof. unfold nfwa_len_t, nfwa_len. er. Qed.
#[local] Hint Resolve er_len : er.
Lemma er_is_empty h s : snd (nfwa_is_empty_t h s) = nfwa_is_empty h s.
Proof. unfold nfwa_is_empty_t, nfwa_is_empty. er. Qed.
Lemma er_into_iter h x s : snd (nfwa_into_iter_t h x s) = nfwa_into_iter h x s.
Proof. unfold nfwa_into_iter_t, nfwa_into_iter. er. Qed.
Lemma er_next h x it : snd (nfwa_next_t h x it) = nfwa_next h x it.
Proof. unfold nfwa_next_t, nfwa_next. er. Qed.
Lemma er_hint h it : snd (nfwa_size_hint_t h it) = nfwa_size_hint h it.
Proof. unfold nfwa_size_hint_t, nfwa_size_hint. er. Qed.
#[local] Hint Resolve er_is_empty er_into_iter er_next er_hint : er.
Lemma er_collect h x : forall f it, snd (nfwa_collect_t h x f it) = nfwa_collect h x f it.
Proof. induction f as [|f IH]; intros it; cbn [nfwa_collect_t nfwa_collect]; er. Qed.
#[local] Hint Resolve er_collect : er.
Lemma er_items h x s : snd (nfwa_items_t h x s) = nfwa_items h x s.
Proof. unfold nfwa_items_t, nfwa_items. er. Qed.
Lemma er_index h x s i : snd (nfwa_index_t h x s i) = nfwa_index h x s i.
Proof. unfold nfwa_index_t, nfwa_index. er. Qed.
#[local] Hint Resolve er_items er_index : er.
Lemma er_first h x s : snd (nfwa_first_t h x s) = nfwa_first h x s.
Proof. unfold nfwa_first_t, nfwa_first. er. Qed.
Lemma er_last h x s : snd (nfwa_last_t h x s) = nfwa_last h x s.
Proof. unfold nfwa_last_t, nfwa_last. er. Qed.
Lemma er_refs h x s : snd (array_refs_t h x s) = array_refs h x s.
Proof. unfold array_refs_t, array_refs. er. Qed.
Lemma er_option h x s : snd (to_option_t h x s) = to_option h x s.
Proof. unfold to_option_t, to_option. er. Qed.
Lemma er_split h s : snd (variant_split_t h s) = variant_split h s.
Proof. unfold variant_split_t, variant_split. er. Qed.
#[local] Hint Resolve er_first er_last er_refs er_option er_split : er.
Lemma er_get h t s : snd (variant_get_t h t s) = variant_get h t s.
Proof. unfold variant_get_t, variant_get, cast. er. Qed.
Lemma er_nth_last h d z n : snd (nth_last_frame_offset_t h d z n) = nth_last_frame_offset h d z n.
Proof. unfold nth_last_frame_offset_t, nth_last_frame_offset. er. Qed.
Lemma er_start h ca b fo a c : snd (calc_start_t h ca b fo a c) = calc_start h ca b fo a c.
Proof. unfold calc_start_t, calc_start. er. Qed.
#[local] Hint Resolve er_get er_nth_last er_start : er.
Lemma er_calc h ca b d i a c z l n : snd (calc_offsets_t h ca b d i a c z l n) = calc_offsets h ca b d i a c z l n.
Proof. unfold calc_offsets_t, calc_offsets. er. Qed.
#[local] Hint Resolve er_calc : er.
Lemma er_child h t b d i a c z l n : snd (get_child_elem_t h t b d i a c z l n) = get_child_elem h t b d i a c z l n.
Proof. unfold get_child_elem_t, get_child_elem. er. Qed.
#[local] Hint Resolve er_child : er.
Lemma er_nonfixed h al nfo s : forall cs rows, snd (nonfixed_refs_t h al nfo s cs rows) = nonfixed_refs h al nfo s cs rows.
Proof. induction cs as [|c cs IH]; intros [|[[[i a] b] e] rows]; cbn [nonfixed_refs_t nonfixed_refs]; er. Qed.
Lemma er_fields s : forall offs lays, snd (field_refs_t s offs lays) = field_refs s offs lays.
Proof. induction offs as [|o offs IH]; intros [|l lays]; cbn [field_refs_t field_refs]; er. Qed.
#[local] Hint Resolve er_nonfixed er_fields : er.
Lemma er_tuple h t s : snd (to_tuple_t h t s) = to_tuple h t s.
Proof. unfold to_tuple_t, to_tuple. er. Qed.
Lemma er_to_str d : snd (to_str_t d) = Ok (to_str d).
Proof. unfold to_str_t, to_str, as_bytes_non_conformant_t. er. Qed.
#[local] Hint Resolve er_tuple er_to_str : er.
Lemma er_read h t : forall s, snd (read_t h t s) = read h t s.
Proof.
  induction t as [t Hns IH|t Hs IH] using ty_struct_ind; intros s.
  - destruct t as [| | | | | | | | | | | | |x|x|ts|k v]; cbn [is_struct] in Hns; try tauto; cbn [read_t read]; try reflexivity;
      try (rewrite (er_bind _ _ _ _ (er_to_str (s_data s)) (fun a => eq_refl)); reflexivity).
    + er.
    + er. induction a as [|r rs IHr]; cbn [mapM]; er.
    + er.
  - destruct t as [| | | | | | | | | | | | |x|x|ts|k v]; cbn [is_struct] in Hs; try tauto; cbn [read_t read children_of] in *.
    + er. revert a. induction ts as [|t ts IHt]; intros [|r rs]; er; inversion IH; subst; auto.
    + inversion IH as [|? ? Hk IH']; subst. inversion IH' as [|? ? Hv _]; subst. er. destruct a as [|ra [|rb [|]]]; er; auto.
Qed.
Lemma er_decode h t s : snd (decode_t h t s) = decode h t s.
Proof. unfold decode_t, decode, cast. apply er_bind; [apply er_cast|]. intros r. apply er_read. Qed.

(** ** Bounds *)
Definition takes {A} (m : timed A) (n : N) : Prop := fst m <= n.
Lemma w_costs {A} n (m : res A) : takes (costs n m) n.
Proof. apply N.le_refl. Qed.
Lemma w_now {A} (a : A) : takes (now a) 0.
Proof. apply N.le_refl. Qed.
Lemma w_le {A} (m : timed A) a b : takes m a -> a <= b -> takes m b.
Proof. unfold takes. lia. Qed.
Lemma w_bind_ok {A B} (m : timed A) (f : A -> timed B) a b : takes m a -> (forall x, snd m = Ok x -> takes (f x) b) -> takes (tbind m f) (a + b).
Proof.
  unfold takes, tbind. intros Hm Hf. destruct (snd m) as [x|c] eqn:E; cbn [fst]; [specialize (Hf x eq_refl)|]; lia.
Qed.
Lemma w_bind {A B} (m : timed A) (f : A -> timed B) a b : takes m a -> (forall x, takes (f x) b) -> takes (tbind m f) (a + b).
Proof. intros Hm Hf. apply w_bind_ok; auto. Qed.
Lemma w_ok {A B} n (a : A) (f : A -> timed B) b : takes (f a) b -> takes (tbind (costs n (Ok a)) f) (n + b).
Proof. unfold takes. cbn [tbind costs fst snd]. lia. Qed.
Lemma w_if {A} (c : bool) (m n : timed A) a b : takes m a -> takes n b -> takes (if c then m else n) (N.max a b).
Proof. unfold takes. destruct c; lia. Qed.
Lemma w_opt {A B} (o : option B) (f : B -> timed A) (n : timed A) a b : (forall x, takes (f x) a) -> takes n b ->
  takes (match o with Some x => f x | None => n end) (N.max a b).
Proof. unfold takes. intros Hf Hn. destruct o as [x|]; [specialize (Hf x)|]; lia. Qed.
Lemma w_osz {A} (o : offset_size_t) (m0 m1 m2 m4 m8 : timed A) a0 a1 a2 a4 a8 :
  takes m0 a0 -> takes m1 a1 -> takes m2 a2 -> takes m4 a4 -> takes m8 a8 ->
  takes (match o with U0 => m0 | U1 => m1 | U2 => m2 | U4 => m4 | U8 => m8 end) (N.max a0 (N.max a1 (N.max a2 (N.max a4 a8)))).
Proof. unfold takes. destruct o; lia. Qed.
Ltac w_step :=
  match goal with
  | |- takes (let x := _ in _) _ => cbv zeta
  | |- takes (costs _ _) _ => apply w_costs
  | |- takes (now _) _ => apply w_now
  | |- takes (unchecked_t _ _ _) _ => apply w_costs
  | |- takes (align_bytes_t _ _ _) _ => apply w_costs
  | |- takes (try_from_aligned_slice_t _ _ _) _ => apply w_costs
  | |- takes (tbind (costs _ (Ok _)) _) _ => apply w_ok
  | |- takes (tbind _ _) _ => eapply w_bind; [|intros ?]
  | |- takes (if _ then _ else _) _ => apply w_if
  | |- takes (match _ with (_, _) => _ end) _ => let p := fresh in match goal with |- takes (match ?q with (_, _) => _ end) _ => destruct q end
  | |- takes (match _ with Some _ => _ | None => _ end) _ => apply w_opt; [intros ?|]
  | |- takes (match _ with U0 => _ | U1 => _ | U2 => _ | U4 => _ | U8 => _ end) _ => apply w_osz
  | |- takes _ _ => solve [eauto with ww]
  end.
Ltac ww := eapply w_le; [repeat w_step|vm_compute; intros; discriminate].
Lemma w_align h A x : takes (align_offset_t h A x) 5.
Proof. unfold align_offset_t. ww. Qed.
Lemma w_split_at h A s m : takes (split_at_t h A s m) 4.
Proof. unfold split_at_t. ww. Qed.
Lemma w_ix_to h A s e : takes (ix_to_t h A s e) 3.
Proof. unfold ix_to_t. ww. Qed.
Lemma w_ix_from h A s e : takes (ix_from_al_t h A s e) 3.
Proof. unfold ix_from_al_t. ww. Qed.
#[local] Hint Resolve w_align w_split_at w_ix_to w_ix_from : ww.
Lemma w_empty h A : takes (empty_aligned_t h A) 9.
Proof. unfold empty_aligned_t. ww. Qed.
#[local] Hint Resolve w_empty : ww.
Lemma w_default h t : takes (default_ref_t h t) 9.
Proof.
  unfold default_ref_t. destruct (size_of t); [ww|]. destruct t; try (ww; fail); ww.
Qed.
#[local] Hint Resolve w_default : ww.
Lemma w_cast h t s : takes (from_aligned_slice_t h t s) 14.
Proof. unfold from_aligned_slice_t. ww. Qed.
Lemma w_unwrap h t s : takes (cast_unwrap_t h t s) 5.
Proof. unfold cast_unwrap_t. ww. Qed.
Lemma w_read_uint h d z n : takes (read_uint_t h d z n) 4.
Proof. unfold read_uint_t. ww. Qed.
#[local] Hint Resolve w_cast w_unwrap w_read_uint : ww.
Lemma w_last_offset h d : takes (read_last_frame_offset_t h d) 15.
Proof. unfold read_last_frame_offset_t. ww. Qed.
#[local] Hint Resolve w_last_offset : ww.
Lemma w_len h s : takes (nfwa_len_t h s) 17.
Proof. unfold nfwa_len_t. ww. Qed.
#[local] Hint Resolve w_len : ww.
Lemma w_is_empty h s : takes (nfwa_is_empty_t h s) 18.
Proof. unfold nfwa_is_empty_t. ww. Qed.
Lemma w_into_iter h x s : takes (nfwa_into_iter_t h x s) 19.
Proof. unfold nfwa_into_iter_t. ww. Qed.
Lemma w_next h x it : takes (nfwa_next_t h x it) 28.
Proof. unfold nfwa_next_t. ww. Qed.
Lemma w_hint h it : takes (nfwa_size_hint_t h it) 2.
Proof. unfold nfwa_size_hint_t. ww. Qed.
Lemma w_index h x s i : takes (nfwa_index_t h x s i) 48.
Proof. unfold nfwa_index_t. ww. Qed.
#[local] Hint Resolve w_is_empty w_into_iter w_next w_hint w_index : ww.
Lemma w_first h x s : takes (nfwa_first_t h x s) 66.
Proof. unfold nfwa_first_t. ww. Qed.
Lemma w_last h x s : takes (nfwa_last_t h x s) 84.
Proof. unfold nfwa_last_t. ww. Qed.
Lemma w_option h x s : takes (to_option_t h x s) 10.
Proof. unfold to_option_t. ww. Qed.
#[local] Hint Resolve w_first w_last w_option : ww.
Lemma w_nth_last h d z n : takes (nth_last_frame_offset_t h d z n) 8.
Proof. unfold nth_last_frame_offset_t. ww. Qed.
Lemma w_start h ca b fo a c : takes (calc_start_t h ca b fo a c) 10.
Proof. unfold calc_start_t. ww. Qed.
#[local] Hint Resolve w_nth_last w_start : ww.
Lemma w_calc h ca b d i a c z l n : takes (calc_offsets_t h ca b d i a c z l n) 35.
Proof. unfold calc_offsets_t. ww. Qed.
#[local] Hint Resolve w_calc : ww.
Lemma w_child h t b d i a c z l n : takes (get_child_elem_t h t b d i a c z l n) 55.
Proof. unfold get_child_elem_t. ww. Qed.
#[local] Hint Resolve w_child : ww.

(** ** Strings and variants *)
Lemma as_bytes_len d : blen (as_bytes_non_conformant d) <= blen d.
Proof.
  unfold as_bytes_non_conformant. rewrite <- (rev_involutive d) at 2. destruct (rev d) as [|b r]; [cbn; lia|].
  unfold blen. rewrite rev_length. cbn [length]. destruct b; cbn [length]; rewrite ?rev_length; lia.
Qed.
Lemma w_to_str d : takes (to_str_t d) (8 + 2 * blen d).
Proof.
  pose proof (as_bytes_len d) as H. unfold to_str_t, as_bytes_non_conformant_t.
  eapply w_le; [repeat w_step|]. lia.
Qed.
Lemma w_split h s : takes (variant_split_t h s) (10 + slen s).
Proof.
  unfold variant_split_t. eapply w_le; [repeat w_step|]. destruct (memrchr0 (s_data s)); cbn [N.max]; lia.
Qed.

(** ** Lengths of what is found *)
Lemma bind_ok {A B} (m : res A) (f : A -> res B) b : bind m f = Ok b -> exists a, m = Ok a /\ f a = Ok b.
Proof. destruct m as [a|c]; cbn [bind]; [eauto|discriminate]. Qed.
Lemma unchecked_len h A s r : unchecked h A s = Ok r -> r = s.
Proof. unfold unchecked. destruct (_ && _); [discriminate|]. now injection 1. Qed.
Lemma ix_to_len h A s e r : ix_to h A s e = Ok r -> slen r <= slen s.
Proof.
  unfold ix_to. intros H. apply bind_ok in H as (x & E & H). apply unchecked_len in H. subst r.
  unfold sl_to in E. destruct (_ <=? _); [|discriminate E]. injection E as <-. unfold slen. cbn [s_data]. rewrite blen_take. lia.
Qed.
Lemma ix_from_len h A s e r : ix_from_al h A s e = Ok r -> slen r <= slen s.
Proof.
  unfold ix_from_al. intros H. apply bind_ok in H as (x & E & H). apply unchecked_len in H. subst r.
  unfold sl_from in E. destruct (_ <=? _); [|discriminate E]. injection E as <-. unfold slen. cbn [s_data]. rewrite blen_drop. lia.
Qed.
Lemma empty_len h A r : empty_aligned h A = Ok r -> slen r = 0.
Proof.
  unfold empty_aligned, ix_to. intros H. apply bind_ok in H as (x & _ & H). apply bind_ok in H as (y & E & H). apply unchecked_len in H. subst r.
  unfold sl_to in E. destruct (_ <=? _); [|discriminate E]. injection E as <-. reflexivity.
Qed.
Lemma try_same h t s r : try_from_aligned_slice h t s = Ok (Some r) -> r = s.
Proof.
  assert (H1 : forall lay, try_cast_slice_to h lay s = Ok (Some r) -> r = s).
  { intros [z al]. unfold try_cast_slice_to. destruct (_ =? _); [|discriminate]. destruct (_ && _); [discriminate|].
    destruct (is_aligned _ _); [|discriminate]. now injection 1. }
  assert (H2 : forall A lay, cast_slice h A lay s = Ok (Some r) -> r = s).
  { intros A [z al]. unfold cast_slice. destruct (_ <? _); [discriminate|]. destruct (_ && _); [discriminate|]. destruct (_ =? 0); [discriminate|].
    destruct (_ =? 0); [|discriminate]. destruct (is_aligned _ _); [|discriminate]. now injection 1. }
  unfold try_from_aligned_slice. destruct (size_of t).
  - destruct (mem_layout t); [apply H1|discriminate].
  - destruct t; try (now injection 1). destruct (size_of t); [|now injection 1]. destruct (mem_layout t); [apply H2|discriminate].
Qed.
Lemma unwrap_same h t s r : cast_unwrap h t s = Ok r -> r = s.
Proof.
  unfold cast_unwrap. intros H. apply bind_ok in H as ([x|] & E & H); [|discriminate H]. injection H as <-. now apply try_same in E.
Qed.
Lemma default_len h t r : size_of t = None -> default_ref h t = Ok r -> slen r = 0.
Proof.
  intros En. unfold default_ref. rewrite En. destruct t; try (injection 1 as <-; reflexivity); try apply empty_len.
  destruct (is_fixed t); [injection 1 as <-; reflexivity|apply empty_len].
Qed.
Lemma cast_len h t s r : size_of t = None -> from_aligned_slice h t s = Ok r -> slen r <= slen s.
Proof.
  intros En. unfold from_aligned_slice. intros H. apply bind_ok in H as ([x|] & E & H).
  - injection H as <-. apply try_same in E. subst. lia.
  - apply (default_len h t r En) in H. lia.
Qed.
Lemma next_len h x it r it' : nfwa_next h x it = Ok (Some r, it') -> slen r <= slen (it_data it) /\ it_data it' = it_data it.
Proof.
  unfold nfwa_next. destruct (_ <=? _); [discriminate|]. intros H.
  apply bind_ok in H as (st & _ & H). apply bind_ok in H as (tl & _ & H). apply bind_ok in H as (en & _ & H). apply bind_ok in H as (ix & _ & H).
  cbv zeta in H. destruct (_ || _).
  - apply bind_ok in H as (e & E & H). apply bind_ok in H as (q & Eq & H). injection H as <- <-. apply unwrap_same in Eq. subst.
    apply empty_len in E. split; [lia|reflexivity].
  - apply bind_ok in H as (a & Ea & H). apply bind_ok in H as (b & Eb & H). apply bind_ok in H as (q & Eq & H). injection H as <- <-.
    apply unwrap_same in Eq. subst. apply ix_to_len in Ea. apply ix_from_len in Eb. split; [lia|reflexivity].
Qed.
Lemma collect_len h x : forall f it rs, nfwa_collect h x f it = Ok rs ->
  Forall (fun r => slen r <= slen (it_data it)) rs /\ (length rs <= f)%nat.
Proof.
  induction f as [|f IH]; intros it rs; cbn [nfwa_collect]; [discriminate|]. intros H.
  apply bind_ok in H as ([[r|] it'] & E & H); cbn [fst snd] in H.
  - apply bind_ok in H as (qs & Eq & H). injection H as <-. apply next_len in E as [E1 E2]. apply IH in Eq as [Eq1 Eq2]. rewrite E2 in Eq1.
    split; [now constructor|]. cbn [length]. lia.
  - injection H as <-. split; [constructor|]. cbn [length]. lia.
Qed.
Lemma items_len h x s rs : nfwa_items h x s = Ok rs -> Forall (fun r => slen r <= slen s) rs /\ blen rs <= slen s + 1.
Proof.
  unfold nfwa_items. intros H. apply bind_ok in H as (it & E & H). unfold nfwa_into_iter in E. apply bind_ok in E as (p & _ & E).
  apply bind_ok in E as ([q1 q2] & Es & E). injection E as <-. apply collect_len in H as [H1 H2]. cbn [it_data fst] in H1.
  assert (Hl : slen q1 <= slen s).
  { unfold split_at in Es. apply bind_ok in Es as (b & Eb & Es). apply bind_ok in Es as (a & _ & Es). apply bind_ok in Es as (b' & Eb' & Es).
    injection Es as <- <-. apply unchecked_len in Eb'. subst b'. unfold sl_to in Eb. destruct (_ <=? _); [|discriminate Eb]. injection Eb as <-.
    unfold slen. cbn [s_data]. rewrite blen_take. lia. }
  split; [eapply Forall_impl; [|exact H1]; cbv beta; intros; lia|]. unfold blen, slen, blen. lia.
Qed.
Lemma option_len h x s r : to_option h x s = Ok (Some r) -> slen r <= slen s.
Proof.
  unfold to_option. destruct (size_of x).
  - intros H. apply try_same in H. subst. lia.
  - destruct (_ =? 0); [discriminate|]. intros H. apply bind_ok in H as (n' & _ & H). apply bind_ok in H as (a & Ea & H). apply bind_ok in H as (q & Eq & H).
    injection H as <-. apply unwrap_same in Eq. subst. now apply ix_to_len in Ea.
Qed.
Lemma child_len h t b d i a c z l n r : size_of t = None -> get_child_elem h t b d i a c z l n = Ok r -> slen r <= slen d.
Proof.
  intros En. unfold get_child_elem. intros H. apply bind_ok in H as ([[st en]|] & _ & H).
  - apply bind_ok in H as (x & Ex & H). apply bind_ok in H as (y & Ey & H). apply (cast_len h t y r En) in H.
    apply ix_to_len in Ex. apply ix_from_len in Ey. lia.
  - apply (default_len h t r En) in H. lia.
Qed.
Lemma nonfixed_len h al nfo s : forall cs rows rs, nonfixed_refs h al nfo s cs rows = Ok rs ->
  Forall (fun p => size_of (fst p) = None -> slen (snd p) <= slen s) (combine cs rs).
Proof.
  induction cs as [|c cs IH]; intros rows rs; [constructor|]. destruct rows as [|[[[i a] b] e] rows]; cbn [nonfixed_refs].
  - injection 1 as <-. constructor.
  - intros H. apply bind_ok in H as (d & Ed & H). apply bind_ok in H as (r & Er & H). apply bind_ok in H as (qs & Eq & H). injection H as <-.
    cbn [combine]. constructor; [|now apply IH in Eq]. cbn [fst snd]. intros En. apply (child_len _ _ _ _ _ _ _ _ _ _ _ En) in Er.
    unfold as_aligned in Ed. destruct (aligned_to _ _); [|discriminate Ed]. now injection Ed as <-.
Qed.

(** ** Reading everything *)
Lemma w_collect h x : forall f it, takes (nfwa_collect_t h x f it) (28 * N.of_nat f).
Proof.
  induction f as [|f IH]; intros it; cbn [nfwa_collect_t]; [apply w_costs|].
  eapply w_le; [eapply w_bind; [apply w_next|]|].
  - intros [[r|] it']; cbn [fst snd]; [|eapply w_le; [apply w_now|apply N.le_0_l]].
    eapply w_le; [eapply w_bind; [apply IH|]; intros rs; apply w_now|]. apply N.le_refl.
  - lia.
Qed.
Lemma w_items h x s : takes (nfwa_items_t h x s) (47 + 28 * slen s).
Proof.
  unfold nfwa_items_t. eapply w_le; [eapply w_bind; [apply w_into_iter|]; intros it; apply w_collect|]. unfold slen, blen. lia.
Qed.
Lemma w_nonfixed h al nfo s : forall cs rows, takes (nonfixed_refs_t h al nfo s cs rows) (56 * blen cs).
Proof.
  induction cs as [|c cs IH]; intros rows; [destruct rows; apply w_now|]. destruct rows as [|[[[i a] b] e] rows]; cbn [nonfixed_refs_t].
  - eapply w_le; [apply w_now|lia].
  - eapply w_le; [repeat first [apply IH|w_step]|]. rewrite blen_cons. lia.
Qed.
Lemma w_fields s : forall offs lays, takes (field_refs_t s offs lays) (blen lays).
Proof.
  induction offs as [|o offs IH]; intros lays; cbn [field_refs_t]; [eapply w_le; [apply w_now|lia]|]. destruct lays as [|l lays]; [apply w_now|].
  eapply w_le; [repeat first [apply IH|w_step]|]. rewrite blen_cons. lia.
Qed.
Lemma mem_layouts_len ts : forall ls, mem_layouts ts = Some ls -> blen ls = blen ts.
Proof.
  induction ts as [|t ts IH]; intros ls; cbn [mem_layouts]; [now injection 1 as <-|].
  destruct (mem_layout t); [|discriminate]. destruct (mem_layouts ts) as [l|]; [|discriminate]. injection 1 as <-. rewrite !blen_cons. now rewrite (IH l eq_refl).
Qed.
Lemma w_tuple_fixed h t n s : size_of t = Some n -> takes (to_tuple_t h t s) (blen (children_of t)).
Proof.
  intros En. unfold to_tuple_t. rewrite En. destruct (field_offsets t) as [offs|]; [|eapply w_le; [apply w_costs|lia]].
  destruct (mem_layouts (children_of t)) as [ls|] eqn:E; [|eapply w_le; [apply w_costs|lia]].
  rewrite <- (mem_layouts_len _ _ E). apply w_fields.
Qed.
Lemma w_tuple h t s : takes (to_tuple_t h t s) (56 * blen (children_of t)).
Proof.
  destruct (size_of t) as [n|] eqn:En; [eapply w_le; [now apply (w_tuple_fixed h t n)|lia]|].
  unfold to_tuple_t. rewrite En. apply w_nonfixed.
Qed.
Lemma w_struct h t s c0 (f : ty -> N) : is_struct t -> takes (to_tuple_t h t s) c0 ->
  (forall rs, to_tuple h t s = Ok rs -> Forall (fun p => takes (read_t h (fst p) (snd p)) (f (fst p))) (combine (children_of t) rs)) ->
  takes (read_t h t s) (c0 + fold_right (fun t n => f t + n) 0 (children_of t)).
Proof.
  intros Hs Hc Hf. destruct t as [| | | | | | | | | | | | |x|x|ts|k v]; cbn [is_struct] in Hs; try tauto; cbn [read_t].
  - apply w_bind_ok; [exact Hc|]. intros rs E. rewrite er_tuple in E. specialize (Hf rs E). cbn [children_of] in *. clear E.
    rewrite <- (N.add_0_r (fold_right _ _ _)). apply w_bind; [|intros vs; apply w_now].
    clear Hc Hs. revert rs Hf. induction ts as [|t ts IH]; intros rs Hf; cbn [fold_right]; [apply w_now|].
    destruct rs as [|r rs]; [eapply w_le; [apply w_now|lia]|]. cbn [combine] in Hf. inversion Hf as [|? ? H1 H2]; subst. cbn [fst snd] in H1.
    apply w_bind; [exact H1|]. intros v. rewrite <- (N.add_0_r (fold_right _ _ _)). apply w_bind; [|intros vs; apply w_now].
    apply IH. exact H2.
  - apply w_bind_ok; [exact Hc|]. intros rs E. rewrite er_tuple in E. specialize (Hf rs E). cbn [children_of fold_right] in *. clear E.
    destruct rs as [|ra [|rb [|]]]; try (eapply w_le; [apply w_now|lia]). cbn [combine] in Hf. inversion Hf as [|? ? H1 H2]; subst. inversion H2 as [|? ? H3 _]; subst.
    cbn [fst snd] in *. apply w_bind; [exact H1|]. intros va. apply w_bind; [exact H3|]. intros vb. apply w_now.
Qed.

Lemma sum_le (f g : ty -> N) ts : Forall (fun t => f t <= g t) ts -> fold_right (fun t n => f t + n) 0 ts <= fold_right (fun t n => g t + n) 0 ts.
Proof. induction 1; cbn [fold_right]; lia. Qed.
Lemma sum_plus (f : ty -> N) k ts : fold_right (fun t n => (f t + k) + n) 0 ts = fold_right (fun t n => f t + n) 0 ts + k * blen ts.
Proof. induction ts as [|t ts IH]; [cbn; lia|]. cbn [fold_right]. rewrite IH, blen_cons. lia. Qed.
Lemma in_combine_fst {A B} (l : list A) (r : list B) p : In p (combine l r) -> In (fst p) l.
Proof. destruct p as [a b]. apply in_combine_l. Qed.
Lemma w_fixed h t : forall n s, size_of t = Some n -> takes (read_t h t s) (2 * type_len t - 1).
Proof.
  induction t as [t Hns IH|t Hs IH] using ty_struct_ind; intros n s En; pose proof (type_len_pos t) as Hp.
  - destruct t; cbn [is_struct] in Hns; try tauto; try discriminate En; cbn [read_t]; (eapply w_le; [apply w_costs|lia]).
  - pose proof (fixed_children t n Hs En) as HF. rewrite Forall_forall in HF, IH.
    eapply w_le; [eapply (w_struct h t s _ (fun c => 2 * type_len c - 1) Hs (w_tuple_fixed h t n s En))|].
    + intros rs _. apply Forall_forall. intros p Hin. apply in_combine_fst in Hin. specialize (HF _ Hin). unfold is_fixed in HF.
      destruct (size_of (fst p)) as [m|] eqn:Em; [|discriminate HF]. now apply (IH _ Hin m).
    + pose proof (children_len t Hs) as HL.
      pose proof (sum_plus (fun c => 2 * type_len c - 1) 1 (children_of t)) as HS. pose proof (sum_types 2 (children_of t)) as HT.
      assert (HE : fold_right (fun t n => (2 * type_len t - 1 + 1) + n) 0 (children_of t) <= fold_right (fun t n => 2 * type_len t + n) 0 (children_of t)).
      { apply (sum_le (fun t => 2 * type_len t - 1 + 1) (fun t => 2 * type_len t)). apply Forall_forall. intros c _. pose proof (type_len_pos c). lia. }
      cbv beta in HS. lia.
Qed.
Lemma div_le (n z : N) : n / z <= n.
Proof. destruct (N.eq_dec z 0) as [->|Hz]; [destruct n; cbn; lia|]. apply N.div_le_upper_bound; [exact Hz|]. nia. Qed.
Definition total (t : ty) (n : N) : N := 66 * type_len t * (n + 1) ^ (1 + sp_nest t).
Lemma w_reads h x (b : N) rs : Forall (fun r => takes (read_t h x r) b) rs ->
  takes ((fix go (rs : list slice) : timed (list value) :=
            match rs with
            | [] => now []
            | r :: rs => let+ v := read_t h x r in let+ vs := go rs in now (v :: vs)
            end) rs) (blen rs * b).
Proof.
  induction 1 as [|r rs Hr _ IH]; [eapply w_le; [apply w_now|lia]|].
  eapply w_le; [apply w_bind; [exact Hr|]; intros v; apply w_bind; [exact IH|]; intros vs; apply w_now|]. rewrite blen_cons. lia.
Qed.
Lemma w_read h t : forall s, takes (read_t h t s) (total t (slen s) - 56).
Proof.
  induction t as [t Hns IH|t Hs IH] using ty_struct_ind; intros s; pose proof (type_len_pos t) as Hp; unfold total;
    (destruct (size_of t) as [n|] eqn:En;
      [eapply w_le; [now apply (w_fixed h t n)|]; pose proof (pow_ge1 (slen s) (1 + sp_nest t)); nia|]); set (m := slen s).
  - destruct t as [| | | | | | | | | | | | |x|x|ts|k v]; try discriminate En; cbn [is_struct] in Hns; try tauto; cbn [read_t].
    1,2,3: eapply w_le; [apply w_bind; [apply w_to_str|]; intros d; apply w_now|];
      fold (slen s); fold m; cbn [sp_nest]; rewrite pow_step, N.pow_0_r; nia.
    + eapply w_le; [apply w_bind; [apply w_split|]; intros d; apply w_now|]. fold m. cbn [sp_nest]. rewrite pow_step, N.pow_0_r. nia.
    + specialize (IH x (or_introl eq_refl)). rewrite (type_len_parts (TA x) x) by auto. cbn [sp_nest]. rewrite sp_size_of.
      pose proof (type_len_pos x) as Hpx. unfold array_refs_t. destruct (size_of x) as [k|] eqn:Ex.
      * destruct (mem_layout x) as [[z al]|].
        -- pose proof (div_le m z) as Hdiv. eapply w_le; [apply w_ok; apply w_bind; [apply (w_reads h x (2 * type_len x - 1))|intros vs; apply w_now]|].
           ++ apply Forall_forall. intros r _. now apply (w_fixed h x k).
           ++ fold m. unfold slice_elems, blen. rewrite map_length, seq_length, N2Nat.id. fold m. rewrite pow_step, N.pow_0_r. nia.
        -- unfold takes. cbn. lia.
      * assert (Hall : forall rs, nfwa_items h x s = Ok rs ->
          takes ((fix go (rs : list slice) : timed (list value) :=
            match rs with
            | [] => now []
            | r :: rs => let+ v := read_t h x r in let+ vs := go rs in now (v :: vs)
            end) rs) ((m + 1) * (total x m - 56))).
        { intros rs E. apply items_len in E as [E1 E2]. eapply w_le; [apply (w_reads h x (total x m - 56))|].
          - eapply Forall_impl; [|exact E1]. intros r Hr. eapply w_le; [apply IH|]. unfold total.
            pose proof (pow_mono _ _ (1 + sp_nest x) (1 + sp_nest x) Hr (N.le_refl _)) as HP. fold m in HP. apply N.sub_le_mono_r, N.mul_le_mono_l. exact HP.
          - apply N.mul_le_mono_r. exact E2. }
        eapply w_le; [apply w_bind_ok; [apply w_items|]; intros rs E; rewrite er_items in E; apply w_bind; [exact (Hall rs E)|]; intros vs; apply w_now|].
        fold m. unfold total. rewrite (pow_step m (1 + sp_nest x)). pose proof (pow_ge1 m (1 + sp_nest x)) as HQ.
        remember ((m + 1) ^ (1 + sp_nest x)) as Q. clear HeqQ.
        assert (H56 : 56 <= 66 * type_len x * Q) by nia.
        assert (HM : (m + 1) * (66 * type_len x * Q - 56) + 56 * (m + 1) = (m + 1) * (66 * type_len x * Q)) by nia.
        replace (66 * (1 + type_len x) * ((m + 1) * Q)) with ((m + 1) * (66 * type_len x * Q) + 66 * (m + 1) * Q) by ring.
        assert (66 * (m + 1) <= 66 * (m + 1) * Q) by nia. lia.
    + specialize (IH x (or_intror eq_refl)). rewrite (type_len_parts (TM x) x) by auto. cbn [sp_nest].
      pose proof (type_len_pos x) as Hpx. pose proof (pow_ge1 m (1 + sp_nest x)) as HQ.
      eapply w_le; [apply w_bind_ok; [apply w_option|]; intros o E; rewrite er_option in E;
        instantiate (1 := total x m - 56)|].
      * destruct o as [r|]; [|eapply w_le; [apply w_now|lia]]. apply option_len in E. rewrite <- (N.add_0_r (_ - _)).
        apply w_bind; [|intros v; apply w_now]. eapply w_le; [apply IH|]. unfold total.
        pose proof (pow_mono _ _ (1 + sp_nest x) (1 + sp_nest x) E (N.le_refl _)) as HP. apply N.sub_le_mono_r, N.mul_le_mono_l. exact HP.
      * unfold total. nia.
  - pose proof (children_len t Hs) as HL. pose proof (pow_ge1 m (1 + sp_nest t)) as HQ. set (Q := (m + 1) ^ (1 + sp_nest t)) in *.
    eapply w_le; [eapply (w_struct h t s _ (fun c => 66 * Q * type_len c - 56) Hs (w_tuple h t s))|].
    + intros rs E. unfold to_tuple in E. rewrite En in E. apply nonfixed_len in E. rewrite Forall_forall in *. intros p Hin. specialize (E p Hin).
      apply in_combine_fst in Hin. pose proof (nest_child t _ Hs Hin) as Hn. pose proof (type_len_pos (fst p)) as Hpc.
      destruct (size_of (fst p)) as [k|] eqn:Ek.
      * eapply w_le; [now apply (w_fixed h _ k)|]. nia.
      * specialize (E eq_refl). eapply w_le; [now apply IH|]. unfold total.
        pose proof (pow_mono _ _ (1 + sp_nest (fst p)) (1 + sp_nest t) E) as HP. specialize (HP ltac:(lia)). fold m Q in HP.
        apply N.sub_le_mono_r. nia.
    + pose proof (sum_plus (fun c => 66 * Q * type_len c - 56) 56 (children_of t)) as HS. pose proof (sum_types (66 * Q) (children_of t)) as HT.
      assert (HE : fold_right (fun t n => (66 * Q * type_len t - 56 + 56) + n) 0 (children_of t) <= fold_right (fun t n => 66 * Q * type_len t + n) 0 (children_of t)).
      { apply (sum_le (fun t => 66 * Q * type_len t - 56 + 56) (fun t => 66 * Q * type_len t)). apply Forall_forall. intros c _. pose proof (type_len_pos c). nia. }
      cbv beta in HS. nia.
Qed.
Lemma w_decode h t s : takes (decode_t h t s) (total t (slen s)).
Proof.
  pose proof (type_len_pos t) as Hp. pose proof (pow_ge1 (slen s) (1 + sp_nest t)) as HQ.
  assert (H66 : 66 <= total t (slen s)) by (unfold total; nia).
  unfold decode_t. eapply w_le; [apply w_bind_ok; [apply w_cast|]; intros r E; rewrite er_cast in E; instantiate (1 := total t (slen s) - 56)|lia].
  destruct (size_of t) as [n|] eqn:En.
  - eapply w_le; [now apply (w_fixed h t n)|]. unfold total. nia.
  - apply (cast_len h t s r En) in E. eapply w_le; [apply w_read|]. unfold total.
    pose proof (pow_mono _ _ (1 + sp_nest t) (1 + sp_nest t) E (N.le_refl _)) as HP. apply N.sub_le_mono_r, N.mul_le_mono_l. exact HP.
Qed.

(** ** Variants *)
Lemma w_get_found h t s v ts : sp_split_last (s_data s) = Some (v, ts) -> takes (variant_get_t h t s) (23 + 2 * blen ts).
Proof.
  intros E. pose proof (memrchr0_split (s_data s)) as H. rewrite E in H. destruct (memrchr0 (s_data s)) as [m|] eqn:Em; [|tauto].
  destruct H as (Hm & _ & Hts). assert (Hb : blen ts = slen s - m - 1) by (rewrite Hts, blen_drop; unfold slen; lia). fold (slen s) in Hm.
  unfold variant_get_t. eapply w_le; [apply w_bind_ok; [instantiate (1 := 7 + blen ts)|intros p Ep; instantiate (1 := 16 + blen ts)]|lia].
  - unfold variant_split_t. rewrite Em. eapply w_le; [apply w_ok; repeat w_step|]. lia.
  - assert (Hp : slen (fst p) = blen ts).
    { rewrite er_split in Ep. unfold variant_split in Ep. rewrite Em in Ep. apply bind_ok in Ep as (q & Eq & Ep). apply bind_ok in Ep as (r & Er & Ep).
      injection Ep as <-. cbn [fst]. unfold split_at in Eq. apply bind_ok in Eq as (x1 & E1 & Eq). apply bind_ok in Eq as (x2 & E2 & Eq).
      apply bind_ok in Eq as (x3 & E3 & Eq). injection Eq as <-. cbn [snd] in Er. unfold sl_from in E2, Er.
      destruct (m <=? slen s); [|discriminate E2]. injection E2 as <-. destruct (_ <=? _); [|discriminate Er]. injection Er as <-.
      unfold slen. cbn [s_data]. rewrite !blen_drop. fold (slen s). lia. }
    eapply w_le; [apply w_ok; apply w_if; [repeat w_step; apply w_cast|apply w_now]|]. rewrite Hp.
    destruct (blen ts =? blen (display t)) eqn:Eb; lia.
Qed.
Lemma w_get_none h t s : sp_split_last (s_data s) = None -> takes (variant_get_t h t s) (28 + slen s).
Proof.
  intros E. pose proof (memrchr0_split (s_data s)) as H. rewrite E in H. destruct (memrchr0 (s_data s)) as [m|] eqn:Em; [tauto|].
  unfold variant_get_t. eapply w_le; [apply w_bind_ok; [instantiate (1 := 10 + slen s)|intros p Ep; instantiate (1 := 18)]|lia].
  - unfold variant_split_t. rewrite Em. eapply w_le; [apply w_ok; repeat w_step|]. lia.
  - assert (Hp : slen (fst p) = 2).
    { rewrite er_split in Ep. unfold variant_split in Ep. rewrite Em in Ep. apply bind_ok in Ep as (q & Eq & Ep). injection Ep as <-. reflexivity. }
    eapply w_le; [apply w_ok; apply w_if; [repeat w_step; apply w_cast|apply w_now]|]. rewrite Hp.
    destruct (2 =? blen (display t)) eqn:Eb; lia.
Qed.

(** ** Comparing *)
Lemma er_str_eq a b : snd (str_eq_t a b) = Ok (str_eq a b).
Proof.
  unfold str_eq_t, str_eq, as_bytes_non_conformant_t, compare_t. rewrite !er_ok. destruct (bytes_eqb (as_bytes_non_conformant a) _); [reflexivity|].
  cbn [orb]. rewrite (er_bind _ _ _ _ (er_to_str a) (fun x => eq_refl)). cbn [bind]. rewrite (er_bind _ _ _ _ (er_to_str b) (fun x => eq_refl)). reflexivity.
Qed.
Lemma er_eq_go h x f g (Hf : forall a b, snd (f a b) = g a b) : forall n ia ib, snd (nfwa_eq_go_t h x f n ia ib) = nfwa_eq_go h x g n ia ib.
Proof. induction n as [|n IH]; intros ia ib; cbn [nfwa_eq_go_t nfwa_eq_go]; er. Qed.
Lemma er_eq_all f g (Hf : forall a b, snd (f a b) = g a b) : forall xs ys, snd (eq_all_t f xs ys) = eq_all g xs ys.
Proof. induction xs as [|x xs IH]; intros [|y ys]; cbn [eq_all_t eq_all]; er. Qed.
Lemma er_nfwa_eq h x f g (Hf : forall a b, snd (f a b) = g a b) a b : snd (nfwa_eq_t h x f a b) = nfwa_eq h x g a b.
Proof. unfold nfwa_eq_t, nfwa_eq. er. now apply er_eq_go. Qed.
Lemma er_eq h t : forall a b, snd (gv_eq_t h t a b) = gv_eq h t a b.
Proof.
  induction t as [t Hns IH|t Hs IH] using ty_struct_ind; intros a b.
  - destruct t as [| | | | | | | | | | | | |x|x|ts|k v]; cbn [is_struct] in Hns; try tauto; try reflexivity; try (apply er_str_eq); cbn [gv_eq_t gv_eq].
    + apply er_bind; [apply er_split|]. intros p. apply er_bind; [apply er_split|]. intros q. unfold compare_t. rewrite er_ok. destruct (bytes_eqb (s_data (fst p)) _); reflexivity.
    + specialize (IH x (or_introl eq_refl)). destruct (size_of x); [|now apply er_nfwa_eq]. destruct (mem_layout x) as [[z al]|]; [|reflexivity].
      rewrite er_ok. destruct (_ =? _); [|reflexivity]. now apply er_eq_all.
    + specialize (IH x (or_intror eq_refl)). er.
  - destruct t as [| | | | | | | | | | | | |x|x|ts|k v]; cbn [is_struct] in Hs; try tauto; cbn [gv_eq_t gv_eq children_of] in *.
    + apply er_bind; [apply er_tuple|]. intros ra. apply er_bind; [apply er_tuple|]. intros rb. revert ra rb.
      induction ts as [|t ts IHt]; intros [|x xs] [|y ys]; try reflexivity. inversion IH; subst. apply er_bind; [auto|]. intros [|]; [|reflexivity]. auto.
    + inversion IH as [|? ? Hk IH']; subst. inversion IH' as [|? ? Hv _]; subst.
      apply er_bind; [apply er_tuple|]. intros ra. apply er_bind; [apply er_tuple|]. intros rb.
      destruct ra as [|ka [|va [|]]]; try reflexivity; destruct rb as [|kb [|vb [|]]]; try reflexivity. apply er_bind; [auto|]. intros [|]; [auto|reflexivity].
Qed.
Lemma w_compare a b : takes (compare_t a b) (1 + blen a).
Proof. unfold compare_t. eapply w_le; [apply w_costs|]. destruct (_ =? _); lia. Qed.
Lemma w_str_eq a b : takes (str_eq_t a b) (24 + 4 * blen a + 2 * blen b).
Proof.
  pose proof (as_bytes_len a) as Ha. unfold str_eq_t. eapply w_le;
    [apply w_ok; apply w_ok; apply w_bind; [apply w_compare|]; intros e; apply w_if; [apply w_now|];
     eapply w_bind_ok; [apply w_to_str|]; intros x Ex; rewrite er_to_str in Ex; injection Ex as <-;
     eapply w_bind; [apply w_to_str|]; intros y; eapply w_le; [apply w_compare|]; instantiate (1 := 1 + blen a)|lia].
  unfold to_str. destruct (has_nul _); [rewrite blen_nil; lia|]. destruct (valid_utf8 _); [lia|rewrite blen_nil; lia].
Qed.
Lemma split_at_len h A s m p : split_at h A s m = Ok p -> slen (fst p) <= slen s /\ slen (snd p) <= slen s.
Proof.
  unfold split_at. intros H. apply bind_ok in H as (x1 & E1 & H). apply bind_ok in H as (x2 & E2 & H). apply bind_ok in H as (x3 & E3 & H).
  injection H as <-. apply unchecked_len in E3. subst x3. unfold sl_to in E1. destruct (_ <=? _); [|discriminate E1]. injection E1 as <-.
  unfold sl_from in E2. destruct (_ <=? _); [|discriminate E2]. injection E2 as <-. unfold slen. cbn [fst snd s_data]. rewrite blen_take, blen_drop. lia.
Qed.
Lemma split_len h s p : variant_split h s = Ok p -> slen (fst p) <= slen s + 2 /\ slen (snd p) <= slen s.
Proof.
  unfold variant_split. destruct (memrchr0 _).
  - intros H. apply bind_ok in H as (q & Eq & H). apply bind_ok in H as (r & Er & H). injection H as <-. apply split_at_len in Eq as [Eq1 Eq2].
    cbn [fst snd]. split; [|exact Eq1]. unfold sl_from in Er. destruct (_ <=? _); [|discriminate Er]. injection Er as <-. unfold slen in *. cbn [s_data]. rewrite blen_drop. lia.
  - intros H. apply bind_ok in H as (q & Eq & H). injection H as <-. apply empty_len in Eq. cbn [fst snd]. rewrite Eq. change (slen (Slice (h_str8 h) ["("; ")"]%byte)) with 2. lia.
Qed.
Lemma into_iter_len h x s it : nfwa_into_iter h x s = Ok it -> slen (it_data it) <= slen s.
Proof.
  unfold nfwa_into_iter. intros E. apply bind_ok in E as (p & _ & E). apply bind_ok in E as (q & Es & E). injection E as <-. now apply split_at_len in Es.
Qed.
Lemma w_eq_go h x f A B E : (forall a b, slen a <= A -> slen b <= B -> takes (f a b) E) ->
  forall n ia ib, slen (it_data ia) <= A -> slen (it_data ib) <= B -> takes (nfwa_eq_go_t h x f n ia ib) (N.of_nat n * (56 + E)).
Proof.
  intros Hf. induction n as [|n IH]; intros ia ib Ha Hb; cbn [nfwa_eq_go_t]; [apply w_costs|].
  eapply w_le; [eapply w_bind_ok; [apply w_next|]; intros [[a|] ia'] Ea; rewrite er_next in Ea; cbn [fst snd];
    [instantiate (1 := 28 + (E + N.of_nat n * (56 + E)))|eapply w_le; [apply w_now|lia]]|lia].
  apply next_len in Ea as [Ea1 Ea2]. eapply w_bind_ok; [apply w_next|]. intros [[b|] ib'] Eb; rewrite er_next in Eb; cbn [fst snd]; [|eapply w_le; [apply w_now|lia]].
  apply next_len in Eb as [Eb1 Eb2]. apply w_bind; [apply Hf; lia|]. intros [|]; [|eapply w_le; [apply w_now|lia]]. apply IH; rewrite ?Ea2, ?Eb2; assumption.
Qed.
Lemma w_nfwa_eq h x f a b E : (forall a' b', slen a' <= slen a -> slen b' <= slen b -> takes (f a' b') E) ->
  takes (nfwa_eq_t h x f a b) (73 + (slen a + 1) * (56 + E)).
Proof.
  intros Hf. unfold nfwa_eq_t. eapply w_le; [eapply w_bind; [apply w_len|]; intros la; eapply w_bind; [apply w_len|]; intros lb; apply w_ok;
    apply w_if; [|apply w_now]; eapply w_bind_ok; [apply w_into_iter|]; intros ia Ea; rewrite er_into_iter in Ea; apply into_iter_len in Ea;
    eapply w_bind_ok; [apply w_into_iter|]; intros ib Eb; rewrite er_into_iter in Eb; apply into_iter_len in Eb; now apply (w_eq_go h x f (slen a) (slen b) E)|].
  unfold slen, blen. lia.
Qed.
Lemma w_eq_all f E : (forall a b, takes (f a b) E) -> forall xs ys, takes (eq_all_t f xs ys) (blen xs * E).
Proof.
  intros Hf. induction xs as [|x xs IH]; intros [|y ys]; cbn [eq_all_t]; try (eapply w_le; [apply w_now|lia]).
  rewrite blen_cons. eapply w_le; [apply w_bind; [apply Hf|]; intros [|]; [apply IH|eapply w_le; [apply w_now|lia]]|lia].
Qed.
Lemma w_eq_struct h t a b ca cb (f : ty -> N) : is_struct t -> takes (to_tuple_t h t a) ca -> takes (to_tuple_t h t b) cb ->
  (forall ra rb, to_tuple h t a = Ok ra -> to_tuple h t b = Ok rb ->
     Forall (fun p => takes (gv_eq_t h (fst p) (fst (snd p)) (snd (snd p))) (f (fst p))) (combine (children_of t) (combine ra rb))) ->
  takes (gv_eq_t h t a b) (ca + cb + fold_right (fun t n => f t + n) 0 (children_of t)).
Proof.
  intros Hs Ha Hb Hf. rewrite <- N.add_assoc. destruct t as [| | | | | | | | | | | | |x|x|ts|k v]; cbn [is_struct] in Hs; try tauto; cbn [gv_eq_t].
  - apply w_bind_ok; [exact Ha|]. intros ra Ea. rewrite er_tuple in Ea. apply w_bind_ok; [exact Hb|]. intros rb Eb. rewrite er_tuple in Eb.
    specialize (Hf ra rb Ea Eb). cbn [children_of] in *. clear Ea Eb Ha Hb Hs. revert ra rb Hf.
    induction ts as [|t ts IH]; intros ra rb Hf; cbn [fold_right]; [apply w_now|].
    destruct ra as [|x ra]; [eapply w_le; [apply w_now|lia]|]. destruct rb as [|y rb]; [eapply w_le; [apply w_now|lia]|].
    cbn [combine] in Hf. inversion Hf as [|? ? H1 H2]; subst. cbn [fst snd] in H1.
    apply w_bind; [exact H1|]. intros [|]; [apply IH; exact H2|eapply w_le; [apply w_now|lia]].
  - apply w_bind_ok; [exact Ha|]. intros ra Ea. rewrite er_tuple in Ea. apply w_bind_ok; [exact Hb|]. intros rb Eb. rewrite er_tuple in Eb.
    specialize (Hf ra rb Ea Eb). cbn [children_of fold_right] in *. clear Ea Eb.
    destruct ra as [|ka [|va [|]]]; try (eapply w_le; [apply w_now|lia]); destruct rb as [|kb [|vb [|]]]; try (eapply w_le; [apply w_now|lia]).
    cbn [combine] in Hf. inversion Hf as [|? ? H1 H2]; subst. inversion H2 as [|? ? H3 _]; subst. cbn [fst snd] in *.
    eapply w_le; [apply w_bind; [exact H1|]; intros [|]; [exact H3|eapply w_le; [apply w_now|lia]]|lia].
Qed.
Lemma w_eq_fixed h t : forall n a b, size_of t = Some n -> takes (gv_eq_t h t a b) (6 * type_len t - 3).
Proof.
  induction t as [t Hns IH|t Hs IH] using ty_struct_ind; intros n a b En; pose proof (type_len_pos t) as Hp.
  - destruct t; cbn [is_struct] in Hns; try tauto; try discriminate En; cbn [gv_eq_t]; (eapply w_le; [apply w_costs|lia]).
  - pose proof (fixed_children t n Hs En) as HF. rewrite Forall_forall in HF, IH.
    eapply w_le; [eapply (w_eq_struct h t a b _ _ (fun c => 6 * type_len c - 3) Hs (w_tuple_fixed h t n a En) (w_tuple_fixed h t n b En))|].
    + intros ra rb _ _. apply Forall_forall. intros p Hin. apply in_combine_fst in Hin. specialize (HF _ Hin). unfold is_fixed in HF.
      destruct (size_of (fst p)) as [m|] eqn:Em; [|discriminate HF]. now apply (IH _ Hin m).
    + pose proof (children_len t Hs) as HL.
      pose proof (sum_plus (fun c => 6 * type_len c - 3) 3 (children_of t)) as HS. pose proof (sum_types 6 (children_of t)) as HT.
      assert (HE : fold_right (fun t n => (6 * type_len t - 3 + 3) + n) 0 (children_of t) <= fold_right (fun t n => 6 * type_len t + n) 0 (children_of t)).
      { apply (sum_le (fun t => 6 * type_len t - 3 + 3) (fun t => 6 * type_len t)). apply Forall_forall. intros c _. pose proof (type_len_pos c). lia. }
      cbv beta in HS. lia.
Qed.
Definition eq_total (t : ty) (n : N) : N := 185 * type_len t * (n + 1) ^ (1 + sp_nest t).
Lemma w_eq h t : forall a b, takes (gv_eq_t h t a b) (eq_total t (slen a + slen b) - 112).
Proof.
  induction t as [t Hns IH|t Hs IH] using ty_struct_ind; intros a b; pose proof (type_len_pos t) as Hp; unfold eq_total;
    set (m := slen a + slen b);
    (destruct (size_of t) as [n|] eqn:En;
      [eapply w_le; [now apply (w_eq_fixed h t n)|]; pose proof (pow_ge1 m (1 + sp_nest t)); nia|]).
  - destruct t as [| | | | | | | | | | | | |x|x|ts|k v]; try discriminate En; cbn [is_struct] in Hns; try tauto; cbn [gv_eq_t].
    1,2,3: eapply w_le; [apply w_str_eq|]; fold (slen a) (slen b); cbn [sp_nest]; rewrite pow_step, N.pow_0_r; unfold m; nia.
    + eapply w_le; [apply w_bind_ok; [apply w_split|]; intros p Ep; rewrite er_split in Ep; apply split_len in Ep as [Ep1 Ep2];
        apply w_bind; [apply w_split|]; intros q; apply w_bind; [eapply w_le; [apply w_compare|]; fold (slen (fst p)); instantiate (1 := 3 + slen a); lia|];
        intros e; apply w_if; [eapply w_le; [apply w_compare|]; fold (slen (snd p)); instantiate (1 := 1 + slen a); lia|apply w_now]|].
      cbn [sp_nest]. rewrite pow_step, N.pow_0_r. unfold m. nia.
    + specialize (IH x (or_introl eq_refl)). rewrite (type_len_parts (TA x) x) by auto. cbn [sp_nest]. rewrite sp_size_of.
      pose proof (type_len_pos x) as Hpx. destruct (size_of x) as [k|] eqn:Ex.
      * destruct (mem_layout x) as [[z al]|]; [|eapply w_le; [apply w_costs|lia]].
        pose proof (div_le (slen a) z) as Hdiv. eapply w_le; [apply w_ok; apply w_if; [apply (w_eq_all _ (6 * type_len x - 3)); intros; now apply (w_eq_fixed h x k)|apply w_now]|].
        unfold slice_elems. unfold blen. rewrite map_length, seq_length, N2Nat.id. rewrite pow_step, N.pow_0_r. unfold m. nia.
      * eapply w_le; [apply (w_nfwa_eq h x _ a b (eq_total x m - 112))|].
        -- intros a' b' Ha Hb. eapply w_le; [apply IH|]. unfold eq_total.
           assert (Hab : slen a' + slen b' <= m) by (unfold m; lia).
           pose proof (pow_mono _ _ (1 + sp_nest x) (1 + sp_nest x) Hab (N.le_refl _)) as HP. apply N.sub_le_mono_r, N.mul_le_mono_l. exact HP.
        -- unfold eq_total. rewrite (pow_step m (1 + sp_nest x)). pose proof (pow_ge1 m (1 + sp_nest x)) as HQ.
           remember ((m + 1) ^ (1 + sp_nest x)) as Q. clear HeqQ. set (T := 185 * type_len x * Q). assert (HT : 185 <= T) by (unfold T; nia).
           assert (H1 : slen a <= m) by (unfold m; lia). apply N.le_trans with (73 + (m + 1) * (T - 56)); [nia|].
           replace (185 * (1 + type_len x) * ((m + 1) * Q)) with ((m + 1) * T + 185 * (m + 1) * Q) by (unfold T; ring).
           assert ((m + 1) * (T - 56) + 56 * (m + 1) = (m + 1) * T) by nia.
           assert (185 * (m + 1) <= 185 * (m + 1) * Q) by nia. lia.
    + specialize (IH x (or_intror eq_refl)). rewrite (type_len_parts (TM x) x) by auto. cbn [sp_nest].
      pose proof (type_len_pos x) as Hpx. pose proof (pow_ge1 m (1 + sp_nest x)) as HQ.
      eapply w_le; [apply w_bind_ok; [apply w_option|]; intros oa Ea; rewrite er_option in Ea; apply w_bind_ok; [apply w_option|]; intros ob Eb; rewrite er_option in Eb;
        instantiate (1 := eq_total x m - 112)|].
      * destruct oa as [ra|]; (destruct ob as [rb|]; try (eapply w_le; [apply w_now|lia])). apply option_len in Ea. apply option_len in Eb.
        eapply w_le; [apply IH|]. unfold eq_total. assert (Hab : slen ra + slen rb <= m) by (unfold m; lia).
        pose proof (pow_mono _ _ (1 + sp_nest x) (1 + sp_nest x) Hab (N.le_refl _)) as HP. apply N.sub_le_mono_r, N.mul_le_mono_l. exact HP.
      * unfold eq_total. nia.
  - pose proof (children_len t Hs) as HL. pose proof (pow_ge1 m (1 + sp_nest t)) as HQ. set (Q := (m + 1) ^ (1 + sp_nest t)) in *.
    eapply w_le; [eapply (w_eq_struct h t a b _ _ (fun c => 185 * Q * type_len c - 112) Hs (w_tuple h t a) (w_tuple h t b))|].
    + intros ra rb Ea Eb. unfold to_tuple in Ea, Eb. rewrite En in Ea, Eb. apply nonfixed_len in Ea. apply nonfixed_len in Eb. rewrite Forall_forall in *. intros [c [x y]] Hin.
      cbn [fst snd]. pose proof (in_combine_fst _ _ _ Hin) as Hc. cbn [fst] in Hc.
      assert (Hx : In (c, x) (combine (children_of t) ra) /\ In (c, y) (combine (children_of t) rb)).
      { clear -Hin. revert ra rb Hin. induction (children_of t) as [|c0 ts IH]; intros ra rb Hin; [destruct Hin|]. destruct ra as [|r ra]; [destruct Hin|].
        destruct rb as [|r' rb]; [destruct Hin|]. cbn [combine] in *. destruct Hin as [Hin|Hin].
        - injection Hin as -> -> ->. split; now left.
        - apply IH in Hin as [H1 H2]. split; now right. }
      destruct Hx as [Hx Hy]. specialize (Ea _ Hx). specialize (Eb _ Hy). cbn [fst snd] in Ea, Eb.
      pose proof (nest_child t _ Hs Hc) as Hn. pose proof (type_len_pos c) as Hpc.
      destruct (size_of c) as [k|] eqn:Ek.
      * eapply w_le; [now apply (w_eq_fixed h _ k)|]. nia.
      * specialize (Ea eq_refl). specialize (Eb eq_refl). eapply w_le; [now apply IH|]. unfold eq_total.
        assert (Hab : slen x + slen y <= m) by (unfold m; lia).
        pose proof (pow_mono _ _ (1 + sp_nest c) (1 + sp_nest t) Hab) as HP. specialize (HP ltac:(lia)). fold Q in HP.
        apply N.sub_le_mono_r. nia.
    + pose proof (sum_plus (fun c => 185 * Q * type_len c - 112) 112 (children_of t)) as HS. pose proof (sum_types (185 * Q) (children_of t)) as HT.
      assert (HE : fold_right (fun t n => (185 * Q * type_len t - 112 + 112) + n) 0 (children_of t) <= fold_right (fun t n => 185 * Q * type_len t + n) 0 (children_of t)).
      { apply (sum_le (fun t => 185 * Q * type_len t - 112 + 112) (fun t => 185 * Q * type_len t)). apply Forall_forall. intros c _. pose proof (type_len_pos c). nia. }
      cbv beta in HS. nia.
Qed.
