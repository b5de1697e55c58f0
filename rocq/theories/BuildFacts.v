(** Builds with checks and builds without: proofs of C132. *)
From Verif Require Import Base Types Layout AlignedBytes Strs Spec Deser Ser Buf Cmp Fmt CoreFmt Flags Histories BuildSpec BaseFacts LayoutFacts SerSpec SerFacts SerMain.

Lemma ov_refl {A} both (r : res A) : or_check both r r.
Proof. now left. Qed.
Lemma ov_crash {A} both (r : res A) c : check_fails both c -> or_check both (Crash c) r.
Proof. intros H. right. now exists c. Qed.
Lemma ov_bind {A B} both (r r' : res A) (f f' : A -> res B) : or_check both r r' -> (forall a, or_check both (f a) (f' a)) ->
  or_check both (bind r f) (bind r' f').
Proof.
  intros [->|(c & -> & Hc)] H.
  - destruct r' as [a|c]; cbn [bind]; [apply H|apply ov_refl].
  - now apply ov_crash.
Qed.
Lemma ov_mapM {A B} both (f f' : A -> res B) l : (forall a, or_check both (f a) (f' a)) -> or_check both (mapM f l) (mapM f' l).
Proof.
  intros H. induction l as [|a l IH]; [apply ov_refl|]. cbn [mapM].
  apply ov_bind; [apply H|]. intros b. apply ov_bind; [exact IH|]. intros. apply ov_refl.
Qed.

Create HintDb ov.
#[export] Hint Resolve ov_refl : ov.
Ltac ov_step :=
  match goal with
  | |- or_check _ ?x ?y => constr_eq x y; apply ov_refl
  | |- or_check _ (bind _ _) (bind _ _) => apply ov_bind; [|intros ?]
  | |- or_check _ (match ?x with _ => _ end) (match ?y with _ => _ end) => constr_eq x y; destruct x
  | |- or_check _ (if ?x then _ else _) (if ?y then _ else _) => constr_eq x y; destruct x
  | |- or_check _ _ _ => solve [auto with ov]
  | |- or_check _ (let x := ?v in _) _ => cbv zeta
  end.
Ltac ov := repeat ov_step.

Section Build.
  Context (both : bool) (h : host).
  Notation r := (unguarded both h).

  Lemma ov_uadd a b : or_check both (uadd h a b) (uadd r a b).
  Proof. unfold uadd. destruct (_ <? _); [apply ov_refl|]. cbn [unguarded h_overflow_checks]. destruct (h_overflow_checks h); [apply ov_crash; now left|apply ov_refl]. Qed.
  Lemma ov_usub a b : or_check both (usub h a b) (usub r a b).
  Proof. unfold usub. destruct (_ <=? _); [apply ov_refl|]. cbn [unguarded h_overflow_checks]. destruct (h_overflow_checks h); [apply ov_crash; now left|apply ov_refl]. Qed.
  Lemma ov_umul a b : or_check both (umul h a b) (umul r a b).
  Proof. unfold umul. destruct (_ <? _); [apply ov_refl|]. cbn [unguarded h_overflow_checks]. destruct (h_overflow_checks h); [apply ov_crash; now left|apply ov_refl]. Qed.
  Hint Resolve ov_uadd ov_usub ov_umul : ov.

  Lemma ov_align_offset A x : or_check both (align_offset h A x) (align_offset r A x).
  Proof. unfold align_offset. ov. Qed.
  Lemma ov_unchecked A s : or_check both (unchecked h A s) (unchecked r A s).
  Proof. unfold unchecked. cbn [unguarded h_debug]. destruct (h_debug h) eqn:Hd; [|destruct both; apply ov_refl].
    destruct both eqn:Hb; [|apply ov_refl]. cbn [andb]. destruct (negb _); [apply ov_crash; right; auto|apply ov_refl]. Qed.
  Hint Resolve ov_align_offset ov_unchecked : ov.
  Lemma ov_split_at A s m : or_check both (split_at h A s m) (split_at r A s m).
  Proof. unfold split_at. ov. Qed.
  Lemma ov_ix_to A s e : or_check both (ix_to h A s e) (ix_to r A s e).
  Proof. unfold ix_to. ov. Qed.
  Lemma ov_ix_from_al A s e : or_check both (ix_from_al h A s e) (ix_from_al r A s e).
  Proof. unfold ix_from_al. ov. Qed.
  Lemma ov_align_bytes A s : or_check both (align_bytes h A s) (align_bytes r A s).
  Proof. unfold align_bytes. ov. Qed.
  Hint Resolve ov_split_at ov_ix_to ov_ix_from_al ov_align_bytes : ov.
  Lemma ov_empty_aligned A : or_check both (empty_aligned h A) (empty_aligned r A).
  Proof. unfold empty_aligned. change (str8 r) with (str8 h). ov. Qed.
  Hint Resolve ov_empty_aligned : ov.
  Lemma ov_op A s o : or_check both (run_op h A s o) (run_op r A s o).
  Proof. destruct o; cbn [run_op]; unfold ix_to_incl, ix_range, ix_range_incl, ix_from, ix_full, ix_range_al, ix_range_incl_al; ov. Qed.

  Lemma ov_try_cast lay s : or_check both (try_cast_slice_to h lay s) (try_cast_slice_to r lay s).
  Proof.
    unfold try_cast_slice_to. destruct lay. destruct (_ =? _); [|apply ov_refl]. cbn [unguarded h_debug]. destruct (h_debug h) eqn:Hd; [|destruct both; apply ov_refl].
    destruct both eqn:Hb; [|apply ov_refl].
    cbn [andb]. destruct (negb _); [apply ov_crash; right; auto|apply ov_refl].
  Qed.
  Lemma ov_cast_slice A lay s : or_check both (cast_slice h A lay s) (cast_slice r A lay s).
  Proof.
    unfold cast_slice. destruct lay. destruct (_ <? _); [apply ov_refl|]. cbn [unguarded h_debug]. destruct (h_debug h) eqn:Hd; [|destruct both; apply ov_refl].
    destruct both eqn:Hb; [|apply ov_refl].
    cbn [andb]. destruct (negb _); [apply ov_crash; right; auto|apply ov_refl].
  Qed.
  Hint Resolve ov_try_cast ov_cast_slice : ov.
  Lemma ov_try_from t s : or_check both (try_from_aligned_slice h t s) (try_from_aligned_slice r t s).
  Proof. unfold try_from_aligned_slice. destruct t; ov. Qed.
  Hint Resolve ov_try_from : ov.
  Lemma ov_default t : or_check both (default_ref h t) (default_ref r t).
  Proof. unfold default_ref. cbn [unguarded h_statics h_str8]. destruct t; ov. Qed.
  Hint Resolve ov_default : ov.
  Lemma ov_from t s : or_check both (from_aligned_slice h t s) (from_aligned_slice r t s).
  Proof. unfold from_aligned_slice. ov. Qed.
  Lemma ov_from_mut t s : or_check both (try_from_aligned_slice_mut h t s) (try_from_aligned_slice_mut r t s).
  Proof. unfold try_from_aligned_slice_mut. destruct t; ov. Qed.
  Lemma ov_unwrap t s : or_check both (cast_unwrap h t s) (cast_unwrap r t s).
  Proof. unfold cast_unwrap. ov. Qed.
  Hint Resolve ov_from ov_unwrap : ov.
  Lemma ov_cast t s : or_check both (cast h t s) (cast r t s).
  Proof. unfold cast. ov. Qed.
  Lemma ov_read_uint d z n : or_check both (read_uint h d z n) (read_uint r d z n).
  Proof. unfold read_uint. ov. Qed.
  Hint Resolve ov_cast ov_read_uint : ov.
  Lemma ov_last d : or_check both (read_last_frame_offset h d) (read_last_frame_offset r d).
  Proof. unfold read_last_frame_offset. ov. Qed.
  Hint Resolve ov_last : ov.
  Lemma ov_len s : or_check both (nfwa_len h s) (nfwa_len r s).
  Proof. unfold nfwa_len. ov. Qed.
  Hint Resolve ov_len : ov.
  Lemma ov_is_empty s : or_check both (nfwa_is_empty h s) (nfwa_is_empty r s).
  Proof. unfold nfwa_is_empty. ov. Qed.
  Lemma ov_into_iter x s : or_check both (nfwa_into_iter h x s) (nfwa_into_iter r x s).
  Proof. unfold nfwa_into_iter. ov. Qed.
  Lemma ov_next x it : or_check both (nfwa_next h x it) (nfwa_next r x it).
  Proof. unfold nfwa_next. ov. Qed.
  Lemma ov_hint it : or_check both (nfwa_size_hint h it) (nfwa_size_hint r it).
  Proof. unfold nfwa_size_hint. ov. Qed.
  Hint Resolve ov_is_empty ov_into_iter ov_next : ov.
  Lemma ov_collect x : forall f it, or_check both (nfwa_collect h x f it) (nfwa_collect r x f it).
  Proof. induction f as [|f IH]; intros it; cbn [nfwa_collect]; ov. Qed.
  Hint Resolve ov_collect : ov.
  Lemma ov_items x s : or_check both (nfwa_items h x s) (nfwa_items r x s).
  Proof. unfold nfwa_items. ov. Qed.
  Lemma ov_index x s i : or_check both (nfwa_index h x s i) (nfwa_index r x s i).
  Proof. unfold nfwa_index. ov. Qed.
  Hint Resolve ov_items ov_index : ov.
  Lemma ov_first x s : or_check both (nfwa_first h x s) (nfwa_first r x s).
  Proof. unfold nfwa_first. ov. Qed.
  Lemma ov_last_item x s : or_check both (nfwa_last h x s) (nfwa_last r x s).
  Proof. unfold nfwa_last. ov. Qed.
  Lemma ov_refs x s : or_check both (array_refs h x s) (array_refs r x s).
  Proof. unfold array_refs. ov. Qed.
  Lemma ov_option x s : or_check both (to_option h x s) (to_option r x s).
  Proof. unfold to_option. ov. Qed.
  Lemma ov_split s : or_check both (variant_split h s) (variant_split r s).
  Proof. unfold variant_split. cbn [unguarded h_str8]. ov. Qed.
  Hint Resolve ov_first ov_last_item ov_refs ov_option ov_split : ov.
  Lemma ov_get t s : or_check both (variant_get h t s) (variant_get r t s).
  Proof. unfold variant_get. ov. Qed.
  Lemma ov_nth_last d z n : or_check both (nth_last_frame_offset h d z n) (nth_last_frame_offset r d z n).
  Proof. unfold nth_last_frame_offset. ov. Qed.
  Hint Resolve ov_get ov_nth_last : ov.
  Lemma ov_calc_start ca b fo a c : or_check both (calc_start h ca b fo a c) (calc_start r ca b fo a c).
  Proof. unfold calc_start, ao_add. ov. Qed.
  Hint Resolve ov_calc_start : ov.
  Lemma ov_calc_offsets ca b d i a c z l n : or_check both (calc_offsets h ca b d i a c z l n) (calc_offsets r ca b d i a c z l n).
  Proof. unfold calc_offsets. ov. Qed.
  Hint Resolve ov_calc_offsets : ov.
  Lemma ov_child t b d i a c z l n : or_check both (get_child_elem h t b d i a c z l n) (get_child_elem r t b d i a c z l n).
  Proof. unfold get_child_elem. ov. Qed.
  Hint Resolve ov_child : ov.
  Lemma ov_nonfixed al nfo s : forall cs rows, or_check both (nonfixed_refs h al nfo s cs rows) (nonfixed_refs r al nfo s cs rows).
  Proof. induction cs as [|c cs IH]; intros rows; cbn [nonfixed_refs]; ov. Qed.
  Hint Resolve ov_nonfixed : ov.
  Lemma ov_to_tuple t s : or_check both (to_tuple h t s) (to_tuple r t s).
  Proof. unfold to_tuple. ov. Qed.
  Hint Resolve ov_to_tuple : ov.

  (** Everything below a reference. *)
  Lemma ov_list {B} (f f' : ty -> slice -> res B) ts : Forall (fun t => forall s, or_check both (f t s) (f' t s)) ts -> forall rs,
    let go f := (fix go (ts : list ty) (rs : list slice) : res (list B) :=
                   match ts, rs with
                   | t :: ts', r :: rs' => let* v := f t r in let* vs := go ts' rs' in Ok (v :: vs)
                   | _, _ => Ok []
                   end) in
    or_check both (go f ts rs) (go f' ts rs).
  Proof.
    induction 1 as [|t ts Ht _ IH]; intros rs; [apply ov_refl|]. destruct rs as [|q rs]; [apply ov_refl|]. cbv zeta in *.
    apply ov_bind; [apply Ht|]. intros v. apply ov_bind; [apply IH|]. intros. apply ov_refl.
  Qed.
  Lemma ov_read t : forall s, or_check both (read h t s) (read r t s).
  Proof.
    induction t as [t Hns IH|t Hs IH] using ty_struct_ind; intros s.
    - destruct t as [| | | | | | | | | | | | |x|x|ts|k v]; cbn [is_struct] in Hns; try tauto; try apply ov_refl; cbn [read]; ov.
      + apply ov_mapM. auto.
    - destruct t as [| | | | | | | | | | | | |x|x|ts|k v]; cbn [is_struct] in Hs; try tauto; cbn [read].
      + apply ov_bind; [ov|]. intros rs. apply ov_bind; [|intros; ov]. exact (ov_list (read h) (read r) ts IH rs).
      + inversion IH as [|? ? Ha IHb]; inversion IHb as [|? ? Hb _]; subst. ov.
  Qed.
  Lemma ov_view t : forall s, or_check both (view_rval h t s) (view_rval r t s).
  Proof.
    induction t as [t Hns IH|t Hs IH] using ty_struct_ind; intros s.
    - destruct t as [| | | | | | | | | | | | |x|x|ts|k v]; cbn [is_struct] in Hns; try tauto; try apply ov_refl; cbn [view_rval]; ov.
      + apply ov_mapM. auto.
    - destruct t as [| | | | | | | | | | | | |x|x|ts|k v]; cbn [is_struct] in Hs; try tauto; cbn [view_rval].
      + apply ov_bind; [ov|]. intros rs. apply ov_bind; [|intros; ov]. exact (ov_list (view_rval h) (view_rval r) ts IH rs).
      + inversion IH as [|? ? Ha IHb]; inversion IHb as [|? ? Hb _]; subst. ov.
  Qed.
  Lemma ov_fmt_go x fx fx' : (forall s, or_check both (fx s) (fx' s)) -> forall f it,
    or_check both (nfwa_fmt_go h x fx f it) (nfwa_fmt_go r x fx' f it).
  Proof. intros H. induction f as [|f IH]; intros it; cbn [nfwa_fmt_go]; ov. Qed.
  Lemma ov_decode t s : or_check both (decode h t s) (decode r t s).
  Proof. unfold decode. ov. apply ov_read. Qed.
  Lemma ov_nth x : forall k it, or_check both (nfwa_nth h x it k) (nfwa_nth r x it k).
  Proof. induction k as [|k IH]; intros it; cbn [nfwa_nth]; ov. Qed.
  Hint Resolve ov_nth : ov.
  Lemma ov_access t s a : or_check both (run_access h t s a) (run_access r t s a).
  Proof. unfold run_access. destruct t, a; ov. Qed.

  (** Comparisons. *)
  Lemma ov_eq_go x e e' : (forall a b, or_check both (e a b) (e' a b)) -> forall f ia ib,
    or_check both (nfwa_eq_go h x e f ia ib) (nfwa_eq_go r x e' f ia ib).
  Proof. intros H. induction f as [|f IH]; intros ia ib; cbn [nfwa_eq_go]; ov. Qed.
  Lemma ov_eq_all e e' : (forall a b, or_check both (e a b) (e' a b)) -> forall xs ys, or_check both (eq_all e xs ys) (eq_all e' xs ys).
  Proof. intros H. induction xs as [|x xs IH]; intros [|y ys]; cbn [eq_all]; ov. Qed.
  Lemma ov_eq_list ts : Forall (fun t => forall a b, or_check both (gv_eq h t a b) (gv_eq r t a b)) ts -> forall xs ys,
    let go h := (fix go (ts : list ty) (xs ys : list slice) : res bool :=
                   match ts, xs, ys with
                   | t :: ts', x :: xs', y :: ys' =>
                       let* e := gv_eq h t x y in
                       if e then go ts' xs' ys' else Ok false
                   | _, _, _ => Ok true
                   end) in
    or_check both (go h ts xs ys) (go r ts xs ys).
  Proof.
    induction 1 as [|t ts Ht _ IH]; intros [|x xs] [|y ys]; try apply ov_refl. cbv zeta in *.
    apply ov_bind; [apply Ht|]. intros [|]; [apply IH|apply ov_refl].
  Qed.
  Lemma ov_eq t : forall a b, or_check both (gv_eq h t a b) (gv_eq r t a b).
  Proof.
    induction t as [t Hns IH|t Hs IH] using ty_struct_ind; intros a b.
    - destruct t as [| | | | | | | | | | | | |x|x|ts|k v]; cbn [is_struct] in Hns; try tauto; try apply ov_refl; cbn [gv_eq]; ov.
      + apply ov_eq_all. apply IH. now left.
      + unfold nfwa_eq. ov. apply ov_eq_go. apply IH. now left.
    - destruct t as [| | | | | | | | | | | | |x|x|ts|k v]; cbn [is_struct] in Hs; try tauto; cbn [gv_eq].
      + apply ov_bind; [ov|]. intros xs. apply ov_bind; [ov|]. intros ys. exact (ov_eq_list ts IH xs ys).
      + inversion IH as [|? ? Ha IHb]; inversion IHb as [|? ? Hb _]; subst. ov.
  Qed.

  Hint Resolve ov_eq ov_read ov_view : ov.
  Lemma ov_eq_seq x eqs eqs' : Forall2 (fun e e' => forall s, or_check both (e s) (e' s)) eqs eqs' -> forall it,
    or_check both (nfwa_eq_seq h x eqs it) (nfwa_eq_seq r x eqs' it).
  Proof.
    induction 1 as [|e e' eqs eqs' He _ IH]; intros it; cbn [nfwa_eq_seq]; ov.
  Qed.
  Lemma ov_slice_eq eqs eqs' : Forall2 (fun e e' => forall s, or_check both (e s) (e' s)) eqs eqs' -> forall rs,
    or_check both (slice_eq_seq eqs rs) (slice_eq_seq eqs' rs).
  Proof. induction 1 as [|e e' eqs eqs' He _ IH]; intros [|q rs]; cbn [slice_eq_seq]; ov. Qed.
  Lemma native_nest (P : native -> Prop) :
    (forall s, P (NView s)) -> (forall b, P (NBool b)) -> (forall d, P (NStr d)) ->
    (forall l, Forall P l -> P (NSeq l)) -> (forall o, P (NOption o)) -> forall n, P n.
  Proof.
    intros H1 H2 H3 H4 H5. fix IH 1. intros [s|b|d|l|o]; [apply H1|apply H2|apply H3| |apply H5].
    apply H4. induction l as [|n l IHl]; constructor; [apply IH|exact IHl].
  Qed.
  Lemma ov_native n : forall t s, or_check both (eq_native h t s n) (eq_native r t s n).
  Proof.
    induction n as [q|b|d|l IH|o] using native_nest; intros t s; cbn [eq_native]; [ov|destruct t; ov|destruct t; ov| |destruct t; ov].
    destruct t; try apply ov_refl.
    assert (H : Forall2 (fun e e' => forall s, or_check both (e s) (e' s)) (map (fun m q => eq_native h t q m) l) (map (fun m q => eq_native r t q m) l)).
    { clear s. induction IH as [|n l Hn _ IHl]; cbn [map]; constructor; auto. }
    ov; [now apply ov_slice_eq|now apply ov_eq_seq].
  Qed.
  Lemma ov_cmp x a b : or_check both (maybe_cmp h x a b) (maybe_cmp r x a b).
  Proof. unfold maybe_cmp. ov. Qed.
  Lemma ov_hash x a : or_check both (maybe_hash h x a) (maybe_hash r x a).
  Proof. unfold maybe_hash. destruct x; ov. Qed.

  (** Printing. *)
  Lemma ov_debug F t : forall s, or_check both (fmt_debug h F t s) (fmt_debug r F t s).
  Proof.
    induction t as [t Hns IH|t Hs IH] using ty_struct_ind; intros s.
    - destruct t as [| | | | | | | | | | | | |x|x|ts|k v]; cbn [is_struct] in Hns; try tauto; try apply ov_refl; cbn [fmt_debug]; ov.
      all: first [apply ov_mapM|apply ov_fmt_go]; auto.
    - destruct t as [| | | | | | | | | | | | |x|x|ts|k v]; cbn [is_struct] in Hs; try tauto; cbn [fmt_debug].
      + apply ov_bind; [ov|]. intros rs. apply ov_bind; [|intros; ov]. exact (ov_list (fmt_debug h F) (fmt_debug r F) ts IH rs).
      + inversion IH as [|? ? Ha IHb]; inversion IHb as [|? ? Hb _]; subst. ov.
  Qed.
  Hint Resolve ov_debug : ov.
  Lemma ov_flags F G t : forall s, or_check both (fmt_flags h F G t s) (fmt_flags r F G t s).
  Proof.
    induction t as [t Hns IH|t Hs IH] using ty_struct_ind; intros s.
    - destruct t as [| | | | | | | | | | | | |x|x|ts|k v]; cbn [is_struct] in Hns; try tauto; try apply ov_refl; cbn [fmt_flags]; ov.
      all: first [apply ov_mapM|apply ov_fmt_go]; auto.
    - destruct t as [| | | | | | | | | | | | |x|x|ts|k v]; cbn [is_struct] in Hs; try tauto; cbn [fmt_flags].
      + apply ov_bind; [ov|]. intros rs. apply ov_bind; [|intros; ov]. exact (ov_list (fmt_flags h F G) (fmt_flags r F G) ts IH rs).
      + inversion IH as [|? ? Ha IHb]; inversion IHb as [|? ? Hb _]; subst. ov.
  Qed.

  (** Buffers. *)
  Lemma ov_offset_to_align v : or_check both (offset_to_align h v) (offset_to_align r v).
  Proof.
    unfold offset_to_align. destruct (_ =? 0); [apply ov_refl|]. cbn [unguarded h_debug]. cbv zeta.
    destruct (h_debug h) eqn:Hd; [|destruct both; apply ov_refl]. destruct both eqn:Hb.
    - destruct (ov_uadd (v_addr v) (uand (wrapping_neg (v_addr v)) 7)) as [E|(c & E & Hc)]; rewrite E; [|apply ov_crash; now rewrite <- Hb].
      unfold uadd. cbn [unguarded h_overflow_checks]. destruct (_ <? _); cbn [bind]; (destruct (_ =? 0); [apply ov_refl|apply ov_crash; right; auto]).
    - rewrite <- Hb. ov.
  Qed.
  Hint Resolve ov_offset_to_align : ov.
  Lemma ov_vec_align v a : or_check both (vec_align h v a) (vec_align r v a).
  Proof. unfold vec_align, align_cold. ov. Qed.
  Lemma ov_vec_unalign v : or_check both (vec_unalign h v) (vec_unalign r v).
  Proof. unfold vec_unalign. ov. Qed.
  Lemma ov_deref v : or_check both (buf_deref h v) (buf_deref r v).
  Proof. unfold buf_deref. ov. Qed.
  Hint Resolve ov_vec_align ov_vec_unalign ov_deref : ov.
  Lemma ov_buf_op b o : or_check both (run_buf_op h b o) (run_buf_op r b o).
  Proof. destruct o; cbn [run_buf_op]; unfold buf_set, buf_with_vec, buf_into_vec, buf_from_vec; ov. Qed.
  Hint Resolve ov_buf_op : ov.
  Lemma ov_run_buf : forall os b, or_check both (run_buf h b os) (run_buf r b os).
  Proof. induction os as [|o os IH]; intros b; cbn [run_buf]; ov. Qed.
  Lemma ov_to_owned t q a1 a2 : or_check both (to_owned h t q a1 a2) (to_owned r t q a1 a2).
  Proof. unfold to_owned, owned_from_bytes, buf_from_vec. destruct t; ov. Qed.
  Lemma ov_borrow t o : or_check both (owned_borrow h t o) (owned_borrow r t o).
  Proof. unfold owned_borrow, owned_deref. ov. Qed.
  Hint Resolve ov_to_owned ov_borrow : ov.
  Lemma ov_from_bytes t d a1 a2 a3 a4 : or_check both (from_bytes h t d a1 a2 a3 a4) (from_bytes r t d a1 a2 a3 a4).
  Proof. unfold from_bytes, copy_to_align, cow_as_ref, buf_from_vec. ov. Qed.
  Lemma ov_deserialize t v a2 a3 a4 : or_check both (deserialize h t v a2 a3 a4) (deserialize r t v a2 a3 a4).
  Proof. unfold deserialize, buf_from_vec. ov. Qed.

  (** Writing. *)
  Section Writing.
    Context {K : Type} {W : Write K}.
    Definition sov {A} (m m' : M K A) : Prop := forall k, or_check_writing both (m k) (m' k).
    Lemma sov_refl {A} (m : M K A) : sov m m.
    Proof. intros k. now left. Qed.
    Lemma sov_bind {A B} (m m' : M K A) (f f' : A -> M K B) : sov m m' -> (forall a, sov (f a) (f' a)) -> sov (sbind m f) (sbind m' f').
    Proof.
      intros Hm Hf k. unfold sbind. destruct (Hm k) as [->|(k' & c & -> & Hc)].
      - destruct (m' k) as [k' [a|e|c]]; [apply Hf|now left|now left].
      - right. exists k', c. auto.
    Qed.
    Lemma sov_lift {A} (x x' : res A) : or_check both x x' -> sov (lift x) (lift x').
    Proof. intros [->|(c & -> & Hc)] k; [now left|]. right. exists k, c. auto. Qed.
    Hint Resolve sov_refl : ov.
    Ltac sov_step :=
      match goal with
      | |- sov ?x ?y => constr_eq x y; apply sov_refl
      | |- sov (sbind _ _) (sbind _ _) => apply sov_bind; [|intros ?]
      | |- sov (lift _) (lift _) => apply sov_lift; ov
      | |- sov (match ?x with _ => _ end) (match ?y with _ => _ end) => constr_eq x y; destruct x
      | |- sov (if ?x then _ else _) (if ?y then _ else _) => constr_eq x y; destruct x
      | |- sov _ _ => solve [auto with ov]
      | |- sov (let x := ?v in _) _ => cbv zeta
      end.
    Ltac sov := repeat sov_step.
    Lemma sov_padding A o : sov (write_padding h A o) (write_padding r A o).
    Proof. unfold write_padding. sov. Qed.
    Lemma sov_offsets n os : sov (write_offsets h n os) (write_offsets r n os).
    Proof. unfold write_offsets. sov. Qed.
    Hint Resolve sov_padding sov_offsets : ov.
    Lemma sov_seq l l' : Forall2 sov l l' -> forall b, sov (ser_seq h l b) (ser_seq r l' b).
    Proof. induction 1; intros b; cbn [ser_seq]; sov. Qed.
    Lemma sov_nfwa al l l' : Forall2 sov l l' -> forall b o, sov (ser_nfwa h al l b o) (ser_nfwa r al l' b o).
    Proof. induction 1; intros b o; cbn [ser_nfwa]; sov. Qed.
    Lemma sov_nth (cs cs' : list (M K N)) n : Forall2 sov cs cs' ->
      match nth_error cs n, nth_error cs' n with
      | Some m, Some m' => sov m m'
      | None, None => True
      | _, _ => False
      end.
    Proof. intros H. revert n. induction H; intros [|n]; cbn [nth_error]; auto. apply IHForall2. Qed.
    Lemma sov_cmds cs cs' : Forall2 sov cs cs' -> forall cmds off fo, sov (run_cmds h cmds cs off fo) (run_cmds r cmds cs' off fo).
    Proof.
      intros H. induction cmds as [|c cmds IH]; intros off fo; cbn [run_cmds]; [sov|].
      destruct c as [n|n|A|n|n|i]; try (sov; fail).
      all: pose proof (sov_nth cs cs' n H) as Hn; destruct (nth_error cs n), (nth_error cs' n); try contradiction; sov.
    Qed.
    Lemma sov_struct t cs cs' : Forall2 sov cs cs' -> sov (ser_struct h t cs) (ser_struct r t cs').
    Proof.
      intros H. unfold ser_struct. destruct (size_of t).
      - destruct (packed_struct t) as [[pads final]|]; [|sov]. destruct (mem_layout t) as [[size al]|]; [|sov].
        apply sov_bind; [now apply sov_cmds|]. intros ?. sov.
      - apply sov_bind; [now apply sov_cmds|]. intros ?. sov.
    Qed.
    Lemma sov_map {A} (f f' : A -> M K N) l : Forall (fun x => sov (f x) (f' x)) l -> Forall2 sov (map f l) (map f' l).
    Proof. induction 1; cbn [map]; constructor; auto. Qed.
    Lemma sov_ser q : forall t, sov (ser h q t) (ser r q t).
    Proof.
      induction q as [z|bits|b|b|s|d|d|u q IH|rs IH|o IH|rs IH] using rval_nest; intros t;
        destruct t as [| | | | | | | | | | | | |x|x|ts|k v]; cbn [ser]; unfold int_bytes, to_ne; cbn [unguarded h_big_endian]; try solve [sov].
      - assert (H : Forall2 sov (map (fun q => ser h q x) rs) (map (fun q => ser r q x) rs)).
        { apply sov_map. eapply Forall_impl; [|exact IH]. intros q Hq. apply Hq. }
        destruct (is_fixed x); [now apply sov_seq|now apply sov_nfwa].
      - destruct (is_fixed x); [sov|]. destruct rs as [|q rs]; [sov|]. inversion IH; subst. sov.
      - destruct (Nat.eqb _ _); [|sov]. apply sov_struct. cbn [children_of]. revert ts.
        induction IH as [|q rs Hr _ IHr]; intros [|t ts]; constructor; auto.
      - destruct (Nat.eqb _ _); [|sov]. apply sov_struct. cbn [children_of]. generalize [k; v]. clear k v.
        induction IH as [|q rs Hr _ IHr]; intros [|t ts]; constructor; auto.
    Qed.
  End Writing.
End Build.
