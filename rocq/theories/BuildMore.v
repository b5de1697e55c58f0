(** Builds with checks and builds without, continued: assignments, files, the fuzz
    target with GLib. *)
From Verif Require Import Base Types Layout AlignedBytes Strs Spec Deser Ser Buf Cmp Fmt CoreFmt Flags Histories BuildSpec BaseFacts LayoutFacts
  SerSpec SerFacts SerMain BuildFacts Mut Reader Fuzz FuzzGlib.

Section More.
  Context (both : bool) (h : host).
  Notation r := (unguarded both h).
  Hint Resolve ov_uadd ov_usub ov_umul ov_align_offset ov_unchecked ov_split_at ov_ix_to ov_ix_from_al ov_align_bytes ov_empty_aligned
    ov_try_cast ov_cast_slice ov_try_from ov_default ov_from ov_unwrap ov_cast ov_read_uint ov_last ov_len ov_is_empty ov_into_iter ov_next
    ov_collect ov_items ov_index ov_first ov_last_item ov_refs ov_option ov_split ov_get ov_to_tuple ov_nth ov_eq ov_read ov_view
    ov_offset_to_align ov_vec_align ov_vec_unalign ov_deref ov_to_owned ov_borrow ov_from_mut : ov.

  (** ** Assignments *)
  Lemma image_same junk q : forall t, image h junk t q = image r junk t q.
  Proof.
    induction q as [z|bits|b|b|s|d|d|u q IH|rs IH|o IH|rs IH] using rval_nest; intros t;
      destruct t as [| | | | | | | | | | | | |x|x|ts|k v]; try reflexivity; cbn [image].
    - cbn [children_of]. destruct (Nat.eqb _ _); [|reflexivity]. f_equal. revert ts.
      induction IH as [|q rs Hq _ IHr]; intros [|t ts]; try reflexivity. cbn [bind]. now rewrite Hq, IHr.
    - cbn [children_of]. destruct (Nat.eqb _ _); [|reflexivity]. f_equal. generalize [k; v]. clear k v.
      induction IH as [|q rs Hq _ IHr]; intros [|t ts]; try reflexivity. cbn [bind]. now rewrite Hq, IHr.
  Qed.
  Lemma ov_assign junk t s p q : or_check both (assign h junk t s p q) (assign r junk t s p q).
  Proof. unfold assign. rewrite <- ?image_same. ov. rewrite <- image_same. ov. Qed.
  Lemma ov_try_into t s : or_check both (slice_try_into h t s) (slice_try_into r t s).
  Proof. unfold slice_try_into. ov. Qed.

  (** ** Copying, and writing to a vector *)
  Lemma ov_copy A d a1 a2 : or_check both (copy_to_align h A d a1 a2) (copy_to_align r A d a1 a2).
  Proof. unfold copy_to_align, buf_from_vec. ov. Qed.
  Lemma ov_cow A c : or_check both (cow_as_ref h A c) (cow_as_ref r A c).
  Proof. unfold cow_as_ref. ov. Qed.
  Lemma ov_to_vec t q : or_check both (serialize_to_vec h t q) (serialize_to_vec r t q).
  Proof.
    unfold serialize_to_vec, serialize. destruct (sov_ser both h q t (Sink [] None)) as [E|(k & c & -> & Hc)].
    - rewrite E. apply ov_refl.
    - now apply ov_crash.
  Qed.
  Hint Resolve ov_copy ov_cow ov_to_vec : ov.

  (** ** Comparing with GLib *)
  Lemma ov_gl_eq G t : forall v g, or_check both (gl_eq h G t v g) (gl_eq r G t v g).
  Proof.
    induction t; intros v g; cbn [gl_eq]; unfold of_ne; cbn [unguarded h_big_endian]; try solve [ov].
    - match goal with |- context [gl_number ?x] => destruct (gl_number x) end.
      + apply ov_bind; [ov|]. intros rs. apply ov_bind; [apply ov_mapM; intros; ov|]. intros ns. ov.
      + apply ov_bind; [ov|]. intros rs. apply ov_bind; [ov|]. intros n. apply ov_bind; [ov|]. intros _.
        apply ov_bind.
        { generalize 0. induction rs as [|a rs IH]; intros i; [apply ov_refl|]. ov. }
        intros _. destruct (_ =? n); [|apply ov_refl]. generalize 0.
        induction rs as [|a rs IH]; intros i; [apply ov_refl|]. ov.
  Qed.
  Hint Resolve ov_gl_eq : ov.
  Lemma ov_gl_fields G g : forall ts vs i, or_check both (gl_eq_fields h G i ts vs g) (gl_eq_fields r G i ts vs g).
  Proof. induction ts as [|t ts IH]; intros [|v vs] i; cbn [gl_eq_fields]; ov. Qed.
  Hint Resolve ov_gl_fields : ov.
  Lemma ov_test_cmp G va a1 a2 t s : or_check both (test_cmp h G va a1 a2 t s) (test_cmp r G va a1 a2 t s).
  Proof. unfold test_cmp. cbv zeta. ov. Qed.
  Lemma ov_test_struct G va a1 a2 s : or_check both (test_struct h G va a1 a2 s) (test_struct r G va a1 a2 s).
  Proof. unfold test_struct. cbv zeta. remember fuzz_struct_ty as t. ov. Qed.
  Hint Resolve ov_test_cmp ov_test_struct : ov.
  Lemma ov_test_all G mem s : forall ts, or_check both (test_all h G mem ts s) (test_all r G mem ts s).
  Proof. induction ts as [|t ts IH]; cbn [test_all]; ov. Qed.
  Hint Resolve ov_test_all : ov.
  Lemma ov_test_target G mem b1 b2 data : or_check both (test_target h G mem b1 b2 data) (test_target r G mem b1 b2 data).
  Proof. unfold test_target. remember fuzz_types as ts. remember fuzz_struct_ty as t. ov. Qed.

  (** ** Files *)
  Lemma ov_file t calls a1 a2 a3 a4 :
    match deserialize_from h t calls a1 a2 a3 a4, deserialize_from r t calls a1 a2 a3 a4 with
    | inl e, inl e' => e = e'
    | inr x, inr y => or_check both x y
    | _, _ => False
    end.
  Proof. unfold deserialize_from. destruct (read_to_end calls []); [reflexivity|]. apply ov_deserialize. Qed.
End More.
