(** Comparing offsets, slices and views: C109, C110, C111. *)
From Verif Require Import Base Types Layout Strs Spec AlignedBytes Deser Histories PrintSpec Traits Offsets BaseFacts CmpTraitFacts.

(** C109 is false of the code: deriving asks the alignments to implement what is
    derived, and they do not. *)
Theorem C109_offsets_refuted : In StPartialEq derived_offset /\ ~ offset_implements StPartialEq.
Proof. exact derive_offset_refuted. Qed.
Print Assumptions C109_offsets_refuted.
Theorem C109_slices_refuted : In StEq derived_slice /\ ~ slice_implements StEq.
Proof. exact derive_slice_refuted. Qed.
Print Assumptions C109_slices_refuted.

(** C110: what there is. *)
Theorem C110_derived : forall tr : std_trait,
  (offset_implements tr <-> tr = StDebug \/ tr = StCopy \/ tr = StClone) /\
  (slice_implements tr <-> tr = StDebug \/ tr = StPartialEq).
Proof. exact derive_claim. Qed.
Print Assumptions C110_derived.
(** Offsets compare with numbers as numbers do, from both sides. *)
Theorem C110_offsets_compare : forall A a n m : N, try_new A n = Some a ->
  ao_to_usize a = n /\
  (ao_eq_usize a m = true <-> n = m) /\ ao_eq_usize a m = usize_eq_ao m a /\
  (op_lt (ao_cmp_usize a m) = true <-> n < m) /\ (op_le (ao_cmp_usize a m) = true <-> n <= m) /\
  (op_lt (usize_cmp_ao m a) = true <-> m < n) /\ (op_le (usize_cmp_ao m a) = true <-> m <= n).
Proof. exact offsets_claim. Qed.
Print Assumptions C110_offsets_compare.
Example C110_compare_case : try_new 4 12 = Some 12 /\ op_lt (ao_cmp_usize 12 13) = true /\ op_le (usize_cmp_ao 13 12) = false.
Proof. repeat split; reflexivity. Qed.
Theorem C110_try_from : forall A n : N, 0 < A ->
  (ao_try_from A n = Some n <-> exists k, n = k * A) /\ (ao_try_from A n = None <-> ~ exists k, n = k * A).
Proof. exact offset_try_claim. Qed.
Print Assumptions C110_try_from.
Example C110_try_from_case : ao_try_from 8 16 = Some 16 /\ ao_try_from 8 17 = None.
Proof. split; reflexivity. Qed.
(** An offset prints as decimal digits, the number's, without leading zeros, and the
    same text is the same offset. *)
Theorem C110_display : forall a : N,
  (forall c, In c (ao_display a) -> In c (bs "0123456789")) /\ sp_number 10 (ao_display a) = a /\
  (exists c r, ao_display a = c :: r /\ (c = "0"%byte -> r = [])) /\
  (forall b, ao_display a = ao_display b <-> a = b).
Proof. exact offset_display_claim. Qed.
Print Assumptions C110_display.
Example C110_display_case : ao_display 1024 = bs "1024".
Proof. reflexivity. Qed.
(** Aligned slices are equal if their bytes are, wherever they lie. *)
Theorem C110_slices : forall a b : slice, as_eq a b = true <-> s_data a = s_data b.
Proof. exact slice_eq_claim. Qed.
Print Assumptions C110_slices.
Example C110_slices_case : as_eq (Slice 8 [x01; x02]) (Slice 16 [x01; x02]) = true /\ as_eq (Slice 8 [x01]) (Slice 8 [x01; x00]) = false.
Proof. split; reflexivity. Qed.

(** C111: which types implement Eq, by the letters of the type string ... *)
Theorem C111_eq : forall t : ty,
  implements TrEq (marker t) = true <-> (forall c, In c (bs "dv({") -> ~ In c (sp_show t)).
Proof. exact eq_which. Qed.
Print Assumptions C111_eq.
(** ... and [==] is reflexive for them, as Eq promises: it is equality of values. *)
Theorem C111_eq_is_lawful : forall (h : host) (t : ty) (r q : slice) (v w : value),
  implements TrEq (marker t) = true -> view h t r -> view h t q -> read h t r = Ok v -> read h t q = Ok w ->
  gv_eq h t r r = Ok true /\ (gv_eq h t r q = Ok true <-> v = w).
Proof. exact eq_lawful. Qed.
Print Assumptions C111_eq_is_lawful.
Example C111_eq_case :
  let h := Host false true true 0 0 in let t := TA (TM TS) in let r := Slice 8 (bs "ab" ++ [x00; x00; x04; x04]) in
  implements TrEq (marker t) = true /\ view h t r /\ read h t r = Ok (VArray [VMaybe (Some (VStr (bs "ab"))); VMaybe None]).
Proof.
  intros h t r. split; [reflexivity|]. split; [|vm_compute; reflexivity]. exists t, r. split; [split; reflexivity|].
  split; [reflexivity|]. split; [reflexivity|]. apply reach_cast. vm_compute. reflexivity.
Qed.
(** Which types can be hashed, ordered, totally ordered. *)
Theorem C111_hash : forall t : ty, implements TrHash (marker t) = true <->
  exists p c, In p [[]; bs "a"; bs "m"] /\ In c (bs "ynqiuxt") /\ sp_show t = p ++ [c].
Proof. exact hash_which. Qed.
Print Assumptions C111_hash.
Theorem C111_partial_ord : forall t : ty, implements TrPartialOrd (marker t) = true <->
  exists p c, In p [[]; bs "a"; bs "m"] /\ In c (bs "ynqiuxtd") /\ sp_show t = p ++ [c].
Proof. exact partial_ord_which. Qed.
Print Assumptions C111_partial_ord.
Theorem C111_ord : forall t : ty, implements TrOrd (marker t) = true <->
  exists p c, In p [[]; bs "a"] /\ In c (bs "ynqiuxt") /\ sp_show t = p ++ [c].
Proof. exact ord_which. Qed.
Print Assumptions C111_ord.
(** Owned strings can be keys of ordered maps but not of hash maps. *)
Theorem C111_owned_strings : forall tr : cmp_trait, implements tr GString = true <-> tr <> TrHash.
Proof. exact owned_which. Qed.
Print Assumptions C111_owned_strings.
Example C111_case : implements TrHash (marker (TM TI)) = true /\ implements TrOrd (marker (TM TI)) = false /\
  implements TrPartialOrd (marker (TA TD)) = true /\ implements TrHash (marker (TA (TM TI))) = false.
Proof. repeat split; reflexivity. Qed.
