(** What [==] accepts: C114, C115. *)
From Verif Require Import Base Types Layout AlignedBytes Strs Spec Deser Histories Cmp CmpSpec Traits Compare CompareSpec CompareFacts.

(** C114 is false of the code.  README.md:8-9 compares what [from_bytes] returns for a
    string, a [GString], with a [&str]; there is no such comparison. *)
Theorem C114_readme_refuted : ~ compares GString (YRef YStr).
Proof. exact readme_refuted. Qed.
Print Assumptions C114_readme_refuted.
(** lib.rs:1847-1850: [MaybeFixedSize] "implements the same interface as this type", but
    only it compares with [Option], has an order or a hash. *)
Theorem C114_same_interface_refuted :
  (exists x y, usable (TM x) /\ usable (TM y) /\
    compares (YRef (marker (TM x))) (YOption (YRef (marker x))) /\
    ~ compares (YRef (marker (TM y))) (YOption (YRef (marker y))) /\
    implements TrHash (marker (TM x)) = true /\ implements TrPartialOrd (marker (TM x)) = true) /\
  (forall y, sp_size y = None -> implements TrHash (marker (TM y)) = false /\ implements TrPartialOrd (marker (TM y)) = false).
Proof. exact interface_refuted. Qed.
Print Assumptions C114_same_interface_refuted.

(** C115: every view compares with its like ... *)
Theorem C115_views : forall t : ty, compares (marker t) (marker t).
Proof. exact compares_refl. Qed.
Print Assumptions C115_views.
(** ... views of maybes compare with options exactly if the element has a fixed size,
    owned strings with owned strings only ... *)
Theorem C115_options : forall x : ty,
  compares (YRef (marker (TM x))) (YOption (YRef (marker x))) <-> sp_size x <> None.
Proof. exact maybe_option. Qed.
Print Assumptions C115_options.
Theorem C115_owned_strings : forall r : rty, compares GString r <-> r = GString.
Proof. exact gstring_only. Qed.
Print Assumptions C115_owned_strings.
(** ... what compares one way compares the other way ... *)
Theorem C115_symmetric : forall a b : rty, compares a b -> compares b a.
Proof. exact compares_sym. Qed.
Print Assumptions C115_symmetric.
(** ... and whatever can be written on the other side of [==], the answer is whether
    the values are equal. *)
Theorem C115_answer : forall (h : host) (t : ty) (b : rty) (n : native) (w : value) (r : slice) (v : value),
  sp_no_og t -> compares (YRef (marker t)) b -> stands h n b w -> view h t r -> read h t r = Ok v ->
  eq_native h t r n = Ok (sp_veq v w).
Proof. exact accepted_claim. Qed.
Print Assumptions C115_answer.
(** As lib.rs:2334 compares an [&NonFixedWidthArray<Str>] with a slice of four texts, here of two. *)
Example C115_case : let h := Host false true true 0 0 in let t := TA TS in
  let r := Slice 1 [x68; x69; x00; x78; x00; x03; x05] in let b := YRef (YSlice (YRef YStr)) in
  let n := NSeq [NStr (bs "hi"); NStr (bs "x")] in let w := VArray [VStr (bs "hi"); VStr (bs "x")] in
  sp_no_og t /\ compares (YRef (marker t)) b /\ compares b (YRef (marker t)) /\ stands h n b w /\ view h t r /\ read h t r = Ok w /\
  eq_native h t r n = Ok true.
Proof.
  intros h t r b n w.
  assert (Hc : compares (YRef (marker t)) b) by (apply c_ref, c_nfwa_slice, c_gstr_str).
  split; [split; intros H; vm_compute in H; intuition discriminate|]. split; [exact Hc|]. split; [apply compares_sym; exact Hc|].
  split; [apply st_ref, st_slice; repeat (apply sa_cons; [apply st_ref, st_str|]); apply sa_nil|].
  split; [|split; vm_compute; reflexivity].
  exists t, r. split; [split; reflexivity|]. split; [reflexivity|]. split; [reflexivity|]. apply reach_cast. reflexivity.
Qed.
Example C115_options_case : sp_size TI <> None /\ sp_size TS = None.
Proof. split; [discriminate|reflexivity]. Qed.
