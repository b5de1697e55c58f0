(** Comparisons with native Rust values, ordering and hashing: C61, C62, C63. *)
From Verif Require Import Base Types Layout AlignedBytes Strs Spec Deser Histories Cmp CmpSpec CmpFacts.

(** C61: [==] between a view and a [bool], a [str], a slice of native values, an
    [Option] or another view says whether the two values are equal. *)
Theorem C61_native_comparison : forall (h : host) (t : ty) (r : slice) (n : native) (v w : value),
  view h t r -> read h t r = Ok v -> native_value h t n w ->
  eq_native h t r n = Ok (sp_veq v w).
Proof. exact eq_native_claim. Qed.
Print Assumptions C61_native_comparison.
(** [["hi", "x"]] against a serialised [as]. *)
Example C61_case : let h := Host false true true 0 0 in
  let s := Slice 1 [x68; x69; x00; x78; x00; x03; x05] in
  view h (TA TS) s /\ read h (TA TS) s = Ok (VArray [VStr [x68; x69]; VStr [x78]]) /\
  native_value h (TA TS) (NSeq [NStr [x68; x69]; NStr [x78]]) (VArray [VStr [x68; x69]; VStr [x78]]) /\
  eq_native h (TA TS) s (NSeq [NStr [x68; x69]; NStr [x78]]) = Ok true /\
  eq_native h (TA TS) s (NSeq [NStr [x68; x69]; NStr [x79]]) = Ok false /\
  eq_native h (TA TS) s (NSeq [NStr [x68; x69]]) = Ok false.
Proof.
  intros h s. split.
  { exists (TA TS), s. split; [split; reflexivity|]. split; [reflexivity|]. split; [reflexivity|].
    apply reach_cast. reflexivity. }
  split; [reflexivity|]. split; [|repeat split].
  apply nv_seq. repeat (apply nv_cons; [apply nv_str; left; reflexivity|]). apply nv_nil.
Qed.

(** C62: maybes of numbers are ordered by value, nothing first; only NaN is
    unordered.  [Equal] agrees with [==]. *)
Theorem C62_order_of_maybes : forall (h : host) (x : ty) (r q : slice) (v w : value),
  sp_number x = true -> view h (TM x) r -> view h (TM x) q ->
  read h (TM x) r = Ok v -> read h (TM x) q = Ok w ->
  maybe_cmp h x r q = Ok (sp_vcmp v w).
Proof. exact maybe_cmp_claim. Qed.
Print Assumptions C62_order_of_maybes.
Theorem C62_equal_agrees : forall (h : host) (x : ty) (r q : slice) (v w : value),
  sp_number x = true -> view h (TM x) r -> view h (TM x) q ->
  read h (TM x) r = Ok v -> read h (TM x) q = Ok w ->
  (maybe_cmp h x r q = Ok (Some Eq) <-> gv_eq h (TM x) r q = Ok true).
Proof. exact maybe_cmp_eq_claim. Qed.
Print Assumptions C62_equal_agrees.
(** C63: the data fed to a hasher for two maybes of integers is the same exactly
    when the values are equal. *)
Theorem C63_hash_of_maybes : forall (h : host) (x : ty) (r q : slice) (v w : value),
  sp_integer x = true -> view h (TM x) r -> view h (TM x) q ->
  read h (TM x) r = Ok v -> read h (TM x) q = Ok w ->
  exists a b, maybe_hash h x r = Ok a /\ maybe_hash h x q = Ok b /\ (a = b <-> v = w).
Proof. exact maybe_hash_claim. Qed.
Print Assumptions C63_hash_of_maybes.
(** -1 against 1, against a wrong-sized (hence empty) maybe, and -0.5 against 0.25. *)
Example C62_case : let h := Host false true true 0 0 in
  let a := Slice 16 [xff; xff; xff; xff] in
  let b := Slice 32 [x01; x00; x00; x00] in
  let c := Slice 48 [x01; x00; x00] in
  let d := Slice 64 [x00; x00; x00; x00; x00; x00; xe0; xbf] in
  let e := Slice 80 [x00; x00; x00; x00; x00; x00; xd0; x3f] in
  view h (TM TI) a /\ view h (TM TI) b /\ view h (TM TI) c /\ view h (TM TD) d /\ view h (TM TD) e /\
  read h (TM TI) a = Ok (VMaybe (Some (VInt (-1)))) /\ read h (TM TI) c = Ok (VMaybe None) /\
  maybe_cmp h TI a b = Ok (Some Lt) /\ maybe_cmp h TI a c = Ok (Some Gt) /\
  maybe_cmp h TD d e = Ok (Some Lt) /\
  maybe_hash h TI a = Ok [inl 1%Z; inr [xff; xff; xff; xff]] /\ maybe_hash h TI c = Ok [inl 0%Z].
Proof.
  intros h a b c d e.
  assert (HV : forall x s, usable (TM x) -> s_addr s mod 16 = 0 -> aligned (sp_align x) s -> len (s_data s) < 20 ->
    cast h (TM x) s = Ok s -> view h (TM x) s).
  { intros x s Hu _ Ha Hl E. exists (TM x), s. split; [exact Hu|]. split; [exact Ha|].
    split; [eapply N.lt_trans; [exact Hl|reflexivity]|]. apply reach_cast. exact E. }
  split; [apply HV; try reflexivity; split; reflexivity|].
  split; [apply HV; try reflexivity; split; reflexivity|].
  split; [apply HV; try reflexivity; split; reflexivity|].
  split; [apply HV; try reflexivity; split; reflexivity|].
  split; [apply HV; try reflexivity; split; reflexivity|]. repeat split; vm_compute; reflexivity.
Qed.
