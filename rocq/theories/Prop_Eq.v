(** Equality (C20). *)
From Verif Require Import Base Types Layout AlignedBytes Strs Spec Deser Histories EqFacts.

(** C20: [==] on any two references of the same type, however they were
    obtained, is true exactly when the values read from them are equal. *)
Theorem C20_equality_compares_values : forall (h : host) (t : ty) (r q : slice) (v w : value),
  view h t r -> view h t q -> read h t r = Ok v -> read h t q = Ok w ->
  gv_eq h t r q = Ok (sp_veq v w).
Proof. exact eq_claim. Qed.
Print Assumptions C20_equality_compares_values.
(** Without doubles, "equal" is plain equality, so [==] is an equivalence. *)
Theorem C20_same_value_without_doubles : forall (h : host) (t : ty) (r q : slice) (v w : value),
  sp_no_double t = true -> view h t r -> view h t q -> read h t r = Ok v -> read h t q = Ok w ->
  (gv_eq h t r q = Ok true <-> v = w).
Proof. exact eq_plain_claim. Qed.
Print Assumptions C20_same_value_without_doubles.
Theorem C20_symmetric : forall (h : host) (t : ty) (r q : slice) (v w : value),
  view h t r -> view h t q -> read h t r = Ok v -> read h t q = Ok w ->
  gv_eq h t r q = gv_eq h t q r.
Proof. exact eq_sym_claim. Qed.
Print Assumptions C20_symmetric.
Theorem C20_transitive : forall (h : host) (t : ty) (r q p : slice) (v w u : value),
  view h t r -> view h t q -> view h t p ->
  read h t r = Ok v -> read h t q = Ok w -> read h t p = Ok u ->
  gv_eq h t r q = Ok true -> gv_eq h t q p = Ok true -> gv_eq h t r p = Ok true.
Proof. exact eq_trans_claim. Qed.
Print Assumptions C20_transitive.
(** Comparing never does worse than panic, and panics only where reading may. *)
Theorem C20_no_undefined_behaviour : forall (h : host) (t : ty) (r q : slice) (c : crash),
  view h t r -> view h t q -> gv_eq h t r q = Crash c ->
  (c = PUnwrap /\ sp_tame t = false) \/
  (c = POverflow /\ h_overflow_checks h = true /\ 2 ^ 32 <= N.max (len (s_data r)) (len (s_data q))).
Proof. exact eq_safe_claim. Qed.
Print Assumptions C20_no_undefined_behaviour.
(** Two buffers that differ in padding and in a malformed string compare equal. *)
Example C20_case :
  let h := Host false true true 0 0 in
  let t := TTuple [TY; TI; TS] in
  let s := Slice 16 ([x01; x00; x00; x00; x02; x00; x00; x00; x00]) in
  let s' := Slice 32 ([x01; x09; x08; x07; x02; x00; x00; x00; xff; x00]) in
  view h t s /\ view h t s' /\ sp_no_double t = true /\
  read h t s = Ok (VTuple [VInt 1; VInt 2; VStr []]) /\ read h t s' = Ok (VTuple [VInt 1; VInt 2; VStr []]) /\
  gv_eq h t s s' = Ok true.
Proof.
  intros h t s s'.
  assert (HV : forall x, s_addr x = 16 \/ s_addr x = 32 -> len (s_data x) < 20 -> cast h t x = Ok x -> view h t x).
  { intros x Hx Hl E. exists t, x. split; [split; reflexivity|]. split.
    - unfold aligned. destruct Hx as [-> | ->]; reflexivity.
    - split; [eapply N.lt_trans; [exact Hl|reflexivity]|]. apply reach_cast. exact E. }
  split; [apply HV; [now left|reflexivity|reflexivity]|].
  split; [apply HV; [now right|reflexivity|reflexivity]|]. repeat split; vm_compute; reflexivity.
Qed.
