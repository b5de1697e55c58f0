(** How long parsing a type string takes, and how deep it recurses: C164. *)
From Coq Require Import List NArith Init.Byte.
From Verif Require Import Base Types Spec ParseCost ParseCostSpec ParseCostFacts.
Import ListNotations.
Open Scope N_scope.

(** The function whose steps are counted is that of the model. *)
Theorem C164_answers : forall s : list byte, c_result (one_t s) = one s.
Proof. exact claim_answers. Qed.
Print Assumptions C164_answers.
(** C164.  Parsing takes linear time, whatever the bytes; ... *)
Theorem C164_linear : forall s : list byte, c_steps (one_t s) <= 4 * len s + 1.
Proof. exact claim_steps. Qed.
Print Assumptions C164_linear.
(** ... for a valid type it is just one step for each byte, one to see that there are no
    more, and what there is to do for the types in it. *)
Theorem C164_steps : forall t : ty, c_steps (one_t (sp_show t)) = len (sp_show t) + 1 + sp_work t.
Proof. exact claim_exact. Qed.
Print Assumptions C164_steps.
(** It recurses as deep as there are types inside each other, never deeper than the
    string is long ... *)
Theorem C164_depth : forall t : ty, c_depth (one_t (sp_show t)) = sp_depth t.
Proof. exact claim_depth_type. Qed.
Print Assumptions C164_depth.
Theorem C164_depth_bounded : forall s : list byte, c_depth (one_t s) <= len s.
Proof. exact claim_depth. Qed.
Print Assumptions C164_depth_bounded.
(** ... but there is no limit: it can be that deep. *)
Theorem C164_depth_reached : forall n : N, exists (s : list byte) (t : ty),
  len s = n + 1 /\ one s = inr t /\ c_depth (one_t s) = n + 1.
Proof. exact claim_reached. Qed.
Print Assumptions C164_depth_reached.

(** A type, and a string that ends too early. *)
Example C164_case :
  let t := TA (TDict TS (TTuple [TM TI; TV])) in
  sp_show t = bs "a{s(miv)}" /\ sp_depth t = 5 /\ sp_work t = 16 /\ one_t (sp_show t) = Counted 26 5 (inr t) /\
  one_t (bs "(s(") = Counted 10 2 (inl EEofTuple) /\ one_t (bs "") = Counted 1 0 (inl EEmpty).
Proof. vm_compute. repeat split. Qed.
