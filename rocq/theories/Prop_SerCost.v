(** How long serialising takes (C160).  [ser_t] is the serialiser with a count of steps
    beside the writer, which may be any; [sp_parts r] is the number of parts of a value,
    [sp_given r] the number of bytes of the strings and views in it. *)
From Verif Require Import Base Types Spec Ser SerSpec WriterSpec SerCost SerCostSpec SerCostFacts SerCalls.

(** The count changes nothing; and however serialising ends, the steps until then are
    linear in the parts and the bytes given. *)
Theorem C160_linear : forall (K : Type) (W : Write K) (h : host) (r : rval) (t : ty) (k : K),
  let '((k', n), res) := ser_t h r t (k, 0) in
  ser h r t k = (k', res) /\ n <= 36 * sp_parts r - 16 + 3 * sp_given r.
Proof. exact @time_claim. Qed.
Print Assumptions C160_linear.

(** Two strings, one of them a view of bytes that are not a string: these are looked at
    although only a NUL is written for them. *)
Example C160_example :
  let h := Host false true true 0 0 in
  let r := RList [RStr ["a"; "b"]; RStrView [x00; x41; x42; x43; x44; x45; x00]]%byte in
  sp_parts r = 3 /\ sp_given r = 9 /\
  (let '((k, n), res) := ser_t h r (TA TS) (Sink [] None, 0) in k_out k = ["a"; "b"; x00; x00; x03; x04]%byte /\ res = SOk 6 /\ n = 57) /\
  (let '((k, n), res) := ser_t h r (TA TS) (Sink [] (Some 1), 0) in k_out k = ["a"]%byte /\ res = SErr EIo /\ n = 5).
Proof. vm_compute. repeat split. Qed.

(** Nor are there too few: if [calls] tells how often a writer has been called, there is
    at least a step for each call. *)
Theorem C160_calls : forall (K : Type) (W : Write K) (calls : K -> N),
  (forall (d : list byte) (k : K), calls (fst (write_all d k)) = calls k + 1) ->
  forall (h : host) (r : rval) (t : ty) (k : K),
  let '((k', n), _) := ser_t h r t (k, 0) in calls k' <= calls k + n.
Proof. exact @calls_claim. Qed.
Print Assumptions C160_calls.

(** A writer that keeps the pieces apart: it has been called as often as it has pieces. *)
#[local] Instance keep : Write (list (list byte)) := fun d k => (k ++ [d], SOk tt).
Example C160_calls_example :
  (forall d k, blen (fst (write_all d k)) = blen k + 1) /\
  let h := Host false true true 0 0 in
  let '((k, n), res) := ser_t h (RTuple [RInt 1; RList [RInt 2; RInt 3]]) (TTuple [TY; TA TU]) ([], 0) in
  k = [[x01]; [x00; x00; x00]; [x02; x00; x00; x00]; [x03; x00; x00; x00]]%byte /\ n = 19.
Proof. split; [|vm_compute; repeat split]. intros d k. cbn. unfold blen. rewrite app_length. cbn [length]. apply Nnat.Nat2N.inj_add. Qed.
