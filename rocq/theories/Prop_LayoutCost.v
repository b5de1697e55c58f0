(** How many calls it takes the macro to find alignments and sizes: C165. *)
From Coq Require Import List NArith Init.Byte.
From Verif Require Import Base Types Layout Spec ParseCostSpec LayoutCost LayoutCostSpec LayoutCostFacts.
Import ListNotations.
Open Scope N_scope.

(** C165.  To find the alignment of a type takes one call for each type in it, ... *)
Theorem C165_align : forall t : ty, align_of_t t = (sp_nodes t, align_of t).
Proof. exact align_calls. Qed.
Print Assumptions C165_align.
(** ... to find its size at most twice that for each level ... *)
Theorem C165_size : forall t : ty, snd (size_of_t t) = size_of t.
Proof. exact claim_size. Qed.
Print Assumptions C165_size.
Theorem C165_size_calls : forall t : ty, fst (size_of_t t) <= 2 * sp_nodes t * sp_depth t.
Proof. exact claim_calls. Qed.
Print Assumptions C165_size_calls.
(** ... and if there is a fixed size, just as often as the types in it are asked about, ... *)
Theorem C165_fixed : forall (t : ty) (n : N), sp_size t = Some n -> fst (size_of_t t) = sp_asked 0 t.
Proof. exact claim_fixed. Qed.
Print Assumptions C165_fixed.
(** ... (if there is none, the search ends at the first member without one, with what comes
    before asked about once more for its alignment, ... *)
Theorem C165_member : forall (xs zs : list ty) (y : ty), Forall (fun x => sp_size x <> None) xs -> sp_size y = None ->
  size_of_t (TTuple (xs ++ y :: zs)) = (1 + fold_right (fun x n => sp_asked 1 x + n) 0 xs + sp_nodes y + fst (size_of_t y), None).
Proof. exact claim_member. Qed.
Print Assumptions C165_member.
(** ... but looks at both sides of an entry, and not into anything else), ... *)
Theorem C165_entry : forall k v : ty, sp_size (TDict k v) = None -> fst (size_of_t (TDict k v)) = 1 + fst (size_of_t k) + fst (size_of_t v).
Proof. exact claim_entry. Qed.
Print Assumptions C165_entry.
Theorem C165_plain : forall t : ty, sp_size t = None -> (forall ts, t <> TTuple ts) -> (forall k v, t <> TDict k v) -> size_of_t t = (1, None).
Proof. exact claim_plain. Qed.
Print Assumptions C165_plain.
(** ... which [k] structures inside each other make about the square of [k]. *)
Theorem C165_quadratic : forall k : N, exists t : ty, sp_nodes t = k + 1 /\ fst (size_of_t t) = k * k + 3 * k + 1.
Proof. exact claim_reached. Qed.
Print Assumptions C165_quadratic.

(** A structure in a structure; a string, after which nothing is looked at. *)
Example C165_case :
  let t := TTuple [TTuple [TY; TU]; TDict TN TX] in let u := TTuple [TS; t] in
  sp_nodes t = 7 /\ sp_depth t = 3 /\ align_of_t t = (7, 8) /\ size_of_t t = (29, Some 24) /\ sp_size t = Some 24 /\ sp_asked 0 t = 29 /\ size_of_t u = (3, None).
Proof. vm_compute. repeat split. Qed.
Example C165_member_case :
  let y := TTuple [TU; TA TX] in let t := TTuple [TY; TTuple [TY; TU]; y; TX] in
  Forall (fun x => sp_size x <> None) [TY; TTuple [TY; TU]] /\ sp_size y = None /\ size_of_t y = (6, None) /\ sp_nodes y = 4 /\ size_of_t t = (24, None) /\
  sp_size (TDict TS TI) = None /\ size_of_t (TDict TS TI) = (3, None) /\ size_of_t (TA y) = (1, None).
Proof. vm_compute. repeat split; repeat constructor; discriminate. Qed.
