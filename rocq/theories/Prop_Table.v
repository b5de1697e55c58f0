(** The table of structure items and section 3.2 of the Specification: C112. *)
From Verif Require Import Base Types Layout Spec TableSpec TableFacts.

(** C112: the macro's [generate_table] computes, for all members, the table of the
    Specification's Python function (3.2.2), with alignments in place of exponents. *)
Theorem C112_table_of_the_specification : forall ts : list ty,
  generate_table ts =
  map (fun r => let '(i, a, b, c) := r in (i, a, 2 ^ b, c)) (py_generate_table (map py_item ts)).
Proof. exact table_claim. Qed.
Print Assumptions C112_table_of_the_specification.
(** 3.2.3: moving multiples of [2^b] from [c] to [a] changes no start. *)
Theorem C112_reduction_keeps_starts : forall (offset : Z -> N) (r : Z * N * N * N),
  py_start offset (py_reduce r) = py_start offset r.
Proof. exact reduce_claim. Qed.
Print Assumptions C112_reduction_keeps_starts.
(** 3.2.4: then, and only under its condition [c < 2^b], a bitwise or is as good
    as the addition: all members start where walking the structure finds them. *)
Theorem C112_or_after_reduction : forall (ends : nat -> N) (ts : list ty),
  map (py_start_or (py_offsets ends)) (map py_reduce (py_generate_table (map py_item ts))) =
  sp_starts ends 0 0 (map (fun t => (sp_align t, sp_size t)) ts).
Proof. exact starts_claim. Qed.
Print Assumptions C112_or_after_reduction.
(** The macro skips 3.2.3 but uses the or of 3.2.4 (generate_impl.rs:427).  For
    the members of [(yii)] it has a row on which that gives a wrong start; this is
    the reason for C05. *)
Theorem C112_reduction_is_skipped : exists r, In r (generate_table [TY; TI; TI]) /\
  let '(i, a, b, c) := r in ~ c < b /\ N.lor (align a b) c <> pad_to b a + c.
Proof. exact unreduced_row. Qed.
Print Assumptions C112_reduction_is_skipped.
Example C112_case : let ts := [TY; TI; TI; TS; TQ; TY; TQ; TT] in
  py_generate_table (map py_item ts) =
    [((-1)%Z, 0, 0, 0); ((-1)%Z, 1, 2, 0); ((-1)%Z, 1, 2, 4); ((-1)%Z, 1, 2, 8);
     (0%Z, 0, 1, 0); (0%Z, 0, 1, 2); (0%Z, 0, 1, 4); (0%Z, 6, 3, 0)] /\
  map py_reduce (py_generate_table (map py_item ts)) =
    [((-1)%Z, 0, 0, 0); ((-1)%Z, 1, 2, 0); ((-1)%Z, 5, 2, 0); ((-1)%Z, 9, 2, 0);
     (0%Z, 0, 1, 0); (0%Z, 2, 1, 0); (0%Z, 4, 1, 0); (0%Z, 6, 3, 0)] /\
  generate_table ts =
    [((-1)%Z, 0, 1, 0); ((-1)%Z, 1, 4, 0); ((-1)%Z, 1, 4, 4); ((-1)%Z, 1, 4, 8);
     (0%Z, 0, 2, 0); (0%Z, 0, 2, 2); (0%Z, 0, 2, 4); (0%Z, 6, 8, 0)] /\
  sp_starts (fun _ => 17) 0 0 (map (fun t => (sp_align t, sp_size t)) ts) = [0; 4; 8; 12; 18; 20; 22; 24].
Proof. repeat split; reflexivity. Qed.
