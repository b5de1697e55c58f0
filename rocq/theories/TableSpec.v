(** The table of structure items as section 3.2 of the GVariant Specification
    (docs/gvariant-serialisation.pdf, pages 28-33) has it (C112): the Python
    function [generate_table] of 3.2.2, the further reduction of 3.2.3 and the
    formula with a bitwise or of 3.2.4.  Alignments are exponents of two there. *)
From Verif Require Import Base Types Spec.

(** [align(a, b)], "it is assumed that align(a, b) computes (a ↑ b)". *)
Definition py_align (a b : N) : N := pad_to (2 ^ b) a.
(** The loop of [generate_table]; an item is its alignment and its size, -1 if it
    has no fixed size. *)
Fixpoint py_loop (i : Z) (a b c : N) (items : list (N * Z)) : list (Z * N * N * N) :=
  match items with
  | [] => []
  | (d, e) :: items =>
      let '(a, b, c) := if d <=? b then (a, b, py_align c d) else (a + py_align c b, d, 0) in
      (i, a, b, c) ::
      (if (e =? -1)%Z then py_loop (i + 1)%Z 0 0 0 items else py_loop i a b (c + Z.to_N e) items)
  end.
Definition py_generate_table (items : list (N * Z)) : list (Z * N * N * N) := py_loop (-1)%Z 0 0 0 items.
Definition py_item (t : ty) : N * Z :=
  (N.log2 (sp_align t), match sp_size t with Some n => Z.of_N n | None => (-1)%Z end).

(** 3.2.3: multiples of [2^b] moved out of [c] into [a]. *)
Definition py_reduce (r : Z * N * N * N) : Z * N * N * N :=
  let '(i, a, b, c) := r in (i, a + 2 ^ b * (c / 2 ^ b), b, c mod 2 ^ b).
(** The start of an item: ((+a); (↑b); (+c)) offsets[i], and with a bitwise or. *)
Definition py_start (offset : Z -> N) (r : Z * N * N * N) : N :=
  let '(i, a, b, c) := r in py_align (offset i + a) b + c.
Definition py_start_or (offset : Z -> N) (r : Z * N * N * N) : N :=
  let '(i, a, b, c) := r in N.lor (py_align (offset i + a) b) c.
(** By definition, offsets[-1] = 0. *)
Definition py_offsets (ends : nat -> N) (i : Z) : N := if (i <? 0)%Z then 0 else ends (Z.to_nat i).
