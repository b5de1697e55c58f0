(** Which bytes of a container matter for one of its children.

    GVariant Specification 2.5: a child is delimited by its own framing offset (or
    its fixed size, or the end of the container's data) and by where the child
    before it that has a framing offset ends. *)
From Verif Require Import Base Types Spec.

(** Two containers have the same bytes at [p], [n] of them. *)
Definition same_at (d d' : list byte) (p n : N) : Prop := sub d p n = sub d' p n.
(** Two structures of the same length have the same framing offset number [j],
    counted from the end, if they are long enough to have it. *)
Definition same_offset (d d' : list byte) (j : N) : Prop :=
  let w := sp_width (len d) in w * (j + 1) <= len d -> same_at d d' (len d - w * (j + 1)) w.
(** How many of the members before member [k] have variable size. *)
Definition var_before (ts : list ty) (k : nat) : N :=
  N.of_nat (length (filter (fun t => match sp_size t with Some _ => false | None => true end) (firstn k ts))).
