(** Comparing, printing and converting [AlignedOffset]s (gvariant/src/offset.rs:50-91),
    comparing [AlignedSlice]s and printing the errors (gvariant/src/aligned_bytes.rs,
    gvariant/src/casting.rs). *)
From Verif Require Import Base Types Strs Spec AlignedBytes CoreFmt.

(** [AlignedOffset<A> == usize] (offset.rs:56-60) and [usize == AlignedOffset<A>]
    (66-70). *)
Definition ao_eq_usize (self other : N) : bool := other =? self.
Definition usize_eq_ao (self other : N) : bool := self =? other.
(** [partial_cmp] of the same pairs (offset.rs:61-65, 71-75); usize's never is
    [None]. *)
Definition ao_cmp_usize (self other : N) : option comparison := Some (self ?= other).
Definition usize_cmp_ao (self other : N) : option comparison := Some (self ?= other).
(** The operators [<] and [<=] from [partial_cmp] (core::cmp, used at
    gvariant/src/lib.rs:1563 and 1610). *)
Definition op_lt (c : option comparison) : bool := match c with Some Lt => true | _ => false end.
Definition op_le (c : option comparison) : bool := match c with Some Lt | Some Eq => true | _ => false end.
(** [TryFrom<usize>] (offset.rs:76-81), [From<AlignedOffset<A>> for usize] (87-91),
    [Borrow<usize>] (82-86), [to_usize] (19-21). *)
Definition ao_try_from (A value : N) : option N := try_new A value.
Definition ao_to_usize (self : N) : N := self.
(** [Display] (offset.rs:50-54). *)
Definition ao_display (self : N) : list byte := core_int (Z.of_N self).

(** [PartialEq for AlignedSlice] (aligned_bytes.rs:220-224). *)
Definition as_eq (a b : slice) : bool := bytes_eqb (s_data a) (s_data b).
