(** Vocabulary for statements about owned values. *)
From Verif Require Import Base Types Strs Spec Deser Buf.

(** Given for each component whether it has a fixed size and whether reading it
    in place is a trap, whether reading an empty structure in place is one.  The
    components that start at offset 0 of an empty structure are the
    variable-size ones that come first or follow a variable-size one. *)
Fixpoint sp_traps (fresh : bool) (l : list (bool * bool)) : bool :=
  match l with
  | [] => false
  | (fixed, trap) :: rest => (fresh && negb fixed && trap) || sp_traps (negb fixed) rest
  end.
(** Types whose empty value, at a misaligned address, contains a misaligned Rust
    slice: arrays of fixed-size elements of alignment above 1, and structures
    with such a component at offset 0. *)
Fixpoint sp_trap (t : ty) : bool :=
  match t with
  | TA x => match sp_size x with Some _ => 1 <? sp_align x | None => false end
  | TTuple ts =>
      sp_traps true (map (fun c => (match sp_size c with Some _ => true | None => false end, sp_trap c)) ts)
  | TDict a b =>
      sp_traps true [(match sp_size a with Some _ => true | None => false end, sp_trap a);
                     (match sp_size b with Some _ => true | None => false end, sp_trap b)]
  | _ => false
  end.
(** What a misaligned Rust slice leads to: the debug assertion in
    casting.rs:80-81, undefined behaviour without it. *)
Definition sp_misaligned (h : host) : crash := if h_debug h then PAssert else UBMisaligned.
Definition sp_fixed_array (t : ty) : bool :=
  match t with TA x => match sp_size x with Some _ => true | None => false end | _ => false end.
(** Borrowing an owned object and reading everything. *)
Definition own_read (h : host) (t : ty) (m : res owned) : res value :=
  let* o := m in
  let* r := owned_borrow h t o in
  read h t r.
