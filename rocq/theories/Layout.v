(** Sizes, alignments, the structure table and the memory layout of generated
    structures: gvariant-macro/src/generate_impl.rs.

    These functions run inside the proc macro at compile time.  Sums of type
    sizes are modelled by unbounded [N] (they overflow [usize] only for type
    strings of more than 2^60 bytes); the one subtraction that can underflow is
    explicit. *)
From Verif Require Import Base Types.

(** [fn align] (generate_impl.rs:529-531):
    [(off + alignment - 1) & !(alignment - 1)]. *)
Definition align (off alignment : N) : N :=
  N.ldiff (off + alignment - 1) (alignment - 1).

(** [fn align_of] (generate_impl.rs:271-297). *)
Fixpoint align_of (t : ty) : N :=
  match t with
  | TB | TY => 1
  | TN | TQ => 2
  | TI | TU => 4
  | TX | TT => 8
  | TD => 8
  | TS | TO | TG => 1
  | TM t => align_of t
  | TA t => align_of t
  | TTuple subtypes => fold_right N.max 1 (map align_of subtypes)
  | TDict k v => N.max (align_of k) (align_of v)
  | TV => 8
  end.

(** [fn size_of] (generate_impl.rs:299-351).  [size_walk] is the [for] loop at
    326-332. *)
Fixpoint size_walk (pos : N) (subtypes : list (N * option N)) : option N :=
  match subtypes with
  | [] => Some pos
  | (al, sz) :: rest =>
      let pos := align pos al in
      match sz with
      | Some s => size_walk (pos + s) rest
      | None => None
      end
  end.
Fixpoint size_of (t : ty) : option N :=
  match t with
  | TB | TY => Some 1
  | TN | TQ => Some 2
  | TI | TU => Some 4
  | TX | TT | TD => Some 8
  | TS | TO | TG | TV | TA _ | TM _ => None
  | TTuple [] => Some 1
  | TTuple subtypes =>
      match size_walk 0 (map (fun t => (align_of t, size_of t)) subtypes) with
      | Some pos => Some (align pos (align_of t))
      | None => None
      end
  | TDict k v =>
      match size_of k, size_of v with
      | Some a, Some b =>
          let pos := a in
          let pos := align pos (align_of v) in
          let pos := pos + b in
          let pos := align pos (align_of t) in
          Some pos
      | _, _ => None
      end
  end.

Definition is_fixed (t : ty) : bool :=
  match size_of t with Some _ => true | None => false end.

(** Children of a structure type, as passed to [generate_tuple]
    (generate_impl.rs:13,20). *)
Definition children_of (t : ty) : list ty :=
  match t with
  | TTuple ts => ts
  | TDict k v => [k; v]
  | _ => []
  end.

(** [fn generate_table] (generate_impl.rs:368-395).  A row is (i, a, b, c); the
    Rust [isize] i starts at -1 and is modelled as Z. *)
Definition row := (Z * N * N * N)%type.
Fixpoint table_go (i : Z) (a b c : N) (children : list ty) : list row :=
  match children with
  | [] => []
  | child :: rest =>
      let al := align_of child in
      let '(a, b, c) :=
        if al <=? b then (a, b, align c al)          (* merge rule #1 *)
        else (a + align c b, al, 0) in               (* merge rule #2 *)
      (i, a, b, c) ::
      match size_of child with
      | Some size => table_go i a b (c + size) rest  (* merge rule #3 *)
      | None => table_go (i + 1)%Z 0 1 0 rest
      end
  end.
Definition generate_table (children : list ty) : list row :=
  table_go (-1)%Z 0 1 0 children.

(** Number of framing offsets of a non-fixed-size structure
    (generate_impl.rs:60-72). *)
Definition n_frame_offsets (children : list ty) : N :=
  let n_frames := blen (filter (fun t => negb (is_fixed t)) children) in
  match rev children with
  | last :: _ => if is_fixed last then n_frames else n_frames - 1
  | [] => n_frames
  end.

(** The loop of [write_packed_struct] (generate_impl.rs:420-465): for every
    field the number of explicit padding bytes emitted before it, and finally
    the padding after the last one.  [start = align(a, b) | c] (427).
    [padding = start - last_end] (429) and [size_of(gv) - last_end] (457) are
    [usize] subtractions: on underflow the macro panics (with overflow checks),
    or wraps to a value above 2^63 and then panics in
    ["\\0".repeat(padding)] (436), capacity overflow.  Both are [None]. *)
Fixpoint packed_go (rows : list (row * N)) (last_end : N) : option (list N * N) :=
  match rows with
  | [] => Some ([], last_end)
  | ((_, a, b, c), size) :: rest =>
      let start := N.lor (align a b) c in
      let end_ := start + size in
      if last_end <=? start then
        match packed_go rest end_ with
        | Some (pads, e) => Some (start - last_end :: pads, e)
        | None => None
        end
      else None
  end.
Definition packed_struct (gv : ty) : option (list N * N) :=
  let children := children_of gv in
  let sizes := map (fun t => match size_of t with Some s => s | None => 0 end) children in
  match size_of gv, packed_go (combine (generate_table children) sizes) 0 with
  | Some total, Some (pads, last_end) =>
      if last_end <=? total then Some (pads, total - last_end) else None
  | _, _ => None
  end.

(** Does the proc macro return (rather than panic) for this type string's type?
    [generate_types] (6-29) visits every structure inside the type;
    [generate_tuple] (31-52) uses [write_packed_struct] for fixed-size ones,
    the non-fixed-size path has no failing arithmetic. *)
Definition struct_macro_ok (t : ty) : bool :=
  if is_fixed t then
    match packed_struct t with Some _ => true | None => false end
  else true.
Definition macro_ok (t : ty) : bool := forallb struct_macro_ok (generate_types t).

(** rustc's [repr(C)] layout (Rust reference, "The C representation"): fields in
    declaration order, each at the next multiple of its alignment; the struct's
    alignment is the largest field alignment, its size is rounded up to it.
    Fields are given as (size, align); returns field offsets, size, align. *)
Definition round_up (x al : N) : N := (x + al - 1) / al * al.
Fixpoint repr_c_go (off al : N) (fields : list (N * N)) : list N * N * N :=
  match fields with
  | [] => ([], off, al)
  | (fs, fa) :: rest =>
      let o := round_up off fa in
      let '(os, e, al') := repr_c_go (o + fs) (N.max al fa) rest in
      (o :: os, e, al')
  end.
Definition repr_c (fields : list (N * N)) : list N * N * N :=
  let '(os, e, al) := repr_c_go 0 1 fields in (os, round_up e al, al).

(** Declared fields of the generated struct: a [[u8; n]] padding field is only
    emitted when n > 0 (430-431, 458-459); [inl] marks padding, [inr] a data
    field. *)
Fixpoint interleave (pads : list N) (fields : list (N * N)) (final : N)
  : list (bool * (N * N)) :=
  match pads, fields with
  | p :: pads', f :: fields' =>
      (if 0 <? p then [(false, (p, 1))] else []) ++ (true, f) :: interleave pads' fields' final
  | _, _ => if 0 <? final then [(false, (final, 1))] else []
  end.

(** [core::mem::size_of] and [align_of] of the (sized) Rust type chosen by
    [marker_type] (gvariant-macro/src/lib.rs:34-61), on a 64-bit target where
    i64/u64/f64 have alignment 8.  [None]: unsized, or the macro panics. *)
Fixpoint mem_layout (t : ty) : option (N * N) :=
  match t with
  | TB | TY => Some (1, 1)
  | TN | TQ => Some (2, 2)
  | TI | TU => Some (4, 4)
  | TX | TT | TD => Some (8, 8)
  | TS | TO | TG | TV | TA _ | TM _ => None
  | TTuple ts =>
      match packed_struct (TTuple ts),
            (fix all (l : list ty) : option (list (N * N)) :=
               match l with
               | [] => Some []
               | x :: xs => match mem_layout x, all xs with
                            | Some y, Some ys => Some (y :: ys)
                            | _, _ => None
                            end
               end) ts with
      | Some (pads, final), Some ls =>
          let '(_, size, al) := repr_c (map snd (interleave pads ls final)) in
          Some (size, al)
      | _, _ => None
      end
  | TDict k v =>
      match packed_struct (TDict k v), mem_layout k, mem_layout v with
      | Some (pads, final), Some lk, Some lv =>
          let '(_, size, al) := repr_c (map snd (interleave pads [lk; lv] final)) in
          Some (size, al)
      | _, _, _ => None
      end
  end.

Fixpoint mem_layouts (l : list ty) : option (list (N * N)) :=
  match l with
  | [] => Some []
  | x :: xs => match mem_layout x, mem_layouts xs with
               | Some y, Some ys => Some (y :: ys)
               | _, _ => None
               end
  end.

(** Offsets rustc gives to the data fields [field_0], [field_1], ... of the
    generated fixed-size struct, i.e. what [&self.field_n] in [to_tuple]
    (generate_impl.rs:443,480-482) points at. *)
Fixpoint keep {A} (fs : list bool) (os : list A) : list A :=
  match fs, os with
  | f :: fs', o :: os' => (if f then [o] else []) ++ keep fs' os'
  | _, _ => []
  end.
Definition field_offsets (gv : ty) : option (list N) :=
  match packed_struct gv, mem_layouts (children_of gv) with
  | Some (pads, final), Some ls =>
      let fs := interleave pads ls final in
      let '(os, _, _) := repr_c (map snd fs) in
      Some (keep (map fst fs) os)
  | _, _ => None
  end.

(** The bytes declared by the fields [write_packed_struct] emits
    (generate_impl.rs:420-465), paddings included. *)
Definition declared_bytes (t : ty) : option N :=
  match packed_struct t, mem_layouts (children_of t) with
  | Some (pads, final), Some ls =>
      Some (fold_right N.add 0 (map (fun f => fst (snd f)) (interleave pads ls final)))
  | _, _ => None
  end.

(** Alignment declared by the [AlignOf] trait for the Rust type of each GVariant
    type: casting.rs:54-56 ([T]), 147-154 (integers, f64); lib.rs:771 (Str),
    1122 (Variant), 1447 (NonFixedWidthArray), 1782 and 1893 (MaybeFixedSize, MaybeNonFixedSize), 2000
    (Bool); generate_impl.rs:121-123 and 470-472 (structures). *)
Fixpoint trait_align (t : ty) : N :=
  match t with
  | TB => 1
  | TY => 1
  | TN | TQ => 2
  | TI | TU => 4
  | TX | TT | TD => 8
  | TS | TO | TG => 1
  | TV => 8
  | TA x => trait_align x
  | TM x => trait_align x
  | TTuple ts => align_of (TTuple ts)
  | TDict k v => align_of (TDict k v)
  end.

(** Do the constant default [Structure::new(0, ..., 0)] (generate_impl.rs:453,
    486) and [#[derive(Default)]] (402) of a fixed-size structure type-check?
    The literal [0] is an integer literal: it has type u8..i64 but neither
    [Bool] (a struct), [f64], nor a structure. *)
Definition int_literal_ok (t : ty) : bool :=
  match t with
  | TY | TN | TQ | TI | TU | TX | TT => true
  | _ => false
  end.
Definition defaults_typecheck (t : ty) : bool :=
  if is_fixed t then forallb int_literal_ok (children_of t) else true.

(** Every generated structure implements [Debug] through the [Debug] of its
    [RefTuple] (generate_impl.rs:43-50); the standard library implements [Debug]
    for tuples of at most 12 elements. *)
Definition arity_ok (t : ty) : bool := N.of_nat (length (children_of t)) <=? 12.

(** The generated definitions share one scope ([define_gv], gvariant-macro/src/lib.rs:20-27, inside [mod _m] of [gv!],
    gvariant/src/lib.rs:573-591),
    so a name may be defined only once. *)
Fixpoint names_once (names : list (list byte)) : bool :=
  match names with
  | [] => true
  | n :: rest => negb (existsb (bytes_eqb n) rest) && names_once rest
  end.

(** The conditions above under which [gv!] yields code that compiles. *)
Definition gv_usable (t : ty) : bool :=
  macro_ok t
  && names_once (map struct_name (generate_types t))
  && forallb (fun s => arity_ok s && defaults_typecheck s) (generate_types t).
