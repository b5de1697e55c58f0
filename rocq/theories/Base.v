(** Machine model shared by the whole development: build modes, panics and
    undefined behaviour, [usize] arithmetic, bytes and byte slices. *)
From Coq Require Export List NArith ZArith Bool Init.Byte.
Export ListNotations.
Open Scope N_scope.

(** The environment the crate is compiled for and run in.
    - [h_big_endian]: byte order used by [to_ne_bytes] and by reinterpreting
      memory as an integer (gvariant/src/lib.rs:679, casting.rs:108).
    - [h_overflow_checks]: [true] in debug builds (integer overflow panics),
      [false] in release builds (overflow wraps modulo 2^64).
    - [h_debug]: whether [debug_assert!] is compiled in.
    - [h_str8]: address of the static 8-byte string in [empty_aligned]
      (aligned_bytes.rs:606); [h_statics]: one eighth of the address at which
      a static default value lives (rustc aligns statics properly).
    [usize] is 64 bits: lib.rs:1378 matches on a literal that does not fit a
    32-bit [usize], so the crate only compiles for 64-bit targets. *)
Record host := Host {
  h_big_endian : bool;
  h_overflow_checks : bool;
  h_debug : bool;
  h_str8 : N;
  h_statics : N }.

(** Why a computation does not return normally. *)
Inductive crash :=
| PIndex        (* slice index out of range: panic *)
| POverflow     (* integer overflow with overflow checks on: panic *)
| PUnwrap       (* unwrap of Err/None: panic *)
| PAssert       (* failed assert!/debug_assert!: panic *)
| PTodo         (* todo!(): panic *)
| PUnreachable  (* unreachable!(): panic *)
| Diverges      (* a loop that never ends *)
| UBMisaligned  (* misaligned reference or raw slice: undefined behaviour *)
| NoCompile.    (* rustc or the proc macro rejects the program *)

Inductive res (A : Type) :=
| Ok (a : A)
| Crash (c : crash).
Arguments Ok {A} a.
Arguments Crash {A} c.

Definition bind {A B} (m : res A) (f : A -> res B) : res B :=
  match m with Ok a => f a | Crash c => Crash c end.
Notation "'let*' x := m 'in' f" := (bind m (fun x => f))
  (at level 200, x pattern, m at level 100, f at level 200).

Fixpoint mapM {A B} (f : A -> res B) (l : list A) : res (list B) :=
  match l with
  | [] => Ok []
  | x :: xs => let* y := f x in let* ys := mapM f xs in Ok (y :: ys)
  end.

(** ** usize arithmetic: Rust's [+], [-], [*], [!], [&] on 64-bit [usize]. *)
Definition usize_lim : N := 2 ^ 64.

Definition uadd (h : host) (a b : N) : res N :=
  if a + b <? usize_lim then Ok (a + b)
  else if h_overflow_checks h then Crash POverflow
  else Ok ((a + b) mod usize_lim).

Definition usub (h : host) (a b : N) : res N :=
  if b <=? a then Ok (a - b)
  else if h_overflow_checks h then Crash POverflow
  else Ok (a + usize_lim - b).

Definition umul (h : host) (a b : N) : res N :=
  if a * b <? usize_lim then Ok (a * b)
  else if h_overflow_checks h then Crash POverflow
  else Ok ((a * b) mod usize_lim).

Definition unot (a : N) : N := usize_lim - 1 - a.
Definition uand (a b : N) : N := N.land a b.
(** [usize::wrapping_neg] *)
Definition wrapping_neg (a : N) : N := (usize_lim - a mod usize_lim) mod usize_lim.
(** [usize::checked_sub] *)
Definition checked_sub (a b : N) : option N := if b <=? a then Some (a - b) else None.

(** ** Bytes *)
Definition b2n (b : byte) : N := Byte.to_N b.
Definition n2b (n : N) : byte :=
  match Byte.of_N (n mod 256) with Some b => b | None => x00 end.

Definition blen {A} (l : list A) : N := N.of_nat (length l).
Definition take {A} (n : N) (l : list A) : list A := firstn (N.to_nat n) l.
Definition drop {A} (n : N) (l : list A) : list A := skipn (N.to_nat n) l.
Definition zeros (n : N) : list byte := repeat x00 (N.to_nat n).

Definition byte_eqb (a b : byte) : bool := Byte.eqb a b.
Fixpoint bytes_eqb (a b : list byte) : bool :=
  match a, b with
  | [], [] => true
  | x :: xs, y :: ys => byte_eqb x y && bytes_eqb xs ys
  | _, _ => false
  end.

(** [uN::to_le_bytes] for [k] bytes, [uN::from_le_bytes]. *)
Fixpoint to_le (k : nat) (n : N) : list byte :=
  match k with
  | O => []
  | S k' => n2b n :: to_le k' (n / 256)
  end.
Fixpoint of_le (l : list byte) : N :=
  match l with
  | [] => 0
  | b :: bs => b2n b + 256 * of_le bs
  end.
(** [uN::to_ne_bytes] and reading an integer from memory. *)
Definition to_ne (h : host) (k : nat) (n : N) : list byte :=
  if h_big_endian h then rev (to_le k n) else to_le k n.
Definition of_ne (h : host) (l : list byte) : N :=
  if h_big_endian h then of_le (rev l) else of_le l.

(** ** Byte slices: an address and the bytes stored there.
    Models [&[u8]] and, together with a statically known alignment, also
    [&AlignedSlice<A>], which is [repr(transparent)] around [[u8]]
    (aligned_bytes.rs:213-218), and [&T] for every GVariant type [T]. *)
Record slice := Slice { s_addr : N; s_data : list byte }.
Definition slen (s : slice) : N := blen (s_data s).

(** [&s[..e]], [&s[b..]], [&s[b..e]] on [[u8]] (core::slice): panic when out of
    range. *)
Definition sl_to (s : slice) (e : N) : res slice :=
  if e <=? slen s then Ok (Slice (s_addr s) (take e (s_data s))) else Crash PIndex.
Definition sl_from (s : slice) (b : N) : res slice :=
  if b <=? slen s then Ok (Slice (s_addr s + b) (drop b (s_data s))) else Crash PIndex.
Definition sl_range (s : slice) (b e : N) : res slice :=
  if (b <=? e) && (e <=? slen s)
  then Ok (Slice (s_addr s + b) (drop b (take e (s_data s))))
  else Crash PIndex.
(** Indexing of plain byte lists where the address plays no role. *)
Definition bs_at (l : list byte) (i : N) : res byte :=
  if i <? blen l then
    match nth_error l (N.to_nat i) with Some b => Ok b | None => Crash PIndex end
  else Crash PIndex.
Definition bs_from (l : list byte) (b : N) : res (list byte) :=
  if b <=? blen l then Ok (drop b l) else Crash PIndex.
Definition bs_range (l : list byte) (b e : N) : res (list byte) :=
  if (b <=? e) && (e <=? blen l) then Ok (drop b (take e l)) else Crash PIndex.
