(** [Str] and [GString] (gvariant/src/lib.rs:699-1090) and UTF-8 validation. *)
From Verif Require Import Base.

(** [memchr::memchr(0, b).is_some()]. *)
Definition has_nul (l : list byte) : bool := existsb (byte_eqb x00) l.

(** [memchr::memrchr(0, b)]: index of the last zero byte. *)
Fixpoint memrchr0_go (i : N) (found : option N) (l : list byte) : option N :=
  match l with
  | [] => found
  | b :: bs => memrchr0_go (i + 1) (if byte_eqb b x00 then Some i else found) bs
  end.
Definition memrchr0 (l : list byte) : option N := memrchr0_go 0 None l.

(** [core::str::from_utf8(b).is_ok()]: the byte-sequence table of the Unicode
    standard (Table 3-7), as implemented by core::str::validations. *)
Definition in_rng (lo hi : N) (b : byte) : bool := (lo <=? b2n b) && (b2n b <=? hi).
Definition cont (b : byte) : bool := in_rng 128 191 b.
Fixpoint valid_utf8 (l : list byte) : bool :=
  match l with
  | [] => true
  | b0 :: r0 =>
      if in_rng 0 127 b0 then valid_utf8 r0
      else if in_rng 194 223 b0 then
        match r0 with
        | b1 :: r1 => cont b1 && valid_utf8 r1
        | _ => false
        end
      else if in_rng 224 239 b0 then
        match r0 with
        | b1 :: b2 :: r2 =>
            (if b2n b0 =? 224 then in_rng 160 191 b1
             else if b2n b0 =? 237 then in_rng 128 159 b1
             else cont b1)
            && cont b2 && valid_utf8 r2
        | _ => false
        end
      else if in_rng 240 244 b0 then
        match r0 with
        | b1 :: b2 :: b3 :: r3 =>
            (if b2n b0 =? 240 then in_rng 144 191 b1
             else if b2n b0 =? 244 then in_rng 128 143 b1
             else cont b1)
            && cont b2 && cont b3 && valid_utf8 r3
        | _ => false
        end
      else false
  end.

(** [Str::as_bytes_non_conformant] (lib.rs:739-745). *)
Definition as_bytes_non_conformant (d : list byte) : list byte :=
  match rev d with
  | x00 :: r => rev r
  | _ => []
  end.

(** [Str::to_str] (lib.rs:758-768); a [&str] is its bytes.  The conversions into
    [&str] and [String] (856-866) only call it. *)
Definition to_str (d : list byte) : list byte :=
  let b := as_bytes_non_conformant d in
  if has_nul b then []
  else if valid_utf8 b then b else [].

(** [PartialEq for Str] (lib.rs:830-835). *)
Definition str_eq (a b : list byte) : bool :=
  bytes_eqb (as_bytes_non_conformant a) (as_bytes_non_conformant b)
  || bytes_eqb (to_str a) (to_str b).

(** [PartialEq<Str> for str], [PartialEq<str> for Str] (lib.rs:836-845). *)
Definition str_eq_str (a : list byte) (b : list byte) : bool := bytes_eqb (to_str a) b.

(** ** GString (lib.rs:908-1090).  State: the bytes of the inner [String] and
    its capacity.  [String::reserve]/[push]/[push_str] may grow the capacity to
    any value at least as large as needed: the allocator's choice is the
    argument [grow]. *)
Record gstring := GS { g_data : list byte; g_cap : N }.

Definition grow_to (cap needed choice : N) : N :=
  if needed <=? cap then cap else N.max needed choice.

(** [String::with_capacity(n)]: capacity at least n. *)
Definition with_cap (n choice : N) : N := N.max n choice.

(** [GString::new] (985-989), [default] (945-949): ["\0".to_owned()] has capacity 1 or more. *)
Definition gs_new (choice : N) : gstring := GS [x00] (with_cap 1 choice).

(** [GString::with_capacity] (993-999): builds [data], then returns a different
    string.  Simplified: [capacity + 1] overflowing [usize], and running out of
    memory, are not modelled (here and in the other GString operations). *)
Definition gs_with_capacity (capacity c1 c2 : N) : gstring :=
  let data := GS [x00] (with_cap (capacity + 1) c1) in
  gs_new c2.

(** [String::pop] on a non-empty string ending in an ASCII byte. *)
Definition pop (l : list byte) : list byte := removelast l.

(** [GString::try_push_str] (1003-1013), which [fmt::Write::write_str] (1045-1049)
    calls.  [None] is ContainsNulBytesError; the
    receiver is unchanged in that case. *)
Definition gs_try_push_str (g : gstring) (s : list byte) (c1 c2 c3 : N) : option gstring :=
  if has_nul s then None
  else
    let cap := grow_to (g_cap g) (blen (g_data g) + blen s) c1 in   (* reserve *)
    let d := pop (g_data g) in
    let d := d ++ s in
    let cap := grow_to cap (blen d) c2 in
    let d := d ++ [x00] in
    let cap := grow_to cap (blen d) c3 in
    Some (GS d cap).

(** [GString::from_str_unchecked] (1014-1019). *)
Definition gs_from_str_unchecked (s : list byte) (c : N) : gstring :=
  GS (s ++ [x00]) (with_cap (blen s + 1) c).

(** [TryFrom<String>] (1053-1064); the String has capacity [cap]. *)
Definition gs_try_from (s : list byte) (cap c : N) : option gstring :=
  if has_nul s then None else Some (GS (s ++ [x00]) (grow_to cap (blen s + 1) c)).

(** [clear] (970-973). *)
Definition gs_clear (g : gstring) (c : N) : gstring := GS [x00] (grow_to (g_cap g) 1 c).

(** [reserve] (964-966). *)
Definition gs_reserve (g : gstring) (additional c : N) : gstring :=
  GS (g_data g) (grow_to (g_cap g) (blen (g_data g) + additional) c).

(** [len] (978-980), [is_empty] (981-983), [capacity] (957-959).  The
    subtractions are [usize] subtractions. *)
Definition gs_len (h : host) (g : gstring) : res N := usub h (blen (g_data g)) 1.
Definition gs_is_empty (h : host) (g : gstring) : res bool :=
  let* n := gs_len h g in Ok (n =? 0).
Definition gs_capacity (h : host) (g : gstring) : res N := usub h (g_cap g) 1.

(** [str::is_char_boundary] for [&self.data[..n]] (core::str). *)
Definition char_boundary (l : list byte) (n : N) : bool :=
  (n =? 0) || (n =? blen l) ||
  match nth_error l (N.to_nat n) with Some b => negb (cont b) | None => false end.

(** [AsRef<str>] (1085-1089), and [as_str] (953-955); [Display] and [Debug]
    (1021-1032) print it. *)
Definition gs_as_str (h : host) (g : gstring) : res (list byte) :=
  let* n := usub h (blen (g_data g)) 1 in
  if (n <=? blen (g_data g)) && char_boundary (g_data g) n
  then Ok (take n (g_data g)) else Crash PIndex.

(** [Deref for GString] (1038-1044): the whole data, NUL included, as [Str].
    [Borrow<Str>] (1033-1037) only calls it. *)
Definition gs_deref (g : gstring) : list byte := g_data g.

(** [From<GString> for String] (1065-1071). *)
Definition gs_into_string (g : gstring) : list byte := pop (g_data g).

(** [From<GString> for CString] (1072-1078), [AsRef<CStr>] (1079-1084): both
    unwrap a constructor that succeeds iff the only NUL is the last byte. *)
Definition gs_into_cstring (g : gstring) : res (list byte) :=
  match rev (g_data g) with
  | x00 :: r => if has_nul r then Crash PUnwrap else Ok (rev r)
  | _ => Crash PUnwrap
  end.

(** Derived [PartialOrd]/[Ord]/[PartialEq] (939): those of [String], i.e.
    lexicographic on bytes. *)
Fixpoint bytes_cmp (a b : list byte) : comparison :=
  match a, b with
  | [], [] => Eq
  | [], _ :: _ => Lt
  | _ :: _, [] => Gt
  | x :: xs, y :: ys =>
      match N.compare (b2n x) (b2n y) with
      | Eq => bytes_cmp xs ys
      | c => c
      end
  end.
Definition gs_cmp (a b : gstring) : comparison := bytes_cmp (g_data a) (g_data b).
Definition gs_eq (a b : gstring) : bool := bytes_eqb (g_data a) (g_data b).

(** [ToOwned for Str] (868-873). *)
Definition str_to_owned (d : list byte) (c : N) : gstring := gs_from_str_unchecked (to_str d) c.
