(** gvariant/src/offset.rs and gvariant/src/aligned_bytes.rs.

    The marker types A1, A2, A4, A8 (aligned_bytes.rs:131-165) are represented
    by their [ALIGNMENT] constant.  [&AlignedSlice<A>] is a [slice]; the promise
    "address is a multiple of A" is a proposition about it, not part of the
    data.  The [_mut] variants of the operators are textually the same code on
    [&mut] and are covered by the same definitions. *)
From Verif Require Import Base.

(** The four implementations of [Alignment] (aligned_bytes.rs:131-162). *)
Definition is_alignment (A : N) : Prop := A = 1 \/ A = 2 \/ A = 4 \/ A = 8.

(** [AlignedTo] implementations (aligned_bytes.rs:136-165). *)
Definition aligned_to (from to : N) : bool := to <=? from.

(** ** offset.rs.  [AlignedOffset<A>] is a plain [N]. *)

(** [AlignedOffset::try_new] (offset.rs:28-34). *)
Definition try_new (A value : N) : option N :=
  if value mod A =? 0 then Some value else None.

(** [align_offset] (offset.rs:43-48):
    [(idx + A::ALIGNMENT - 1) & !(A::ALIGNMENT - 1)]. *)
Definition align_offset (h : host) (A idx : N) : res N :=
  let* x := uadd h idx A in
  let* x := usub h x 1 in
  let* m := usub h A 1 in
  Ok (uand x (unot m)).

(** [AlignedOffset | AlignedOffset] (offset.rs:95-102, 115-126). *)
Definition ao_bitor (a b : N) : N := N.lor a b.
(** [AlignedOffset + AlignedOffset] (offset.rs:106-113). *)
Definition ao_add (h : host) (a b : N) : res N := uadd h a b.
(** [From<AlignedOffset<Big>> for AlignedOffset<Small>] (offset.rs:131-135) and
    the reflexive [Into]; there is no implementation in the other direction. *)
Definition ao_into (from to v : N) : res N :=
  if to <=? from then Ok v else Crash NoCompile.

(** ** aligned_bytes.rs *)

(** [is_aligned], [is_aligned_to] (aligned_bytes.rs:552-557). *)
Definition is_aligned (s : slice) (A : N) : bool := s_addr s mod A =? 0.

(** [to_alignedslice_unchecked] (aligned_bytes.rs:534-550); with A1,
    [From<&[u8]>] (572-583).  The other way, [AsRef] and [AsMut] (584-593), is
    the identity. *)
Definition unchecked (h : host) (A : N) (s : slice) : res slice :=
  if h_debug h && negb ((slen s =? 0) || is_aligned s A) then Crash PAssert else Ok s.

(** [AlignedSlice::split_at] (aligned_bytes.rs:249-254). *)
Definition split_at (h : host) (A : N) (s : slice) (mid : N) : res (slice * slice) :=
  let* before := sl_to s mid in
  let* after := sl_from s mid in
  let* before := unchecked h A before in
  Ok (before, after).

(** [as_aligned] between alignments (aligned_bytes.rs:312-335).  The two
    [align_of_val] compared by the assertion are those of a struct around
    [[u8]], i.e. 1 >= 1, so the assertion never fails.  The trait bound
    [FromA: AlignedTo<ToA>] is checked by rustc.  To A1, [AsAligned<A1>] for
    anything that is [AsRef<[u8]>] (268-279), [Deref] to bytes (257-267) and
    [AsRef] and [AsMut] between alignments (363-379) also give the same bytes. *)
Definition as_aligned (from to : N) (s : slice) : res slice :=
  if aligned_to from to then Ok s else Crash NoCompile.

(** [core::mem::align_of] of the marker structs A1..A8: they are unit structs
    (aligned_bytes.rs:132,140,149,159), so this is always 1. *)
Definition mem_align_of_marker (A : N) : N := 1.

(** [try_as_aligned] (aligned_bytes.rs:336-361; 280-310 forward to it with
    FromA = A1).  [None] is [Err(Misaligned)]. *)
Definition try_as_aligned (from to : N) (s : slice) : option slice :=
  if (mem_align_of_marker to <=? mem_align_of_marker from) || is_aligned s to
  then Some s else None.

(** Indexing operators (aligned_bytes.rs:381-532; those for [&mut], 460-532, are the
    same text).  [usize] ranges: *)
Definition ix_to (h : host) (A : N) (s : slice) (e : N) : res slice :=     (* 387-393 *)
  let* x := sl_to s e in unchecked h A x.
Definition ix_to_incl (h : host) (A : N) (s : slice) (e : N) : res slice := (* 394-400 *)
  if e + 1 <? usize_lim then let* x := sl_to s (e + 1) in unchecked h A x
  else Crash PIndex.
Definition ix_range (h : host) (s : slice) (b e : N) : res slice :=         (* 401-408 *)
  let* x := sl_range s b e in unchecked h 1 x.
Definition ix_range_incl (h : host) (s : slice) (b e : N) : res slice :=    (* 409-416 *)
  if e + 1 <? usize_lim then let* x := sl_range s b (e + 1) in unchecked h 1 x
  else Crash PIndex.
Definition ix_from (h : host) (s : slice) (b : N) : res slice :=            (* 417-424 *)
  let* x := sl_from s b in unchecked h 1 x.
Definition ix_full (s : slice) : res slice := Ok s.                          (* 425-430 *)
(** [AlignedOffset<A>] ranges: *)
Definition ix_range_al (h : host) (A : N) (s : slice) (b e : N) : res slice := (* 432-441 *)
  let* x := sl_range s b e in unchecked h A x.
Definition ix_range_incl_al (h : host) (A : N) (s : slice) (b e : N) : res slice := (* 442-451 *)
  if e + 1 <? usize_lim then let* x := sl_range s b (e + 1) in unchecked h A x
  else Crash PIndex.
Definition ix_from_al (h : host) (A : N) (s : slice) (b : N) : res slice :=  (* 452-459 *)
  let* x := sl_from s b in unchecked h A x.

(** [align_bytes] (aligned_bytes.rs:595-599). *)
Definition align_bytes (h : host) (A : N) (value : slice) : res slice :=
  let p := s_addr value in
  let offset := uand (wrapping_neg p) (A - 1) in
  let* x := sl_from value offset in
  match try_as_aligned 1 A x with
  | Some y => Ok y
  | None => Crash PUnwrap
  end.

(** [empty_aligned] (aligned_bytes.rs:605-607): eight space bytes in a static
    whose address is [h_str8 h]. *)
Definition str8 (h : host) : slice := Slice (h_str8 h) (repeat x20 8).
Definition empty_aligned (h : host) (A : N) : res slice :=
  let* x := align_bytes h A (str8 h) in ix_to h A x 0.
