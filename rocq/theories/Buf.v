(** gvariant/src/buf.rs, [copy_to_align], [Owned], [from_bytes] and
    [deserialize].

    A [Vec<u8>] is its contents together with the address of its allocation.
    The allocator is unconstrained: every operation that may reallocate takes
    the new address as an argument.  An empty vector without allocation has the
    dangling address 1 ([Vec::new], core::ptr::dangling for u8). *)
From Verif Require Import Base Types Layout AlignedBytes Deser.

Record vec := Vec { v_addr : N; v_data : list byte }.
Definition vlen (v : vec) : N := blen (v_data v).

(** [vec![]] / [Vec::new()] does not allocate. *)
Definition vec_new : vec := Vec 1 [].

(** [offset_to_align] (buf.rs:76-85). *)
Definition offset_to_align (h : host) (v : vec) : res N :=
  if vlen v =? 0 then Ok 0
  else
    let p := v_addr v in
    let out := uand (wrapping_neg p) 7 in
    if h_debug h then
      let* q := uadd h p out in
      if uand q 7 =? 0 then Ok out else Crash PAssert
    else Ok out.

(** [is_aligned] (buf.rs:87-89). *)
Definition vec_is_aligned (v : vec) : bool := (vlen v =? 0) || (uand (v_addr v) 7 =? 0).

(** [slice::rotate_left], [rotate_right] (core::slice: panic if out of range). *)
Definition rotate_left (n : N) (l : list byte) : res (list byte) :=
  if n <=? blen l then Ok (drop n l ++ take n l) else Crash PAssert.
Definition rotate_right (n : N) (l : list byte) : res (list byte) :=
  if n <=? blen l then Ok (drop (blen l - n) l ++ take (blen l - n) l) else Crash PAssert.

(** [align_cold] (buf.rs:99-104): [reserve(7)] may move the vector to
    [new_addr]; the following [resize] by at most 7 then does not. *)
Definition align_cold (h : host) (v : vec) (new_addr : N) : res vec :=
  let v := Vec new_addr (v_data v) in
  let* off := offset_to_align h v in
  let d := v_data v ++ zeros off in
  let* d := rotate_right off d in
  Ok (Vec new_addr d).
(** [align] (buf.rs:92-96). *)
Definition vec_align (h : host) (v : vec) (new_addr : N) : res vec :=
  if vec_is_aligned v then Ok v else align_cold h v new_addr.

(** [unalign], [unalign_cold] (buf.rs:106-117). *)
Definition vec_unalign (h : host) (v : vec) : res vec :=
  if vec_is_aligned v then Ok v
  else
    let* off := offset_to_align h v in
    let* d := rotate_left off (v_data v) in
    let* n := usub h (blen d) off in
    Ok (Vec (v_addr v) (take n d)).

(** ** AlignedBuf (buf.rs:22-24) is its vector. *)

(** [new] (35-37), [default] (71-75). *)
Definition buf_new : vec := vec_new.
(** [From<Vec<u8>>] (118-123). *)
Definition buf_from_vec (h : host) (v : vec) (new_addr : N) : res vec := vec_align h v new_addr.
(** [From<AlignedBuf> for Vec<u8>] (124-129). *)
Definition buf_into_vec (h : host) (b : vec) : res vec := vec_unalign h b.
(** [with_vec] (54-62): the callback is an arbitrary function on vectors (it may
    reallocate); whether it then panics makes no difference to the buffer, as
    the guard's [drop] (66-70) runs [align] either way. *)
Definition buf_with_vec (h : host) (b : vec) (f : vec -> vec) (new_addr : N) : res vec :=
  let* v := vec_unalign h b in
  vec_align h (f v) new_addr.
(** [Deref] (131-142). *)
Definition buf_deref (h : host) (b : vec) : res slice :=
  let* off := offset_to_align h b in
  let* s := sl_from (Slice (v_addr b) (v_data b)) off in
  unchecked h 8 s.
(** Writing one byte through [DerefMut] (143-153): [b[i] = x]. *)
Fixpoint upd (l : list byte) (i : nat) (x : byte) : list byte :=
  match l, i with
  | [], _ => []
  | _ :: r, O => x :: r
  | y :: r, S i => y :: upd r i x
  end.
Definition buf_set (h : host) (b : vec) (i : N) (x : byte) : res vec :=
  let* s := buf_deref h b in
  if i <? slen s then
    let* off := offset_to_align h b in
    Ok (Vec (v_addr b) (upd (v_data b) (N.to_nat (off + i)) x))
  else Crash PIndex.

(** ** [copy_to_align] (aligned_bytes.rs:240-246) *)
Inductive cow := Borrowed (s : slice) | OwnedBuf (b : vec).
(** [data.to_owned()] allocates at [a1] (or nowhere when empty); [into()] may
    move to [a2].  Both together are [ToOwned for AlignedSlice]
    (aligned_bytes.rs:226-231), as [owned_from_bytes] below. *)
Definition to_vec (d : list byte) (a1 : N) : vec :=
  match d with [] => vec_new | _ => Vec a1 d end.
Definition copy_to_align (h : host) (A : N) (data : slice) (a1 a2 : N) : res cow :=
  if is_aligned data A then
    match try_as_aligned 1 A data with
    | Some s => Ok (Borrowed s)
    | None => Crash PUnwrap
    end
  else
    let* b := buf_from_vec h (to_vec (s_data data) a1) a2 in
    Ok (OwnedBuf b).
(** [Cow::as_ref], through [Borrow for AlignedBuf] (buf.rs:155-159). *)
Definition cow_as_ref (h : host) (A : N) (c : cow) : res slice :=
  match c with
  | Borrowed s => Ok s
  | OwnedBuf b => let* s := buf_deref h b in as_aligned 8 A s
  end.

(** ** [Owned<T>] (lib.rs:470-521) *)
(** [Owned::from_vec] (495-500) and [From<Vec<u8>>] (517-521) are [buf_from_vec];
    [Owned::from_bytes] (489-494). *)
Definition owned_from_bytes (h : host) (d : list byte) (a1 a2 : N) : res vec :=
  buf_from_vec h (to_vec d a1) a2.
(** [Deref for Owned] (509-515). *)
Definition owned_deref (h : host) (t : ty) (b : vec) : res slice :=
  let* s := buf_deref h b in
  let* s := as_aligned 8 (trait_align t) s in
  from_aligned_slice h t s.

(** [to_owned] of a view: fixed-size types are [Copy], so the standard [Clone]
    copies their bytes to a fresh properly aligned location (derive at
    generate_impl.rs:402, 1971); [Str] becomes a GString (lib.rs:868-873);
    [[T]] becomes a [Vec<T>] (standard library), i.e. the same elements;
    Variant (1164-1169), NonFixedWidthArray (1441-1446), maybes (1710-1720,
    1864-1869) and non-fixed-size structures (generate_impl.rs:96-101) copy
    their bytes into an [Owned]. *)
Inductive owned :=
| OCopy (s : slice)            (* a T, or the buffer of a Vec<T>, and where it lives *)
| OStr (s : list byte)         (* GString contents *)
| OBuf (b : vec).              (* Owned<T> *)
Definition to_owned (h : host) (t : ty) (r : slice) (a1 a2 : N) : res owned :=
  match size_of t with
  | Some _ => Ok (OCopy (Slice (8 * a1) (s_data r)))
  | None =>
      match t with
      | TS | TO | TG => Ok (OStr (Strs.to_str (s_data r) ++ [x00]))
      | TA x => if is_fixed x then Ok (OCopy (Slice (8 * a1) (s_data r)))
                else let* b := owned_from_bytes h (s_data r) a1 a2 in Ok (OBuf b)
      | _ => let* b := owned_from_bytes h (s_data r) a1 a2 in Ok (OBuf b)
      end
  end.
(** Borrowing the owned object back as [&T]. *)
Definition owned_borrow (h : host) (t : ty) (o : owned) : res slice :=
  match o with
  | OCopy s => Ok s
  | OStr d => Ok (Slice 1 d)
  | OBuf b => owned_deref h t b
  end.

(** [Marker::from_bytes] (lib.rs:404-407). *)
Definition from_bytes (h : host) (t : ty) (data : slice) (a1 a2 a3 a4 : N) : res owned :=
  let* c := copy_to_align h (trait_align t) data a1 a2 in
  let* s := cow_as_ref h (trait_align t) c in
  let* r := cast h t s in
  to_owned h t r a3 a4.

(** [Marker::deserialize] (lib.rs:378-386); [v] is the vector that
    [read_to_end] filled (whether an empty one was allocated depends on the
    standard library version, so its address is unconstrained). *)
Definition deserialize (h : host) (t : ty) (v : vec) (a2 a3 a4 : N) : res owned :=
  let* b := buf_from_vec h v a2 in
  let* s := buf_deref h b in
  let* s := as_aligned 8 (trait_align t) s in
  let* r := cast h t s in
  to_owned h t r a3 a4.
