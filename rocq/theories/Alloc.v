(** What [Marker::from_bytes] and [Marker::deserialize] ask of the allocator.

    The functions of [Buf] once more, line by line, with the capacities of the vectors and
    the sizes, in bytes, that are requested of the allocator, in order.  How a vector
    grows is the standard library's choice; here it is the amortised growth of its
    current implementation (the greatest of twice the capacity, what is needed, and 8 bytes), and
    copying a slice takes exactly its length.  Requests of more than [isize::MAX] bytes,
    and refused ones, are not modelled.  A fixed-size value that is copied is not
    on the heap.  [AllocFacts] shows that without the sizes these are the functions of
    [Buf]. *)
From Verif Require Import Base Types Layout AlignedBytes Deser Buf.

(** The sizes requested so far, and the result: for [from_bytes] and [deserialize]
    (lib.rs:378-386, 404-407) and what they call. *)
Definition asked (A : Type) : Type := list N * res A.
(** One line after another ([;] in lib.rs:383-385, 405-406). *)
Definition after {A B} (m : asked A) (f : A -> asked B) : asked B :=
  match m with
  | (w, Ok a) => let '(w', r) := f a in (w ++ w', r)
  | (w, Crash c) => (w, Crash c)
  end.
Notation "'let?' x := m 'in' f" := (after m (fun x => f)) (at level 200, x pattern, right associativity).
(** A line that requests nothing ([cast], lib.rs:406, [rotate_right], buf.rs:103). *)
Definition quiet {A} (m : res A) : asked A := ([], m).
(** A request; the standard library makes none of 0 bytes ([to_owned] of an empty slice,
    lib.rs:491). *)
Definition request (n : N) : asked unit := (if n =? 0 then [] else [n], Ok tt).

(** A [Vec<u8>] (buf.rs:23) with its capacity. *)
Record cvec := CVec { c_vec : vec; c_cap : N }.
(** [s.to_owned()] of a [[u8]] (lib.rs:491, aligned_bytes.rs:229, 244). *)
Definition to_vec_a (d : list byte) (a1 : N) : asked cvec :=
  let? _ := request (blen d) in quiet (Ok (CVec (to_vec d a1) (blen d))).
(** [Vec::reserve] (buf.rs:100, and inside [resize], 102, [push_str], [push],
    lib.rs:1016-1017): the vector may move to [new_addr]. *)
Definition reserve_a (v : cvec) (additional new_addr : N) : asked cvec :=
  let used := vlen (c_vec v) in
  if c_cap v - used <? additional then
    let c := N.max (N.max (2 * c_cap v) (used + additional)) 8 in
    let? _ := request c in quiet (Ok (CVec (Vec new_addr (v_data (c_vec v))) c))
  else quiet (Ok (CVec (Vec new_addr (v_data (c_vec v))) (c_cap v))).
(** [align_cold] (buf.rs:99-104). *)
Definition align_cold_a (h : host) (v : cvec) (new_addr : N) : asked cvec :=
  let? v := reserve_a v 7 new_addr in
  let? off := quiet (offset_to_align h (c_vec v)) in
  let? v := reserve_a v off new_addr in
  let d := v_data (c_vec v) ++ zeros off in
  let? d := quiet (rotate_right off d) in
  quiet (Ok (CVec (Vec new_addr d) (c_cap v))).
(** [align] (buf.rs:92-96), which is all of [From<Vec<u8>> for AlignedBuf] (118-123). *)
Definition buf_from_vec_a (h : host) (v : cvec) (new_addr : N) : asked cvec :=
  if vec_is_aligned (c_vec v) then quiet (Ok v) else align_cold_a h v new_addr.
(** [copy_to_align] (aligned_bytes.rs:240-246). *)
Definition copy_to_align_a (h : host) (A : N) (data : slice) (a1 a2 : N) : asked cow :=
  if is_aligned data A then
    match try_as_aligned 1 A data with
    | Some s => quiet (Ok (Borrowed s))
    | None => quiet (Crash PUnwrap)
    end
  else
    let? v := to_vec_a (s_data data) a1 in
    let? b := buf_from_vec_a h v a2 in
    quiet (Ok (OwnedBuf (c_vec b))).
(** [Owned::from_bytes] (lib.rs:489-494). *)
Definition owned_from_bytes_a (h : host) (d : list byte) (a1 a2 : N) : asked cvec :=
  let? v := to_vec_a d a1 in
  buf_from_vec_a h v a2.
(** [GString::from_str_unchecked] (lib.rs:1014-1019). *)
Definition from_str_unchecked_a (s : list byte) (a : N) : asked (list byte) :=
  let? _ := request (blen s + 1) in
  let data := CVec (Vec a []) (blen s + 1) in
  let? data := reserve_a data (blen s) a in
  let data := CVec (Vec a (v_data (c_vec data) ++ s)) (c_cap data) in
  let? data := reserve_a data 1 a in
  let data := CVec (Vec a (v_data (c_vec data) ++ [x00])) (c_cap data) in
  quiet (Ok (v_data (c_vec data))).
(** [to_owned] of a view (lib.rs:868-873, 1164-1169, 1441-1446, 1710-1720, 1864-1869,
    generate_impl.rs:96-101, 402, 1971, and the standard library's for [[T]]). *)
Definition to_owned_a (h : host) (t : ty) (r : slice) (a1 a2 : N) : asked owned :=
  let own := let? b := owned_from_bytes_a h (s_data r) a1 a2 in quiet (Ok (OBuf (c_vec b))) in
  match size_of t with
  | Some _ => quiet (Ok (OCopy (Slice (8 * a1) (s_data r))))
  | None =>
      match t with
      | TS | TO | TG =>
          let? s := from_str_unchecked_a (Strs.to_str (s_data r)) a1 in quiet (Ok (OStr s))
      | TA x =>
          if is_fixed x then
            let? _ := request (slen r) in quiet (Ok (OCopy (Slice (8 * a1) (s_data r))))
          else own
      | _ => own
      end
  end.
(** [Marker::from_bytes] (lib.rs:404-407). *)
Definition from_bytes_a (h : host) (t : ty) (data : slice) (a1 a2 a3 a4 : N) : asked owned :=
  let? c := copy_to_align_a h (trait_align t) data a1 a2 in
  let? s := quiet (cow_as_ref h (trait_align t) c) in
  let? r := quiet (cast h t s) in
  to_owned_a h t r a3 a4.
(** [Marker::deserialize] (lib.rs:378-386) after [read_to_end], whose vector has the
    capacity it has. *)
Definition deserialize_a (h : host) (t : ty) (v : cvec) (a2 a3 a4 : N) : asked owned :=
  let? b := buf_from_vec_a h v a2 in
  let? s := quiet (buf_deref h (c_vec b)) in
  let? s := quiet (as_aligned 8 (trait_align t) s) in
  let? r := quiet (cast h t s) in
  to_owned_a h t r a3 a4.
