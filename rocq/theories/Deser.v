(** The reading half of gvariant/src/lib.rs, gvariant/src/casting.rs and of the
    code the macro generates for structures.

    A shared reference [&T] to a value of GVariant type t is a [slice] covering
    exactly the bytes of the value: address and contents. *)
From Verif Require Import Base Types Layout AlignedBytes Strs Spec.

(** ** casting.rs *)

(** [try_cast_slice_to] (casting.rs:103-112), also [_mut] (118-127).  [None] is
    [WrongSize].  Making a reference of a misaligned pointer is undefined
    behaviour. *)
Definition try_cast_slice_to (h : host) (lay : N * N) (s : slice) : res (option slice) :=
  let '(size, al) := lay in
  if size =? slen s then
    if h_debug h && negb (is_aligned s al) then Crash PAssert
    else if is_aligned s al then Ok (Some s) else Crash UBMisaligned
  else Ok None.

(** [cast_slice] (casting.rs:74-97); [A] is the alignment parameter, [lay] the
    memory layout of the element type.  [a.len() % size_of::<T>()] panics for
    zero-sized T, which never occurs ([LayoutFacts.mem_size_pos]). *)
Definition cast_slice (h : host) (A : N) (lay : N * N) (s : slice) : res (option slice) :=
  let '(size, al) := lay in
  if A <? al then Crash PAssert
  else if h_debug h && negb (is_aligned s al) then Crash PAssert
  else if size =? 0 then Crash PAssert
  else if slen s mod size =? 0 then
    if is_aligned s al then Ok (Some s) else Crash UBMisaligned
  else Ok None.

(** ** [Cast] (lib.rs:631-658) *)

(** [try_from_aligned_slice] of every implementation: lib.rs:666-670 (numbers),
    779-783 (Str), 1130-1134 (Variant), 1303-1307 ([T]), 1455-1459
    (NonFixedWidthArray), 1791-1795, 1902-1906 (maybes), 1983-1987 (Bool),
    generate_impl.rs:109-113 and 489-491 (structures).  [marker_type]
    (gvariant-macro/src/lib.rs:34-61) chooses the implementation. *)
Definition try_from_aligned_slice (h : host) (t : ty) (s : slice) : res (option slice) :=
  match size_of t with
  | Some _ =>
      match mem_layout t with
      | Some lay => try_cast_slice_to h lay s
      | None => Crash NoCompile
      end
  | None =>
      match t with
      | TA x =>
          match size_of x with
          | Some _ => match mem_layout x with
                      | Some lay => cast_slice h (trait_align t) lay s
                      | None => Crash NoCompile
                      end
          | None => Ok (Some s)
          end
      | _ => Ok (Some s)
      end
  end.

(** [default_ref]: lib.rs:663-665 (a static 0), 776-778 (Str: some static empty
    string; its address is irrelevant and taken to be [h_str8]), 1127-1129,
    1300-1302 ([&[]]: a well-aligned dangling address), 1452-1454, 1788-1790,
    1899-1901, 1980-1982, generate_impl.rs:103-108, 485-488. *)
Definition default_ref (h : host) (t : ty) : res slice :=
  match size_of t with
  | Some _ =>
      match mem_layout t with
      | Some (size, _) => Ok (Slice (8 * h_statics h) (zeros size))
      | None => Crash NoCompile
      end
  | None =>
      match t with
      | TS | TO | TG => Ok (Slice (h_str8 h) [])
      | TA x => if is_fixed x then Ok (Slice (8 * h_statics h) [])
                else empty_aligned h (trait_align t)
      | _ => empty_aligned h (trait_align t)
      end
  end.

(** [Cast::from_aligned_slice] (lib.rs:638-643), [Marker::cast] (351-353). *)
Definition from_aligned_slice (h : host) (t : ty) (s : slice) : res slice :=
  let* r := try_from_aligned_slice h t s in
  match r with
  | Some x => Ok x
  | None => default_ref h t
  end.
Definition cast := from_aligned_slice.

(** [try_from_aligned_slice_mut] (671-675, 784-788, 1135-1139, 1308-1312,
    1460-1464, 1796-1800, 1907-1911, 1988-1992, generate_impl.rs:114-118,
    492-494) and [Marker::try_cast_mut] (357-361). *)
Definition try_from_aligned_slice_mut (h : host) (t : ty) (s : slice) : res (option slice) :=
  match t with
  | TA x => if is_fixed x then Crash PTodo else Ok (Some s)
  | _ => try_from_aligned_slice h t s
  end.

(** [T::try_from_aligned_slice(s).unwrap()]. *)
Definition cast_unwrap (h : host) (t : ty) (s : slice) : res slice :=
  let* r := try_from_aligned_slice h t s in
  match r with
  | Some x => Ok x
  | None => Crash PUnwrap
  end.

(** ** Framing offsets *)

(** [enum OffsetSize] (lib.rs:1363-1369). *)
Inductive offset_size_t := U0 | U1 | U2 | U4 | U8.
Definition osz_n (o : offset_size_t) : N :=
  match o with U0 => 0 | U1 => 1 | U2 => 2 | U4 => 4 | U8 => 8 end.

(** [offset_size] (lib.rs:1372-1381).  The [unreachable!()] arm needs a length
    of 2^64 or more. *)
Definition offset_size (len : N) : offset_size_t :=
  if len =? 0 then U0
  else if len <=? 0xFF then U1
  else if len <=? 0xFFFF then U2
  else if len <=? 0xFFFFFFFF then U4
  else U8.

(** [read_uint] (lib.rs:1384-1393). *)
Definition read_uint (h : host) (data : list byte) (size : offset_size_t) (n : N) : res N :=
  let* s := umul h n (osz_n size) in
  match size with
  | U0 => Ok 0
  | U1 => let* b := bs_at data s in Ok (b2n b)
  | U2 => let* e := uadd h s 2 in let* bs := bs_range data s e in Ok (of_le bs)
  | U4 => let* e := uadd h s 4 in let* bs := bs_range data s e in Ok (of_le bs)
  | U8 => let* e := uadd h s 8 in let* bs := bs_range data s e in Ok (of_le bs)
  end.

(** [read_last_frame_offset] (lib.rs:1395-1415). *)
Definition read_last_frame_offset (h : host) (data : list byte) : res (offset_size_t * N) :=
  let osz := offset_size (blen data) in
  match osz with
  | U0 => Ok (U1, 0)
  | _ =>
      let* p := usub h (blen data) (osz_n osz) in
      let* tail := bs_from data p in
      let* last := read_uint h tail osz 0 in
      if blen data <? last then Ok (osz, blen data)
      else
        let* size := usub h (blen data) last in
        if size mod osz_n osz =? 0 then Ok (osz, last) else Ok (osz, blen data)
  end.

(** ** NonFixedWidthArray (lib.rs:1427-1622); [x] is the element type *)

(** [len] (1469-1479), [is_empty] (1481-1483). *)
Definition nfwa_len (h : host) (s : slice) : res N :=
  let* p := read_last_frame_offset h (s_data s) in
  let* d := usub h (slen s) (snd p) in
  Ok (d / osz_n (fst p)).
Definition nfwa_is_empty (h : host) (s : slice) : res bool :=
  let* n := nfwa_len h s in Ok (n =? 0).

(** [NonFixedWidthArrayIterator] (1527-1534). *)
Record nfwa_iter := NfwaIter {
  it_data : slice;
  it_offsets : list byte;
  it_next_start : N;
  it_offset_idx : N;
  it_osz : offset_size_t }.

(** [into_iter] (1588-1598), [iter] (1485-1487). *)
Definition nfwa_into_iter (h : host) (x : ty) (s : slice) : res nfwa_iter :=
  let* p := read_last_frame_offset h (s_data s) in
  let* d := split_at h (trait_align x) s (snd p) in
  Ok (NfwaIter (fst d) (s_data (snd d)) 0 0 (fst p)).

(** [Iterator::next] (1555-1573). *)
Definition nfwa_next (h : host) (x : ty) (it : nfwa_iter) : res (option slice * nfwa_iter) :=
  if blen (it_offsets it) <=? it_offset_idx it then Ok (None, it)
  else
    let* start := align_offset h (trait_align x) (it_next_start it) in
    let* tail := bs_from (it_offsets it) (it_offset_idx it) in
    let* end_ := read_uint h tail (it_osz it) 0 in
    let* idx := uadd h (it_offset_idx it) (osz_n (it_osz it)) in
    let it' := NfwaIter (it_data it) (it_offsets it) end_ idx (it_osz it) in
    if (end_ <? start) || (slen (it_data it) <? end_) then
      let* e := empty_aligned h (trait_align x) in
      let* r := cast_unwrap h x e in
      Ok (Some r, it')
    else
      let* a := ix_to h (trait_align x) (it_data it) end_ in
      let* b := ix_from_al h (trait_align x) a start in
      let* r := cast_unwrap h x b in
      Ok (Some r, it').

(** [size_hint] (1574-1580), [ExactSizeIterator] (1583). *)
Definition nfwa_size_hint (h : host) (it : nfwa_iter) : res N :=
  match it_osz it with
  | U0 => Ok 0
  | o => let* d := usub h (blen (it_offsets it)) (it_offset_idx it) in Ok (d / osz_n o)
  end.

(** Draining the iterator ([for child in self], [collect]).  [fuel] bounds the
    number of items; running out of it is reported as [Diverges]. *)
Fixpoint nfwa_collect (h : host) (x : ty) (fuel : nat) (it : nfwa_iter) : res (list slice) :=
  match fuel with
  | O => Crash Diverges
  | S f =>
      let* p := nfwa_next h x it in
      match fst p with
      | None => Ok []
      | Some r => let* rs := nfwa_collect h x f (snd p) in Ok (r :: rs)
      end
  end.
Definition nfwa_items (h : host) (x : ty) (s : slice) : res (list slice) :=
  let* it := nfwa_into_iter h x s in
  nfwa_collect h x (S (length (s_data s))) it.

(** [Index<usize>] (1600-1622). *)
Definition nfwa_index (h : host) (x : ty) (s : slice) (index : N) : res slice :=
  let* p := read_last_frame_offset h (s_data s) in
  let osz := fst p in
  let lfo := snd p in
  let* frame_offsets := bs_from (s_data s) lfo in
  let* end_ := read_uint h frame_offsets osz index in
  let* prev := (if index =? 0 then Ok 0
                else let* i := usub h index 1 in read_uint h frame_offsets osz i) in
  let* start := align_offset h (trait_align x) prev in
  if (start <? slen s) && (end_ <=? lfo) && (start <=? end_) then
    let* a := ix_to h (trait_align x) s end_ in
    let* b := ix_from_al h (trait_align x) a start in
    cast_unwrap h x b
  else
    let* e := empty_aligned h (trait_align x) in
    cast_unwrap h x e.

(** [first], [last] (1489-1503). *)
Definition nfwa_first (h : host) (x : ty) (s : slice) : res (option slice) :=
  let* e := nfwa_is_empty h s in
  if e then Ok None else let* r := nfwa_index h x s 0 in Ok (Some r).
Definition nfwa_last (h : host) (x : ty) (s : slice) : res (option slice) :=
  let* e := nfwa_is_empty h s in
  if e then Ok None
  else
    let* n := nfwa_len h s in
    let* i := usub h n 1 in
    let* r := nfwa_index h x s i in Ok (Some r).

(** ** Fixed-width arrays are Rust slices [&[T]] (lib.rs:1285-1313); element i
    of a slice of elements of [size] bytes. *)
Definition slice_elem (size : N) (s : slice) (i : N) : slice :=
  Slice (s_addr s + i * size) (take size (drop (i * size) (s_data s))).
Definition slice_elems (size : N) (s : slice) : list slice :=
  map (fun i => slice_elem size s (N.of_nat i)) (seq 0 (N.to_nat (slen s / size))).

(** Elements of an array of type [TA x], whichever representation. *)
Definition array_refs (h : host) (x : ty) (s : slice) : res (list slice) :=
  match size_of x with
  | Some _ => match mem_layout x with
              | Some (size, _) => Ok (slice_elems size s)
              | None => Crash NoCompile
              end
  | None => nfwa_items h x s
  end.

(** ** Maybes: [to_option] of MaybeFixedSize (lib.rs:1731-1746) and
    MaybeNonFixedSize (1875-1890); conversion into [Option] (1749-1753,
    1922-1926) and [into_iter] (1803-1809, 1914-1920) only call it. *)
Definition to_option (h : host) (x : ty) (s : slice) : res (option slice) :=
  match size_of x with
  | Some _ => try_from_aligned_slice h x s
  | None =>
      if slen s =? 0 then Ok None
      else
        let* n := usub h (slen s) 1 in
        let* a := ix_to h (trait_align x) s n in
        let* r := cast_unwrap h x a in
        Ok (Some r)
  end.

(** ** Variant (lib.rs:1121-1227) *)

(** [split] (1208-1218): (type string, data). *)
Definition variant_split (h : host) (s : slice) : res (slice * slice) :=
  match memrchr0 (s_data s) with
  | Some mid =>
      let* p := split_at h 8 s mid in
      let* ts := sl_from (snd p) 1 in
      Ok (ts, fst p)
  | None =>
      let* e := empty_aligned h 8 in
      Ok (Slice (h_str8 h) ["("; ")"]%byte, e)
  end.

(** [get] (1180-1190) with the marker [gv!(t)]; its TYPESTR (589) is the type
    string, [display t]. *)
Definition variant_get (h : host) (t : ty) (s : slice) : res (option slice) :=
  let* p := variant_split h s in
  if bytes_eqb (s_data (fst p)) (display t) then
    let* d := as_aligned 8 (trait_align t) (snd p) in
    let* r := cast h t d in
    Ok (Some r)
  else Ok None.

(** ** Structures *)

(** [nth_last_frame_offset] (lib.rs:2053-2061). *)
Definition nth_last_frame_offset (h : host) (data : list byte) (osz : offset_size_t) (n : N)
  : res (option N) :=
  if n =? 0 then Ok (Some 0)
  else
    let* m := umul h n (osz_n osz) in
    match checked_sub (blen data) m with
    | Some off =>
        let* tail := bs_from data off in
        let* v := read_uint h tail osz 0 in
        Ok (Some v)
    | None => Ok None
    end.

(** Start of a child in [calc_offsets] (lib.rs:2080-2081):
    [align_offset::<B>(fo + a).into() + AlignedOffset::<ChildAlign>::try_new(c).unwrap()]. *)
Definition calc_start (h : host) (child_align b fo a c : N) : res N :=
  let* x := uadd h fo a in
  let* x := align_offset h b x in
  let* x := ao_into b child_align x in
  let* c := (match try_new child_align c with
             | Some c => Ok c
             | None => Crash PUnwrap
             end) in
  ao_add h x c.

(** [calc_offsets] (lib.rs:2064-2094). *)
Definition calc_offsets (h : host) (child_align b : N) (data : list byte) (i : Z) (a c : N)
  (size : option N) (last_child : bool) (n_frame_offsets : N) : res (option (N * N)) :=
  let osz := offset_size (blen data) in
  let* fo := nth_last_frame_offset h data osz (Z.to_N (i + 1)) in
  match fo with
  | None => Ok None
  | Some fo =>
      let* m := umul h (osz_n osz) n_frame_offsets in
      match checked_sub (blen data) m with
      | None => Ok None
      | Some data_end =>
          let* start := calc_start h child_align b fo a c in
          let* end_ :=
            (match size with
             | Some size => let* e := uadd h start size in Ok (Some e)
             | None => if last_child then Ok (Some data_end)
                       else nth_last_frame_offset h data osz (Z.to_N (i + 2))
             end) in
          match end_ with
          | None => Ok None
          | Some end_ =>
              if (start <=? end_) && (end_ <=? data_end) then Ok (Some (start, end_))
              else Ok None
          end
      end
  end.

(** [get_child_elem] (lib.rs:2105-2129). *)
Definition get_child_elem (h : host) (t : ty) (b : N) (data : slice) (i : Z) (a c : N)
  (child_size : option N) (last_child : bool) (n_frame_offsets : N) : res slice :=
  let* o := calc_offsets h (trait_align t) b (s_data data) i a c child_size last_child
                         n_frame_offsets in
  match o with
  | Some (start, end_) =>
      let* x := ix_to h (trait_align t) data end_ in
      let* y := ix_from_al h (trait_align t) x start in
      from_aligned_slice h t y
  | None => default_ref h t
  end.

(** [to_tuple] of a non-fixed-size structure (generate_impl.rs:124-175): one
    [get_child_elem] call per child, with the table row, child size, "last"
    flag and number of framing offsets written into the generated code. *)
Fixpoint nonfixed_refs (h : host) (al nfo : N) (s : slice) (children : list ty) (rows : list row)
  : res (list slice) :=
  match children, rows with
  | child :: children', (i, a, b, c) :: rows' =>
      let last_child := match children' with [] => true | _ => false end in
      let* d := as_aligned al (trait_align child) s in
      let* r := get_child_elem h child b d i a c (size_of child) last_child nfo in
      let* rs := nonfixed_refs h al nfo s children' rows' in
      Ok (r :: rs)
  | _, _ => Ok []
  end.

(** [&self.field_n] (generate_impl.rs:443): a reference to [lay] bytes at the
    field's offset. *)
Definition field_ref (s : slice) (off : N) (lay : N * N) : res slice :=
  let '(size, al) := lay in
  if (s_addr s + off) mod al =? 0
  then Ok (Slice (s_addr s + off) (take size (drop off (s_data s))))
  else Crash UBMisaligned.
Fixpoint field_refs (s : slice) (offs : list N) (lays : list (N * N)) : res (list slice) :=
  match offs, lays with
  | o :: offs', l :: lays' =>
      let* r := field_ref s o l in
      let* rs := field_refs s offs' lays' in
      Ok (r :: rs)
  | _, _ => Ok []
  end.

(** [Structure::to_tuple] (generate_impl.rs:124-175 and 478-483). *)
Definition to_tuple (h : host) (t : ty) (s : slice) : res (list slice) :=
  let children := children_of t in
  match size_of t with
  | Some _ =>
      match field_offsets t, mem_layouts children with
      | Some offs, Some lays => field_refs s offs lays
      | _, _ => Crash NoCompile
      end
  | None =>
      nonfixed_refs h (align_of t) (n_frame_offsets children) s children
                    (generate_table children)
  end.

(** ** Reading a whole value through the accessors *)

(** Two's complement. *)
Definition signed (bits n : N) : Z :=
  if N.testbit n (bits - 1) then (Z.of_N n - 2 ^ Z.of_N bits)%Z else Z.of_N n.

(** Reads everything below a reference to a value of type [t]: numbers by
    dereferencing, [Bool::to_bool] (lib.rs:1975-1977; [bool::from], 2003-2007), [Str::to_str], elements,
    [to_option], [to_tuple]; a variant is reported as its [split]. *)
Fixpoint read (h : host) (t : ty) (s : slice) {struct t} : res value :=
  let num := of_ne h (s_data s) in
  match t with
  | TB => Ok (VBool (0 <? num))
  | TY => Ok (VInt (Z.of_N num))
  | TN => Ok (VInt (signed 16 num))
  | TQ => Ok (VInt (Z.of_N num))
  | TI => Ok (VInt (signed 32 num))
  | TU => Ok (VInt (Z.of_N num))
  | TX => Ok (VInt (signed 64 num))
  | TT => Ok (VInt (Z.of_N num))
  | TD => Ok (VDouble num)
  | TS | TO | TG => Ok (VStr (to_str (s_data s)))
  | TV => let* p := variant_split h s in Ok (VVariant (s_data (fst p)) (s_data (snd p)))
  | TA x =>
      let* rs := array_refs h x s in
      let* vs := mapM (read h x) rs in
      Ok (VArray vs)
  | TM x =>
      let* o := to_option h x s in
      match o with
      | Some r => let* v := read h x r in Ok (VMaybe (Some v))
      | None => Ok (VMaybe None)
      end
  | TTuple ts =>
      let* rs := to_tuple h t s in
      let* vs := (fix go (ts : list ty) (rs : list slice) : res (list value) :=
                    match ts, rs with
                    | t :: ts', r :: rs' =>
                        let* v := read h t r in
                        let* vs := go ts' rs' in
                        Ok (v :: vs)
                    | _, _ => Ok []
                    end) ts rs in
      Ok (VTuple vs)
  | TDict a b =>
      let* rs := to_tuple h t s in
      match rs with
      | [ra; rb] =>
          let* va := read h a ra in
          let* vb := read h b rb in
          Ok (VTuple [va; vb])
      | _ => Ok (VTuple [])
      end
  end.

(** Cast, then read everything. *)
Definition decode (h : host) (t : ty) (s : slice) : res value :=
  let* r := cast h t s in read h t r.

(** ** [PartialEq] *)

(** IEEE equality of f64. *)
Definition f64_is_nan (bits : N) : bool := 0x7FF0000000000000 <? N.land bits 0x7FFFFFFFFFFFFFFF.
Definition f64_eq (a b : N) : bool :=
  if f64_is_nan a || f64_is_nan b then false
  else (a =? b) || (N.land (N.lor a b) 0x7FFFFFFFFFFFFFFF =? 0).

(** [NonFixedWidthArray::eq] (lib.rs:1506-1518): [self.iter().zip(other)] with
    an early exit. *)
Fixpoint nfwa_eq_go (h : host) (x : ty) (eqx : slice -> slice -> res bool) (fuel : nat)
  (ia ib : nfwa_iter) : res bool :=
  match fuel with
  | O => Crash Diverges
  | S f =>
      let* p := nfwa_next h x ia in
      match fst p with
      | None => Ok true
      | Some a =>
          let* q := nfwa_next h x ib in
          match fst q with
          | None => Ok true
          | Some b =>
              let* e := eqx a b in
              if e then nfwa_eq_go h x eqx f (snd p) (snd q) else Ok false
          end
      end
  end.
Definition nfwa_eq (h : host) (x : ty) (eqx : slice -> slice -> res bool) (a b : slice) : res bool :=
  let* la := nfwa_len h a in
  let* lb := nfwa_len h b in
  if la =? lb then
    let* ia := nfwa_into_iter h x a in
    let* ib := nfwa_into_iter h x b in
    nfwa_eq_go h x eqx (S (length (s_data a))) ia ib
  else Ok false.

(** [&&] chains over fields, and slice equality of [[T]] (core::slice). *)
Fixpoint eq_all (eqx : slice -> slice -> res bool) (xs ys : list slice) : res bool :=
  match xs, ys with
  | [], [] => Ok true
  | x :: xs', y :: ys' => let* e := eqx x y in if e then eq_all eqx xs' ys' else Ok false
  | _, _ => Ok false
  end.

(** [==] on two references to values of the same type: numbers (native), Bool
    (lib.rs:2008-2012), Str (830-835), Variant (1221-1227), slices,
    NonFixedWidthArray (1506-1518), maybes (1755-1759, 1928-1932: [Option]
    equality of the two [to_option]), structures (generate_impl.rs:227-231:
    tuple equality; 454,496-500: field by field). *)
Fixpoint gv_eq (h : host) (t : ty) (a b : slice) {struct t} : res bool :=
  let na := of_ne h (s_data a) in
  let nb := of_ne h (s_data b) in
  match t with
  | TB => Ok (Bool.eqb (0 <? na) (0 <? nb))
  | TY | TN | TQ | TI | TU | TX | TT => Ok (na =? nb)
  | TD => Ok (f64_eq na nb)
  | TS | TO | TG => Ok (str_eq (s_data a) (s_data b))
  | TV =>
      let* p := variant_split h a in
      let* q := variant_split h b in
      Ok (bytes_eqb (s_data (fst p)) (s_data (fst q)) && bytes_eqb (s_data (snd p)) (s_data (snd q)))
  | TA x =>
      match size_of x with
      | Some _ =>
          match mem_layout x with
          | Some (size, _) =>
              if slen a / size =? slen b / size
              then eq_all (gv_eq h x) (slice_elems size a) (slice_elems size b)
              else Ok false
          | None => Crash NoCompile
          end
      | None => nfwa_eq h x (gv_eq h x) a b
      end
  | TM x =>
      let* oa := to_option h x a in
      let* ob := to_option h x b in
      match oa, ob with
      | None, None => Ok true
      | Some ra, Some rb => gv_eq h x ra rb
      | _, _ => Ok false
      end
  | TTuple ts =>
      let* ra := to_tuple h t a in
      let* rb := to_tuple h t b in
      (fix go (ts : list ty) (xs ys : list slice) : res bool :=
         match ts, xs, ys with
         | t :: ts', x :: xs', y :: ys' =>
             let* e := gv_eq h t x y in
             if e then go ts' xs' ys' else Ok false
         | _, _, _ => Ok true
         end) ts ra rb
  | TDict k v =>
      let* ra := to_tuple h t a in
      let* rb := to_tuple h t b in
      match ra, rb with
      | [ka; va], [kb; vb] =>
          let* e := gv_eq h k ka kb in
          if e then gv_eq h v va vb else Ok false
      | _, _ => Ok true
      end
  end.
