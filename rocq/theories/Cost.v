(** How many steps reading takes.

    The functions of [Deser] and [Strs] once more, line by line, with a count of
    steps beside the result.  A step is an operation on [usize], a comparison, an
    assertion, taking part of a slice, loading an integer of up to eight bytes, a
    cast, or a call into core for one of these; [memchr], [memrchr], [from_utf8] and
    comparing slices take one step per byte looked at, and one more.  What the
    compiler does about the steps is not modelled.  [CostFacts] shows that without
    the counts these are the functions of [Deser] and [Strs]. *)
From Verif Require Import Base Types Layout AlignedBytes Strs Spec Deser.

Definition timed (A : Type) : Type := N * res A.
Definition steps_of {A} (m : timed A) : N := fst m.
Definition result_of {A} (m : timed A) : res A := snd m.
Definition costs {A} (n : N) (m : res A) : timed A := (n, m).
Definition tbind {A B} (m : timed A) (f : A -> timed B) : timed B :=
  match snd m with
  | Ok a => let r := f a in (fst m + fst r, snd r)
  | Crash c => (fst m, Crash c)
  end.
Notation "'let+' x := m 'in' f" := (tbind m (fun x => f))
  (at level 200, x pattern, m at level 100, f at level 200).
Definition now {A} (a : A) : timed A := costs 0 (Ok a).

(** [align_offset] (offset.rs:43-48): three sums and differences, [!], [&]. *)
Definition align_offset_t (h : host) (A idx : N) : timed N :=
  let+ x := costs 1 (uadd h idx A) in
  let+ x := costs 1 (usub h x 1) in
  let+ m := costs 1 (usub h A 1) in
  costs 2 (Ok (uand x (unot m))).

(** [to_alignedslice_unchecked] (aligned_bytes.rs:534-550): the assertion and the
    cast. *)
Definition unchecked_t (h : host) (A : N) (s : slice) : timed slice := costs 2 (unchecked h A s).
(** [split_at] (aligned_bytes.rs:249-254). *)
Definition split_at_t (h : host) (A : N) (s : slice) (mid : N) : timed (slice * slice) :=
  let+ before := costs 1 (sl_to s mid) in
  let+ after := costs 1 (sl_from s mid) in
  let+ before := unchecked_t h A before in
  now (before, after).
(** The indexing operators used for reading (aligned_bytes.rs:387-393, 452-459). *)
Definition ix_to_t (h : host) (A : N) (s : slice) (e : N) : timed slice :=
  let+ x := costs 1 (sl_to s e) in unchecked_t h A x.
Definition ix_from_al_t (h : host) (A : N) (s : slice) (b : N) : timed slice :=
  let+ x := costs 1 (sl_from s b) in unchecked_t h A x.
(** [align_bytes] (aligned_bytes.rs:595-599): negation, difference, [&], slicing,
    then the check of [try_as_aligned] and [unwrap]; [empty_aligned] (605-607). *)
Definition align_bytes_t (h : host) (A : N) (value : slice) : timed slice := costs 6 (align_bytes h A value).
Definition empty_aligned_t (h : host) (A : N) : timed slice :=
  let+ x := align_bytes_t h A (str8 h) in ix_to_t h A x 0.

(** [try_from_aligned_slice] (see [Deser]): at most the comparison of alignments, the
    remainder and its comparison, the assertion and the cast (casting.rs:74-112). *)
Definition try_from_aligned_slice_t (h : host) (t : ty) (s : slice) : timed (option slice) :=
  costs 5 (try_from_aligned_slice h t s).
(** [default_ref] (see [Deser]): a static, or [empty_aligned]. *)
Definition default_ref_t (h : host) (t : ty) : timed slice :=
  match size_of t with
  | Some _ => costs 1 (default_ref h t)
  | None =>
      match t with
      | TS | TO | TG => costs 1 (default_ref h t)
      | TA x => if is_fixed x then costs 1 (default_ref h t) else empty_aligned_t h (trait_align t)
      | _ => empty_aligned_t h (trait_align t)
      end
  end.
(** [from_aligned_slice] (lib.rs:638-643). *)
Definition from_aligned_slice_t (h : host) (t : ty) (s : slice) : timed slice :=
  let+ r := try_from_aligned_slice_t h t s in
  match r with
  | Some x => now x
  | None => default_ref_t h t
  end.
Definition cast_unwrap_t (h : host) (t : ty) (s : slice) : timed slice :=
  let+ r := try_from_aligned_slice_t h t s in
  match r with
  | Some x => now x
  | None => costs 0 (Crash PUnwrap)
  end.

(** [read_uint] (lib.rs:1384-1393). *)
Definition read_uint_t (h : host) (data : list byte) (size : offset_size_t) (n : N) : timed N :=
  let+ s := costs 1 (umul h n (osz_n size)) in
  match size with
  | U0 => now 0
  | U1 => let+ b := costs 1 (bs_at data s) in costs 1 (Ok (b2n b))
  | U2 => let+ e := costs 1 (uadd h s 2) in let+ bs := costs 1 (bs_range data s e) in costs 1 (Ok (of_le bs))
  | U4 => let+ e := costs 1 (uadd h s 4) in let+ bs := costs 1 (bs_range data s e) in costs 1 (Ok (of_le bs))
  | U8 => let+ e := costs 1 (uadd h s 8) in let+ bs := costs 1 (bs_range data s e) in costs 1 (Ok (of_le bs))
  end.
(** [read_last_frame_offset] (lib.rs:1395-1415); [offset_size] (1372-1381) is at most
    five comparisons. *)
Definition read_last_frame_offset_t (h : host) (data : list byte) : timed (offset_size_t * N) :=
  let+ osz := costs 5 (Ok (offset_size (blen data))) in
  match osz with
  | U0 => now (U1, 0)
  | _ =>
      let+ p := costs 1 (usub h (blen data) (osz_n osz)) in
      let+ tail := costs 1 (bs_from data p) in
      let+ last := read_uint_t h tail osz 0 in
      let+ c := costs 1 (Ok (blen data <? last)) in
      if c then now (osz, blen data)
      else
        let+ size := costs 1 (usub h (blen data) last) in
        let+ c := costs 2 (Ok (size mod osz_n osz =? 0)) in
        if c then now (osz, last) else now (osz, blen data)
  end.

(** [NonFixedWidthArray]: [len], [is_empty] (lib.rs:1469-1483). *)
Definition nfwa_len_t (h : host) (s : slice) : timed N :=
  let+ p := read_last_frame_offset_t h (s_data s) in
  let+ d := costs 1 (usub h (slen s) (snd p)) in
  costs 1 (Ok (d / osz_n (fst p))).
Definition nfwa_is_empty_t (h : host) (s : slice) : timed bool :=
  let+ n := nfwa_len_t h s in costs 1 (Ok (n =? 0)).
(** [into_iter] (1588-1598). *)
Definition nfwa_into_iter_t (h : host) (x : ty) (s : slice) : timed nfwa_iter :=
  let+ p := read_last_frame_offset_t h (s_data s) in
  let+ d := split_at_t h (trait_align x) s (snd p) in
  now (NfwaIter (fst d) (s_data (snd d)) 0 0 (fst p)).
(** [next] (1555-1573). *)
Definition nfwa_next_t (h : host) (x : ty) (it : nfwa_iter) : timed (option slice * nfwa_iter) :=
  let+ c := costs 1 (Ok (blen (it_offsets it) <=? it_offset_idx it)) in
  if c then now (None, it)
  else
    let+ start := align_offset_t h (trait_align x) (it_next_start it) in
    let+ tail := costs 1 (bs_from (it_offsets it) (it_offset_idx it)) in
    let+ end_ := read_uint_t h tail (it_osz it) 0 in
    let+ idx := costs 1 (uadd h (it_offset_idx it) (osz_n (it_osz it))) in
    let it' := NfwaIter (it_data it) (it_offsets it) end_ idx (it_osz it) in
    let+ c := costs 2 (Ok ((end_ <? start) || (slen (it_data it) <? end_))) in
    if c then
      let+ e := empty_aligned_t h (trait_align x) in
      let+ r := cast_unwrap_t h x e in
      now (Some r, it')
    else
      let+ a := ix_to_t h (trait_align x) (it_data it) end_ in
      let+ b := ix_from_al_t h (trait_align x) a start in
      let+ r := cast_unwrap_t h x b in
      now (Some r, it').
(** [size_hint] (1574-1580). *)
Definition nfwa_size_hint_t (h : host) (it : nfwa_iter) : timed N :=
  match it_osz it with
  | U0 => now 0
  | o => let+ d := costs 1 (usub h (blen (it_offsets it)) (it_offset_idx it)) in costs 1 (Ok (d / osz_n o))
  end.
(** Draining the iterator, as in [Deser] (1555-1598). *)
Fixpoint nfwa_collect_t (h : host) (x : ty) (fuel : nat) (it : nfwa_iter) : timed (list slice) :=
  match fuel with
  | O => costs 0 (Crash Diverges)
  | S f =>
      let+ p := nfwa_next_t h x it in
      match fst p with
      | None => now []
      | Some r => let+ rs := nfwa_collect_t h x f (snd p) in now (r :: rs)
      end
  end.
Definition nfwa_items_t (h : host) (x : ty) (s : slice) : timed (list slice) :=
  let+ it := nfwa_into_iter_t h x s in
  nfwa_collect_t h x (S (length (s_data s))) it.
(** [Index<usize>] (1600-1622). *)
Definition nfwa_index_t (h : host) (x : ty) (s : slice) (index : N) : timed slice :=
  let+ p := read_last_frame_offset_t h (s_data s) in
  let osz := fst p in
  let lfo := snd p in
  let+ frame_offsets := costs 1 (bs_from (s_data s) lfo) in
  let+ end_ := read_uint_t h frame_offsets osz index in
  let+ c := costs 1 (Ok (index =? 0)) in
  let+ prev := (if c then now 0
                else let+ i := costs 1 (usub h index 1) in read_uint_t h frame_offsets osz i) in
  let+ start := align_offset_t h (trait_align x) prev in
  let+ c := costs 3 (Ok ((start <? slen s) && (end_ <=? lfo) && (start <=? end_))) in
  if c then
    let+ a := ix_to_t h (trait_align x) s end_ in
    let+ b := ix_from_al_t h (trait_align x) a start in
    cast_unwrap_t h x b
  else
    let+ e := empty_aligned_t h (trait_align x) in
    cast_unwrap_t h x e.
(** [first], [last] (1489-1503). *)
Definition nfwa_first_t (h : host) (x : ty) (s : slice) : timed (option slice) :=
  let+ e := nfwa_is_empty_t h s in
  if e then now None else let+ r := nfwa_index_t h x s 0 in now (Some r).
Definition nfwa_last_t (h : host) (x : ty) (s : slice) : timed (option slice) :=
  let+ e := nfwa_is_empty_t h s in
  if e then now None
  else
    let+ n := nfwa_len_t h s in
    let+ i := costs 1 (usub h n 1) in
    let+ r := nfwa_index_t h x s i in now (Some r).
(** Going through an array: for a Rust slice, one step per element. *)
Definition array_refs_t (h : host) (x : ty) (s : slice) : timed (list slice) :=
  match size_of x with
  | Some _ => match mem_layout x with
              | Some (size, _) => costs (1 + slen s / size) (Ok (slice_elems size s))
              | None => costs 0 (Crash NoCompile)
              end
  | None => nfwa_items_t h x s
  end.

(** [to_option] (lib.rs:1731-1746, 1875-1890). *)
Definition to_option_t (h : host) (x : ty) (s : slice) : timed (option slice) :=
  match size_of x with
  | Some _ => try_from_aligned_slice_t h x s
  | None =>
      let+ c := costs 1 (Ok (slen s =? 0)) in
      if c then now None
      else
        let+ n := costs 1 (usub h (slen s) 1) in
        let+ a := ix_to_t h (trait_align x) s n in
        let+ r := cast_unwrap_t h x a in
        now (Some r)
  end.

(** [memrchr] looks from the end up to the NUL it finds; [Variant::split]
    (lib.rs:1208-1218). *)
Definition variant_split_t (h : host) (s : slice) : timed (slice * slice) :=
  let+ m := costs (1 + match memrchr0 (s_data s) with Some mid => slen s - mid | None => slen s end) (Ok (memrchr0 (s_data s))) in
  match m with
  | Some mid =>
      let+ p := split_at_t h 8 s mid in
      let+ ts := costs 1 (sl_from (snd p) 1) in
      now (ts, fst p)
  | None =>
      let+ e := empty_aligned_t h 8 in
      now (Slice (h_str8 h) ["("; ")"]%byte, e)
  end.
(** [Variant::get] (1180-1190); slices of different lengths are not compared byte by
    byte. *)
Definition variant_get_t (h : host) (t : ty) (s : slice) : timed (option slice) :=
  let+ p := variant_split_t h s in
  let+ e := costs (1 + if slen (fst p) =? blen (display t) then blen (display t) else 0)
                  (Ok (bytes_eqb (s_data (fst p)) (display t))) in
  if e then
    let+ d := costs 1 (as_aligned 8 (trait_align t) (snd p)) in
    let+ r := from_aligned_slice_t h t d in
    now (Some r)
  else now None.

(** [nth_last_frame_offset] (lib.rs:2053-2061). *)
Definition nth_last_frame_offset_t (h : host) (data : list byte) (osz : offset_size_t) (n : N) : timed (option N) :=
  let+ z := costs 1 (Ok (n =? 0)) in
  if z then now (Some 0)
  else
    let+ m := costs 1 (umul h n (osz_n osz)) in
    let+ o := costs 1 (Ok (checked_sub (blen data) m)) in
    match o with
    | Some off =>
        let+ tail := costs 1 (bs_from data off) in
        let+ v := read_uint_t h tail osz 0 in
        now (Some v)
    | None => now None
    end.
(** Start of a child (lib.rs:2080-2081). *)
Definition calc_start_t (h : host) (child_align b fo a c : N) : timed N :=
  let+ x := costs 1 (uadd h fo a) in
  let+ x := align_offset_t h b x in
  let+ x := costs 1 (ao_into b child_align x) in
  let+ c := costs 2 (match try_new child_align c with
                     | Some c => Ok c
                     | None => Crash PUnwrap
                     end) in
  costs 1 (ao_add h x c).
(** [calc_offsets] (lib.rs:2064-2094). *)
Definition calc_offsets_t (h : host) (child_align b : N) (data : list byte) (i : Z) (a c : N)
  (size : option N) (last_child : bool) (n_frame_offsets : N) : timed (option (N * N)) :=
  let+ osz := costs 5 (Ok (offset_size (blen data))) in
  let+ fo := nth_last_frame_offset_t h data osz (Z.to_N (i + 1)) in
  match fo with
  | None => now None
  | Some fo =>
      let+ m := costs 1 (umul h (osz_n osz) n_frame_offsets) in
      let+ o := costs 1 (Ok (checked_sub (blen data) m)) in
      match o with
      | None => now None
      | Some data_end =>
          let+ start := calc_start_t h child_align b fo a c in
          let+ end_ :=
            (match size with
             | Some size => let+ e := costs 1 (uadd h start size) in now (Some e)
             | None => if last_child then now (Some data_end)
                       else nth_last_frame_offset_t h data osz (Z.to_N (i + 2))
             end) in
          match end_ with
          | None => now None
          | Some end_ =>
              let+ g := costs 2 (Ok ((start <=? end_) && (end_ <=? data_end))) in
              if g then now (Some (start, end_)) else now None
          end
      end
  end.
(** [get_child_elem] (lib.rs:2105-2129). *)
Definition get_child_elem_t (h : host) (t : ty) (b : N) (data : slice) (i : Z) (a c : N)
  (child_size : option N) (last_child : bool) (n_frame_offsets : N) : timed slice :=
  let+ o := calc_offsets_t h (trait_align t) b (s_data data) i a c child_size last_child n_frame_offsets in
  match o with
  | Some (start, end_) =>
      let+ x := ix_to_t h (trait_align t) data end_ in
      let+ y := ix_from_al_t h (trait_align t) x start in
      from_aligned_slice_t h t y
  | None => default_ref_t h t
  end.
(** [to_tuple] (generate_impl.rs:124-175 and 478-483). *)
Fixpoint nonfixed_refs_t (h : host) (al nfo : N) (s : slice) (children : list ty) (rows : list row)
  : timed (list slice) :=
  match children, rows with
  | child :: children', (i, a, b, c) :: rows' =>
      let last_child := match children' with [] => true | _ => false end in
      let+ d := costs 1 (as_aligned al (trait_align child) s) in
      let+ r := get_child_elem_t h child b d i a c (size_of child) last_child nfo in
      let+ rs := nonfixed_refs_t h al nfo s children' rows' in
      now (r :: rs)
  | _, _ => now []
  end.
Fixpoint field_refs_t (s : slice) (offs : list N) (lays : list (N * N)) : timed (list slice) :=
  match offs, lays with
  | o :: offs', l :: lays' =>
      let+ r := costs 1 (field_ref s o l) in
      let+ rs := field_refs_t s offs' lays' in
      now (r :: rs)
  | _, _ => now []
  end.
Definition to_tuple_t (h : host) (t : ty) (s : slice) : timed (list slice) :=
  let children := children_of t in
  match size_of t with
  | Some _ =>
      match field_offsets t, mem_layouts children with
      | Some offs, Some lays => field_refs_t s offs lays
      | _, _ => costs 0 (Crash NoCompile)
      end
  | None =>
      nonfixed_refs_t h (align_of t) (n_frame_offsets children) s children (generate_table children)
  end.

(** [as_bytes_non_conformant] (lib.rs:739-745): [last], the difference, slicing. *)
Definition as_bytes_non_conformant_t (d : list byte) : timed (list byte) := costs 3 (Ok (as_bytes_non_conformant d)).
(** [to_str] (lib.rs:758-768).  [memchr] stops at the first NUL, [from_utf8] at the
    first byte that does not belong there; both are taken to look at everything. *)
Definition to_str_t (d : list byte) : timed (list byte) :=
  let+ b := as_bytes_non_conformant_t d in
  let+ n := costs (1 + blen b) (Ok (has_nul b)) in
  if n then now []
  else
    let+ b := as_bytes_non_conformant_t d in
    let+ v := costs (1 + blen b) (Ok (valid_utf8 b)) in
    if v then now b else now [].

(** Reading everything, as [Deser.read] does (lib.rs:1975-1977 for booleans): a step
    for each number. *)
Fixpoint read_t (h : host) (t : ty) (s : slice) {struct t} : timed value :=
  match t with
  | TB | TY | TN | TQ | TI | TU | TX | TT | TD => costs 1 (read h t s)
  | TS | TO | TG => let+ x := to_str_t (s_data s) in now (VStr x)
  | TV => let+ p := variant_split_t h s in now (VVariant (s_data (fst p)) (s_data (snd p)))
  | TA x =>
      let+ rs := array_refs_t h x s in
      let+ vs := (fix go (rs : list slice) : timed (list value) :=
                    match rs with
                    | [] => now []
                    | r :: rs => let+ v := read_t h x r in let+ vs := go rs in now (v :: vs)
                    end) rs in
      now (VArray vs)
  | TM x =>
      let+ o := to_option_t h x s in
      match o with
      | Some r => let+ v := read_t h x r in now (VMaybe (Some v))
      | None => now (VMaybe None)
      end
  | TTuple ts =>
      let+ rs := to_tuple_t h t s in
      let+ vs := (fix go (ts : list ty) (rs : list slice) : timed (list value) :=
                    match ts, rs with
                    | t :: ts', r :: rs' =>
                        let+ v := read_t h t r in
                        let+ vs := go ts' rs' in
                        now (v :: vs)
                    | _, _ => now []
                    end) ts rs in
      now (VTuple vs)
  | TDict a b =>
      let+ rs := to_tuple_t h t s in
      match rs with
      | [ra; rb] =>
          let+ va := read_t h a ra in
          let+ vb := read_t h b rb in
          now (VTuple [va; vb])
      | _ => now (VTuple [])
      end
  end.
(** [Marker::cast] (lib.rs:351-353), then everything. *)
Definition decode_t (h : host) (t : ty) (s : slice) : timed value :=
  let+ r := from_aligned_slice_t h t s in read_t h t r.

(** ** Comparing *)

(** Comparing byte strings: the lengths, then the bytes if the lengths agree. *)
Definition compare_t (a b : list byte) : timed bool :=
  costs (1 + if blen a =? blen b then blen a else 0) (Ok (bytes_eqb a b)).
(** [PartialEq for Str] (lib.rs:830-835). *)
Definition str_eq_t (a b : list byte) : timed bool :=
  let+ x := as_bytes_non_conformant_t a in
  let+ y := as_bytes_non_conformant_t b in
  let+ e := compare_t x y in
  if e then now true
  else
    let+ x := to_str_t a in
    let+ y := to_str_t b in
    compare_t x y.
(** [NonFixedWidthArray::eq] (lib.rs:1506-1518). *)
Fixpoint nfwa_eq_go_t (h : host) (x : ty) (eqx : slice -> slice -> timed bool) (fuel : nat)
  (ia ib : nfwa_iter) : timed bool :=
  match fuel with
  | O => costs 0 (Crash Diverges)
  | S f =>
      let+ p := nfwa_next_t h x ia in
      match fst p with
      | None => now true
      | Some a =>
          let+ q := nfwa_next_t h x ib in
          match fst q with
          | None => now true
          | Some b =>
              let+ e := eqx a b in
              if e then nfwa_eq_go_t h x eqx f (snd p) (snd q) else now false
          end
      end
  end.
Definition nfwa_eq_t (h : host) (x : ty) (eqx : slice -> slice -> timed bool) (a b : slice) : timed bool :=
  let+ la := nfwa_len_t h a in
  let+ lb := nfwa_len_t h b in
  let+ c := costs 1 (Ok (la =? lb)) in
  if c then
    let+ ia := nfwa_into_iter_t h x a in
    let+ ib := nfwa_into_iter_t h x b in
    nfwa_eq_go_t h x eqx (S (length (s_data a))) ia ib
  else now false.
(** Slices of fixed-size elements: the lengths, then element by element. *)
Fixpoint eq_all_t (eqx : slice -> slice -> timed bool) (xs ys : list slice) : timed bool :=
  match xs, ys with
  | [], [] => now true
  | x :: xs', y :: ys' => let+ e := eqx x y in if e then eq_all_t eqx xs' ys' else now false
  | _, _ => now false
  end.
(** [==], as [Deser.gv_eq] does it (lib.rs:830-835, 1221-1227, 1506-1518, 1755-1759,
    1928-1932, 2008-2012; generate_impl.rs:227-231, 454, 496-500): two loads and a
    comparison for a number. *)
Fixpoint gv_eq_t (h : host) (t : ty) (a b : slice) {struct t} : timed bool :=
  match t with
  | TB | TY | TN | TQ | TI | TU | TX | TT | TD => costs 3 (gv_eq h t a b)
  | TS | TO | TG => str_eq_t (s_data a) (s_data b)
  | TV =>
      let+ p := variant_split_t h a in
      let+ q := variant_split_t h b in
      let+ e := compare_t (s_data (fst p)) (s_data (fst q)) in
      if e then compare_t (s_data (snd p)) (s_data (snd q)) else now false
  | TA x =>
      match size_of x with
      | Some _ =>
          match mem_layout x with
          | Some (size, _) =>
              let+ c := costs 3 (Ok (slen a / size =? slen b / size)) in
              if c then eq_all_t (gv_eq_t h x) (slice_elems size a) (slice_elems size b) else now false
          | None => costs 0 (Crash NoCompile)
          end
      | None => nfwa_eq_t h x (gv_eq_t h x) a b
      end
  | TM x =>
      let+ oa := to_option_t h x a in
      let+ ob := to_option_t h x b in
      match oa, ob with
      | None, None => now true
      | Some ra, Some rb => gv_eq_t h x ra rb
      | _, _ => now false
      end
  | TTuple ts =>
      let+ ra := to_tuple_t h t a in
      let+ rb := to_tuple_t h t b in
      (fix go (ts : list ty) (xs ys : list slice) : timed bool :=
         match ts, xs, ys with
         | t :: ts', x :: xs', y :: ys' =>
             let+ e := gv_eq_t h t x y in
             if e then go ts' xs' ys' else now false
         | _, _, _ => now true
         end) ts ra rb
  | TDict k v =>
      let+ ra := to_tuple_t h t a in
      let+ rb := to_tuple_t h t b in
      match ra, rb with
      | [ka; va], [kb; vb] =>
          let+ e := gv_eq_t h k ka kb in
          if e then gv_eq_t h v va vb else now false
      | _, _ => now true
      end
  end.
