(** What serialising keeps on the heap.

    Of the serialisers only the one for arrays of variable-size elements allocates: the
    vector [offsets] (lib.rs:1630), to which it adds after each element and which is
    freed when the function is left, in whatever way.  Here are that serialiser and
    [SerializeTo::serialize] once more, line by line, with the number of offsets that
    are in such vectors at the moment, and the greatest it has been, beside the writer;
    the others are taken from [Ser], since they are generic in the writer.  The spare
    capacity of a vector, the box of the error for a string with a NUL (lib.rs:805-808),
    and what the program's writer and iterators allocate, are not counted.  [HeapFacts] shows that without the numbers these are the functions of
    [Ser]. *)
From Verif Require Import Base Types Layout AlignedBytes Strs Spec Deser Ser.

(** The offsets in vectors ([let mut offsets = vec![]], lib.rs:1630) now, and the most there
    have been; writing changes neither. *)
Record room := Room { r_now : N; r_most : N }.
#[global] Instance room_write {K} {W : Write K} : Write (K * room) := fun bs k =>
  let '(k', r) := write_all bs (fst k) in ((k', snd k), r).
(** [offsets.push(bytes_written)] (lib.rs:1633). *)
Definition push_offset {K} : M (K * room) unit := fun k =>
  let n := r_now (snd k) + 1 in ((fst k, Room n (N.max (r_most (snd k)) n)), SOk tt).
(** [offsets] is freed at the end of the function (lib.rs:1640), or at a [?]. *)
Definition scope {K A} (m : M (K * room) A) : M (K * room) A := fun k =>
  let '(k', r) := m k in ((fst k', Room (r_now (snd k)) (r_most (snd k'))), r).

(** [SerializeTo<NonFixedWidthArray<GvT>>] (lib.rs:1624-1640). *)
Fixpoint ser_nfwa_m {K} {W : Write K} (h : host) (al : N) (items : list (M (K * room) N)) (bytes_written : N) (offsets : list N)
  : M (K * room) N :=
  match items with
  | [] => write_offsets h bytes_written offsets
  | x :: r =>
      do n <- x;
      do b <- lift (uadd h bytes_written n);
      let offsets := offsets ++ [b] in
      do _ <- push_offset;
      do a <- lift (align_offset h al b);
      do padding <- lift (usub h a b);
      do z <- lift (bs_to seven_nuls padding);
      do _ <- write_all z;
      do b <- lift (uadd h b padding);
      ser_nfwa_m h al r b offsets
  end.
(** [SerializeTo::serialize], as [ser]: numbers (lib.rs:677-687), Str (790-829), Variant
    (1141-1151), VariantWrap (1274-1283), arrays, maybes (1811-1831, 1945-1958),
    Bool (2023-2034), structures. *)
Fixpoint ser_m {K} {W : Write K} (h : host) (r : rval) (t : ty) {struct r} : M (K * room) N :=
  let int k z := do _ <- write_all (int_bytes h k z); sret (N.of_nat k) in
  match t, r with
  | TY, RInt z => int 1%nat z
  | (TN | TQ), RInt z => int 2%nat z
  | (TI | TU), RInt z => int 4%nat z
  | (TX | TT), RInt z => int 8%nat z
  | TD, RDouble b => do _ <- write_all (to_ne h 8 b); sret 8
  | TB, RBool b => do _ <- write_all [if b then x01 else x00]; sret 1
  | TB, RBoolView b => do _ <- write_all [if 0 <? b2n b then x01 else x00]; sret 1
  | (TS | TO | TG), RStrView d =>
      let b := to_str d in
      do _ <- write_all b;
      do _ <- write_all [x00];
      lift (uadd h (blen b) 1)
  | (TS | TO | TG), RStr s =>
      if has_nul s then serror EInvalidInput
      else
        do _ <- write_all s;
        do _ <- write_all [x00];
        lift (uadd h (blen s) 1)
  | TV, RVariant d =>
      (* the view's address is irrelevant for what is written; any 8-byte
         aligned one will do *)
      do p <- lift (variant_split h (Slice 0 d));
      let ts := s_data (fst p) in
      let data := s_data (snd p) in
      do _ <- write_all data;
      do _ <- write_all [x00];
      do _ <- write_all ts;
      do x <- lift (uadd h (blen data) (blen ts));
      lift (uadd h x 1)
  | TV, RWrap u r' =>
      do len <- ser_m h r' u;
      do _ <- write_all [x00];
      do _ <- write_all (display u);
      do x <- lift (uadd h len 1);
      lift (uadd h x (blen (display u)))
  | TA x, RList rs =>
      let items := map (fun r => ser_m h r x) rs in
      if is_fixed x then ser_seq h items 0 else scope (ser_nfwa_m h (trait_align x) items 0 [])
  | TM x, ROpt o =>
      match o with
      | None => sret 0
      | Some r' =>
          if is_fixed x then ser_m h r' x
          else
            do len <- ser_m h r' x;
            do _ <- write_all [x00];
            lift (uadd h len 1)
      end
  | TM x, RList rs =>
      if is_fixed x then lift (Crash NoCompile)
      else match rs with
           | [] => sret 0
           | r' :: _ =>
               do len <- ser_m h r' x;
               do _ <- write_all [x00];
               lift (uadd h len 1)
           end
  | (TTuple _ | TDict _ _), RTuple rs =>
      let ts := children_of t in
      if Nat.eqb (length ts) (length rs) then
        ser_struct h t
          ((fix go (rs : list rval) (ts : list ty) : list (M (K * room) N) :=
              match rs, ts with
              | r :: rs', t :: ts' => ser_m h r t :: go rs' ts'
              | _, _ => []
              end) rs ts)
      else lift (Crash NoCompile)
  | _, _ => lift (Crash NoCompile)
  end.
