(** How many steps serialising takes.

    The functions of [Ser] once more, line by line, with a count of steps beside the
    writer.  A step is what it is in [Cost]; besides, asking an iterator for the next
    element, pushing to a vector (on average: it doubles when it is full) and calling the
    writer are a step each.  What the writer and the iterators of the program do with
    that call is not counted.  [SerCostFacts] shows that without the counts these are the
    functions of [Ser]. *)
From Verif Require Import Base Types Layout AlignedBytes Strs Spec Deser Ser Cost.

(** Counting: [n] steps and nothing else, before a computation, and those of [Cost]; a call
    of the writer, [Write::write_all] (as at lib.rs:679), is one. *)
Definition tick {K} (n : N) : M (K * N) unit := fun k => ((fst k, snd k + n), SOk tt).
Definition spend {K A} (n : N) (m : res A) : M (K * N) A := do _ <- tick n; lift m.
Definition clocked {K A} (m : timed A) : M (K * N) A := spend (steps_of m) (result_of m).
#[global] Instance clock_write {K} {W : Write K} : Write (K * N) := fun bs k =>
  let '(k', r) := write_all bs (fst k) in ((k', snd k + 1), r).

Section Timed.
Context {K : Type} {W : Write K}.
(** [write_padding] (lib.rs:614-621). *)
Definition write_padding_t (h : host) (A offset : N) : M (K * N) N :=
  do x <- clocked (align_offset_t h A offset);
  do len <- spend 1 (usub h x offset);
  do z <- spend 1 (bs_to seven_nuls len);
  do _ <- write_all z;
  sret len.
(** [write_offsets] (lib.rs:1644-1671): the cast, [to_le_bytes], the writer. *)
Fixpoint write_each_t (k : nat) (offsets : list N) : M (K * N) unit :=
  match offsets with
  | [] => tick 1
  | o :: r => do _ <- tick 3; do _ <- write_all (to_le k o); write_each_t k r
  end.
Definition write_offsets_t (h : host) (bytes_written : N) (offsets : list N) : M (K * N) N :=
  let n := blen offsets in
  do s1 <- spend 1 (uadd h bytes_written n);
  do _ <- tick 1;
  if s1 <=? 0xff then do _ <- tick 1; do _ <- write_each_t 1 offsets; sret s1
  else
    do n2 <- spend 1 (umul h n 2);
    do s2 <- spend 1 (uadd h bytes_written n2);
    do _ <- tick 1;
    if s2 <=? 0xffff then do _ <- tick 2; do _ <- write_each_t 2 offsets; sret s2
    else
      do n4 <- spend 1 (umul h n 4);
      do s4 <- spend 1 (uadd h bytes_written n4);
      do _ <- tick 1;
      if s4 <=? 0xffffffff then do _ <- tick 2; do _ <- write_each_t 4 offsets; sret s4
      else
        do n8 <- spend 1 (umul h n 8);
        do s8 <- spend 1 (uadd h bytes_written n8);
        do _ <- write_each_t 8 offsets; sret s8.
(** [SerializeTo<[GvT]>] (lib.rs:1315-1326). *)
Fixpoint ser_seq_t (h : host) (items : list (M (K * N) N)) (bytes_written : N) : M (K * N) N :=
  do _ <- tick 1;
  match items with
  | [] => sret bytes_written
  | x :: r =>
      do n <- x;
      do b <- spend 1 (uadd h bytes_written n);
      ser_seq_t h r b
  end.
(** [SerializeTo<NonFixedWidthArray<GvT>>] (lib.rs:1624-1640). *)
Fixpoint ser_nfwa_t (h : host) (al : N) (items : list (M (K * N) N)) (bytes_written : N) (offsets : list N) : M (K * N) N :=
  do _ <- tick 1;
  match items with
  | [] => write_offsets_t h bytes_written offsets
  | x :: r =>
      do n <- x;
      do b <- spend 1 (uadd h bytes_written n);
      let offsets := offsets ++ [b] in
      do _ <- tick 1;
      do a <- clocked (align_offset_t h al b);
      do padding <- spend 1 (usub h a b);
      do z <- spend 1 (bs_to seven_nuls padding);
      do _ <- write_all z;
      do b <- spend 1 (uadd h b padding);
      ser_nfwa_t h al r b offsets
  end.
(** The generated statements (generate_impl.rs:234-238, 508-509); the index into
    [framing_offsets] is a constant. *)
Fixpoint run_cmds_t (h : host) (cmds : list cmd) (children : list (M (K * N) N)) (off : N) (fo : list N) : M (K * N) (N * list N) :=
  match cmds with
  | [] => sret (off, fo)
  | c :: rest =>
      match c with
      | CZeros n => do _ <- write_all (zeros n); run_cmds_t h rest children off fo
      | CAdd n => do off <- spend 1 (uadd h off n); run_cmds_t h rest children off fo
      | CPad A =>
          do p <- write_padding_t h A off;
          do off <- spend 1 (uadd h off p);
          run_cmds_t h rest children off fo
      | CChild n =>
          match nth_error children n with
          | Some m => do _ <- m; run_cmds_t h rest children off fo
          | None => lift (Crash NoCompile)
          end
      | CChildAdd n =>
          match nth_error children n with
          | Some m =>
              do x <- m;
              do off <- spend 1 (uadd h off x);
              run_cmds_t h rest children off fo
          | None => lift (Crash NoCompile)
          end
      | CFrame i =>
          do _ <- tick 1;
          if (i <? 0)%Z then lift (Crash NoCompile)
          else match set_nth fo (Z.to_nat i) off with
               | Some fo => run_cmds_t h rest children off fo
               | None => lift (Crash NoCompile)
               end
      end
  end.
(** Structures (generate_impl.rs:232-240, 506-511).  Filling [framing_offsets] with zeros
    (235) takes a step for each. *)
Definition ser_struct_t (h : host) (t : ty) (children : list (M (K * N) N)) : M (K * N) N :=
  let ts := children_of t in
  match size_of t with
  | Some _ =>
      match packed_struct t, mem_layout t with
      | Some (pads, final), Some (size, _) =>
          do _ <- run_cmds_t h (packed_cmds 0 pads final) children 0 [];
          sret size
      | _, _ => lift (Crash NoCompile)
      end
  | None =>
      let nfo := n_frame_offsets ts in
      do _ <- tick nfo;
      do p <- run_cmds_t h (nonfixed_cmds 0 8 0 0 nfo ts) children 0 (repeat 0 (N.to_nat nfo));
      write_offsets_t h (fst p) (snd p)
  end.
End Timed.
(** [SerializeTo::serialize], as [ser]: numbers (lib.rs:677-687), Str (790-829), Variant
    (1141-1151), VariantWrap (1274-1283), arrays, maybes (1811-1831, 1945-1958),
    Bool (2023-2034), structures.  [to_ne_bytes] is a step,
    [memchr] is taken to look at all of a string, and a maybe is looked at in one.  A
    string that is a view is taken to be in a box, since then (820-824) it is searched for
    NULs once more. *)
Fixpoint ser_t {K} {W : Write K} (h : host) (r : rval) (t : ty) {struct r} : M (K * N) N :=
  let int k z := do _ <- tick 1; do _ <- write_all (int_bytes h k z); sret (N.of_nat k) in
  match t, r with
  | TY, RInt z => int 1%nat z
  | (TN | TQ), RInt z => int 2%nat z
  | (TI | TU), RInt z => int 4%nat z
  | (TX | TT), RInt z => int 8%nat z
  | TD, RDouble b => do _ <- tick 1; do _ <- write_all (to_ne h 8 b); sret 8
  | TB, RBool b => do _ <- tick 1; do _ <- write_all [if b then x01 else x00]; sret 1
  | TB, RBoolView b => do _ <- tick 2; do _ <- write_all [if 0 <? b2n b then x01 else x00]; sret 1
  | (TS | TO | TG), RStrView d =>
      do b <- clocked (to_str_t d);
      do _ <- tick (1 + blen b);
      do _ <- write_all b;
      do _ <- write_all [x00];
      spend 1 (uadd h (blen b) 1)
  | (TS | TO | TG), RStr s =>
      do _ <- tick (1 + blen s);
      if has_nul s then serror EInvalidInput
      else
        do _ <- write_all s;
        do _ <- write_all [x00];
        spend 1 (uadd h (blen s) 1)
  | TV, RVariant d =>
      do p <- clocked (variant_split_t h (Slice 0 d));
      let ts := s_data (fst p) in
      let data := s_data (snd p) in
      do _ <- write_all data;
      do _ <- write_all [x00];
      do _ <- write_all ts;
      do x <- spend 1 (uadd h (blen data) (blen ts));
      spend 1 (uadd h x 1)
  | TV, RWrap u r' =>
      do len <- ser_t h r' u;
      do _ <- write_all [x00];
      do _ <- write_all (display u);
      do x <- spend 1 (uadd h len 1);
      spend 1 (uadd h x (blen (display u)))
  | TA x, RList rs =>
      let items := map (fun r => ser_t h r x) rs in
      if is_fixed x then ser_seq_t h items 0 else ser_nfwa_t h (trait_align x) items 0 []
  | TM x, ROpt o =>
      do _ <- tick 1;
      match o with
      | None => sret 0
      | Some r' =>
          if is_fixed x then ser_t h r' x
          else
            do len <- ser_t h r' x;
            do _ <- write_all [x00];
            spend 1 (uadd h len 1)
      end
  | TM x, RList rs =>
      if is_fixed x then lift (Crash NoCompile)
      else
        do _ <- tick 1;
        match rs with
        | [] => sret 0
        | r' :: _ =>
            do len <- ser_t h r' x;
            do _ <- write_all [x00];
            spend 1 (uadd h len 1)
        end
  | (TTuple _ | TDict _ _), RTuple rs =>
      let ts := children_of t in
      if Nat.eqb (length ts) (length rs) then
        ser_struct_t h t
          ((fix go (rs : list rval) (ts : list ty) : list (M (K * N) N) :=
              match rs, ts with
              | r :: rs', t :: ts' => ser_t h r t :: go rs' ts'
              | _, _ => []
              end) rs ts)
      else lift (Crash NoCompile)
  | _, _ => lift (Crash NoCompile)
  end.
