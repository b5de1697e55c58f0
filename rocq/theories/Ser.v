(** The writing half: [SerializeTo] (gvariant/src/lib.rs) and the serialisers
    the macro generates for structures (gvariant-macro/src/generate_impl.rs). *)
From Verif Require Import Base Types Layout AlignedBytes Strs Spec Deser.

(** ** Errors and results *)
Inductive serr :=
| EIo            (* the sink's own error *)
| EInvalidInput  (* io::ErrorKind::InvalidInput, lib.rs:805-808 *)
| EWriteZero     (* io::ErrorKind::WriteZero, from [Write::write_all] *)
| EOther (e : N). (* another error of a writer, see [Writer] *)
Inductive sres (A : Type) :=
| SOk (a : A)
| SErr (e : serr)
| SCrash (c : crash).
Arguments SOk {A} a.
Arguments SErr {A} e.
Arguments SCrash {A} c.
(** [f: &mut impl Write] (lib.rs:458): the serialisers are generic in the writer,
    whose state is [K], and use only its [write_all]. *)
Class Write (K : Type) := write_all : list byte -> K -> K * sres unit.
Definition M (K A : Type) := K -> K * sres A.
(** Statements in sequence; [?] (lib.rs:619 etc.) returns an error at once. *)
Definition sret {K A} (a : A) : M K A := fun k => (k, SOk a).
Definition sbind {K A B} (m : M K A) (f : A -> M K B) : M K B := fun k =>
  match m k with
  | (k', SOk a) => f a k'
  | (k', SErr e) => (k', SErr e)
  | (k', SCrash c) => (k', SCrash c)
  end.
Notation "'do' x <- m ';' f" := (sbind m (fun x => f))
  (at level 200, x pattern, m at level 100, f at level 200).
Definition lift {K A} (m : res A) : M K A := fun k =>
  match m with Ok a => (k, SOk a) | Crash c => (k, SCrash c) end.
Definition serror {K A} (e : serr) : M K A := fun k => (k, SErr e).

(** ** Output sink: an [io::Write] that accepts [k_left] more bytes (for ever if
    [None], such as the [Vec] of lib.rs:438-443) and then fails.  [write_all] may
    have written a part before it fails. *)
Record sink := Sink { k_out : list byte; k_left : option N }.
#[global] Instance sink_write : Write sink := fun bs k =>
  match k_left k with
  | None => (Sink (k_out k ++ bs) None, SOk tt)
  | Some n =>
      if blen bs <=? n then (Sink (k_out k ++ bs) (Some (n - blen bs)), SOk tt)
      else (Sink (k_out k ++ take n bs) (Some 0), SErr EIo)
  end.

(** ** What can be serialised: Rust values implementing [SerializeTo] *)
Inductive rval :=
| RInt (z : Z)                 (* u8..i64 or a reference to one: lib.rs:677-687 *)
| RDouble (bits : N)           (* f64 *)
| RBool (b : bool)             (* &bool: 2029-2034 *)
| RBoolView (b : byte)         (* &Bool, any byte: 2023-2027 *)
| RStr (s : list byte)         (* &str, &String, &&str: 798-829 *)
| RStrView (d : list byte)     (* &Str, &Box<Str>, any bytes: 790-797, 820-824 *)
| RVariant (d : list byte)     (* &Variant, any bytes: 1141-1151 *)
| RWrap (t : ty) (r : rval)    (* VariantWrap(gv!(t), r): 1274-1283 *)
| RList (rs : list rval)       (* any IntoIterator: 1315-1326, 1624-1640, 1945-1958 *)
| ROpt (o : option rval)       (* &Option<T>: 1820-1831; Option is IntoIterator: 1945-1958 *)
| RTuple (rs : list rval).     (* &(T0, T1, ...): generated code *)

(** [write_padding] (lib.rs:614-621). *)
Definition seven_nuls : list byte := repeat x00 7.
Definition bs_to (l : list byte) (e : N) : res (list byte) :=
  if e <=? blen l then Ok (take e l) else Crash PIndex.
Definition write_padding {K} {W : Write K} (h : host) (A offset : N) : M K N :=
  do x <- lift (align_offset h A offset);
  do len <- lift (usub h x offset);
  do z <- lift (bs_to seven_nuls len);
  do _ <- write_all z;
  sret len.

(** [write_offsets] (lib.rs:1644-1671). *)
Fixpoint write_each {K} {W : Write K} (k : nat) (offsets : list N) : M K unit :=
  match offsets with
  | [] => sret tt
  | o :: r => do _ <- write_all (to_le k o); write_each k r
  end.
Definition write_offsets {K} {W : Write K} (h : host) (bytes_written : N) (offsets : list N) : M K N :=
  let n := blen offsets in
  do s1 <- lift (uadd h bytes_written n);
  if s1 <=? 0xff then do _ <- write_each 1 offsets; sret s1
  else
    do n2 <- lift (umul h n 2);
    do s2 <- lift (uadd h bytes_written n2);
    if s2 <=? 0xffff then do _ <- write_each 2 offsets; sret s2
    else
      do n4 <- lift (umul h n 4);
      do s4 <- lift (uadd h bytes_written n4);
      if s4 <=? 0xffffffff then do _ <- write_each 4 offsets; sret s4
      else
        do n8 <- lift (umul h n 8);
        do s8 <- lift (uadd h bytes_written n8);
        do _ <- write_each 8 offsets; sret s8.

(** [SerializeTo<[GvT]>] (lib.rs:1315-1326). *)
Fixpoint ser_seq {K} {W : Write K} (h : host) (items : list (M K N)) (bytes_written : N) : M K N :=
  match items with
  | [] => sret bytes_written
  | x :: r =>
      do n <- x;
      do b <- lift (uadd h bytes_written n);
      ser_seq h r b
  end.

(** [SerializeTo<NonFixedWidthArray<GvT>>] (lib.rs:1624-1640). *)
Fixpoint ser_nfwa {K} {W : Write K} (h : host) (al : N) (items : list (M K N)) (bytes_written : N) (offsets : list N)
  : M K N :=
  match items with
  | [] => write_offsets h bytes_written offsets
  | x :: r =>
      do n <- x;
      do b <- lift (uadd h bytes_written n);
      let offsets := offsets ++ [b] in
      do a <- lift (align_offset h al b);
      do padding <- lift (usub h a b);
      do z <- lift (bs_to seven_nuls padding);
      do _ <- write_all z;
      do b <- lift (uadd h b padding);
      ser_nfwa h al r b offsets
  end.

(** ** Structures *)

(** The statements pushed onto [serialize_cmds]. *)
Inductive cmd :=
| CZeros (n : N)      (* f.write_all(b"\0...\0")?; *)
| CAdd (n : N)        (* off += n; *)
| CPad (A : N)        (* off += write_padding::<A, _>(off, f)?; *)
| CChild (n : nat)    (* self.n.serialize(f)?; *)
| CChildAdd (n : nat) (* off += self.n.serialize(f)?; *)
| CFrame (i : Z).     (* framing_offsets[i] = off; *)

(** The loop of [write_non_fixed_size_structure] that builds them
    (generate_impl.rs:148-216).  The framing index (204) is computed in [usize]
    by the macro; it is kept as Z here and a negative one is rejected when
    executed. *)
Fixpoint nonfixed_cmds (n : nat) (base offset nth : N) (nfo : N) (children : list ty) : list cmd :=
  match children with
  | [] => []
  | child :: rest =>
      let last_child := match rest with [] => true | _ => false end in
      let '(pre, base, offset) :=
        if align_of child <=? base then
          let offset' := align offset (align_of child) in
          let n_padding := offset' - offset in
          (if 0 <? n_padding then [CZeros n_padding; CAdd n_padding] else [], base, offset')
        else ([CPad (align_of child)], align_of child, 0) in
      match size_of child with
      | Some x =>
          pre ++ [CChild n; CAdd x] ++ nonfixed_cmds (S n) base (offset + x) nth nfo rest
      | None =>
          pre ++ [CChildAdd n] ++
          (if last_child then [] else [CFrame (Z.of_N nfo - Z.of_N nth - 1)]) ++
          nonfixed_cmds (S n) 1 0 (if last_child then nth else nth + 1) nfo rest
      end
  end.

(** The commands of [write_packed_struct] (generate_impl.rs:430-464). *)
Fixpoint packed_cmds (n : nat) (pads : list N) (final : N) : list cmd :=
  match pads with
  | [] => if 0 <? final then [CZeros final] else []
  | p :: rest => (if 0 <? p then [CZeros p] else []) ++ [CChild n] ++ packed_cmds (S n) rest final
  end.

Fixpoint set_nth {A} (l : list A) (i : nat) (x : A) : option (list A) :=
  match l, i with
  | _ :: r, O => Some (x :: r)
  | y :: r, S i => match set_nth r i x with Some r' => Some (y :: r') | None => None end
  | [], _ => None
  end.

(** Running the generated statements with [off] and [framing_offsets]
    (generate_impl.rs:234-238; 508-509). *)
Fixpoint run_cmds {K} {W : Write K} (h : host) (cmds : list cmd) (children : list (M K N)) (off : N) (fo : list N)
  : M K (N * list N) :=
  match cmds with
  | [] => sret (off, fo)
  | c :: rest =>
      match c with
      | CZeros n => do _ <- write_all (zeros n); run_cmds h rest children off fo
      | CAdd n => do off <- lift (uadd h off n); run_cmds h rest children off fo
      | CPad A =>
          do p <- write_padding h A off;
          do off <- lift (uadd h off p);
          run_cmds h rest children off fo
      | CChild n =>
          match nth_error children n with
          | Some m => do _ <- m; run_cmds h rest children off fo
          | None => lift (Crash NoCompile)
          end
      | CChildAdd n =>
          match nth_error children n with
          | Some m =>
              do x <- m;
              do off <- lift (uadd h off x);
              run_cmds h rest children off fo
          | None => lift (Crash NoCompile)
          end
      | CFrame i =>
          if (i <? 0)%Z then lift (Crash NoCompile)
          else match set_nth fo (Z.to_nat i) off with
               | Some fo => run_cmds h rest children off fo
               | None => lift (Crash NoCompile)
               end
      end
  end.

Definition ser_struct {K} {W : Write K} (h : host) (t : ty) (children : list (M K N)) : M K N :=
  let ts := children_of t in
  match size_of t with
  | Some _ =>
      match packed_struct t, mem_layout t with
      | Some (pads, final), Some (size, _) =>
          do _ <- run_cmds h (packed_cmds 0 pads final) children 0 [];
          sret size
      | _, _ => lift (Crash NoCompile)
      end
  | None =>
      let nfo := n_frame_offsets ts in
      do p <- run_cmds h (nonfixed_cmds 0 8 0 0 nfo ts) children 0 (repeat 0 (N.to_nat nfo));
      write_offsets h (fst p) (snd p)
  end.

(** [to_ne_bytes] of a k-byte integer. *)
Definition int_bytes (h : host) (k : nat) (z : Z) : list byte :=
  to_ne h k (Z.to_N (z mod 2 ^ (8 * Z.of_nat k))).

(** [SerializeTo::serialize]: numbers (lib.rs:677-687), Str (790-829), Variant
    (1141-1151), VariantWrap (1274-1283), arrays, maybes (1811-1831, 1945-1958),
    Bool (2023-2034), structures.  A Rust value of the wrong type does not
    compile. *)
Fixpoint ser {K} {W : Write K} (h : host) (r : rval) (t : ty) {struct r} : M K N :=
  let int k z := do _ <- write_all (int_bytes h k z); sret (N.of_nat k) in
  match t, r with
  | TY, RInt z => int 1%nat z
  | (TN | TQ), RInt z => int 2%nat z
  | (TI | TU), RInt z => int 4%nat z
  | (TX | TT), RInt z => int 8%nat z
  | TD, RDouble b => do _ <- write_all (to_ne h 8 b); sret 8
  | TB, RBool b => do _ <- write_all [if b then x01 else x00]; sret 1
  | TB, RBoolView b => do _ <- write_all [if 0 <? b2n b then x01 else x00]; sret 1
  | (TS | TO | TG), RStrView d =>
      let b := to_str d in
      do _ <- write_all b;
      do _ <- write_all [x00];
      lift (uadd h (blen b) 1)
  | (TS | TO | TG), RStr s =>
      if has_nul s then serror EInvalidInput
      else
        do _ <- write_all s;
        do _ <- write_all [x00];
        lift (uadd h (blen s) 1)
  | TV, RVariant d =>
      (* the view's address is irrelevant for what is written; any 8-byte
         aligned one will do *)
      do p <- lift (variant_split h (Slice 0 d));
      let ts := s_data (fst p) in
      let data := s_data (snd p) in
      do _ <- write_all data;
      do _ <- write_all [x00];
      do _ <- write_all ts;
      do x <- lift (uadd h (blen data) (blen ts));
      lift (uadd h x 1)
  | TV, RWrap u r' =>
      do len <- ser h r' u;
      do _ <- write_all [x00];
      do _ <- write_all (display u);
      do x <- lift (uadd h len 1);
      lift (uadd h x (blen (display u)))
  | TA x, RList rs =>
      let items := map (fun r => ser h r x) rs in
      if is_fixed x then ser_seq h items 0 else ser_nfwa h (trait_align x) items 0 []
  | TM x, ROpt o =>
      match o with
      | None => sret 0
      | Some r' =>
          if is_fixed x then ser h r' x
          else
            do len <- ser h r' x;
            do _ <- write_all [x00];
            lift (uadd h len 1)
      end
  | TM x, RList rs =>
      if is_fixed x then lift (Crash NoCompile)
      else match rs with
           | [] => sret 0
           | r' :: _ =>
               do len <- ser h r' x;
               do _ <- write_all [x00];
               lift (uadd h len 1)
           end
  | (TTuple _ | TDict _ _), RTuple rs =>
      let ts := children_of t in
      if Nat.eqb (length ts) (length rs) then
        ser_struct h t
          ((fix go (rs : list rval) (ts : list ty) : list (M K N) :=
              match rs, ts with
              | r :: rs', t :: ts' => ser h r t :: go rs' ts'
              | _, _ => []
              end) rs ts)
      else lift (Crash NoCompile)
  | _, _ => lift (Crash NoCompile)
  end.

(** [Marker::serialize] to a sink (lib.rs:425-431) and to a Vec (438-443). *)
Definition serialize (h : host) (t : ty) (r : rval) (budget : option N) : sink * sres N :=
  ser h r t (Sink [] budget).

(** ** Serialising a view again *)
(** What a program passes to [serialize] to write out what a reference shows:
    numbers, &Bool, &Str and &Variant implement [SerializeTo] themselves
    (lib.rs:677-687, 790-797, 1141-1151, 2023-2027); &[T], &NonFixedWidthArray
    and &MaybeNonFixedSize are [IntoIterator]s over references (1585-1599,
    1914-1920), &MaybeFixedSize goes through [to_option] (1811-1819).  A
    structure has no [SerializeTo] of its own, the program uses [to_tuple]
    (generate_impl.rs:222-226, 501-505). *)
Fixpoint view_rval (h : host) (t : ty) (s : slice) {struct t} : res rval :=
  let num := of_ne h (s_data s) in
  match t with
  | TB => match s_data s with [b] => Ok (RBoolView b) | _ => Crash NoCompile end
  | TY => Ok (RInt (Z.of_N num))
  | TN => Ok (RInt (signed 16 num))
  | TQ => Ok (RInt (Z.of_N num))
  | TI => Ok (RInt (signed 32 num))
  | TU => Ok (RInt (Z.of_N num))
  | TX => Ok (RInt (signed 64 num))
  | TT => Ok (RInt (Z.of_N num))
  | TD => Ok (RDouble num)
  | TS | TO | TG => Ok (RStrView (s_data s))
  | TV => Ok (RVariant (s_data s))
  | TA x =>
      let* rs := array_refs h x s in
      let* vs := mapM (view_rval h x) rs in
      Ok (RList vs)
  | TM x =>
      let* o := to_option h x s in
      match o with
      | Some r => let* v := view_rval h x r in Ok (ROpt (Some v))
      | None => Ok (ROpt None)
      end
  | TTuple ts =>
      let* rs := to_tuple h t s in
      let* vs := (fix go (ts : list ty) (rs : list slice) : res (list rval) :=
                    match ts, rs with
                    | t :: ts', r :: rs' =>
                        let* v := view_rval h t r in
                        let* vs := go ts' rs' in
                        Ok (v :: vs)
                    | _, _ => Ok []
                    end) ts rs in
      Ok (RTuple vs)
  | TDict a b =>
      let* rs := to_tuple h t s in
      match rs with
      | [ra; rb] =>
          let* va := view_rval h a ra in
          let* vb := view_rval h b rb in
          Ok (RTuple [va; vb])
      | _ => Crash NoCompile
      end
  end.
(** Cast, then write out what is seen. *)
Definition reserialize (h : host) (t : ty) (s : slice) (budget : option N) : sink * sres N :=
  match (let* r := cast h t s in view_rval h t r) with
  | Ok v => serialize h t v budget
  | Crash c => (Sink [] budget, SCrash c)
  end.
