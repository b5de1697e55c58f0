(** What writing through mutable references should do, independently of how it
    is done; and programs that do it, as data. *)
From Verif Require Import Base Types AlignedBytes Spec Deser Buf Ser SerSpec Histories Mut.

(** ** Values and members *)
(** The bytes [d] with those from [o] on overwritten by [new]. *)
Definition sp_overwrite (d : list byte) (o : N) (new : list byte) : list byte :=
  sub d 0 o ++ new ++ sub d (o + len new) (len d).
(** A Rust value a field can hold: no [bool], which is not the type of any field. *)
Fixpoint fieldable (r : rval) : bool :=
  match r with
  | RInt _ | RDouble _ | RBoolView _ => true
  | RTuple rs => forallb fieldable rs
  | _ => false
  end.
(** All its booleans are 0 or 1. *)
Fixpoint tidy (r : rval) : bool :=
  match r with
  | RBoolView b => Byte.eqb b x00 || Byte.eqb b x01
  | RTuple rs => forallb tidy rs
  | _ => true
  end.
(** Its bytes: as the normal form, except that booleans keep their byte. *)
Fixpoint sp_image (big : bool) (t : ty) (r : rval) {struct r} : list byte :=
  match t, r with
  | _, RBoolView b => [b]
  | (TTuple _ | TDict _ _), RTuple rs =>
      sp_struct_bytes (sp_size t) (map (fun t => (sp_align t, sp_size t)) (sp_components t))
        ((fix go rs ts := match rs, ts with
                          | r :: rs, t :: ts => sp_image big t r :: go rs ts
                          | _, _ => []
                          end) rs (sp_components t))
  | _, RInt z => sp_encode big t (VInt z)
  | _, RDouble b => sp_encode big t (VDouble b)
  | _, _ => []
  end.
(** Offset and type of the member [.i.j...] of a fixed-size value. *)
Fixpoint sp_member (t : ty) (p : list nat) : option (N * ty) :=
  match p with
  | [] => Some (0, t)
  | i :: p =>
      let ts := sp_components t in
      let sizes := map (fun t => match sp_size t with Some n => n | None => 0 end) ts in
      match nth_error (sp_field_offsets 0 (combine (map sp_align ts) sizes)) i, nth_error ts i with
      | Some o, Some c =>
          match sp_member c p with Some (o', c') => Some (o + o', c') | None => None end
      | _, _ => None
      end
  end.
(** The value with that member replaced. *)
Fixpoint sp_replace (v : value) (p : list nat) (x : value) : value :=
  match p with
  | [] => x
  | i :: p =>
      match v with
      | VTuple vs =>
          VTuple (map (fun jw => if Nat.eqb (fst jw) i then sp_replace (snd jw) p x else snd jw)
                      (combine (seq 0 (length vs)) vs))
      | _ => v
      end
  end.

(** ** Programs *)
(** Mutable slicing in several steps, starting from an [&mut AlignedSlice<A>]. *)
Fixpoint run_ops (h : host) (A : N) (s : slice) (ops : list slice_op) : res slice :=
  match ops with
  | [] => Ok s
  | o :: ops => let* s := run_op h A s o in run_ops h (op_align A o) s ops
  end.
Fixpoint ops_align (A : N) (ops : list slice_op) : N :=
  match ops with [] => A | o :: ops => ops_align (op_align A o) ops end.
(** There is no mutable [split_at]. *)
Definition op_mut (o : slice_op) : bool :=
  match o with OpSplitFst _ | OpSplitSnd _ => false | _ => true end.
Fixpoint ops_wf (A : N) (ops : list slice_op) : Prop :=
  match ops with
  | [] => True
  | o :: ops => op_wf A o /\ op_mut o = true /\ ops_wf (op_align A o) ops
  end.
(** The same ranges on a plain vector of [n] bytes: offset and length. *)
Definition sp_range (n : N) (o : slice_op) : N * N :=
  match o with
  | OpTo e | OpSplitFst e => (0, e)
  | OpToIncl e => (0, e + 1)
  | OpRange b e | OpRangeAl b e => (b, e)
  | OpRangeIncl b e | OpRangeInclAl b e => (b, e + 1)
  | OpFrom b | OpFromAl b | OpSplitSnd b => (b, n)
  | OpFull | OpAs _ => (0, n)
  end.
Fixpoint sp_ranges (n : N) (ops : list slice_op) : option (N * N) :=
  match ops with
  | [] => Some (0, n)
  | o :: ops =>
      let '(b, e) := sp_range n o in
      if (b <=? e) && (e <=? n) then
        match sp_ranges (e - b) ops with Some (o', m) => Some (b + o', m) | None => None end
      else None
  end.

(** A step of a program that has an [AlignedBuf]. *)
Inductive mut_op :=
| MOp (o : buf_op)                                       (* as in C31 *)
| MByte (ops : list slice_op) (i : N) (x : byte)         (* buf[..][..][i] = x *)
| MField (ops : list slice_op) (junk : nat -> byte) (t : ty) (p : list nat) (r : rval).
    (* if let Ok(m) = M::try_cast_mut(&mut buf[..][..]) { m.field_i.field_j = r }, M the marker of t *)
Definition run_mut_op (h : host) (b : vec) (m : mut_op) : res vec :=
  match m with
  | MOp o => run_buf_op h b o
  | MByte ops i x =>
      let* s := buf_deref h b in
      let* s := run_ops h 8 s ops in
      let* a := ix_byte s i in
      Ok (buf_store b a [x])
  | MField ops junk t p r =>
      let* s := buf_deref h b in
      let* s := run_ops h 8 s ops in
      let* w := assign h junk t s p r in
      match w with
      | Some (a, d) => Ok (buf_store b a d)
      | None => Ok b
      end
  end.
(** What rustc accepts: the cast wants exactly the alignment of the type, the
    place exists, and what is assigned has its type.  Vectors are shorter than
    the address space. *)
Definition mut_op_wf (m : mut_op) : Prop :=
  match m with
  | MOp o => op_addrs_ok o /\ match o with BWith f _ _ => forall d, len d < 2 ^ 64 -> len (f d) < 2 ^ 64 | _ => True end
  | MByte ops i _ => ops_wf 8 ops /\ i < 2 ^ 64
  | MField ops _ t p r =>
      ops_wf 8 ops /\ ops_align 8 ops = sp_align t /\ usable t /\ sp_fixed t = true /\
      exists o c, sp_member t p = Some (o, c) /\ rtyped c r /\ fieldable r = true
  end.
(** What the same step does to a plain vector of bytes. *)
Definition plain_mut_op (big : bool) (d : list byte) (m : mut_op) : option (list byte) :=
  match m with
  | MOp o => plain_op d o
  | MByte ops i x =>
      match sp_ranges (len d) ops with
      | Some (o, n) => if i <? n then Some (sp_overwrite d (o + i) [x]) else None
      | None => None
      end
  | MField ops _ t p r =>
      match sp_ranges (len d) ops with
      | Some (o, n) =>
          match sp_member t p, sp_size t with
          | Some (o', c), Some k => if n =? k then Some (sp_overwrite d (o + o') (sp_image big c r)) else Some d
          | _, _ => Some d
          end
      | None => None
      end
  end.
Fixpoint run_muts (h : host) (b : vec) (ms : list mut_op) : res vec :=
  match ms with
  | [] => Ok b
  | m :: ms => let* b := run_mut_op h b m in run_muts h b ms
  end.
Fixpoint plain_muts (big : bool) (d : list byte) (ms : list mut_op) : option (list byte) :=
  match ms with
  | [] => Some d
  | m :: ms => match plain_mut_op big d m with Some d => plain_muts big d ms | None => None end
  end.
