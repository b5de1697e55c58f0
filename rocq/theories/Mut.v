(** Writing through mutable references: [&mut AlignedSlice], [Marker::try_cast_mut],
    the public fields of generated fixed-size structures and their constructor.

    A mutable reference is the address and contents of what it points to, like a
    shared one.  Writing replaces bytes in the buffer that owns the memory; while
    the reference exists nothing else can look at that buffer, so it is enough to
    say what the buffer holds afterwards. *)
From Verif Require Import Base Types Layout AlignedBytes Deser Buf Ser.

(** The bytes [d] with those from [o] on overwritten by [new]. *)
Definition splice (d : list byte) (o : N) (new : list byte) : list byte :=
  take o d ++ new ++ drop (o + blen new) d.

(** ** Values of the Rust types the macro picks for fixed-size types *)

(** [Structure::new] (generate_impl.rs:473-477, [set_fields] at 432-435, 452 and
    460-463): the declared fields in order, the paddings all zero. *)
Fixpoint field_values (pads : list N) (vals : list (list byte)) (final : N) : list (list byte) :=
  match pads, vals with
  | p :: pads', v :: vals' => (if 0 <? p then [zeros p] else []) ++ v :: field_values pads' vals' final
  | _, _ => if 0 <? final then [zeros final] else []
  end.
Fixpoint write_fields (mem : list byte) (os : list N) (vals : list (list byte)) : list byte :=
  match os, vals with
  | o :: os', v :: vals' => write_fields (splice mem o v) os' vals'
  | _, _ => mem
  end.
(** In memory each field is at the offset [repr(C)] gives it; bytes between
    fields, if there are any, hold whatever was there before: [junk]. *)
Definition struct_new (junk : nat -> byte) (t : ty) (vals : list (list byte)) : res (list byte) :=
  match packed_struct t, mem_layouts (children_of t) with
  | Some (pads, final), Some ls =>
      let '(os, size, _) := repr_c (map snd (interleave pads ls final)) in
      Ok (write_fields (map junk (seq 0 (N.to_nat size))) os (field_values pads vals final))
  | _, _ => Crash NoCompile
  end.
(** The bytes of a Rust value of the type [marker_type] picks for a fixed-size
    type (gvariant-macro/src/lib.rs:34-61): a number; a [Bool], which is a [u8]
    (lib.rs:1971-1973) and can be had only by copying one out of a view
    ([RBoolView]); or what [Structure::new] makes, for which [RTuple] lists the
    arguments.  Anything else does not compile. *)
Fixpoint image (h : host) (junk : nat -> byte) (t : ty) (r : rval) {struct r} : res (list byte) :=
  match t, r with
  | TY, RInt z => Ok (int_bytes h 1 z)
  | (TN | TQ), RInt z => Ok (int_bytes h 2 z)
  | (TI | TU), RInt z => Ok (int_bytes h 4 z)
  | (TX | TT), RInt z => Ok (int_bytes h 8 z)
  | TD, RDouble b => Ok (to_ne h 8 b)
  | TB, RBoolView b => Ok [b]
  | (TTuple _ | TDict _ _), RTuple rs =>
      let ts := children_of t in
      if Nat.eqb (length ts) (length rs) then
        let* vals := (fix go (rs : list rval) (ts : list ty) : res (list (list byte)) :=
                        match rs, ts with
                        | r :: rs', t :: ts' =>
                            let* v := image h junk t r in let* vs := go rs' ts' in Ok (v :: vs)
                        | _, _ => Ok []
                        end) rs ts in
        struct_new junk t vals
      else Crash NoCompile
  | _, _ => Crash NoCompile
  end.

(** The place expression [r.field_i.field_j...] for [r: &mut T] ([pub field_n],
    generate_impl.rs:441): offset and type.  Only fixed-size structures have
    fields a program can name. *)
Fixpoint place (t : ty) (p : list nat) : res (N * ty) :=
  match p with
  | [] => Ok (0, t)
  | i :: p' =>
      match field_offsets t with
      | Some os =>
          match nth_error os i, nth_error (children_of t) i with
          | Some o, Some c => let* q := place c p' in Ok (o + fst q, snd q)
          | _, _ => Crash NoCompile
          end
      | None => Crash NoCompile
      end
  end.
(** [if let Ok(r) = M::try_cast_mut(s) { r.field_i.field_j... = value }], [M] the
    marker of [t] (lib.rs:355-361): the address written to and the bytes, if
    anything. *)
Definition assign (h : host) (junk : nat -> byte) (t : ty) (s : slice) (p : list nat) (r : rval)
  : res (option (N * list byte)) :=
  let* q := place t p in
  let* d := image h junk (snd q) r in
  let* o := try_from_aligned_slice_mut h t s in
  match o with
  | Some m => Ok (Some (s_addr m + fst q, d))
  | None => Ok None
  end.

(** [IndexMut<usize>] (aligned_bytes.rs:460-464): the address of the byte. *)
Definition ix_byte (s : slice) (i : N) : res N :=
  if i <? slen s then Ok (s_addr s + i) else Crash PIndex.

(** Writing at an address inside the memory of an [AlignedBuf], which owns it
    through its vector (buf.rs:143-153). *)
Definition buf_store (b : vec) (a : N) (new : list byte) : vec :=
  Vec (v_addr b) (splice (v_data b) (a - v_addr b) new).

(** [TryInto<&[T]> for &AlignedSlice], defined for the number types only
    (casting.rs:131-155). *)
Definition slice_try_into (h : host) (t : ty) (s : slice) : res (option slice) :=
  match t with
  | TY | TN | TQ | TI | TU | TX | TT | TD =>
      match mem_layout t with
      | Some lay => cast_slice h (trait_align t) lay s
      | None => Crash NoCompile
      end
  | _ => Crash NoCompile
  end.
