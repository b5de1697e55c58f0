(** The types the crate and the macro declare, by their fields: how they lie in memory,
    and which threads may use them.  Type parameters are filled in, lifetimes are left
    out, enums without fields are unit structs. *)
From Verif Require Import Base Types Layout AlignedBytes.

Inductive repr := Transparent | LikeC | AnyOrder.
Inductive mty :=
| MNum (n : N)                       (* integer or double of n bytes; usize *)
| MPad (n : N)                       (* [u8; n] *)
| MUnit                              (* unit struct *)
| MPhantom (m : mty)                 (* PhantomData<T> *)
| MSlice (m : mty)                   (* [T] *)
| MRef (m : mty) | MRefMut (m : mty) (* &T, &mut T *)
| MVec (m : mty)                     (* Vec<T>; String is one of u8 *)
| MPtr (m : mty)                     (* *const T, *mut T *)
| MCell (m : mty)                    (* UnsafeCell<T> *)
| MStruct (r : repr) (fs : list mty).

Definition bytes_decl : mty := MSlice (MNum 1).
(** [AlignedSlice<A>] (aligned_bytes.rs:213-218); A1 to A8 are unit structs
    (aligned_bytes.rs:131-165). *)
Definition aligned_decl : mty := MStruct Transparent [MPhantom MUnit; bytes_decl].
(** The fields of a fixed-size structure with the paddings, which are only declared when
    not empty (generate_impl.rs:430-431, 441, 458-459). *)
Fixpoint padded_decl (pads : list N) (fs : list mty) (final : N) : list mty :=
  match pads, fs with
  | p :: pads, f :: fs => (if 0 <? p then [MPad p] else []) ++ f :: padded_decl pads fs final
  | _, _ => if 0 <? final then [MPad final] else []
  end.
(** The type [gv!(t)] casts to (gvariant-macro/src/lib.rs:34-61): [Bool] (lib.rs:1971-1973),
    [Str] (710-714), [Variant] (1119-1121), [[T]], [NonFixedWidthArray] (1425-1429),
    [MaybeFixedSize] (1702-1707), [MaybeNonFixedSize] (1852-1857), structures
    (generate_impl.rs:85-88, 402-441).  A structure for which the macro panics has no
    fields here. *)
Fixpoint decl (t : ty) : mty :=
  let struct (t : ty) (fs : list mty) :=
    match size_of t with
    | Some _ => match packed_struct t with
                | Some (pads, final) => MStruct LikeC (padded_decl pads fs final)
                | None => MStruct LikeC []
                end
    | None => MStruct Transparent [aligned_decl]
    end in
  match t with
  | TB => MStruct Transparent [MNum 1]
  | TY => MNum 1
  | TN | TQ => MNum 2
  | TI | TU => MNum 4
  | TX | TT | TD => MNum 8
  | TS | TO | TG => MStruct Transparent [bytes_decl]
  | TV => MStruct Transparent [aligned_decl]
  | TA x => match size_of x with Some _ => MSlice (decl x) | None => MStruct Transparent [aligned_decl] end
  | TM x => MStruct Transparent [MPhantom (decl x); aligned_decl]
  | TTuple ts => struct t (map decl ts)
  | TDict k v => struct t [decl k; decl v]
  end.
(** The others: [AlignedBuf] (buf.rs:22-24), [Owned<T>] (lib.rs:470-473), [GString]
    (940-944), [NonFixedWidthArrayIterator] (1527-1534; [OffsetSize], 1363, is an enum
    without fields), [VariantWrap] (1275) with a marker of [gv!], [AlignedOffset]
    (offset.rs:13), the errors [Misaligned] and [WrongSize] and
    [ContainsNulBytesError] (aligned_bytes.rs:563, casting.rs:61, lib.rs:1051), and the
    private [DisplayUtf8Lossy] (876) and [RealignGuard] (buf.rs:65). *)
Definition buf_decl : mty := MStruct AnyOrder [MVec (MNum 1)].
Definition owned_decl (t : ty) : mty := MStruct AnyOrder [buf_decl; MPhantom (decl t)].
Definition gstring_decl : mty := MStruct AnyOrder [MVec (MNum 1)].
Definition iterator_decl : mty := MStruct AnyOrder [MRef aligned_decl; MRef bytes_decl; MNum 8; MNum 8; MUnit].
Definition wrap_decl (m : mty) : mty := MStruct AnyOrder [MUnit; m].
Definition offset_decl : mty := MStruct AnyOrder [MNum 8; MPhantom MUnit].
Definition error_decl : mty := MStruct AnyOrder [].
Definition lossy_decl : mty := MStruct AnyOrder [MRef bytes_decl].
Definition guard_decl : mty := MStruct AnyOrder [MRefMut (MVec (MNum 1))].

(** ** In memory (Rust reference, "Type layout") *)
(** Zero-sized and aligned to 1, which a [repr(transparent)] struct may have besides one
    field. *)
Fixpoint is_trivial (m : mty) : bool :=
  match m with
  | MUnit | MPhantom _ => true
  | MPad n => n =? 0
  | MStruct _ fs => forallb is_trivial fs
  | _ => false
  end.
Fixpoint is_unsized (m : mty) : bool :=
  match m with
  | MSlice _ => true
  | MCell m => is_unsized m
  | MStruct _ fs => existsb is_unsized fs
  | _ => false
  end.
(** [size_of_val] and [align_of_val] of a value whose last field, if unsized, is a slice of
    [n] elements.  [None]: rustc does not accept the declaration, or does not promise a
    layout.  The numbers are aligned to their size, as on 64-bit targets. *)
Fixpoint layout_of (n : N) (m : mty) : option (N * N) :=
  match m with
  | MNum k => Some (k, k)
  | MPad k => Some (k, 1)
  | MUnit | MPhantom _ => Some (0, 1)
  | MSlice m => match layout_of 0 m with Some (s, a) => Some (n * s, a) | None => None end
  | MRef m | MRefMut m | MPtr m => Some (if is_unsized m then 16 else 8, 8)
  | MVec _ => None
  | MCell m => layout_of n m
  | MStruct Transparent fs =>
      match (fix main (fs : list mty) : list (option (N * N)) :=
               match fs with
               | [] => []
               | f :: fs => if is_trivial f then main fs else layout_of n f :: main fs
               end) fs with
      | [] => Some (0, 1)
      | [l] => l
      | _ => None
      end
  | MStruct LikeC fs =>
      match (fix all (fs : list mty) : option (list (N * N)) :=
               match fs with
               | [] => Some []
               | f :: fs => match layout_of n f, all fs with Some l, Some ls => Some (l :: ls) | _, _ => None end
               end) fs with
      | Some ls => let '(_, size, al) := repr_c ls in Some (size, al)
      | None => None
      end
  | MStruct AnyOrder _ => None
  end.
(** How many elements a reference to a value of type [t] made from [s] counts: casts of
    pointers keep the number of bytes (lib.rs:777, generate_impl.rs:93, 107, 112,
    aligned_bytes.rs:538, and [ref_cast]), [cast_slice] divides it by the size of an
    element (casting.rs:88-93). *)
Definition count_of (t : ty) (s : slice) : N :=
  match t with
  | TA x => match mem_layout x with Some (k, _) => slen s / k | None => slen s end
  | _ => slen s
  end.

(** ** Threads (Rust reference, "Auto traits"; std, "Send" and "Sync") *)
(** A struct is [Send] or [Sync] if its fields are; pointers are neither, [UnsafeCell] is
    not [Sync]; [&T] is [Send] if [T] is [Sync].  There is no [impl] of either in the
    crate. *)
Fixpoint is_sync (m : mty) : bool :=
  match m with
  | MNum _ | MPad _ | MUnit => true
  | MPhantom m | MSlice m | MRef m | MRefMut m | MVec m => is_sync m
  | MPtr _ | MCell _ => false
  | MStruct _ fs => forallb is_sync fs
  end.
Fixpoint is_send (m : mty) : bool :=
  match m with
  | MNum _ | MPad _ | MUnit => true
  | MPhantom m | MSlice m | MRefMut m | MVec m | MCell m => is_send m
  | MRef m => is_sync m
  | MPtr _ => false
  | MStruct _ fs => forallb is_send fs
  end.
