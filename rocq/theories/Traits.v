(** The trait [SerializeTo]: which Rust types may be passed where, according to the
    [impl]s in gvariant/src/lib.rs and in the code the macro generates.  rustc finds
    an [impl] by its head and then checks the bounds; here every [impl] is one rule. *)
From Verif Require Import Base Types Layout Spec Ser.

(** The Rust types that occur: those [marker_type] names (gvariant-macro/src/lib.rs:34-61),
    those of core and std the [impl]s name, and some that implement [IntoIterator].
    [YIter] stands for any iterator with the given items.  Lifetimes are left out. *)
Inductive rty :=
| YU8 | YI16 | YU16 | YI32 | YU32 | YI64 | YU64 | YF64
| YBool | YStr | YString                  (* bool, str, String *)
| GBool | GStr | GVariant | GString       (* gvariant's own *)
| YSlice (r : rty)                        (* [T] *)
| GArray (r : rty)                        (* NonFixedWidthArray<T> *)
| GMaybeFixed (r : rty)                   (* MaybeFixedSize<T> *)
| GMaybe (r : rty)                        (* MaybeNonFixedSize<T> *)
| GStruct (t : ty)                        (* the structure generated for t *)
| YRef (r : rty) | YBox (r : rty) | YOption (r : rty) | YTuple (rs : list rty)
| YVec (r : rty) | YArray (r : rty)       (* Vec<T>, [T; N] *)
| YIter (r : rty)
| GWrap (t : ty) (r : rty).               (* VariantWrap<gv!(t), T> *)

(** The type [gv!(t)] casts to: [marker_type] (gvariant-macro/src/lib.rs:34-61), as a
    type rather than as text. *)
Fixpoint marker (t : ty) : rty :=
  match t with
  | TB => GBool
  | TY => YU8 | TN => YI16 | TQ => YU16 | TI => YI32 | TU => YU32 | TX => YI64 | TT => YU64
  | TD => YF64
  | TS | TO | TG => GStr
  | TV => GVariant
  | TA x => if is_fixed x then YSlice (marker x) else GArray (marker x)
  | TM x => if is_fixed x then GMaybeFixed (marker x) else GMaybe (marker x)
  | TTuple _ | TDict _ _ => GStruct t
  end.
(** How [marker_type] writes it (gvariant-macro/src/lib.rs:34-61); other types are
    never written. *)
Fixpoint rust_text (r : rty) : list byte :=
  match r with
  | YU8 => bs "u8" | YI16 => bs "i16" | YU16 => bs "u16" | YI32 => bs "i32" | YU32 => bs "u32"
  | YI64 => bs "i64" | YU64 => bs "u64" | YF64 => bs "f64"
  | GBool => bs "Bool" | GStr => bs "Str" | GVariant => bs "Variant"
  | YSlice r => bs "[" ++ rust_text r ++ bs "]"
  | GArray r => bs "NonFixedWidthArray::<" ++ rust_text r ++ bs ">"
  | GMaybeFixed r => bs "MaybeFixedSize::<" ++ rust_text r ++ bs ">"
  | GMaybe r => bs "MaybeNonFixedSize::<" ++ rust_text r ++ bs ">"
  | GStruct t => bs "Structure" ++ struct_name t
  | _ => []
  end.

(** [Copy]: core's; [Bool] (lib.rs:1971), [VariantWrap] (1274), fixed-size structures
    (generate_impl.rs:402). *)
Fixpoint is_copy (r : rty) : bool :=
  match r with
  | YU8 | YI16 | YU16 | YI32 | YU32 | YI64 | YU64 | YF64 | YBool | GBool | YRef _ => true
  | YOption r | YArray r | GWrap _ r => is_copy r
  | YTuple rs => forallb is_copy rs
  | GStruct t => is_fixed t
  | _ => false
  end.

(** [IntoIterator::Item]: core's and std's for slices, vectors, arrays, options and
    iterators; [&NonFixedWidthArray] (lib.rs:1585-1599), [&MaybeFixedSize]
    (1803-1809), [&MaybeNonFixedSize] (1914-1920). *)
Definition item (r : rty) : option rty :=
  match r with
  | YRef (YSlice r) | YRef (YVec r) | YRef (YArray r) | YRef (YOption r)
  | YRef (GArray r) | YRef (GMaybeFixed r) | YRef (GMaybe r) => Some (YRef r)
  | YVec r | YArray r | YOption r | YIter r => Some r
  | _ => None
  end.

(** The types [impl_cast_for!] is used for (lib.rs:691-698). *)
Definition is_number (r : rty) : bool :=
  match r with YU8 | YI16 | YU16 | YI32 | YU32 | YI64 | YU64 | YF64 => true | _ => false end.

(** [serializes S T]: S implements [SerializeTo<T>]. *)
Inductive serializes : rty -> rty -> Prop :=
(** lib.rs:677-682, 683-687 *)
| s_number : forall n, is_number n = true -> serializes n n
| s_number_ref : forall n, is_number n = true -> serializes (YRef n) n
(** 790-797, 798-814, 815-819, 820-824, 825-829 *)
| s_str_view : serializes (YRef GStr) GStr
| s_str : serializes (YRef YStr) GStr
| s_str_ref : forall r, serializes r GStr -> is_copy r = true -> serializes (YRef r) GStr
| s_str_box : serializes (YRef (YBox GStr)) GStr
| s_string : serializes (YRef YString) GStr
(** 1141-1151, 1276-1283; there is a marker for t only if the macro returns one *)
| s_variant : serializes (YRef GVariant) GVariant
| s_wrap : forall t r, macro_ok t = true -> serializes r (marker t) -> serializes (GWrap t r) GVariant
(** 1315-1326, 1624-1640 *)
| s_slice : forall s i g, item s = Some i -> serializes i g -> is_copy g = true -> serializes s (YSlice g)
| s_array : forall s i g, item s = Some i -> serializes i g -> serializes s (GArray g)
(** 1811-1818, 1820-1831, 1945-1958 *)
| s_maybe_fixed_view : forall g, serializes g g -> serializes (YRef g) g ->
    serializes (YRef (GMaybeFixed g)) (GMaybeFixed g)
| s_maybe_fixed : forall r g, serializes r g -> is_copy r = true ->
    serializes (YRef (YOption r)) (GMaybeFixed g)
| s_maybe : forall s i g, item s = Some i -> serializes i g -> serializes s (GMaybe g)
(** 2023-2027, 2029-2034 *)
| s_bool_view : serializes (YRef GBool) GBool
| s_bool : serializes (YRef YBool) GBool
(** generate_impl.rs:232, 506 with 210-215, 445-449 *)
| s_struct : forall t rs, members rs (children_of t) -> serializes (YRef (YTuple rs)) (GStruct t)
(** The bounds [Tn: SerializeTo<...> + Copy], one for each member. *)
with members : list rty -> list ty -> Prop :=
| m_nil : members [] []
| m_cons : forall r rs t ts, serializes r (marker t) -> is_copy r = true -> members rs ts ->
    members (r :: rs) (t :: ts).

(** What the [impl] for type t sees of a value: an [Option] passed as an array is an
    iterator like any other (lib.rs:1315, 1624). *)
Fixpoint seen (t : ty) (v : rval) {struct v} : rval :=
  match t, v with
  | TA x, ROpt o => RList (match o with Some v => [seen x v] | None => [] end)
  | TA x, RList vs | TM x, RList vs => RList (map (seen x) vs)
  | TM x, ROpt o => ROpt (match o with Some v => Some (seen x v) | None => None end)
  | TV, RWrap u v => RWrap u (seen u v)
  | (TTuple _ | TDict _ _), RTuple vs =>
      RTuple ((fix go (vs : list rval) (ts : list ty) :=
                 match vs, ts with
                 | v :: vs', t :: ts' => seen t v :: go vs' ts'
                 | vs, _ => vs
                 end) vs (children_of t))
  | _, _ => v
  end.

(** Comparison traits: core's for numbers, [bool], [str] and slices; [Eq] of [Str]
    (lib.rs:710), [NonFixedWidthArray] (1519), [MaybeFixedSize] (1760),
    [MaybeNonFixedSize] (1933), [Bool] (1971); [PartialOrd] and [Hash] of
    [MaybeFixedSize] (1771, 1776); [GString]'s derived ones (939); generated
    structures have none (generate_impl.rs:402).  Of std's other types only what is
    asked for here: the rest is [false]. *)
Inductive cmp_trait := TrEq | TrHash | TrPartialOrd | TrOrd.
Fixpoint implements (tr : cmp_trait) (r : rty) : bool :=
  match r with
  | YU8 | YI16 | YU16 | YI32 | YU32 | YI64 | YU64 | YBool | YStr | YString => true
  | YF64 => match tr with TrPartialOrd => true | _ => false end
  | GBool | GStr => match tr with TrEq => true | _ => false end
  | GString => match tr with TrHash => false | _ => true end
  | YSlice r => implements tr r
  | GArray r | GMaybe r => match tr with TrEq => implements tr r | _ => false end
  | GMaybeFixed r => match tr with TrOrd => false | _ => implements tr r end
  | _ => false
  end.

(** [#[derive(Tr)]] on a structure with a type parameter A makes an [impl] that asks
    A to implement Tr as well (the Rust reference, "Derive").  What is derived for the
    alignments (aligned_bytes.rs:131, 139, 148, 158), for [AlignedOffset]
    (offset.rs:12) and for [AlignedSlice] (aligned_bytes.rs:214), and what is written
    by hand for [AlignedSlice] (220-224). *)
Inductive std_trait := StDebug | StCopy | StClone | StPartialEq | StEq | StPartialOrd | StOrd.
Definition derived_alignment : list std_trait := [StDebug; StCopy; StClone].
Definition derived_offset : list std_trait := [StDebug; StCopy; StClone; StPartialEq; StEq; StPartialOrd; StOrd].
Definition derived_slice : list std_trait := [StDebug; StEq].
Definition offset_implements (tr : std_trait) : Prop := In tr derived_offset /\ In tr derived_alignment.
Definition slice_implements (tr : std_trait) : Prop :=
  tr = StPartialEq \/ (In tr derived_slice /\ In tr derived_alignment).
