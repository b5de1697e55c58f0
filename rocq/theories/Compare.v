(** The trait [PartialEq]: which Rust types [==] accepts on its two sides, according to
    the [impl]s in gvariant/src/lib.rs, in the generated code and in core; one rule per
    [impl], as in Traits.v. *)
From Verif Require Import Base Types Layout Traits.

(** [Sized]: not [str], slices and the views of types without a fixed size
    (lib.rs:710-714, 1119-1121, 1427-1429, 1697-1701, 1853-1857; generated
    structures: generate_impl.rs:85-88, 402-407). *)
Definition is_sized (r : rty) : bool :=
  match r with
  | YStr | GStr | GVariant | YSlice _ | GArray _ | GMaybeFixed _ | GMaybe _ => false
  | GStruct t => is_fixed t
  | _ => true
  end.

(** [compares A B]: A implements [PartialEq<B>]. *)
Inductive compares : rty -> rty -> Prop :=
(** core: numbers, [bool], [str]; alloc: [String] *)
| c_number n : is_number n = true -> compares n n
| c_bool : compares YBool YBool
| c_str : compares YStr YStr
| c_string : compares YString YString
| c_string_str : compares YString YStr
| c_str_string : compares YStr YString
| c_string_ref : compares YString (YRef YStr)
| c_ref_string : compares (YRef YStr) YString
(** core: references, options, tuples; alloc: boxes *)
| c_ref a b : compares a b -> compares (YRef a) (YRef b)
| c_option a : compares a a -> compares (YOption a) (YOption a)
| c_tuple l : Forall (fun a => compares a a) l -> compares (YTuple l) (YTuple l)
| c_box a : compares a a -> compares (YBox a) (YBox a)
(** core and alloc: slices, arrays and vectors; those between vectors and arrays are
    left out *)
| c_slice a b : compares a b -> compares (YSlice a) (YSlice b)
| c_array a b : compares a b -> compares (YArray a) (YArray b)
| c_vec a b : compares a b -> compares (YVec a) (YVec b)
| c_array_slice a b : compares a b -> compares (YArray a) (YSlice b)
| c_slice_array a b : compares a b -> compares (YSlice a) (YArray b)
| c_array_ref a b : compares a b -> compares (YArray a) (YRef (YSlice b))
| c_ref_array a b : compares a b -> compares (YRef (YSlice a)) (YArray b)
| c_vec_slice a b : compares a b -> compares (YVec a) (YSlice b)
| c_slice_vec a b : compares a b -> compares (YSlice a) (YVec b)
| c_vec_ref a b : compares a b -> compares (YVec a) (YRef (YSlice b))
| c_ref_vec a b : compares a b -> compares (YRef (YSlice a)) (YVec b)
(** [Str] (lib.rs:830-835, 836-840, 841-845), [GString] (939), [Variant] (1221-1227) *)
| c_gstr : compares GStr GStr
| c_str_gstr : compares YStr GStr
| c_gstr_str : compares GStr YStr
| c_gstring : compares GString GString
| c_variant : compares GVariant GVariant
(** [NonFixedWidthArray] (1506-1518, 1535-1547, 1548-1552) *)
| c_nfwa a : compares a a -> compares (GArray a) (GArray a)
| c_nfwa_slice a b : compares a b -> compares (GArray a) (YSlice (YRef b))
| c_slice_nfwa a b : compares a b -> compares (YSlice (YRef b)) (GArray a)
(** [MaybeFixedSize] (1755-1759, 1761-1765, 1766-1770); its parameter is [Sized] *)
| c_maybe_fixed a : is_sized a = true -> compares a a -> compares (GMaybeFixed a) (GMaybeFixed a)
| c_maybe_fixed_option a : is_sized a = true -> compares a a ->
    compares (YRef (GMaybeFixed a)) (YOption (YRef a))
| c_option_maybe_fixed a : is_sized a = true -> compares a a ->
    compares (YOption (YRef a)) (YRef (GMaybeFixed a))
(** [MaybeNonFixedSize] (1928-1932, 1934-1938, 1939-1943); the last two lack [?Sized] *)
| c_maybe a : compares a a -> compares (GMaybe a) (GMaybe a)
| c_maybe_option a : is_sized a = true -> compares a a -> compares (GMaybe a) (YOption (YRef a))
| c_option_maybe a : is_sized a = true -> compares a a -> compares (YOption (YRef a)) (GMaybe a)
(** [Bool] (2008-2012, 2013-2017, 2018-2022) *)
| c_gbool : compares GBool GBool
| c_gbool_bool : compares GBool YBool
| c_bool_gbool : compares YBool GBool
(** structures (generate_impl.rs:227-231, 496-500) *)
| c_struct t : compares (GStruct t) (GStruct t).
