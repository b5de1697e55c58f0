(** The Rust type expressions the macros produce. *)
From Verif Require Import Base Types Layout Spec.

(** [marker_type] (gvariant-macro/src/lib.rs:34-61): the text of the Rust type. *)
Fixpoint marker_type (t : ty) : list byte :=
  match t with
  | TB => bs "Bool"
  | TY => bs "u8"
  | TN => bs "i16"
  | TQ => bs "u16"
  | TI => bs "i32"
  | TU => bs "u32"
  | TX => bs "i64"
  | TT => bs "u64"
  | TD => bs "f64"
  | TS | TO | TG => bs "Str"
  | TV => bs "Variant"
  | TA x => match size_of x with
            | None => bs "NonFixedWidthArray::<" ++ marker_type x ++ bs ">"
            | Some _ => bs "[" ++ marker_type x ++ bs "]"
            end
  | TM x => match size_of x with
            | None => bs "MaybeNonFixedSize::<" ++ marker_type x ++ bs ">"
            | Some _ => bs "MaybeFixedSize::<" ++ marker_type x ++ bs ">"
            end
  | TTuple _ | TDict _ _ => bs "Structure" ++ struct_name t
  end.
(** [type_for_typestr] (29-32), the expansion of [gv_type!] (14-18); an invalid
    type string makes the macro panic. *)
Definition gv_type (s : list byte) : res (list byte) :=
  match one s with inr t => Ok (marker_type t) | inl _ => Crash PUnwrap end.

(** The field types of the definition of a generated structure: [types] and
    [tuple] of generate_impl.rs:74-79 and the fields of the packed struct, 441. *)
Definition struct_field_types (t : ty) : list (list byte) := map marker_type (children_of t).
