(** What a declaration is made of (C158). *)
From Coq Require Import List NArith.
From Verif Require Import Base Types Marker Spec LexSpec TextSpec Decl.
Import ListNotations.

(** [x] is in [m], or is what something in [m] refers to or stands for. *)
Inductive sp_inside : mty -> mty -> Prop :=
| In_itself m : sp_inside m m
| In_phantom m x : sp_inside m x -> sp_inside (MPhantom m) x
| In_slice m x : sp_inside m x -> sp_inside (MSlice m) x
| In_ref m x : sp_inside m x -> sp_inside (MRef m) x
| In_mut m x : sp_inside m x -> sp_inside (MRefMut m) x
| In_vec m x : sp_inside m x -> sp_inside (MVec m) x
| In_ptr m x : sp_inside m x -> sp_inside (MPtr m) x
| In_cell m x : sp_inside m x -> sp_inside (MCell m) x
| In_struct r fs m x : In m fs -> sp_inside m x -> sp_inside (MStruct r fs) x.
(** What is not safe for threads by itself. *)
Definition sp_raw (m : mty) : Prop := match m with MPtr _ | MCell _ => True | _ => False end.
(** [x] is in [m], or referred to by something in [m] that nothing else refers to. *)
Inductive sp_owned : mty -> mty -> Prop :=
| Own_itself m : sp_owned m m
| Own_phantom m x : sp_owned m x -> sp_owned (MPhantom m) x
| Own_slice m x : sp_owned m x -> sp_owned (MSlice m) x
| Own_mut m x : sp_owned m x -> sp_owned (MRefMut m) x
| Own_vec m x : sp_owned m x -> sp_owned (MVec m) x
| Own_cell m x : sp_owned m x -> sp_owned (MCell m) x
| Own_struct r fs m x : In m fs -> sp_owned m x -> sp_owned (MStruct r fs) x.
(** What may be sent to another thread: no pointer, and a shared reference only to what may
    be shared. *)
Definition sp_sendable (m : mty) : Prop :=
  match m with MPtr _ => False | MRef y => forall x, sp_inside y x -> ~ sp_raw x | _ => True end.

(** The field [f] of the text emitted for the structure [s] is declared as [m]: the field
    of a component has its type, paddings are arrays of bytes. *)
Definition sp_declared (s : ty) (f : field) (m : mty) : Prop :=
  match f with
  | Data n T => exists c, nth_error (sp_components s) (N.to_nat n) = Some c /\ token_trees (marker_type c) = Some T /\ m = decl c
  | Padding _ size => m = MPad size
  | Bytes _ => m = aligned_decl
  end.
(** The attribute that says so. *)
Definition sp_attribute (r : repr) : list byte :=
  match r with Transparent => bs "repr(transparent)" | LikeC => bs "repr(C)" | AnyOrder => [] end.
