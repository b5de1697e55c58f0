(** Vocabulary for the least that reading takes (C163). *)
From Coq Require Import List NArith Init.Byte.
From Verif Require Import Spec.
Import ListNotations.
Open Scope N_scope.

(** What has to be looked at to read a value: numbers, the bytes of strings (for NULs,
    then for UTF-8), those of the type strings of variants, elements and members. *)
Fixpoint sp_looked (v : value) : N :=
  match v with
  | VInt _ | VDouble _ | VBool _ => 1
  | VStr s => 4 + 2 * len s
  | VVariant ts _ => 1 + len ts
  | VMaybe (Some v) => 1 + sp_looked v
  | VMaybe None => 1
  | VArray vs => 1 + fold_right (fun v n => 1 + sp_looked v + n) 0 vs
  | VTuple vs => fold_right (fun v n => 1 + sp_looked v + n) 0 vs
  end.
(** What has to be looked at to find a value equal to another: two numbers and whether
    they are the same; the bytes of a string, those of a variant; elements; members, to
    be found on both sides. *)
Fixpoint sp_compared (v : value) : N :=
  match v with
  | VInt _ | VDouble _ | VBool _ => 3
  | VStr s => 1 + len s
  | VVariant ts d => 2 + len ts + len d
  | VMaybe (Some v) => 2 + sp_compared v
  | VMaybe None => 2
  | VArray vs => 1 + fold_right (fun v n => sp_compared v + n) 0 vs
  | VTuple vs => fold_right (fun v n => 2 + sp_compared v + n) 0 vs
  end.
