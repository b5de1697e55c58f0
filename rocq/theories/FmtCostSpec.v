(** Vocabulary for how long printing takes. *)
From Coq Require Import List NArith Init.Byte.
From Verif Require Import Spec.
Import ListNotations.
Open Scope N_scope.

(** The bytes of the type strings of the variants in a value. *)
Fixpoint sp_labels (v : value) : N :=
  match v with
  | VVariant ts _ => len ts
  | VMaybe (Some v) => sp_labels v
  | VArray vs | VTuple vs => fold_right (fun v n => sp_labels v + n) 0 vs
  | _ => 0
  end.
