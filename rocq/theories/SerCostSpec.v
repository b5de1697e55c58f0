(** What the time for serialising depends on (C160). *)
From Coq Require Import List NArith.
From Verif Require Import Types Spec Ser.
Import ListNotations.
Open Scope N_scope.

(** The bytes of the strings and views in a value. *)
Fixpoint sp_given (r : rval) : N :=
  match r with
  | RStr d | RStrView d | RVariant d => len d
  | RWrap _ r | ROpt (Some r) => sp_given r
  | RList rs | RTuple rs => fold_right (fun r n => sp_given r + n) 0 rs
  | _ => 0
  end.
