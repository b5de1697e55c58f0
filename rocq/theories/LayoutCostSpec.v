(** Vocabulary for the work of the macro (C165). *)
From Coq Require Import List NArith.
From Verif Require Import Types.
Import ListNotations.
Open Scope N_scope.

(** How many types there are in a type, itself included. *)
Fixpoint sp_nodes (t : ty) : N :=
  match t with
  | TA x | TM x => 1 + sp_nodes x
  | TTuple ts => 1 + fold_right (fun t n => sp_nodes t + n) 0 ts
  | TDict k v => 1 + sp_nodes k + sp_nodes v
  | _ => 1
  end.
(** How often the types in a type of fixed size are asked about, when [w] times that is on
    behalf of what is around it.  Each is asked for its size, and a structure or entry for
    its alignment in the end; a member of a structure, and the value of an entry, also once
    for its own alignment and once for that of what it is in, a key only for the latter. *)
Fixpoint sp_asked (w : N) (t : ty) : N :=
  match t with
  | TTuple [] => w + 1
  | TTuple ts => w + 2 + fold_right (fun t n => sp_asked (w + 2) t + n) 0 ts
  | TDict k v => w + 2 + sp_asked (w + 1) k + sp_asked (w + 2) v
  | _ => w + 1
  end.
