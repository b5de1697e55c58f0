(** Vocabulary for the recursion of the parser (C164). *)
From Coq Require Import List NArith.
From Verif Require Import Types.
Import ListNotations.
Open Scope N_scope.

(** How many types there are inside each other, the outermost included. *)
Fixpoint sp_depth (t : ty) : N :=
  match t with
  | TA x | TM x => 1 + sp_depth x
  | TTuple ts => 1 + fold_right (fun t n => N.max (sp_depth t) n) 0 ts
  | TDict k v => 1 + N.max (sp_depth k) (sp_depth v)
  | _ => 1
  end.
(** What the parser does for a valid type, besides taking its bytes: a look at the letter of
    each type in it, a box for each array, maybe and dictionary entry, a comparison and a
    push for each member of a tuple, and a comparison for each closing bracket. *)
Fixpoint sp_work (t : ty) : N :=
  match t with
  | TA x | TM x => 2 + sp_work x
  | TTuple ts => 2 + fold_right (fun t n => 2 + sp_work t + n) 0 ts
  | TDict k v => 3 + sp_work k + sp_work v
  | _ => 1
  end.
