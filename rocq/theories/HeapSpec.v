(** How many offsets are kept while a value is serialised (C159). *)
From Coq Require Import List NArith.
From Verif Require Import Types Spec Ser.
Import ListNotations.
Open Scope N_scope.

Definition sp_greatest (l : list N) : N := fold_right N.max 0 l.
(** An array of variable-size elements keeps the offsets of the elements so far beside
    what the present one keeps, and at the end those of all of them; anything else only
    keeps what a part of it does, of one at a time. *)
Fixpoint sp_kept (r : rval) (t : ty) {struct r} : N :=
  match r, t with
  | RWrap u r', TV => sp_kept r' u
  | ROpt (Some r'), TM x => sp_kept r' x
  | RList rs, TA x =>
      match sp_size x with
      | Some _ => 0
      | None => (fix go (rs : list rval) (i : N) : N :=
                   match rs with
                   | [] => i
                   | r' :: rs => N.max (i + sp_kept r' x) (go rs (i + 1))
                   end) rs 0
      end
  | RList (r' :: _), TM x => sp_kept r' x
  | RTuple rs, _ =>
      sp_greatest ((fix go (rs : list rval) (ts : list ty) : list N :=
                      match rs, ts with
                      | r' :: rs, t' :: ts => sp_kept r' t' :: go rs ts
                      | _, _ => []
                      end) rs (sp_components t))
  | _, _ => 0
  end.
