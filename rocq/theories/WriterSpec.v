(** Vocabulary for what a writer is given (C98). *)
From Verif Require Import Base Ser Writer.

(** Offering pieces to a writer one after another, up to the first that it does
    not take, and ending with [x] if it takes all. *)
Fixpoint offer {K A} {W : Write K} (pieces : list (list byte)) (x : sres A) (k : K) : K * sres A :=
  match pieces with
  | [] => (k, x)
  | p :: rest =>
      match write_all p k with
      | (k, SOk _) => offer rest x k
      | (k, SErr e) => (k, SErr e)
      | (k, SCrash c) => (k, SCrash c)
      end
  end.
(** Calls of [write] after which writing goes on, and the error it stops with
    after the others. *)
Definition continues (a : answer) : Prop :=
  match a with Accepts n => n <> 0 | Again => True | Refuses _ => False end.
Definition stops (a : answer) (e : serr) : Prop :=
  match a with Accepts n => n = 0 /\ e = EWriteZero | Again => False | Refuses x => e = EOther x end.
(** How many values there are in a value: itself, its elements or members, theirs, and
    so on. *)
Fixpoint sp_parts (r : rval) : N :=
  match r with
  | RWrap _ r | ROpt (Some r) => 1 + sp_parts r
  | RList rs | RTuple rs => 1 + fold_right (fun r n => sp_parts r + n) 0 rs
  | _ => 1
  end.
