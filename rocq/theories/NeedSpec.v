(** Which addresses a value can be read at (C147). *)
From Coq Require Import List NArith Init.Byte.
From Verif Require Import Types Spec.
Import ListNotations.
Open Scope N_scope.

Definition sp_most (l : list N) : N := fold_right N.max 1 l.
(** The greatest alignment among the numbers, fixed-size structures and arrays of
    fixed-size elements that lie in the bytes [d] of a value of type [t].  What does
    not fit and takes its default value lies elsewhere; strings, variants, and
    arrays, maybes and structures of variable size are only bytes. *)
Fixpoint sp_needs (t : ty) (d : option (list byte)) {struct t} : N :=
  let items (ts : list ty) := map (fun t => (sp_align t, sp_size t)) ts in
  match d with
  | None => 1
  | Some b =>
      match sp_size t with
      | Some n => if len b =? n then sp_align t else 1
      | None =>
          match t with
          | TA x => match sp_size x with
                    | Some n => if len b mod n =? 0 then sp_align x else 1
                    | None => sp_most (map (sp_needs x) (sp_array_children (sp_align x) b))
                    end
          | TM x => match sp_size x, b with
                    | Some _, _ => sp_needs x (Some b)
                    | None, [] => 1
                    | None, _ => sp_needs x (Some (removelast b))
                    end
          | TTuple ts =>
              sp_most ((fix go (ts : list ty) (cs : list (option (list byte))) : list N :=
                          match ts, cs with
                          | t :: ts, c :: cs => sp_needs t c :: go ts cs
                          | _, _ => []
                          end) ts (sp_struct_children (items ts) b))
          | TDict k v =>
              match sp_struct_children (items [k; v]) b with
              | [ck; cv] => sp_most [sp_needs k ck; sp_needs v cv]
              | _ => 1
              end
          | _ => 1
          end
      end
  end.
(** The greatest alignment of anything of fixed size, or element of such an array,
    that can be in a value of type [t]. *)
Fixpoint sp_could_need (t : ty) : N :=
  match sp_size t with
  | Some _ => sp_align t
  | None =>
      match t with
      | TA x | TM x => sp_could_need x
      | TTuple ts => sp_most (map sp_could_need ts)
      | TDict k v => sp_most [sp_could_need k; sp_could_need v]
      | _ => 1
      end
  end.
