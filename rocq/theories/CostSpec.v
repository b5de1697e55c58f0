(** Bytes in which every child is in range (C151). *)
From Coq Require Import List NArith Bool Init.Byte.
From Verif Require Import Types Spec.
Import ListNotations.
Open Scope N_scope.

(** No variable-size array or structure reached from the bytes [d] of a value of type
    [t] has a child that is out of range. *)
Fixpoint sp_orderly (t : ty) (d : option (list byte)) {struct t} : bool :=
  let items (ts : list ty) := map (fun t => (sp_align t, sp_size t)) ts in
  match d with
  | None => false
  | Some b =>
      match sp_size t with
      | Some _ => true
      | None =>
          match t with
          | TA x => match sp_size x with
                    | Some _ => true
                    | None => forallb (sp_orderly x) (sp_array_children (sp_align x) b)
                    end
          | TM x => match sp_size x, b with
                    | None, _ :: _ => sp_orderly x (Some (removelast b))
                    | _, _ => true
                    end
          | TTuple ts =>
              (fix go (ts : list ty) (cs : list (option (list byte))) : bool :=
                 match ts, cs with
                 | t :: ts, c :: cs => sp_orderly t c && go ts cs
                 | _, _ => true
                 end) ts (sp_struct_children (items ts) b)
          | TDict k v =>
              match sp_struct_children (items [k; v]) b with
              | [ck; cv] => sp_orderly k ck && sp_orderly v cv
              | _ => true
              end
          | _ => true
          end
      end
  end.
