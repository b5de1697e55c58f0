(** How large a value is, and how deep the arrays in a type are nested.

    Nothing here is code of the crate: these are measures used to say how much a
    reader can be made to produce from how many bytes.  GVariant Specification
    2.3.4 (arrays) and 2.3.6 (framing offsets): elements of variable size are
    found by framing offsets, and nothing stops two of these from naming the same
    bytes in data that is not in normal form. *)
From Verif Require Import Base Types Spec.

(** Nodes of a value plus bytes of its strings and variants. *)
Fixpoint sp_weight (v : value) : N :=
  match v with
  | VStr s => 1 + len s
  | VVariant ts d => 1 + len ts + len d
  | VArray vs | VTuple vs => 1 + fold_right (fun v n => sp_weight v + n) 0 vs
  | VMaybe o => 1 + match o with Some v => sp_weight v | None => 0 end
  | VInt _ | VDouble _ | VBool _ => 1
  end.

(** How many arrays of variable-size elements are nested in each other. *)
Fixpoint sp_nest (t : ty) : N :=
  match t with
  | TA x => match sp_size x with Some _ => 0 | None => 1 + sp_nest x end
  | TM x => sp_nest x
  | TTuple ts => fold_right (fun t n => N.max (sp_nest t) n) 0 ts
  | TDict k v => N.max (sp_nest k) (sp_nest v)
  | _ => 0
  end.
