(** Conversion between byte orders in place (C113).  GVariant Specification 3.1
    (docs/gvariant-serialisation.pdf, pages 27-28). *)
From Verif Require Import Base Types Spec.

(** The data of a value of fixed size, or of an array or maybe of such values,
    with the bytes of every number turned round where they are.  Data that has
    not the size of the type stands for a default value and is left alone. *)
Fixpoint sp_turn (t : ty) (d : list byte) {struct t} : list byte :=
  let whole : bool := match sp_size t with Some n => len d =? n | None => false end in
  let member (t : ty) (f : list byte -> list byte) (pos : N) (rest : N -> list byte) :=
    let start := pad_to (sp_align t) pos in
    let size := match sp_size t with Some n => n | None => 0 end in
    sub d pos (start - pos) ++ f (sub d start size) ++ rest (start + size) in
  let tail (pos : N) := sub d pos (len d - pos) in
  match t with
  | TN | TQ | TI | TU | TX | TT | TD => if whole then rev d else d
  | TTuple ts =>
      if whole
      then (fix go (pos : N) (ts : list ty) : list byte :=
              match ts with
              | [] => tail pos
              | t :: ts => member t (sp_turn t) pos (fun pos => go pos ts)
              end) 0 ts
      else d
  | TDict k v =>
      if whole
      then member k (sp_turn k) 0 (fun pos => member v (sp_turn v) pos tail)
      else d
  | TA x => match sp_size x with
            | Some n => if len d mod n =? 0
                        then concat (map (sp_turn x) (sp_pieces (length d) (N.to_nat n) d))
                        else d
            | None => d
            end
  | TM x => match sp_size x with
            | Some n => if len d =? n then sp_turn x d else d
            | None => d
            end
  | _ => d
  end.
(** Fixed size, or an array or maybe of values of fixed size: no framing offsets. *)
Definition sp_unframed (t : ty) : bool :=
  match t with
  | TA x | TM x => sp_fixed x
  | _ => sp_fixed t
  end.
