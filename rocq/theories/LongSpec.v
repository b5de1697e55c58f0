(** Containers of 4 GiB and more: framing offsets are then eight bytes wide and
    can hold any 64-bit number.

    GVariant Specification 2.3.6 (framing offsets) puts no bound on the value a
    framing offset may hold in data that is not in normal form.  An offset is
    called {e near} here when it is below [2^63]; every offset of a container
    below 4 GiB is, and so is every offset that points into its container. *)
From Verif Require Import Base Types Spec.

Definition near (e : N) : bool := e <? 2 ^ 63.

(** All framing offsets of an array of variable-size elements are near. *)
Definition sp_array_near (d : list byte) : bool :=
  let n := len d in
  if n =? 0 then true
  else
    let w := sp_width n in
    let last := le_num (sub d (n - w) w) in
    if (last <=? n) && ((n - last) mod w =? 0) then
      forallb (fun i => near (le_num (sub d (last + N.of_nat i * w) w))) (seq 0 (N.to_nat ((n - last) / w)))
    else true.
(** All framing offsets of a structure are near. *)
Definition sp_struct_near (items : list (N * option N)) (d : list byte) : bool :=
  let w := sp_width (len d) in
  let k := sp_n_offsets items in
  if w * k <=? len d then
    forallb (fun i => near (le_num (sub d (len d - w * (N.of_nat i + 1)) w))) (seq 0 (N.to_nat k))
  else true.

(** All framing offsets used while reading a value of type [t] are near. *)
Fixpoint sp_near (t : ty) (d : option (list byte)) {struct t} : bool :=
  let bytes : list byte := match d with Some b => b | None => [] end in
  let items (ts : list ty) := map (fun t => (sp_align t, sp_size t)) ts in
  match t with
  | TA x => match sp_size x with
            | Some _ => true
            | None => sp_array_near bytes &&
                      forallb (sp_near x) (sp_array_children (sp_align x) bytes)
            end
  | TM x => match sp_size x, bytes with
            | None, _ :: _ => sp_near x (Some (removelast bytes))
            | _, _ => true
            end
  | TTuple ts =>
      match sp_size t with
      | Some _ => true
      | None => sp_struct_near (items ts) bytes &&
                (fix go (ts : list ty) (cs : list (option (list byte))) : bool :=
                   match ts, cs with
                   | t :: ts, c :: cs => sp_near t c && go ts cs
                   | _, _ => true
                   end) ts (sp_struct_children (items ts) bytes)
      end
  | TDict k v =>
      match sp_size t with
      | Some _ => true
      | None => sp_struct_near (items [k; v]) bytes &&
                match sp_struct_children (items [k; v]) bytes with
                | [ck; cv] => sp_near k ck && sp_near v cv
                | _ => true
                end
      end
  | _ => true
  end.
