(** The sums made while reading, on a machine that panics when one reaches [2^64]
    (a build with overflow checks).  Places are rounded up by adding the alignment
    first; the start of a structure's component is computed from a row of the table
    of section 3.2 of the GVariant Specification (TableSpec.v). *)
From Verif Require Import Base Types Spec TableSpec.

Definition in_64 (n : N) : bool := n <? 2 ^ 64.

(** Of an array of variable-size elements: each but the first starts at the end of
    the one before, rounded up. *)
Definition sp_array_sums (al : N) (d : list byte) : bool :=
  let n := len d in
  if n =? 0 then true
  else
    let w := sp_width n in
    let last := le_num (sub d (n - w) w) in
    if (last <=? n) && ((n - last) mod w =? 0) then
      forallb (fun e => in_64 (e + al))
        (removelast (map (fun i => le_num (sub d (last + N.of_nat i * w) w)) (seq 0 (N.to_nat ((n - last) / w)))))
    else true.

(** Of a structure: for each component the sum for rounding up, and then where it
    starts or, if its size is fixed, ends. *)
Definition sp_row_sums (d : list byte) (w : N) (p : (Z * N * N * N) * option N) : bool :=
  let '(i, a, b, c, size) := p in
  let e := if (i <? 0)%Z then 0 else le_num (sub d (len d - w * (Z.to_N i + 1)) w) in
  in_64 (e + a + 2 ^ b) &&
  in_64 (pad_to (2 ^ b) (e + a) + c + match size with Some s => s | None => 0 end).
Definition sp_struct_sums (ts : list ty) (d : list byte) : bool :=
  let w := sp_width (len d) in
  if w * sp_n_offsets (map (fun t => (sp_align t, sp_size t)) ts) <=? len d then
    forallb (sp_row_sums d w) (combine (py_generate_table (map py_item ts)) (map sp_size ts))
  else true.

(** All sums made while reading a value of type [t]. *)
Fixpoint sp_sums (t : ty) (d : option (list byte)) {struct t} : bool :=
  let bytes : list byte := match d with Some b => b | None => [] end in
  let items (ts : list ty) := map (fun t => (sp_align t, sp_size t)) ts in
  match t with
  | TA x => match sp_size x with
            | Some _ => true
            | None => sp_array_sums (sp_align x) bytes &&
                      forallb (sp_sums x) (sp_array_children (sp_align x) bytes)
            end
  | TM x => match sp_size x, bytes with
            | None, _ :: _ => sp_sums x (Some (removelast bytes))
            | _, _ => true
            end
  | TTuple ts =>
      match sp_size t with
      | Some _ => true
      | None => sp_struct_sums ts bytes &&
                (fix go (ts : list ty) (cs : list (option (list byte))) : bool :=
                   match ts, cs with
                   | t :: ts, c :: cs => sp_sums t c && go ts cs
                   | _, _ => true
                   end) ts (sp_struct_children (items ts) bytes)
      end
  | TDict k v =>
      match sp_size t with
      | Some _ => true
      | None => sp_struct_sums [k; v] bytes &&
                match sp_struct_children (items [k; v]) bytes with
                | [ck; cv] => sp_sums k ck && sp_sums v cv
                | _ => true
                end
      end
  | _ => true
  end.
