(** Reading on a machine whose sums wrap around at [2^64] (a build without overflow
    checks): as [sp_decode] and [sp_reads], except that the places where children
    start, and where fixed-size children end, are taken modulo [2^64].  That matters
    only for containers of 4 GiB and more, see LongSpec.v. *)
From Verif Require Import Base Types Spec.

Definition wrap (n : N) : N := n mod 2 ^ 64.

(** As [sp_array_cut] and [sp_array_children]. *)
Fixpoint w_array_cut (al : N) (d : list byte) (limit prev : N) (ends : list N) : list (option (list byte)) :=
  match ends with
  | [] => []
  | e :: r => cut d (wrap (pad_to al prev)) e limit :: w_array_cut al d limit e r
  end.
Definition w_array_children (al : N) (d : list byte) : list (option (list byte)) :=
  let n := len d in
  if n =? 0 then []
  else
    let w := sp_width n in
    let last := le_num (sub d (n - w) w) in
    if (last <=? n) && ((n - last) mod w =? 0) then
      w_array_cut al d last 0
        (map (fun i => le_num (sub d (last + N.of_nat i * w) w)) (seq 0 (N.to_nat ((n - last) / w))))
    else [].

(** As [sp_struct_cut] and [sp_struct_children]. *)
Fixpoint w_struct_cut (d : list byte) (w limit prev : N) (nth : N)
  (items : list (N * option N)) : list (option (list byte)) :=
  match items with
  | [] => []
  | (al, size) :: rest =>
      let start := pad_to al prev in
      match size, rest with
      | Some s, _ => cut d (wrap start) (wrap (start + s)) limit :: w_struct_cut d w limit (start + s) nth rest
      | None, [] => [cut d (wrap start) limit limit]
      | None, _ =>
          let e := le_num (sub d (len d - w * (nth + 1)) w) in
          cut d (wrap start) e limit :: w_struct_cut d w limit e (nth + 1) rest
      end
  end.
Definition w_struct_children (items : list (N * option N)) (d : list byte) : list (option (list byte)) :=
  let w := sp_width (len d) in
  let k := sp_n_offsets items in
  if w * k <=? len d then w_struct_cut d w (len d - w * k) 0 0 items
  else map (fun _ => None) items.

(** As [sp_decode]. *)
Fixpoint w_decode (big : bool) (t : ty) (d : option (list byte)) {struct t} : value :=
  let sized (n : N) : list byte :=
    match d with
    | Some b => if len b =? n then b else nuls n
    | None => nuls n
    end in
  let bytes : list byte := match d with Some b => b | None => [] end in
  let items (ts : list ty) := map (fun t => (sp_align t, sp_size t)) ts in
  let parts (ts : list ty) := match sp_size t with
                              | Some n => sp_struct_cut (sized n) 0 n 0 0 (items ts)
                              | None => w_struct_children (items ts) bytes
                              end in
  match t with
  | TA x =>
      VArray (map (w_decode big x)
        match sp_size x with
        | Some n => if len bytes mod n =? 0
                    then map Some (sp_pieces (length bytes) (N.to_nat n) bytes)
                    else []
        | None => w_array_children (sp_align x) bytes
        end)
  | TM x =>
      VMaybe (match sp_size x with
              | Some n => if len bytes =? n then Some (w_decode big x (Some bytes)) else None
              | None => match bytes with
                        | [] => None
                        | _ => Some (w_decode big x (Some (removelast bytes)))
                        end
              end)
  | TTuple ts =>
      VTuple ((fix go (ts : list ty) (cs : list (option (list byte))) : list value :=
                 match ts, cs with
                 | t :: ts, c :: cs => w_decode big t c :: go ts cs
                 | _, _ => []
                 end) ts (parts ts))
  | TDict k v =>
      match parts [k; v] with
      | [ck; cv] => VTuple [w_decode big k ck; w_decode big v cv]
      | _ => VTuple []
      end
  | _ => sp_decode big t d
  end.

(** As [sp_reads]. *)
Fixpoint w_reads (t : ty) (d : option (list byte)) {struct t} : bool :=
  let bytes : list byte := match d with Some b => b | None => [] end in
  let items (ts : list ty) := map (fun t => (sp_align t, sp_size t)) ts in
  match t with
  | TA x => match sp_size x with
            | Some _ => true
            | None => forallb (fun c => sp_whole x c && w_reads x c) (w_array_children (sp_align x) bytes)
            end
  | TM x => match sp_size x, bytes with
            | None, _ :: _ => let c := Some (removelast bytes) in sp_whole x c && w_reads x c
            | _, _ => true
            end
  | TTuple ts =>
      match sp_size t with
      | Some _ => true
      | None => (fix go (ts : list ty) (cs : list (option (list byte))) : bool :=
                   match ts, cs with
                   | t :: ts, c :: cs => w_reads t c && go ts cs
                   | _, _ => true
                   end) ts (w_struct_children (items ts) bytes)
      end
  | TDict k v =>
      match sp_size t, w_struct_children (items [k; v]) bytes with
      | None, [ck; cv] => w_reads k ck && w_reads v cv
      | _, _ => true
      end
  | _ => true
  end.
