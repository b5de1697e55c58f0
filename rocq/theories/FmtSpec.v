(** What [{:?}] should print, as a function of the value. *)
From Verif Require Import Base Types Layout Spec Fmt.

(** [sep] after every item but the last, or also after the last one. *)
Definition sp_sep (sep : list byte) (l : list (list byte)) : list byte :=
  match l with [] => [] | x :: l' => x ++ concat (map (fun y => sep ++ y) l') end.
Definition sp_trail (sep : list byte) (l : list (list byte)) : list byte :=
  concat (map (fun y => y ++ sep) l).

Fixpoint sp_print (F : fmts) (t : ty) (v : value) {struct t} : list byte :=
  match t, v with
  | TA x, VArray vs =>
      let l := map (sp_print F x) vs in
      bs "[" ++ match sp_size x with
                | Some _ => sp_sep (bs ", ") l
                | None => sp_trail (bs ", ") l
                end ++ bs "]"
  | TM x, VMaybe (Some w) => bs "Some(" ++ sp_print F x w ++ bs ")"
  | TM _, VMaybe None => bs "None"
  | TTuple ts, VTuple vs =>
      let l := (fix go (ts : list ty) (vs : list value) : list (list byte) :=
                  match ts, vs with
                  | t :: ts', v :: vs' => sp_print F t v :: go ts' vs'
                  | _, _ => []
                  end) ts vs in
      bs "(" ++ sp_sep (bs ", ") l ++ (if len l =? 1 then bs "," else []) ++ bs ")"
  | TDict k x, VTuple [a; b] => bs "(" ++ sp_print F k a ++ bs ", " ++ sp_print F x b ++ bs ")"
  | _, VInt z => f_int F z
  | _, VDouble b => f_double F b
  | _, VBool b => if b then bs "true" else bs "false"
  | _, VStr s => f_str F s
  | _, VVariant ts d =>
      bs "Variant { type: " ++ f_str F (f_lossy F ts) ++
      bs ", data: [" ++ sp_sep (bs ", ") (map (fun b => f_int F (Z.of_N (b2n b))) d) ++ bs "] }"
  | _, _ => []
  end.
