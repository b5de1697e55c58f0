(** What format flags should make of a value. *)
From Verif Require Import Base Types Spec Fmt FmtSpec Flags.

(** A new line, indented d times. *)
Definition sp_line (d : nat) : list byte := x0a :: concat (repeat (bs "    ") d).
(** Items on lines of their own, each with a comma, one step further in than the
    brackets. *)
Definition sp_block (d : nat) (items : list (list byte)) : list byte :=
  concat (map (fun y => sp_line (S d) ++ y ++ bs ",") items) ++ sp_line d.
(** [d]: how far the text is indented. *)
Fixpoint sp_flags (F : fmts) (G : flags) (d : nat) (t : ty) (v : value) {struct t} : list byte :=
  match t, v with
  | TV, _ => sp_print F t v
  | TA x, VArray vs =>
      match sp_size x with
      | None => sp_print F t v
      | Some _ =>
          if g_alternate G
          then bs "[" ++ match vs with [] => [] | _ => sp_block d (map (sp_flags F G (S d) x) vs) end ++ bs "]"
          else bs "[" ++ sp_sep (bs ", ") (map (sp_flags F G d x) vs) ++ bs "]"
      end
  | TM x, VMaybe (Some w) =>
      bs "Some(" ++ (if g_alternate G then sp_block d [sp_flags F G (S d) x w] else sp_flags F G d x w) ++ bs ")"
  | TM _, VMaybe None => bs "None"
  | TTuple [], VTuple [] => g_unit G
  | TTuple ts, VTuple vs =>
      let items d := (fix go (ts : list ty) (vs : list value) : list (list byte) :=
                        match ts, vs with
                        | t :: ts', v :: vs' => sp_flags F G d t v :: go ts' vs'
                        | _, _ => []
                        end) ts vs in
      bs "(" ++ (if g_alternate G then sp_block d (items (S d))
                 else sp_sep (bs ", ") (items d) ++ (if len ts =? 1 then bs "," else [])) ++ bs ")"
  | TDict k x, VTuple [a; b] =>
      bs "(" ++ (if g_alternate G then sp_block d [sp_flags F G (S d) k a; sp_flags F G (S d) x b]
                 else sp_flags F G d k a ++ bs ", " ++ sp_flags F G d x b) ++ bs ")"
  | _, VInt z => g_int G z
  | _, VDouble b => g_double G b
  | _, VBool b => g_bool G b
  | _, VStr s => g_str G s
  | _, _ => []
  end.

(** [{:#?}]: over several lines, numbers and strings as with [{:?}]. *)
Definition sp_pretty (F : fmts) : ty -> value -> list byte :=
  sp_flags F (Flags true (f_int F) (f_double F) (fun b => if b then bs "true" else bs "false") (f_str F) (bs "()")) 0.

(** Numbers and strings are written without line breaks. *)
Definition one_line (s : list byte) : Prop := ~ In x0a s.
Definition one_lines (F : fmts) (G : flags) : Prop :=
  (forall z, one_line (f_int F z)) /\ (forall n, one_line (f_double F n)) /\ (forall s, one_line (f_str F s)) /\
  (forall z, one_line (g_int G z)) /\ (forall n, one_line (g_double G n)) /\ (forall s, one_line (g_str G s)) /\
  (forall b, one_line (g_bool G b)) /\ one_line (g_unit G).
