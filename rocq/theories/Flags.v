(** [{:#?}] and other format flags for views: the [fmt]s of Fmt.v, called with a
    [Formatter] whose flags are not the default ones.  Which of them hand the
    formatter on, and which start afresh with [write!] (lib.rs:475-485, 851-855,
    1152-1162, 1431-1439, 1721-1725, 1858-1862, 1994-1998, generate_impl.rs:43-50).

    What core writes under the flags for a number, a double, a [bool], a string
    and [()] are parameters, as are the plain ones (Fmt.v). *)
From Verif Require Import Base Types Layout AlignedBytes Strs Spec Deser Buf Fmt CoreFmt.

Record flags := Flags {
  g_alternate : bool;
  g_int : Z -> list byte;
  g_double : N -> list byte;
  g_bool : bool -> list byte;
  g_str : list byte -> list byte;
  g_unit : list byte
}.
(** No flags, as in the format strings of lib.rs:1157 and 1435. *)
Definition no_flags (F : fmts) : flags := Flags false (f_int F) (f_double F) fmt_bool (f_str F) (bs "()").

(** [{:#?}]: core writes numbers, [bool]s, strings and [()] as with [{:?}]. *)
Definition pretty (shown : N -> bool) (double : N -> list byte) : flags :=
  Flags true core_int double fmt_bool (core_str shown) (bs "()").

(** [PadAdapter] (core::fmt::builders; used by [Debug] of slices, [Option] and tuples,
    which lib.rs:1723, 1860 and generate_impl.rs:46 call): four spaces before every line.
    [nl] says whether a line begins here. *)
Fixpoint pad_adapter (nl : bool) (s : list byte) : list byte :=
  match s with
  | [] => []
  | c :: r => (if nl then bs "    " else []) ++ c :: pad_adapter (Byte.eqb c x0a) r
  end.
(** [DebugInner::entry] and [DebugTuple::field] (core) with [#]: the item, through a
    [PadAdapter], with a comma and a newline. *)
Definition entries (l : list (list byte)) : list byte :=
  concat (map (fun x => pad_adapter true (x ++ bs "," ++ [x0a])) l).
(** [Debug] of a slice (core). *)
Definition flag_list (G : flags) (l : list (list byte)) : list byte :=
  if g_alternate G
  then match l with [] => bs "[]" | _ => bs "[" ++ [x0a] ++ entries l ++ bs "]" end
  else fmt_list l.
(** [Debug] of [Some] (core). *)
Definition flag_some (G : flags) (x : list byte) : list byte :=
  if g_alternate G then bs "Some(" ++ [x0a] ++ entries [x] ++ bs ")" else bs "Some(" ++ x ++ bs ")".
(** [Debug] of a tuple (core); that of [()] is [Formatter::pad]. *)
Definition flag_tuple (G : flags) (l : list (list byte)) : list byte :=
  match l with
  | [] => g_unit G
  | _ => if g_alternate G then bs "(" ++ [x0a] ++ entries l ++ bs ")" else fmt_tuple l
  end.

(** [Debug::fmt] of every view, as [fmt_debug], with flags.  Variant and
    NonFixedWidthArray use [write!] (lib.rs:1155-1160, 1433-1437), which formats their
    contents with the flags of its own format string, that is none. *)
Fixpoint fmt_flags (h : host) (F : fmts) (G : flags) (t : ty) (s : slice) {struct t} : res (list byte) :=
  let num := of_ne h (s_data s) in
  match t with
  | TB => Ok (g_bool G (0 <? num))
  | TY | TQ | TU | TT => Ok (g_int G (Z.of_N num))
  | TN => Ok (g_int G (signed 16 num))
  | TI => Ok (g_int G (signed 32 num))
  | TX => Ok (g_int G (signed 64 num))
  | TD => Ok (g_double G num)
  | TS | TO | TG => Ok (g_str G (to_str (s_data s)))
  | TV => fmt_debug h F t s
  | TA x =>
      match size_of x with
      | Some _ =>
          let* rs := array_refs h x s in
          let* l := mapM (fmt_flags h F G x) rs in
          Ok (flag_list G l)
      | None => fmt_debug h F t s
      end
  | TM x =>
      let* o := to_option h x s in
      match o with
      | Some r => let* a := fmt_flags h F G x r in Ok (flag_some G a)
      | None => Ok (bs "None")
      end
  | TTuple ts =>
      let* rs := to_tuple h t s in
      let* l := (fix go (ts : list ty) (rs : list slice) : res (list (list byte)) :=
                   match ts, rs with
                   | t :: ts', r :: rs' =>
                       let* a := fmt_flags h F G t r in
                       let* l := go ts' rs' in
                       Ok (a :: l)
                   | _, _ => Ok []
                   end) ts rs in
      Ok (flag_tuple G l)
  | TDict a b =>
      let* rs := to_tuple h t s in
      match rs with
      | [ra; rb] =>
          let* x := fmt_flags h F G a ra in
          let* y := fmt_flags h F G b rb in
          Ok (flag_tuple G [x; y])
      | _ => Ok (flag_tuple G [])
      end
  end.

(** [Debug] and [Display] of [Owned<T>] (lib.rs:475-485) hand the formatter on. *)
Definition owned_flags (h : host) (F : fmts) (G : flags) (t : ty) (b : vec) : res (list byte) :=
  let* r := owned_deref h t b in
  fmt_flags h F G t r.
