(** [{:?}] of views: lib.rs:475-485, 851-855, 876-905, 1152-1162, 1431-1439,
    1721-1725, 1858-1862, 1994-1998 and generate_impl.rs:43-50.

    Only plain [{:?}] (no [#], width or precision), into a writer that does not
    fail.  What the standard library prints for a number, a double and a string,
    and its [String::from_utf8_lossy], are parameters. *)
From Verif Require Import Base Types Layout AlignedBytes Strs Spec Deser Buf.

Record fmts := Fmts {
  f_int : Z -> list byte;
  f_double : N -> list byte;
  f_str : list byte -> list byte;
  f_lossy : list byte -> list byte
}.

(** [f.debug_list().entries(..).finish()] (core): items separated by [", "]. *)
Fixpoint fmt_join (l : list (list byte)) : list byte :=
  match l with
  | [] => []
  | [x] => x
  | x :: l' => x ++ bs ", " ++ fmt_join l'
  end.
Definition fmt_list (l : list (list byte)) : list byte := bs "[" ++ fmt_join l ++ bs "]".
(** [Debug] of a tuple (core): [()], [(a,)], [(a, b)]. *)
Definition fmt_tuple (l : list (list byte)) : list byte :=
  match l with
  | [x] => bs "(" ++ x ++ bs ",)"
  | _ => bs "(" ++ fmt_join l ++ bs ")"
  end.
Definition fmt_bool (b : bool) : list byte := if b then bs "true" else bs "false".
(** [Debug] of [&[u8]] (core), and so of [AlignedBuf] (buf.rs:26-31). *)
Definition fmt_bytes (F : fmts) (d : list byte) : list byte :=
  fmt_list (map (fun b => f_int F (Z.of_N (b2n b))) d).

(** The loop of [Debug for NonFixedWidthArray] (lib.rs:1434-1436), which formats
    each item before fetching the next. *)
Fixpoint nfwa_fmt_go (h : host) (x : ty) (fx : slice -> res (list byte)) (fuel : nat) (it : nfwa_iter)
  : res (list byte) :=
  match fuel with
  | O => Crash Diverges
  | S n =>
      let* p := nfwa_next h x it in
      match fst p with
      | None => Ok []
      | Some r =>
          let* a := fx r in
          let* rest := nfwa_fmt_go h x fx n (snd p) in
          Ok (a ++ bs ", " ++ rest)
      end
  end.

(** [Debug::fmt] of every view: Bool (lib.rs:1994-1998), numbers (core), Str
    (851-855), Variant (1152-1162, with 893-897 for the type string), [[T]]
    (core), NonFixedWidthArray (1431-1439), maybes (1721-1725, 1858-1862:
    [Option]'s), structures (generate_impl.rs:43-50: the tuple's). *)
Fixpoint fmt_debug (h : host) (F : fmts) (t : ty) (s : slice) {struct t} : res (list byte) :=
  let num := of_ne h (s_data s) in
  match t with
  | TB => Ok (fmt_bool (0 <? num))
  | TY | TQ | TU | TT => Ok (f_int F (Z.of_N num))
  | TN => Ok (f_int F (signed 16 num))
  | TI => Ok (f_int F (signed 32 num))
  | TX => Ok (f_int F (signed 64 num))
  | TD => Ok (f_double F num)
  | TS | TO | TG => Ok (f_str F (to_str (s_data s)))
  | TV =>
      let* p := variant_split h s in
      Ok (bs "Variant { type: " ++ f_str F (f_lossy F (s_data (fst p))) ++
          bs ", data: " ++ fmt_bytes F (s_data (snd p)) ++ bs " }")
  | TA x =>
      match size_of x with
      | Some _ =>
          let* rs := array_refs h x s in
          let* l := mapM (fmt_debug h F x) rs in
          Ok (fmt_list l)
      | None =>
          let* it := nfwa_into_iter h x s in
          let* l := nfwa_fmt_go h x (fmt_debug h F x) (S (length (s_data s))) it in
          Ok (bs "[" ++ l ++ bs "]")
      end
  | TM x =>
      let* o := to_option h x s in
      match o with
      | Some r => let* a := fmt_debug h F x r in Ok (bs "Some(" ++ a ++ bs ")")
      | None => Ok (bs "None")
      end
  | TTuple ts =>
      let* rs := to_tuple h t s in
      let* l := (fix go (ts : list ty) (rs : list slice) : res (list (list byte)) :=
                   match ts, rs with
                   | t :: ts', r :: rs' =>
                       let* a := fmt_debug h F t r in
                       let* l := go ts' rs' in
                       Ok (a :: l)
                   | _, _ => Ok []
                   end) ts rs in
      Ok (fmt_tuple l)
  | TDict a b =>
      let* rs := to_tuple h t s in
      match rs with
      | [ra; rb] =>
          let* x := fmt_debug h F a ra in
          let* y := fmt_debug h F b rb in
          Ok (fmt_tuple [x; y])
      | _ => Ok (fmt_tuple [])
      end
  end.

(** [Debug] and [Display] of [Owned<T>] (lib.rs:475-485): both format the
    dereferenced view with the only [fmt] that is in scope for a [T: Cast], its
    [Debug]. *)
Definition owned_fmt (h : host) (F : fmts) (t : ty) (b : vec) : res (list byte) :=
  let* r := owned_deref h t b in
  fmt_debug h F t r.
