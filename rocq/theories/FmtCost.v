(** How many steps [{:?}] takes.

    The functions of [Fmt] once more, with a count of steps as in [Cost]; each byte of
    text that is written takes a step, and so does each byte that
    [String::from_utf8_lossy] looks at.  What core does to find out the text of a number
    or a string is counted with that text.  [FmtCostFacts] shows that without the counts
    these are the functions of [Fmt]. *)
From Verif Require Import Base Types Layout AlignedBytes Strs Spec Deser Fmt Cost.

(** Text given to the formatter ([write!], lib.rs:1432-1438; core). *)
Definition says (a : list byte) : timed (list byte) := costs (blen a) (Ok a).
(** The text [whole], of which [parts] are written already: the brackets, commas and names
    that core writes for slices, and around the members of tuples
    (generate_impl.rs:43-50) and options (lib.rs:1721-1725, 1858-1862), and those of
    [NonFixedWidthArray] (lib.rs:1433, 1437). *)
Definition around (whole : list byte) (parts : list (list byte)) : timed (list byte) :=
  costs (blen whole - fold_right (fun p n => blen p + n) 0 parts) (Ok whole).
(** Members one after another (core). *)
Fixpoint each_t {A B} (f : A -> timed B) (l : list A) : timed (list B) :=
  match l with
  | [] => now []
  | x :: l => let+ y := f x in let+ ys := each_t f l in now (y :: ys)
  end.
(** The loop of [Debug for NonFixedWidthArray] (lib.rs:1434-1436). *)
Fixpoint nfwa_fmt_go_t (h : host) (x : ty) (fx : slice -> timed (list byte)) (fuel : nat) (it : nfwa_iter)
  : timed (list byte) :=
  match fuel with
  | O => costs 0 (Crash Diverges)
  | S n =>
      let+ p := nfwa_next_t h x it in
      match fst p with
      | None => now []
      | Some r =>
          let+ a := fx r in
          let+ sep := says (bs ", ") in
          let+ rest := nfwa_fmt_go_t h x fx n (snd p) in
          now (a ++ sep ++ rest)
      end
  end.
(** [Debug::fmt] of every view, as [fmt_debug] (lib.rs:851-855, 893-897, 1152-1162,
    1431-1439, 1721-1725, 1858-1862, 1994-1998, generate_impl.rs:43-50). *)
Fixpoint fmt_debug_t (h : host) (F : fmts) (t : ty) (s : slice) {struct t} : timed (list byte) :=
  match t with
  | TB | TY | TN | TQ | TI | TU | TX | TT | TD =>
      let+ a := costs 1 (fmt_debug h F t s) in says a
  | TS | TO | TG => let+ x := to_str_t (s_data s) in says (f_str F x)
  | TV =>
      let+ p := variant_split_t h s in
      let+ ts := costs (slen (fst p)) (Ok (f_lossy F (s_data (fst p)))) in
      says (bs "Variant { type: " ++ f_str F ts ++
            bs ", data: " ++ fmt_bytes F (s_data (snd p)) ++ bs " }")
  | TA x =>
      match size_of x with
      | Some _ =>
          let+ rs := array_refs_t h x s in
          let+ l := each_t (fmt_debug_t h F x) rs in
          around (fmt_list l) l
      | None =>
          let+ it := nfwa_into_iter_t h x s in
          let+ l := nfwa_fmt_go_t h x (fmt_debug_t h F x) (S (length (s_data s))) it in
          around (bs "[" ++ l ++ bs "]") [l]
      end
  | TM x =>
      let+ o := to_option_t h x s in
      match o with
      | Some r => let+ a := fmt_debug_t h F x r in around (bs "Some(" ++ a ++ bs ")") [a]
      | None => says (bs "None")
      end
  | TTuple ts =>
      let+ rs := to_tuple_t h t s in
      let+ l := (fix go (ts : list ty) (rs : list slice) : timed (list (list byte)) :=
                   match ts, rs with
                   | t :: ts', r :: rs' =>
                       let+ a := fmt_debug_t h F t r in
                       let+ l := go ts' rs' in
                       now (a :: l)
                   | _, _ => now []
                   end) ts rs in
      around (fmt_tuple l) l
  | TDict a b =>
      let+ rs := to_tuple_t h t s in
      match rs with
      | [ra; rb] =>
          let+ x := fmt_debug_t h F a ra in
          let+ y := fmt_debug_t h F b rb in
          around (fmt_tuple [x; y]) [x; y]
      | _ => says (fmt_tuple [])
      end
  end.
(** [format!("{:?}", marker.cast(data))] (lib.rs:344-348, and the above). *)
Definition print_t (h : host) (F : fmts) (t : ty) (s : slice) : timed (list byte) :=
  let+ r := from_aligned_slice_t h t s in fmt_debug_t h F t r.
