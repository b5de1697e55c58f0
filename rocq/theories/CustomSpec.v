(** What serialising values with parts of the program's own should do (C140).  The
    syntax of values and writers is taken from [Ser] and [Custom]. *)
From Verif Require Import Base Types Spec Histories Ser SerSpec Custom.

(** Values that can be passed to [gv!(t).serialize]. *)
Fixpoint ctyped (t : ty) (c : cval) {struct c} : Prop :=
  match t, c with
  | _, COwn _ => True
  | _, CPlain r => rtyped t r
  | TV, CWrap u c => usable u /\ ctyped u c
  | TA x, CList cs => (fix all cs := match cs with [] => True | c :: cs => ctyped x c /\ all cs end) cs
  | TM x, COpt o => match o with Some c => ctyped x c | None => True end
  | TM x, CList cs =>
      sp_fixed x = false /\
      (fix all cs := match cs with [] => True | c :: cs => ctyped x c /\ all cs end) cs
  | TTuple ts, CTuple cs =>
      (fix all2 cs ts := match cs, ts with
                         | [], [] => True
                         | c :: cs, t :: ts => ctyped t c /\ all2 cs ts
                         | _, _ => False
                         end) cs ts
  | TDict a b, CTuple cs => match cs with [x; y] => ctyped a x /\ ctyped b y | _ => False end
  | _, _ => False
  end.

(** The parts that serialising reaches, each with its type: the program's own, and
    the rest. *)
Fixpoint cparts (t : ty) (c : cval) {struct c} : list (ty * (N + rval)) :=
  match t, c with
  | _, COwn i => [(t, inl i)]
  | _, CPlain r => [(t, inr r)]
  | _, CWrap u c => cparts u c
  | TA x, CList cs => flat_map (cparts x) cs
  | TM x, CList cs => match cs with c :: _ => cparts x c | [] => [] end
  | TM x, COpt o => match o with Some c => cparts x c | None => [] end
  | TTuple ts, CTuple cs =>
      (fix go cs ts := match cs, ts with
                       | c :: cs, t :: ts => cparts t c ++ go cs ts
                       | _, _ => []
                       end) cs ts
  | TDict a b, CTuple cs =>
      (fix go cs ts := match cs, ts with
                       | c :: cs, t :: ts => cparts t c ++ go cs ts
                       | _, _ => []
                       end) cs [a; b]
  | _, _ => []
  end.

(** [m] passes the bytes [d] to any sink, and returns their number. *)
Definition passes (m : M sink N) (d : list byte) : Prop := forall out budget,
  m (Sink out budget) =
  (let '(k, r) := sp_deliver budget d (SOk (len d)) in (Sink (out ++ k_out k) (k_left k), r)).

(** What is written if number [i] of the program's own writes [say i]. *)
Fixpoint cbytes (say : N -> list byte) (big : bool) (t : ty) (c : cval) {struct c} : list byte :=
  let items (ts : list ty) := map (fun t => (sp_align t, sp_size t)) ts in
  match t, c with
  | _, COwn i => say i
  | _, CPlain r => sp_written big t (rvalue true big t r)
  | _, CWrap u c => cbytes say big u c ++ [x00] ++ sp_show u
  | TA x, CList cs =>
      let bodies := map (cbytes say big x) cs in
      if sp_fixed x then concat bodies else sp_array_bytes true (sp_align x) bodies
  | TM x, CList cs => match cs with c :: _ => cbytes say big x c ++ [x00] | [] => [] end
  | TM x, COpt o =>
      match o with
      | Some c => if sp_fixed x then cbytes say big x c else cbytes say big x c ++ [x00]
      | None => []
      end
  | TTuple ts, CTuple cs =>
      sp_struct_bytes (sp_size t) (items ts)
        ((fix go cs ts := match cs, ts with
                          | c :: cs, t :: ts => cbytes say big t c :: go cs ts
                          | _, _ => []
                          end) cs ts)
  | TDict a b, CTuple cs =>
      sp_struct_bytes (sp_size t) (items [a; b])
        ((fix go cs ts := match cs, ts with
                          | c :: cs, t :: ts => cbytes say big t c :: go cs ts
                          | _, _ => []
                          end) cs [a; b])
  | _, _ => []
  end.
(** The value that stands there, what the program's own write being read by the
    rules.  Values that need no padding only: see [ctails]. *)
Fixpoint cvalue (say : N -> list byte) (big : bool) (t : ty) (c : cval) {struct c} : value :=
  match t, c with
  | _, COwn i => sp_decode big t (Some (say i))
  | _, CPlain r => rvalue true big t r
  | _, CWrap u c => VVariant (sp_show u) (cbytes say big u c)
  | TA x, CList cs => VArray (map (cvalue say big x) cs)
  | TM x, CList cs => VMaybe (match cs with c :: _ => Some (cvalue say big x c) | [] => None end)
  | TM x, COpt o => VMaybe (match o with Some c => Some (cvalue say big x c) | None => None end)
  | TTuple ts, CTuple cs =>
      VTuple ((fix go cs ts := match cs, ts with
                               | c :: cs, t :: ts => cvalue say big t c :: go cs ts
                               | _, _ => []
                               end) cs ts)
  | TDict a b, CTuple cs =>
      VTuple ((fix go cs ts := match cs, ts with
                               | c :: cs, t :: ts => cvalue say big t c :: go cs ts
                               | _, _ => []
                               end) cs [a; b])
  | _, _ => VTuple []
  end.
(** Nothing to pad outside variants: the last element of every array of variable-size
    elements ends at a multiple of the element alignment (as in C52). *)
Fixpoint ctails (say : N -> list byte) (big : bool) (t : ty) (c : cval) {struct c} : Prop :=
  match t, c with
  | _, CPlain r => sp_tails big t (rvalue true big t r) = true
  | TA x, CList cs =>
      (sp_fixed x = false -> len (last (map (cbytes say big x) cs) []) mod sp_align x = 0) /\
      (fix all cs := match cs with [] => True | c :: cs => ctails say big x c /\ all cs end) cs
  | TM x, CList cs => match cs with c :: _ => ctails say big x c | [] => True end
  | TM x, COpt o => match o with Some c => ctails say big x c | None => True end
  | TTuple ts, CTuple cs =>
      (fix all cs ts := match cs, ts with
                        | c :: cs, t :: ts => ctails say big t c /\ all cs ts
                        | _, _ => True
                        end) cs ts
  | TDict a b, CTuple cs =>
      (fix all cs ts := match cs, ts with
                        | c :: cs, t :: ts => ctails say big t c /\ all cs ts
                        | _, _ => True
                        end) cs [a; b]
  | _, _ => True
  end.

(** The same value with something else for each of the program's own. *)
Fixpoint cplain (put : N -> rval) (c : cval) : rval :=
  match c with
  | COwn i => put i
  | CPlain r => r
  | CWrap t c => RWrap t (cplain put c)
  | CList cs => RList (map (cplain put) cs)
  | COpt o => ROpt (option_map (cplain put) o)
  | CTuple cs => RTuple (map (cplain put) cs)
  end.

(** What the documented enum stands for. *)
Definition my_enum_value (e : my_enum) : rval :=
  match e with
  | MyBool x => RWrap TB (RBool x)
  | MyString x => RWrap TS (RStr x)
  end.
