(** What serialising should do, independently of how the code does it.  Only the
    syntax of Rust values ([rval]) and of sinks is taken from [Ser]. *)
From Verif Require Import Base Types Layout Spec Histories Ser.

(** Rust values that can be passed to [gv!(t).serialize]: the others do not
    compile. *)
Fixpoint rtyped (t : ty) (r : rval) {struct r} : Prop :=
  match t, r with
  | TB, (RBool _ | RBoolView _) => True
  | TY, RInt z => (0 <= z < 2^8)%Z
  | TN, RInt z => (- 2^15 <= z < 2^15)%Z
  | TQ, RInt z => (0 <= z < 2^16)%Z
  | TI, RInt z => (- 2^31 <= z < 2^31)%Z
  | TU, RInt z => (0 <= z < 2^32)%Z
  | TX, RInt z => (- 2^63 <= z < 2^63)%Z
  | TT, RInt z => (0 <= z < 2^64)%Z
  | TD, RDouble b => b < 2^64
  | (TS | TO | TG), RStr s => is_utf8 s
  | (TS | TO | TG), RStrView _ => True
  | TV, RVariant _ => True
  | TV, RWrap u r => usable u /\ rtyped u r
  | TA x, RList rs => (fix all rs := match rs with [] => True | r :: rs => rtyped x r /\ all rs end) rs
  | TM x, ROpt o => match o with Some r => rtyped x r | None => True end
  | TM x, RList rs =>
      sp_fixed x = false /\
      (fix all rs := match rs with [] => True | r :: rs => rtyped x r /\ all rs end) rs
  | TTuple ts, RTuple rs =>
      (fix all2 rs ts := match rs, ts with
                         | [], [] => True
                         | r :: rs, t :: ts => rtyped t r /\ all2 rs ts
                         | _, _ => False
                         end) rs ts
  | TDict a b, RTuple rs => match rs with [x; y] => rtyped a x /\ rtyped b y | _ => False end
  | _, _ => False
  end.

(** The GVariant value meant.  A view ([RBoolView], [RStrView], [RVariant])
    means what decoding its bytes gives.  [tail] says how the contents of a
    wrapped variant are encoded: [false] for the normal form. *)
Fixpoint rvalue (tail big : bool) (t : ty) (r : rval) {struct r} : value :=
  match t, r with
  | _, RInt z => VInt z
  | _, RDouble b => VDouble b
  | _, RBool b => VBool b
  | _, RBoolView b => sp_decode big TB (Some [b])
  | _, RStr s => VStr s
  | _, RStrView d => sp_decode big TS (Some d)
  | _, RVariant d => sp_decode big TV (Some d)
  | _, RWrap u r => VVariant (sp_show u) (sp_bytes tail big u (rvalue tail big u r))
  | TA x, RList rs => VArray (map (rvalue tail big x) rs)
  | TM x, RList rs => VMaybe (match rs with r :: _ => Some (rvalue tail big x r) | [] => None end)
  | TM x, ROpt o => VMaybe (match o with Some r => Some (rvalue tail big x r) | None => None end)
  | TTuple ts, RTuple rs =>
      VTuple ((fix go rs ts := match rs, ts with
                               | r :: rs, t :: ts => rvalue tail big t r :: go rs ts
                               | _, _ => []
                               end) rs ts)
  | TDict a b, RTuple rs =>
      VTuple ((fix go rs ts := match rs, ts with
                               | r :: rs, t :: ts => rvalue tail big t r :: go rs ts
                               | _, _ => []
                               end) rs [a; b])
  | _, _ => VTuple []
  end.

(** The [&str]s in it that serialising reaches. *)
Fixpoint rstrings (t : ty) (r : rval) {struct r} : list (list byte) :=
  match t, r with
  | _, RStr s => [s]
  | _, RWrap u r => rstrings u r
  | TA x, RList rs => flat_map (rstrings x) rs
  | TM x, RList rs => match rs with r :: _ => rstrings x r | [] => [] end
  | TM x, ROpt o => match o with Some r => rstrings x r | None => [] end
  | TTuple ts, RTuple rs =>
      (fix go rs ts := match rs, ts with
                       | r :: rs, t :: ts => rstrings t r ++ go rs ts
                       | _, _ => []
                       end) rs ts
  | TDict a b, RTuple rs =>
      (fix go rs ts := match rs, ts with
                       | r :: rs, t :: ts => rstrings t r ++ go rs ts
                       | _, _ => []
                       end) rs [a; b]
  | _, _ => []
  end.
Definition no_nuls (t : ty) (r : rval) : Prop := forall s, In s (rstrings t r) -> ~ In x00 s.

(** Nothing to pad anywhere, in wrapped variants neither. *)
Fixpoint rtails (big : bool) (t : ty) (r : rval) {struct r} : Prop :=
  sp_tails big t (rvalue false big t r) = true /\
  match t, r with
  | _, RWrap u r => rtails big u r
  | TA x, RList rs => (fix all rs := match rs with [] => True | r :: rs => rtails big x r /\ all rs end) rs
  | TM x, RList rs => match rs with r :: _ => rtails big x r | [] => True end
  | TM x, ROpt o => match o with Some r => rtails big x r | None => True end
  | TTuple ts, RTuple rs =>
      (fix all rs ts := match rs, ts with
                        | r :: rs, t :: ts => rtails big t r /\ all rs ts
                        | _, _ => True
                        end) rs ts
  | TDict a b, RTuple rs =>
      (fix all rs ts := match rs, ts with
                        | r :: rs, t :: ts => rtails big t r /\ all rs ts
                        | _, _ => True
                        end) rs [a; b]
  | _, _ => True
  end.

(** Passing [d] to a sink that takes [budget] bytes (any number if [None]) before
    failing; [r] is the result if nothing fails. *)
Definition sp_deliver {A} (budget : option N) (d : list byte) (r : sres A) : sink * sres A :=
  match budget with
  | None => (Sink d None, r)
  | Some n =>
      if len d <=? n then (Sink d (Some (n - len d)), r)
      else (Sink (firstn (N.to_nat n) d) (Some 0), SErr EIo)
  end.
(** The bytes in a sink. *)
Definition sp_output (x : sink * sres N) : list byte := k_out (fst x).

(** Types whose values never need padding at the end of an array: the elements of
    every array have a fixed size, or alignment 1, or are themselves arrays or
    maybes of fixed-size values. *)
Fixpoint sp_unpadded (t : ty) : bool :=
  match t with
  | TA x =>
      sp_unpadded x &&
      (sp_fixed x || (sp_align x =? 1) ||
       match x with TA y | TM y => sp_fixed y | _ => false end)
  | TM x => sp_unpadded x
  | TTuple ts => forallb sp_unpadded ts
  | TDict a b => sp_unpadded a && sp_unpadded b
  | _ => true
  end.
(** The types of the wrapped variants in a value. *)
Fixpoint rwrapped (r : rval) : list ty :=
  match r with
  | RWrap u r => u :: rwrapped r
  | RList rs | RTuple rs => flat_map rwrapped rs
  | ROpt (Some r) => rwrapped r
  | _ => []
  end.
