(** Programs' own implementations of [SerializeTo] (lib.rs:446-459): "you may wish to
    implement it for your own types as well"; 1255-1271 has an example. *)
From Verif Require Import Base Types Layout AlignedBytes Spec Deser Ser.

(** A Rust value with parts that the program itself knows how to serialise.  The
    implementations are kept apart, numbered: number [i] is any function [own i] of
    the writer. *)
Inductive cval :=
| COwn (i : N)                 (* a value of a type of the program's *)
| CPlain (r : rval)            (* anything [Ser] has *)
| CWrap (t : ty) (c : cval)    (* VariantWrap(gv!(t), c): lib.rs:1274-1283 *)
| CList (cs : list cval)       (* any IntoIterator: 1315-1326, 1624-1640, 1945-1958 *)
| COpt (o : option cval)       (* &Option<T>: 1820-1831; Option is IntoIterator: 1945-1958 *)
| CTuple (cs : list cval).     (* &(T0, T1, ...): generated code *)

(** [SerializeTo::serialize] for them: the code, which is generic in the types of the
    parts, is that of [Ser.ser]. *)
Fixpoint cser {K} {W : Write K} (h : host) (own : N -> M K N) (c : cval) (t : ty) {struct c} : M K N :=
  match t, c with
  | _, COwn i => own i
  | _, CPlain r => ser h r t
  | TV, CWrap u c' =>
      do len <- cser h own c' u;
      do _ <- write_all [x00];
      do _ <- write_all (display u);
      do x <- lift (uadd h len 1);
      lift (uadd h x (blen (display u)))
  | TA x, CList cs =>
      let items := map (fun c => cser h own c x) cs in
      if is_fixed x then ser_seq h items 0 else ser_nfwa h (trait_align x) items 0 []
  | TM x, COpt o =>
      match o with
      | None => sret 0
      | Some c' =>
          if is_fixed x then cser h own c' x
          else
            do len <- cser h own c' x;
            do _ <- write_all [x00];
            lift (uadd h len 1)
      end
  | TM x, CList cs =>
      if is_fixed x then lift (Crash NoCompile)
      else match cs with
           | [] => sret 0
           | c' :: _ =>
               do len <- cser h own c' x;
               do _ <- write_all [x00];
               lift (uadd h len 1)
           end
  | (TTuple _ | TDict _ _), CTuple cs =>
      let ts := children_of t in
      if Nat.eqb (length ts) (length cs) then
        ser_struct h t
          ((fix go (cs : list cval) (ts : list ty) : list (M K N) :=
              match cs, ts with
              | c :: cs', t :: ts' => cser h own c t :: go cs' ts'
              | _, _ => []
              end) cs ts)
      else lift (Crash NoCompile)
  | _, _ => lift (Crash NoCompile)
  end.

(** The documented example (lib.rs:1259-1271): an enum written as a variant. *)
Inductive my_enum := MyBool (x : bool) | MyString (x : list byte).
Definition my_enum_ser {K} {W : Write K} (h : host) (e : my_enum) : M K N :=
  match e with
  | MyBool x => ser h (RWrap TB (RBool x)) TV
  | MyString x => ser h (RWrap TS (RStr x)) TV
  end.
