(** What the comparisons of Cmp.v should give, in terms of values. *)
From Verif Require Import Base Types Layout Spec Deser Histories Cmp.

(** The value a native right-hand side stands for, at a given type. *)
Inductive native_value (h : host) : ty -> native -> value -> Prop :=
| nv_view t q v : view h t q -> read h t q = Ok v -> native_value h t (NView q) v
| nv_bool b : native_value h TB (NBool b) (VBool b)
| nv_str t d : t = TS \/ t = TO \/ t = TG -> native_value h t (NStr d) (VStr d)
| nv_seq x l vs : native_values h x l vs -> native_value h (TA x) (NSeq l) (VArray vs)
| nv_none x : sp_size x <> None -> native_value h (TM x) (NOption None) (VMaybe None)
| nv_some x q v : sp_size x <> None -> view h x q -> read h x q = Ok v ->
    native_value h (TM x) (NOption (Some q)) (VMaybe (Some v))
with native_values (h : host) : ty -> list native -> list value -> Prop :=
| nv_nil x : native_values h x [] []
| nv_cons x n v l vs : native_value h x n v -> native_values h x l vs ->
    native_values h x (n :: l) (v :: vs).

(** A double that is not NaN, times 2^1074; infinity is larger than the rest. *)
Definition sp_fscaled (bits : N) : Z :=
  let e := bits mod 2 ^ 63 / 2 ^ 52 in
  let f := bits mod 2 ^ 52 in
  let m := Z.of_N (if e =? 0 then f else (2 ^ 52 + f) * 2 ^ (e - 1)) in
  if 2 ^ 63 <=? bits then (- m)%Z else m.

(** The order of numbers and of optional numbers. *)
Fixpoint sp_vcmp (a b : value) : option comparison :=
  match a, b with
  | VInt x, VInt y => Some (x ?= y)%Z
  | VDouble x, VDouble y =>
      if sp_nan x || sp_nan y then None else Some (sp_fscaled x ?= sp_fscaled y)%Z
  | VMaybe None, VMaybe None => Some Eq
  | VMaybe None, VMaybe (Some _) => Some Lt
  | VMaybe (Some _), VMaybe None => Some Gt
  | VMaybe (Some x), VMaybe (Some y) => sp_vcmp x y
  | _, _ => None
  end.

Definition sp_number (t : ty) : bool :=
  match t with TY | TN | TQ | TI | TU | TX | TT | TD => true | _ => false end.
Definition sp_integer (t : ty) : bool :=
  match t with TY | TN | TQ | TI | TU | TX | TT => true | _ => false end.
