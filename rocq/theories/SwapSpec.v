(** Byte order (C99).  GVariant Specification 2.4: the byte order is not recorded
    in the data; like [g_variant_byteswap], [sp_swap] gives the value the same
    data has on a machine of the other byte order. *)
From Verif Require Import Base Types Spec.

(** The number whose [k] bytes are those of [n] in the opposite order. *)
Definition sp_flip (k : nat) (n : N) : N := le_num (rev (num_le k n)).
Definition sp_flip_int (k : nat) (z : Z) : N := sp_flip k (Z.to_N (z mod 2 ^ (8 * Z.of_nat k))).
(** Every number of a value; strings and the contents of variants are left alone. *)
Fixpoint sp_swap (t : ty) (v : value) {struct t} : value :=
  match t, v with
  | TN, VInt z => VInt (sp_signed 16 (sp_flip_int 2 z))
  | TQ, VInt z => VInt (Z.of_N (sp_flip_int 2 z))
  | TI, VInt z => VInt (sp_signed 32 (sp_flip_int 4 z))
  | TU, VInt z => VInt (Z.of_N (sp_flip_int 4 z))
  | TX, VInt z => VInt (sp_signed 64 (sp_flip_int 8 z))
  | TT, VInt z => VInt (Z.of_N (sp_flip_int 8 z))
  | TD, VDouble b => VDouble (sp_flip 8 b)
  | TA x, VArray vs => VArray (map (sp_swap x) vs)
  | TM x, VMaybe (Some w) => VMaybe (Some (sp_swap x w))
  | TTuple ts, VTuple vs =>
      VTuple ((fix go ts vs := match ts, vs with
                               | t :: ts, v :: vs => sp_swap t v :: go ts vs
                               | _, _ => []
                               end) ts vs)
  | TDict a b, VTuple [x; y] => VTuple [sp_swap a x; sp_swap b y]
  | _, _ => v
  end.
(** Types whose values contain no number of several bytes. *)
Fixpoint sp_portable (t : ty) : bool :=
  match t with
  | TN | TQ | TI | TU | TX | TT | TD => false
  | TA x | TM x => sp_portable x
  | TTuple ts => forallb sp_portable ts
  | TDict a b => sp_portable a && sp_portable b
  | _ => true
  end.
(** The same machine with the other byte order. *)
Definition other (h : host) : host :=
  Host (negb (h_big_endian h)) (h_overflow_checks h) (h_debug h) (h_str8 h) (h_statics h).
