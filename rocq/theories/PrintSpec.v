(** When the text of [{:?}] tells the value (C90, C91). *)
From Verif Require Import Base Types Spec.

(** No double is a NaN and all type strings of variants are UTF-8. *)
Fixpoint legible (v : value) : Prop :=
  match v with
  | VDouble b => sp_nan b = false
  | VVariant ts _ => is_utf8 ts
  | VArray vs | VTuple vs =>
      (fix all (vs : list value) : Prop := match vs with [] => True | v :: r => legible v /\ all r end) vs
  | VMaybe (Some w) => legible w
  | _ => True
  end.
(** What is asked of the way doubles are written: something, in the characters
    of numbers, ... *)
Definition numeric (double : N -> list byte) : Prop :=
  forall b, double b <> [] /\ Forall (fun c => In c (bs "0123456789.e-infNa")) (double b).
(** ... and differently for different doubles other than NaNs. *)
Definition writes_doubles (double : N -> list byte) : Prop :=
  numeric double /\ (forall a b, sp_nan a = false -> sp_nan b = false -> double a = double b -> a = b).

(** The number a text of digits stands for. *)
Definition sp_digit (c : byte) : N :=
  let n := Byte.to_N c in if n <? 97 then n - 48 else n - 87.
Definition sp_number (base : N) (s : list byte) : N :=
  fold_left (fun a c => a * base + sp_digit c) s 0.
Definition sp_int (s : list byte) : Z :=
  match s with
  | x2d :: r => (- Z.of_N (sp_number 10 r))%Z
  | _ => Z.of_N (sp_number 10 s)
  end.

(** Characters that do not exist, as Unicode (3.9, "U+FFFD Substitution of Maximal
    Subparts") and the documentation of [String::from_utf8_lossy] have it: where no
    character is encoded, the longest part that could begin one, or else one
    byte, becomes U+FFFD. *)
Definition begins_char (p : list byte) : Prop := exists c r, scalar c /\ utf8_of c = p ++ r.
Inductive mended : list byte -> list byte -> Prop :=
| mended_nil : mended [] []
| mended_char c r o : scalar c -> mended r o -> mended (utf8_of c ++ r) (utf8_of c ++ o)
| mended_bad p r o :
    p <> [] -> begins_char p \/ length p = 1%nat ->
    (forall c r', scalar c -> p ++ r <> utf8_of c ++ r') ->
    (forall q s, p ++ r = q ++ s -> begins_char q -> (length q <= length p)%nat) ->
    mended r o -> mended (p ++ r) (utf8_of 65533 ++ o).

(** What the text does not show: which of the doubles written alike a double is,
    and what was mended in the type string of a variant. *)
Inductive alike (double : N -> list byte) : value -> value -> Prop :=
| al_bool b : alike double (VBool b) (VBool b)
| al_int z : alike double (VInt z) (VInt z)
| al_double a b : double a = double b -> alike double (VDouble a) (VDouble b)
| al_str s : alike double (VStr s) (VStr s)
| al_variant ts ts' o d : mended ts o -> mended ts' o -> alike double (VVariant ts d) (VVariant ts' d)
| al_array vs ws : Forall2 (alike double) vs ws -> alike double (VArray vs) (VArray ws)
| al_nothing : alike double (VMaybe None) (VMaybe None)
| al_just v w : alike double v w -> alike double (VMaybe (Some v)) (VMaybe (Some w))
| al_tuple vs ws : Forall2 (alike double) vs ws -> alike double (VTuple vs) (VTuple ws).
