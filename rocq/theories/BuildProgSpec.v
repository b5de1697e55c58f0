(** Debug and release builds of whole programs (C145). *)
From Verif Require Import Base BuildSpec.

(** What a program is told by the build with checks is what it is told by the one
    without, up to the first failed check if there is one. *)
Definition same_until_check {A} (both : bool) (checked plain : list (res A)) : Prop :=
  checked = plain \/
  exists told c rest rest', check_fails both c /\ checked = told ++ Crash c :: rest /\ plain = told ++ rest'.
