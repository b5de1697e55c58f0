(** Debug and release builds (C132). *)
From Verif Require Import Base Ser.

(** The same program on the same machine, built without overflow checks and, if
    [both], also without debug assertions (cargo's release profile). *)
Definition unguarded (both : bool) (h : host) : host :=
  Host (h_big_endian h) false (if both then false else h_debug h) (h_str8 h) (h_statics h).
(** Failing one of the checks left out. *)
Definition check_fails (both : bool) (c : crash) : Prop := c = POverflow \/ (both = true /\ c = PAssert).
(** What a build with checks gives is what the one without gives, unless a check fails. *)
Definition or_check {A} (both : bool) (checked plain : res A) : Prop :=
  checked = plain \/ exists c, checked = Crash c /\ check_fails both c.
(** The same for writing: also the writer is left in the same state. *)
Definition or_check_writing {K A} (both : bool) (checked plain : K * sres A) : Prop :=
  checked = plain \/ exists k c, checked = (k, SCrash c) /\ check_fails both c.
