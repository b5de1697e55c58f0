(** Whole programs, built with checks and without: C145. *)
From Verif Require Import Base Types AlignedBytes Strs Spec Deser Buf Histories Ser Cmp Fmt Mut MutSpec Iter Programs BuildSpec BuildProgSpec BuildProg.

(** C145.  Whatever a program does and whatever it starts with, a build without
    overflow checks (and debug assertions) tells it what the one with them tells
    it, up to the first of those checks that fails. *)
Theorem C145_programs : forall (both : bool) (h : host) (env : list obj) (ps : list call),
  same_until_check both (replies h env ps) (replies (unguarded both h) env ps).
Proof. exact (fun both h env ps => programs_builds both h ps env). Qed.
Print Assumptions C145_programs.
(** Where none fails the two builds cannot be told apart, and end with the same
    objects or the same undefined behaviour. *)
Theorem C145_without_failed_checks : forall (both : bool) (h : host) (env : list obj) (ps : list call),
  (forall c, check_fails both c -> ~ In (Crash c) (replies h env ps)) ->
  replies h env ps = replies (unguarded both h) env ps /\ exec h env ps = exec (unguarded both h) env ps.
Proof. exact (fun both h env ps => programs_end both h ps env). Qed.
Print Assumptions C145_without_failed_checks.

(** A number at an odd address, let in by [try_as_aligned]: the program learns its
    length, then a debug build panics and a release build reads what is not aligned. *)
Definition c145_prog (a : N) : list call :=
  [PVec (Vec a [x01; x00; x00; x00]); PBytes 0; PTry 1 4; PCast 2 TI; PRead 3; PBufNew].
Example C145_case : let h := Host false true true 0 0 in
  replies h [] (c145_prog 9) =
    [Ok [SayBytes [x01; x00; x00; x00]]; Ok [SayBytes [x01; x00; x00; x00]]; Ok [SayBytes [x01; x00; x00; x00]];
     Crash PAssert; Crash NoCompile; Ok [SayMade]] /\
  replies (unguarded true h) [] (c145_prog 9) =
    [Ok [SayBytes [x01; x00; x00; x00]]; Ok [SayBytes [x01; x00; x00; x00]]; Ok [SayBytes [x01; x00; x00; x00]];
     Crash UBMisaligned] /\
  replies h [] (c145_prog 8) =
    [Ok [SayBytes [x01; x00; x00; x00]]; Ok [SayBytes [x01; x00; x00; x00]]; Ok [SayBytes [x01; x00; x00; x00]];
     Ok [SayMade]; Ok [SayValue (VInt 1)]; Ok [SayMade]] /\
  (forall c, check_fails true c -> ~ In (Crash c) (replies h [] (c145_prog 8))).
Proof.
  split; [vm_compute; reflexivity|]. split; [vm_compute; reflexivity|]. split; [vm_compute; reflexivity|].
  intros c Hc. vm_compute. intuition congruence.
Qed.
