(** Whole programs: C142. *)
From Verif Require Import Base Types Layout AlignedBytes Strs Spec Deser Buf Histories Ser SerSpec MutSpec OwnSpec Iter Programs ProgSpec ProgFacts ProgEq.

(** C142.  A call that goes through no door keeps every promise and does no worse
    than panic, with one of the usual panics, ... *)
Theorem C142_calls_keep_promises : forall (h : host) (env : list obj) (p : call),
  Forall (promised h) env -> possible h env p -> ~ door env p ->
  let '(env', o) := step h env p in
  Forall (promised h) env' /\ (o = None \/ exists c, o = Some c /\ In c [PIndex; PUnwrap; POverflow; NoCompile]).
Proof. exact step_claim. Qed.
Print Assumptions C142_calls_keep_promises.
(** ... and every door breaks a promise: what is made is not what its type says, or
    the call itself is undefined (an assertion in debug builds). *)
Theorem C142_doors_break_promises : forall (h : host) (env : list obj) (p : call),
  Forall (promised h) env -> possible h env p -> door env p ->
  let '(env', o) := step h env p in
  o = Some (if h_debug h then PAssert else UBMisaligned) \/ ~ Forall (promised h) env'.
Proof. exact door_claim. Qed.
Print Assumptions C142_doors_break_promises.
(** So a careful program, however long and however many panics it catches, never
    meets undefined behaviour, ... *)
Theorem C142_careful_programs : forall (h : host) (ps : list call), realistic h [] ps -> careful h [] ps ->
  exists env, exec h [] ps = Some env /\ Forall (promised h) env.
Proof. exact (fun h ps => exec_good h ps [] (Forall_nil _)). Qed.
Print Assumptions C142_careful_programs.
(** ... and one that does has gone through a door before, with everything still in
    order until then. *)
Theorem C142_only_through_doors : forall (h : host) (ps : list call), realistic h [] ps -> exec h [] ps = None ->
  exists before p after env, ps = before ++ p :: after /\
    exec h [] before = Some env /\ Forall (promised h) env /\ door env p.
Proof. exact exec_only_doors. Qed.
Print Assumptions C142_only_through_doors.
(** [==] between two views compiles just if they are of the same type. *)
Theorem C142_comparable : forall (h : host) (env : list obj) (i j : nat) (t u : ty) (r q : slice),
  Forall (promised h) env -> nth_error env i = Some (ObView t r) -> nth_error env j = Some (ObView u q) ->
  (snd (step h env (PEq i j)) = Some NoCompile <-> t <> u).
Proof. exact eq_types. Qed.
Print Assumptions C142_comparable.
Example C142_comparable_case : let h := Host false true true 0 0 in
  let env := [ObView TS (Slice 8 [x61; x00]); ObView TS (Slice 3 [x61]); ObView TO (Slice 8 [x61; x00])] in
  Forall (promised h) env /\ snd (step h env (PEq 0 1)) = None /\ snd (step h env (PEq 0 2)) = Some NoCompile.
Proof.
  intros h env. split; [|split; reflexivity].
  repeat constructor; cbn; auto; right; reflexivity.
Qed.

(** Bytes at an odd address, copied to an aligned buffer, changed there, read as
    [as] with an iterator, indexed out of range, written out again, read back into an
    owned value, borrowed and compared. *)
Definition c142_prog : list call :=
  [PVec (Vec 3 (bs "hi" ++ [x00] ++ bs "yo" ++ [x00; x03; x06]));
   PFromVec 0 33;
   PMut 1 (MOp (BSet 0 x48));
   PDeref 1; PSlice 2 (OpAs 1); PCast 3 (TA TS);
   PIter 4; PNext 5; PToStr 6;
   PAccess 4 (AcIndex 9);
   PRewrite 4 65; PDeser 8 (TA TS) 129 1 2; PBorrow 9; PEq 4 10].
Ltac c142_step := eapply program_cons; [vm_compute; reflexivity|cbn [possible]|cbn [door]; try tauto|].
Example C142_case : let h := Host false true true 0 0 in
  realistic h [] c142_prog /\ careful h [] c142_prog /\
  exists env, exec h [] c142_prog = Some env /\ nth_error env 7 = Some (ObStr (bs "Hi")) /\
    nth_error env 10 = Some (ObView (TA TS) (Slice 8 (bs "Hi" ++ [x00] ++ bs "yo" ++ [x00; x03; x06]))).
Proof.
  intros h. rewrite <- and_assoc. split.
  - unfold c142_prog.
    c142_step; [split; reflexivity|]. c142_step; [reflexivity|]. c142_step; [split; [split; exact I|exact I]|].
    c142_step; [exact I|].
    c142_step; [intros A s H; injection H as <- <-; split; [left; reflexivity|discriminate]|].
    c142_step; [split; reflexivity|intros (s & H & Hz & _); injection H as <-; discriminate Hz|].
    c142_step; [exact I|]. c142_step; [exact I|]. c142_step; [exact I|]. c142_step; [reflexivity|].
    c142_step; [split; [reflexivity|]; intros t r v H E; injection H as <- <-; vm_compute in E; injection E as <-; reflexivity|].
    c142_step; [split; [split; reflexivity|repeat split; reflexivity]|intros (v & _ & _ & H & _); discriminate H|].
    c142_step; [exact I|intros (t & b & H & Hz & _); injection H as <- <-; discriminate Hz|].
    c142_step; [exact I|]. split; exact I.
  - eexists. split; [vm_compute; reflexivity|]. split; reflexivity.
Qed.
(** Two doors, in a release build: four bytes at address 1 passed through
    [try_as_aligned] and cast to [ai]; no bytes deserialised as [ai]. *)
Example C142_doors : let h := Host false false false 0 0 in
  let p1 := [PVec (Vec 1 [x01; x00; x00; x00]); PBytes 0; PTry 1 4; PCast 2 (TA TI)] in
  let p2 := [PVec (Vec 1 []); PDeser 0 (TA TI) 8 1 1] in
  realistic h [] p1 /\ exec h [] p1 = None /\ realistic h [] p2 /\ exec h [] p2 = None.
Proof.
  intros h p1 p2. split; [|split; [reflexivity|split; [|reflexivity]]].
  - cbn [p1 realistic possible]. split; [split; reflexivity|]. split; [exact I|]. split; [right; right; left; reflexivity|].
    split; [split; reflexivity|exact I].
  - cbn [p2 realistic possible]. split; [split; reflexivity|]. split; [|exact I]. split; [split; reflexivity|]. repeat split; reflexivity.
Qed.
