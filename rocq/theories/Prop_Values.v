(** Programs compute with values: C143. *)
From Verif Require Import Base Types Layout AlignedBytes Strs Spec Deser Buf Histories Ser SerSpec Mut MutSpec OwnSpec Iter Programs ProgSpec ProgFacts
  ValSpec ValFacts ValMain.

(** C143.  A careful program over data that reads well is told by the crate exactly
    what a machine that computes with values would tell it, ... *)
Theorem C143_programs_compute_with_values : forall (h : host) (ps : list call),
  realistic h [] ps -> careful h [] ps -> all_mild (h_big_endian h) [] ps ->
  replies h [] ps = vreplies (h_big_endian h) [] ps.
Proof. exact programs_agree. Qed.
Print Assumptions C143_programs_compute_with_values.
(** ... so it cannot tell where its data lies nor how the crate was built (debug
    assertions, overflow checks), on processors of the same byte order, ... *)
Theorem C143_addresses_do_not_matter : forall (h h' : host) (ps ps' : list call),
  h_big_endian h = h_big_endian h' -> map forget ps = map forget ps' ->
  realistic h [] ps -> careful h [] ps -> realistic h' [] ps' -> careful h' [] ps' -> all_mild (h_big_endian h) [] ps ->
  replies h [] ps = replies h' [] ps'.
Proof. exact addresses_forgotten. Qed.
Print Assumptions C143_addresses_do_not_matter.
(** ... and, if it compiles, it panics only at indices and ranges that are out of
    bounds. *)
Theorem C143_only_bounds_panic : forall (h : host) (c : crash) (ps : list call),
  realistic h [] ps -> careful h [] ps -> all_mild (h_big_endian h) [] ps ->
  In (Crash c) (replies h [] ps) -> c = PIndex \/ c = NoCompile.
Proof. exact replies_panics. Qed.
Print Assumptions C143_only_bounds_panic.

(** The bytes of an [as], changed, read with an iterator, indexed out of range, read
    as a whole, written out again, read back, compared with itself and with a native
    slice; what the iterator still has; the bytes of a string.  At addresses of choice. *)
Definition c143_prog (a1 a2 a3 a4 a5 a6 : N) : list call :=
  [PVec (Vec a1 (bs "hi" ++ [x00] ++ bs "yo" ++ [x00; x03; x06]));
   PFromVec 0 a2;
   PMut 1 (MOp (BSet 0 x48));
   PDeref 1; PSlice 2 (OpAs 1); PCast 3 (TA TS);
   PIter 4; PNext 5; PToStr 6;
   PAccess 4 (AcIndex 9); PLen 4; PRead 4;
   PRewrite 4 a3; PDeser 8 (TA TS) a4 a5 a6; PBorrow 9; PEq 4 10;
   PAsk (QNative 4 (RhSeq [RhText 7; RhStr (bs "yo")])); PAsk (QHint 5); PStrBytes 7 a1; PAsk (QByte 11 0)].
Ltac c143_step := eapply program_cons; [vm_compute; reflexivity|cbn [possible]|cbn [door]; try tauto|].
Ltac c143_run :=
  unfold c143_prog;
  (c143_step; [split; reflexivity|]); (c143_step; [reflexivity|]); (c143_step; [split; [split; exact I|exact I]|]);
  (c143_step; [exact I|]);
  (c143_step; [intros A s H; injection H as <- <-; split; [left; reflexivity|discriminate]|]);
  (c143_step; [split; reflexivity|intros (s & H & Hz & _); injection H as <-; discriminate Hz|]);
  (c143_step; [exact I|]); (c143_step; [exact I|]); (c143_step; [exact I|]); (c143_step; [reflexivity|]);
  (c143_step; [exact I|]); (c143_step; [exact I|]);
  (c143_step; [split; [reflexivity|]; intros t r v H E; injection H as <- <-; vm_compute in E; injection E as <-; reflexivity|]);
  (c143_step; [split; [split; reflexivity|repeat split; reflexivity]|intros (v & _ & _ & H & _); discriminate H|]);
  (c143_step; [exact I|intros (t & b & H & Hz & _); injection H as <- <-; discriminate Hz|]);
  (c143_step; [exact I|]); (c143_step; [exact I|]); (c143_step; [exact I|]);
  (c143_step; [split; [reflexivity|intros s H; injection H as <-; reflexivity]|]); (c143_step; [exact I|]); split; exact I.
Lemma mild_cons big env p ps env' m : vstep big env p = (env', m) -> mild env p -> all_mild big env' ps -> all_mild big env (p :: ps).
Proof. intros E H1 H2. cbn [all_mild]. rewrite E. auto. Qed.
Ltac c143_mild := eapply mild_cons; [vm_compute; reflexivity|cbn [mild]; try exact I|].
Example C143_case : let h := Host false true true 0 0 in let h' := Host false false false 40 80 in
  let ps := c143_prog 3 33 65 129 1 2 in let ps' := c143_prog 8 8 11 14 5 4 in
  map forget ps = map forget ps' /\
  (realistic h [] ps /\ careful h [] ps) /\ (realistic h' [] ps' /\ careful h' [] ps') /\ all_mild false [] ps /\
  skipn 6 (replies h [] ps) =
    [Ok [SayMade]; Ok [SayMade]; Ok [SayBytes (bs "Hi")]; Crash PIndex; Ok [SayCount 2];
     Ok [SayValue (VArray [VStr (bs "Hi"); VStr (bs "yo")])];
     Ok [SayBytes (bs "Hi" ++ [x00] ++ bs "yo" ++ [x00; x03; x06])]; Ok [SayMade]; Ok [SayMade]; Ok [SayBool true];
     Ok [SayBool true]; Ok [SayCount 1]; Ok [SayBytes (bs "Hi")]; Ok [SayBytes (bs "H")]].
Proof.
  intros h h' ps ps'. split; [reflexivity|]. split; [c143_run|]. split; [c143_run|]. split; [|vm_compute; reflexivity].
  unfold ps, c143_prog.
  do 5 c143_mild. c143_mild; [intros A d H; injection H as <- <-; split; vm_compute; reflexivity|].
  do 3 c143_mild. c143_mild; [reflexivity|]. do 3 c143_mild.
  c143_mild; [intros d H; injection H as <-; split; vm_compute; reflexivity|]. do 6 c143_mild. exact I.
Qed.
