(** Programs compute with lazy values: C144. *)
From Verif Require Import Base Types Layout AlignedBytes Strs Spec Deser Buf Histories Ser SerSpec Cmp CmpSpec Fmt FmtSpec Mut MutSpec OwnSpec Iter Programs ProgSpec ProgFacts
  ValSpec LazySpec LazyFacts LazyMain.

(** C144.  Whatever its data is, a careful program is told by the crate exactly what
    a machine that computes with lazy values would tell it, ... *)
Theorem C144_programs_on_any_data : forall (h : host) (ps : list call),
  realistic h [] ps -> careful h [] ps -> all_modest (h_big_endian h) [] ps ->
  replies h [] ps = lreplies (h_big_endian h) [] ps.
Proof. exact lprograms_agree. Qed.
Print Assumptions C144_programs_on_any_data.
(** ... so, even on data that makes it panic, it cannot tell where its data lies nor
    how the crate was built, ... *)
Theorem C144_addresses_do_not_matter : forall (h h' : host) (ps ps' : list call),
  h_big_endian h = h_big_endian h' -> map forget ps = map forget ps' ->
  realistic h [] ps -> careful h [] ps -> realistic h' [] ps' -> careful h' [] ps' -> all_modest (h_big_endian h) [] ps ->
  replies h [] ps = replies h' [] ps'.
Proof. exact laddresses_forgotten. Qed.
Print Assumptions C144_addresses_do_not_matter.
(** ... and, if it compiles, it panics only at bounds and at [unwrap]. *)
Theorem C144_which_panics : forall (h : host) (c : crash) (ps : list call),
  realistic h [] ps -> careful h [] ps -> all_modest (h_big_endian h) [] ps ->
  In (Crash c) (replies h [] ps) -> c = PIndex \/ c = PUnwrap \/ c = NoCompile.
Proof. exact lprograms_panic. Qed.
Print Assumptions C144_which_panics.
(** A lazy value that can be touched everywhere is the value the bytes denote, ... *)
Theorem C144_lazy_values : forall (big : bool) (t : ty) (d : option (list byte)),
  lforce (ldecode big t d) = if sp_reads t d then Some (sp_decode big t d) else None.
Proof. exact lforce_decode. Qed.
Print Assumptions C144_lazy_values.
(** ... and compares as it does. *)
Theorem C144_lazy_comparison : forall (big : bool) (t : ty) (d e : option (list byte)),
  sp_reads t d = true -> sp_reads t e = true ->
  leq (ldecode big t d) (ldecode big t e) = Some (sp_veq (sp_decode big t d) (sp_decode big t e)).
Proof. exact leq_decode. Qed.
Print Assumptions C144_lazy_comparison.

(** An [aai] whose second element has three bytes: its length is known, the other
    elements can be had, an iterator goes on behind it; everything that touches it
    panics, and comparing with something shorter does not.  And a string with a NUL. *)
Definition c144_prog (a1 a2 a3 : N) : list call :=
  [PVec (Vec a1 [x01; x00; x00; x00; xaa; xbb; xcc; x00; x02; x00; x00; x00; x04; x07; x0c]);
   PFromVec 0 a2; PDeref 1; PSlice 2 (OpAs 4); PCast 3 (TA (TA TI));
   PLen 4; PRead 4; PAccess 4 (AcIndex 2); PRead 5; PAccess 4 (AcIndex 1); PAccess 4 (AcNth 2);
   PIter 4; PNext 6; PNext 6; PNext 6; PRead 8; PNext 6; PAsk (QHint 6);
   PEq 4 4; PAsk (QNative 4 (RhSeq [RhView 5])); PRewrite 4 a3; PWrite TS (RStr [x61; x00]) a3; PAccess 4 (AcIndex 7)].
Ltac c144_step := eapply program_cons; [vm_compute; reflexivity|cbn [possible]|cbn [door]; try tauto|].
Ltac c144_run :=
  unfold c144_prog;
  (c144_step; [split; reflexivity|]); (c144_step; [reflexivity|]); (c144_step; [exact I|]);
  (c144_step; [intros A s H; injection H as <- <-; split; [right; right; left; reflexivity|discriminate]|]);
  (c144_step; [split; reflexivity|intros (s & H & Hz & _); injection H as <-; discriminate Hz|]);
  (c144_step; [exact I|]); (c144_step; [exact I|]); (c144_step; [reflexivity|]); (c144_step; [exact I|]); (c144_step; [reflexivity|]); (c144_step; [exact I|]);
  (c144_step; [exact I|]); (c144_step; [exact I|]); (c144_step; [exact I|]); (c144_step; [exact I|]); (c144_step; [exact I|]); (c144_step; [exact I|]); (c144_step; [exact I|]);
  (c144_step; [exact I|]); (c144_step; [exact I|]);
  (c144_step; [split; [reflexivity|]; intros t r v H E; injection H as <- <-; vm_compute in E; discriminate E|]);
  (c144_step; [split; [split; reflexivity|]; split; [exists [97; 0]; split; [repeat constructor|reflexivity]|]; split; reflexivity|]);
  (c144_step; [reflexivity|]); split; exact I.
Lemma modest_cons big env p ps env' m : lstep big env p = (env', m) -> modest env p -> all_modest big env' ps -> all_modest big env (p :: ps).
Proof. intros E H1 H2. cbn [all_modest]. rewrite E. auto. Qed.
Ltac c144_modest := eapply modest_cons; [vm_compute; reflexivity|cbn [modest]; try exact I; try reflexivity|].
Example C144_case : let h := Host false true true 0 0 in let h' := Host false false false 40 80 in
  let ps := c144_prog 3 33 65 in let ps' := c144_prog 8 8 11 in
  map forget ps = map forget ps' /\
  (realistic h [] ps /\ careful h [] ps) /\ (realistic h' [] ps' /\ careful h' [] ps') /\ all_modest false [] ps /\
  skipn 5 (replies h [] ps) =
    [Ok [SayCount 3]; Crash PUnwrap; Ok [SayMade]; Ok [SayValue (VArray [VInt 2])]; Crash PUnwrap; Crash PUnwrap;
     Ok [SayMade]; Ok [SayMade]; Crash PUnwrap; Ok [SayMade]; Ok [SayValue (VArray [VInt 2])]; Ok []; Ok [SayCount 0];
     Crash PUnwrap; Ok [SayBool false]; Crash PUnwrap; Crash PUnwrap; Crash PIndex].
Proof.
  intros h h' ps ps'. split; [reflexivity|]. split; [c144_run|]. split; [c144_run|]. split; [|vm_compute; reflexivity].
  unfold ps, c144_prog.
  do 4 c144_modest. c144_modest; [intros A d H; injection H as <- <-; reflexivity|].
  do 18 c144_modest. exact I.
Qed.
(** Two [ai] of which one cannot be read differ in length first. *)
Example C144_lazy_case :
  ldecode false (TA (TA TI)) (Some [x01; x00; x00; x00; xaa; xbb; xcc; x04; x07]) = LArray [LArray [LLeaf (VInt 1)]; LPanic] /\
  ldecode false (TA (TA TI)) (Some [x01; x00; x00; x00; x04]) = LArray [LArray [LLeaf (VInt 1)]] /\
  leq (LArray [LArray [LLeaf (VInt 1)]; LPanic]) (LArray [LArray [LLeaf (VInt 1)]]) = Some false /\
  leq (LArray [LArray [LLeaf (VInt 1)]; LPanic]) (LArray [LArray [LLeaf (VInt 2)]; LPanic]) = Some false /\
  leq (LArray [LArray [LLeaf (VInt 1)]; LPanic]) (LArray [LArray [LLeaf (VInt 1)]; LPanic]) = None /\
  leq (LMaybe None) (LMaybe (Some LPanic)) = None /\ leq (LMaybe (Some LPanic)) (LMaybe None) = None /\
  lforce (LTuple [LLeaf (VInt 1); LMaybe (Some LPanic)]) = None.
Proof. repeat split; vm_compute; reflexivity. Qed.
