(** Programs that are not careful: C146. *)
From Verif Require Import Base Types Layout AlignedBytes Strs Spec Deser Buf Histories Ser SerSpec Cmp CmpSpec Fmt FmtSpec Mut MutSpec OwnSpec Iter Programs ProgSpec
  ValSpec LazySpec LooseSpec LooseProg.

(** C146.  Any program, careful or not, is told what the machine over lazy values
    says, up to the first reference that is not aligned: undefined behaviour, or a
    failed assertion in builds that have them. *)
Theorem C146_programs : forall (h : host) (ps : list call),
  realistic h [] ps -> all_modest (h_big_endian h) [] ps -> all_fit (h_big_endian h) [] ps ->
  same_until_misaligned h (replies h [] ps) (lreplies (h_big_endian h) [] ps).
Proof. exact (fun h ps => loose_programs h ps [] [] (Forall_nil _) (Forall2_nil _)). Qed.
Print Assumptions C146_programs.
(** So one that does not run into either is told just that, wherever its references
    point. *)
Theorem C146_without_undefined_behaviour : forall (h : host) (ps : list call),
  realistic h [] ps -> all_modest (h_big_endian h) [] ps -> all_fit (h_big_endian h) [] ps ->
  exec h [] ps <> None -> (h_debug h = true -> ~ In (Crash PAssert) (replies h [] ps)) ->
  replies h [] ps = lreplies (h_big_endian h) [] ps.
Proof. exact loose_sound. Qed.
Print Assumptions C146_without_undefined_behaviour.

(** A variant at address [a], let in by [try_as_aligned].  At an odd address a release
    build still shows what is in it, but asking for the number inside is undefined
    behaviour; a debug build panics.  Copying it first makes everything well. *)
Definition c146_prog (a : N) (copy : bool) : list call :=
  [PVec (Vec a [x05; x00; x00; x00; x00; x00; x00; x00; x00; x74]); PBytes 0; PTry 1 8; PCast 2 TV; PRead 3] ++
  (if copy then [PToOwned 3 3 4; PBorrow 4; PAccess 5 (AcGet TT); PRead 6]
   else [PAccess 3 (AcGet TT); PRead 4; PRewrite 4 0]).
Lemma fit_cons big env p ps env' m : lstep big env p = (env', m) -> fits big env p -> all_fit big env' ps -> all_fit big env (p :: ps).
Proof. intros E H1 H2. cbn [all_fit]. rewrite E. auto. Qed.
Lemma modest_cons big env p ps env' m : lstep big env p = (env', m) -> modest env p -> all_modest big env' ps -> all_modest big env (p :: ps).
Proof. intros E H1 H2. cbn [all_modest]. rewrite E. auto. Qed.
Lemma real_cons h env p ps env' m : step h env p = (env', m) -> possible h env p -> realistic h env' ps -> realistic h env (p :: ps).
Proof. intros E H1 H2. cbn [realistic]. rewrite E. auto. Qed.
Ltac c146_fit := eapply fit_cons; [vm_compute; reflexivity|cbn [fits]; try exact I|].
Ltac c146_modest := eapply modest_cons; [vm_compute; reflexivity|cbn [modest]; try exact I; try reflexivity|].
Ltac c146_real := eapply real_cons; [vm_compute; reflexivity|cbn [possible]; try exact I|].
Ltac c146_start :=
  unfold c146_prog; cbn [app];
  (c146_real; [split; reflexivity|]); c146_real; (c146_real; [right; right; right; reflexivity|]); (c146_real; [split; reflexivity|]); c146_real.
Example C146_case : let h := Host false false false 0 0 in let d := Host false true true 0 0 in
  (realistic h [] (c146_prog 9 true) /\ all_modest false [] (c146_prog 9 true) /\ all_fit false [] (c146_prog 9 true)) /\
  (realistic h [] (c146_prog 9 false) /\ all_modest false [] (c146_prog 9 false) /\ all_fit false [] (c146_prog 9 false)) /\
  ~ careful h [] (c146_prog 9 true) /\ exec h [] (c146_prog 9 true) <> None /\
  skipn 4 (replies h [] (c146_prog 9 true)) =
    [Ok [SayValue (VVariant [x74] [x05; x00; x00; x00; x00; x00; x00; x00])]; Ok [SayMade]; Ok [SayMade]; Ok [SayMade]; Ok [SayValue (VInt 5)]] /\
  skipn 4 (replies h [] (c146_prog 9 false)) =
    [Ok [SayValue (VVariant [x74] [x05; x00; x00; x00; x00; x00; x00; x00])]; Crash UBMisaligned] /\
  skipn 4 (replies d [] (c146_prog 9 false)) = [Crash PAssert; Crash PAssert; Crash NoCompile; Crash NoCompile] /\
  skipn 4 (replies d [] (c146_prog 8 false)) =
    [Ok [SayValue (VVariant [x74] [x05; x00; x00; x00; x00; x00; x00; x00])]; Ok [SayMade]; Ok [SayValue (VInt 5)];
     Ok [SayBytes [x05; x00; x00; x00; x00; x00; x00; x00]]] /\
  lreplies false [] (c146_prog 9 false) = replies d [] (c146_prog 8 false).
Proof.
  intros h d. split; [|split; [|split; [|repeat split; try (vm_compute; (reflexivity || discriminate))]]].
  - split; [|split].
    + c146_start. (c146_real; [split; reflexivity|]). c146_real. (c146_real; [split; reflexivity|]). c146_real. exact I.
    + unfold c146_prog. cbn [app]. do 3 c146_modest. c146_modest; [intros A e H; injection H as <- <-; reflexivity|]. do 5 c146_modest. exact I.
    + unfold c146_prog. cbn [app]. do 9 c146_fit. exact I.
  - split; [|split].
    + c146_start. (c146_real; [split; reflexivity|]). c146_real. c146_real; [|exact I]. split; [reflexivity|]. intros t r v H. discriminate H.
    + unfold c146_prog. cbn [app]. do 3 c146_modest. c146_modest; [intros A e H; injection H as <- <-; reflexivity|]. do 4 c146_modest. exact I.
    + unfold c146_prog. cbn [app]. do 7 c146_fit. c146_fit; [|exact I]. intros t l v H E. injection H as <- <-. vm_compute in E. injection E as <-. reflexivity.
  - intros (_ & _ & Hd & _). apply Hd. exists 1, (Slice 9 [x05; x00; x00; x00; x00; x00; x00; x00; x00; x74]).
    split; [reflexivity|]. split; [discriminate|]. vm_compute. discriminate.
Qed.
