(** From [serialize] in one program to [deserialize] in another: C137, C138. *)
From Verif Require Import Base Types Layout AlignedBytes Strs Spec Deser Ser Buf Histories SerSpec OwnSpec OwnClaims
  Reader ReaderSpec Writer WriterSpec EndFacts.

(** C137 (false): a value that needs no padding is written as nothing at all, and
    reading it back panics, or without debug assertions is undefined behaviour. *)
Theorem C137_end_to_end_refuted : exists (t : ty) (r : rval), usable t /\ rtyped t r /\ no_nuls t r /\
  forall (hw hr : host) (answers : list answer) (pre rest : list outcome) (a1 a2 a3 a4 : N),
  h_big_endian hw = h_big_endian hr ->
  a1 + 8 < 2 ^ 64 -> a2 + 8 < 2 ^ 64 -> a3 + 8 < 2 ^ 64 -> a4 + 8 < 2 ^ 64 ->
  Forall continues answers -> Forall goes_on pre -> at_end rest ->
  concat (map brings pre) = w_out (fst (serialize_to hw t r answers)) ->
  rtails (h_big_endian hw) t r /\
  exists o, deserialize_from hr t (pre ++ rest) a1 a2 a3 a4 = inr o /\
  own_read hr t o = Crash (if h_debug hr then PAssert else UBMisaligned).
Proof. exact end_refuted. Qed.
Print Assumptions C137_end_to_end_refuted.

(** C138: exactly when the value survives.  [hw] writes and [hr], which may be
    another build of the program, reads; [answers] is how the writer takes the bytes
    and [pre ++ rest] how the reader brings them. *)
Theorem C138_end_to_end : forall (hw hr : host) (t : ty) (r : rval) (answers : list answer) (pre rest : list outcome) (a1 a2 a3 a4 : N),
  usable t -> rtyped t r -> no_nuls t r -> h_big_endian hw = h_big_endian hr ->
  a1 + 8 < 2 ^ 64 -> a2 + 8 < 2 ^ 64 -> a3 + 8 < 2 ^ 64 -> a4 + 8 < 2 ^ 64 ->
  let big := h_big_endian hw in
  let d := sp_written big t (rvalue true big t r) in
  len d < 2 ^ 63 -> Forall continues answers -> Forall goes_on pre -> at_end rest ->
  concat (map brings pre) = w_out (fst (serialize_to hw t r answers)) ->
  exists o, deserialize_from hr t (pre ++ rest) a1 a2 a3 a4 = inr o /\
  (own_read hr t o = Ok (rvalue false big t r) <->
   rtails big t r /\ (d = [] -> sp_trap t = true -> sp_fixed_array t = true /\ a1 mod sp_align t = 0)).
Proof. exact end_to_end. Qed.
Print Assumptions C138_end_to_end.
Example C138_case : let hw := Host false true true 0 0 in let hr := Host false false false 1 3 in
  let t := TTuple [TS; TU] in let r := RTuple [RStr (bs "hello"); RInt 258] in
  let answers := [Accepts 2; Again; Accepts 100; Again; Accepts 1; Accepts 3] in
  let pre := [Bytes (bs "hel"); Interrupted; Bytes (bs "lo" ++ [x00; x00; x00; x02; x01; x00; x00; x06])] in
  usable t /\ rtyped t r /\ no_nuls t r /\ Forall continues answers /\ Forall goes_on pre /\ at_end [Bytes []; Fails 3] /\
  concat (map brings pre) = w_out (fst (serialize_to hw t r answers)) /\ rtails false t r /\
  exists o, deserialize_from hr t (pre ++ [Bytes []; Fails 3]) 8 16 24 32 = inr o /\
  own_read hr t o = Ok (VTuple [VStr (bs "hello"); VInt 258]).
Proof.
  intros hw hr t r answers pre. split; [split; reflexivity|]. split.
  { cbn. repeat split; try discriminate. apply Utf8Facts.sp_utf8_ok; reflexivity. }
  split. { intros s [<-|[]] H. cbn in H. intuition discriminate. }
  split; [repeat constructor; discriminate|]. split; [repeat constructor; discriminate|].
  split; [reflexivity|]. split; [reflexivity|]. split; [cbn; repeat split; reflexivity|].
  eexists. split; [reflexivity|]. vm_compute. reflexivity.
Qed.
