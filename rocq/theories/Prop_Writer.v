(** Serialising to any writer: C98.  [Writer] models a writer whose calls of
    [write] take some of the bytes, are interrupted or fail. *)
From Verif Require Import Base Types Spec Histories Ser SerSpec Writer WriterSpec WriterFacts.

(** C98: whatever the writer, it is offered the same pieces in the same order until
    it fails; together they are what a [Vec] receives, and if it takes all of them
    the result is that for a [Vec]. *)
Theorem C98_any_writer : forall (h : host) (t : ty) (r : rval), exists pieces : list (list byte),
  concat pieces = sp_output (serialize h t r None) /\
  forall (K : Type) (W : Write K) (k : K), ser h r t k = offer pieces (snd (serialize h t r None)) k.
Proof. exact any_writer. Qed.
Print Assumptions C98_any_writer.
(** A writer that takes a few bytes at a time, or is interrupted now and then, ends
    up with all bytes. *)
Theorem C98_patient : forall (h : host) (t : ty) (r : rval) (answers : list answer),
  usable t -> rtyped t r -> no_nuls t r ->
  let d := sp_written (h_big_endian h) t (rvalue true (h_big_endian h) t r) in
  len d < 2 ^ 63 -> Forall continues answers ->
  exists rest, serialize_to h t r answers = (Writer d rest, SOk (len d)).
Proof. exact writer_patient. Qed.
Print Assumptions C98_patient.
(** Otherwise the first call that fails, or takes nothing, before all bytes are
    taken ends it: its error is the result and the bytes taken so far are the
    beginning of what was to be written; no call is made after it. *)
Theorem C98_failing : forall (h : host) (t : ty) (r : rval) (answers : list answer),
  usable t -> rtyped t r -> no_nuls t r ->
  let d := sp_written (h_big_endian h) t (rvalue true (h_big_endian h) t r) in
  len d < 2 ^ 63 ->
  exists used rest, answers = used ++ rest /\
  ((Forall continues used /\ serialize_to h t r answers = (Writer d rest, SOk (len d))) \/
   (exists u bad e now later, used = u ++ [bad] /\ Forall continues u /\ stops bad e /\ d = now ++ later /\ later <> [] /\
      serialize_to h t r answers = (Writer now rest, SErr e))).
Proof. exact writer_typed. Qed.
Print Assumptions C98_failing.
Example C98_case : let h := Host false true true 0 0 in let t := TTuple [TS; TU] in
  let r := RTuple [RStr (bs "hello"); RInt 258] in
  let d := bs "hello" ++ [x00; x00; x00; x02; x01; x00; x00; x06] in
  usable t /\ rtyped t r /\ sp_written false t (rvalue true false t r) = d /\
  Forall continues [Accepts 2; Again; Accepts 100; Again; Accepts 1; Accepts 3] /\
  serialize_to h t r [Accepts 2; Again; Accepts 100; Again; Accepts 1; Accepts 3; Refuses 5] = (Writer (bs "hello" ++ [x00; x00; x00]) [], SErr (EOther 5)) /\
  serialize_to h t r [Accepts 2; Again; Accepts 100; Accepts 0; Refuses 5] = (Writer (bs "hello") [Refuses 5], SErr EWriteZero) /\
  serialize_to h t r [Accepts 2; Again; Accepts 100; Again; Accepts 1; Accepts 3] = (Writer d [], SOk 13).
Proof.
  intros h t r d. split; [split; reflexivity|]. split.
  { cbn. repeat split; try discriminate. apply Utf8Facts.sp_utf8_ok; reflexivity. }
  split; [reflexivity|]. split; [repeat constructor; discriminate|]. repeat split; reflexivity.
Qed.
