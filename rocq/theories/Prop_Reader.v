(** Deserialising from a reader: C89. *)
From Verif Require Import Base Types Layout AlignedBytes Strs Spec Deser Ser Buf Histories SerSpec OwnSpec OwnClaims Reader ReaderSpec ReaderFacts.

(** C89: however the bytes come in, and however often the reader is interrupted,
    the object is the one with all the bytes up to the reader's end ... *)
Theorem C89_reads_everything : forall (h : host) (t : ty) (pre rest : list outcome) (q : slice) (a1 a2 a3 a4 : N),
  usable t -> a1 + 8 < 2 ^ 64 -> a2 + 8 < 2 ^ 64 -> a3 + 8 < 2 ^ 64 -> a4 + 8 < 2 ^ 64 ->
  Forall goes_on pre -> at_end rest ->
  s_data q = concat (map brings pre) -> s_data q <> [] -> aligned (sp_align t) q ->
  exists o, deserialize_from h t (pre ++ rest) a1 a2 a3 a4 = inr o /\ own_read h t o = decode h t q.
Proof. exact reader_reads. Qed.
Print Assumptions C89_reads_everything.
(** ... an error of the reader is returned ... *)
Theorem C89_returns_the_error : forall (h : host) (t : ty) (pre : list outcome) (e : N) (rest : list outcome) (a1 a2 a3 a4 : N),
  Forall goes_on pre -> deserialize_from h t (pre ++ Fails e :: rest) a1 a2 a3 a4 = inl e.
Proof. exact reader_fails. Qed.
Print Assumptions C89_returns_the_error.
(** ... and there are no other readers. *)
Theorem C89_all_readers : forall calls : list outcome,
  (exists pre rest, calls = pre ++ rest /\ Forall goes_on pre /\ at_end rest) \/
  (exists pre e rest, calls = pre ++ Fails e :: rest /\ Forall goes_on pre).
Proof. exact reader_cases. Qed.
Print Assumptions C89_all_readers.
Definition c89_pre : list outcome := [Bytes [x68; x69]; Interrupted; Bytes [x00; x01; x00; x00; x00]].
Example C89_case : let h := Host false true true 0 3 in let q := Slice 32 [x68; x69; x00; x01; x00; x00; x00] in
  usable (TTuple [TS; TA TY]) /\ Forall goes_on c89_pre /\ at_end [Bytes []; Bytes [x07]] /\
  s_data q = concat (map brings c89_pre) /\ aligned (sp_align (TTuple [TS; TA TY])) q /\
  deserialize_from h (TTuple [TS; TA TY]) (c89_pre ++ [Fails 7; Bytes [x01]]) 8 16 24 32 = inl 7.
Proof. repeat split. repeat constructor; discriminate. Qed.
