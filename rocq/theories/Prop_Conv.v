(** Converting data to the other byte order in place: C113. *)
From Verif Require Import Base Types Spec Deser Histories LongSpec SwapSpec ConvSpec ConvFacts.

(** C113: data of a type without framing offsets (fixed size, or an array or maybe
    of fixed-size values) can be converted in place whatever the bytes are: with
    the bytes of every number turned round where they are, a machine of the other
    byte order reads the value this one read. *)
Theorem C113_unframed : forall (h : host) (t : ty) (a : N) (d : list byte),
  usable t -> sp_unframed t = true -> aligned (sp_align t) (Slice a d) -> len d < 2 ^ 63 ->
  len (sp_turn t d) = len d /\ decode (other h) t (Slice a (sp_turn t d)) = decode h t (Slice a d).
Proof. exact convert_claim. Qed.
Print Assumptions C113_unframed.
Example C113_unframed_case : let h := Host false true true 0 0 in let t := TA (TTuple [TI; TN; TY]) in
  let d := [x01; x02; x03; x04; x05; x06; x07; xff; x11; x12; x13; x14; x15; x16; x17; x18] in
  let d' := [x04; x03; x02; x01; x06; x05; x07; xff; x14; x13; x12; x11; x16; x15; x17; x18] in
  usable t /\ sp_unframed t = true /\ aligned (sp_align t) (Slice 4 d) /\ sp_turn t d = d' /\
  decode h t (Slice 4 d) = Ok (VArray [VTuple [VInt 0x04030201; VInt 0x0605; VInt 7]; VTuple [VInt 0x14131211; VInt 0x1615; VInt 0x17]]) /\
  decode (other h) t (Slice 4 d') = decode h t (Slice 4 d) /\
  (* not a whole number of elements: the empty array either way *)
  sp_turn t (tl d) = tl d /\ decode (other h) t (Slice 4 (tl d)) = Ok (VArray []).
Proof. intros h t d d'. split; [split; reflexivity|]. repeat split; vm_compute; reflexivity. Qed.
(** Data in normal form can be converted too, and keeps its length. *)
Theorem C113_normal : forall (h : host) (t : ty) (a : N) (v : value),
  usable t -> sp_typed t v -> aligned (sp_align t) (Slice a []) ->
  len (sp_encode (h_big_endian h) t v) < 2 ^ 63 ->
  let d := sp_encode (h_big_endian h) t v in
  let d' := sp_encode (negb (h_big_endian h)) t v in
  len d' = len d /\ decode h t (Slice a d) = Ok v /\ decode (other h) t (Slice a d') = Ok v.
Proof. exact convert_normal. Qed.
Print Assumptions C113_normal.
Example C113_normal_case : let h := Host false true true 0 0 in let t := TTuple [TS; TS; TN] in
  let v := VTuple [VStr (bs "x"); VStr []; VInt 120] in
  usable t /\ sp_typed t v /\ aligned (sp_align t) (Slice 2 []) /\
  sp_encode false t v = [x78; x00; x00; x00; x78; x00; x03; x02] /\
  sp_encode true t v = [x78; x00; x00; x00; x00; x78; x03; x02].
Proof.
  intros h t v. split; [split; reflexivity|]. split; [|repeat split; reflexivity].
  cbn. repeat split; try discriminate; try apply Utf8Facts.sp_utf8_ok; try reflexivity; cbn; intuition discriminate.
Qed.
(** Other data cannot always be: nothing of the same length has the value that
    these four bytes have (Specification 3.1). *)
Theorem C113_not_always : forall h : host, exists t d v,
  usable t /\ decode h t (Slice 0 d) = Ok v /\
  forall d', len d' = len d -> decode (other h) t (Slice 0 d') <> Ok v.
Proof. exact no_conversion. Qed.
Print Assumptions C113_not_always.
