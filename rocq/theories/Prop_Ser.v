(** Serialising: C21 to C27 and C52 to C57.  [rval] is what a program passes to
    [serialize], [rvalue false] the GVariant value that means, [sp_encode] the
    normal form and [sp_deliver] a sink that may fail.  All inputs and outputs are
    shorter than 2^63 bytes, like every slice in Rust. *)
From Verif Require Import Base Types Spec Deser Ser Histories SerSpec Utf8Facts SerClaims.

(** C21: the count is right, ... *)
Theorem C21_counts_bytes : forall (h : host) (t : ty) (r : rval) (budget : option N) (n : N),
  usable t -> rtyped t r ->
  len (sp_written (h_big_endian h) t (rvalue true (h_big_endian h) t r)) < 2 ^ 63 ->
  snd (serialize h t r budget) = SOk n -> n = len (sp_output (serialize h t r budget)).
Proof. exact count_claim. Qed.
Print Assumptions C21_counts_bytes.
(** ... a failing sink has received a prefix and its error comes back, ... *)
Theorem C21_failing_sink : forall (h : host) (t : ty) (r : rval) (m : N),
  usable t -> rtyped t r ->
  len (sp_written (h_big_endian h) t (rvalue true (h_big_endian h) t r)) < 2 ^ 63 ->
  let full := serialize h t r None in
  let short := serialize h t r (Some m) in
  sp_output short = firstn (N.to_nat m) (sp_output full) /\
  snd short = if len (sp_output full) <=? m then snd full else SErr EIo.
Proof. exact prefix_claim. Qed.
Print Assumptions C21_failing_sink.
(** ... and nothing panics. *)
Theorem C21_never_panics : forall (h : host) (t : ty) (r : rval) (budget : option N) (c : crash),
  usable t -> rtyped t r ->
  len (sp_written (h_big_endian h) t (rvalue true (h_big_endian h) t r)) < 2 ^ 63 ->
  snd (serialize h t r budget) <> SCrash c.
Proof. exact no_crash_claim. Qed.
Print Assumptions C21_never_panics.
(** What is written, exactly: the normal form with each array of variable-size
    elements also padded after its last element. *)
Theorem C21_writes_exactly : forall (h : host) (t : ty) (r : rval) (budget : option N),
  usable t -> rtyped t r -> no_nuls t r ->
  len (sp_written (h_big_endian h) t (rvalue true (h_big_endian h) t r)) < 2 ^ 63 ->
  serialize h t r budget =
    sp_deliver budget (sp_written (h_big_endian h) t (rvalue true (h_big_endian h) t r))
      (SOk (len (sp_written (h_big_endian h) t (rvalue true (h_big_endian h) t r)))).
Proof. exact ser_claim. Qed.
Print Assumptions C21_writes_exactly.
Example C21_case :
  let h := Host true true true 0 0 in
  let t := TTuple [TS; TM TU; TV] in
  let r := RTuple [RStr (bs "hi"); ROpt (Some (RInt 7)); RWrap TQ (RInt 258)] in
  usable t /\ rtyped t r /\ no_nuls t r /\
  serialize h t r None = (Sink (bs "hi" ++ [x00; x00; x00; x00; x00; x07; x01; x02; x00; "q"; x08; x03])%byte None, SOk 14) /\
  serialize h t r (Some 5) = (Sink (bs "hi" ++ [x00; x00; x00]) (Some 0), SErr EIo).
Proof.
  intros h t r. subst t r. split; [split; reflexivity|]. split.
  - intros. rt.
  - split; [|split; vm_compute; reflexivity]. intros s [<-|[]] [H|[H|[]]]; discriminate.
Qed.

(** C22 is false of the code: [a(si)] with one element is padded at its end. *)
Theorem C22_normal_form_refuted : exists (h : host) (t : ty) (r : rval), usable t /\ rtyped t r /\ no_nuls t r /\
  snd (serialize h t r None) = SOk (len (sp_output (serialize h t r None))) /\
  sp_output (serialize h t r None) <> sp_encode (h_big_endian h) t (rvalue false (h_big_endian h) t r).
Proof. exact normal_refuted. Qed.
Print Assumptions C22_normal_form_refuted.
(** C52: what is written is the normal form exactly when the last element of every
    array of variable-size elements ends at its alignment. *)
Theorem C52_normal_form_exactly : forall (h : host) (t : ty) (r : rval),
  usable t -> rtyped t r -> no_nuls t r ->
  len (sp_written (h_big_endian h) t (rvalue true (h_big_endian h) t r)) < 2 ^ 63 ->
  (sp_output (serialize h t r None) = sp_encode (h_big_endian h) t (rvalue false (h_big_endian h) t r) <->
   rtails (h_big_endian h) t r).
Proof. exact normal_claim. Qed.
Print Assumptions C52_normal_form_exactly.
(** An element of [a(si)] whose frame offset happens to end at a multiple of 4 is
    impossible with one offset byte; with [a(siay)] it is possible. *)
Example C52_case :
  let h := Host false true true 0 0 in
  let t := TA (TTuple [TS; TI; TA TY]) in
  let r := RList [RTuple [RStr (bs "a"); RInt 1; RList [RInt 1; RInt 2; RInt 3]]] in
  usable t /\ rtyped t r /\ no_nuls t r /\ rtails false t r /\
  sp_output (serialize h t r None) = (bs "a" ++ [x00; x00; x00; x01; x00; x00; x00; x01; x02; x03; x02; x0c]).
Proof.
  intros h t r. subst t r. split; [split; reflexivity|]. split.
  - intros. rt.
  - split; [intros s [<-|[]] [H|[]]; discriminate|]. split; [|vm_compute; reflexivity].
    repeat split; reflexivity.
Qed.

(** C23 is false of the code. *)
Theorem C23_round_trip_refuted : exists (h : host) (t : ty) (r : rval), usable t /\ rtyped t r /\ no_nuls t r /\
  forall a, a mod sp_align t = 0 ->
    decode h t (Slice a (sp_output (serialize h t r None))) <> Ok (rvalue false (h_big_endian h) t r).
Proof. exact round_refuted. Qed.
Print Assumptions C23_round_trip_refuted.
(** C53: reading back gives the value exactly when nothing was padded. *)
Theorem C53_round_trip_exactly : forall (h : host) (t : ty) (r : rval) (a : N),
  usable t -> rtyped t r -> no_nuls t r -> a mod sp_align t = 0 ->
  len (sp_written (h_big_endian h) t (rvalue true (h_big_endian h) t r)) < 2 ^ 63 ->
  (decode h t (Slice a (sp_output (serialize h t r None))) = Ok (rvalue false (h_big_endian h) t r) <->
   rtails (h_big_endian h) t r).
Proof. exact round_claim. Qed.
Print Assumptions C53_round_trip_exactly.
Example C53_case :
  let h := Host false true true 0 0 in
  let t := TA (TTuple [TS; TI; TA TY]) in
  let r := RList [RTuple [RStr (bs "a"); RInt 1; RList [RInt 1; RInt 2; RInt 3]]] in
  rtails false t r /\
  decode h t (Slice 8 (sp_output (serialize h t r None))) =
    Ok (VArray [VTuple [VStr (bs "a"); VInt 1; VArray [VInt 1; VInt 2; VInt 3]]]).
Proof. split; [repeat split; reflexivity|vm_compute; reflexivity]. Qed.

(** C54: for the types that need no such padding, every value is written in normal
    form and read back. *)
Theorem C54_unpadded_types : forall (h : host) (t : ty) (r : rval),
  usable t -> rtyped t r -> no_nuls t r -> sp_unpadded t = true ->
  (forall u, In u (rwrapped r) -> sp_unpadded u = true) ->
  let big := h_big_endian h in
  let d := sp_encode big t (rvalue false big t r) in
  (len d < 2 ^ 63 -> forall budget, serialize h t r budget = sp_deliver budget d (SOk (len d))) /\
  (len d < 2 ^ 63 -> forall a, a mod sp_align t = 0 -> decode h t (Slice a d) = Ok (rvalue false big t r)).
Proof. exact unpadded_claim. Qed.
Print Assumptions C54_unpadded_types.
Theorem C54_unpadded_views : forall (h : host) (t : ty) (s : slice) (v : value),
  usable t -> aligned (sp_align t) s -> len (s_data s) < 2 ^ 63 -> sp_unpadded t = true ->
  decode h t s = Ok v ->
  let d := sp_encode (h_big_endian h) t v in
  len d < 2 ^ 63 -> forall budget, reserialize h t s budget = sp_deliver budget d (SOk (len d)).
Proof. exact unpadded_again_claim. Qed.
Print Assumptions C54_unpadded_views.
Example C54_case :
  let h := Host false true true 0 0 in
  let t := TTuple [TA (TDict TS (TA TS)); TA (TA TI); TV] in
  let r := RTuple [RList [RTuple [RStr (bs "k"); RList [RStr (bs "v"); RStr (bs "w")]]];
                   RList [RList [RInt 1; RInt (-1)]; RList []]; RWrap (TA TS) (RList [RStr (bs "x")])] in
  usable t /\ rtyped t r /\ sp_unpadded t = true /\ (forall u, In u (rwrapped r) -> sp_unpadded u = true) /\
  decode h t (Slice 16 (sp_output (serialize h t r None))) =
    Ok (VTuple [VArray [VTuple [VStr (bs "k"); VArray [VStr (bs "v"); VStr (bs "w")]]];
                VArray [VArray [VInt 1; VInt (-1)]; VArray []]; VVariant (bs "as") (bs "x" ++ [x00; x02])]).
Proof.
  intros h t r. subst t r. split; [split; reflexivity|]. split.
  - intros. rt.
  - split; [reflexivity|]. split; [intros u [<-|[]]; reflexivity|vm_compute; reflexivity].
Qed.

(** C24 and the second half of C25 are false of the code, even for bytes in normal
    form. *)
Theorem C24_reserialise_refuted : exists (h : host) (t : ty) (s : slice) (v : value),
  usable t /\ aligned (sp_align t) s /\ decode h t s = Ok v /\
  s_data s = sp_encode (h_big_endian h) t v /\
  snd (reserialize h t s None) = SOk (len (sp_output (reserialize h t s None))) /\
  sp_output (reserialize h t s None) <> s_data s /\
  decode h t (Slice (s_addr s) (sp_output (reserialize h t s None))) <> Ok v.
Proof. exact again_refuted. Qed.
Print Assumptions C24_reserialise_refuted.
(** C55: what serialising a view of arbitrary bytes writes, and when reading that
    gives the same value again. *)
Theorem C55_views_write : forall (h : host) (t : ty) (s : slice) (v : value) (budget : option N),
  usable t -> aligned (sp_align t) s -> len (s_data s) < 2 ^ 63 -> decode h t s = Ok v ->
  let d := sp_written (h_big_endian h) t v in
  len d < 2 ^ 63 -> reserialize h t s budget = sp_deliver budget d (SOk (len d)).
Proof. exact reserialize_claim. Qed.
Print Assumptions C55_views_write.
Theorem C55_views_round_trip_exactly : forall (h : host) (t : ty) (s : slice) (v : value) (a : N),
  usable t -> aligned (sp_align t) s -> len (s_data s) < 2 ^ 63 -> a mod sp_align t = 0 -> decode h t s = Ok v ->
  let big := h_big_endian h in
  len (sp_written big t v) < 2 ^ 63 ->
  (decode h t (Slice a (sp_output (reserialize h t s None))) = Ok v <-> sp_tails big t v = true).
Proof. exact again_claim. Qed.
Print Assumptions C55_views_round_trip_exactly.
(** Malformed bytes for [(sb)]: the offset is out of range and the bool is 7. *)
Example C55_case :
  let h := Host false true true 0 0 in
  let t := TTuple [TS; TB] in
  let s := Slice 3 [xff; x00; x07; x02] in
  usable t /\ aligned (sp_align t) s /\ decode h t s = Ok (VTuple [VStr []; VBool true]) /\
  sp_tails false t (VTuple [VStr []; VBool true]) = true /\
  reserialize h t s None = (Sink [x00; x01; x01] None, SOk 3).
Proof. split; [split; reflexivity|]. repeat split; vm_compute; reflexivity. Qed.

(** C25: different values have different normal forms. *)
Theorem C25_unique : forall (big : bool) (t : ty) (v w : value),
  sp_typed t v -> sp_typed t w -> len (sp_encode big t v) < 2 ^ 64 -> sp_encode big t v = sp_encode big t w -> v = w.
Proof. exact same_bytes_claim. Qed.
Print Assumptions C25_unique.
(** C56: normal forms are written back unchanged exactly when there is nothing to pad. *)
Theorem C56_preserved_exactly : forall (h : host) (t : ty) (v : value) (a : N),
  usable t -> sp_typed t v -> a mod sp_align t = 0 ->
  let big := h_big_endian h in
  len (sp_encode big t v) < 2 ^ 63 -> len (sp_written big t v) < 2 ^ 63 ->
  (sp_output (reserialize h t (Slice a (sp_encode big t v)) None) = sp_encode big t v <-> sp_tails big t v = true).
Proof. exact keep_claim. Qed.
Print Assumptions C56_preserved_exactly.
Example C25_case :
  let h := Host false true true 0 0 in
  let t := TA TS in
  let v := VArray [VStr (bs "a"); VStr []; VStr (bs "bc")] in
  sp_typed t v /\ sp_encode false t v = (bs "a" ++ [x00; x00] ++ bs "bc" ++ [x00; x02; x03; x06]) /\ sp_tails false t v = true /\
  sp_output (reserialize h t (Slice 5 (sp_encode false t v)) None) = sp_encode false t v.
Proof.
  assert (G : forall s, sp_utf8 s = true -> ~ In x00 s -> good_string s) by (intros s H1 H2; split; [now apply sp_utf8_ok|exact H2]).
  split; [repeat split; apply G; try reflexivity; cbn; intuition discriminate|]. split; [vm_compute; reflexivity|]. split; vm_compute; reflexivity.
Qed.

(** C26 *)
Theorem C26_nul_is_refused : forall (h : host) (t : ty) (s : list byte) (budget : option N),
  stringy t -> In x00 s -> serialize h t (RStr s) budget = (Sink [] budget, SErr EInvalidInput).
Proof. exact nul_string_claim. Qed.
Print Assumptions C26_nul_is_refused.
(** Anywhere inside a value: everything before the string has been written, nothing of it. *)
Theorem C26_nul_inside : forall (h : host) (t : ty) (r : rval),
  usable t -> rtyped t r -> ~ no_nuls t r ->
  len (sp_written (h_big_endian h) t (rvalue true (h_big_endian h) t r)) < 2 ^ 63 ->
  exists s before after, In s (rstrings t r) /\ In x00 s /\
    sp_written (h_big_endian h) t (rvalue true (h_big_endian h) t r) = before ++ s ++ [x00] ++ after /\
    forall budget, serialize h t r budget = sp_deliver budget before (SErr EInvalidInput).
Proof. exact nul_claim. Qed.
Print Assumptions C26_nul_inside.
Theorem C26_views_are_normalised : forall (h : host) (t : ty) (d : list byte) (budget : option N),
  stringy t -> len d < 2 ^ 62 ->
  serialize h t (RStrView d) budget = sp_deliver budget (sp_string d ++ [x00]) (SOk (len (sp_string d) + 1)).
Proof. exact str_view_claim. Qed.
Print Assumptions C26_views_are_normalised.
Theorem C26_others_are_written : forall (h : host) (t : ty) (s : list byte) (budget : option N),
  stringy t -> is_utf8 s -> ~ In x00 s -> len s < 2 ^ 62 ->
  serialize h t (RStr s) budget = sp_deliver budget (s ++ [x00]) (SOk (len s + 1)).
Proof. exact string_claim. Qed.
Print Assumptions C26_others_are_written.
Theorem C26_others_are_read_back : forall (h : host) (t : ty) (s : list byte) (a : N),
  stringy t -> is_utf8 s -> ~ In x00 s -> decode h t (Slice a (s ++ [x00])) = Ok (VStr s).
Proof. exact string_back_claim. Qed.
Print Assumptions C26_others_are_read_back.
Example C26_case :
  let h := Host false true true 0 0 in
  serialize h (TTuple [TI; TS]) (RTuple [RInt 1; RStr [x61; x00]]) None = (Sink [x01; x00; x00; x00] None, SErr EInvalidInput) /\
  ~ no_nuls (TTuple [TI; TS]) (RTuple [RInt 1; RStr [x61; x00]]) /\
  serialize h TS (RStrView [x61; xff; x00]) None = (Sink [x00] None, SOk 1) /\
  decode h TS (Slice 3 [xc3; xa9; x00]) = Ok (VStr [xc3; xa9]).
Proof.
  split; [vm_compute; reflexivity|]. split; [|split; vm_compute; reflexivity].
  intros H. apply (H [x61; x00]); [now left|right; now left].
Qed.

(** C27: the type string comes back ... *)
Theorem C27_type_string : forall (h : host) (u : ty) (r : rval) (a : N),
  usable u -> rtyped u r -> no_nuls u r -> a mod 8 = 0 ->
  let big := h_big_endian h in
  let inner := sp_written big u (rvalue true big u r) in
  len inner + 1 + len (sp_show u) < 2 ^ 63 ->
  let s := Slice a (sp_output (serialize h TV (RWrap u r) None)) in
  s_data s = inner ++ [x00] ++ sp_show u /\
  exists ts dat, variant_split h s = Ok (ts, dat) /\ s_data ts = sp_show u /\ s_data dat = inner /\ aligned 8 dat.
Proof. exact wrap_claim. Qed.
Print Assumptions C27_type_string.
(** ... but not always the value: false of the code, like C23. *)
Theorem C27_value_refuted : exists (h : host) (u : ty) (r : rval) (s q : slice), usable u /\ rtyped u r /\ no_nuls u r /\
  s = Slice 8 (sp_output (serialize h TV (RWrap u r) None)) /\
  variant_get h u s = Ok (Some q) /\ read h u q <> Ok (rvalue false (h_big_endian h) u r).
Proof. exact wrap_refuted. Qed.
Print Assumptions C27_value_refuted.
(** C57: other markers get nothing, and the right one the value exactly when there
    was nothing to pad. *)
Theorem C57_get_exactly : forall (h : host) (u : ty) (r : rval) (a : N) (x : ty),
  usable u -> usable x -> rtyped u r -> no_nuls u r -> a mod 8 = 0 ->
  let big := h_big_endian h in
  let inner := sp_written big u (rvalue true big u r) in
  len inner + 1 + len (sp_show u) < 2 ^ 63 ->
  let s := Slice a (sp_output (serialize h TV (RWrap u r) None)) in
  (x <> u -> variant_get h x s = Ok None) /\
  exists q, variant_get h u s = Ok (Some q) /\
    (read h u q = Ok (rvalue false big u r) <-> rtails big u r).
Proof. exact wrap_get_claim. Qed.
Print Assumptions C57_get_exactly.
(** A variant in a variant. *)
Example C57_case :
  let h := Host false true true 0 0 in
  let u := TTuple [TV; TQ] in
  let r := RTuple [RWrap TI (RInt 5); RInt 9] in
  let s := Slice 24 (sp_output (serialize h TV (RWrap u r) None)) in
  usable u /\ rtyped u r /\ rtails false u r /\
  s_data s = [x05; x00; x00; x00; x00; x69; x09; x00; x06; x00] ++ bs "(vq)" /\
  variant_get h u s = Ok (Some (Slice 24 [x05; x00; x00; x00; x00; x69; x09; x00; x06])) /\
  variant_get h TV s = Ok None.
Proof.
  split; [split; reflexivity|]. split; [rt|].
  split; [repeat split; reflexivity|]. repeat split; vm_compute; reflexivity.
Qed.
