(** Reading files into aligned buffers and converting these: C128, C129, C130. *)
From Verif Require Import Base Types AlignedBytes Spec Buf Reader ReaderSpec DocRead DocFacts.

(** C128 is false of the example in the documentation of [aligned_bytes]: it reads
    into an empty slice, so the buffer stays empty ... *)
Theorem C128_module_example_refuted : exists (h : host) (calls : list outcome) (a : N) (b : vec) (s : slice),
  Forall goes_on calls /\ concat (map brings calls) <> [] /\
  module_example h calls a = inr (Ok b) /\ buf_deref h b = Ok s /\ s_data s <> concat (map brings calls).
Proof. exact module_refuted. Qed.
Print Assumptions C128_module_example_refuted.
(** ... whatever the file. *)
Theorem C128_module_example_reads_nothing : forall (h : host) (calls : list outcome) (a : N) (b : vec),
  module_example h calls a = inr (Ok b) -> exists s, buf_deref h b = Ok s /\ s_data s = [].
Proof. exact module_empty. Qed.
Print Assumptions C128_module_example_reads_nothing.
(** It fails exactly if the first call does, with the same error. *)
Theorem C128_module_example_fails : forall (h : host) (calls : list outcome) (a : N) (e : option N),
  module_example h calls a = inl e <->
  exists rest, calls = match e with Some n => Fails n | None => Interrupted end :: rest.
Proof. exact module_fails. Qed.
Print Assumptions C128_module_example_fails.
Example C128_case : module_example (Host false true true 0 0) [Bytes [x01; x02]; Bytes [x03]] 16 = inr (Ok vec_new).
Proof. reflexivity. Qed.

(** C129: the examples in the crate's documentation ... *)
Theorem C129_crate_example : forall (h : host) (pre rest : list outcome) (a1 a2 : N),
  a1 + 8 < 2 ^ 64 -> a2 + 8 < 2 ^ 64 -> Forall goes_on pre -> at_end rest ->
  exists b s, crate_example h (pre ++ rest) a1 a2 = inr (Ok b) /\ buf_deref h b = Ok s /\
    s_data s = concat (map brings pre) /\ (s_data s <> [] -> s_addr s mod 8 = 0).
Proof. exact crate_reads. Qed.
Print Assumptions C129_crate_example.
Theorem C129_crate_example_error : forall (h : host) (pre : list outcome) (e : N) (rest : list outcome) (a1 a2 : N),
  Forall goes_on pre -> crate_example h (pre ++ Fails e :: rest) a1 a2 = inl e.
Proof. exact crate_fails. Qed.
Print Assumptions C129_crate_example_error.
(** ... and in that of [with_vec], where after an error the buffer has what was read
    before it. *)
Theorem C129_with_vec_example : forall (h : host) (pre rest : list outcome) (a1 a2 : N),
  a1 + 8 < 2 ^ 64 -> a2 + 8 < 2 ^ 64 -> Forall goes_on pre ->
  match rest with Fails _ :: _ => True | _ => at_end rest end ->
  exists b s, with_vec_example h buf_new (pre ++ rest) a1 a2 = Ok (b, match rest with Fails e :: _ => Some e | _ => None end) /\
    buf_deref h b = Ok s /\ s_data s = concat (map brings pre) /\ (s_data s <> [] -> s_addr s mod 8 = 0).
Proof. exact with_vec_reads. Qed.
Print Assumptions C129_with_vec_example.
(** The same with a buffer that holds something already: what is read goes after it. *)
Theorem C129_with_vec_appends : forall (h : host) (v : vec) (a : N) (pre rest : list outcome) (a1 a2 : N),
  v_addr v + 8 < 2 ^ 64 -> a + 8 < 2 ^ 64 -> a1 + 8 < 2 ^ 64 -> a2 + 8 < 2 ^ 64 -> Forall goes_on pre ->
  match rest with Fails _ :: _ => True | _ => at_end rest end ->
  exists b0 b s, buf_from_vec h v a = Ok b0 /\
    with_vec_example h b0 (pre ++ rest) a1 a2 = Ok (b, match rest with Fails e :: _ => Some e | _ => None end) /\
    buf_deref h b = Ok s /\ s_data s = v_data v ++ concat (map brings pre) /\ (s_data s <> [] -> s_addr s mod 8 = 0).
Proof. exact with_vec_appends. Qed.
Print Assumptions C129_with_vec_appends.
Example C129_case : let h := Host false true true 0 0 in let pre := [Bytes [x01; x02]; Interrupted; Bytes [x03]] in
  Forall goes_on pre /\ at_end [Bytes []; Fails 5] /\
  crate_example h (pre ++ [Bytes []; Fails 5]) 33 21 = inr (Ok (Vec 21 [x00; x00; x00; x01; x02; x03])) /\
  with_vec_example h buf_new (pre ++ [Fails 5]) 33 40 = Ok (Vec 40 [x01; x02; x03], Some 5) /\
  with_vec_example h (Vec 7 [x00; x09]) (pre ++ [Fails 5]) 33 40 = Ok (Vec 40 [x09; x01; x02; x03], Some 5).
Proof. repeat split; repeat constructor; discriminate. Qed.

(** C130: if vectors are 8-byte aligned, as they are with most allocators, converting
    one to an [AlignedBuf] and back does nothing to it ... *)
Theorem C130_conversion_is_a_noop : forall (h : host) (v : vec) (a : N), v_addr v mod 8 = 0 ->
  buf_from_vec h v a = Ok v /\ buf_into_vec h v = Ok v.
Proof. exact conversions_noop. Qed.
Print Assumptions C130_conversion_is_a_noop.
(** ... and otherwise puts less than 8 bytes before the data, which going back
    removes without moving the vector. *)
Theorem C130_conversion_pads : forall (h : host) (v : vec) (a : N), v_addr v + 8 < 2 ^ 64 -> a + 8 < 2 ^ 64 ->
  exists b w, buf_from_vec h v a = Ok b /\ buf_into_vec h b = Ok w /\ v_data w = v_data v /\ v_addr w = v_addr b /\
    (b = v \/ v_addr v mod 8 <> 0 /\ v_addr b = a /\ exists n, n < 8 /\ (a + n) mod 8 = 0 /\ v_data b = nuls n ++ v_data v).
Proof. exact conversion_pads. Qed.
Print Assumptions C130_conversion_pads.
Example C130_case : let h := Host true true true 0 0 in
  v_addr (Vec 48 [x07]) mod 8 = 0 /\ buf_from_vec h (Vec 51 [x07; x08]) 69 = Ok (Vec 69 [x00; x00; x00; x07; x08]) /\
  buf_into_vec h (Vec 69 [x00; x00; x00; x07; x08]) = Ok (Vec 69 [x07; x08]).
Proof. repeat split. Qed.
