(** Aligned offsets, slices and buffers: C28, C29, C30, C31, C34, C44, C45, C46. *)
From Verif Require Import Base AlignedBytes Deser Buf Histories AlignedFacts.

(** C28 is false: a byte slice at address 1 is accepted as 8-byte aligned ... *)
Theorem C28_try_as_aligned_sound_refuted : exists s : slice,
  try_as_aligned 1 8 s = Some s /\ s_addr s mod 8 <> 0.
Proof. exact try_as_aligned_unsound. Qed.
Print Assumptions C28_try_as_aligned_sound_refuted.
(** ... and reading it as an array of 64-bit numbers, all with safe functions, is
    undefined behaviour in release builds. *)
Theorem C28_safe_code_reaches_ub_refuted : exists (h : host) (s s' : slice),
  try_as_aligned 1 8 s = Some s' /\ cast h (Types.TA Types.TT) s' = Crash UBMisaligned.
Proof. exact try_as_aligned_ub. Qed.
Print Assumptions C28_safe_code_reaches_ub_refuted.
(** C46: what it does instead. *)
Theorem C46_try_as_aligned_checks_nothing : forall (from to : N) (s : slice),
  try_as_aligned from to s = Some s.
Proof. exact try_as_aligned_always. Qed.
Print Assumptions C46_try_as_aligned_checks_nothing.

(** C29 is false for empty data: the result is at address 1. *)
Theorem C29_copy_to_align_refuted : exists h data a1 a2 c s,
  copy_to_align h 8 data a1 a2 = Ok c /\ cow_as_ref h 8 c = Ok s /\ s_addr s mod 8 <> 0.
Proof. exact copy_to_align_empty. Qed.
Print Assumptions C29_copy_to_align_refuted.
(** C29 for non-empty data, C45. *)
Theorem C45_copy_to_align : forall (h : host) (A : N) (data : slice) (a1 a2 : N),
  is_alignment A -> a1 + 8 < 2 ^ 64 -> a2 + 8 < 2 ^ 64 ->
  exists c s, copy_to_align h A data a1 a2 = Ok c /\ cow_as_ref h A c = Ok s /\
    s_data s = s_data data /\
    (s_data data <> [] -> s_addr s mod A = 0) /\
    (s_addr data mod A = 0 -> c = Borrowed data /\ s = data) /\
    (s_addr data mod A <> 0 -> exists b, c = OwnedBuf b).
Proof. exact copy_to_align_ok. Qed.
Print Assumptions C45_copy_to_align.
Example C45_case : let h := Host false true true 0 0 in
  is_alignment 4 /\ 67 + 8 < 2 ^ 64 /\
  copy_to_align h 4 (Slice 6 [x01; x02; x03]) 67 67 =
    Ok (OwnedBuf (Vec 67 [x00; x00; x00; x00; x00; x01; x02; x03])) /\
  cow_as_ref h 4 (OwnedBuf (Vec 67 [x00; x00; x00; x00; x00; x01; x02; x03])) =
    Ok (Slice 72 [x01; x02; x03]).
Proof. repeat split; try reflexivity. right; right; left; reflexivity. Qed.

(** C30: every offset value a program can obtain, ... *)
Theorem C30_offsets_are_multiples : forall (h : host) (A v : N),
  aoffset h A v -> v mod A = 0.
Proof. exact aoffset_multiple. Qed.
Print Assumptions C30_offsets_are_multiples.
Theorem C30_try_new_exact : forall A x v : N,
  try_new A x = Some v <-> x mod A = 0 /\ v = x.
Proof. exact try_new_iff. Qed.
Print Assumptions C30_try_new_exact.
Example C30_case : let h := Host false true true 0 0 in
  aoffset h 4 28 /\ ao_bitor 24 4 = 28 /\ align_offset h 8 17 = Ok 24.
Proof.
  cbn zeta. split; [|split; reflexivity].
  apply (ao_or _ 8 4 24 4).
  - apply (ao_align _ 8 17); [right; right; right| |]; reflexivity.
  - apply (ao_try _ 4 4); [right; right; left| |]; reflexivity.
Qed.
(** ... but with overflow checks [align_offset] panics on the largest
    representable multiple. *)
Theorem C30_align_offset_whenever_it_fits_refuted : exists h A x y,
  is_alignment A /\ x < 2 ^ 64 /\ least_multiple A x y /\ y < 2 ^ 64 /\
  align_offset h A x = Crash POverflow.
Proof. exact align_offset_corner. Qed.
Print Assumptions C30_align_offset_whenever_it_fits_refuted.
(** C44: exactly when it is right. *)
Theorem C44_align_offset_least_multiple : forall (h : host) (A x : N),
  is_alignment A -> x + A < 2 ^ 64 ->
  exists y, align_offset h A x = Ok y /\ least_multiple A x y.
Proof. exact align_offset_least. Qed.
Print Assumptions C44_align_offset_least_multiple.
Theorem C44_align_offset_without_checks : forall (h : host) (A x y : N),
  h_overflow_checks h = false -> is_alignment A ->
  x < 2 ^ 64 -> least_multiple A x y -> y < 2 ^ 64 -> align_offset h A x = Ok y.
Proof. exact align_offset_release. Qed.
Print Assumptions C44_align_offset_without_checks.
Theorem C44_align_offset_panics_iff : forall (h : host) (A x : N),
  h_overflow_checks h = true -> is_alignment A ->
  x < 2 ^ 64 -> (align_offset h A x = Crash POverflow <-> 2 ^ 64 <= x + A).
Proof. exact align_offset_checked_panics. Qed.
Print Assumptions C44_align_offset_panics_iff.
Example C44_case :
  least_multiple 8 (2 ^ 64 - 12) (2 ^ 64 - 8) /\
  align_offset (Host false false false 0 0) 8 (2 ^ 64 - 12) = Ok (2 ^ 64 - 8) /\
  align_offset (Host false true true 0 0) 8 (2 ^ 64 - 12) = Ok (2 ^ 64 - 8).
Proof.
  split; [|split; reflexivity]. exact (pad_to_least_multiple 8 (2 ^ 64 - 12) (or_intror (or_intror (or_intror eq_refl)))).
Qed.

(** C31: any history of a buffer, compared with the same history of a plain
    vector; an out-of-range write panics in both. *)
Theorem C31_buffer_is_a_vector : forall (h : host) (v : vec) (a : N) (os : list buf_op),
  v_addr v + 8 < 2 ^ 64 -> a + 8 < 2 ^ 64 -> Forall op_addrs_ok os ->
  let final := let* b := buf_from_vec h v a in run_buf h b os in
  match run_plain (v_data v) os with
  | Some d => exists b, final = Ok b /\
      (exists s, buf_deref h b = Ok s /\ s_data s = d /\ (d <> [] -> s_addr s mod 8 = 0)) /\
      (exists w, buf_into_vec h b = Ok w /\ v_data w = d)
  | None => final = Crash PIndex
  end.
Proof. exact buf_history. Qed.
Print Assumptions C31_buffer_is_a_vector.
Theorem C31_new_buffer_is_an_empty_vector : forall (h : host) (os : list buf_op),
  Forall op_addrs_ok os ->
  match run_plain [] os with
  | Some d => exists b, run_buf h buf_new os = Ok b /\
      (exists s, buf_deref h b = Ok s /\ s_data s = d /\ (d <> [] -> s_addr s mod 8 = 0)) /\
      (exists w, buf_into_vec h b = Ok w /\ v_data w = d)
  | None => run_buf h buf_new os = Crash PIndex
  end.
Proof. exact buf_history_new. Qed.
Print Assumptions C31_new_buffer_is_an_empty_vector.
Example C31_case : let os := [BWith (fun d => d ++ [x01; x02; x03]) 101 203; BSet 1 x07; BRebuild 99;
                              BWith (fun d => rev d) 55 57] in
  Forall op_addrs_ok os /\ run_plain [] os = Some [x03; x07; x01] /\
  run_buf (Host false true true 0 0) buf_new os =
    Ok (Vec 57 (zeros 7 ++ [x03; x07; x01])).
Proof. split; [repeat constructor|split; reflexivity]. Qed.

(** C34 *)
Theorem C34_slicing_step : forall (h : host) (A : N) (s : slice) (o : slice_op),
  is_alignment A -> aligned A s -> slen s < 2 ^ 64 -> op_wf A o ->
  let '(b, e) := op_range s o in
  (b <= e /\ e <= slen s ->
     run_op h A s o = Ok (part s b e) /\ aligned (op_align A o) (part s b e)) /\
  (~ (b <= e /\ e <= slen s) -> run_op h A s o = Crash PIndex).
Proof. exact run_op_spec. Qed.
Print Assumptions C34_slicing_step.
Theorem C34_slicing_chains : forall (h : host) (A0 : N) (s0 : slice) (A : N) (s : slice),
  is_alignment A0 -> aligned A0 s0 -> slen s0 < 2 ^ 64 -> sliced h A0 s0 A s ->
  is_alignment A /\ aligned A s /\ exists b e, b <= e /\ e <= slen s0 /\ s = part s0 b e.
Proof. exact sliced_ok. Qed.
Print Assumptions C34_slicing_chains.
Theorem C34_empty_aligned : forall (h : host) (A : N), is_alignment A ->
  exists s, empty_aligned h A = Ok s /\ s_data s = [] /\ aligned A s.
Proof. exact empty_aligned_ok. Qed.
Print Assumptions C34_empty_aligned.
Example C34_case : let h := Host false true true 3 0 in
  let s := Slice 16 [x01; x02; x03; x04; x05; x06; x07; x08; x09; x0a] in
  is_alignment 8 /\ aligned 8 s /\ slen s < 2 ^ 64 /\
  sliced h 8 s 4 (Slice 24 [x09]) /\
  run_op h 8 s (OpTo 11) = Crash PIndex.
Proof.
  intros h s. split; [right; right; right; reflexivity|]. split; [reflexivity|]. split; [reflexivity|].
  split; [|reflexivity].
  apply (sliced_step _ _ _ 8 (Slice 24 [x09]) (OpAs 4)).
  - apply (sliced_step _ _ _ 8 s (OpRangeAl 8 9)); [constructor| |]; repeat split; reflexivity.
  - split; [right; right; left; reflexivity|]. intros H; discriminate H.
  - reflexivity.
Qed.
