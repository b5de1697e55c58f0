(** Panics half-way: C92, C93, C101, C102. *)
From Verif Require Import Base Types AlignedBytes Deser Strs Spec Buf Histories Unwind UnwindSpec Utf8Facts UnwindFacts.

(** C92: whatever calls are made on a GString, and whichever of them panic for
    want of memory, it holds a string afterwards, with a NUL byte at the end and
    no other: that of the calls that did not panic.  Clearing never panics. *)
Theorem C92_strings_survive_panics : forall (h : host) s0 g0 (os : list un_op),
  gs_init s0 g0 -> Forall un_op_wf os ->
  let '(g, rs) := run_un g0 os in
  exists s, may_do_all os s0 rs s /\ good_string s /\ g_data g = s ++ [x00] /\
    gs_as_str h g = Ok s /\ gs_len h g = Ok (len s) /\ gs_into_cstring g = Ok s /\ to_str (gs_deref g) = s.
Proof. exact un_history. Qed.
Print Assumptions C92_strings_survive_panics.
(** After [reserve(n)] has returned, appending [n] bytes in all does not panic. *)
Theorem C92_reserved : forall s0 g0 (os : list un_op) (n : N) (a : grant) (os' : list un_op),
  gs_init s0 g0 -> Forall un_op_wf os ->
  let '(g, r) := run_un_op (fst (run_un g0 os)) (UReserve n a) in
  r = Returned true -> Forall un_op_wf os' -> Forall is_push os' -> pushed os' <= n ->
  ~ In Panicked (snd (run_un g os')).
Proof. exact un_reserved. Qed.
Print Assumptions C92_reserved.
Definition c92_ops : list un_op :=
  [UPush (bs "ab") (Grant 0) Refuse Refuse; UPush (bs "cd") Refuse (Grant 9) (Grant 9); UReserve (2 ^ 63) (Grant (2 ^ 63));
   UReserve 4 (Grant 0); UPush (bs "efgh") Refuse Refuse Refuse; UPush [x69; x00] (Grant 9) (Grant 9) (Grant 9)].
Example C92_case : gs_init [] (gs_new 0) /\ Forall un_op_wf c92_ops /\
  run_un (gs_new 0) c92_ops =
    (GS (bs "abefgh" ++ [x00]) 7, [Returned true; Panicked; Panicked; Returned true; Returned true; Returned false]).
Proof. split; [constructor|]. split; [repeat constructor; apply sp_utf8_ok; reflexivity|reflexivity]. Qed.

(** C93: the same for a buffer and callbacks of [with_vec] that panic at any
    point: the buffer holds what the callback left, at an aligned address, and the
    panic goes on. *)
Theorem C93_buffers_survive_panics : forall (h : host) (v : vec) (a : N) (cs : list un_call),
  v_addr v + 8 < 2 ^ 64 -> a + 8 < 2 ^ 64 -> Forall call_wf cs -> Forall granted cs ->
  let '(d, es) := plain_calls (v_data v) cs in
  exists b, un_start h v a cs = Ok (Some (b, es)) /\
    (exists s, buf_deref h b = Ok s /\ s_data s = d /\ (d <> [] -> s_addr s mod 8 = 0)) /\
    (exists w, buf_into_vec h b = Ok w /\ v_data w = d).
Proof. exact calls_history. Qed.
Print Assumptions C93_buffers_survive_panics.
Definition c93_calls : list un_call :=
  [UCall (fun d => (d ++ [x07], Panicked)) 101 (Some 203); UCall (fun d => (rev d, Returned 5)) 55 (Some 57)].
Example C93_case : Forall call_wf c93_calls /\ Forall granted c93_calls /\
  plain_calls [x01; x02] c93_calls = ([x07; x02; x01], [Panicked; Returned 5]) /\
  un_start (Host false true true 0 0) (Vec 3 [x01; x02]) 5 c93_calls =
    Ok (Some (Vec 57 (zeros 7 ++ [x07; x02; x01]), [Panicked; Returned 5])).
Proof. repeat (split || constructor); discriminate. Qed.

(** C101: the same when it is the guard that panics, for want of memory, is false:
    the buffer forgets the first bytes, without any callback having removed
    them; a short one cannot be used at all any more. *)
Definition c101_call (n : nat) : un_call := UCall (fun d => (d ++ repeat x07 n, Returned 0)) 101 None.
Theorem C101_bytes_lost_refuted : forall h,
  call_wf (c101_call 1) /\
  fst (plain_calls [x01; x02; x03; x04; x05; x06; x07; x08; x09] [c101_call 1]) =
    [x01; x02; x03; x04; x05; x06; x07; x08; x09; x07] /\
  exists b, un_start h (Vec 8 [x01; x02; x03; x04; x05; x06; x07; x08; x09]) 8 [c101_call 1] = Ok (Some (b, [Panicked])) /\
    buf_deref h b = Ok (Slice 104 [x04; x05; x06; x07; x08; x09; x07]).
Proof. exact bytes_lost. Qed.
Print Assumptions C101_bytes_lost_refuted.
Theorem C101_unusable_refuted : forall h,
  fst (plain_calls [] [c101_call 1]) = [x07] /\
  exists b, un_start h vec_new 8 [c101_call 1] = Ok (Some (b, [Panicked])) /\
    buf_deref h b = Crash PIndex /\ buf_into_vec h b = Crash PAssert.
Proof. exact bytes_gone. Qed.
Print Assumptions C101_unusable_refuted.

(** C102: what does hold.  A buffer keeps what the callback left unless memory was
    refused for aligning it; then it keeps all but what precedes the next
    multiple of eight, and panics on every use if there is not as much as that;
    if the callback panicked, too, the program is aborted. *)
Theorem C102_buffers_without_memory : forall (h : host) (v : vec) (a : N) (cs : list un_call),
  v_addr v + 8 < 2 ^ 64 -> a + 8 < 2 ^ 64 -> Forall call_wf cs ->
  match sp_calls (Some (v_data v)) cs with
  | None => un_start h v a cs = Ok None
  | Some (Some d, es) =>
      exists b, un_start h v a cs = Ok (Some (b, es)) /\
        (exists s, buf_deref h b = Ok s /\ s_data s = d /\ (d <> [] -> s_addr s mod 8 = 0)) /\
        (exists w, buf_into_vec h b = Ok w /\ v_data w = d)
  | Some (None, es) =>
      exists b, un_start h v a cs = Ok (Some (b, es)) /\ buf_deref h b = Crash PIndex /\ buf_into_vec h b = Crash PAssert
  end.
Proof. exact start_ok. Qed.
Print Assumptions C102_buffers_without_memory.
Definition c102_calls : list un_call :=
  [UCall (fun d => (d ++ [x07], Returned 1)) 101 None; UCall (fun d => (rev d, Returned 5)) 55 (Some 57);
   UCall (fun d => (d, Panicked)) 48 None].
Example C102_case : Forall call_wf c102_calls /\
  sp_calls (Some [x01; x02; x03; x04]) c102_calls = Some (Some [x07; x04], [Panicked; Returned 5; Panicked]) /\
  sp_calls (Some [x01]) c102_calls = Some (None, [Panicked; Panicked; Panicked]) /\
  sp_calls (Some [x01]) [UCall (fun d => (d, Panicked)) 5 None] = None.
Proof. repeat (split || constructor). Qed.
