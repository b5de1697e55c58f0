(** Iterators when panics are caught: C107, C108. *)
From Verif Require Import Base Types Spec Deser Histories Iter IterSpec BaseFacts IterFacts.

(** C107 is false of the code: with overflow checks a corrupt 8-byte offset makes all
    further calls of [next] panic; the end is never reached. *)
Theorem C107_iterators_end_refuted : exists (h : host) (s : slice) (it : nfwa_iter) (r : slice),
  aligned (sp_align TS) s /\ len (s_data s) < 2 ^ 63 /\ nfwa_len h s = Ok 2 /\ nfwa_into_iter h TS s = Ok it /\
  forall k, nfwa_calls h TS (S k) it = Ok (Some r) :: repeat (Crash POverflow) k.
Proof. exact big_calls. Qed.
Print Assumptions C107_iterators_end_refuted.

(** C108: below 4 GiB, or without overflow checks, call i gives a[i] or panics as
    a[i] does, and from the length on [None]; [sp_call] says so. *)
Theorem C108_calls : forall (h : host) (x : ty) (s : slice),
  usable x -> sp_size x = None -> aligned (sp_align x) s -> len (s_data s) < 2 ^ 63 ->
  h_overflow_checks h = false \/ len (s_data s) < 2 ^ 32 ->
  exists it n, nfwa_into_iter h x s = Ok it /\ nfwa_len h s = Ok n /\
  forall k, nfwa_calls h x k it = map (sp_call h x s n) (sp_upto k).
Proof. exact calls_claim. Qed.
Print Assumptions C108_calls.
(** In general that holds up to the first overflow, which is final. *)
Theorem C108_calls_in_general : forall (h : host) (x : ty) (s : slice),
  usable x -> sp_size x = None -> aligned (sp_align x) s -> len (s_data s) < 2 ^ 63 ->
  exists it n, nfwa_into_iter h x s = Ok it /\ nfwa_len h s = Ok n /\
  forall k, nfwa_calls h x k it = map (sp_stuck_call h x s n) (sp_upto k).
Proof. exact stuck_claim. Qed.
Print Assumptions C108_calls_in_general.
(** Three elements, the second of a wrong size: the calls after its panic go on. *)
Example C108_case :
  let h := Host false true true 0 0 in let x := TA TI in
  let s := Slice 4 ([x01; x00; x00; x00; x02; x03; x00; x00; x07; x00; x00; x00] ++ [x04; x06; x0c]) in
  usable x /\ sp_size x = None /\ aligned (sp_align x) s /\ len (s_data s) < 2 ^ 32 /\
  (let* it := nfwa_into_iter h x s in Ok (nfwa_calls h x 5 it)) =
  Ok [Ok (Some (Slice 4 [x01; x00; x00; x00])); Crash PUnwrap; Ok (Some (Slice 12 [x07; x00; x00; x00])); Ok None; Ok None].
Proof. intros h x s. repeat split; reflexivity. Qed.
