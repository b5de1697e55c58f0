(** Builds with checks and builds without: C132. *)
From Verif Require Import Base Types AlignedBytes Strs Spec Deser Ser Buf Cmp Fmt Flags Histories BuildSpec BuildFacts Mut Reader Fuzz FuzzGlib BuildMore.

(** C132: whatever the bytes, the types and the addresses, and with no other
    hypothesis, a build with overflow checks (and debug assertions) gives what the one
    without gives, unless one of those checks fails.  Reading ... *)
Theorem C132_reads : forall (both : bool) (h : host) (t : ty) (s : slice),
  or_check both (decode h t s) (decode (unguarded both h) t s) /\
  (forall a, or_check both (run_access h t s a) (run_access (unguarded both h) t s a)) /\
  (forall A o, or_check both (run_op h A s o) (run_op (unguarded both h) A s o)).
Proof. exact (fun both h t s => conj (ov_decode both h t s) (conj (ov_access both h t s) (fun A => ov_op both h A s))). Qed.
Print Assumptions C132_reads.
(** ... every call of [next] of an iterator ... *)
Theorem C132_iterates : forall (both : bool) (h : host) (x : ty) (s : slice) (it : nfwa_iter),
  or_check both (nfwa_into_iter h x s) (nfwa_into_iter (unguarded both h) x s) /\
  or_check both (nfwa_next h x it) (nfwa_next (unguarded both h) x it) /\
  or_check both (nfwa_size_hint h it) (nfwa_size_hint (unguarded both h) it) /\
  or_check both (nfwa_len h s) (nfwa_len (unguarded both h) s).
Proof. exact (fun both h x s it => conj (ov_into_iter both h x s) (conj (ov_next both h x it) (conj (ov_hint both h it) (ov_len both h s)))). Qed.
Print Assumptions C132_iterates.
(** ... comparing and hashing ... *)
Theorem C132_compares : forall (both : bool) (h : host) (t : ty) (a b : slice),
  or_check both (gv_eq h t a b) (gv_eq (unguarded both h) t a b) /\
  (forall n, or_check both (eq_native h t a n) (eq_native (unguarded both h) t a n)) /\
  or_check both (maybe_cmp h t a b) (maybe_cmp (unguarded both h) t a b) /\
  or_check both (maybe_hash h t a) (maybe_hash (unguarded both h) t a).
Proof. exact (fun both h t a b => conj (ov_eq both h t a b) (conj (fun n => ov_native both h n t a) (conj (ov_cmp both h t a b) (ov_hash both h t a)))). Qed.
Print Assumptions C132_compares.
(** ... printing ... *)
Theorem C132_prints : forall (both : bool) (h : host) (F : fmts) (G : flags) (t : ty) (s : slice),
  or_check both (fmt_debug h F t s) (fmt_debug (unguarded both h) F t s) /\
  or_check both (fmt_flags h F G t s) (fmt_flags (unguarded both h) F G t s).
Proof. exact (fun both h F G t s => conj (ov_debug both h F t s) (ov_flags both h F G t s)). Qed.
Print Assumptions C132_prints.
(** ... buffers and owned objects ... *)
Theorem C132_owns : forall (both : bool) (h : host) (t : ty) (b : vec) (os : list buf_op) (d : slice) (o : owned) (a1 a2 a3 a4 : N),
  or_check both (run_buf h b os) (run_buf (unguarded both h) b os) /\
  or_check both (buf_deref h b) (buf_deref (unguarded both h) b) /\
  or_check both (from_bytes h t d a1 a2 a3 a4) (from_bytes (unguarded both h) t d a1 a2 a3 a4) /\
  or_check both (deserialize h t b a2 a3 a4) (deserialize (unguarded both h) t b a2 a3 a4) /\
  or_check both (owned_borrow h t o) (owned_borrow (unguarded both h) t o).
Proof.
  exact (fun both h t b os d o a1 a2 a3 a4 => conj (ov_run_buf both h os b) (conj (ov_deref both h b)
    (conj (ov_from_bytes both h t d a1 a2 a3 a4) (conj (ov_deserialize both h t b a2 a3 a4) (ov_borrow both h t o))))).
Qed.
Print Assumptions C132_owns.
(** ... and writing, to any writer. *)
Theorem C132_writes : forall (both : bool) (h : host) (K : Type) (W : Write K) (r : rval) (t : ty) (k : K),
  or_check_writing both (ser h r t k) (ser (unguarded both h) r t k).
Proof. exact (fun both h K W r => sov_ser both h r). Qed.
Print Assumptions C132_writes.
(** Also assigning through a mutable reference, slices of numbers, files ... *)
Theorem C132_assigns : forall (both : bool) (h : host) (junk : nat -> byte) (t : ty) (s : slice) (p : list nat) (r : rval),
  or_check both (assign h junk t s p r) (assign (unguarded both h) junk t s p r) /\
  or_check both (slice_try_into h t s) (slice_try_into (unguarded both h) t s).
Proof. exact (fun both h junk t s p r => conj (ov_assign both h junk t s p r) (ov_try_into both h t s)). Qed.
Print Assumptions C132_assigns.
Theorem C132_files : forall (both : bool) (h : host) (t : ty) (calls : list outcome) (a1 a2 a3 a4 : N),
  match deserialize_from h t calls a1 a2 a3 a4, deserialize_from (unguarded both h) t calls a1 a2 a3 a4 with
  | inl e, inl e' => e = e'
  | inr x, inr y => or_check both x y
  | _, _ => False
  end.
Proof. exact ov_file. Qed.
Print Assumptions C132_files.
(** ... and the fuzz target, whatever GLib does: an input that passes in a build
    with checks passes in one without. *)
Theorem C132_fuzzes : forall (both : bool) (h : host) (G : glib) (mem : ty -> N * N * N) (b1 b2 : N) (data : slice),
  or_check both (test_target h G mem b1 b2 data) (test_target (unguarded both h) G mem b1 b2 data).
Proof. exact ov_test_target. Qed.
Print Assumptions C132_fuzzes.
(** A structure read alike in both builds; and a misaligned reference, where the
    debug assertion fails and the build without it goes wrong. *)
Example C132_case : let h := Host false true true 0 0 in
  decode h (TTuple [TS; TI]) (Slice 8 [x68; x00; x00; x00; x07; x00; x00; x00; x02]) = Ok (VTuple [VStr [x68]; VInt 7]) /\
  decode (unguarded true h) (TTuple [TS; TI]) (Slice 8 [x68; x00; x00; x00; x07; x00; x00; x00; x02]) = Ok (VTuple [VStr [x68]; VInt 7]) /\
  decode h TI (Slice 9 [x01; x00; x00; x00]) = Crash PAssert /\
  decode (unguarded true h) TI (Slice 9 [x01; x00; x00; x00]) = Crash UBMisaligned /\
  run_access h (TA TS) (Slice 8 [x00; x01]) (AcIndex (2 ^ 63 + 2 ^ 62)) = Crash PIndex /\
  align_offset h 8 (2 ^ 64 - 4) = Crash POverflow /\ align_offset (unguarded false h) 8 (2 ^ 64 - 4) = Ok 0.
Proof. repeat split; vm_compute; reflexivity. Qed.
