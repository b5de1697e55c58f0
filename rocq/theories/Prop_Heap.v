(** What serialising keeps on the heap (C159).  [ser_m] is the serialiser with the number
    of offsets in vectors at the moment ([r_now]) and the greatest it has been ([r_most])
    beside the writer, which may be any; [sp_kept r t] is said in [HeapSpec]. *)
From Verif Require Import Base Types Spec Ser SerSpec WriterSpec Heap HeapSpec HeapFacts.

(** The numbers change nothing; however it ends nothing is kept afterwards; never are more
    offsets kept than [sp_kept] says, and if it succeeds that many were. *)
Theorem C159_kept : forall (K : Type) (W : Write K) (h : host) (r : rval) (t : ty) (k : K),
  let '((k', g), res) := ser_m h r t (k, Room 0 0) in
  ser h r t k = (k', res) /\ r_now g = 0 /\ r_most g <= sp_kept r t /\
  (forall n, res = SOk n -> r_most g = sp_kept r t).
Proof. exact @kept_claim. Qed.
Print Assumptions C159_kept.

(** That is no more than the value has parts, *)
Theorem C159_parts : forall (r : rval) (t : ty), sp_kept r t <= sp_parts r.
Proof. exact kept_parts. Qed.
Print Assumptions C159_parts.

(** and no more than the bytes written, *)
Theorem C159_written : forall (h : host) (r : rval) (t : ty) (budget : option N) (n : N),
  snd (serialize h t r budget) = SOk n -> sp_kept r t <= len (sp_output (serialize h t r budget)).
Proof. exact kept_written. Qed.
Print Assumptions C159_written.

(** and nothing at all for a value of a type of fixed size. *)
Theorem C159_fixed : forall (r : rval) (t : ty), sp_size t <> None -> sp_kept r t = 0.
Proof. exact kept_fixed. Qed.
Print Assumptions C159_fixed.

(** Two lists of strings and an empty one: the greatest is at the end, when three offsets
    are kept.  With four strings in the first list four are kept there.  A sink that takes
    three bytes stops it when one is. *)
Example C159_example :
  let h := Host false true true 0 0 in
  let s x := RStr [x] in
  let r := RList [RList [s "a"; s "b"]; RList [s "c"]; RList []]%byte in
  let r4 := RList [RList [s "a"; s "b"; s "c"; s "d"]; RList []]%byte in
  let t := TA (TA TS) in
  sp_kept r t = 3 /\ sp_kept r4 t = 4 /\ sp_parts r = 7 /\
  (let '((k, g), res) := ser_m h r t (Sink [] None, Room 0 0) in g = Room 0 3 /\ res = SOk 12 /\ len (k_out k) = 12) /\
  (let '((k, g), res) := ser_m h r t (Sink [] (Some 3), Room 0 0) in g = Room 0 1 /\ res = SErr EIo) /\
  snd (serialize h t r None) = SOk 12 /\ sp_size (TTuple [TY; TU]) <> None.
Proof. vm_compute. repeat split; discriminate. Qed.
