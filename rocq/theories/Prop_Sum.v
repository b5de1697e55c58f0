(** Builds with overflow checks, exactly: C139.  [sp_sums] says that no sum made
    while reading reaches [2^64] (SumSpec.v). *)
From Verif Require Import Base Types Spec Deser Histories LongSpec SumSpec ReadClaims SumFacts SumClaims.

(** C139: with overflow checks a value is read exactly if all sums are below [2^64]
    and no size is wrong where that panics (C48), and it is the right value; a panic
    tells which of the two it was. *)
Theorem C139_checked_exactly : forall (h : host) (t : ty) (s : slice),
  usable t -> aligned (sp_align t) s -> len (s_data s) < 2 ^ 63 -> h_overflow_checks h = true ->
  match decode h t s with
  | Ok v => sp_reads t (Some (s_data s)) = true /\ sp_sums t (Some (s_data s)) = true /\
            v = sp_decode (h_big_endian h) t (Some (s_data s))
  | Crash POverflow => sp_sums t (Some (s_data s)) = false
  | Crash PUnwrap => sp_reads t (Some (s_data s)) = false
  | Crash _ => False
  end.
Proof. exact sums_claim. Qed.
Print Assumptions C139_checked_exactly.
(** So only if something is wrong in both ways does it depend on what is read first. *)
Theorem C139_which_panic : forall (h : host) (t : ty) (s : slice),
  usable t -> aligned (sp_align t) s -> len (s_data s) < 2 ^ 63 -> h_overflow_checks h = true ->
  (sp_sums t (Some (s_data s)) = true ->
   decode h t s = if sp_reads t (Some (s_data s)) then Ok (sp_decode (h_big_endian h) t (Some (s_data s)))
                  else Crash PUnwrap) /\
  (sp_sums t (Some (s_data s)) = false -> sp_reads t (Some (s_data s)) = true -> decode h t s = Crash POverflow) /\
  (sp_sums t (Some (s_data s)) = false -> sp_reads t (Some (s_data s)) = false ->
   decode h t s = Crash POverflow \/ decode h t s = Crash PUnwrap).
Proof. exact sums_exactly. Qed.
Print Assumptions C139_which_panic.
(** Near offsets never make a sum too large. *)
Theorem C139_near_offsets : forall (t : ty) (d : list byte),
  usable t -> len d < 2 ^ 63 -> sp_near t (Some d) = true -> sp_sums t (Some d) = true.
Proof. exact near_sums_claim. Qed.
Print Assumptions C139_near_offsets.
(** [n] zeros and the framing offsets [e] and [n], as [as]: far offsets are fine up
    to [2^64 - 2]. *)
Example C139_case : forall n e, 2 ^ 32 <= n -> n + 16 < 2 ^ 63 -> 2 ^ 63 <= e -> e < 2 ^ 64 ->
  let t := TA TS in let s := Slice 5 (far_bytes n e) in
  usable t /\ aligned (sp_align t) s /\ len (s_data s) = n + 16 /\
  sp_near t (Some (s_data s)) = false /\ sp_reads t (Some (s_data s)) = true /\
  sp_sums t (Some (s_data s)) = (e <? 2 ^ 64 - 1).
Proof.
  intros n e H1 H2 H3 H4 t s. split; [split; reflexivity|]. split; [reflexivity|]. split; [apply far_len|].
  now apply far_case.
Qed.
Example C139_near_case : let t := TTuple [TS; TTuple [TY; TX]; TA TV; TN] in
  let d := [x61; x00; x00; x00; x00; x00; x00; x00; x05; x00; x79; x03; xfe; xff; x0c; x02] in
  usable t /\ sp_near t (Some d) = true /\ sp_sums t (Some d) = true.
Proof. intros t d. split; [split; reflexivity|]. split; vm_compute; reflexivity. Qed.
