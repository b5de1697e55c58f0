(** Builds without overflow checks: C119.  [w_decode] and [w_reads] are [sp_decode]
    and [sp_reads] with starts of children taken modulo [2^64] (WrapSpec.v). *)
From Verif Require Import Base Types Spec Deser Histories LongSpec ReadClaims WrapSpec WrapReadFacts WrapMore.

(** C119: without overflow checks any bytes read as the rules say with sums modulo
    [2^64], and panic exactly where those say so ... *)
Theorem C119_wraps_around : forall (h : host) (t : ty) (s : slice),
  usable t -> aligned (sp_align t) s -> len (s_data s) < 2 ^ 63 -> h_overflow_checks h = false ->
  decode h t s = if w_reads t (Some (s_data s)) then Ok (w_decode (h_big_endian h) t (Some (s_data s)))
                 else Crash PUnwrap.
Proof. exact wrap_claim. Qed.
Print Assumptions C119_wraps_around.
(** ... which makes a difference only if some framing offset is not near. *)
Theorem C119_near_offsets : forall (big : bool) (t : ty) (d : list byte),
  usable t -> len d < 2 ^ 63 -> sp_near t (Some d) = true ->
  w_reads t (Some d) = sp_reads t (Some d) /\
  (sp_reads t (Some d) = true -> w_decode big t (Some d) = sp_decode big t (Some d)).
Proof. exact wrap_near_claim. Qed.
Print Assumptions C119_near_offsets.
(** [n] zeros and the framing offsets [2^64 - 1] and [n], as [aan]: the second
    element is out of range, but starts at 0 modulo [2^64]. *)
Example C119_case : forall n, n mod 2 = 0 -> 2 ^ 32 <= n -> n + 16 < 2 ^ 63 ->
  let t := TA (TA TN) in let s := Slice 4 (big_bytes n) in
  usable t /\ aligned (sp_align t) s /\ len (s_data s) = n + 16 /\
  exists v vs, w_decode false t (Some (big_bytes n)) = VArray [VArray []; VArray (v :: vs)] /\
               sp_decode false t (Some (big_bytes n)) = VArray [VArray []; VArray []].
Proof.
  intros n H1 H2 H3 t s. split; [split; reflexivity|]. split; [reflexivity|]. split; [apply big_len|].
  exact (wrap_case (Host false false false 0 0) n 4 eq_refl eq_refl H1 H2 H3).
Qed.
Example C119_near_case : let t := TTuple [TS; TA TV; TN] in
  let d := [x61; x00; x00; x00; x00; x00; x00; x00; x05; x00; x79; x03; xfe; xff; x0c; x02] in
  usable t /\ sp_near t (Some d) = true /\ sp_reads t (Some d) = true /\
  w_decode false t (Some d) = VTuple [VStr (bs "a"); VArray [VVariant (bs "y") [x05]]; VInt (-2)].
Proof. intros t d. split; [split; reflexivity|]. repeat split; vm_compute; reflexivity. Qed.
