(** Framing-offset width and owned values: C12, C32, C33, C58, C59, C60. *)
From Verif Require Import Base Types Layout AlignedBytes Strs Spec Deser Ser Buf Histories SerSpec OwnSpec OwnClaims.

(** C12: the width is the smallest that can represent the size ... *)
Theorem C12_width_is_least : forall n : N, n < 2 ^ 64 ->
  (n = 0 -> osz_n (offset_size n) = 0) /\
  (0 < n -> In (osz_n (offset_size n)) [1; 2; 4; 8] /\ n < 256 ^ osz_n (offset_size n) /\
     forall w, In w [1; 2; 4; 8] -> n < 256 ^ w -> osz_n (offset_size n) <= w).
Proof. exact width_least. Qed.
Print Assumptions C12_width_is_least.
Example C12_width_case : 65535 < 2 ^ 64 /\ osz_n (offset_size 65535) = 2 /\ osz_n (offset_size 65536) = 4.
Proof. repeat split. Qed.
(** ... and the writer, which has to choose it before the size is known, writes
    every offset in the width the reader takes from the finished container. *)
Theorem C12_writer_and_reader_agree : forall (h : host) (body : N) (offsets : list N) (pre : list byte),
  offsets <> [] -> body + 8 * len offsets < 2 ^ 63 ->
  exists out, write_offsets h body offsets (Sink pre None) = (Sink (pre ++ out) None, SOk (body + len out)) /\
    out = concat (map (num_le (N.to_nat (osz_n (offset_size (body + len out))))) offsets) /\
    forall i o, nth_error offsets i = Some o -> o <= body ->
      read_uint h out (offset_size (body + len out)) (N.of_nat i) = Ok o.
Proof. exact width_agree. Qed.
Print Assumptions C12_writer_and_reader_agree.
Theorem C12_no_offsets : forall (h : host) (body : N) (pre : list byte), body < 2 ^ 63 ->
  write_offsets h body [] (Sink pre None) = (Sink pre None, SOk body).
Proof. exact width_none. Qed.
Print Assumptions C12_no_offsets.
(** One byte per offset would fit the 254 bytes, but not the finished container. *)
Example C12_agree_case : let h := Host false true true 0 0 in
  [100; 254] <> [] /\ 254 + 8 * len [100; 254] < 2 ^ 63 /\
  write_offsets h 254 [100; 254] (Sink [] None) = (Sink [x64; x00; xfe; x00] None, SOk 258) /\
  read_uint h [x64; x00; xfe; x00] (offset_size 258) 1 = Ok 254.
Proof. repeat split; discriminate. Qed.

(** C32 is false: deserialising an empty stream as [ai] panics in debug builds
    and forms a misaligned slice reference in release builds. *)
Theorem C32_empty_stream_refuted : forall h : host, exists (t : ty) (v : vec),
  usable t /\ v_data v = [] /\ deserialize h t v 8 8 8 = Crash (if h_debug h then PAssert else UBMisaligned).
Proof. exact empty_stream_refuted. Qed.
Print Assumptions C32_empty_stream_refuted.

(** C33 for non-empty data, C59: every allocator placement ([a1] to [a4], below
    the top of the address space), every type and every buffer. *)
Theorem C59_from_bytes : forall (h : host) (t : ty) (data q : slice) (a1 a2 a3 a4 : N), usable t ->
  a1 + 8 < 2 ^ 64 -> a2 + 8 < 2 ^ 64 -> a3 + 8 < 2 ^ 64 -> a4 + 8 < 2 ^ 64 ->
  s_data data <> [] -> aligned (sp_align t) q -> s_data q = s_data data ->
  own_read h t (from_bytes h t data a1 a2 a3 a4) = decode h t q.
Proof. exact from_bytes_claim. Qed.
Print Assumptions C59_from_bytes.
Theorem C59_deserialize : forall (h : host) (t : ty) (v : vec) (q : slice) (a2 a3 a4 : N), usable t ->
  v_addr v + 8 < 2 ^ 64 -> a2 + 8 < 2 ^ 64 -> a3 + 8 < 2 ^ 64 -> a4 + 8 < 2 ^ 64 ->
  v_data v <> [] -> aligned (sp_align t) q -> s_data q = v_data v ->
  own_read h t (deserialize h t v a2 a3 a4) = decode h t q.
Proof. exact deserialize_claim. Qed.
Print Assumptions C59_deserialize.
Theorem C59_to_owned : forall (h : host) (t : ty) (r : slice) (a1 a2 : N),
  view h t r -> a1 + 8 < 2 ^ 64 -> a2 + 8 < 2 ^ 64 ->
  s_data r <> [] \/ sp_fixed_array t = true \/ sp_trap t = false ->
  own_read h t (to_owned h t r a1 a2) = read h t r.
Proof. exact to_owned_claim. Qed.
Print Assumptions C59_to_owned.
Definition c59_type : ty := TTuple [TS; TA TQ].
Definition c59_bytes : list byte := [x68; x69; x00; x00; x01; x00; x02; x00; x03].
Example C59_case : let h := Host false true true 0 3 in
  usable c59_type /\ 13 + 8 < 2 ^ 64 /\ aligned (sp_align c59_type) (Slice 32 c59_bytes) /\
  own_read h c59_type (from_bytes h c59_type (Slice 7 c59_bytes) 13 21 5 9) =
    Ok (VTuple [VStr [x68; x69]; VArray [VInt 1; VInt 2]]) /\
  own_read h c59_type (deserialize h c59_type (Vec 7 c59_bytes) 13 21 5) =
    Ok (VTuple [VStr [x68; x69]; VArray [VInt 1; VInt 2]]) /\
  view h c59_type (Slice 32 c59_bytes).
Proof.
  repeat split. exists c59_type, (Slice 32 c59_bytes). repeat split. apply reach_cast. reflexivity.
Qed.

(** C33 is false for empty data, whatever the allocator does: taking ownership
    of the empty structure of two arrays of 32-bit numbers, which reads
    perfectly well, gives an object that does not. *)
Theorem C33_to_owned_refuted : forall (h : host), exists (t : ty) (r : slice), view h t r /\
  read h t r = Ok (VTuple [VArray []; VArray []]) /\
  own_read h t (to_owned h t r 8 8) = Crash (if h_debug h then PAssert else UBMisaligned).
Proof. exact to_owned_refuted. Qed.
Print Assumptions C33_to_owned_refuted.

(** C58: what happens with empty data.  [sp_trap]: arrays of fixed-size elements
    of alignment above 1, and structures that have one at offset 0. *)
Theorem C58_empty_stream : forall (h : host) (t : ty) (va a2 a3 a4 : N), usable t ->
  a3 + 8 < 2 ^ 64 -> a4 + 8 < 2 ^ 64 ->
  own_read h t (deserialize h t (Vec va []) a2 a3 a4) =
  if sp_trap t && negb (sp_fixed_array t && (va mod sp_align t =? 0))
  then Crash (if h_debug h then PAssert else UBMisaligned) else Ok (sp_default (h_big_endian h) t).
Proof. exact deserialize_empty_claim. Qed.
Print Assumptions C58_empty_stream.
Theorem C58_empty_bytes : forall (h : host) (t : ty) (data : slice) (a1 a2 a3 a4 : N), usable t ->
  a3 + 8 < 2 ^ 64 -> a4 + 8 < 2 ^ 64 -> s_data data = [] ->
  own_read h t (from_bytes h t data a1 a2 a3 a4) =
  if sp_trap t && negb (sp_fixed_array t && (s_addr data mod sp_align t =? 0))
  then Crash (if h_debug h then PAssert else UBMisaligned) else Ok (sp_default (h_big_endian h) t).
Proof. exact from_bytes_empty_claim. Qed.
Print Assumptions C58_empty_bytes.
Theorem C58_to_owned_of_empty : forall (h : host) (t : ty) (r : slice) (a1 a2 : N),
  view h t r -> a1 + 8 < 2 ^ 64 -> a2 + 8 < 2 ^ 64 ->
  s_data r = [] -> sp_fixed_array t = false -> sp_trap t = true ->
  own_read h t (to_owned h t r a1 a2) = Crash (if h_debug h then PAssert else UBMisaligned) /\
  read h t r = Ok (sp_default (h_big_endian h) t).
Proof. exact to_owned_trap_claim. Qed.
Print Assumptions C58_to_owned_of_empty.
Example C58_case : let h := Host false true false 0 3 in
  usable (TTuple [TS; TA TI]) /\ sp_trap (TTuple [TS; TA TI]) = true /\
  usable (TTuple [TI; TA TI]) /\ sp_trap (TTuple [TI; TA TI]) = false /\ sp_trap (TA TI) = true /\
  own_read h (TTuple [TS; TA TI]) (deserialize h (TTuple [TS; TA TI]) vec_new 8 8 8) = Crash UBMisaligned /\
  own_read h (TTuple [TI; TA TI]) (deserialize h (TTuple [TI; TA TI]) vec_new 8 8 8) = Ok (VTuple [VInt 0; VArray []]) /\
  view h (TTuple [TS; TA TI]) (Slice 4 []).
Proof.
  repeat split. exists (TTuple [TS; TA TI]), (Slice 4 []). repeat split. apply reach_cast. reflexivity.
Qed.

(** C60: reading does not depend on where the bytes are. *)
Theorem C60_position_independent : forall (h : host) (t : ty) (s q : slice), macro_ok t = true ->
  s_data s = s_data q -> aligned (sp_align t) s -> aligned (sp_align t) q ->
  decode h t s = decode h t q.
Proof. exact position_claim. Qed.
Print Assumptions C60_position_independent.
Theorem C60_only_the_address_modulo_alignment : forall (h : host) (t : ty) (s q : slice), macro_ok t = true ->
  s_data s = s_data q -> s_addr s mod sp_align t = s_addr q mod sp_align t ->
  decode h t s = decode h t q.
Proof. exact position_modulo_claim. Qed.
Print Assumptions C60_only_the_address_modulo_alignment.
Example C60_case : let h := Host false true true 0 3 in
  macro_ok c59_type = true /\ aligned (sp_align c59_type) (Slice 2 c59_bytes) /\
  decode h c59_type (Slice 2 c59_bytes) = Ok (VTuple [VStr [x68; x69]; VArray [VInt 1; VInt 2]]) /\
  decode h c59_type (Slice 3 c59_bytes) = Crash PAssert.
Proof. repeat split. Qed.
