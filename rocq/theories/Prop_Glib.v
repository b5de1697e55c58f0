(** The fuzz target with its comparisons with GLib: C134, C135, C136. *)
From Verif Require Import Base Types Spec PaperSpec Deser Ser Buf Histories SerSpec OwnSpec Fuzz FuzzSpec FuzzGlib GlibSpec GlibFacts GlibClaims.

(** C134: [test_cmp] and the whole fuzz target pass exactly if GLib, whatever it
    does, tells of the input what [sp_decode] says, as far as it is asked, and calls
    normal what it must. *)
Theorem C134_one_type : forall (h : host) (G : glib) (va a1 a2 : N) (t : ty) (s : slice),
  usable t -> aligned (sp_align t) s -> len (s_data s) < 2 ^ 32 ->
  sp_tame t = true -> sp_unpadded t = true -> (t = TD \/ sp_no_double t = true) ->
  let d := sp_encode (h_big_endian h) t (sp_decode (h_big_endian h) t (Some (s_data s))) in
  len d < 2 ^ 63 -> a1 + 8 < 2 ^ 64 -> a2 + 8 < 2 ^ 64 -> d <> [] \/ sp_align t = 1 ->
  (test_cmp h G va a1 a2 t s = Ok tt <-> sp_tested G (h_big_endian h) t (s_data s)).
Proof. exact one_claim. Qed.
Print Assumptions C134_one_type.
Theorem C134_target : forall (h : host) (G : glib) (mem : ty -> N * N * N) (b1 b2 : N) (data : slice),
  mem_ok mem -> b1 + 8 < 2 ^ 64 -> b2 + 8 < 2 ^ 64 -> sp_fits (h_big_endian h) (s_data data) ->
  (test_target h G mem b1 b2 data = Ok tt <->
   s_data data <> [] /\ len (s_data data) mod 4 = 0 /\
   (forall t, In t fuzz_types -> sp_tested G (h_big_endian h) t (s_data data)) /\
   sp_tested_struct G (h_big_endian h) (s_data data)).
Proof. exact target_claim. Qed.
Print Assumptions C134_target.
(** So with a GLib that reads strings as the GVariant Specification has it the
    target fails on every string on which the crate differs from it. *)
Theorem C134_specification : forall (h : host) (G : glib) (mem : ty -> N * N * N) (b1 b2 : N) (data : slice),
  mem_ok mem -> b1 + 8 < 2 ^ 64 -> b2 + 8 < 2 ^ 64 -> sp_fits (h_big_endian h) (s_data data) ->
  (forall d, g_type G (g_new G (bs "s") d) = bs "s" /\ fst (g_string G (g_new G (bs "s") d)) = pa_string d) ->
  pa_string (s_data data) <> sp_string (s_data data) ->
  test_target h G mem b1 b2 data <> Ok tt.
Proof. exact spec_claim. Qed.
Print Assumptions C134_specification.
Example C134_case : let h := Host false true true 0 0 in
  let nm := Names (fun _ => true) (fun _ => true) (fun _ => true) in
  let mem (t : ty) := (40, 51, 67) in
  let data := Slice 5 [x61; x00; x62; x00] in
  usable (TA TS) /\ aligned (sp_align (TA TS)) data /\
  mem_ok mem /\ sp_fits false (s_data data) /\
  test_target h (sample nm false sp_string false) mem 11 21 data = Ok tt /\
  (let G := sample nm false pa_string false in
   forall d, g_type G (g_new G (bs "s") d) = bs "s" /\ fst (g_string G (g_new G (bs "s") d)) = pa_string d) /\
  pa_string (s_data data) = bs "a" /\ sp_string (s_data data) = [] /\
  test_target h (sample nm false pa_string false) mem 11 21 data = Crash PAssert.
Proof.
  intros h nm mem data. split; [split; reflexivity|]. split; [reflexivity|]. split; [intros t; split; reflexivity|].
  split; [apply fits_by_computation; vm_compute; reflexivity|]. split; [vm_compute; reflexivity|].
  split; [split; reflexivity|]. split; [reflexivity|]. split; [reflexivity|]. vm_compute; reflexivity.
Qed.

(** C135: with any GLib whose answers are those of [sp_decode] and which calls
    normal what is in normal form -- and, of what is not, only arrays of byte
    strings of 256 to 511 bytes -- the fuzz target passes. *)
Theorem C135_documented : forall (h : host) (G : glib) (nm : names) (R : g_ref G -> ty -> option (list byte) -> Prop)
    (mem : ty -> N * N * N) (b1 b2 : N) (data : slice),
  documented G nm (h_big_endian h) R ->
  mem_ok mem -> b1 + 8 < 2 ^ 64 -> b2 + 8 < 2 ^ 64 -> sp_fits (h_big_endian h) (s_data data) ->
  s_data data <> [] -> len (s_data data) mod 4 = 0 ->
  test_target h G mem b1 b2 data = Ok tt.
Proof. exact doc_claim. Qed.
Print Assumptions C135_documented.
(** There is such a GLib, for every notion of well-formed names. *)
Example C135_case : forall (nm : names) (big : bool),
  documented (sample nm big sp_string false) nm big (fun g t d => g = (t, d)).
Proof. exact sample_documented. Qed.

(** C136 is false: if GLib hands out NULL for an array without elements, as
    [g_variant_get_fixed_array] may, the target makes a slice from it, which is
    undefined behaviour. *)
Theorem C136_null_refuted : exists (h : host) (nm : names) (mem : ty -> N * N * N) (b1 b2 : N) (data : slice),
  let G := sample nm (h_big_endian h) sp_string true in
  mem_ok mem /\ b1 + 8 < 2 ^ 64 /\ b2 + 8 < 2 ^ 64 /\ sp_fits (h_big_endian h) (s_data data) /\
  s_data data <> [] /\ len (s_data data) mod 4 = 0 /\
  test_target h G mem b1 b2 data = Crash UBMisaligned.
Proof. exact null_claim. Qed.
Print Assumptions C136_null_refuted.
