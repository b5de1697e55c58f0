(** In-memory serialisation and the fuzz target: C66, C67, C68, C72. *)
From Verif Require Import Base Types Spec Deser Ser Buf Histories SerSpec OwnSpec BaseFacts DeserFacts Utf8Facts SerClaims Fuzz FuzzSpec FuzzFacts.

(** C66 is false: "serialization to Vec should be infallible" (lib.rs:441), but a
    string with a NUL byte makes it panic. *)
Theorem C66_infallible_refuted : exists (h : host) (t : ty) (r : rval),
  usable t /\ rtyped t r /\ serialize_to_vec h t r = Crash PUnwrap.
Proof. exact to_vec_refuted. Qed.
Print Assumptions C66_infallible_refuted.
(** C67: that is the only way it can fail, and otherwise it returns what
    [serialize] writes. *)
Theorem C67_to_vec : forall (h : host) (t : ty) (r : rval), usable t -> rtyped t r -> no_nuls t r ->
  len (sp_written (h_big_endian h) t (rvalue true (h_big_endian h) t r)) < 2 ^ 63 ->
  serialize_to_vec h t r = Ok (sp_written (h_big_endian h) t (rvalue true (h_big_endian h) t r)).
Proof. exact to_vec_claim. Qed.
Print Assumptions C67_to_vec.
Theorem C67_to_vec_panics : forall (h : host) (t : ty) (r : rval), usable t -> rtyped t r -> ~ no_nuls t r ->
  len (sp_written (h_big_endian h) t (rvalue true (h_big_endian h) t r)) < 2 ^ 63 ->
  serialize_to_vec h t r = Crash PUnwrap.
Proof. exact to_vec_nul_claim. Qed.
Print Assumptions C67_to_vec_panics.
Example C67_case : let h := Host false true true 0 0 in
  let t := TTuple [TQ; TS] in
  usable t /\ rtyped t (RTuple [RInt 7; RStr (bs "hi")]) /\ no_nuls t (RTuple [RInt 7; RStr (bs "hi")]) /\
  serialize_to_vec h t (RTuple [RInt 7; RStr (bs "hi")]) = Ok [x07; x00; x68; x69; x00] /\
  rtyped t (RTuple [RInt 7; RStr [x68; x00]]) /\ ~ no_nuls t (RTuple [RInt 7; RStr [x68; x00]]) /\
  serialize_to_vec h t (RTuple [RInt 7; RStr [x68; x00]]) = Crash PUnwrap.
Proof.
  intros h t. subst t. split; [split; reflexivity|]. split; [rt|].
  split; [intros s [<-|[]] [H|[H|[]]]; discriminate|]. split; [reflexivity|]. split; [rt|]. split; [|reflexivity].
  intros H. apply (H [x68; x00]); [now left|right; now left].
Qed.

(** C68 is false: unless the length of the input is a positive multiple of 4 the
    fuzz target panics in debug builds and has undefined behaviour in release
    builds, because an empty [ai] is re-read from a misaligned place. *)
Theorem C68_fuzz_target_refuted : forall (h : host) (normal : ty -> bool) (mem : ty -> N * N * N) (b1 b2 : N) (data : slice),
  mem_ok mem -> b1 + 8 < 2 ^ 64 -> b2 + 8 < 2 ^ 64 -> fuzz_run h normal (s_data data) ->
  s_data data = [] \/ len (s_data data) mod 4 <> 0 ->
  fuzz_target h normal mem b1 b2 data = Crash (if h_debug h then PAssert else UBMisaligned).
Proof. exact fuzz_crash_claim. Qed.
Print Assumptions C68_fuzz_target_refuted.
Example C68_case : exists (h : host) (normal : ty -> bool) (mem : ty -> N * N * N) (data : slice),
  mem_ok mem /\ fuzz_run h normal (s_data data) /\ len (s_data data) mod 4 <> 0.
Proof.
  exists (Host false true true 0 0), (fun _ => false), (fun _ => (40, 51, 67)), (Slice 5 [x01; x02; x03]).
  split; [intros t; split; reflexivity|]. split; [|discriminate]. split; [reflexivity|].
  intros t Hin. split; [|discriminate]. repeat (destruct Hin as [<-|Hin]; [vm_compute; reflexivity|]). destruct Hin.
Qed.

(** C72: the assertions of the fuzz target that do not compare with GLib hold, for
    every input whose length is a positive multiple of 4 ... *)
Theorem C72_fuzz_target_passes : forall (h : host) (normal : ty -> bool) (mem : ty -> N * N * N) (b1 b2 : N) (data : slice),
  mem_ok mem -> b1 + 8 < 2 ^ 64 -> b2 + 8 < 2 ^ 64 -> fuzz_run h normal (s_data data) ->
  s_data data <> [] -> len (s_data data) mod 4 = 0 ->
  fuzz_target h normal mem b1 b2 data = Ok tt.
Proof. exact fuzz_pass_claim. Qed.
Print Assumptions C72_fuzz_target_passes.
(** [test_cmp] for every type: the round trip and the normal form assertion. *)
Theorem C72_any_type : forall (h : host) (normal : bool) (va a1 a2 : N) (t : ty) (s : slice),
  usable t -> aligned (sp_align t) s -> len (s_data s) < 2 ^ 32 ->
  sp_tame t = true -> sp_unpadded t = true -> (t = TD \/ sp_no_double t = true) ->
  let d := sp_encode (h_big_endian h) t (sp_decode (h_big_endian h) t (Some (s_data s))) in
  len d < 2 ^ 63 -> a1 + 8 < 2 ^ 64 -> a2 + 8 < 2 ^ 64 ->
  d <> [] \/ sp_align t = 1 -> (normal = true -> d = s_data s \/ excused t (s_data s)) ->
  fuzz_cmp h normal va a1 a2 t s = Ok tt.
Proof. exact fuzz_pass. Qed.
Print Assumptions C72_any_type.
Example C72_case : let h := Host false true true 0 0 in
  let normal (t : ty) := match t with TI | TU | TA TI | TA TY => true | _ => false end in
  let mem (t : ty) := (40, 51, 67) in
  let data := Slice 5 [x01; x00; x02; x00] in
  let short := Slice 5 [x01; x00; x02] in
  mem_ok mem /\ fuzz_run h normal (s_data data) /\ fuzz_target h normal mem 11 21 data = Ok tt /\
  fuzz_run h (fun _ => false) (s_data short) /\ fuzz_target h (fun _ => false) mem 11 21 short = Crash PAssert.
Proof.
  intros h normal mem data short. split; [intros t; split; reflexivity|].
  assert (HR : forall n d, len d < 2 ^ 32 -> forallb (fun t => (len (sp_encode false t (sp_decode false t (Some d))) <? 2 ^ 63) &&
    (negb (n t) || bytes_eqb (sp_encode false t (sp_decode false t (Some d))) d)) (fuzz_struct_ty :: fuzz_types) = true -> fuzz_run h n d).
  { intros n d Hl Ha. split; [exact Hl|]. intros t Hin. rewrite forallb_forall in Ha. specialize (Ha t Hin).
    apply andb_true_iff in Ha as [H1 H2]. apply N.ltb_lt in H1. split; [exact H1|]. intros En. rewrite En in H2. left.
    now apply bytes_eqb_eq. }
  split; [apply HR; vm_compute; reflexivity|]. split; [vm_compute; reflexivity|].
  split; [apply HR; vm_compute; reflexivity|]. vm_compute; reflexivity.
Qed.
