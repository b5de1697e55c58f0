(** Containers of 4 GiB and more: C73 to C76, and what of C19 and C39 fails there.
    A framing offset is near when it is below [2^63], see LongSpec.v. *)
From Verif Require Import Base Types Spec Deser Histories LongSpec BaseFacts ReadClaims LongFacts.

(** C19 is false of the code beyond 4 GiB without overflow checks: the start of a
    child wraps around and a child out of range reads as something else. *)
Theorem C19_beyond_4GiB_refuted : exists (h : host) (x : ty) (s : slice) (vs : list value),
  usable (TA x) /\ sp_size x = None /\ aligned (sp_align (TA x)) s /\ len (s_data s) < 2 ^ 63 /\
  h_overflow_checks h = false /\ decode h (TA x) s = Ok (VArray vs) /\
  nth_error (sp_array_children (sp_align x) (s_data s)) 1 = Some None /\
  nth_error vs 1 <> Some (sp_default (h_big_endian h) x).
Proof. exact wrap_exists. Qed.
Print Assumptions C19_beyond_4GiB_refuted.
(** And so is C39 in such builds. *)
Theorem C39_wraps_around_refuted : exists (h : host) (t : ty) (s : slice) (v : value),
  usable t /\ sp_tame t = false /\ aligned (sp_align t) s /\ len (s_data s) < 2 ^ 63 /\
  h_overflow_checks h = false /\ decode h t s = Ok v /\ v <> sp_decode (h_big_endian h) t (Some (s_data s)).
Proof. exact value_refuted. Qed.
Print Assumptions C39_wraps_around_refuted.

(** C73: bytes of any length with near framing offsets read as the rules say, in
    every build ... *)
Theorem C73_near_offsets : forall (h : host) (t : ty) (s : slice),
  usable t -> aligned (sp_align t) s -> len (s_data s) < 2 ^ 63 -> sp_near t (Some (s_data s)) = true ->
  decode h t s = if sp_reads t (Some (s_data s)) then Ok (sp_decode (h_big_endian h) t (Some (s_data s)))
                 else Crash PUnwrap.
Proof. exact long_claim. Qed.
Print Assumptions C73_near_offsets.
(** ... which is all bytes below 4 GiB. *)
Theorem C73_below_4GiB : forall (t : ty) (d : list byte), len d < 2 ^ 32 -> sp_near t (Some d) = true.
Proof. exact small_claim. Qed.
Print Assumptions C73_below_4GiB.
(** One string of [n] NUL bytes, as [as]. *)
Example C73_case : forall n, 2 ^ 32 <= n -> n + 8 < 2 ^ 63 -> let d := one_bytes n in
  usable (TA TS) /\ aligned (sp_align (TA TS)) (Slice 3 d) /\ len d = n + 8 /\ sp_near (TA TS) (Some d) = true /\
  sp_array_children 1 d = [Some (nuls n)].
Proof.
  intros n H1 H2 d. split; [split; reflexivity|]. split; [reflexivity|]. split; [apply one_len|]. now apply one_near.
Qed.

(** C74: values of any length in normal form are read back, in every build. *)
Theorem C74_normal_forms : forall (h : host) (t : ty) (v : value) (a : N),
  usable t -> sp_typed t v -> a mod sp_align t = 0 -> len (sp_encode (h_big_endian h) t v) < 2 ^ 63 ->
  decode h t (Slice a (sp_encode (h_big_endian h) t v)) = Ok v.
Proof. exact encode_claim. Qed.
Print Assumptions C74_normal_forms.
Example C74_case : let v := VTuple [VArray [VArray []; VArray [VInt 1; VInt (-1)]]; VVariant (bs "y") [x07]] in
  let t := TTuple [TA (TA TI); TV] in
  usable t /\ sp_typed t v /\ len (sp_encode true t v) = 20.
Proof. intros v t. split; [split; reflexivity|]. split; [|reflexivity].
  repeat split; try discriminate; cbn; intuition discriminate.
Qed.

(** C75: with overflow checks whatever is read is right; the only other outcome is
    the overflow panic. *)
Theorem C75_checked_builds : forall (h : host) (t : ty) (s : slice),
  usable t -> aligned (sp_align t) s -> len (s_data s) < 2 ^ 63 -> h_overflow_checks h = true ->
  decode h t s = (if sp_reads t (Some (s_data s)) then Ok (sp_decode (h_big_endian h) t (Some (s_data s)))
                  else Crash PUnwrap) \/
  (decode h t s = Crash POverflow /\ sp_near t (Some (s_data s)) = false).
Proof. exact checked_claim. Qed.
Print Assumptions C75_checked_builds.
Example C75_case : forall n, 2 ^ 32 <= n -> n + 16 < 2 ^ 63 ->
  let h := Host false true true 0 0 in let s := Slice 0 (big_bytes n) in
  usable (TA TS) /\ aligned (sp_align (TA TS)) s /\ len (s_data s) = n + 16 /\ decode h (TA TS) s = Crash POverflow.
Proof.
  intros n H1 H2 h s. split; [split; reflexivity|]. split; [reflexivity|]. split; [apply big_len|]. now apply big_refuted.
Qed.

(** C76: children out of range read as the default value if the framing offsets of
    their container are near. *)
Theorem C76_array_elements : forall (h : host) (x : ty) (s : slice) (i : N),
  usable x -> sp_size x = None -> aligned (sp_align x) s -> len (s_data s) < 2 ^ 63 ->
  sp_array_near (s_data s) = true ->
  nth_error (sp_array_children (sp_align x) (s_data s)) (N.to_nat i) = Some None ->
  exists r, nfwa_index h x s i = Ok r /\ read h x r = Ok (sp_default (h_big_endian h) x).
Proof. exact array_default_long. Qed.
Print Assumptions C76_array_elements.
Theorem C76_structure_members : forall (h : host) (t : ty) (s : slice) (k : nat) (c : ty),
  usable t -> sp_is_struct t = true -> sp_size t = None ->
  aligned (sp_align t) s -> len (s_data s) < 2 ^ 63 ->
  sp_struct_near (map (fun c => (sp_align c, sp_size c)) (sp_components t)) (s_data s) = true ->
  nth_error (sp_components t) k = Some c ->
  nth_error (sp_struct_children (map (fun c => (sp_align c, sp_size c)) (sp_components t)) (s_data s)) k = Some None ->
  exists rs r, to_tuple h t s = Ok rs /\ nth_error rs k = Some r /\
    read h c r = Ok (sp_default (h_big_endian h) c).
Proof. exact struct_default_long. Qed.
Print Assumptions C76_structure_members.
Example C76_case :
  let t := TTuple [TS; TI] in
  let d := [x61; x00; x00; x00; x01; x02; x03; x04; x09] in
  sp_struct_near (map (fun c => (sp_align c, sp_size c)) (sp_components t)) d = true /\
  nth_error (sp_struct_children (map (fun c => (sp_align c, sp_size c)) (sp_components t)) d) 0 = Some None /\
  sp_array_near [x61; x00; x09; x02] = true /\
  nth_error (sp_array_children (sp_align TS) [x61; x00; x09; x02]) 0 = Some None.
Proof. intros t d. repeat split; reflexivity. Qed.
