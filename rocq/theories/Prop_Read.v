(** Reading arbitrary bytes: C08, C09, C10, C11, C18, C38, C39, C48, C49. *)
From Verif Require Import Base Types Spec Deser Histories ReadClaims.

(** C08: every reference a program can obtain is aligned, has a proper size and
    lies in the buffer or in a static ... *)
Theorem C08_references_are_sound : forall (h : host) (t : ty) (s : slice) (t' : ty) (r : slice),
  usable t -> aligned (sp_align t) s -> len (s_data s) < 2 ^ 63 -> reach h t s t' r ->
  usable t' /\ aligned (sp_align t') r /\ sp_ref_size t' (len (s_data r)) /\ placed h t' s r.
Proof. exact reach_claim. Qed.
Print Assumptions C08_references_are_sound.
(** ... and no accessor does anything worse to it than an ordinary panic. *)
Theorem C08_accessors_have_no_undefined_behaviour :
  forall (h : host) (t : ty) (s : slice) (t' : ty) (r : slice) (a : access) (c : crash),
  usable t -> aligned (sp_align t) s -> len (s_data s) < 2 ^ 63 -> reach h t s t' r -> access_wf a ->
  run_access h t' r a = Crash c -> c = PIndex \/ c = PUnwrap \/ c = POverflow.
Proof. exact access_claim. Qed.
Print Assumptions C08_accessors_have_no_undefined_behaviour.
Theorem C08_reading_has_no_undefined_behaviour :
  forall (h : host) (t : ty) (s : slice) (t' : ty) (r : slice) (c : crash),
  usable t -> aligned (sp_align t) s -> len (s_data s) < 2 ^ 63 -> reach h t s t' r ->
  read h t' r = Crash c -> c = PUnwrap \/ c = POverflow.
Proof. exact read_claim. Qed.
Print Assumptions C08_reading_has_no_undefined_behaviour.
Example C08_case :
  let h := Host false true true 0 0 in
  let t := TA (TTuple [TS; TI]) in
  let s := Slice 16 (bs "ab" ++ [x00; x00; x01; x02; x03; x04; x03; x09]) in
  usable t /\ aligned (sp_align t) s /\ len (s_data s) < 2 ^ 63 /\
  exists r, reach h t s TI r /\ r = Slice 20 [x01; x02; x03; x04].
Proof.
  intros h t s. split; [split; reflexivity|]. split; [reflexivity|]. split; [reflexivity|].
  eexists. split; [|reflexivity].
  assert (H0 : reach h t s t s) by (apply reach_cast; reflexivity).
  assert (H1 : reach h t s (TTuple [TS; TI]) (Slice 16 (bs "ab" ++ [x00; x00; x01; x02; x03; x04; x03])))
    by (apply (reach_step h t s t s (AcIndex 0)); [exact H0|reflexivity|vm_compute; reflexivity]).
  eapply (reach_step h t s _ _ (AcItem 1)); [exact H1|exact I|vm_compute; reflexivity].
Qed.

(** C09 is false of the code: an array of 4-byte numbers inside an array or a
    maybe panics when its length is not a multiple of 4. *)
Theorem C09_never_panics_refuted : exists (h : host) (t : ty) (s : slice),
  usable t /\ aligned (sp_align t) s /\ len (s_data s) < 2 ^ 32 /\ decode h t s = Crash PUnwrap.
Proof. exact panics_array. Qed.
Print Assumptions C09_never_panics_refuted.
Theorem C09_never_panics_maybe_refuted : exists (h : host) (t : ty) (s : slice),
  usable t /\ aligned (sp_align t) s /\ len (s_data s) < 2 ^ 32 /\ decode h t s = Crash PUnwrap /\
  exists x, t = TM x.
Proof. exact panics_maybe. Qed.
Print Assumptions C09_never_panics_maybe_refuted.

(** C48: exactly when reading panics ... *)
Theorem C48_panics_exactly : forall (h : host) (t : ty) (s : slice),
  usable t -> aligned (sp_align t) s -> len (s_data s) < 2 ^ 32 ->
  decode h t s = if sp_reads t (Some (s_data s)) then Ok (sp_decode (h_big_endian h) t (Some (s_data s)))
                 else Crash PUnwrap.
Proof. exact decode_claim. Qed.
Print Assumptions C48_panics_exactly.
(** ... which no bytes make it do unless the type has an array of multi-byte
    fixed-size elements directly inside an array or maybe. *)
Theorem C48_other_types_never_panic : forall (h : host) (t : ty) (s : slice),
  usable t -> sp_tame t = true -> aligned (sp_align t) s -> len (s_data s) < 2 ^ 32 ->
  decode h t s = Ok (sp_decode (h_big_endian h) t (Some (s_data s))).
Proof. exact decode_tame_claim. Qed.
Print Assumptions C48_other_types_never_panic.
Example C48_case :
  let t := TTuple [TA (TDict TS TV); TM (TA TY); TA (TA TB)] in
  let s := Slice 0 [x05; x01; x02; x00; x07; x09; x01] in
  usable t /\ sp_tame t = true /\ aligned (sp_align t) s /\ len (s_data s) < 2 ^ 32.
Proof. intros t s. repeat split; reflexivity. Qed.

(** C10 *)
Theorem C10_decoding_follows_the_rules : forall (h : host) (t : ty) (s : slice) (v : value),
  usable t -> aligned (sp_align t) s -> len (s_data s) < 2 ^ 32 ->
  decode h t s = Ok v -> v = sp_decode (h_big_endian h) t (Some (s_data s)).
Proof. exact decode_value_claim. Qed.
Print Assumptions C10_decoding_follows_the_rules.
Example C10_case :
  let h := Host false true true 0 0 in
  let t := TTuple [TS; TA TS; TN] in
  let s := Slice 2 (bs "hi" ++ [x00] ++ bs "a" ++ [x00; x02; x09; x02; x05; x00; x08; x03]) in
  usable t /\ aligned (sp_align t) s /\ len (s_data s) < 2 ^ 32 /\
  decode h t s = Ok (VTuple [VStr (bs "hi"); VArray [VStr (bs "a"); VStr []; VStr []]; VInt 5]).
Proof. intros h t s. split; [split; reflexivity|]. split; [reflexivity|]. split; reflexivity. Qed.

(** C11 *)
Theorem C11_exact_size_only : forall (h : host) (t : ty) (s : slice) (n : N),
  usable t -> sp_size t = Some n -> aligned (sp_align t) s ->
  exists r, cast h t s = Ok r /\ aligned (sp_align t) r /\
    (len (s_data s) = n -> r = s) /\ (len (s_data s) <> n -> in_static h r /\ s_data r = nuls n).
Proof. exact fixed_cast_claim. Qed.
Print Assumptions C11_exact_size_only.
Theorem C11_value : forall (h : host) (t : ty) (s : slice) (n : N),
  usable t -> sp_size t = Some n -> aligned (sp_align t) s ->
  decode h t s = Ok (sp_decode (h_big_endian h) t (Some (s_data s))) /\
  (len (s_data s) <> n -> decode h t s = Ok (sp_default (h_big_endian h) t)).
Proof. exact fixed_decode_claim. Qed.
Print Assumptions C11_value.
Example C11_case :
  let h := Host true true true 0 0 in
  let s := Slice 4 [xff; xff; xff; xfe] in
  usable TI /\ sp_size TI = Some 4 /\ aligned (sp_align TI) s /\ decode h TI s = Ok (VInt (-2)) /\
  decode h TI (Slice 4 [xff; xff]) = Ok (VInt 0).
Proof. intros h s. repeat split; reflexivity. Qed.

(** C18 *)
Theorem C18_zero_copy : forall (h : host) (t : ty) (s : slice) (t' : ty) (r : slice),
  usable t -> aligned (sp_align t) s -> len (s_data s) < 2 ^ 63 -> reach h t s t' r ->
  (exists before after, s_data s = before ++ s_data r ++ after /\ s_addr r = s_addr s + len before) \/
  (in_static h r /\ s_data r = match sp_size t' with Some n => nuls n | None => [] end).
Proof. exact placed_claim. Qed.
Print Assumptions C18_zero_copy.
(** [C08_case] is a case of it. *)

(** C38 is false of the code: mutable casts to arrays of fixed-size elements are
    not implemented ... *)
Theorem C38_mutable_casts_refuted : forall (h : host) (x : ty) (s : slice) (n : N),
  sp_size x = Some n -> try_from_aligned_slice_mut h (TA x) s = Crash PTodo.
Proof. exact mut_todo. Qed.
Print Assumptions C38_mutable_casts_refuted.
Example C38_refuted_case : sp_size TI = Some 4. Proof. reflexivity. Qed.
(** ... C50: all others agree with the shared cast. *)
Theorem C50_other_mutable_casts : forall (h : host) (t : ty) (s : slice),
  usable t -> aligned (sp_align t) s -> (forall x, t = TA x -> sp_size x = None) ->
  exists o, try_from_aligned_slice_mut h t s = Ok o /\ try_from_aligned_slice h t s = Ok o /\
    (sp_ref_size t (len (s_data s)) -> o = Some s /\ cast h t s = Ok s) /\
    (~ sp_ref_size t (len (s_data s)) -> o = None /\ cast h t s = default_ref h t).
Proof. exact mut_claim. Qed.
Print Assumptions C50_other_mutable_casts.
Example C50_case :
  let s := Slice 4 [x01] in
  usable TI /\ aligned (sp_align TI) s /\ (forall x, TI = TA x -> sp_size x = None) /\
  ~ sp_ref_size TI (len (s_data s)).
Proof. intros s. repeat split; try reflexivity; [discriminate|]. intros H. discriminate H. Qed.

(** C39 is false of the code with overflow checks: a corrupt 8-byte offset
    panics ... *)
Theorem C39_beyond_4GiB_refuted : exists (h : host) (s : slice),
  usable (TA TS) /\ sp_tame (TA TS) = true /\ aligned (sp_align (TA TS)) s /\ len (s_data s) < 2 ^ 63 /\
  decode h (TA TS) s = Crash POverflow.
Proof. exact big_exists. Qed.
Print Assumptions C39_beyond_4GiB_refuted.
(** ... C49: but that is the only further panic, and there is none without
    overflow checks. *)
Theorem C49_panics_beyond_4GiB : forall (h : host) (t : ty) (s : slice) (c : crash),
  usable t -> aligned (sp_align t) s -> len (s_data s) < 2 ^ 63 -> decode h t s = Crash c ->
  (c = PUnwrap /\ sp_tame t = false) \/
  (c = POverflow /\ h_overflow_checks h = true /\ 2 ^ 32 <= len (s_data s)).
Proof. exact decode_any_length. Qed.
Print Assumptions C49_panics_beyond_4GiB.
Theorem C49_no_panic_without_overflow_checks : forall (h : host) (t : ty) (s : slice),
  usable t -> sp_tame t = true -> h_overflow_checks h = false ->
  aligned (sp_align t) s -> len (s_data s) < 2 ^ 63 -> exists v, decode h t s = Ok v.
Proof. exact decode_release_any_length. Qed.
Print Assumptions C49_no_panic_without_overflow_checks.
Example C49_case :
  let t := TA (TTuple [TS; TV]) in
  let s := Slice 8 (nuls 300) in
  usable t /\ sp_tame t = true /\ aligned (sp_align t) s /\ len (s_data s) < 2 ^ 63.
Proof. intros t s. repeat split; vm_compute; reflexivity. Qed.
