(** Arrays, maybes, variants and children out of range: C13, C14, C15, C16, C19, C51. *)
From Verif Require Import Base Types Spec Deser Histories ReadClaims IndexFacts.

(** C13 *)
Theorem C13_items_are_the_indexed_elements : forall (h : host) (x : ty) (s : slice),
  usable x -> sp_size x = None -> aligned (sp_align x) s -> len (s_data s) < 2 ^ 63 ->
  exists n, nfwa_len h s = Ok n /\
    nfwa_items h x s = mapM (nfwa_index h x s) (map N.of_nat (seq 0 (N.to_nat n))) /\
    nfwa_is_empty h s = Ok (n =? 0) /\
    nfwa_first h x s = (if n =? 0 then Ok None else let* r := nfwa_index h x s 0 in Ok (Some r)) /\
    nfwa_last h x s = (if n =? 0 then Ok None else let* r := nfwa_index h x s (n - 1) in Ok (Some r)).
Proof. exact items_claim. Qed.
Print Assumptions C13_items_are_the_indexed_elements.
Theorem C13_every_step : forall (h : host) (x : ty) (s : slice),
  usable x -> sp_size x = None -> aligned (sp_align x) s -> len (s_data s) < 2 ^ 63 ->
  exists it n, nfwa_into_iter h x s = Ok it /\ nfwa_len h s = Ok n /\
  forall k it', nfwa_skip h x it k = Ok it' ->
    nfwa_size_hint h it' = Ok (n - N.of_nat k) /\
    (N.of_nat k < n -> (let* p := nfwa_next h x it' in Ok (fst p)) =
                       (let* r := nfwa_index h x s (N.of_nat k) in Ok (Some r))) /\
    (n <= N.of_nat k -> nfwa_next h x it' = Ok (None, it')).
Proof. exact iter_claim. Qed.
Print Assumptions C13_every_step.
Theorem C13_length : forall (h : host) (x : ty) (s : slice),
  aligned (sp_align x) s -> len (s_data s) < 2 ^ 63 ->
  nfwa_len h s = Ok (len (sp_array_children (sp_align x) (s_data s))).
Proof. exact len_claim. Qed.
Print Assumptions C13_length.
Example C13_case :
  let h := Host false true true 0 0 in
  let s := Slice 3 (bs "a" ++ [x00] ++ bs "bc" ++ [x00; x02; x05]) in
  usable TS /\ sp_size TS = None /\ aligned (sp_align TS) s /\ len (s_data s) < 2 ^ 63 /\
  nfwa_items h TS s = Ok [Slice 3 (bs "a" ++ [x00]); Slice 5 (bs "bc" ++ [x00])].
Proof. intros h s. repeat split; reflexivity. Qed.

(** C14 is false of the code without overflow checks: the multiplication by the
    offset width wraps round ... *)
Theorem C14_index_out_of_range_refuted :
  let h := Host false false false 0 0 in
  aligned (sp_align TS) oob_witness /\ nfwa_len h oob_witness = Ok 2 /\
  nfwa_index h TS oob_witness (2 ^ 63 + 1) = nfwa_index h TS oob_witness 1 /\
  exists r, nfwa_index h TS oob_witness (2 ^ 63 + 1) = Ok r /\ len (s_data r) = 251.
Proof. exact index_wraps_refuted. Qed.
Print Assumptions C14_index_out_of_range_refuted.
(** ... C51: it panics always with overflow checks, and in every build for
    indices below 2^61. *)
Theorem C51_index_out_of_range_panics : forall (h : host) (x : ty) (s : slice) (i n : N),
  aligned (sp_align x) s -> len (s_data s) < 2 ^ 63 ->
  nfwa_len h s = Ok n -> n <= i -> i < 2 ^ 64 -> h_overflow_checks h = true \/ i < 2 ^ 61 ->
  nfwa_index h x s i = Crash PIndex \/ nfwa_index h x s i = Crash POverflow.
Proof. exact index_oob. Qed.
Print Assumptions C51_index_out_of_range_panics.
Example C51_panics_case :
  let h := Host false true true 0 0 in let s := Slice 3 (bs "a" ++ [x00] ++ bs "bc" ++ [x00; x02; x05]) in
  aligned (sp_align TS) s /\ nfwa_len h s = Ok 2 /\ h_overflow_checks h = true /\
  nfwa_index h TS s 2 = Crash PIndex /\ nfwa_index h TS s (2 ^ 64 - 1) = Crash PIndex.
Proof. intros h s. repeat split; vm_compute; reflexivity. Qed.
(** Without them it panics exactly unless the index is that of an element other
    than the first up to a multiple of 2^64 / width; then it is that element. *)
Theorem C51_index_without_checks : forall (h : host), h_overflow_checks h = false ->
  forall (x : ty) (s : slice) (i n : N),
  aligned (sp_align x) s -> len (s_data s) < 2 ^ 63 ->
  nfwa_len h s = Ok n -> n <= i -> i < 2 ^ 64 ->
  let j := i mod (2 ^ 64 / sp_width (len (s_data s))) in
  nfwa_index h x s i = if (0 <? j) && (j <? n) then nfwa_index h x s j else Crash PIndex.
Proof. exact index_exactly. Qed.
Print Assumptions C51_index_without_checks.
Theorem C51_fixed_index_out_of_range_panics : forall (h : host) (x : ty) (s : slice) (i n : N),
  sp_size x = Some n -> len (s_data s) / n <= i -> run_access h (TA x) s (AcIndex i) = Crash PIndex.
Proof. exact fixed_index_oob. Qed.
Print Assumptions C51_fixed_index_out_of_range_panics.
Example C51_fixed_case : sp_size TQ = Some 2 /\ len (s_data (Slice 2 [x01; x00; x02; x00])) / 2 <= 2 /\
  run_access (Host false false false 0 0) (TA TQ) (Slice 2 [x01; x00; x02; x00]) (AcIndex 2) = Crash PIndex /\
  run_access (Host false false false 0 0) (TA TQ) (Slice 2 [x01; x00; x02; x00]) (AcIndex 1) = Ok (Some (TQ, Slice 4 [x02; x00])).
Proof. repeat split; vm_compute; try reflexivity; discriminate. Qed.
Example C51_case :
  let h := Host false false false 0 0 in
  let s := Slice 3 (bs "a" ++ [x00] ++ bs "bc" ++ [x00; x02; x05]) in
  aligned (sp_align TS) s /\ len (s_data s) < 2 ^ 63 /\ nfwa_len h s = Ok 2 /\
  h_overflow_checks h = false /\ (2 ^ 63 + 1) mod (2 ^ 64 / sp_width (len (s_data oob_witness))) = 1 /\
  nfwa_len h oob_witness = Ok 2 /\ nfwa_index h TS oob_witness (2 ^ 63 + 2) = Crash PIndex.
Proof. intros h s. repeat split; vm_compute; reflexivity. Qed.

(** C15 *)
Theorem C15_fixed_size : forall (h : host) (x : ty) (s : slice) (n : N),
  usable x -> sp_size x = Some n -> aligned (sp_align x) s ->
  to_option h x s = Ok (if len (s_data s) =? n then Some s else None).
Proof. exact maybe_fixed_claim. Qed.
Print Assumptions C15_fixed_size.
Example C15_fixed_case :
  let h := Host false true true 0 0 in let x := TTuple [TI; TY] in
  usable x /\ sp_size x = Some 8 /\ aligned (sp_align x) (Slice 4 [x01; x00; x00; x00; x02; x00; x00; x00]) /\
  to_option h x (Slice 4 [x01; x00; x00; x00; x02; x00; x00; x00]) = Ok (Some (Slice 4 [x01; x00; x00; x00; x02; x00; x00; x00])) /\
  to_option h x (Slice 4 [x01; x00; x00; x00; x02]) = Ok None.
Proof. intros h x. repeat split; reflexivity. Qed.
Theorem C15_variable_size : forall (h : host) (x : ty) (s : slice),
  usable x -> sp_size x = None -> aligned (sp_align x) s ->
  (s_data s = [] -> to_option h x s = Ok None) /\
  (forall d b, s_data s = d ++ [b] ->
     (sp_ref_size x (len d) -> to_option h x s = Ok (Some (Slice (s_addr s) d))) /\
     (~ sp_ref_size x (len d) -> to_option h x s = Crash PUnwrap)).
Proof. exact maybe_var_claim. Qed.
Print Assumptions C15_variable_size.
Example C15_case :
  let h := Host false true true 0 0 in
  usable (TA TI) /\ sp_size (TA TI) = None /\ aligned (sp_align (TA TI)) (Slice 4 [x01; x02; x03; x04; x00]) /\
  sp_ref_size (TA TI) 4 /\ ~ sp_ref_size (TA TI) 1 /\
  to_option h (TA TI) (Slice 4 [x01; x02; x03; x04; x00]) = Ok (Some (Slice 4 [x01; x02; x03; x04])).
Proof. intros h. repeat split; try reflexivity. intros H. discriminate H. Qed.

(** C16 *)
Theorem C16_split : forall (h : host) (s : slice), aligned 8 s ->
  exists ts dat, variant_split h s = Ok (ts, dat) /\ aligned 8 dat /\ ~ In x00 (s_data ts) /\
    ((s_data s = s_data dat ++ [x00] ++ s_data ts /\ within s dat /\ within s ts) \/
     (~ In x00 (s_data s) /\ s_data ts = bs "()" /\ s_data dat = [] /\ in_static h dat)).
Proof. exact split_claim. Qed.
Print Assumptions C16_split.
Theorem C16_get : forall (h : host) (x : ty) (s : slice), usable x -> aligned 8 s ->
  exists ts dat o, variant_split h s = Ok (ts, dat) /\ variant_get h x s = Ok o /\
    (s_data ts <> sp_show x -> o = None) /\
    (s_data ts = sp_show x -> exists r, o = Some r /\ cast h x dat = Ok r).
Proof. exact get_claim. Qed.
Print Assumptions C16_get.
Example C16_case :
  let h := Host false true true 0 0 in
  let s := Slice 8 ([x07; x00; x00; x01; x00] ++ bs "u") in
  usable TU /\ aligned 8 s /\ variant_get h TU s = Ok (Some (Slice 8 [x07; x00; x00; x01])) /\
  variant_get h TI s = Ok None.
Proof. intros h s. repeat split; reflexivity. Qed.

(** C19: [cut] is [None] when the range leaves the container, reaches into the
    framing offsets or ends before it starts. *)
Theorem C19_out_of_range : forall (d : list byte) (start stop limit : N),
  cut d start stop limit = None <-> stop < start \/ limit < stop.
Proof. exact cut_none. Qed.
Print Assumptions C19_out_of_range.
Theorem C19_array_elements : forall (h : host) (x : ty) (s : slice) (i : N),
  usable x -> sp_size x = None -> aligned (sp_align x) s -> len (s_data s) < 2 ^ 32 ->
  nth_error (sp_array_children (sp_align x) (s_data s)) (N.to_nat i) = Some None ->
  exists r, nfwa_index h x s i = Ok r /\ read h x r = Ok (sp_default (h_big_endian h) x).
Proof. exact array_default_claim. Qed.
Print Assumptions C19_array_elements.
Theorem C19_structure_members : forall (h : host) (t : ty) (s : slice) (k : nat) (c : ty),
  usable t -> sp_is_struct t = true -> sp_size t = None ->
  aligned (sp_align t) s -> len (s_data s) < 2 ^ 32 ->
  nth_error (sp_components t) k = Some c ->
  nth_error (sp_struct_children (map (fun c => (sp_align c, sp_size c)) (sp_components t)) (s_data s)) k = Some None ->
  exists rs r, to_tuple h t s = Ok rs /\ nth_error rs k = Some r /\
    read h c r = Ok (sp_default (h_big_endian h) c).
Proof. exact struct_default_claim. Qed.
Print Assumptions C19_structure_members.
Example C19_case :
  let t := TTuple [TS; TI] in
  let d := [x61; x00; x00; x00; x01; x02; x03; x04; x09] in
  usable t /\ sp_is_struct t = true /\ sp_size t = None /\
  nth_error (sp_struct_children (map (fun c => (sp_align c, sp_size c)) (sp_components t)) d) 0 = Some None /\
  nth_error (sp_array_children (sp_align TS) [x61; x00; x09; x02]) (N.to_nat 0) = Some None.
Proof. intros t d. repeat split; reflexivity. Qed.
