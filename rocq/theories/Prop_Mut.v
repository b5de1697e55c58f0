(** Writing through mutable references: C78 to C81, C116; and C77, which types can
    panic. *)
From Verif Require Import Base Types AlignedBytes Spec Deser Buf Ser SerSpec Histories Mut MutSpec
  MutFacts WildFacts.

(** C77 *)
Theorem C77_types_that_can_panic : forall (h : host) (t : ty) (a : N),
  usable t -> a mod sp_align t = 0 ->
  (sp_tame t = false <->
   exists d, len d <= 24 * len (sp_show t) /\ decode h t (Slice a d) = Crash PUnwrap).
Proof. exact wild_claim. Qed.
Print Assumptions C77_types_that_can_panic.
Example C77_case : let t := TTuple [TY; TM (TA TI)] in
  usable t /\ 20 mod sp_align t = 0 /\ sp_tame t = false /\
  decode (Host false true true 0 0) t (Slice 20 [x00; x00; x00; x00; x01; x00]) = Crash PUnwrap.
Proof. repeat split; reflexivity. Qed.

(** C78 *)
Theorem C78_constructed_values : forall (h : host) (t : ty) (n : N) (r : rval),
  usable t -> sp_size t = Some n -> rtyped t r -> fieldable r = true ->
  let big := h_big_endian h in
  exists d, (forall junk, image h junk t r = Ok d) /\ len d = n /\
    sp_decode big t (Some d) = rvalue false big t r /\
    (tidy r = true -> d = sp_encode big t (rvalue false big t r)).
Proof. exact new_claim. Qed.
Print Assumptions C78_constructed_values.
Example C78_case : let t := TTuple [TY; TTuple [TU; TB]; TQ] in
  let r := RTuple [RInt 7; RTuple [RInt 1; RBoolView x01]; RInt 258] in
  usable t /\ sp_size t = Some 16 /\ rtyped t r /\ fieldable r = true /\ tidy r = true /\
  image (Host false true true 0 0) (fun _ => xff) t r =
    Ok [x07; x00; x00; x00; x01; x00; x00; x00; x01; x00; x00; x00; x02; x01; x00; x00].
Proof. repeat split; try reflexivity; cbn; repeat constructor; try reflexivity; discriminate. Qed.

(** C79 *)
Theorem C79_member_assignment : forall (h : host) (junk : nat -> byte) (t : ty) (n : N) (s : slice)
    (p : list nat) (r : rval) (o : N) (c : ty),
  usable t -> sp_size t = Some n -> aligned (sp_align t) s ->
  sp_member t p = Some (o, c) -> rtyped c r -> fieldable r = true ->
  (len (s_data s) <> n -> assign h junk t s p r = Ok None) /\
  (len (s_data s) = n -> exists new m v,
     assign h junk t s p r = Ok (Some (s_addr s + o, new)) /\
     sp_size c = Some m /\ len new = m /\ o + m <= n /\
     decode h t s = Ok v /\
     decode h t (Slice (s_addr s) (sp_overwrite (s_data s) o new)) =
       Ok (sp_replace v p (rvalue false (h_big_endian h) c r))).
Proof. exact assign_claim. Qed.
Print Assumptions C79_member_assignment.
Example C79_case : let t := TTuple [TY; TTuple [TU; TB]; TQ] in
  let s := Slice 64 (zeros 16) in
  usable t /\ sp_size t = Some 16 /\ aligned (sp_align t) s /\ sp_member t [1; 0]%nat = Some (4, TU) /\
  rtyped TU (RInt 513) /\ fieldable (RInt 513) = true /\
  assign (Host false true true 0 0) (fun _ => xff) t s [1; 0]%nat (RInt 513) = Ok (Some (68, [x01; x02; x00; x00])) /\
  decode (Host false true true 0 0) t (Slice 64 (sp_overwrite (zeros 16) 4 [x01; x02; x00; x00])) =
    Ok (VTuple [VInt 0; VTuple [VInt 513; VBool false]; VInt 0]).
Proof. repeat split; try reflexivity; cbn; repeat constructor; try reflexivity; discriminate. Qed.

(** C80 *)
Theorem C80_writing_into_a_buffer : forall (h : host) (v : vec) (a : N) (ms : list mut_op),
  v_addr v + 8 < 2 ^ 64 -> a + 8 < 2 ^ 64 -> len (v_data v) < 2 ^ 64 -> Forall mut_op_wf ms ->
  let final := let* b := buf_from_vec h v a in run_muts h b ms in
  match plain_muts (h_big_endian h) (v_data v) ms with
  | Some d => exists b, final = Ok b /\
      (exists s, buf_deref h b = Ok s /\ s_data s = d /\ (d <> [] -> s_addr s mod 8 = 0)) /\
      (exists w, buf_into_vec h b = Ok w /\ v_data w = d)
  | None => final = Crash PIndex
  end.
Proof. exact mut_history. Qed.
Print Assumptions C80_writing_into_a_buffer.
Example C80_case :
  let t := TTuple [TY; TQ] in
  let ms := [MOp (BWith (fun d => [x09; x09] ++ firstn 6 d) 103 205);
             MByte [OpFrom 1; OpTo 4] 2 x07;
             MField [OpAs 2; OpRangeAl 4 8] (fun _ => xff) t [1]%nat (RInt 258);
             MField [OpAs 2; OpTo 3] (fun _ => xff) t [1]%nat (RInt 258)] in
  Forall mut_op_wf ms /\
  plain_muts false (zeros 6) ms = Some [x09; x09; x00; x07; x00; x00; x02; x01] /\
  (let* b := buf_from_vec (Host false true true 0 0) (Vec 11 (zeros 6)) 13 in
   let* b := run_muts (Host false true true 0 0) b ms in buf_into_vec (Host false true true 0 0) b) =
  Ok (Vec 205 [x09; x09; x00; x07; x00; x00; x02; x01]).
Proof.
  split; [|split; reflexivity].
  assert (Hw : forall ops, ops_wf 8 ops -> ops_align 8 ops = 2 ->
    mut_op_wf (MField ops (fun _ => xff) (TTuple [TY; TQ]) [1]%nat (RInt 258))).
  { intros ops H1 H2. split; [exact H1|]. split; [exact H2|]. split; [split; reflexivity|]. split; [reflexivity|].
    exists 2, TQ. split; [reflexivity|]. split; [|reflexivity]. cbn. split; [discriminate|reflexivity]. }
  constructor; [|constructor; [|constructor; [|constructor; [|constructor]]]].
  - cbn [mut_op_wf]. split; [split; reflexivity|]. intros d Hd. unfold len in *. rewrite app_length, firstn_length.
    apply (N.le_lt_trans _ 8); [|reflexivity]. cbn [length]. rewrite Nat2N.inj_add, Nat2N.inj_min. apply (N.add_le_mono_l _ 6 2). apply N.le_min_l.
  - repeat split; reflexivity.
  - apply Hw; [|reflexivity]. cbn. repeat split; try reflexivity; try discriminate. right; left; reflexivity.
  - apply Hw; [|reflexivity]. cbn. repeat split; try reflexivity; try discriminate. right; left; reflexivity.
Qed.

(** C81 *)
Theorem C81_slices_of_numbers : forall (h : host) (t : ty) (n : N) (s : slice),
  In t [TY; TN; TQ; TI; TU; TX; TT; TD] -> sp_size t = Some n -> aligned (sp_align t) s ->
  (len (s_data s) mod n = 0 -> slice_try_into h t s = Ok (Some s)) /\
  (len (s_data s) mod n <> 0 -> slice_try_into h t s = Ok None).
Proof. exact try_into_claim. Qed.
Print Assumptions C81_slices_of_numbers.
Example C81_case : let s := Slice 24 (zeros 12) in
  In TI [TY; TN; TQ; TI; TU; TX; TT; TD] /\ sp_size TI = Some 4 /\ aligned (sp_align TI) s /\ len (s_data s) mod 4 = 0 /\
  sp_size TX = Some 8 /\ aligned (sp_align TX) s /\ len (s_data s) mod 8 <> 0.
Proof. repeat split; try reflexivity; [cbn; tauto|discriminate]. Qed.

(** C116: [cast_slice] is safe for every declared alignment 2^a and every element of any
    size and alignment 2^j: it panics exactly if the declared alignment is too small; the
    debug assertion never fails. *)
Theorem C116_cast_slice : forall (h : host) (a j size : N) (s : slice),
  0 < size -> aligned (2 ^ a) s ->
  (a < j -> cast_slice h (2 ^ a) (size, 2 ^ j) s = Crash PAssert) /\
  (j <= a -> len (s_data s) mod size = 0 -> cast_slice h (2 ^ a) (size, 2 ^ j) s = Ok (Some s)) /\
  (j <= a -> len (s_data s) mod size <> 0 -> cast_slice h (2 ^ a) (size, 2 ^ j) s = Ok None).
Proof. exact cast_slice_claim. Qed.
Print Assumptions C116_cast_slice.
(** [try_cast_slice_to] relies on [AlignOf]: correct or conservative is enough, too small
    is not. *)
Theorem C116_cast_value : forall (h : host) (a j size : N),
  (j <= a -> forall s, aligned (2 ^ a) s ->
    (len (s_data s) = size -> try_cast_slice_to h (size, 2 ^ j) s = Ok (Some s)) /\
    (len (s_data s) <> size -> try_cast_slice_to h (size, 2 ^ j) s = Ok None)) /\
  (a < j -> exists s, aligned (2 ^ a) s /\ len (s_data s) = size /\
    try_cast_slice_to h (size, 2 ^ j) s = Crash (if h_debug h then PAssert else UBMisaligned)).
Proof. exact cast_value_claim. Qed.
Print Assumptions C116_cast_value.
Example C116_case : aligned (2 ^ 3) (Slice 24 (zeros 12)) /\ len (zeros 12) mod 6 = 0 /\ len (zeros 12) mod 8 <> 0 /\ 3 < 4 /\ 1 <= 3.
Proof. repeat split; discriminate. Qed.
