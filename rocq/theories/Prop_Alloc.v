(** C161: what reading into an owned value asks of the allocator.  [Alloc] has
    [Marker::from_bytes] and [Marker::deserialize] with the sizes of their requests, in
    order; [a1] to [a4] are where the allocator puts the blocks. *)
From Verif Require Import Base Types Layout AlignedBytes Strs Spec Deser Buf Alloc Histories OwnSpec AllocSpec AllocFacts.

(** The functions with the sizes are the functions of [Buf]. *)
Theorem C161_from_bytes_same : forall (h : host) (t : ty) (data : slice) (a1 a2 a3 a4 : N),
  snd (from_bytes_a h t data a1 a2 a3 a4) = from_bytes h t data a1 a2 a3 a4.
Proof. exact from_bytes_same. Qed.
Print Assumptions C161_from_bytes_same.
Theorem C161_deserialize_same : forall (h : host) (t : ty) (v : cvec) (a2 a3 a4 : N),
  snd (deserialize_a h t v a2 a3 a4) = deserialize h t (c_vec v) a2 a3 a4.
Proof. exact deserialize_same. Qed.
Print Assumptions C161_deserialize_same.

(** Exactly what is requested, for all bytes: a copy if the data is not aligned, and
    the owned value.  It depends on the contents of the bytes for strings only. *)
Theorem C161_from_bytes : forall (h : host) (t : ty) (data : slice) (a1 a2 a3 a4 : N),
  usable t -> a1 + 8 < 2 ^ 64 -> a2 + 8 < 2 ^ 64 ->
  fst (from_bytes_a h t data a1 a2 a3 a4) =
  (if s_addr data mod sp_align t =? 0 then [] else sp_copy (len (s_data data)) a1) ++ sp_owning t (s_data data) a3.
Proof. exact from_bytes_asks. Qed.
Print Assumptions C161_from_bytes.
Theorem C161_deserialize : forall (h : host) (t : ty) (v : cvec) (a2 a3 a4 : N),
  usable t -> v_addr (c_vec v) + 8 < 2 ^ 64 -> a2 + 8 < 2 ^ 64 ->
  fst (deserialize_a h t v a2 a3 a4) =
  sp_room (len (v_data (c_vec v))) (c_cap v) (v_addr (c_vec v)) ++ sp_owning t (v_data (c_vec v)) a3.
Proof. exact deserialize_asks. Qed.
Print Assumptions C161_deserialize.

(** So it is in proportion to the bytes: with an allocator whose blocks are aligned, two
    requests of the length of the data, and one if the data is aligned as well. *)
Theorem C161_from_bytes_bound : forall (h : host) (t : ty) (data : slice) (a1 a2 a3 a4 : N),
  usable t -> a1 + 8 < 2 ^ 64 -> a2 + 8 < 2 ^ 64 ->
  let n := N.max 1 (len (s_data data)) in
  let asked := fst (from_bytes_a h t data a1 a2 a3 a4) in
  sp_total asked <= 6 * n + 14 /\
  (a1 mod 8 = 0 -> a3 mod 8 = 0 -> sp_total asked <= 2 * n /\ (length asked <= 2)%nat) /\
  (a3 mod 8 = 0 -> s_addr data mod sp_align t = 0 -> sp_total asked <= n /\ (length asked <= 1)%nat).
Proof. exact from_bytes_bound. Qed.
Print Assumptions C161_from_bytes_bound.
Theorem C161_deserialize_bound : forall (h : host) (t : ty) (v : cvec) (a2 a3 a4 : N),
  usable t -> v_addr (c_vec v) + 8 < 2 ^ 64 -> a2 + 8 < 2 ^ 64 ->
  let n := N.max 1 (len (v_data (c_vec v))) in
  let asked := fst (deserialize_a h t v a2 a3 a4) in
  sp_total asked <= 4 * n + 2 * c_cap v + 14 /\
  (v_addr (c_vec v) mod 8 = 0 -> a3 mod 8 = 0 -> sp_total asked <= n /\ (length asked <= 1)%nat).
Proof. exact deserialize_bound. Qed.
Print Assumptions C161_deserialize_bound.

(** A structure of a string and an array of [u16], at an odd address: copied to be
    aligned, and copied to be owned; with an allocator that aligns nothing, each copy is
    made room for again. *)
Example C161_case : let h := Host false true true 0 3 in
  let d := [x68; x69; x00; x00; x01; x00; x02; x00; x03] in
  let t := TTuple [TS; TA TQ] in
  usable t /\
  from_bytes_a h t (Slice 5 d) 64 64 128 128 = ([9; 9], Ok (OBuf (Vec 128 d))) /\
  fst (from_bytes_a h t (Slice 6 d) 64 64 128 128) = [9] /\
  fst (from_bytes_a h t (Slice 5 d) 65 66 129 130) = [9; 18; 9; 18] /\
  fst (from_bytes_a h (TA TQ) (Slice 6 d) 64 64 128 128) = [] /\
  fst (from_bytes_a h (TA TY) (Slice 5 d) 64 64 128 128) = [9] /\
  fst (from_bytes_a h TS (Slice 5 [x68; x69; x00]) 64 64 128 128) = [3] /\
  fst (from_bytes_a h TS (Slice 5 d) 64 64 128 128) = [1] /\
  fst (from_bytes_a h TX (Slice 5 d) 64 64 128 128) = [9] /\
  fst (from_bytes_a h TX (Slice 8 d) 64 64 128 128) = [].
Proof. split; [split; reflexivity|]. vm_compute. repeat split. Qed.
Example C161_stream_case : let h := Host false true true 0 3 in
  let d := [x68; x69; x00; x00; x01; x00; x02; x00; x03] in
  let t := TTuple [TS; TA TQ] in
  fst (deserialize_a h t (CVec (Vec 64 d) 32) 64 128 128) = [9] /\
  fst (deserialize_a h t (CVec (Vec 65 d) 32) 65 128 128) = [9] /\
  fst (deserialize_a h t (CVec (Vec 65 d) 9) 66 128 128) = [18; 9].
Proof. vm_compute. repeat split. Qed.
