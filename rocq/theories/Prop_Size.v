(** Where children lie and how much reading can produce: C82 to C85.
    Measures in SizeSpec.v. *)
From Verif Require Import Base Types Spec Deser Histories LongSpec SizeSpec CostSpec BaseFacts ReadClaims SizeFacts WrapMore LaidFacts OrderSizeFacts.

(** C82 is false: elements of an array can be the same bytes ... *)
Theorem C82_elements_refuted : forall h : host, exists (s ri rj : slice),
  nfwa_index h TS s 0 = Ok ri /\ nfwa_index h TS s 2 = Ok rj /\
  s_addr ri = s_addr rj /\ s_data ri = bs "a" ++ [x00] /\ s_data rj = s_data ri /\ len (s_data s) = 5.
Proof. exact shared_elements. Qed.
Print Assumptions C82_elements_refuted.
(** ... and so can members of a structure. *)
Theorem C82_members_refuted : forall h : host, exists (s r0 r1 r2 : slice),
  to_tuple h (TTuple [TS; TS; TS]) s = Ok [r0; r1; r2] /\
  s_addr r0 = s_addr r2 /\ s_data r0 = bs "a" ++ [x00] /\ s_data r2 = s_data r0 /\ len (s_data s) = 4.
Proof. exact shared_members. Qed.
Print Assumptions C82_members_refuted.

(** C83: if no child is out of range, children that have bytes lie one after
    another. *)
Theorem C83_array_elements : forall (h : host) (x : ty) (s : slice) (rs : list slice) (i j : nat) (ri rj : slice),
  usable x -> aligned (sp_align x) s -> len (s_data s) < 2 ^ 63 ->
  (sp_size x = None -> ~ In None (sp_array_children (sp_align x) (s_data s))) ->
  array_refs h x s = Ok rs -> (i < j)%nat ->
  nth_error rs i = Some ri -> nth_error rs j = Some rj -> s_data ri <> [] -> s_data rj <> [] ->
  s_addr ri + len (s_data ri) <= s_addr rj.
Proof. exact array_apart. Qed.
Print Assumptions C83_array_elements.
Example C83_array_case : let h := Host false true false 0 0 in let s := Slice 8 [x61; x00; x62; x00; x02; x04] in
  usable TS /\ aligned (sp_align TS) s /\ ~ In None (sp_array_children (sp_align TS) (s_data s)) /\
  array_refs h TS s = Ok [Slice 8 [x61; x00]; Slice 10 [x62; x00]].
Proof.
  intros h s. split; [split; reflexivity|]. split; [reflexivity|]. split; [|vm_compute; reflexivity].
  vm_compute. intuition discriminate.
Qed.
Theorem C83_structure_members : forall (h : host) (t : ty) (s : slice) (rs : list slice) (i j : nat) (ri rj : slice),
  usable t -> sp_is_struct t = true -> aligned (sp_align t) s -> len (s_data s) < 2 ^ 63 ->
  (forall n, sp_size t = Some n -> len (s_data s) = n) ->
  (sp_size t = None ->
   ~ In None (sp_struct_children (map (fun c => (sp_align c, sp_size c)) (sp_components t)) (s_data s))) ->
  to_tuple h t s = Ok rs -> (i < j)%nat ->
  nth_error rs i = Some ri -> nth_error rs j = Some rj -> s_data ri <> [] -> s_data rj <> [] ->
  s_addr ri + len (s_data ri) <= s_addr rj.
Proof. exact struct_apart. Qed.
Print Assumptions C83_structure_members.
Example C83_structure_case : let h := Host false true false 0 0 in let t := TTuple [TS; TI; TS] in
  let s := Slice 16 [x61; x00; x00; x00; x01; x02; x03; x04; x62; x00; x02] in
  usable t /\ aligned (sp_align t) s /\
  ~ In None (sp_struct_children (map (fun c => (sp_align c, sp_size c)) (sp_components t)) (s_data s)) /\
  to_tuple h t s = Ok [Slice 16 [x61; x00]; Slice 20 [x01; x02; x03; x04]; Slice 24 [x62; x00]].
Proof.
  intros h t s. split; [split; reflexivity|]. split; [reflexivity|]. split; [|vm_compute; reflexivity].
  vm_compute. intuition discriminate.
Qed.
(** Normal forms have no child out of range. *)
Theorem C83_normal_arrays : forall (big : bool) (x : ty) (vs : list value),
  sp_typed (TA x) (VArray vs) -> sp_size x = None -> len (sp_encode big (TA x) (VArray vs)) < 2 ^ 63 ->
  ~ In None (sp_array_children (sp_align x) (sp_encode big (TA x) (VArray vs))).
Proof. exact encode_array_inside. Qed.
Print Assumptions C83_normal_arrays.
Theorem C83_normal_structures : forall (big : bool) (t : ty) (vs : list value),
  sp_typed t (VTuple vs) -> sp_is_struct t = true -> len (sp_encode big t (VTuple vs)) < 2 ^ 63 ->
  (forall n, sp_size t = Some n -> len (sp_encode big t (VTuple vs)) = n) /\
  (sp_size t = None ->
   ~ In None (sp_struct_children (map (fun c => (sp_align c, sp_size c)) (sp_components t)) (sp_encode big t (VTuple vs)))).
Proof. exact encode_struct_inside. Qed.
Print Assumptions C83_normal_structures.
Example C83_normal_case : let v := VArray [VArray [VInt 1]; VArray []] in
  sp_typed (TA (TA TI)) v /\ len (sp_encode true (TA (TA TI)) v) = 6 /\
  let w := VTuple [VArray [VInt 1]; VInt 7] in
  sp_typed (TTuple [TA TI; TY]) w /\ len (sp_encode true (TTuple [TA TI; TY]) w) = 6.
Proof.
  intros v. split; [|split; [reflexivity|]]; [|intros w; split; [|reflexivity]];
    repeat split; try discriminate; cbn; intuition discriminate.
Qed.

(** C84 is false: arrays of arrays ... of strings, [k] deep, can be made of
    [n * (16 k + 1)] bytes so that reading them gives a value of size [n ^ (1 + k)]. *)
Theorem C84_amplification_refuted : forall (h : host) (k n a : N),
  1 <= n -> 1 + k < 2 ^ 32 -> n * (16 * k + 1) < 2 ^ 63 ->
  exists (d : list byte) (v : value), len d <= n * (16 * k + 1) /\
    decode h (Nat.iter (N.to_nat k) TA TS) (Slice a d) = Ok v /\ n ^ (1 + k) <= sp_weight v.
Proof. exact blow_claim. Qed.
Print Assumptions C84_amplification_refuted.
(** Eight bytes that read as twelve nodes and bytes. *)
Example C84_case : let d := [x61; x61; x00; x03; x00; x03; x00; x03] in
  decode (Host false true true 0 0) (TA TS) (Slice 8 d) =
  Ok (VArray [VStr (bs "aa"); VStr []; VStr (bs "aa"); VStr []; VStr (bs "aa")]) /\
  sp_weight (VArray [VStr (bs "aa"); VStr []; VStr (bs "aa"); VStr []; VStr (bs "aa")]) = 12.
Proof. intros d. split; vm_compute; reflexivity. Qed.

(** C85: it cannot be more than that, up to a factor in the length of the type. *)
Theorem C85_bounded : forall (h : host) (t : ty) (s : slice) (v : value),
  usable t -> aligned (sp_align t) s -> len (s_data s) < 2 ^ 63 -> decode h t s = Ok v ->
  sp_weight v <= 3 * len (sp_show t) * (len (s_data s) + 1) ^ (1 + sp_nest t).
Proof. exact weight_all_claim. Qed.
Print Assumptions C85_bounded.
(** If no child is out of range, it is linear in the number of bytes, ... *)
Theorem C85_in_range : forall (h : host) (t : ty) (s : slice) (v : value),
  usable t -> aligned (sp_align t) s -> len (s_data s) < 2 ^ 63 -> sp_orderly t (Some (s_data s)) = true -> decode h t s = Ok v ->
  sp_weight v <= 3 * len (sp_show t) * (len (s_data s) + 1).
Proof. exact weight_in_range. Qed.
Print Assumptions C85_in_range.
(** ... and so the value of every normal form is. *)
Theorem C85_normal_forms : forall (big : bool) (t : ty) (v : value),
  sp_typed t v -> len (sp_encode big t v) < 2 ^ 63 -> sp_weight v <= 3 * len (sp_show t) * (len (sp_encode big t v) + 1).
Proof. exact weight_of_normal. Qed.
Print Assumptions C85_normal_forms.
Example C85_case : let t := TA (TTuple [TS; TA TV]) in let d := [x61; x00; x02; x03] in
  usable t /\ sp_nest t = 2 /\ aligned (sp_align t) (Slice 8 d) /\
  decode (Host false true true 0 0) t (Slice 8 d) = Ok (VArray [VTuple [VStr (bs "a"); VArray []]]) /\
  sp_weight (VArray [VTuple [VStr (bs "a"); VArray []]]) = 5 /\ sp_weight (VVariant (bs "i") [x01; x00; x00; x00]) = 6 /\
  sp_orderly t (Some d) = false /\ sp_orderly (TA TS) (Some [x61; x61; x00; x62; x00; x03; x05]) = true /\
  decode (Host false true true 0 0) (TA TS) (Slice 8 [x61; x61; x00; x62; x00; x03; x05]) = Ok (VArray [VStr (bs "aa"); VStr (bs "b")]).
Proof. intros t d. split; [split; reflexivity|]. repeat split; vm_compute; reflexivity. Qed.
