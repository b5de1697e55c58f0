(** How many steps reading and comparing take: C148 to C152.  Steps are counted by the functions of
    Cost.v. *)
From Coq Require Import List NArith Init.Byte.
From Verif Require Import Base Types Layout AlignedBytes Strs Spec Deser Histories SizeSpec Cost CostSpec OrderFacts EqOrderFacts.
From Verif Require Utf8Facts.
Import ListNotations.
Open Scope N_scope.

(** C148.  Looking into a container takes a bounded number of steps, whatever it
    holds. *)
Theorem C148_constant : forall (h : host) (x t : ty) (s : slice) (i : N) (it : nfwa_iter),
  steps_of (from_aligned_slice_t h t s) <= 14 /\
  steps_of (nfwa_len_t h s) <= 17 /\ steps_of (nfwa_is_empty_t h s) <= 18 /\
  steps_of (nfwa_index_t h x s i) <= 48 /\ steps_of (nfwa_first_t h x s) <= 66 /\ steps_of (nfwa_last_t h x s) <= 84 /\
  steps_of (nfwa_into_iter_t h x s) <= 19 /\ steps_of (nfwa_next_t h x it) <= 28 /\ steps_of (nfwa_size_hint_t h it) <= 2 /\
  steps_of (to_option_t h x s) <= 10.
Proof. exact cost_constant. Qed.
Print Assumptions C148_constant.
(** Taking a structure apart takes so many for each member. *)
Theorem C148_members : forall (h : host) (t : ty) (s : slice), steps_of (to_tuple_t h t s) <= 56 * len (sp_components t).
Proof. exact cost_members. Qed.
Print Assumptions C148_members.
(** The functions whose steps are counted are those of the model. *)
Theorem C148_answers : forall (h : host) (x t : ty) (s : slice) (i : N) (it : nfwa_iter),
  result_of (nfwa_len_t h s) = nfwa_len h s /\ result_of (nfwa_is_empty_t h s) = nfwa_is_empty h s /\
  result_of (nfwa_index_t h x s i) = nfwa_index h x s i /\ result_of (nfwa_first_t h x s) = nfwa_first h x s /\
  result_of (nfwa_last_t h x s) = nfwa_last h x s /\ result_of (nfwa_into_iter_t h x s) = nfwa_into_iter h x s /\
  result_of (nfwa_next_t h x it) = nfwa_next h x it /\ result_of (nfwa_size_hint_t h it) = nfwa_size_hint h it /\
  result_of (to_option_t h x s) = to_option h x s /\ result_of (to_tuple_t h t s) = to_tuple h t s /\
  result_of (from_aligned_slice_t h t s) = cast h t s.
Proof. exact cost_answers. Qed.
Print Assumptions C148_answers.
(** The last of fifty strings, and the second: the same number of steps. *)
Definition c148_d : list byte := concat (repeat [x61; x00] 50) ++ map (fun i => n2b (2 * N.of_nat i + 2)) (seq 0 50).
Example C148_case : let h := Host false true true 0 0 in
  len c148_d = 150 /\ nfwa_len_t h (Slice 8 c148_d) = (16, Ok 50) /\
  nfwa_index_t h TS (Slice 8 c148_d) 49 = (42, Ok (Slice 106 [x61; x00])) /\
  nfwa_index_t h TS (Slice 8 c148_d) 1 = (42, Ok (Slice 10 [x61; x00])) /\
  to_tuple_t h (TTuple [TS; TI; TS]) (Slice 16 [x61; x00; x00; x00; x01; x02; x03; x04; x62; x00; x02]) =
    (116, Ok [Slice 16 [x61; x00]; Slice 20 [x01; x02; x03; x04]; Slice 24 [x62; x00]]).
Proof. vm_compute. repeat split. Qed.

(** C149.  The bytes of a string take constant time, the string itself linear time. *)
Theorem C149_strings : forall d : list byte,
  result_of (as_bytes_non_conformant_t d) = Ok (as_bytes_non_conformant d) /\ steps_of (as_bytes_non_conformant_t d) = 3 /\
  result_of (to_str_t d) = Ok (to_str d) /\ steps_of (to_str_t d) <= 8 + 2 * len d.
Proof. exact cost_strings. Qed.
Print Assumptions C149_strings.
(** Getting the value out of a variant depends on the length of its type string only,
    not on that of the value; if there is no type string all is searched. *)
Theorem C149_variants : forall (h : host) (t : ty) (s : slice),
  result_of (variant_get_t h t s) = variant_get h t s /\
  steps_of (variant_get_t h t s) <=
    match sp_split_last (s_data s) with
    | Some (_, ts) => 23 + 2 * len ts
    | None => 28 + len (s_data s)
    end.
Proof. exact cost_get. Qed.
Print Assumptions C149_variants.
Example C149_case : let h := Host false true true 0 0 in
  to_str_t [x61; x62; x00] = (12, Ok [x61; x62]) /\
  sp_split_last [x01; x00; x00; x00; x00; x69] = Some ([x01; x00; x00; x00], [x69]) /\
  variant_get_t h TI (Slice 8 [x01; x00; x00; x00; x00; x69]) = (16, Ok (Some (Slice 8 [x01; x00; x00; x00]))) /\
  steps_of (variant_get_t h (TA TY) (Slice 8 (repeat x05 300 ++ [x00; x61; x79]))) = 18 /\
  steps_of (variant_get_t h (TA TY) (Slice 8 (repeat x05 300))) = 313.
Proof. vm_compute. repeat split. Qed.

(** C150 is false: reading everything does not take time linear in the number of
    bytes.  Arrays of arrays ... of strings, [k] deep, made of [n * (16 k + 1)] bytes, can
    take [n ^ (1 + k)] steps. *)
Theorem C150_linear_refuted : forall (h : host) (k n a : N), 1 <= n -> 1 + k < 2 ^ 32 -> n * (16 * k + 1) < 2 ^ 63 ->
  exists d : list byte, len d <= n * (16 * k + 1) /\
    n ^ (1 + k) <= steps_of (decode_t h (Nat.iter (N.to_nat k) TA TS) (Slice a d)).
Proof. exact cost_slow. Qed.
Print Assumptions C150_linear_refuted.
(** Eight bytes of strings that overlap take three times as long as seven that do not. *)
Example C150_case : let h := Host false true true 0 0 in
  steps_of (decode_t h (TA TS) (Slice 8 [x61; x61; x00; x03; x00; x03; x00; x03])) = 202 /\
  steps_of (decode_t h (TA TS) (Slice 8 [x61; x61; x61; x61; x61; x00; x06])) = 66.
Proof. vm_compute. split; reflexivity. Qed.

(** C151.  It is no more than that, up to a factor in the length of the type, for any
    bytes at any address ... *)
Theorem C151_bounded : forall (h : host) (t : ty) (s : slice),
  result_of (decode_t h t s) = decode h t s /\
  steps_of (decode_t h t s) <= 66 * len (sp_show t) * (len (s_data s) + 1) ^ (1 + sp_nest t).
Proof. exact cost_all. Qed.
Print Assumptions C151_bounded.
(** ... and linear if no child is out of range, ... *)
Theorem C151_in_range : forall (h : host) (t : ty) (s : slice),
  usable t -> aligned (sp_align t) s -> len (s_data s) < 2 ^ 63 -> sp_orderly t (Some (s_data s)) = true ->
  steps_of (decode_t h t s) <= 66 * len (sp_show t) * (len (s_data s) + 1).
Proof. exact cost_orderly. Qed.
Print Assumptions C151_in_range.
(** ... as in every normal form. *)
Theorem C151_normal_forms : forall (h : host) (big : bool) (t : ty) (v : value) (a : N),
  usable t -> sp_typed t v -> a mod sp_align t = 0 -> len (sp_encode big t v) < 2 ^ 63 ->
  steps_of (decode_t h t (Slice a (sp_encode big t v))) <= 66 * len (sp_show t) * (len (sp_encode big t v) + 1).
Proof. exact cost_normal. Qed.
Print Assumptions C151_normal_forms.
(** An array of arrays of strings, in normal form and with its children in each
    other's place. *)
Example C151_case : let h := Host false true true 0 0 in let t := TA (TA TS) in
  let v := VArray [VArray [VStr [x61]]; VArray [VStr [x62]; VStr []]] in
  let d := [x61; x00; x02; x62; x00; x00; x02; x03; x03; x08] in
  (usable t /\ sp_typed t v /\ sp_encode false t v = d /\ sp_nest t = 2) /\
  decode_t h t (Slice 8 d) = (210, Ok v) /\ sp_orderly t (Some d) = true /\
  sp_orderly t (Some [x61; x00; x02; x00; x02; x05; x00; x05]) = false /\
  steps_of (decode_t h t (Slice 8 [x61; x00; x02; x00; x02; x05; x00; x05])) = 353.
Proof.
  intros h t v d. split; [|vm_compute; repeat split].
  split; [split; vm_compute; reflexivity|]. split; [|split; vm_compute; reflexivity].
  cbn. repeat split; try (apply Utf8Facts.sp_utf8_ok; reflexivity); cbn; intuition discriminate.
Qed.

(** C152.  Comparing two values is bounded in the same way, for any bytes at any
    addresses ... *)
Theorem C152_bounded : forall (h : host) (t : ty) (a b : slice),
  result_of (gv_eq_t h t a b) = gv_eq h t a b /\
  steps_of (gv_eq_t h t a b) <= 185 * len (sp_show t) * (len (s_data a) + len (s_data b) + 1) ^ (1 + sp_nest t).
Proof. exact cost_eq. Qed.
Print Assumptions C152_bounded.
(** ... which is about what it takes to find that the values of C150 equal themselves, ... *)
Theorem C152_reached : forall (h : host) (k n a : N), 1 <= n -> 1 + k < 2 ^ 32 -> n * (16 * k + 1) < 2 ^ 63 ->
  exists (d : list byte) (r : slice), len d <= n * (16 * k + 1) /\
    cast h (Nat.iter (N.to_nat k) TA TS) (Slice a d) = Ok r /\
    result_of (gv_eq_t h (Nat.iter (N.to_nat k) TA TS) r r) = Ok true /\
    n ^ (1 + k) <= steps_of (gv_eq_t h (Nat.iter (N.to_nat k) TA TS) r r).
Proof. exact cost_eq_slow. Qed.
Print Assumptions C152_reached.
(** ... and linear if no child is out of range, ... *)
Theorem C152_in_range : forall (h : host) (t : ty) (a b : slice), view h t a -> view h t b ->
  sp_orderly t (Some (s_data a)) = true -> sp_orderly t (Some (s_data b)) = true ->
  steps_of (gv_eq_t h t a b) <= 185 * len (sp_show t) * (len (s_data a) + len (s_data b) + 1).
Proof. exact cost_eq_orderly. Qed.
Print Assumptions C152_in_range.
(** ... as in normal forms. *)
Theorem C152_normal_forms : forall (h : host) (t : ty) (a b : slice) (big big' : bool) (v w : value),
  view h t a -> view h t b -> sp_typed t v -> sp_typed t w ->
  s_data a = sp_encode big t v -> s_data b = sp_encode big' t w ->
  steps_of (gv_eq_t h t a b) <= 185 * len (sp_show t) * (len (s_data a) + len (s_data b) + 1).
Proof. exact cost_eq_normal. Qed.
Print Assumptions C152_normal_forms.
(** Arrays of different lengths are told apart without looking at their elements. *)
Theorem C152_lengths : forall (h : host) (x : ty) (a b : slice) (na nb : N),
  sp_size x = None -> nfwa_len h a = Ok na -> nfwa_len h b = Ok nb -> na <> nb ->
  result_of (gv_eq_t h (TA x) a b) = Ok false /\ steps_of (gv_eq_t h (TA x) a b) <= 35.
Proof. exact cost_eq_lengths. Qed.
Print Assumptions C152_lengths.
Example C152_case : let h := Host false true true 0 0 in let t := TA (TA TS) in
  let d := [x61; x00; x02; x62; x00; x00; x02; x03; x03; x08] in
  (view h t (Slice 8 d) /\ view h t (Slice 16 d) /\ sp_orderly t (Some d) = true) /\
  gv_eq_t h t (Slice 8 d) (Slice 16 d) = (473, Ok true) /\ gv_eq_t h TS (Slice 8 [x61; x00]) (Slice 8 [x61; x62]) = (26, Ok false) /\
  nfwa_len h (Slice 8 d) = Ok 2 /\ nfwa_len h (Slice 16 []) = Ok 0 /\ gv_eq_t h t (Slice 8 d) (Slice 16 []) = (24, Ok false) /\
  gv_eq_t h (TA TN) (Slice 8 [x01; x00; x02; x00]) (Slice 8 [x01; x00; x03; x00]) = (9, Ok false).
Proof.
  intros h t d. split; [|vm_compute; repeat split].
  assert (Hu : usable t) by (split; vm_compute; reflexivity).
  repeat split; [exists t, (Slice 8 d)|exists t, (Slice 16 d)]; (split; [exact Hu|]; split; [reflexivity|]; split; [reflexivity|apply reach_cast; reflexivity]).
Qed.
