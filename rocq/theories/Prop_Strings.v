(** Strings: C17, C35, C36, C37, C47. *)
From Verif Require Import Base Types Strs Spec Histories Utf8Facts StrFacts.

(** C17 *)
Theorem C17_always_a_proper_string : forall d : list byte,
  is_utf8 (to_str d) /\ ~ In x00 (to_str d).
Proof. exact to_str_good. Qed.
Print Assumptions C17_always_a_proper_string.
Theorem C17_normal_form : forall s : list byte, good_string s ->
  to_str (s ++ [x00]) = s /\ as_bytes_non_conformant (s ++ [x00]) = s.
Proof. exact to_str_normal. Qed.
Print Assumptions C17_normal_form.
Theorem C17_otherwise_empty : forall d : list byte,
  (forall s, good_string s -> d <> s ++ [x00]) -> to_str d = [].
Proof. exact to_str_bad. Qed.
Print Assumptions C17_otherwise_empty.
Example C17_case : good_string (bs "h" ++ [xc3; xa9]) /\
  to_str (bs "h" ++ [xc3; xa9; x00]) = bs "h" ++ [xc3; xa9] /\
  to_str (bs "h" ++ [xc3; x00]) = [].
Proof.
  split; [|split; reflexivity]. split.
  - apply sp_utf8_ok. reflexivity.
  - cbn. intros [H|[H|[H|[]]]]; discriminate.
Qed.

(** C35 *)
Theorem C35_gstring_is_a_nul_free_string : forall (h : host) s0 g0 (os : list gs_op),
  gs_init s0 g0 -> Forall gs_op_wf os ->
  let '(g, r) := run_gs g0 os in
  let '(s, r') := plain_gs s0 os in
  r = r' /\ good_string s /\ g_data g = s ++ [x00] /\ is_utf8 (g_data g) /\
  gs_as_str h g = Ok s /\ gs_len h g = Ok (len s) /\ gs_is_empty h g = Ok (len s =? 0) /\
  gs_into_string g = s /\ gs_into_cstring g = Ok s /\ to_str (gs_deref g) = s.
Proof. exact gs_history. Qed.
Print Assumptions C35_gstring_is_a_nul_free_string.
Theorem C35_try_from_rejects_exactly_nuls : forall s cap c,
  gs_try_from s cap c = None <-> In x00 s.
Proof. exact gs_try_from_nul. Qed.
Print Assumptions C35_try_from_rejects_exactly_nuls.
Example C35_case :
  let os := [GPush (bs "cd") 0 0 0; GPush [x61; x00] 0 0 0; GReserve 50 0; GPush (bs "e") 0 0 0] in
  gs_init (bs "ab") (GS (bs "ab" ++ [x00]) 3) /\ Forall gs_op_wf os /\
  plain_gs (bs "ab") os = (bs "abcde", [true; false; true; true]).
Proof.
  cbn zeta. split; [|split; [|reflexivity]].
  - apply (gi_from (bs "ab") 2 0); [apply sp_utf8_ok; reflexivity|vm_compute; discriminate|reflexivity].
  - repeat constructor; apply sp_utf8_ok; reflexivity.
Qed.

(** C36 *)
Theorem C36_order : forall g1 g2 s1 s2, good_string s1 -> good_string s2 ->
  g_data g1 = s1 ++ [x00] -> g_data g2 = s2 ++ [x00] ->
  match gs_cmp g1 g2 with Eq => s1 = s2 | Lt => sp_lt s1 s2 | Gt => sp_lt s2 s1 end.
Proof. exact gs_cmp_spec. Qed.
Print Assumptions C36_order.
Theorem C36_equality : forall g1 g2 s1 s2, good_string s1 -> good_string s2 ->
  g_data g1 = s1 ++ [x00] -> g_data g2 = s2 ++ [x00] ->
  (gs_eq g1 g2 = true <-> s1 = s2) /\ str_eq (gs_deref g1) (gs_deref g2) = gs_eq g1 g2.
Proof. exact gs_eq_spec. Qed.
Print Assumptions C36_equality.
Example C36_case : good_string (bs "ab") /\ good_string (bs "abc") /\
  gs_cmp (GS (bs "ab" ++ [x00]) 3) (GS (bs "abc" ++ [x00]) 4) = Lt /\ sp_lt (bs "ab") (bs "abc").
Proof.
  split; [|split; [|split; [reflexivity|repeat constructor]]];
    (split; [apply sp_utf8_ok; reflexivity|vm_compute; intuition discriminate]).
Qed.

(** C37 is false of [with_capacity]: it returns a fresh minimal string ... *)
Theorem C37_with_capacity_refuted : exists (h : host) (n c1 c2 : N),
  gs_capacity h (gs_with_capacity n c1 c2) = Ok 0 /\ 0 < n.
Proof. exact with_capacity_too_small. Qed.
Print Assumptions C37_with_capacity_refuted.
(** ... but [reserve] keeps its promise, after any history (C47). *)
Theorem C47_reserve : forall (h : host) s0 g0 (os : list gs_op) (n c : N),
  gs_init s0 g0 -> Forall gs_op_wf os ->
  exists k, gs_capacity h (gs_reserve (fst (run_gs g0 os)) n c) = Ok k /\
            len (fst (plain_gs s0 os)) + n <= k.
Proof. exact reserve_history. Qed.
Print Assumptions C47_reserve.
Example C47_case :
  gs_init [] (gs_new 0) /\ Forall gs_op_wf [GPush (bs "abc") 0 0 0] /\
  gs_capacity (Host false true true 0 0) (gs_reserve (fst (run_gs (gs_new 0) [GPush (bs "abc") 0 0 0])) 10 0) = Ok 13.
Proof.
  split; [constructor|]. split; [|reflexivity]. repeat constructor. apply sp_utf8_ok. reflexivity.
Qed.
