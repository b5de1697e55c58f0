(** Type strings and generated names: C01, C06, C41, C42. *)
From Verif Require Import Base Types Layout Spec TypesFacts.

(** C01: [one] (what gv! runs on its argument) accepts exactly the grammar ... *)
Theorem C01_accepts_exactly_the_grammar : forall s : list byte,
  (exists t, one s = inr t) <-> type_string s.
Proof. exact one_accepts. Qed.
Print Assumptions C01_accepts_exactly_the_grammar.

(** ... the result is the one type with that type string ... *)
Theorem C01_parse_iff_type_string : forall (s : list byte) (t : ty),
  one s = inr t <-> sp_show t = s.
Proof. exact one_show. Qed.
Print Assumptions C01_parse_iff_type_string.

(** ... and printing it (Display) gives the type string back. *)
Theorem C01_display_is_type_string : forall t : ty, display t = sp_show t.
Proof. exact display_show. Qed.
Print Assumptions C01_display_is_type_string.

(** The parser model's recursion budget is never the reason for rejection. *)
Theorem C01_parser_terminates : forall s : list byte, one s <> inl EFuel.
Proof. exact one_no_fuel. Qed.
Print Assumptions C01_parser_terminates.

Example C01_case : one (bs "a{s(mvit)}") = inr (TA (TDict TS (TTuple [TM TV; TI; TT]))).
Proof. reflexivity. Qed.
Example C01_case_rejected : one (bs "a{sv") = inl EEofClose /\ one (bs "ii") = inl EMore.
Proof. split; reflexivity. Qed.

(** C06, the second half is false: [((s)(s))] defines its inner structure twice. *)
Theorem C06_defined_once_refuted : exists t : ty,
  one (bs "((s)(s))") = inr t /\ ~ NoDup (map struct_name (generate_types t)).
Proof. exact defined_twice. Qed.
Print Assumptions C06_defined_once_refuted.

(** C06, what holds: distinct structure types get distinct names, and so a name
    is defined twice only if a structure type occurs twice. *)
Theorem C06_names_distinct : forall a b : ty, struct_name a = struct_name b -> a = b.
Proof. exact struct_name_inj. Qed.
Print Assumptions C06_names_distinct.
Theorem C06_defined_once_iff_no_repeat : forall t : ty,
  NoDup (map struct_name (generate_types t)) <-> NoDup (generate_types t).
Proof. exact names_nodup. Qed.
Print Assumptions C06_defined_once_iff_no_repeat.
Example C06_case : struct_name (TTuple [TS; TI]) <> struct_name (TDict TS TI).
Proof. discriminate. Qed.

(** C41: gv! defines exactly the structure types occurring in the type string. *)
Theorem C41_defines_exactly_the_structures : forall s t : ty,
  In s (generate_types t) <-> sp_is_struct s = true /\ sp_occurs s t.
Proof. exact generate_types_iff. Qed.
Print Assumptions C41_defines_exactly_the_structures.
Example C41_case : In (TTuple [TI]) (generate_types (TA (TDict TS (TM (TTuple [TI]))))).
Proof. cbn. auto. Qed.

(** C42: what follows "Structure" in a generated name may stand in a Rust identifier. *)
Theorem C42_names_are_identifiers : forall t : ty, Forall ident_char (struct_name t).
Proof. exact struct_name_ident. Qed.
Print Assumptions C42_names_are_identifiers.
Example C42_case : struct_name (TDict TS (TTuple [TI])) = (bs "FsCi73").
Proof. reflexivity. Qed.
