(** The Rust types the macros produce: C70, C71. *)
From Verif Require Import Base Types Layout Spec Marker MarkerSpec MarkerFacts.

(** C70: [gv!] gives two GVariant types the same Rust type exactly when they differ
    at most in calling a string a string, an object path or a signature, outside
    structures. *)
Theorem C70_rust_types : forall a b : ty, marker_type a = marker_type b <-> sp_rust a = sp_rust b.
Proof. exact marker_claim. Qed.
Print Assumptions C70_rust_types.
Theorem C70_from_strings : forall (x m : list byte),
  gv_type x = Ok m <-> exists t, x = sp_show t /\ m = marker_type t.
Proof. exact gv_type_claim. Qed.
Print Assumptions C70_from_strings.
(** Any other string is a compile-time panic of [unwrap]. *)
Theorem C70_other_strings : forall x : list byte, gv_type x = Crash PUnwrap <-> forall t, x <> sp_show t.
Proof. exact gv_type_else. Qed.
Print Assumptions C70_other_strings.
Example C70_case_other : gv_type (bs "a") = Crash PUnwrap.
Proof. reflexivity. Qed.
Example C70_case : marker_type (TA (TM (TDict TS TV))) = bs "NonFixedWidthArray::<MaybeNonFixedSize::<StructureFsv3>>" /\
  gv_type (bs "am(ii)") = Ok (bs "NonFixedWidthArray::<MaybeFixedSize::<StructureCii7>>") /\
  sp_rust (TA TO) = sp_rust (TA TS) /\ sp_rust (TTuple [TO]) <> sp_rust (TTuple [TS]).
Proof. repeat split; try reflexivity. discriminate. Qed.

(** C71: the type expression of [t], and the field types of every structure
    generated for it, only mention built-in types and structures that are also
    generated. *)
Theorem C71_type_in_scope : forall (t : ty) (w : list byte), In w (sp_words (marker_type t)) ->
  In w sp_builtin \/ exists s, In s (generate_types t) /\ w = bs "Structure" ++ struct_name s.
Proof. exact marker_words. Qed.
Print Assumptions C71_type_in_scope.
Theorem C71_fields_in_scope : forall (t s : ty) (f w : list byte),
  In s (generate_types t) -> In f (struct_field_types s) -> In w (sp_words f) ->
  In w sp_builtin \/ exists s', In s' (generate_types t) /\ w = bs "Structure" ++ struct_name s'.
Proof. exact field_words. Qed.
Print Assumptions C71_fields_in_scope.
Example C71_case : let t := TA (TTuple [TS; TA (TDict TS (TTuple [TI]))]) in
  sp_words (marker_type t) = [bs "NonFixedWidthArray"; bs "StructureCsaFsCi737"] /\
  struct_field_types (TDict TS (TTuple [TI])) = [bs "Str"; bs "StructureCi7"] /\
  In (TDict TS (TTuple [TI])) (generate_types t) /\ In (TTuple [TI]) (generate_types t).
Proof. cbn [generate_types In app concat map]. repeat split; try reflexivity; tauto. Qed.
