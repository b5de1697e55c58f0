(** Alignments, sizes, tables and memory layouts: C02, C03, C04, C05, C07, C40, C43. *)
From Verif Require Import Base Types Layout AlignedBytes Spec Deser TypesFacts LayoutFacts.

(** C02 *)
Theorem C02_alignment_is_1_2_4_8 : forall t : ty, In (align_of t) [1; 2; 4; 8].
Proof. exact align_values. Qed.
Print Assumptions C02_alignment_is_1_2_4_8.
Theorem C02_alignment_is_the_gvariant_one : forall t : ty, align_of t = sp_align t.
Proof. exact (fun t => eq_sym (sp_align_of t)). Qed.
Print Assumptions C02_alignment_is_the_gvariant_one.
Theorem C02_container_at_least_components : forall t c : ty,
  In c (sp_components t) -> N.divide (align_of c) (align_of t).
Proof. exact component_align_divides. Qed.
Print Assumptions C02_container_at_least_components.
Theorem C02_declared_is_computed : forall t : ty, trait_align t = align_of t.
Proof. exact trait_align_of. Qed.
Print Assumptions C02_declared_is_computed.
Theorem C02_narrowing_is_legal : forall (t c : ty) (s : slice),
  In c (sp_components t) -> as_aligned (trait_align t) (trait_align c) s = Ok s.
Proof. exact component_narrow. Qed.
Print Assumptions C02_narrowing_is_legal.
Example C02_case :
  In (TTuple [TS; TQ]) (sp_components (TDict TI (TTuple [TS; TQ]))) /\
  align_of (TTuple [TS; TQ]) = 2 /\ align_of (TDict TI (TTuple [TS; TQ])) = 4.
Proof. cbn. auto. Qed.

(** C03 *)
Theorem C03_fixed_iff_no_variable_part : forall t : ty,
  (exists n, size_of t = Some n) <-> sp_no_var t = true.
Proof. exact size_of_no_var. Qed.
Print Assumptions C03_fixed_iff_no_variable_part.
Theorem C03_size_is_the_gvariant_one : forall t : ty, size_of t = sp_size t.
Proof. exact (fun t => eq_sym (sp_size_of t)). Qed.
Print Assumptions C03_size_is_the_gvariant_one.
Theorem C03_size_positive_multiple : forall (t : ty) (n : N),
  size_of t = Some n -> 0 < n /\ n mod align_of t = 0.
Proof. exact size_of_props. Qed.
Print Assumptions C03_size_positive_multiple.
Example C03_case : size_of (TTuple [TY; TT; TQ]) = Some 24 /\ size_of (TTuple []) = Some 1 /\
  size_of (TTuple [TI; TA TI]) = None.
Proof. repeat split; reflexivity. Qed.

(** C04: size, alignment and field offsets rustc gives the generated struct ... *)
Theorem C04_layout : forall (t : ty) (n : N) (szs : list N),
  sp_is_struct t = true -> sp_size t = Some n -> map sp_size (sp_components t) = map Some szs ->
  macro_ok t = true ->
  mem_layout t = Some (n, sp_align t) /\
  field_offsets t = Some (sp_field_offsets 0 (combine (map sp_align (sp_components t)) szs)).
Proof. exact fixed_struct_layout. Qed.
Print Assumptions C04_layout.
(** ... and the emitted fields already fill it: rustc inserts no padding. *)
Theorem C04_no_implicit_padding : forall (t : ty) (n : N),
  sp_is_struct t = true -> sp_size t = Some n -> macro_ok t = true -> declared_bytes t = Some n.
Proof. exact declared_bytes_ok. Qed.
Print Assumptions C04_no_implicit_padding.
Example C04_case : let t := TTuple [TTuple [TI; TY]; TY; TQ; TY] in
  macro_ok t = true /\ sp_size t = Some 16 /\
  map sp_size (sp_components t) = map Some [8; 1; 2; 1] /\
  field_offsets t = Some [0; 8; 10; 12].
Proof. repeat split; reflexivity. Qed.

(** C05 is false: the macro panics on [(yii)]. *)
Theorem C05_every_fixed_struct_refuted : exists t : ty,
  one (bs "(yii)") = inr t /\ sp_size t = Some 12 /\ macro_ok t = false.
Proof. exact yii_panics. Qed.
Print Assumptions C05_every_fixed_struct_refuted.
(** C05, exactly when it holds. *)
Theorem C05_macro_ok_iff_every_struct : forall t : ty,
  macro_ok t = true <->
  forall s, sp_is_struct s = true -> sp_occurs s t -> struct_macro_ok s = true.
Proof. exact macro_ok_occurs. Qed.
Print Assumptions C05_macro_ok_iff_every_struct.
Theorem C05_fixed_struct_accepted_iff : forall (t : ty) (szs : list N),
  sp_is_struct t = true -> map sp_size (sp_components t) = map Some szs ->
  struct_macro_ok t = sp_anchored 0 1 0 (combine (map sp_align (sp_components t)) szs).
Proof. exact struct_macro_ok_spec. Qed.
Print Assumptions C05_fixed_struct_accepted_iff.
Theorem C05_variable_struct_accepted : forall t : ty, sp_size t = None -> struct_macro_ok t = true.
Proof. exact struct_macro_ok_var. Qed.
Print Assumptions C05_variable_struct_accepted.
(** A usable rule: put a most strictly aligned field first. *)
Theorem C05_strictest_first_accepted : forall (t c : ty) (cs : list ty),
  sp_is_struct t = true -> sp_components t = c :: cs -> sp_align c = sp_align t ->
  struct_macro_ok t = true.
Proof. exact first_strictest_ok. Qed.
Print Assumptions C05_strictest_first_accepted.
Example C05_case : struct_macro_ok (TTuple [TI; TY; TI]) = true /\ struct_macro_ok (TTuple [TY; TI]) = true /\
  struct_macro_ok (TTuple [TY; TT; TT]) = false.
Proof. repeat split; reflexivity. Qed.

(** C07: row [j] of the table names the framing offset of the variable-size child
    before child [j], and the code evaluating the row ([calc_offsets]) yields the
    start found by walking the children. *)
Theorem C07_table_gives_the_start : forall (h : host) (ends : nat -> N) (t : ty) (j : nat)
    (child : ty) (i : Z) (a b c : N),
  sp_is_struct t = true -> nth_error (sp_components t) j = Some child ->
  nth_error (generate_table (sp_components t)) j = Some (i, a, b, c) ->
  blen (sp_show t) < 2 ^ 32 ->
  (forall k, ends k < 2 ^ 63) ->
  let k := length (filter (fun t => negb (sp_no_var t)) (firstn j (sp_components t))) in
  i = (Z.of_nat k - 1)%Z /\
  calc_start h (trait_align child) b (sp_prev_end ends k) a c =
  Ok (nth j (sp_starts ends 0 0 (map (fun t => (sp_align t, sp_size t)) (sp_components t))) 0).
Proof. exact table_correct. Qed.
Print Assumptions C07_table_gives_the_start.
Example C07_case :
  generate_table [TS; TY; TI; TT] = [((-1)%Z, 0, 1, 0); (0%Z, 0, 1, 0); (0%Z, 1, 4, 0); (0%Z, 5, 8, 0)].
Proof. reflexivity. Qed.
Example C07_case_start : forall h,
  calc_start h 8 8 6 5 0 = Ok 16.
Proof. intros h. unfold calc_start, uadd, align_offset, usub. reflexivity. Qed.

(** C40 is false: [(b)] has no well-typed constant default. *)
Theorem C40_defaults_typecheck_refuted : exists t : ty,
  one (bs "(b)") = inr t /\ sp_size t = Some 1 /\ macro_ok t = true /\ defaults_typecheck t = false.
Proof. exact b_struct_ill_typed. Qed.
Print Assumptions C40_defaults_typecheck_refuted.
(** C40, exactly when it holds: all fields are integers. *)
Theorem C40_defaults_typecheck_iff : forall t : ty, sp_is_struct t = true -> sp_no_var t = true ->
  (defaults_typecheck t = true <->
   forall c, In c (sp_components t) -> In c [TY; TN; TQ; TI; TU; TX; TT]).
Proof. exact defaults_typecheck_spec. Qed.
Print Assumptions C40_defaults_typecheck_iff.
Example C40_case : defaults_typecheck (TTuple [TI; TY; TT]) = true /\
  defaults_typecheck (TTuple [TD]) = false /\ defaults_typecheck (TTuple [TTuple [TI]]) = false.
Proof. repeat split; reflexivity. Qed.

(** C43: the conditions the generated code needs to compile, put together. *)
Theorem C43_usable_iff : forall t : ty,
  gv_usable t = true <->
  NoDup (generate_types t) /\
  forall s, sp_is_struct s = true -> sp_occurs s t ->
    len (sp_components s) <= 12 /\
    (forall szs, map sp_size (sp_components s) = map Some szs ->
       sp_anchored 0 1 0 (combine (map sp_align (sp_components s)) szs) = true /\
       forall c, In c (sp_components s) -> In c [TY; TN; TQ; TI; TU; TX; TT]).
Proof. exact gv_usable_spec. Qed.
Print Assumptions C43_usable_iff.
Example C43_case : gv_usable (TA (TDict TS (TTuple [TV; TM (TTuple [TI; TY; TI]); TA (TA TS)]))) = true.
Proof. reflexivity. Qed.
