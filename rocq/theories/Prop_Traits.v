(** Which Rust types can be serialised as what: C105, C106. *)
From Verif Require Import Base Types Layout Spec Histories Ser SerSpec Marker Traits TraitSpec TraitFacts.

(** C105 is false of the code: not every view can be passed to [serialize].  A
    [&MaybeFixedSize<Bool>] cannot. *)
Theorem C105_views_refuted : exists t : ty, usable t /\ ~ serializes (YRef (marker t)) (marker t).
Proof. exact view_refuted. Qed.
Print Assumptions C105_views_refuted.
(** "&[u8] can be serialized as a GVariant string": it cannot, ... *)
Theorem C105_bytes_as_string_refuted : ~ serializes (YRef (YSlice YU8)) (marker TS).
Proof. exact bytes_not_str. Qed.
Print Assumptions C105_bytes_as_string_refuted.
(** ... nor can the crate's own owned strings. *)
Theorem C105_gstring_refuted : ~ serializes GString (marker TS) /\ ~ serializes (YRef GString) (marker TS).
Proof. exact gstring_not_str. Qed.
Print Assumptions C105_gstring_refuted.

(** C106: [rty] names the types [gv!] produces. *)
Theorem C106_marker_types : forall t : ty, rust_text (marker t) = marker_type t.
Proof. exact marker_text. Qed.
Print Assumptions C106_marker_types.
(** A view can be passed exactly if there is no structure and no maybe of a boolean
    in its type. *)
Theorem C106_views : forall t : ty,
  serializes (YRef (marker t)) (marker t) <-> ~ sp_writes_structure t /\ ~ sp_writes_maybe_bool t.
Proof. exact view_claim. Qed.
Print Assumptions C106_views.
Example C106_views_case :
  serializes (YRef (marker (TA (TM (TA TI))))) (marker (TA (TM (TA TI)))) /\
  sp_writes_structure (TA (TTuple [TI])) /\ sp_writes_maybe_bool (TA (TM TB)).
Proof.
  split; [|split].
  - repeat (eapply s_array || eapply s_maybe || eapply s_slice || constructor); reflexivity.
  - left. vm_compute. tauto.
  - exists (bs "a"), []. reflexivity.
Qed.
(** Values of every type can be passed, also as a member of a structure. *)
Theorem C106_every_type : forall t : ty, serializes (sp_natural t) (marker t) /\ is_copy (sp_natural t) = true.
Proof. exact natural_claim. Qed.
Print Assumptions C106_every_type.
Example C106_every_type_case :
  sp_natural (TTuple [TB; TA TS; TM TI]) = YRef (YTuple [YRef YBool; YArray (YRef YStr); YRef (YOption YI32)]).
Proof. reflexivity. Qed.
(** What is passed as a structure is a reference to a tuple of as many members as the
    structure has, and no member has anything in it that cannot be copied. *)
Theorem C106_members : forall (t : ty) (s : rty), serializes s (GStruct t) ->
  exists rs, s = YRef (YTuple rs) /\ length rs = length (children_of t) /\
    (forall r x, In r rs -> sp_holds r x -> ~ sp_uncopied x).
Proof. exact members_claim. Qed.
Print Assumptions C106_members.
Example C106_members_case :
  let s := YRef (YTuple [YOption (YRef YStr); YRef YString]) in
  serializes s (GStruct (TTuple [TM TS; TS])) /\
  ~ serializes (YRef (YTuple [YOption (YBox YU8); YU8])) (GStruct (TTuple [TM TY; TY])).
Proof.
  cbv zeta. split.
  - apply s_struct. cbn [children_of]. constructor; [eapply s_maybe; [reflexivity|constructor]|reflexivity|].
    constructor; [apply s_string|reflexivity|constructor].
  - intros H. apply members_claim in H as (rs & E & _ & Hx). injection E as <-.
    apply (Hx _ (YBox YU8) (or_introl eq_refl)); [apply h_option, h_here|exact I].
Qed.
(** [Copy] is exactly that. *)
Theorem C106_copy : forall r : rty, is_copy r = true <-> forall x, sp_holds r x -> ~ sp_uncopied x.
Proof. exact copy_claim. Qed.
Print Assumptions C106_copy.
Example C106_copy_case : is_copy (YTuple [YArray (GWrap TS (YRef YString)); GStruct (TTuple [TI; TI])]) = true /\
  is_copy (YTuple [YArray YString]) = false.
Proof. split; reflexivity. Qed.
(** What rustc accepts is a value the theorems about serialising (C21 and others)
    are about. *)
Theorem C106_accepted_values : forall (s : rty) (t : ty) (v : rval),
  serializes s (marker t) -> value_of v s -> rtyped t (seen t v).
Proof. exact typed_claim. Qed.
Print Assumptions C106_accepted_values.
Example C106_accepted_case :
  let s := YRef (YTuple [YOption (YRef YStr); YRef (YSlice YI32)]) in let t := TTuple [TA TS; TA TI] in
  let v := RTuple [ROpt (Some (RStr (bs "x"))); RList [RInt 1; RInt (-1)]] in
  serializes s (marker t) /\ value_of v s /\ seen t v = RTuple [RList [RStr (bs "x")]; RList [RInt 1; RInt (-1)]].
Proof.
  split; [|split; [|reflexivity]].
  - apply s_struct. cbn [children_of]. constructor; [eapply s_array; [reflexivity|constructor]|reflexivity|].
    constructor; [eapply s_slice; [reflexivity|constructor; reflexivity|reflexivity]|reflexivity|constructor].
  - apply v_ref, v_tuple. apply ms_cons; [|apply ms_cons; [|apply ms_nil]].
    + eapply v_some; [left; reflexivity|]. apply v_ref, v_str. exists [120]. split; [repeat constructor|reflexivity].
    + apply v_ref. eapply v_seq; [left; reflexivity|].
      repeat apply vs_cons; try apply vs_nil; apply v_i32; split; reflexivity || discriminate.
Qed.
