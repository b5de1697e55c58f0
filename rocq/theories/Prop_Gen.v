(** The code the macros emit, read as Rust tokens: C121 to C125. *)
From Verif Require Import Base Types Layout Spec MarkerSpec PrintSpec TableSpec LexSpec TextSpec NameSpec CoreFmt Marker Gen GenMain NameFacts.

(** * C121: what [define_gv!] emits is Rust text *)
(** For the type strings C05 allows, and no others, there is text; it is that of
    each structure in turn ... *)
Theorem C121_define_gv_emits : forall (x text : list byte),
  define_gv x = Ok text <-> exists t, x = sp_show t /\ macro_ok t = true /\ types_text t = Some text.
Proof. exact define_gv_iff. Qed.
Print Assumptions C121_define_gv_emits.
Theorem C121_else_define_gv_panics : forall x : list byte,
  ((forall t, x <> sp_show t) -> define_gv x = Crash PUnwrap) /\
  (forall t, x = sp_show t -> macro_ok t = false -> define_gv x = Crash POverflow).
Proof. exact define_gv_crash. Qed.
Print Assumptions C121_else_define_gv_panics.
Theorem C121_one_text_per_structure : forall t : ty, macro_ok t = true -> exists texts,
  map tuple_text (generate_types t) = map Some texts /\ types_text t = Some (concat texts).
Proof. exact types_text_claim. Qed.
Print Assumptions C121_one_text_per_structure.
(** ... pure ASCII, splits into Rust tokens with matching delimiters, is a
    sequence of items, and declares each structure in turn. *)
Theorem C121_text_is_items : forall t : ty, macro_ok t = true -> exists text its,
  types_text t = Some text /\ Forall (fun c => b2n c < 128) text /\ code text = Some its /\
  map fst (structs its) = map (fun s => bs "Structure" ++ struct_name s) (generate_types t).
Proof. exact types_code. Qed.
Print Assumptions C121_text_is_items.
Theorem C121_structure_text_is_items : forall s : ty,
  struct_macro_ok s = true <-> exists text its, tuple_text s = Some text /\ code text = Some its.
Proof. exact structure_read. Qed.
Print Assumptions C121_structure_text_is_items.
(** [gv_type!] and the type inside [gv!]. *)
Theorem C121_type_text_is_tokens : forall t : ty, exists T, token_trees (marker_type t) = Some T.
Proof. exact gv_type_trees. Qed.
Print Assumptions C121_type_text_is_tokens.
Example C121_case :
  match define_gv (bs "a{s(iym(su))}") with
  | Ok text => match code text with Some its => Some (map fst (structs its)) | None => None end
  | Crash _ => None
  end = Some [bs "StructureCsu7"; bs "StructureCiymCsu77"; bs "StructureFsCiymCsu773"].
Proof. vm_compute. reflexivity. Qed.
Example C121_case_panics : define_gv (bs "(yii)") = Crash POverflow /\ define_gv (bs "(s") = Crash PUnwrap.
Proof. split; reflexivity. Qed.
(** Not everything is a sequence of tokens: these are not.  (Documentation comments are
    attributes to Rust, and not read here; other comments are nothing.) *)
Example C121_case_not_tokens : token_trees (bs "impl X { fn f() -> u8 { 0 }") = None /\ token_trees (bs "a(]") = None /\
  token_trees (bs "b""open") = None /\ token_trees (bs "/// a") = None /\ token_trees (bs "//! a") = None /\
  token_trees (bs "// a") = Some [].
Proof. repeat split; reflexivity. Qed.

(** * C122: what it declares *)
(** Structures of variable size: aligned bytes. *)
Theorem C122_variable_structure : forall (s : ty) (text : list byte) (its : list (list tree * list tree)),
  sp_size s = None -> tuple_text s = Some text -> code text = Some its ->
  fields_of its = Some (bs "Structure" ++ struct_name s, [Bytes (sp_align s)]).
Proof. exact variable_declared. Qed.
Print Assumptions C122_variable_structure.
(** Structures of fixed size: a field for each component, of its type; with the
    padding fields between, each lies where GVariant has the component, and the
    last ends where the structure ends; field names are distinct.  [new] takes one
    parameter per component, of the same types, sets each field to it, and the
    padding to zeros of its length. *)
Theorem C122_fixed_structure : forall (s : ty) (n : N) (szs : list N) (text : list byte) (its : list (list tree * list tree)),
  sp_is_struct s = true -> sp_size s = Some n -> map sp_size (sp_components s) = map Some szs ->
  tuple_text s = Some text -> code text = Some its ->
  exists fields types, fields_of its = Some (bs "Structure" ++ struct_name s, fields) /\
    Forall2 (fun c T => token_trees (marker_type c) = Some T) (sp_components s) types /\
    pick data_of fields = combine (map N.of_nat (seq 0 (length szs))) types /\
    NoDup (pick padding_of fields) /\
    positions 0 szs fields = Some (sp_field_offsets 0 (combine (map sp_align (sp_components s)) szs), n) /\
    parameters_of its = Some (bs "Structure" ++ struct_name s, combine (map N.of_nat (seq 0 (length szs))) types) /\
    inits_of its = Some (bs "Structure" ++ struct_name s, map init_of fields).
Proof. exact fields_claim. Qed.
Print Assumptions C122_fixed_structure.
Theorem C122_alignment : forall (s : ty) (text : list byte) (its : list (list tree * list tree)),
  sp_is_struct s = true -> tuple_text s = Some text -> code text = Some its ->
  declared_align its = Some (bs "Structure" ++ struct_name s, sp_align s).
Proof. exact alignment_declared. Qed.
Print Assumptions C122_alignment.
Theorem C122_traits : forall (s : ty) (text : list byte) (its : list (list tree * list tree)),
  sp_is_struct s = true -> tuple_text s = Some text -> code text = Some its ->
  map fst (impls its) = map (fun tr => (tr, bs "Structure" ++ struct_name s))
    (match sp_size s with
     | None => [bs "ToOwned"; bs "Cast"; bs "AllBitPatternsValid"; bs "AlignOf"; bs "Structure"; bs "PartialEq"; bs "SerializeTo"; bs "Debug"]
     | Some _ => [bs "AllBitPatternsValid"; bs "AlignOf"; bs "Structure"; bs "Cast"; bs "PartialEq"; bs "SerializeTo"; bs "Debug"]
     end).
Proof. exact impls_declared. Qed.
Print Assumptions C122_traits.
Example C122_case : let s := TTuple [TY; TN; TX] in
  sp_size s = Some 16 /\ map sp_size (sp_components s) = map Some [1; 2; 8] /\
  (get text <- tuple_text s; get its <- code text; get (nm, fields) <- fields_of its; get ps <- positions 0 [1; 2; 8] fields;
   Some (nm, fields, ps)) =
  Some (bs "StructureCynx7",
    [Data 0 [Leaf (Ident (bs "u8"))]; Padding 0 1; Data 1 [Leaf (Ident (bs "i16"))]; Padding 1 4; Data 2 [Leaf (Ident (bs "i64"))]],
    ([0; 2; 8], 16)).
Proof. repeat split; vm_compute; reflexivity. Qed.
Example C122_case_variable : (get text <- tuple_text (TTuple [TS; TX]); get its <- code text; fields_of its) = Some (bs "StructureCsx7", [Bytes 8]).
Proof. vm_compute. reflexivity. Qed.

(** * C123: what the emitted functions do *)
(** [to_tuple] of a variable-size structure reads each component with the row the
    GVariant paper computes for it, its type and size, and the number of framing
    offsets; only the last with [last_child]. *)
Theorem C123_reads_every_component : forall (s : ty) (text : list byte) (its : list (list tree * list tree)),
  sp_is_struct s = true -> sp_size s = None -> tuple_text s = Some text -> code text = Some its ->
  exists calls, calls_of its = Some calls /\
    Forall2 (fun c k => token_trees (marker_type c) = Some (c_type k)) (sp_components s) calls /\
    map (fun k => (c_i k, c_a k, c_b k, c_c k)) calls =
      map (fun r => let '(i, a, b, c) := r in (i, a, 2 ^ b, c)) (py_generate_table (map py_item (sp_components s))) /\
    map c_size calls = map sp_size (sp_components s) /\
    map c_last calls = repeat false (pred (length (sp_components s))) ++ [true] /\
    Forall (fun k => c_offsets k = sp_n_offsets (map (fun t => (sp_align t, sp_size t)) (sp_components s))) calls.
Proof. exact calls_claim. Qed.
Print Assumptions C123_reads_every_component.
(** Its [serialize], given what serialising each component writes, writes the
    structure's serialisation: what the statements write and then, from [off] and
    [framing_offsets], the offsets. *)
Theorem C123_writes_the_structure : forall (s : ty) (text : list byte) (its : list (list tree * list tree)) (ds : list (list byte)),
  sp_is_struct s = true -> sp_size s = None -> tuple_text s = Some text -> code text = Some its ->
  Forall2 (fun c d => forall n, sp_size c = Some n -> len d = n) (sp_components s) ds ->
  exists n l body frames, statements_of its = Some (n, l) /\
    perform ds l 0 (repeat 0 (N.to_nat n)) = Some (body, len body, frames) /\
    body ++ sp_offsets (len body) frames =
    sp_struct_bytes None (map (fun c => (sp_align c, sp_size c)) (sp_components s)) ds.
Proof. exact variable_writes. Qed.
Print Assumptions C123_writes_the_structure.
(** [serialize] of a fixed-size structure, which returns the size of it. *)
Theorem C123_writes_the_fixed_structure : forall (s : ty) (n : N) (text : list byte) (its : list (list tree * list tree)) (ds : list (list byte)),
  sp_is_struct s = true -> sp_size s = Some n -> tuple_text s = Some text -> code text = Some its ->
  Forall2 (fun c d => forall n, sp_size c = Some n -> len d = n) (sp_components s) ds ->
  exists l, fixed_statements_of its = Some (l, [Leaf (Ident (bs "Structure" ++ struct_name s))]) /\
    perform ds l 0 [] = Some (sp_struct_bytes (Some n) (map (fun c => (sp_align c, sp_size c)) (sp_components s)) ds, 0, []).
Proof. exact fixed_writes. Qed.
Print Assumptions C123_writes_the_fixed_structure.
(** Its [to_tuple] has, and its [eq] compares, each field once; [default_ref] has
    one [0] per component. *)
Theorem C123_every_field_once : forall (s : ty) (n : N) (text : list byte) (its : list (list tree * list tree)),
  sp_is_struct s = true -> sp_size s = Some n -> tuple_text s = Some text -> code text = Some its ->
  let numbers := map N.of_nat (seq 0 (length (sp_components s))) in let nm := bs "Structure" ++ struct_name s in
  refs_of its = Some numbers /\ equality_of its = Some numbers /\ default_of its = Some (nm, nm, length (sp_components s)).
Proof. exact fixed_members. Qed.
Print Assumptions C123_every_field_once.
Example C123_case : let s := TTuple [TS; TY; TI; TA TS; TN] in
  sp_size s = None /\
  (get text <- tuple_text s; get its <- code text; get calls <- calls_of its; Some (map (fun k => (c_i k, c_a k, c_b k, c_c k)) calls)) =
    Some [((-1)%Z, 0, 1, 0); (0%Z, 0, 1, 0); (0%Z, 1, 4, 0); (0%Z, 1, 4, 4); (1%Z, 0, 2, 0)] /\
  (get text <- tuple_text s; get its <- code text; get (n, l) <- statements_of its;
   Some (n, l, perform [bs "ab" ++ [x00]; [x07]; [x01; x02; x03; x04]; []; [x05; x06]] l 0 [0; 0])) =
    Some (2, [ChildAdvance 0; Frame 1; Child 1; Advance 1; WritePad 4; Child 2; Advance 4; ChildAdvance 3; Frame 0; WritePad 2; Child 4; Advance 2],
      Some (bs "ab" ++ [x00; x07; x01; x02; x03; x04; x05; x06], 10, [8; 3])).
Proof. repeat split; vm_compute; reflexivity. Qed.
Example C123_case_fixed : (get text <- tuple_text (TTuple [TI; TY]); get its <- code text; get (l, _) <- fixed_statements_of its;
   get d <- default_of its; Some (l, perform [[x01; x02; x03; x04]; [x05]] l 0 [], d)) =
  Some ([Child 0; Child 1; WriteZeros 3], Some ([x01; x02; x03; x04; x05; x00; x00; x00], 0, []), (bs "StructureCiy7", bs "StructureCiy7", 2%nat)).
Proof. vm_compute. reflexivity. Qed.

(** * C124: the rest of the code *)
(** Structures of variable size are [repr(transparent)], those of fixed size
    [repr(C)]. *)
Theorem C124_representation : forall (s : ty) (text : list byte) (its : list (list tree * list tree)),
  sp_is_struct s = true -> tuple_text s = Some text -> code text = Some its ->
  exists ats, attributes_of its = [ats] /\
    Forall2 (fun a T => token_trees a = Some T)
      (match sp_size s with None => [bs "repr(transparent)"] | Some _ => [bs "derive(Default, Copy, Clone)"; bs "repr(C)"] end) ats.
Proof. exact representation_claim. Qed.
Print Assumptions C124_representation.
(** The three unsafe casts are from aligned bytes with the alignment the structure
    is made of, by C122_variable_structure, and to that structure. *)
Theorem C124_casts : forall (s : ty) (text : list byte) (its : list (list tree * list tree)),
  sp_is_struct s = true -> sp_size s = None -> tuple_text s = Some text -> code text = Some its ->
  let nm := bs "Structure" ++ struct_name s in
  casts_of its = Some [(bs "d", sp_align s, nm); (bs "slice", sp_align s, nm); (bs "slice", sp_align s, nm)].
Proof. exact casts_claim. Qed.
Print Assumptions C124_casts.
(** [RefTuple], the result of [to_tuple] and the tuple the structure converts to
    have the type of each component; so do the parameters of [SerializeTo], and
    what is serialised is a tuple of all of them in order. *)
Theorem C124_tuples : forall (s : ty) (text : list byte) (its : list (list tree * list tree)),
  sp_is_struct s = true -> tuple_text s = Some text -> code text = Some its ->
  exists types, Forall2 (fun c T => token_trees (marker_type c) = Some T) (sp_components s) types /\
    let nm := bs "Structure" ++ struct_name s in let numbers := map N.of_nat (seq 0 (length (sp_components s))) in
    tuples_of its = Some ([types; types; types], nm) /\ serializable its = Some (combine numbers types, nm, numbers).
Proof. exact tuples_claim. Qed.
Print Assumptions C124_tuples.
(** The other bodies. *)
Theorem C124_delegates : forall (s : ty) (text : list byte) (its : list (list tree * list tree)),
  sp_is_struct s = true -> tuple_text s = Some text -> code text = Some its ->
  body_is (bs "value.to_tuple()") (get it <- from_item its; fn_body (bs "from") (snd it)) = true /\
  body_is (bs "std::fmt::Debug::fmt(&self.to_tuple(), f)") (method (bs "Debug") (bs "fmt") its) = true /\
  match sp_size s with
  | None =>
      body_is (bs "self.to_tuple() == other.to_tuple()") (method (bs "PartialEq") (bs "eq") its) = true /\
      body_is (bs "Owned::from_bytes(&*self.data)") (method (bs "ToOwned") (bs "to_owned") its) = true
  | Some _ =>
      body_is (bs "::gvariant::casting::try_cast_slice_to::<Self>(slice)") (method (bs "Cast") (bs "try_from_aligned_slice") its) = true /\
      body_is (bs "::gvariant::casting::try_cast_slice_to_mut::<Self>(slice)") (method (bs "Cast") (bs "try_from_aligned_slice_mut") its) = true
  end.
Proof. exact delegates_claim. Qed.
Print Assumptions C124_delegates.
Example C124_case : let s := TTuple [TS; TM TI] in
  sp_size s = None /\
  (get text <- tuple_text s; get its <- code text; get c <- casts_of its; get t <- tuples_of its; get x <- serializable its; Some (attributes_of its, c, t, x)) =
  (let nm := bs "StructureCsmi7" in
   let types := [[Leaf (Ident (bs "Str"))]; [Leaf (Ident (bs "MaybeFixedSize")); Leaf (Punct ":"); Leaf (Punct ":"); Leaf (Punct "<"); Leaf (Ident (bs "i32")); Leaf (Punct ">")]] in
   Some ([[[Leaf (Ident (bs "repr")); Group Paren [Leaf (Ident (bs "transparent"))]]]],
         [(bs "d", 4, nm); (bs "slice", 4, nm); (bs "slice", 4, nm)], ([types; types; types], nm),
         (combine [0; 1] types, nm, [0; 1]))).
Proof. split; vm_compute; reflexivity. Qed.
Example C124_case_fixed : let s := TTuple [TI; TY] in
  sp_size s = Some 8 /\
  (get text <- tuple_text s; get its <- code text; Some (map (@length (list tree)) (attributes_of its))) = Some [2%nat] /\
  body_is (bs "value.to_tuple()") (Some [Leaf (Ident (bs "value"))]) = false.
Proof. repeat split; vm_compute; reflexivity. Qed.

(** * C125: the words of the emitted code *)
(** Every word of the text is Rust's, or a library's, or gvariant's, or one of the
    few names of the templates, or a structure the same text declares; so is every
    word of the type [gv!] puts beside it. *)
Theorem C125_words : forall (t : ty) (text : list byte) (its : list (list tree * list tree)) (ts : list token) (w : list byte),
  types_text t = Some text -> code text = Some its -> lex Gap text = Some ts -> In (Ident w) ts ->
  may_use (map fst (structs its)) w.
Proof. exact text_words. Qed.
Print Assumptions C125_words.
Theorem C125_words_of_the_type : forall (t : ty) (text : list byte) (its : list (list tree * list tree)) (ts : list token) (w : list byte),
  types_text t = Some text -> code text = Some its -> lex Gap (marker_type t) = Some ts -> In (Ident w) ts ->
  may_use (map fst (structs its)) w.
Proof. exact type_words. Qed.
Print Assumptions C125_words_of_the_type.
(** No structure takes the name of anything else. *)
Theorem C125_names_are_new : forall (t : ty) (text : list byte) (its : list (list tree * list tree)) (w : list byte),
  types_text t = Some text -> code text = Some its -> In w (map fst (structs its)) ->
  ~ In w vocabulary /\ numbered_word w = false.
Proof. exact declared_new. Qed.
Print Assumptions C125_names_are_new.
Example C125_case : let t := TA (TDict TS (TTuple [TI; TY])) in
  (get text <- types_text t; get its <- code text; get ts <- lex Gap text; get us <- lex Gap (marker_type t);
   Some (map fst (structs its), existsb (token_eqb (Ident (bs "get_child_elem"))) ts, existsb (token_eqb (Ident (bs "StructureCiy7"))) ts, us)) =
  Some ([bs "StructureCiy7"; bs "StructureFsCiy73"], true, true,
        [Ident (bs "NonFixedWidthArray"); Punct ":"; Punct ":"; Punct "<"; Ident (bs "StructureFsCiy73"); Punct ">"]).
Proof. vm_compute. reflexivity. Qed.
Example C125_case_unknown : ~ may_use [bs "StructureCiy7"] (bs "StructureCsu7") /\ numbered_word (bs "field_12") = true.
Proof.
  split; [|reflexivity]. intros [H|[H|[H|[]]]]; [|discriminate|discriminate].
  vm_compute in H. repeat (destruct H as [H|H]; [discriminate|]). exact H.
Qed.
