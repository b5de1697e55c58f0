(** How the declared types lie in memory, and which threads may use them: C157 and C158. *)
From Coq Require Import List NArith Init.Byte.
From Verif Require Import Base Types Layout AlignedBytes Spec Deser Histories LexSpec TextSpec Gen Decl DeclSpec DeclFacts DeclMore.
Import ListNotations.
Open Scope N_scope.

(** C157.  A reference spans just the bytes it is made from, as Rust sees its type, and
    is aligned for it. *)
Theorem C157_spans : forall (h : host) (t : ty) (r : slice), view h t r ->
  exists al, layout_of (count_of t r) (decl t) = Some (len (s_data r), al) /\ s_addr r mod al = 0.
Proof. exact spans_claim. Qed.
Print Assumptions C157_spans.
(** Types of fixed size have the size and alignment of the GVariant specification ... *)
Theorem C157_fixed : forall (t : ty) (k n : N), usable t -> sp_size t = Some k -> layout_of n (decl t) = Some (k, sp_align t).
Proof. exact fixed_claim. Qed.
Print Assumptions C157_fixed.
(** ... and the others, but for arrays of those, lie in memory like slices of bytes,
    whatever they contain. *)
Theorem C157_variable : forall (t : ty) (n : N), sp_size t = None -> (forall x, t = TA x -> sp_size x = None) ->
  layout_of n (decl t) = layout_of n bytes_decl.
Proof. exact variable_claim. Qed.
Print Assumptions C157_variable.
(** A reference to a type of fixed size is an address, to any other an address and a
    length, whatever the type; mutable or not. *)
Theorem C157_references : forall (t : ty) (n : N),
  layout_of n (MRef (decl t)) = Some (if sp_fixed t then 8 else 16, 8) /\ layout_of n (MRefMut (decl t)) = layout_of n (MRef (decl t)).
Proof. exact references_claim. Qed.
Print Assumptions C157_references.
(** What a [repr(transparent)] struct may have besides its one field takes no room. *)
Theorem C157_trivial : forall (m : mty) (n s a : N), is_trivial m = true -> layout_of n m = Some (s, a) -> s = 0 /\ a = 1.
Proof. exact trivial_claim. Qed.
Print Assumptions C157_trivial.
(** The structures are declared so in the text that [define_gv!] emits. *)
Theorem C157_emitted : forall (s : ty) (text : list byte) (its : list (list tree * list tree)),
  sp_is_struct s = true -> tuple_text s = Some text -> code text = Some its ->
  exists r ms fields ats, decl s = MStruct r ms /\
    fields_of its = Some (bs "Structure" ++ struct_name s, fields) /\ Forall2 (sp_declared s) fields ms /\
    attributes_of its = [ats] /\ exists a, In a ats /\ token_trees (sp_attribute r) = Some a.
Proof. exact emitted_claim. Qed.
Print Assumptions C157_emitted.
(** [(yu)], [a(yu)], [mu] and [as]; a struct that is [repr(transparent)] around two
    slices is refused. *)
Example C157_case : let yu := TTuple [TY; TU] in
  (usable yu /\ sp_size yu = Some 8 /\ sp_size (TM TU) = None) /\
  decl yu = MStruct LikeC [MNum 1; MPad 3; MNum 4] /\ layout_of 5 (decl yu) = Some (8, 4) /\
  layout_of 5 (decl (TA yu)) = Some (40, 4) /\ layout_of 5 (decl (TM TU)) = Some (5, 1) /\ layout_of 5 (decl (TA TS)) = Some (5, 1) /\
  count_of (TA yu) (Slice 16 (repeat x00 40)) = 5 /\
  layout_of 5 (MStruct Transparent [MPhantom MUnit; bytes_decl; bytes_decl]) = None /\
  layout_of 5 (MRef (decl yu)) = Some (8, 8) /\ layout_of 5 (MRef (decl (TTuple [TY; TS]))) = Some (16, 8) /\
  is_trivial (MStruct LikeC [MPhantom (MNum 4); MUnit]) = true /\ layout_of 5 (MStruct LikeC [MPhantom (MNum 4); MUnit]) = Some (0, 1).
Proof. vm_compute. repeat split. Qed.
Example C157_emitted_case : let s := TTuple [TY; TU] in exists text its,
  sp_is_struct s = true /\ tuple_text s = Some text /\ code text = Some its /\
  fields_of its = Some (bs "StructureCyu7", [Data 0 [Leaf (Ident (bs "u8"))]; Padding 0 3; Data 1 [Leaf (Ident (bs "u32"))]]).
Proof. eexists _, _. split; [reflexivity|]. split; [vm_compute; reflexivity|]. split; [vm_compute; reflexivity|]. vm_compute. reflexivity. Qed.
Example C157_view : view (Host false true true 0 0) (TA (TTuple [TY; TU])) (Slice 16 (repeat x00 40)).
Proof. exists (TA (TTuple [TY; TU])), (Slice 16 (repeat x00 40)). split; [vm_compute; repeat split|]. split; [reflexivity|]. split; [reflexivity|]. apply reach_cast. reflexivity. Qed.

(** C158.  Everything the crate hands out is [Send] and [Sync]: views of every type,
    references to them, owned values, iterators, buffers, strings, offsets and
    errors.  ([Sync] is needed for the [static] that is the default of a fixed-size
    structure, generate_impl.rs:486.) *)
Theorem C158_threads : forall t : ty,
  Forall (fun m => is_sync m = true /\ is_send m = true)
    [decl t; MRef (decl t); MRefMut (decl t); MVec (decl t); owned_decl t; MRef (owned_decl t);
     iterator_decl; aligned_decl; MRef aligned_decl; MRefMut aligned_decl;
     buf_decl; gstring_decl; offset_decl; error_decl; lossy_decl; guard_decl].
Proof. exact threads_claim. Qed.
Print Assumptions C158_threads.
(** There is no pointer and no cell anywhere in a type just if it is [Sync]. *)
Theorem C158_nothing_raw : forall m : mty, is_sync m = true <-> forall x, sp_inside m x -> ~ sp_raw x.
Proof. exact sync_iff. Qed.
Print Assumptions C158_nothing_raw.
(** One is [Send] just if there is no pointer in it, and no shared reference to what is not
    [Sync]. *)
Theorem C158_sends : forall m : mty, is_send m = true <-> forall x, sp_owned m x -> sp_sendable x.
Proof. exact send_iff. Qed.
Print Assumptions C158_sends.
(** [VariantWrap] is as good as what is in it. *)
Theorem C158_wrap : forall m : mty, is_sync (wrap_decl m) = is_sync m /\ is_send (wrap_decl m) = is_send m.
Proof. exact wrap_claim. Qed.
Print Assumptions C158_wrap.
Example C158_case :
  is_sync (decl (TA (TTuple [TS; TM TV]))) = true /\
  is_sync (wrap_decl (MCell (MNum 4))) = false /\ is_send (wrap_decl (MCell (MNum 4))) = true /\
  is_send (wrap_decl (MRef (MCell (MNum 4)))) = false /\ is_send (wrap_decl (MPtr (MNum 1))) = false.
Proof. repeat split. Qed.
