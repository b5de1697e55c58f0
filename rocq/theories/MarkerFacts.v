(** The Rust type expressions the macros produce: proofs. *)
From Verif Require Import Base Types Layout Spec BaseFacts TypesFacts Marker MarkerSpec.
From Coq Require Import Lia ZifyBool ZifyNat ZifyN.

(** ** Different types get different Rust types *)
Lemma rust_size a : size_of (sp_rust a) = size_of a.
Proof. destruct a; reflexivity. Qed.
Lemma marker_rust a : marker_type (sp_rust a) = marker_type a.
Proof. induction a; try reflexivity; cbn [sp_rust marker_type]; rewrite rust_size, IHa; reflexivity. Qed.
Lemma marker_inj a : forall b, marker_type a = marker_type b -> sp_rust a = sp_rust b.
Proof.
  induction a using ty_ind'; intros b E;
    destruct b as [| | | | | | | | | | | | |x|x|us|k v]; try reflexivity; cbn [marker_type sp_rust] in *;
    repeat match goal with
    | H : context [match size_of ?x with _ => _ end] |- _ => destruct (size_of x) eqn:?
    end; try discriminate E.
  all: try (apply app_inv_head in E; apply app_inv_tail in E; f_equal; auto; fail).
  all: try (apply app_inv_head in E; apply struct_name_inj in E; auto; fail).
Qed.
Lemma marker_claim a b : marker_type a = marker_type b <-> sp_rust a = sp_rust b.
Proof.
  split; [apply marker_inj|]. intros E. rewrite <- (marker_rust a), <- (marker_rust b). now rewrite E.
Qed.

(** ** The names a type mentions *)
Definition word (s : list byte) : Prop := s <> [] /\ forallb sp_word_char s = true.
Lemma words_run s : forall cur, forallb sp_word_char s = true -> forall rest,
  sp_words_from cur (s ++ rest) = sp_words_from (cur ++ s) rest.
Proof.
  induction s as [|b s IH]; intros cur H rest; [now rewrite app_nil_r|]. cbn [forallb] in H.
  apply andb_prop in H as [Hb Hs]. cbn [app sp_words_from]. rewrite Hb, IH by assumption. now rewrite <- app_assoc.
Qed.
Lemma words_word s : word s -> sp_words s = [s].
Proof.
  intros [Hn Hw]. unfold sp_words. rewrite <- (app_nil_r s) at 1. rewrite words_run by assumption.
  cbn [app sp_words_from]. destruct s; [congruence|reflexivity].
Qed.
(** Text that ends in a separator splits. *)
Lemma words_from_app a : forall cur x b, sp_word_char x = false ->
  sp_words_from cur (a ++ x :: b) = sp_words_from cur a ++ sp_words b.
Proof.
  induction a as [|c a IH]; intros cur x b Hx; cbn [app sp_words_from].
  - rewrite Hx. reflexivity.
  - destruct (sp_word_char c); [now apply IH|]. rewrite IH by assumption. now rewrite app_assoc.
Qed.
Lemma words_app a x b : sp_word_char x = false -> sp_words (a ++ x :: b) = sp_words a ++ sp_words b.
Proof. apply words_from_app. Qed.
Lemma ident_word s : Forall ident_char s -> forallb sp_word_char s = true.
Proof.
  intros H. apply forallb_forall. intros c Hc. rewrite Forall_forall in H. specialize (H c Hc).
  unfold ident_char in H. unfold sp_word_char, b2n. lia.
Qed.
Lemma struct_word t : word (bs "Structure" ++ struct_name t).
Proof.
  split; [discriminate|]. rewrite forallb_app. rewrite (ident_word (struct_name t)) by apply struct_name_ident. reflexivity.
Qed.
Lemma words_angle p m : word p -> sp_words (p ++ bs "::<" ++ m ++ bs ">") = p :: sp_words m.
Proof.
  intros Hp. change (bs "::<" ++ m ++ bs ">") with (":" :: ":" :: "<" :: m ++ bs ">")%byte.
  rewrite words_app by reflexivity. rewrite words_word by assumption. cbn [app]. f_equal.
  change (sp_words (":" :: "<" :: m ++ bs ">")%byte) with (sp_words (m ++ bs ">")).
  change (bs ">") with ([">"])%byte. rewrite words_app by reflexivity. apply app_nil_r.
Qed.
Lemma words_square m : sp_words (bs "[" ++ m ++ bs "]") = sp_words m.
Proof.
  change (sp_words (bs "[" ++ m ++ bs "]")) with (sp_words (m ++ bs "]")).
  change (bs "]") with (["]"])%byte. rewrite words_app by reflexivity. apply app_nil_r.
Qed.
Lemma marker_words t w : In w (sp_words (marker_type t)) ->
  In w sp_builtin \/ exists s, In s (generate_types t) /\ w = bs "Structure" ++ struct_name s.
Proof.
  induction t as [| | | | | | | | | | | | |x IH|x IH|ts|k IHk v IHv]; cbn [marker_type generate_types]; intros H.
  1-13: left; destruct H as [<-|[]]; cbn [sp_builtin In]; tauto.
  - destruct (size_of x).
    + rewrite words_square in H. auto.
    + change (bs "NonFixedWidthArray::<") with (bs "NonFixedWidthArray" ++ bs "::<") in H. rewrite <- app_assoc in H.
      rewrite words_angle in H by (split; [discriminate|reflexivity]). destruct H as [<-|H]; [|auto]. left. cbn [sp_builtin In]; tauto.
  - destruct (size_of x).
    + change (bs "MaybeFixedSize::<") with (bs "MaybeFixedSize" ++ bs "::<") in H. rewrite <- app_assoc in H.
      rewrite words_angle in H by (split; [discriminate|reflexivity]). destruct H as [<-|H]; [|auto]. left. cbn [sp_builtin In]; tauto.
    + change (bs "MaybeNonFixedSize::<") with (bs "MaybeNonFixedSize" ++ bs "::<") in H. rewrite <- app_assoc in H.
      rewrite words_angle in H by (split; [discriminate|reflexivity]). destruct H as [<-|H]; [|auto]. left. cbn [sp_builtin In]; tauto.
  - rewrite words_word in H by apply struct_word. destruct H as [<-|[]]. right. exists (TTuple ts). split; [|reflexivity].
    apply in_or_app. right. now left.
  - rewrite words_word in H by apply struct_word. destruct H as [<-|[]]. right. exists (TDict k v). split; [|reflexivity].
    apply in_or_app. right. apply in_or_app. right. now left.
Qed.
Lemma occurs_trans a b c : sp_occurs a b -> sp_occurs b c -> sp_occurs a c.
Proof. intros Hab Hbc. induction Hbc; [assumption|]. econstructor 2; eauto. Qed.
Lemma field_words t s f w : In s (generate_types t) -> In f (struct_field_types s) -> In w (sp_words f) ->
  In w sp_builtin \/ exists s', In s' (generate_types t) /\ w = bs "Structure" ++ struct_name s'.
Proof.
  intros Hs Hf Hw. unfold struct_field_types in Hf. apply in_map_iff in Hf as (c & <- & Hc).
  destruct (marker_words c w Hw) as [H|(s' & Hs' & ->)]; [auto|]. right. exists s'. split; [|reflexivity].
  apply generate_types_iff in Hs as [Hst Ho]. apply generate_types_iff in Hs' as [Hst' Ho'].
  apply generate_types_iff. split; [assumption|]. apply occurs_trans with s; [|assumption].
  apply occ_in with c; [|assumption]. destruct s; cbn [children_of sp_components] in *; auto; destruct Hc.
Qed.
Lemma gv_type_claim x m : gv_type x = Ok m <-> exists t, x = sp_show t /\ m = marker_type t.
Proof.
  unfold gv_type. split.
  - destruct (one x) as [e|t] eqn:E; [discriminate|]. intros [= <-]. exists t. split; [|reflexivity]. now apply one_show in E.
  - intros (t & -> & ->). now rewrite (proj2 (one_show (sp_show t) t) eq_refl).
Qed.
Lemma gv_type_else x : gv_type x = Crash PUnwrap <-> forall t, x <> sp_show t.
Proof.
  unfold gv_type. split.
  - intros E t ->. now rewrite (proj2 (one_show (sp_show t) t) eq_refl) in E.
  - intros H. destruct (one x) as [e|t] eqn:E; [reflexivity|]. apply one_show in E. destruct (H t (eq_sym E)).
Qed.
Lemma gv_type_same_claim x y : type_string x -> type_string y -> gv_type x = gv_type y ->
  exists a b, x = sp_show a /\ y = sp_show b /\ sp_rust a = sp_rust b.
Proof.
  intros Hx Hy. apply one_accepts in Hx as [a Ha]. apply one_accepts in Hy as [b Hb]. unfold gv_type. rewrite Ha, Hb.
  intros [= E]. apply marker_inj in E. apply one_show in Ha, Hb. exists a, b. auto.
Qed.
