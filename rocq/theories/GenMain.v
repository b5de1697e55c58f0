(** The generated text against the specification: proofs. *)
From Coq Require Import Lia.
From Verif Require Import Base Types Layout Spec MarkerSpec PrintSpec TableSpec LexSpec TextSpec BaseFacts AlignedBytes TypesFacts LayoutFacts StructFacts EncFacts TableFacts CoreFmt Marker Ser SerStruct Gen LexFacts GenFacts GenClaims.

(** ** The text as a whole *)
Lemma all_some_app {A} (a b : list (option A)) :
  all_some (a ++ b) = match all_some a, all_some b with Some x, Some y => Some (x ++ y) | _, _ => None end.
Proof.
  induction a as [|[x|] a IH]; cbn [app all_some]; [now destruct (all_some b)| |reflexivity].
  rewrite IH. now destruct (all_some a), (all_some b).
Qed.
Lemma types_text_all t : types_text t = option_map (@concat byte) (all_some (map tuple_text (generate_types t))).
Proof.
  induction t as [| | | | | | | | | | | | |x IH|x IH|l IH|k v IHk IHv] using ty_ind'; try reflexivity; try exact IH.
  - cbn [types_text generate_types]. rewrite map_app, all_some_app. cbn [map all_some].
    match goal with |- match ?f l with _ => _ end = _ =>
      assert (E : f l = option_map (@concat byte) (all_some (map tuple_text (concat (map generate_types l)))))
    end.
    { clear -IH. induction IH as [|x l Hx _ IHl]; [reflexivity|]. rewrite Hx, IHl. cbn [map concat].
      rewrite map_app, all_some_app. destruct (all_some (map tuple_text (generate_types x))), (all_some _); try reflexivity.
      cbn [option_map]. now rewrite concat_app. }
    rewrite E. destruct (all_some _); [|reflexivity]. cbn [option_map]. destruct (tuple_text _); [|reflexivity].
    cbn [option_map]. rewrite concat_app. cbn [concat]. now rewrite app_nil_r.
  - cbn [types_text generate_types]. rewrite !map_app, !all_some_app. cbn [map all_some]. rewrite IHk, IHv.
    destruct (all_some (map tuple_text (generate_types k))), (all_some (map tuple_text (generate_types v))), (tuple_text _); try reflexivity.
    cbn [option_map]. rewrite !concat_app. cbn [concat]. now rewrite app_nil_r.
Qed.

Lemma packed_text_none t : packed_struct t = None -> packed_text t = None.
Proof. intros E. unfold packed_text. now rewrite E. Qed.
Lemma tuple_text_var t : is_fixed t = false -> tuple_text t = Some (non_fixed_text t ++ debug_text (struct_name t)).
Proof. intros E. unfold tuple_text. now rewrite E. Qed.
Lemma tuple_text_packed t out : is_fixed t = true -> packed_text t = Some out -> tuple_text t = Some (out ++ debug_text (struct_name t)).
Proof. intros E H. unfold tuple_text. now rewrite E, H. Qed.
Lemma macro_ok_fixed t : is_fixed t = true -> struct_macro_ok t = match packed_struct t with Some _ => true | None => false end.
Proof. intros E. unfold struct_macro_ok. now rewrite E. Qed.

(** What is common to both kinds of structure. *)
Lemma tuple_code t : struct_macro_ok t = true -> exists text T its b,
  tuple_text t = Some text /\ ctrees text T /\ items T = Some its /\ structs its = [(bs "Structure" ++ struct_name t, b)].
Proof.
  intros Hm. destruct (is_fixed t) eqn:Ef.
  - rewrite macro_ok_fixed in Hm by assumption. destruct (packed_struct t) as [[pads final]|] eqn:Ep; [|discriminate].
    destruct (packed_items t pads final Ep) as (out & T & its & E1 & E2 & E3 & (b & E4 & _) & _).
    exists (out ++ debug_text (struct_name t)), T, its, b. auto using tuple_text_packed.
  - destruct (non_fixed_items t) as (T & its & E2 & E3 & (b & E4 & _) & _).
    exists (non_fixed_text t ++ debug_text (struct_name t)), T, its, b. auto using tuple_text_var.
Qed.
Lemma tuple_text_some t : (exists text, tuple_text t = Some text) <-> struct_macro_ok t = true.
Proof.
  split.
  - intros [text E]. destruct (is_fixed t) eqn:Ef; [|unfold struct_macro_ok; now rewrite Ef].
    rewrite macro_ok_fixed by assumption. destruct (packed_struct t) eqn:Ep; [reflexivity|].
    unfold tuple_text in E. rewrite Ef, packed_text_none in E by assumption. discriminate.
  - intros H. destruct (tuple_code t H) as (text & T & its & b & E & _). eauto.
Qed.
Lemma items_from_app a : forall hd b l m, items_from hd a = Some l -> items b = Some m -> items_from hd (a ++ b) = Some (l ++ m).
Proof.
  induction a as [|t a IH]; intros hd b l m Ha Hb.
  - cbn in Ha. destruct hd; [|discriminate]. injection Ha as <-. exact Hb.
  - destruct t as [t|d g]; [cbn [items_from app] in *; now apply IH|].
    destruct d; try (cbn [items_from app] in *; now apply IH).
    cbn [items_from app] in *. destruct (items_from [] a) as [l'|] eqn:E; [|discriminate]. injection Ha as <-.
    now rewrite (IH [] b l' m E Hb).
Qed.
Lemma pick_app {A B} (f : A -> option B) a b : pick f (a ++ b) = pick f a ++ pick f b.
Proof. induction a as [|x a IH]; [reflexivity|]. cbn [app pick]. rewrite IH. now destruct (f x). Qed.
Lemma texts_code l : forallb struct_macro_ok l = true -> exists texts T its,
  map tuple_text l = map Some texts /\ ctrees (concat texts) T /\ items T = Some its /\
  map fst (structs its) = map (fun t => bs "Structure" ++ struct_name t) l.
Proof.
  induction l as [|t l IH]; cbn [forallb]; intros H.
  - exists [], [], []. repeat split; reflexivity || apply ctrees_nil.
  - apply andb_prop in H as [Ht H]. destruct (IH H) as (texts & T & its & E1 & E2 & E3 & E4).
    destruct (tuple_code t Ht) as (x & X & xs & b & F1 & F2 & F3 & F4).
    exists (x :: texts), (X ++ T), (xs ++ its). cbn [map concat]. rewrite F1, E1. split; [reflexivity|]. split; [now apply ctrees_app|].
    split; [now apply items_from_app|]. unfold structs. rewrite pick_app, map_app. fold (structs xs) (structs its). now rewrite F4, E4.
Qed.

Lemma types_text_claim t : macro_ok t = true -> exists texts,
  map tuple_text (generate_types t) = map Some texts /\ types_text t = Some (concat texts).
Proof.
  intros H. destruct (texts_code (generate_types t) H) as (texts & _ & _ & E & _). exists texts. split; [assumption|].
  rewrite types_text_all. apply all_some_Some in E. now rewrite E.
Qed.
Lemma types_text_none t : macro_ok t = false -> types_text t = None.
Proof.
  intros H. rewrite types_text_all. destruct (all_some _) as [texts|] eqn:E; [|reflexivity].
  apply all_some_Some in E. exfalso. enough (macro_ok t = true) by congruence.
  apply forallb_forall. intros s Hs. apply tuple_text_some.
  assert (Hin : In (tuple_text s) (map Some texts)) by (rewrite <- E; now apply in_map).
  apply in_map_iff in Hin as (x & Hx & _). eauto.
Qed.
Lemma trees_ascii s T : token_trees s = Some T -> Forall (fun c => b2n c < 128) s.
Proof. unfold token_trees. destruct (lex Gap s) as [ts|] eqn:E; [|discriminate]. intros _. eapply lex_ascii; eauto. Qed.
Lemma types_code t : macro_ok t = true -> exists text its,
  types_text t = Some text /\ Forall (fun c => b2n c < 128) text /\ code text = Some its /\
  map fst (structs its) = map (fun s => bs "Structure" ++ struct_name s) (generate_types t).
Proof.
  intros H. destruct (texts_code (generate_types t) H) as (texts & T & its & E1 & E2 & E3 & E4).
  apply ctrees_trees, trees_whole in E2. exists (concat texts), its.
  split; [rewrite types_text_all; apply all_some_Some in E1; now rewrite E1|]. split; [eapply trees_ascii; eauto|].
  unfold code. rewrite E2. auto.
Qed.
Lemma define_gv_iff x text : define_gv x = Ok text <-> exists t, x = sp_show t /\ macro_ok t = true /\ types_text t = Some text.
Proof.
  unfold define_gv. destruct (one x) as [e|t] eqn:E.
  - split; [discriminate|]. intros (t & -> & _). assert (F : one (sp_show t) = inr t) by now apply one_show. congruence.
  - pose proof E as E'. apply one_show in E'. split.
    + destruct (types_text t) as [s|] eqn:Et; [|discriminate]. intros H; injection H as <-. exists t. split; [auto|]. split; [|assumption].
      destruct (macro_ok t) eqn:Em; [reflexivity|]. rewrite types_text_none in Et by assumption. discriminate.
    + intros (t' & Hx & Hm & Ht). assert (F : one x = inr t') by (apply one_show; auto). assert (t' = t) by congruence. subst. now rewrite Ht.
Qed.
Lemma define_gv_crash x :
  ((forall t, x <> sp_show t) -> define_gv x = Crash PUnwrap) /\
  (forall t, x = sp_show t -> macro_ok t = false -> define_gv x = Crash POverflow).
Proof.
  unfold define_gv. destruct (one x) as [e|t] eqn:E; split; auto.
  - intros t -> _. assert (F : one (sp_show t) = inr t) by now apply one_show. congruence.
  - intros H. apply one_show in E. exfalso. now apply (H t).
  - intros t' Hx Hm. assert (F : one x = inr t') by (apply one_show; auto). assert (t' = t) by congruence. subst t'.
    now rewrite types_text_none.
Qed.
Lemma gv_type_trees t : exists T, token_trees (marker_type t) = Some T.
Proof. exists (mt t). apply trees_whole, marker_trees. Qed.

(** ** Structures of variable size *)
Definition names (t : ty) := bs "Structure" ++ struct_name t.
Lemma the_calls_rows nfo children : forall rows, length rows = length children ->
  map (fun c => (c_i c, c_a c, c_b c, c_c c)) (the_calls nfo children rows) = rows /\
  map c_size (the_calls nfo children rows) = map size_of children /\
  map c_type (the_calls nfo children rows) = map mt children /\
  map c_last (the_calls nfo children rows) = match children with [] => [] | _ => repeat false (pred (length children)) ++ [true] end /\
  Forall (fun c => c_offsets c = nfo) (the_calls nfo children rows).
Proof.
  induction children as [|c cs IH]; intros [|[[[i a] b] k] rows] Hl; try discriminate; [repeat split; constructor|].
  cbn in Hl. injection Hl as Hl. destruct (IH rows Hl) as (A & B & C & D & E). cbn [the_calls map c_i c_a c_b c_c c_size c_type c_last length pred].
  rewrite A, B, C, D. repeat split; [|constructor; auto]. destruct cs as [|c2 cs]; [reflexivity|]. reflexivity.
Qed.

Lemma perform_zeros ds l off frames n :
  perform ds (WriteZeros n :: l) off frames = get (d, o, f) <- perform ds l off frames; Some (nuls n ++ d, o, f).
Proof. reflexivity. Qed.
Lemma put_last k x l : put_at (repeat 0 (S k) ++ l) k x = Some (repeat 0 k ++ x :: l).
Proof. induction k as [|k IH]; [reflexivity|]. cbn [repeat app put_at] in *. now rewrite IH. Qed.

Lemma perform_pads child base offset off : is_alignment base -> off mod base = offset mod base ->
  exists pre base' offset',
    (if align_of child <=? base then
       let offset' := align offset (align_of child) in
       let n_padding := offset' - offset in
       (if 0 <? n_padding then [CZeros n_padding; CAdd n_padding] else [], base, offset')
     else ([CPad (align_of child)], align_of child, 0)) = (pre, base', offset') /\
    is_alignment base' /\ pad_to (align_of child) off mod base' = offset' mod base' /\
    forall ds rest frames d o f,
      perform ds rest (pad_to (align_of child) off) frames = Some (d, o, f) ->
      perform ds (map stmt_of pre ++ rest) off frames = Some (nuls (pad_to (align_of child) off - off) ++ d, o, f).
Proof.
  intros Hb Hm. pose proof (align_of_alignment child) as Ha. set (al := align_of child) in *.
  pose proof (pad_to_ge al off Ha) as Hge.
  destruct (al <=? base) eqn:E.
  - cbv zeta. rewrite align_pad_to by assumption. pose proof (pad_to_ge al offset Ha) as Hge'.
    assert (Hs : pad_to al off - off = pad_to al offset - offset) by (apply (pad_same al base); auto; lia).
    eexists _, _, _. split; [reflexivity|]. split; [exact Hb|]. split.
    + replace (pad_to al off) with (off + (pad_to al off - off)) by lia. rewrite Hs.
      replace (pad_to al offset) with (offset + (pad_to al offset - offset)) at 2 by lia. now apply mod_add_same.
    + intros ds rest frames d o f H. rewrite <- Hs. destruct (0 <? pad_to al off - off) eqn:Ez; cbn [app map stmt_of].
      * cbn [perform]. replace (off + (pad_to al off - off)) with (pad_to al off) by lia. now rewrite H.
      * replace (pad_to al off) with off in H by lia. replace (pad_to al off - off) with 0 by lia. exact H.
  - eexists _, _, _. split; [reflexivity|]. split; [exact Ha|]. split.
    + rewrite pad_to_mod by assumption. rewrite N.mod_0_l; [reflexivity|]. destruct Ha as [|[|[|]]]; lia.
    + intros ds rest frames d o f H. cbn [app map stmt_of perform]. now rewrite H.
Qed.

Lemma nonfixed_perform ts : forall ds pre fo base offset nth nfo off,
  Forall2 fits (items_of ts) ds -> is_alignment base -> off mod base = offset mod base ->
  nfo = nth + sp_n_offsets (items_of ts) ->
  let p := sp_lay_struct off (items_of ts) ds in
  perform (pre ++ ds) (map stmt_of (nonfixed_cmds (length pre) base offset nth nfo ts)) off (repeat 0 (N.to_nat (nfo - nth)) ++ fo)
  = Some (fst p, off + len (fst p), rev (snd p) ++ fo).
Proof.
  induction ts as [|child ts IH]; intros ds pre fo base offset nth nfo off Hfit Hb Hm Hn p.
  - inversion Hfit; subst. subst p. cbn [items_of map sp_lay_struct fst snd nonfixed_cmds perform].
    change (sp_n_offsets []) with 0. replace (nth + 0 - nth) with 0 by lia. cbn [N.to_nat repeat app rev].
    change (len (@nil byte)) with 0. now rewrite N.add_0_r.
  - change (items_of (child :: ts)) with ((align_of child, size_of child) :: items_of ts) in *.
    inversion Hfit as [|? d ? ds' Hd Hfit']; subst x l ds.
    set (start := pad_to (align_of child) off). set (stop := start + len d).
    set (p' := sp_lay_struct stop (items_of ts) ds').
    assert (Ep : p = (nuls (start - off) ++ d ++ fst p', match size_of child, items_of ts with None, _ :: _ => stop :: snd p' | _, _ => snd p' end)).
    { subst p. cbn [sp_lay_struct]. fold start stop. fold p'. destruct p'. reflexivity. }
    assert (Hge : off <= start) by (apply pad_to_ge; auto with al).
    assert (Hle : off + len (fst p) = stop + len (fst p')).
    { rewrite Ep. cbn [fst]. change @len with @blen in *. rewrite !blen_app. change nuls with zeros. rewrite blen_zeros. unfold stop. change @len with @blen. lia. }
    rewrite Hle in *. clearbody p. subst p. cbn [fst snd].
    destruct (perform_pads child base offset off) as (pads & base' & offset' & Epads & Hb' & Hm' & Hrun); auto.
    assert (Hpm : pre ++ d :: ds' = (pre ++ [d]) ++ ds') by now rewrite <- app_assoc.
    assert (Hpl : S (length pre) = length (pre ++ [d])) by (rewrite app_length; cbn; lia).
    cbn [nonfixed_cmds]. cbv zeta in *. rewrite Epads. destruct (size_of child) as [x|] eqn:Ex.
    + assert (Hx : len d = x) by exact Hd. subst x.
      rewrite map_app. apply Hrun. cbn [app map stmt_of perform]. rewrite Nat2N.id, nth_mid. fold start. fold stop.
      rewrite Hpm, Hpl. rewrite (IH ds' (pre ++ [d]) fo base' (offset' + len d) nth nfo stop); [reflexivity|..];
        [exact Hfit'|exact Hb'|unfold stop; now apply mod_add_same|destruct (items_of ts); exact Hn].
    + rewrite map_app. apply Hrun. cbn [app map stmt_of perform]. rewrite Nat2N.id, nth_mid. fold start. fold stop.
      destruct ts as [|c2 ts].
      * cbn [items_of map] in *. inversion Hfit'; subst. unfold p'. cbn [sp_lay_struct fst snd app nonfixed_cmds map perform rev].
        change (len (@nil byte)) with 0. change (sp_n_offsets [(align_of child, None)]) with 0.
        rewrite !N.add_0_r, N.sub_diag. reflexivity.
      * assert (Hno : sp_n_offsets ((align_of child, None) :: items_of (c2 :: ts)) = 1 + sp_n_offsets (items_of (c2 :: ts))) by reflexivity.
        rewrite Hno in Hn. change (items_of (c2 :: ts)) with ((align_of c2, size_of c2) :: items_of ts) at 1. cbv iota.
        rewrite map_app. cbn [app map stmt_of perform].
        replace (N.to_nat (nfo - nth)) with (S (N.to_nat (nfo - (nth + 1)))) by (clear -Hn; lia).
        replace (N.to_nat (Z.to_N (Z.of_N nfo - Z.of_N nth - 1))) with (N.to_nat (nfo - (nth + 1))) by (clear -Hn; lia).
        rewrite put_last.
        cbn [rev]. rewrite <- app_assoc. cbn [app]. rewrite Hpm, Hpl.
        rewrite (IH ds' (pre ++ [d]) (stop :: fo) 1 0 (nth + 1) nfo stop); [reflexivity|..];
          [exact Hfit'|left; reflexivity|now rewrite !N.mod_1_r|clear -Hn; lia].
Qed.

Lemma packed_perform its : forall ds pre off final,
  Forall2 (fun it b => len b = snd it) its ds -> Forall (fun it => is_alignment (fst it)) its ->
  perform (pre ++ ds) (map stmt_of (packed_cmds (length pre) (walk_pads off its) final)) 0 []
  = Some (fst (sp_lay_struct off (map (fun it => (fst it, Some (snd it))) its) ds) ++ nuls final, 0, []).
Proof.
  induction its as [|[al s] its IH]; intros ds pre off final Hfit HA.
  - inversion Hfit; subst. cbn [map sp_lay_struct fst walk_pads packed_cmds app].
    destruct (0 <? final) eqn:E; cbn [map stmt_of perform]; [now rewrite app_nil_r|]. now replace final with 0 by lia.
  - inversion Hfit as [|? d ? ds' Hd Hfit']; subst x l ds. inversion HA as [|? ? Ha HA']; subst x l. cbn [fst snd] in *.
    cbn [map walk_pads packed_cmds fst snd sp_lay_struct].
    assert (Hpm : pre ++ d :: ds' = (pre ++ [d]) ++ ds') by now rewrite <- app_assoc.
    assert (Hpl : S (length pre) = length (pre ++ [d])) by (rewrite app_length; cbn; lia).
    assert (Hrest : perform (pre ++ d :: ds') (map stmt_of ([CChild (length pre)] ++ packed_cmds (S (length pre)) (walk_pads (pad_to al off + s) its) final)) 0 []
       = Some (d ++ fst (sp_lay_struct (pad_to al off + len d) (map (fun it => (fst it, Some (snd it))) its) ds') ++ nuls final, 0, [])).
    { cbn [app map stmt_of perform]. rewrite Nat2N.id, nth_mid, Hpm, Hpl, Hd. rewrite (IH ds' (pre ++ [d])); auto. }
    destruct (sp_lay_struct _ (map _ its) ds') as [rest ends]. cbn [fst] in *. rewrite <- !app_assoc. rewrite map_app.
    destruct (0 <? pad_to al off - off) eqn:E.
    + cbn [map stmt_of]. cbn [app]. rewrite perform_zeros. cbn [app] in Hrest. now rewrite Hrest.
    + replace (pad_to al off - off) with 0 by lia. exact Hrest.
Qed.

(** ** What the text of one structure says *)
Definition table_rows (ts : list ty) := map (fun r => let '(i, a, b, c) := r in (i, a, 2 ^ b, c)) (py_generate_table (map py_item ts)).
Lemma table_length ts : length (generate_table ts) = length ts.
Proof.
  unfold generate_table. enough (H : forall i a b c, length (table_go i a b c ts) = length ts) by apply H.
  induction ts as [|t ts IH]; intros i a b c; [reflexivity|].
  cbn [table_go length]. destruct (align_of t <=? b); destruct (size_of t); cbn [length]; now rewrite IH.
Qed.
Lemma var_fixed t : sp_size t = None -> is_fixed t = false.
Proof. rewrite sp_size_of. intros H. unfold is_fixed. now rewrite H. Qed.
Lemma items_spec ts : items_of ts = map (fun t => (sp_align t, sp_size t)) ts.
Proof. unfold items_of. apply map_ext. intros t. now rewrite sp_align_of, sp_size_of. Qed.

Definition var_traits := [bs "ToOwned"; bs "Cast"; bs "AllBitPatternsValid"; bs "AlignOf"; bs "Structure"; bs "PartialEq"; bs "SerializeTo"; bs "Debug"].
Definition fixed_traits := [bs "AllBitPatternsValid"; bs "AlignOf"; bs "Structure"; bs "Cast"; bs "PartialEq"; bs "SerializeTo"; bs "Debug"].

Lemma var_claim s text its : sp_size s = None -> tuple_text s = Some text -> code text = Some its ->
  fields_of its = Some (names s, [Bytes (sp_align s)]) /\
  map fst (impls its) = map (fun tr => (tr, names s)) var_traits /\
  declared_align its = Some (names s, sp_align s) /\
  calls_of its = Some (the_calls (n_frame_offsets (children_of s)) (children_of s) (generate_table (children_of s))) /\
  statements_of its = Some (n_frame_offsets (children_of s), map stmt_of (nonfixed_cmds 0 8 0 0 (n_frame_offsets (children_of s)) (children_of s))).
Proof.
  intros Hn Ht Hc. rewrite tuple_text_var in Ht by now apply var_fixed. apply Some_inj in Ht. subst text.
  destruct (non_fixed_items s) as (T & its' & E1 & E2 & (b & F1 & F2) & _ & _ & _ & _ & _ & _ & _ & _ & b1 & b2 & b3 & b4 & b5 & b6 & b7 & b8 & I & G1 & (c1 & G2 & G3) & (c2 & G4 & G5)).
  apply ctrees_trees, trees_whole in E1. unfold code in Hc. rewrite E1 in Hc. assert (its' = its) by congruence. subst its'. clear Hc.
  unfold fields_of, declared_align, calls_of, statements_of, method, impl_body. fold (names s) in *.
  rewrite F1, F2, I, sp_align_of. revert G1 G2 G3 G4 G5. generalize (names s) as nm. intros nm G1 G2 G3 G4 G5.
  cbn [map fst]. split; [reflexivity|]. split; [reflexivity|].
  repeat match goal with |- context [find ?f ?l] => let x := eval vm_compute in (find f l) in change (find f l) with x; cbv iota beta end.
  rewrite G1, G2, G3, G4, G5. auto.
Qed.
Lemma fixed_claim s n text its : sp_is_struct s = true -> sp_size s = Some n -> tuple_text s = Some text -> code text = Some its ->
  let pads := walk_pads 0 (fixed_items (children_of s)) in let final := n - walk_end 0 (fixed_items (children_of s)) in
  let fields := the_fields 0 0 pads final (children_of s) in
  let numbers := map N.of_nat (seq 0 (length (children_of s))) in
  fields_of its = Some (names s, fields) /\
  map fst (impls its) = map (fun tr => (tr, names s)) fixed_traits /\
  declared_align its = Some (names s, sp_align s) /\
  parameters_of its = Some (names s, map (fun p => (N.of_nat (fst p), mt (snd p))) (number (children_of s))) /\
  inits_of its = Some (names s, map init_of fields) /\
  refs_of its = Some numbers /\ default_of its = Some (names s, names s, length (children_of s)) /\ equality_of its = Some numbers /\
  fixed_statements_of its = Some (map stmt_of (packed_cmds 0 pads final), [Leaf (Ident (names s))]).
Proof.
  intros Hst Hn Ht Hc pads final fields numbers. rewrite sp_size_of in Hn.
  assert (Hs : is_struct s) by (destruct s; try discriminate; exact I).
  assert (Hf : is_fixed s = true) by (unfold is_fixed; now rewrite Hn).
  assert (Ep : packed_struct s = Some (pads, final)).
  { pose proof (packed_struct_exact s n Hs Hn) as E. destruct (struct_exact s); [exact E|].
    exfalso. unfold tuple_text in Ht. rewrite Hf, packed_text_none in Ht by assumption. discriminate. }
  destruct (packed_items s pads final Ep) as (out & T & its' & E0 & E1 & E2 & (b & F1 & F2) & (bi & A1 & (a & A2 & A3) & (c & A4 & A5)) & _ & _ & _ & _ & _ & _ & _ &
    b1 & b2 & b3 & b4 & b5 & b6 & b7 & I & G1 & (c1 & G2 & G3) & (c2 & G4 & G5) & (c3 & G6 & G7) & (c4 & G8 & G9)).
  rewrite (tuple_text_packed s out Hf E0) in Ht. apply Some_inj in Ht. subst text.
  apply ctrees_trees, trees_whole in E1. unfold code in Hc. rewrite E1 in Hc. assert (its' = its) by congruence. subst its'. clear Hc.
  unfold fields_of, declared_align, parameters_of, inits_of, refs_of, default_of, equality_of, fixed_statements_of, method, impl_body.
  fold (names s). fold (names s) in F1, A1, A5, I, G5, G9. fold fields in F2, A5. fold numbers in G3, G7.
  rewrite F1, F2, A1, A2, A3, A4, A5, I, sp_align_of. revert G1 G2 G3 G4 G5 G6 G7 G8 G9. generalize (names s) as nm. intros nm G1 G2 G3 G4 G5 G6 G7 G8 G9.
  cbn [map fst]. split; [reflexivity|]. split; [reflexivity|].
  repeat match goal with |- context [find ?f ?l] => let x := eval vm_compute in (find f l) in change (find f l) with x; cbv iota beta end.
  rewrite G1, G2, G3, G4, G5, G6, G7, G8, G9. repeat split; reflexivity.
Qed.

(** ** Fields of structures of fixed size *)
Lemma fields_data pads : forall children n k final, length pads = length children ->
  pick data_of (the_fields n k pads final children) = combine (map N.of_nat (seq n (length children))) (map mt children).
Proof.
  induction pads as [|p pads IH]; intros [|c cs] n k final Hl; try discriminate; cbn [the_fields].
  - now destruct (0 <? final).
  - cbn in Hl. rewrite pick_app. cbn [length seq map combine]. rewrite <- (IH cs (S n) (if 0 <? p then S k else k) final) by lia.
    now destruct (0 <? p).
Qed.
Lemma fields_padding pads : forall children n k final x, In x (pick padding_of (the_fields n k pads final children)) -> N.of_nat k <= x.
Proof.
  induction pads as [|p pads IH]; intros [|c cs] n k final x H; cbn [the_fields] in H;
    try (destruct (0 <? final); cbn in H; intuition lia).
  rewrite pick_app in H. apply in_app_or in H as [H|H]; [destruct (0 <? p); cbn in H; intuition lia|].
  cbn [pick padding_of] in H. apply IH in H. destruct (0 <? p); lia.
Qed.
Lemma fields_padding_nodup pads : forall children n k final, NoDup (pick padding_of (the_fields n k pads final children)).
Proof.
  induction pads as [|p pads IH]; intros [|c cs] n k final; cbn [the_fields];
    try (destruct (0 <? final); cbn; repeat constructor; intros []).
  rewrite pick_app. destruct (0 <? p); cbn [pick padding_of app]; [|apply IH].
  constructor; [|apply IH]. intros H. apply fields_padding in H. lia.
Qed.
Lemma fields_positions its : forall children n k pos final, length its = length children -> Forall (fun it => is_alignment (fst it)) its ->
  positions pos (map snd its) (the_fields n k (walk_pads pos its) final children) = Some (sp_field_offsets pos its, walk_end pos its + final).
Proof.
  induction its as [|[al s] its IH]; intros [|c cs] n k pos final Hl HA; try discriminate; cbn [walk_pads the_fields map sp_field_offsets walk_end].
  - destruct (0 <? final) eqn:E; cbn [positions]; [reflexivity|]. now replace final with 0 by lia; rewrite N.add_0_r.
  - cbn in Hl. inversion HA as [|? ? Ha HA']; subst. cbn [fst snd] in *. pose proof (pad_to_ge al pos Ha) as Hge.
    destruct (0 <? pad_to al pos - pos) eqn:E; cbn [app positions].
    + replace (pos + (pad_to al pos - pos)) with (pad_to al pos) by lia.
      rewrite (IH cs (S n) (S k) (pad_to al pos + s) final); [reflexivity|lia|assumption].
    + replace (pad_to al pos) with pos in * by lia. rewrite (IH cs (S n) k (pos + s) final); [reflexivity|lia|assumption].
Qed.

(** ** The claims *)
Lemma fits_spec ts ds : Forall2 (fun t d => forall n, sp_size t = Some n -> len d = n) ts ds -> Forall2 fits (items_of ts) ds.
Proof.
  induction 1 as [|t d ts ds H _ IH]; cbn [items_of map]; constructor; [|exact IH].
  unfold fits. cbn [snd]. rewrite <- sp_size_of. destruct (sp_size t); [now apply H|exact I].
Qed.
Lemma structure_read s : struct_macro_ok s = true <-> exists text its, tuple_text s = Some text /\ code text = Some its.
Proof.
  split.
  - intros H. destruct (tuple_code s H) as (text & T & its & b & E1 & E2 & E3 & _). exists text, its. split; [assumption|].
    apply ctrees_trees, trees_whole in E2. unfold code. now rewrite E2.
  - intros (text & its & E & _). apply tuple_text_some. eauto.
Qed.
Lemma calls_claim s text its : sp_is_struct s = true -> sp_size s = None -> tuple_text s = Some text -> code text = Some its ->
  exists calls, calls_of its = Some calls /\
    Forall2 (fun c k => token_trees (marker_type c) = Some (c_type k)) (sp_components s) calls /\
    map (fun k => (c_i k, c_a k, c_b k, c_c k)) calls =
      map (fun r => let '(i, a, b, c) := r in (i, a, 2 ^ b, c)) (py_generate_table (map py_item (sp_components s))) /\
    map c_size calls = map sp_size (sp_components s) /\
    map c_last calls = repeat false (pred (length (sp_components s))) ++ [true] /\
    Forall (fun k => c_offsets k = sp_n_offsets (map (fun t => (sp_align t, sp_size t)) (sp_components s))) calls.
Proof.
  intros Hst Hn Ht Hc. destruct (var_claim s text its Hn Ht Hc) as (_ & _ & _ & Ec & _). eexists. split; [exact Ec|].
  rewrite comps_children by assumption. rewrite n_frame_offsets_spec, <- table_claim, <- items_spec.
  destruct (the_calls_rows (sp_n_offsets (items_of (children_of s))) (children_of s) (generate_table (children_of s)) (table_length _)) as (A & B & C & D & E).
  split; [|split; [exact A|split; [|split; [|exact E]]]].
  - clear -C. revert C. generalize (the_calls (sp_n_offsets (items_of (children_of s))) (children_of s) (generate_table (children_of s))).
    induction (children_of s) as [|c cs IH]; intros [|k ks] C; try discriminate; constructor.
    + cbn [map] in C. injection C as C1 C2. rewrite C1. apply trees_whole, marker_trees.
    + cbn [map] in C. injection C as C1 C2. auto.
  - rewrite B. apply map_ext. intros t. now rewrite sp_size_of.
  - rewrite D. destruct s; try discriminate; [|reflexivity]. destruct ts; [discriminate|reflexivity].
Qed.
Lemma variable_writes s text its ds : sp_is_struct s = true -> sp_size s = None -> tuple_text s = Some text -> code text = Some its ->
  Forall2 (fun c d => forall n, sp_size c = Some n -> len d = n) (sp_components s) ds ->
  exists n l body frames, statements_of its = Some (n, l) /\
    perform ds l 0 (repeat 0 (N.to_nat n)) = Some (body, len body, frames) /\
    body ++ sp_offsets (len body) frames =
    sp_struct_bytes None (map (fun c => (sp_align c, sp_size c)) (sp_components s)) ds.
Proof.
  intros Hst Hn Ht Hc Hd. destruct (var_claim s text its Hn Ht Hc) as (_ & _ & _ & _ & Es).
  rewrite comps_children in * by assumption. apply fits_spec in Hd. rewrite <- items_spec. rewrite n_frame_offsets_spec in Es.
  pose proof (nonfixed_perform (children_of s) ds [] [] 8 0 0 _ 0 Hd ltac:(right; right; right; reflexivity) eq_refl eq_refl) as H.
  cbv zeta in H. rewrite N.add_0_l, N.sub_0_r, !app_nil_r in H. cbn [app length] in H.
  eexists _, _, _, _. split; [exact Es|]. rewrite N.add_0_l in H. split; [exact H|].
  unfold sp_struct_bytes. now destruct (sp_lay_struct 0 (items_of (children_of s)) ds).
Qed.
Lemma fixed_sizes s n szs : sp_is_struct s = true -> sp_size s = Some n -> map sp_size (sp_components s) = map Some szs ->
  fixed_items (children_of s) = combine (map sp_align (sp_components s)) szs /\ map snd (fixed_items (children_of s)) = szs /\
  walk_end 0 (fixed_items (children_of s)) <= n.
Proof.
  intros Hst Hn Hz. rewrite comps_children in * by assumption.
  assert (Hs : is_struct s) by (destruct s; try discriminate; exact I). rewrite sp_size_of in Hn.
  assert (E : fixed_items (children_of s) = combine (map sp_align (children_of s)) szs /\ map snd (fixed_items (children_of s)) = szs).
  { clear -Hz. revert szs Hz. induction (children_of s) as [|c cs IH]; intros [|z szs] Hz; try discriminate; [split; reflexivity|].
    cbn [map] in Hz. injection Hz as Hz1 Hz2. destruct (IH szs Hz2) as [E1 E2]. cbn [fixed_items map combine snd].
    fold (fixed_items cs). rewrite E1, sp_align_of. rewrite sp_size_of in Hz1. unfold size_or_0. rewrite Hz1.
    split; [reflexivity|]. cbn [snd]. now rewrite <- E1, E2. }
  destruct E as [E1 E2]. split; [assumption|]. split; [assumption|].
  rewrite (size_of_fixed_struct s n Hs Hn). destruct (children_of s) eqn:Ec; [cbn; lia|]. rewrite <- Ec. apply pad_to_ge. auto with al.
Qed.
Lemma fields_claim s n szs text its : sp_is_struct s = true -> sp_size s = Some n -> map sp_size (sp_components s) = map Some szs ->
  tuple_text s = Some text -> code text = Some its ->
  exists fields types, fields_of its = Some (bs "Structure" ++ struct_name s, fields) /\
    Forall2 (fun c T => token_trees (marker_type c) = Some T) (sp_components s) types /\
    pick data_of fields = combine (map N.of_nat (seq 0 (length szs))) types /\
    NoDup (pick padding_of fields) /\
    positions 0 szs fields = Some (sp_field_offsets 0 (combine (map sp_align (sp_components s)) szs), n) /\
    parameters_of its = Some (bs "Structure" ++ struct_name s, combine (map N.of_nat (seq 0 (length szs))) types) /\
    inits_of its = Some (bs "Structure" ++ struct_name s, map init_of fields).
Proof.
  intros Hst Hn Hz Ht Hc. destruct (fixed_sizes s n szs Hst Hn Hz) as (E1 & E2 & E3).
  destruct (fixed_claim s n text its Hst Hn Ht Hc) as (F1 & _ & _ & F2 & F3 & _).
  assert (Hal : Forall (fun it : N * N => is_alignment (fst it)) (fixed_items (children_of s))).
  { unfold fixed_items. apply Forall_map. apply Forall_forall. intros. cbn. auto with al. }
  assert (Hl : length (fixed_items (children_of s)) = length (children_of s)) by (unfold fixed_items; apply map_length).
  assert (Hlz : length szs = length (children_of s)) by (rewrite <- E2; now rewrite map_length).
  assert (Hp : length (walk_pads 0 (fixed_items (children_of s))) = length (children_of s)).
  { rewrite <- Hl. clear. generalize 0. induction (fixed_items (children_of s)) as [|[a z] l IH]; intros p; cbn [walk_pads length]; [reflexivity|]. now rewrite IH. }
  exists (the_fields 0 0 (walk_pads 0 (fixed_items (children_of s))) (n - walk_end 0 (fixed_items (children_of s))) (children_of s)), (map mt (children_of s)).
  rewrite comps_children in * by assumption.
  split; [exact F1|]. split; [|split; [|split; [|split; [|split]]]].
  - clear. induction (children_of s); cbn [map]; constructor; auto. apply trees_whole, marker_trees.
  - rewrite fields_data by assumption. now rewrite Hlz.
  - apply fields_padding_nodup.
  - rewrite <- E2, fields_positions by auto. rewrite E2. rewrite E1 in *. do 2 f_equal. lia.
  - rewrite F2. fold (names s). do 2 f_equal. rewrite Hlz. unfold number. clear. generalize 0%nat.
    induction (children_of s) as [|c cs IH]; intros k; [reflexivity|]. cbn [length seq combine map fst snd]. now rewrite IH.
  - exact F3.
Qed.
Lemma fixed_writes s n text its ds : sp_is_struct s = true -> sp_size s = Some n -> tuple_text s = Some text -> code text = Some its ->
  Forall2 (fun c d => forall n, sp_size c = Some n -> len d = n) (sp_components s) ds ->
  exists l, fixed_statements_of its = Some (l, [Leaf (Ident (bs "Structure" ++ struct_name s))]) /\
    perform ds l 0 [] = Some (sp_struct_bytes (Some n) (map (fun c => (sp_align c, sp_size c)) (sp_components s)) ds, 0, []).
Proof.
  intros Hst Hn Ht Hc Hd. destruct (fixed_claim s n text its Hst Hn Ht Hc) as (_ & _ & _ & _ & _ & _ & _ & _ & Es).
  eexists. split; [exact Es|]. rewrite comps_children in * by assumption. apply fits_spec in Hd. rewrite <- items_spec.
  assert (Hs : is_struct s) by (destruct s; try discriminate; exact I). rewrite sp_size_of in Hn.
  pose proof (fixed_children s n Hs Hn) as Hfix.
  assert (Ei : items_of (children_of s) = map (fun it => (fst it, Some (snd it))) (fixed_items (children_of s))).
  { unfold items_of, fixed_items. rewrite map_map. apply map_ext_in. intros c Hx. cbn [fst snd].
    rewrite Forall_forall in Hfix. specialize (Hfix c Hx). unfold is_fixed in Hfix. unfold size_or_0.
    destruct (size_of c); [reflexivity|discriminate]. }
  assert (Hfit2 : Forall2 (fun it b => len b = snd it) (fixed_items (children_of s)) ds).
  { rewrite Ei in Hd. clear -Hd. revert ds Hd. induction (fixed_items (children_of s)) as [|[a z] l IH]; intros ds H; cbn [map] in H; inversion H; subst; constructor; auto. }
  assert (Hal : Forall (fun it : N * N => is_alignment (fst it)) (fixed_items (children_of s))).
  { unfold fixed_items. apply Forall_map. apply Forall_forall. intros. cbn. auto with al. }
  pose proof (packed_perform (fixed_items (children_of s)) ds [] 0 (n - walk_end 0 (fixed_items (children_of s))) Hfit2 Hal) as H.
  cbn [app length] in H. rewrite H. rewrite Ei. unfold sp_struct_bytes.
  pose proof (lay_struct_fixed (fixed_items (children_of s)) ds 0 Hfit2 Hal) as HL. rewrite N.add_0_l in HL.
  destruct (sp_lay_struct _ _ _) as [body ends]. cbn [fst] in *. now rewrite <- HL.
Qed.
Lemma fixed_members s n text its : sp_is_struct s = true -> sp_size s = Some n -> tuple_text s = Some text -> code text = Some its ->
  let numbers := map N.of_nat (seq 0 (length (sp_components s))) in let nm := bs "Structure" ++ struct_name s in
  refs_of its = Some numbers /\ equality_of its = Some numbers /\ default_of its = Some (nm, nm, length (sp_components s)).
Proof.
  intros Hst Hn Ht Hc numbers nm. unfold numbers, nm. rewrite comps_children by assumption.
  destruct (fixed_claim s n text its Hst Hn Ht Hc) as (_ & _ & _ & _ & _ & A & B & C & _). auto.
Qed.
Lemma variable_declared s text its : sp_size s = None -> tuple_text s = Some text -> code text = Some its ->
  fields_of its = Some (bs "Structure" ++ struct_name s, [Bytes (sp_align s)]).
Proof. intros Hn Ht Hc. now destruct (var_claim s text its Hn Ht Hc) as (A & _). Qed.
Lemma alignment_declared s text its : sp_is_struct s = true -> tuple_text s = Some text -> code text = Some its ->
  declared_align its = Some (bs "Structure" ++ struct_name s, sp_align s).
Proof.
  intros Hst Ht Hc. destruct (sp_size s) as [n|] eqn:Hn.
  - now destruct (fixed_claim s n text its Hst Hn Ht Hc) as (_ & _ & A & _).
  - now destruct (var_claim s text its Hn Ht Hc) as (_ & _ & A & _).
Qed.
Lemma impls_declared s text its : sp_is_struct s = true -> tuple_text s = Some text -> code text = Some its ->
  map fst (impls its) = map (fun tr => (tr, bs "Structure" ++ struct_name s))
    (match sp_size s with
     | None => [bs "ToOwned"; bs "Cast"; bs "AllBitPatternsValid"; bs "AlignOf"; bs "Structure"; bs "PartialEq"; bs "SerializeTo"; bs "Debug"]
     | Some _ => [bs "AllBitPatternsValid"; bs "AlignOf"; bs "Structure"; bs "Cast"; bs "PartialEq"; bs "SerializeTo"; bs "Debug"]
     end).
Proof.
  intros Hst Ht Hc. destruct (sp_size s) as [n|] eqn:Hn.
  - now destruct (fixed_claim s n text its Hst Hn Ht Hc) as (_ & A & _).
  - now destruct (var_claim s text its Hn Ht Hc) as (_ & A & _).
Qed.

(** ** The rest of the code *)
Lemma rest_claim s text its : sp_is_struct s = true -> tuple_text s = Some text -> code text = Some its ->
  let nm := names s in let cs := children_of s in
  tuples_of its = Some ([map mt cs; map mt cs; map mt cs], nm) /\
  serializable its = Some (map (fun p => (N.of_nat (fst p), mt (snd p))) (number cs), nm, map (fun p => N.of_nat (fst p)) (number cs)) /\
  body_is (bs "value.to_tuple()") (get it <- from_item its; fn_body (bs "from") (snd it)) = true /\
  body_is (bs "std::fmt::Debug::fmt(&self.to_tuple(), f)") (method (bs "Debug") (bs "fmt") its) = true /\
  match sp_size s with
  | None =>
      (exists T, token_trees (bs "repr(transparent)") = Some T /\ attributes_of its = [[T]]) /\
      casts_of its = Some [(bs "d", sp_align s, nm); (bs "slice", sp_align s, nm); (bs "slice", sp_align s, nm)] /\
      body_is (bs "self.to_tuple() == other.to_tuple()") (method (bs "PartialEq") (bs "eq") its) = true /\
      body_is (bs "Owned::from_bytes(&*self.data)") (method (bs "ToOwned") (bs "to_owned") its) = true
  | Some _ =>
      (exists T1 T2, token_trees (bs "derive(Default, Copy, Clone)") = Some T1 /\ token_trees (bs "repr(C)") = Some T2 /\ attributes_of its = [[T1; T2]]) /\
      body_is (bs "::gvariant::casting::try_cast_slice_to::<Self>(slice)") (method (bs "Cast") (bs "try_from_aligned_slice") its) = true /\
      body_is (bs "::gvariant::casting::try_cast_slice_to_mut::<Self>(slice)") (method (bs "Cast") (bs "try_from_aligned_slice_mut") its) = true
  end.
Proof.
  intros Hst Ht Hc nm cs. unfold nm, cs. destruct (sp_size s) as [n|] eqn:Hn.
  - rewrite sp_size_of in Hn. assert (Hf : is_fixed s = true) by (unfold is_fixed; now rewrite Hn).
    destruct (packed_struct s) as [[pads final]|] eqn:Ep;
      [|exfalso; unfold tuple_text in Ht; rewrite Hf, packed_text_none in Ht by assumption; discriminate].
    destruct (packed_items s pads final Ep) as (out & T & its' & E0 & E1 & E2 & _ & _ & R1 & R2 & R3 & R4 & R5 & R6 & R7 & _).
    rewrite (tuple_text_packed s out Hf E0) in Ht. apply Some_inj in Ht. subst text.
    apply ctrees_trees, trees_whole in E1. unfold code in Hc. rewrite E1 in Hc. assert (its' = its) by congruence. subst its'. clear Hc.
    split; [exact R2|]. split; [exact R3|]. split; [exact R4|]. split; [exact R7|]. split; [|split; [exact R5|exact R6]].
    eexists _, _. split; [|split]; [| |exact R1]; vm_compute; reflexivity.
  - rewrite tuple_text_var in Ht by now apply var_fixed. apply Some_inj in Ht. subst text.
    destruct (non_fixed_items s) as (T & its' & E1 & E2 & _ & R1 & R2 & R3 & R4 & R5 & R6 & R7 & R8 & _).
    apply ctrees_trees, trees_whole in E1. unfold code in Hc. rewrite E1 in Hc. assert (its' = its) by congruence. subst its'. clear Hc.
    split; [exact R3|]. split; [exact R4|]. split; [exact R5|]. split; [exact R8|].
    split; [|rewrite sp_align_of; split; [exact R2|]; split; [exact R6|exact R7]].
    eexists. split; [|exact R1]. vm_compute. reflexivity.
Qed.
Lemma number_pairs cs : map (fun p : nat * ty => (N.of_nat (fst p), mt (snd p))) (number cs) = combine (map N.of_nat (seq 0 (length cs))) (map mt cs).
Proof.
  unfold number. generalize 0%nat. induction cs as [|c cs IH]; intros k; [reflexivity|]. cbn [length seq combine map fst snd]. now rewrite IH.
Qed.
Lemma types_mt cs : Forall2 (fun c T => token_trees (marker_type c) = Some T) cs (map mt cs).
Proof. induction cs; cbn [map]; constructor; auto. apply trees_whole, marker_trees. Qed.
Lemma representation_claim s text its : sp_is_struct s = true -> tuple_text s = Some text -> code text = Some its ->
  exists ats, attributes_of its = [ats] /\
    Forall2 (fun a T => token_trees a = Some T)
      (match sp_size s with None => [bs "repr(transparent)"] | Some _ => [bs "derive(Default, Copy, Clone)"; bs "repr(C)"] end) ats.
Proof.
  intros Hst Ht Hc. destruct (rest_claim s text its Hst Ht Hc) as (_ & _ & _ & _ & H). destruct (sp_size s).
  - destruct H as ((T1 & T2 & A & B & C) & _). exists [T1; T2]. split; [exact C|]. repeat constructor; assumption.
  - destruct H as ((T & A & C) & _). exists [T]. split; [exact C|]. repeat constructor; assumption.
Qed.
Lemma casts_claim s text its : sp_is_struct s = true -> sp_size s = None -> tuple_text s = Some text -> code text = Some its ->
  let nm := bs "Structure" ++ struct_name s in
  casts_of its = Some [(bs "d", sp_align s, nm); (bs "slice", sp_align s, nm); (bs "slice", sp_align s, nm)].
Proof.
  intros Hst Hn Ht Hc nm. destruct (rest_claim s text its Hst Ht Hc) as (_ & _ & _ & _ & H). rewrite Hn in H. exact (proj1 (proj2 H)).
Qed.
Lemma tuples_claim s text its : sp_is_struct s = true -> tuple_text s = Some text -> code text = Some its ->
  exists types, Forall2 (fun c T => token_trees (marker_type c) = Some T) (sp_components s) types /\
    let nm := bs "Structure" ++ struct_name s in let numbers := map N.of_nat (seq 0 (length (sp_components s))) in
    tuples_of its = Some ([types; types; types], nm) /\ serializable its = Some (combine numbers types, nm, numbers).
Proof.
  intros Hst Ht Hc. destruct (rest_claim s text its Hst Ht Hc) as (A & B & _). rewrite comps_children by assumption.
  exists (map mt (children_of s)). split; [apply types_mt|]. cbv zeta. split; [exact A|].
  rewrite B, number_pairs, number_fst. reflexivity.
Qed.
Lemma delegates_claim s text its : sp_is_struct s = true -> tuple_text s = Some text -> code text = Some its ->
  body_is (bs "value.to_tuple()") (get it <- from_item its; fn_body (bs "from") (snd it)) = true /\
  body_is (bs "std::fmt::Debug::fmt(&self.to_tuple(), f)") (method (bs "Debug") (bs "fmt") its) = true /\
  match sp_size s with
  | None =>
      body_is (bs "self.to_tuple() == other.to_tuple()") (method (bs "PartialEq") (bs "eq") its) = true /\
      body_is (bs "Owned::from_bytes(&*self.data)") (method (bs "ToOwned") (bs "to_owned") its) = true
  | Some _ =>
      body_is (bs "::gvariant::casting::try_cast_slice_to::<Self>(slice)") (method (bs "Cast") (bs "try_from_aligned_slice") its) = true /\
      body_is (bs "::gvariant::casting::try_cast_slice_to_mut::<Self>(slice)") (method (bs "Cast") (bs "try_from_aligned_slice_mut") its) = true
  end.
Proof.
  intros Hst Ht Hc. destruct (rest_claim s text its Hst Ht Hc) as (_ & _ & A & B & H). split; [exact A|]. split; [exact B|].
  destruct (sp_size s); [exact (proj2 H)|exact (proj2 (proj2 H))].
Qed.
