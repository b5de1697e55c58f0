(** The generated text read back: whole structures. *)
From Coq Require Import Lia.
From Verif Require Import Base Types Layout Spec MarkerSpec PrintSpec LexSpec TextSpec BaseFacts TypesFacts LayoutFacts StructFacts CoreFmt Marker Ser Gen LexFacts GenFacts.

Lemma frames_pos children : forall n base offset nth nfo i,
  In (CFrame i) (nonfixed_cmds n base offset nth nfo children) -> nth + sp_n_offsets (items_of children) <= nfo -> (0 <= i)%Z.
Proof.
  induction children as [|c rest IH]; intros n base offset nth nfo i Hi Hn; [contradiction|]. cbn [nonfixed_cmds] in Hi.
  change (items_of (c :: rest)) with ((align_of c, size_of c) :: items_of rest) in Hn.
  assert (Hpre : forall pre, ~ In (CFrame i) (if 0 <? pre then [CZeros pre; CAdd pre] else [])).
  { intros pre Hp. destruct (0 <? pre); cbn in Hp; intuition discriminate. }
  destruct (align_of c <=? base) eqn:Ea.
  - destruct (size_of c) as [x|] eqn:Es.
    + apply in_app_or in Hi as [Hi|Hi]; [now apply Hpre in Hi|]. cbn [app In] in Hi. destruct Hi as [Hi|[Hi|Hi]]; try discriminate.
      eapply IH; [exact Hi|]. destruct (items_of rest); exact Hn.
    + apply in_app_or in Hi as [Hi|Hi]; [now apply Hpre in Hi|]. cbn [app In] in Hi. destruct Hi as [Hi|Hi]; [discriminate|].
      destruct rest as [|c2 rest]; [contradiction|].
      change (sp_n_offsets ((align_of c, None) :: items_of (c2 :: rest))) with (1 + sp_n_offsets (items_of (c2 :: rest))) in Hn.
      apply in_app_or in Hi as [Hi|Hi]; [|eapply IH; [exact Hi|lia]]. cbn [In] in Hi. destruct Hi as [Hi|[]]. injection Hi as <-. lia.
  - destruct (size_of c) as [x|] eqn:Es.
    + cbn [app In] in Hi. destruct Hi as [Hi|[Hi|[Hi|Hi]]]; try discriminate. eapply IH; [exact Hi|]. destruct (items_of rest); exact Hn.
    + cbn [app In] in Hi. destruct Hi as [Hi|[Hi|Hi]]; try discriminate.
      destruct rest as [|c2 rest]; [contradiction|].
      change (sp_n_offsets ((align_of c, None) :: items_of (c2 :: rest))) with (1 + sp_n_offsets (items_of (c2 :: rest))) in Hn.
      apply in_app_or in Hi as [Hi|Hi]; [|eapply IH; [exact Hi|lia]]. cbn [In] in Hi. destruct Hi as [Hi|[]]. injection Hi as <-. lia.
Qed.
Lemma packed_frames pads : forall n final i, ~ In (CFrame i) (packed_cmds n pads final).
Proof.
  induction pads as [|p pads IH]; intros n final i H; cbn [packed_cmds] in H.
  - destruct (0 <? final); cbn in H; intuition discriminate.
  - apply in_app_or in H as [H|H]; [destruct (0 <? p); cbn in H; intuition discriminate|].
    cbn [app In] in H. destruct H as [H|H]; [discriminate|]. eapply IH; eauto.
Qed.
Definition debug_text (nm : list byte) : list byte := bs "impl std::fmt::Debug for Structure" ++ nm ++ bs " {
        fn fmt(&self, f: &mut std::fmt::Formatter<'_>) -> std::fmt::Result {
            std::fmt::Debug::fmt(&self.to_tuple(), f)
        }
    }".
Ltac scan B := unfold items; flatten; repeat (cbn [items_from app]; rewrite (items_braceless _ _ _ B)); cbn [items_from app]; flatten; reflexivity.
Lemma pick_nil {A B} (f : A -> option B) : pick f [] = [].
Proof. reflexivity. Qed.
Lemma pick_some {A B} (f : A -> option B) a l b r : f a = Some b -> pick f l = r -> pick f (a :: l) = b :: r.
Proof. intros H1 H2. cbn [pick]. now rewrite H1, H2. Qed.
Lemma pick_none {A B} (f : A -> option B) a l r : f a = None -> pick f l = r -> pick f (a :: l) = r.
Proof. intros H1 H2. cbn [pick]. now rewrite H1, H2. Qed.
Ltac picked := first [reflexivity | unfold struct_of, impl_of, inherent_of; cbn [fst snd rev]; rewrite rev_app_distr; cbn [rev app]; reflexivity].
Ltac picks := repeat first [exact (pick_nil _) | eapply pick_some; [picked|] | eapply pick_none; [picked|]].
Lemma one_seq {A} (p : reader A) T v : T <> [] -> (forall R, p (T ++ R) = Some (v, R)) -> seq_reads p T [v].
Proof. intros H1 H2. rewrite <- (app_nil_r T). constructor; [assumption|assumption|constructor]. Qed.
Ltac impl I := unfold impl_body; rewrite I; cbn [find fst snd];
  repeat match goal with |- context [spells ?a ?b] => let v := eval vm_compute in (spells a b) in change (spells a b) with v; cbv iota end; reflexivity.
Ltac body B := unfold body_is, method; rewrite B; match goal with |- context [fn_body ?f ?b] => let v := eval hnf in (fn_body f b) in change (fn_body f b) with v end; cbv iota; reading.
Lemma find_here {A} (f : A -> bool) a l : f a = true -> find f (a :: l) = Some a.
Proof. intros H. cbn [find]. now rewrite H. Qed.
Lemma find_there {A} (f : A -> bool) a l r : f a = false -> find f l = r -> find f (a :: l) = r.
Proof. intros H E. cbn [find]. now rewrite H. Qed.
Ltac found := first [reflexivity | unfold impl_of; cbn [fst snd rev]; rewrite rev_app_distr; cbn [rev app]; reflexivity].
Ltac finds := repeat first [eapply find_here; found | eapply find_there; [found|]].
Lemma non_fixed_items t : exists T its,
  ctrees (non_fixed_text t ++ debug_text (struct_name t)) T /\ items T = Some its /\
  let nm := bs "Structure" ++ struct_name t in
  (exists b, structs its = [(nm, b)] /\ read_fields b = Some [Bytes (align_of t)]) /\
  attributes_of its = [[[Leaf (Ident (bs "repr")); Group Paren [Leaf (Ident (bs "transparent"))]]]] /\
  casts_of its = Some [(bs "d", align_of t, nm); (bs "slice", align_of t, nm); (bs "slice", align_of t, nm)] /\
  tuples_of its = Some ([map mt (children_of t); map mt (children_of t); map mt (children_of t)], nm) /\
  serializable its = Some (map (fun p => (N.of_nat (fst p), mt (snd p))) (number (children_of t)), nm, map (fun p => N.of_nat (fst p)) (number (children_of t))) /\
  body_is (bs "value.to_tuple()") (get it <- from_item its; fn_body (bs "from") (snd it)) = true /\
  body_is (bs "self.to_tuple() == other.to_tuple()") (method (bs "PartialEq") (bs "eq") its) = true /\
  body_is (bs "Owned::from_bytes(&*self.data)") (method (bs "ToOwned") (bs "to_owned") its) = true /\
  body_is (bs "std::fmt::Debug::fmt(&self.to_tuple(), f)") (method (bs "Debug") (bs "fmt") its) = true /\
  exists b1 b2 b3 b4 b5 b6 b7 b8,
    impls its = [(bs "ToOwned", nm, b1); (bs "Cast", nm, b2); (bs "AllBitPatternsValid", nm, b3); (bs "AlignOf", nm, b4);
                 (bs "Structure", nm, b5); (bs "PartialEq", nm, b6); (bs "SerializeTo", nm, b7); (bs "Debug", nm, b8)] /\
    read_align b4 = Some (align_of t) /\
    (exists b, fn_body (bs "to_tuple") b5 = Some b /\
               read_calls b = Some (the_calls (n_frame_offsets (children_of t)) (children_of t) (generate_table (children_of t)))) /\
    (exists b, fn_body (bs "serialize") b7 = Some b /\
               read_serialize b = Some (n_frame_offsets (children_of t), map stmt_of (nonfixed_cmds 0 8 0 0 (n_frame_offsets (children_of t)) (children_of t)))).
Proof.
  unfold non_fixed_text, debug_text. cbv zeta.
  pose proof (name_word t) as Hnm. pose proof (dec_text (align_of t)) as Hal. pose proof (dec_text (n_frame_offsets (children_of t))) as Hnfo.
  destruct (serialize_types_trees (children_of t)) as (ST & Hst & Bst & Rst).
  destruct (serialize_types2_trees (children_of t)) as (ST2 & Hst2 & Rst2).
  pose proof (every_seq _ _ _ (refs_seq (children_of t))) as Rtup.
  pose proof (ctrees_concat _ _ (children_of t) (fun c _ => ref_long c)) as Htup.
  pose proof (ctrees_concat _ _ (children_of t) (fun c _ => ref_spaced c)) as Htup2.
  destruct (children_pieces (n_frame_offsets (children_of t)) (children_of t) (generate_table (children_of t))) as (CH & Hch & Rch).
  assert (Hf : forall i, In (CFrame i) (nonfixed_cmds 0 8 0 0 (n_frame_offsets (children_of t)) (children_of t)) -> (0 <= i)%Z).
  { intros i Hi. eapply frames_pos; [exact Hi|]. rewrite n_frame_offsets_spec. lia. }
  destruct (cmds_pieces _ Hf) as (CM & Hcm & Rcm).
  hole Hnm. hole Hal. hole Hnfo. hole Hst. hole Hst2. hole Htup. hole Htup2. hole Hch. hole Hcm. clear Hf.
  revert Rst Rst2. generalize (map (fun p : nat * ty => (N.of_nat (fst p), mt (snd p))) (number (children_of t))) as ps.
  generalize (map (fun p : nat * ty => N.of_nat (fst p)) (number (children_of t))) as numbers. intros numbers ps Rst Rst2.
  revert Rtup Htup Htup2. generalize (concat (map ref_trees (children_of t))) as REF, (map mt (children_of t)) as types. intros REF types Rtup Htup Htup2.
  revert Rch Rcm. generalize (the_calls (n_frame_offsets (children_of t)) (children_of t) (generate_table (children_of t))) as calls.
  generalize (map stmt_of (nonfixed_cmds 0 8 0 0 (n_frame_offsets (children_of t)) (children_of t))) as cmds.
  intros cmds calls Rch Rcm.
  eexists. eexists. split; [|split].
  - eapply ctrees_grow; [intros r; lexed|].
    destruct Hst as [_ Pst], Hst2 as [_ Pst2], Htup as [_ Ptup], Htup2 as [_ Ptup2], Hch as [_ Pch], Hcm as [_ Pcm]. growth.
  - scan Bst.
  - split.
    + eexists. split; [unfold structs; picks|]. cbn [snd].
      unfold read_fields. eapply every_seq, one_seq; [discriminate|]. intros R. unfold read_field. reading.
    + match goal with |- attributes_of ?X = _ /\ _ => eassert (I : impls X = _) by (unfold impls; picks) end.
      match goal with |- attributes_of ?X = _ /\ _ =>
        eassert (B1 : impl_body (bs "ToOwned") X = _) by impl I; eassert (B2 : impl_body (bs "Cast") X = _) by impl I;
        eassert (B3 : impl_body (bs "Structure") X = _) by impl I; eassert (B4 : impl_body (bs "PartialEq") X = _) by impl I;
        eassert (B5 : impl_body (bs "Debug") X = _) by impl I;
        eassert (B6 : inherent X = _) by (unfold inherent; picks); eassert (B7 : from_item X = _) by (unfold from_item; finds) end.
      split; [unfold attributes_of; picks|].
      split; [unfold casts_of, body_is, method; rewrite B2, B6; cbv iota; cbn [snd];
              repeat match goal with |- context [fn_body ?f ?b] => let v := eval hnf in (fn_body f b) in change (fn_body f b) with v; cbv iota end;
              unfold read_cast; reading; do 9 (cbn [whole]; reading)|].
      split; [unfold tuples_of; rewrite B3, B7; cbv iota; cbn [fst]; reading; rewrite Rtup; cbv iota; reading; cbn [whole]; rewrite Rtup; reflexivity|].
      split; [unfold serializable;
              match goal with |- context [find ?f ?X] => eassert (B8 : find f X = _) by finds end; rewrite B8; cbv iota; cbn [fst]; reading;
              rewrite Rst by (rewrite app_length; apply Nat.le_add_r); cbv iota; reading; cbn [whole]; rewrite Rst2; reflexivity|].
      split; [unfold body_is; rewrite B7; cbv iota; cbn [snd];
              match goal with |- context [fn_body ?f ?b] => let v := eval hnf in (fn_body f b) in change (fn_body f b) with v end; cbv iota; reading|].
      split; [body B4|]. split; [body B1|]. split; [body B5|]. clear I B1 B2 B3 B4 B5 B6 B7.
      do 8 eexists. split; [unfold impls; picks|]. cbn [snd]. split; [unfold read_align; reading|]. split.
      * eexists. split; [reflexivity|]. unfold read_calls. flatten. reading. cbn [whole]. apply every_seq. flatten. exact Rch.
      * eexists. split; [reflexivity|]. unfold read_serialize. reading.
        rewrite (stmts_seq CM cmds _ Rcm) by (reflexivity || (rewrite app_length; apply Nat.le_add_r)).
        reading. cbn [whole]. rewrite N.eqb_refl. reflexivity.
Qed.

Lemma number_fst {A} (l : list A) : map (fun p => N.of_nat (fst p)) (number l) = map N.of_nat (seq 0 (length l)).
Proof.
  unfold number. generalize 0%nat as k. induction l as [|x l IH]; intros k; [reflexivity|]. cbn [length seq combine map fst].
  f_equal. apply IH.
Qed.
Lemma number_const {A B} (b : B) (l : list A) : map (fun _ : nat * A => b) (number l) = repeat b (length l).
Proof.
  unfold number. generalize 0%nat as k. induction l as [|x l IH]; intros k; [reflexivity|]. cbn [length seq combine map repeat].
  f_equal. apply IH.
Qed.
Lemma number_refs cs : concat (map (fun p : nat * ty => ref_trees (snd p)) (number cs)) = concat (map ref_trees cs).
Proof. unfold number. f_equal. generalize 0%nat. induction cs as [|c cs IH]; intros n; [reflexivity|]. cbn [length seq combine map snd]. now rewrite IH. Qed.
Lemma packed_items t pads final : packed_struct t = Some (pads, final) -> exists out T its,
  packed_text t = Some out /\ ctrees (out ++ debug_text (struct_name t)) T /\ items T = Some its /\
  let nm := bs "Structure" ++ struct_name t in
  let fields := the_fields 0 0 pads final (children_of t) in
  let numbers := map N.of_nat (seq 0 (length (children_of t))) in
  (exists b, structs its = [(nm, b)] /\ read_fields b = Some fields) /\
  (exists b, inherent its = [(nm, b)] /\
     (exists a, fn_args (bs "new") b = Some a /\ read_args a = Some (map (fun p => (N.of_nat (fst p), mt (snd p))) (number (children_of t)))) /\
     (exists c, fn_body (bs "new") b = Some c /\ read_new c = Some (nm, map init_of fields))) /\
  attributes_of its = [[[Leaf (Ident (bs "derive")); Group Paren [Leaf (Ident (bs "Default")); Leaf (Punct ","); Leaf (Ident (bs "Copy")); Leaf (Punct ","); Leaf (Ident (bs "Clone"))]];
                        [Leaf (Ident (bs "repr")); Group Paren [Leaf (Ident (bs "C"))]]]] /\
  tuples_of its = Some ([map mt (children_of t); map mt (children_of t); map mt (children_of t)], nm) /\
  serializable its = Some (map (fun p => (N.of_nat (fst p), mt (snd p))) (number (children_of t)), nm, map (fun p => N.of_nat (fst p)) (number (children_of t))) /\
  body_is (bs "value.to_tuple()") (get it <- from_item its; fn_body (bs "from") (snd it)) = true /\
  body_is (bs "::gvariant::casting::try_cast_slice_to::<Self>(slice)") (method (bs "Cast") (bs "try_from_aligned_slice") its) = true /\
  body_is (bs "::gvariant::casting::try_cast_slice_to_mut::<Self>(slice)") (method (bs "Cast") (bs "try_from_aligned_slice_mut") its) = true /\
  body_is (bs "std::fmt::Debug::fmt(&self.to_tuple(), f)") (method (bs "Debug") (bs "fmt") its) = true /\
  exists b1 b2 b3 b4 b5 b6 b7,
    impls its = [(bs "AllBitPatternsValid", nm, b1); (bs "AlignOf", nm, b2); (bs "Structure", nm, b3); (bs "Cast", nm, b4);
                 (bs "PartialEq", nm, b5); (bs "SerializeTo", nm, b6); (bs "Debug", nm, b7)] /\
    read_align b2 = Some (align_of t) /\
    (exists b, fn_body (bs "to_tuple") b3 = Some b /\ read_refs b = Some numbers) /\
    (exists b, fn_body (bs "default_ref") b4 = Some b /\ read_default b = Some (nm, nm, length (children_of t))) /\
    (exists b, fn_body (bs "eq") b5 = Some b /\ read_eq b = Some numbers) /\
    (exists b, fn_body (bs "serialize") b6 = Some b /\
               read_serialize_fixed b = Some (map stmt_of (packed_cmds 0 pads final), [Leaf (Ident nm)])).
Proof.
  intros Ep. unfold packed_text, debug_text. rewrite Ep. cbv zeta beta.
  pose proof (name_word t) as Hnm. pose proof (dec_text (align_of t)) as Hal.
  destruct (serialize_types_trees (children_of t)) as (ST & Hst & Bst & Rst).
  destruct (serialize_types2_trees (children_of t)) as (ST2 & Hst2 & Rst2).
  pose proof (ctrees_join (fun p : nat * ty => bs "&'a " ++ marker_type (snd p) ++ bs ",") (fun p => ref_trees (snd p)) (bs " ") (number (children_of t))
    ltac:(now apply space_trees) (fun p _ => ref_short (snd p))) as Htup. rewrite number_refs in Htup.
  pose proof (every_seq _ _ _ (refs_seq (children_of t))) as Rtup.
  destruct (fields_pieces pads (children_of t) 0 0 0 final) as (FI & Hfi & Rfi).
  destruct (set_fields_pieces pads (children_of t) 0 0 final) as (SF & Hsf & Rsf).
  destruct (pieces_join read_ref (fun p : nat * ty => bs "&self.field_" ++ dec (N.of_nat (fst p)) ++ bs ",") (fun p => N.of_nat (fst p)) (bs " ") (number (children_of t))
    ltac:(now apply space_trees) (fun p _ => ref_piece (N.of_nat (fst p)))) as (RF & Hrf & Rrf). rewrite number_fst in Rrf.
  destruct (args_trees (number (children_of t))) as (AR & Har & Rar). unfold arg_text in Har. specialize (Rar (length AR) (le_n _)).
  destruct (defaults_trees (length (children_of t))) as (DE & Hde & Rde). rewrite number_const.
  destruct (eqs_trees (fun p : nat * ty => N.of_nat (fst p)) (number (children_of t))) as (EQ & Heq & Req). rewrite number_fst in Req.
  destruct (cmds_pieces (packed_cmds 0 pads final)) as (CM & Hcm & Rcm); [intros i Hi; now apply packed_frames in Hi|].
  hole Hnm. hole Hal. hole Hst. hole Hst2. hole Htup. hole Hfi. hole Hsf. hole Hrf. hole Har. hole Hde. hole Heq. hole Hcm.
  revert Rst2. generalize (map (fun p : nat * ty => N.of_nat (fst p)) (number (children_of t))) as ns. intros ns Rst2.
  revert Rtup Htup. generalize (concat (map ref_trees (children_of t))) as REF, (map mt (children_of t)) as types. intros REF types Rtup Htup.
  revert Rst; revert Rcm Rfi Rsf Rrf Rar Req. generalize (map stmt_of (packed_cmds 0 pads final)) as cmds.
  generalize (the_fields 0 0 pads final (children_of t)) as fields. generalize (map N.of_nat (seq 0 (length (children_of t)))) as numbers.
  generalize (map (fun p : nat * ty => (N.of_nat (fst p), mt (snd p))) (number (children_of t))) as args.
  intros args numbers fields cmds Rcm Rfi Rsf Rrf Rar Req Rst.
  eexists. eexists. eexists. split; [reflexivity|]. split; [|split].
  - eapply ctrees_grow; [intros r; lexed|].
    destruct Hst as [_ Pst], Hst2 as [_ Pst2], Htup as [_ Ptup], Hfi as [_ Pfi], Hsf as [_ Psf], Hrf as [_ Prf], Har as [_ Par], Hde as [_ Pde], Heq as [_ Peq], Hcm as [_ Pcm].
    change (proper EQ = true) in Peq. growth.
  - scan Bst.
  - split; [|split].
    + eexists. split; [unfold structs; picks|]. cbn [snd]. unfold read_fields. apply every_seq. exact Rfi.
    + eexists. split; [unfold inherent; picks|]. cbn [snd]. split.
      * eexists. split; [reflexivity|]. exact Rar.
      * eexists. split; [reflexivity|]. cbn [read_new]. erewrite every_seq by exact Rsf. reflexivity.
    + match goal with |- attributes_of ?X = _ /\ _ => eassert (I : impls X = _) by (unfold impls; picks);
        eassert (B2 : impl_body (bs "Cast") X = _) by impl I; eassert (B3 : impl_body (bs "Structure") X = _) by impl I;
        eassert (B5 : impl_body (bs "Debug") X = _) by impl I; eassert (B7 : from_item X = _) by (unfold from_item; finds) end.
      split; [unfold attributes_of; picks|].
      split; [unfold tuples_of; rewrite B3, B7; cbv iota; cbn [fst]; reading; rewrite Rtup; cbv iota; reading; cbn [whole]; rewrite Rtup; reflexivity|].
      split; [unfold serializable;
              match goal with |- context [find ?f ?X] => eassert (B8 : find f X = _) by finds end; rewrite B8; cbv iota; cbn [fst]; reading;
              rewrite Rst by (rewrite app_length; apply Nat.le_add_r); cbv iota; reading; cbn [whole]; rewrite Rst2; reflexivity|].
      split; [unfold body_is; rewrite B7; cbv iota; cbn [snd];
              match goal with |- context [fn_body ?f ?b] => let v := eval hnf in (fn_body f b) in change (fn_body f b) with v end; cbv iota; reading|].
      split; [body B2|]. split; [body B2|]. split; [body B5|]. clear I B2 B3 B5 B7.
      do 7 eexists. split; [unfold impls; picks|]. cbn [snd]. split; [unfold read_align; reading|]. split; [|split; [|split]].
      * eexists. split; [reflexivity|]. unfold read_refs. reading. cbn [whole]. apply every_seq. exact Rrf.
      * eexists. split; [reflexivity|]. unfold read_default. reading. change (is_mark "=" (Leaf (Punct "="))) with true. cbn [whole]. cbv iota.
        destruct DE as [|x DE]; [now rewrite Rde|]. destruct Rde as (DE' & E1 & E2 & E3). change (bs "0") with ["0"%byte] in E1.
        rewrite E1. cbv beta iota. rewrite E2. cbv beta iota. rewrite repeat_length. do 2 f_equal. clear - E3. lia.
      * eexists. split; [reflexivity|]. unfold read_eq. reading. exact Req.
      * eexists. split; [reflexivity|]. unfold read_serialize_fixed. flatten.
        rewrite (stmts_seq CM cmds _ Rcm) by (reflexivity || (rewrite app_length; apply Nat.le_add_r)).
        reading.
Qed.
