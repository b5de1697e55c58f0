(** What one program writes with [serialize] and another reads with [deserialize]. *)
From Verif Require Import Base Types Layout AlignedBytes Strs Spec Deser Ser Buf Histories SerSpec OwnSpec LayoutFacts EmptyFacts DeserFacts
  SerClaims OwnClaims Reader ReaderSpec ReaderFacts Writer WriterSpec WriterFacts.

Lemma written_by hw hr t r : usable t -> rtyped t r -> no_nuls t r -> h_big_endian hw = h_big_endian hr ->
  len (sp_written (h_big_endian hw) t (rvalue true (h_big_endian hw) t r)) < 2 ^ 63 ->
  forall answers, Forall continues answers ->
  w_out (fst (serialize_to hw t r answers)) = sp_output (serialize hr t r None).
Proof.
  intros Hu Ht Hn Hb Hl answers Hc. destruct (writer_patient hw t r answers Hu Ht Hn Hl Hc) as (rest & ->).
  rewrite ser_claim by (auto; rewrite <- Hb; auto). rewrite Hb. reflexivity.
Qed.
Lemma default_decoded h t : usable t -> sp_trap t = false \/ sp_fixed_array t = true ->
  decode h t (Slice 8 []) = Ok (sp_default (h_big_endian h) t).
Proof.
  intros Hu [H|H].
  - rewrite decode_empty by (auto; cbn; congruence). now rewrite H.
  - assert (Ha : aligned (align_of t) (Slice 8 [])) by (apply aligned_8; reflexivity).
    destruct (cast_ok h t _ (proj1 Hu) Ha) as (r & E & Hr & _). unfold decode. rewrite E. cbn [bind].
    rewrite <- (to_owned_keeps h t r 8 8) by (auto; reflexivity).
    pose proof (cast_to_owned_empty h t (Slice 8 []) 8 8 Hu eq_refl eq_refl eq_refl) as H0. rewrite E in H0. cbn [bind] in H0.
    rewrite H0, H. replace (s_addr (Slice 8 []) mod sp_align t =? 0) with true.
    + cbn [negb andb]. now rewrite andb_false_r.
    + symmetry. apply N.eqb_eq. unfold aligned in Ha. rewrite sp_align_of. exact Ha.
Qed.
Lemma end_to_end hw hr t r answers pre rest a1 a2 a3 a4 : usable t -> rtyped t r -> no_nuls t r ->
  h_big_endian hw = h_big_endian hr ->
  a1 + 8 < 2 ^ 64 -> a2 + 8 < 2 ^ 64 -> a3 + 8 < 2 ^ 64 -> a4 + 8 < 2 ^ 64 ->
  let big := h_big_endian hw in
  let d := sp_written big t (rvalue true big t r) in
  len d < 2 ^ 63 -> Forall continues answers -> Forall goes_on pre -> at_end rest ->
  concat (map brings pre) = w_out (fst (serialize_to hw t r answers)) ->
  exists o, deserialize_from hr t (pre ++ rest) a1 a2 a3 a4 = inr o /\
  (own_read hr t o = Ok (rvalue false big t r) <->
   rtails big t r /\ (d = [] -> sp_trap t = true -> sp_fixed_array t = true /\ a1 mod sp_align t = 0)).
Proof.
  intros Hu Ht Hn Hb H1 H2 H3 H4 big d Hl Hc Hg He Hcat.
  assert (Hw : w_out (fst (serialize_to hw t r answers)) = d).
  { destruct (writer_patient hw t r answers Hu Ht Hn Hl Hc) as (rw & ->). reflexivity. }
  pose proof (written_by hw hr t r Hu Ht Hn Hb Hl answers Hc) as Hw2. rewrite Hw in Hw2, Hcat.
  assert (Hr : forall a, a mod sp_align t = 0 ->
    decode hr t (Slice a d) = Ok (rvalue false big t r) <-> rtails big t r).
  { intros a Ha. rewrite Hw2. unfold big. rewrite Hb. apply round_claim; auto. now rewrite <- Hb. }
  assert (H8 : aligned (sp_align t) (Slice 8 d)) by (rewrite sp_align_of; apply aligned_8; reflexivity).
  destruct (list_eq_dec Byte.byte_eq_dec d []) as [Hd|Hd].
  - assert (Hnil : concat (map brings pre) = []) by congruence.
    unfold deserialize_from. rewrite (read_to_end_done pre rest [] Hg He), Hnil. cbn [app].
    eexists. split; [reflexivity|]. rewrite deserialize_empty_claim by auto.
    specialize (Hr 8 H8). rewrite Hd in Hr.
    destruct (sp_trap t) eqn:Et; cbn [andb].
    + destruct (sp_fixed_array t) eqn:Ef; cbn [andb negb].
      * rewrite default_decoded in Hr by auto. destruct (a1 mod sp_align t =? 0) eqn:Ea; cbn [negb].
        -- rewrite Hr. apply N.eqb_eq in Ea. tauto.
        -- apply N.eqb_neq in Ea. split; [discriminate|]. intros (_ & H). destruct (H Hd eq_refl) as [_ H5]. contradiction.
      * split; [discriminate|]. intros (_ & H). destruct (H Hd eq_refl). discriminate.
    + rewrite default_decoded in Hr by auto. rewrite Hr. intuition discriminate.
  - destruct (reader_reads hr t pre rest (Slice 8 d) a1 a2 a3 a4) as (o & Ho & Hrd); auto.
    exists o. split; [exact Ho|]. rewrite Hrd, (Hr 8 H8). tauto.
Qed.
Lemma end_refuted : exists (t : ty) (r : rval), usable t /\ rtyped t r /\ no_nuls t r /\
  forall hw hr answers pre rest a1 a2 a3 a4, h_big_endian hw = h_big_endian hr ->
  a1 + 8 < 2 ^ 64 -> a2 + 8 < 2 ^ 64 -> a3 + 8 < 2 ^ 64 -> a4 + 8 < 2 ^ 64 ->
  Forall continues answers -> Forall goes_on pre -> at_end rest ->
  concat (map brings pre) = w_out (fst (serialize_to hw t r answers)) ->
  rtails (h_big_endian hw) t r /\
  exists o, deserialize_from hr t (pre ++ rest) a1 a2 a3 a4 = inr o /\
  own_read hr t o = Crash (if h_debug hr then PAssert else UBMisaligned).
Proof.
  exists (TTuple [TA TI]), (RTuple [RList []]).
  assert (Hu : usable (TTuple [TA TI])) by (split; reflexivity).
  assert (Ht : rtyped (TTuple [TA TI]) (RTuple [RList []])) by (cbn; tauto).
  assert (Hn : no_nuls (TTuple [TA TI]) (RTuple [RList []])) by (intros s Hs; destruct Hs).
  split; [exact Hu|]. split; [exact Ht|]. split; [exact Hn|].
  intros hw hr answers pre rest a1 a2 a3 a4 Hb H1 H2 H3 H4 Hc Hg He Hcat. split.
  { destruct (h_big_endian hw); cbn; repeat split; reflexivity. }
  destruct (writer_patient hw _ _ answers Hu Ht Hn) with (2 := Hc) as (rw & Ew); [destruct (h_big_endian hw); reflexivity|].
  rewrite Ew in Hcat. cbn [fst w_out] in Hcat.
  assert (Hnil : concat (map brings pre) = []) by (rewrite Hcat; destruct (h_big_endian hw); reflexivity).
  unfold deserialize_from. rewrite (read_to_end_done pre rest [] Hg He), Hnil. cbn [app].
  eexists. split; [reflexivity|]. rewrite deserialize_empty_claim by auto. reflexivity.
Qed.
