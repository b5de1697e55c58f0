(** Facts about [deserialize] and its reader (C89). *)
From Verif Require Import Base Types Layout AlignedBytes Strs Spec Deser Ser Buf Histories SerSpec OwnSpec OwnClaims Reader ReaderSpec.

Lemma read_to_end_pre pre rest : Forall goes_on pre -> forall buf,
  read_to_end (pre ++ rest) buf = read_to_end rest (buf ++ concat (map brings pre)).
Proof.
  induction 1 as [|o pre Ho _ IH]; intros buf; cbn [app map concat].
  - now rewrite app_nil_r.
  - destruct o as [d| |e]; cbn [read_to_end brings goes_on] in *.
    + destruct d as [|b d]; [congruence|]. rewrite IH. now rewrite app_assoc.
    + rewrite IH. reflexivity.
    + tauto.
Qed.
Lemma read_to_end_done pre rest buf : Forall goes_on pre -> at_end rest ->
  read_to_end (pre ++ rest) buf = inr (buf ++ concat (map brings pre)).
Proof.
  intros H E. rewrite read_to_end_pre by exact H. destruct rest as [|o rest]; [reflexivity|].
  cbn in E. subst o. reflexivity.
Qed.
Lemma reader_cases calls :
  (exists pre rest, calls = pre ++ rest /\ Forall goes_on pre /\ at_end rest) \/
  (exists pre e rest, calls = pre ++ Fails e :: rest /\ Forall goes_on pre).
Proof.
  induction calls as [|o calls IH].
  - left. exists [], []. repeat split; auto.
  - destruct o as [[|b d]| |e].
    + left. exists [], (Bytes [] :: calls). repeat split; auto.
    + destruct IH as [(pre & rest & -> & Hp & Hr)|(pre & e & rest & -> & Hp)].
      * left. exists (Bytes (b :: d) :: pre), rest. repeat split; auto. constructor; [discriminate|exact Hp].
      * right. exists (Bytes (b :: d) :: pre), e, rest. repeat split; auto. constructor; [discriminate|exact Hp].
    + destruct IH as [(pre & rest & -> & Hp & Hr)|(pre & e & rest & -> & Hp)].
      * left. exists (Interrupted :: pre), rest. repeat split; auto. constructor; [exact I|exact Hp].
      * right. exists (Interrupted :: pre), e, rest. repeat split; auto. constructor; [exact I|exact Hp].
    + right. exists [], e, calls. repeat split; auto.
Qed.
Lemma reader_fails h t pre e rest a1 a2 a3 a4 : Forall goes_on pre ->
  deserialize_from h t (pre ++ Fails e :: rest) a1 a2 a3 a4 = inl e.
Proof. intros H. unfold deserialize_from. now rewrite read_to_end_pre. Qed.
Lemma reader_reads h t pre rest q a1 a2 a3 a4 : usable t ->
  a1 + 8 < 2 ^ 64 -> a2 + 8 < 2 ^ 64 -> a3 + 8 < 2 ^ 64 -> a4 + 8 < 2 ^ 64 ->
  Forall goes_on pre -> at_end rest ->
  s_data q = concat (map brings pre) -> s_data q <> [] -> aligned (sp_align t) q ->
  exists o, deserialize_from h t (pre ++ rest) a1 a2 a3 a4 = inr o /\ own_read h t o = decode h t q.
Proof.
  intros Hu H1 H2 H3 H4 Hp Hr Hd Hn Hq. unfold deserialize_from.
  rewrite (read_to_end_done pre rest [] Hp Hr). cbn [app]. eexists. split; [reflexivity|].
  apply deserialize_claim; auto; cbn [v_data]; congruence.
Qed.
