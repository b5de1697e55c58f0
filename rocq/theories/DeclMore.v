(** The declarations in the text the macro emits are those of [Decl]: proofs. *)
From Coq Require Import Lia.
From Verif Require Import Base Types Layout Spec Marker LexSpec TextSpec Gen Decl DeclSpec BaseFacts TypesFacts LayoutFacts LexFacts GenFacts GenClaims GenMain DeclFacts.

Lemma fields_declared s pads : forall final n k cs,
  (forall i c, nth_error cs i = Some c -> nth_error (sp_components s) (n + i) = Some c) ->
  Forall2 (sp_declared s) (the_fields n k pads final cs) (padded_decl pads (map decl cs) final).
Proof.
  induction pads as [|p pads IH]; intros final n k [|c cs] H; cbn [the_fields padded_decl map];
    try (destruct (0 <? final); repeat constructor; fail).
  apply Forall2_app; [destruct (0 <? p); repeat constructor|]. constructor.
  - exists c. rewrite Nnat.Nat2N.id. split; [rewrite <- (Nat.add_0_r n); now apply H|]. split; [apply trees_whole, marker_trees|reflexivity].
  - apply IH. intros i x Hx. rewrite Nat.add_succ_comm. now apply H.
Qed.
Lemma emitted_claim s text its : sp_is_struct s = true -> tuple_text s = Some text -> code text = Some its ->
  exists r ms fields ats, decl s = MStruct r ms /\
    fields_of its = Some (bs "Structure" ++ struct_name s, fields) /\ Forall2 (sp_declared s) fields ms /\
    attributes_of its = [ats] /\ exists a, In a ats /\ token_trees (sp_attribute r) = Some a.
Proof.
  intros Hst Ht Hc. assert (Hs : is_struct s) by (destruct s; try discriminate; exact I).
  destruct (representation_claim s text its Hst Ht Hc) as (ats & Ha & HF).
  destruct (sp_size s) as [n|] eqn:Hn.
  - destruct (GenMain.fixed_claim s n text its Hst Hn Ht Hc) as (F1 & _).
    rewrite sp_size_of in Hn. rewrite decl_struct, Hn by assumption.
    assert (Hf : is_fixed s = true) by (unfold is_fixed; now rewrite Hn).
    destruct (packed_struct s) as [[pads final]|] eqn:Ep;
      [|exfalso; unfold tuple_text in Ht; rewrite Hf, packed_text_none in Ht by assumption; discriminate].
    pose proof (packed_struct_exact s n Hs Hn) as Ee. rewrite Ep in Ee. destruct (struct_exact s); [|discriminate Ee]. apply Some_inj in Ee. injection Ee as -> ->.
    eexists _, _, _, ats. split; [reflexivity|]. split; [exact F1|]. split; [|split; [exact Ha|]].
    + apply fields_declared. intros i c Hi. now rewrite comps_children.
    + inversion HF as [|? ? ? ? _ HF2]; subst. inversion HF2 as [|? a ? ? Ea _]; subst. exists a. split; [right; now left|exact Ea].
  - pose proof (variable_declared s text its Hn Ht Hc) as F1. rewrite sp_size_of in Hn. rewrite decl_struct, Hn by assumption.
    eexists _, _, _, ats. split; [reflexivity|]. split; [exact F1|]. split; [repeat constructor|split; [exact Ha|]].
    inversion HF as [|? a ? ? Ea _]; subst. exists a. split; [now left|exact Ea].
Qed.
