(** How much serialising writes: proofs. *)
From Verif Require Import Base Types Layout AlignedBytes Spec Deser Ser SerSpec Histories LongSpec CostSpec SizeSpec
  BaseFacts TypesFacts LayoutFacts ReadFacts AccessFacts ReadClaims EqFacts EncFacts RoundFacts LongFacts SizeFacts WrapMore PadFacts SerMain SerClaims WildFacts OrderFacts OrderSizeFacts.
From Coq Require Import Lia ZifyBool ZifyNat ZifyN.
Ltac Zify.zify_post_hook ::= idtac.
Local Open Scope N_scope.

Definition room15 (bodies : list (list byte)) : N := fold_right (fun b n => blen b + 15 + n) 0 bodies.
Lemma lay_room al bodies : is_alignment al -> forall pos,
  blen (fst (sp_lay al pos bodies)) + 8 * blen (snd (sp_lay al pos bodies)) <= room15 bodies.
Proof.
  intros Ha. induction bodies as [|b r IH]; intros pos; cbn [sp_lay]; [cbn; lia|].
  specialize (IH (pad_to al pos + len b)). destruct (sp_lay al _ r) as [rest ends]. cbn [fst snd] in *.
  pose proof (pad_to_le al pos Ha). change nuls with zeros. rewrite !blen_app, blen_zeros, blen_cons.
  cbn [room15 fold_right]. fold (room15 r). lia.
Qed.
Lemma lay_struct_room items : Forall (fun it => is_alignment (fst it)) items -> forall bodies pos,
  blen (fst (sp_lay_struct pos items bodies)) + 8 * blen (snd (sp_lay_struct pos items bodies)) <= room15 bodies.
Proof.
  induction 1 as [|[al size] items Ha _ IH]; intros [|b r] pos; cbn [sp_lay_struct];
    try (cbn [fst snd]; change (blen (@nil byte)) with 0; change (blen (@nil N)) with 0; lia).
  specialize (IH r (pad_to al pos + len b)). destruct (sp_lay_struct _ items r) as [rest ends]. cbn [fst snd] in *.
  pose proof (pad_to_le al pos Ha). change nuls with zeros. rewrite !blen_app, blen_zeros.
  cbn [room15 fold_right]. fold (room15 r). destruct size, items; rewrite ?blen_cons; lia.
Qed.
Lemma offsets_room body ends : blen (sp_offsets body ends) <= 8 * blen ends.
Proof.
  unfold sp_offsets. change (@blen byte) with (@len byte). rewrite nums_len, N2Nat.id. change (@blen N) with (@len N).
  pose proof (fit_width_pos body (len ends)). nia.
Qed.
Lemma array_room tail al bodies : is_alignment al -> blen (sp_array_bytes tail al bodies) <= room15 bodies + 7.
Proof.
  intros Ha. pose proof (lay_room al bodies Ha 0) as H. unfold sp_array_bytes. destruct (sp_lay al 0 bodies) as [body ends]. cbn [fst snd] in H.
  rewrite blen_app. match goal with |- context [sp_offsets ?n ends] => pose proof (offsets_room n ends) end.
  assert (blen (if tail then body ++ nuls (pad_to al (len body) - len body) else body) <= blen body + 7).
  { destruct tail; [|lia]. change nuls with zeros. rewrite blen_app, blen_zeros. pose proof (pad_to_le al (len body) Ha). lia. }
  lia.
Qed.
Lemma walk_room its : Forall (fun it => is_alignment (fst it)) its -> forall pos,
  walk_end pos its <= pos + fold_right (fun it n => snd it + 7 + n) 0 its.
Proof.
  induction 1 as [|[al s] its Ha _ IH]; intros pos; cbn [walk_end fold_right]; [lia|].
  specialize (IH (pad_to al pos + s)). pose proof (pad_to_le al pos Ha). cbn [fst snd] in *. lia.
Qed.
Lemma room_map (f : value -> list byte) vs : Forall (fun v => blen (f v) + 15 <= 24 * sp_weight v) vs ->
  room15 (map f vs) <= 24 * wsum vs.
Proof.
  induction 1 as [|v vs Hv _ IH]; [cbn; lia|]. cbn [map room15 fold_right]. fold (room15 (map f vs)).
  change (wsum (v :: vs)) with (sp_weight v + wsum vs). lia.
Qed.
Lemma concat_room bodies : blen (concat bodies) <= room15 bodies.
Proof. induction bodies as [|b r IH]; [cbn; lia|]. cbn [concat room15 fold_right]. fold (room15 r). rewrite blen_app. lia. Qed.
Lemma bytes_room tail big t : forall v, sp_typed t v -> blen (sp_bytes tail big t v) + 15 <= 24 * sp_weight v.
Proof.
  induction t as [t Hns IH|t Hs IH] using ty_struct_ind; intros v Ht.
  - destruct t as [| | | | | | | | | | | | |x|x|ts|k w]; cbn [is_struct] in Hns; try tauto;
      destruct v as [z|bits|b|s|s d|vs|o|vs]; cbn [sp_typed] in Ht; try tauto.
    1-9: cbn [sp_bytes sp_weight]; try (change (@blen byte) with (@len byte); rewrite sp_int_len); try (destruct b); cbn; lia.
    1-3: cbn [sp_bytes sp_weight]; rewrite blen_app; change (blen [x00]) with 1; change (@len byte) with (@blen byte); lia.
    + cbn [sp_bytes sp_weight]. rewrite !blen_app. change (blen [x00]) with 1. change (@len byte) with (@blen byte). lia.
    + change (sp_typed (TA x) (VArray vs)) in Ht. rewrite typed_array in Ht. cbn [sp_bytes sp_weight]. fold (wsum vs).
      assert (HR : room15 (map (sp_bytes tail big x) vs) <= 24 * wsum vs).
      { apply room_map. rewrite Forall_forall in *. intros v Hv. apply (IH x (or_introl eq_refl)), Ht, Hv. }
      destruct (sp_fixed x).
      * pose proof (concat_room (map (sp_bytes tail big x) vs)). lia.
      * pose proof (array_room tail (sp_align x) (map (sp_bytes tail big x) vs)) as H. rewrite sp_align_of in *. specialize (H ltac:(auto with al)). lia.
    + destruct o as [v|]; cbn [sp_bytes sp_weight]; [|cbn; lia]. pose proof (IH x (or_intror eq_refl) v Ht) as H.
      destruct (sp_fixed x); rewrite ?blen_app; change (blen [x00]) with 1; lia.
  - destruct (typed_struct t v Hs Ht) as (vs & -> & HF). cbn [sp_weight]. fold (wsum vs).
    destruct (size_of t) as [n|] eqn:En.
    + pose proof (bytes_fixed tail big t n (VTuple vs) En Ht) as E. change (@len byte) with (@blen byte) in E. rewrite E.
      pose proof (size_of_fixed_struct t n Hs En) as Hn. pose proof (fixed_children t n Hs En) as Hfix.
      assert (HW : fold_right (fun it n => snd it + 7 + n) 0 (fixed_items (children_of t)) <= 24 * wsum vs).
      { clear Hn E Ht. unfold fixed_items. induction HF as [|c v cs vs Hv _ IHF]; [cbn; lia|].
        inversion IH as [|? ? I1 I2]; inversion Hfix as [|? ? F1 F2]; subst. cbn [map fold_right fst snd].
        change (wsum (v :: vs)) with (sp_weight v + wsum vs). specialize (IHF I2 F2). specialize (I1 v Hv).
        unfold is_fixed in F1. unfold size_or_0 at 1. destruct (size_of c) as [m|] eqn:Em; [|discriminate].
        pose proof (bytes_fixed tail big c m v Em Hv) as Eb. change (@len byte) with (@blen byte) in Eb. lia. }
      assert (HA : Forall (fun it => is_alignment (fst it)) (fixed_items (children_of t)))
        by (unfold fixed_items; apply Forall_map; apply Forall_forall; intros; cbn; auto with al).
      pose proof (walk_room _ HA 0) as Hwk.
      destruct (children_of t) as [|c cs] eqn:Ec; [cbn in Hn; lia|]. rewrite <- Ec in *.
      match type of Hn with n = pad_to ?a ?b => pose proof (pad_to_le a b ltac:(auto with al)) end. lia.
    + rewrite bytes_struct by (auto; symmetry; eapply Forall2_length; eauto). rewrite En. unfold sp_struct_bytes.
      assert (HR : room15 (enc_all tail big (children_of t) vs) <= 24 * wsum vs).
      { unfold enc_all. clear Ht En Hs. induction HF as [|c v cs vs Hv _ IHF]; [cbn; lia|]. inversion IH as [|? ? I1 I2]; subst.
        cbn [combine map fst snd room15 fold_right]. change (wsum (v :: vs)) with (sp_weight v + wsum vs). specialize (IHF I2). specialize (I1 v Hv).
        unfold room15 in IHF. lia. }
      assert (HA : Forall (fun it => is_alignment (fst it)) (items_of (children_of t)))
        by (unfold items_of; apply Forall_map; apply Forall_forall; intros; cbn; auto with al).
      pose proof (lay_struct_room _ HA (enc_all tail big (children_of t) vs) 0) as HL.
      destruct (sp_lay_struct 0 _ _) as [body ends]. cbn [fst snd] in HL. rewrite blen_app.
      pose proof (offsets_room (len body) (rev ends)) as HO. rewrite blen_rev in HO. lia.
Qed.

(** ** Claims *)
Lemma written_weight big t v : sp_typed t v -> len (sp_written big t v) <= 24 * sp_weight v.
Proof. intros Ht. pose proof (bytes_room true big t v Ht). change (@len byte) with (@blen byte). unfold sp_written. lia. Qed.
Lemma again_bound h t s v : usable t -> aligned (sp_align t) s -> len (s_data s) < 2 ^ 63 -> decode h t s = Ok v ->
  24 * (3 * len (sp_show t) * (len (s_data s) + 1) ^ (1 + sp_nest t)) < 2 ^ 63 ->
  exists d, reserialize h t s None = (Sink d None, SOk (len d)) /\ len d <= 24 * (3 * len (sp_show t) * (len (s_data s) + 1) ^ (1 + sp_nest t)).
Proof.
  intros Hu Ha Hl HD Hb. pose proof (decode_typed h t s v Hu Ha Hl HD) as HT. pose proof (weight_all_claim h t s v Hu Ha Hl HD) as HW.
  pose proof (written_weight (h_big_endian h) t v HT) as H.
  set (B := (len (s_data s) + 1) ^ (1 + sp_nest t)) in *. clearbody B.
  exists (sp_written (h_big_endian h) t v). split; [|lia]. rewrite (reserialize_claim h t s v) by (auto; lia). reflexivity.
Qed.
Lemma again_in_range h t s v : usable t -> aligned (sp_align t) s -> len (s_data s) < 2 ^ 63 -> sp_orderly t (Some (s_data s)) = true -> decode h t s = Ok v ->
  72 * len (sp_show t) * (len (s_data s) + 1) < 2 ^ 63 ->
  exists d, reserialize h t s None = (Sink d None, SOk (len d)) /\ len d <= 72 * len (sp_show t) * (len (s_data s) + 1).
Proof.
  intros Hu Ha Hl Ho HD Hb. pose proof (decode_typed h t s v Hu Ha Hl HD) as HT. pose proof (weight_in_range h t s v Hu Ha Hl Ho HD) as HW.
  pose proof (written_weight (h_big_endian h) t v HT) as H.
  exists (sp_written (h_big_endian h) t v). split; [|lia]. rewrite (reserialize_claim h t s v) by (auto; lia). reflexivity.
Qed.
Lemma arrays_unpadded k : sp_unpadded (arrays k) = true.
Proof.
  induction k as [|k IH]; [reflexivity|]. change (arrays (S k)) with (TA (arrays k)). cbn [sp_unpadded]. rewrite IH.
  destruct (arrays_plain k) as (-> & _). cbn. now rewrite orb_true_r.
Qed.
Lemma again_reached h k n a : 1 <= n -> 1 + k < 2 ^ 32 -> n * (16 * k + 1) < 2 ^ 63 ->
  exists d v, len d <= n * (16 * k + 1) /\ decode h (Nat.iter (N.to_nat k) TA TS) (Slice a d) = Ok v /\
    let w := sp_written (h_big_endian h) (Nat.iter (N.to_nat k) TA TS) v in
    (len w < 2 ^ 63 -> n ^ (1 + k) <= 3 * (1 + k) * (len w + 1) /\
     reserialize h (Nat.iter (N.to_nat k) TA TS) (Slice a d) None = (Sink w None, SOk (len w))).
Proof.
  intros Hn Hk Hl. destruct (blow_claim h k n a Hn Hk Hl) as (d & v & H1 & H2 & H3). exists d, v. split; [exact H1|]. split; [exact H2|].
  cbv zeta. intros Hw. change (Nat.iter (N.to_nat k) TA TS) with (arrays (N.to_nat k)) in *.
  destruct (arrays_plain (N.to_nat k)) as (Ea & Em & Es & _). rewrite N2Nat.id in Es.
  assert (Hu : usable (arrays (N.to_nat k))) by (split; [exact Em|rewrite Es; lia]).
  assert (Ha : aligned (sp_align (arrays (N.to_nat k))) (Slice a d)) by (rewrite Ea; apply N.mod_1_r).
  pose proof (decode_typed h _ (Slice a d) v Hu Ha ltac:(cbn [s_data]; lia) H2) as HT.
  split; [|now rewrite (reserialize_claim h _ (Slice a d) v) by (auto; cbn [s_data]; lia)].
  rewrite (tails_same (h_big_endian h) _ v HT (unpadded_tails _ _ _ HT (arrays_unpadded _))) in *.
  pose proof (weight_of_normal (h_big_endian h) _ v HT Hw) as H. rewrite Es in H. lia.
Qed.
Lemma native_bound h t r : usable t -> rtyped t r -> no_nuls t r ->
  let v := rvalue true (h_big_endian h) t r in 24 * sp_weight v < 2 ^ 63 ->
  exists d, serialize h t r None = (Sink d None, SOk (len d)) /\ len d <= 24 * sp_weight v.
Proof.
  cbv zeta. intros Hu Hr Hn Hw. pose proof (written_weight (h_big_endian h) t _ (rvalue_typed true (h_big_endian h) r t Hr Hn)) as H.
  eexists. split; [|exact H]. rewrite ser_claim by (auto; lia). reflexivity.
Qed.
