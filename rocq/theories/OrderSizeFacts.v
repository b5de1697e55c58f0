(** How much is read, and printed, when every child is in range: proofs. *)
From Verif Require Import Base Types Layout AlignedBytes Spec Deser Histories CostSpec SizeSpec LongSpec Fmt CoreFmt Flags FlagSpec
  BaseFacts TypesFacts LayoutFacts DeserFacts ArrayFacts StructFacts ReadFacts AccessFacts ReadClaims EqFacts EncFacts RoundFacts LongFacts SizeFacts OrderFacts PrintSizeFacts.
From Coq Require Import Lia ZifyBool ZifyNat ZifyN.
Ltac Zify.zify_post_hook ::= idtac.
Local Open Scope N_scope.

Lemma wsum_sum big x k bs : Forall (fun b => sp_weight (sp_decode big x (Some b)) <= k * (blen b + 1)) bs ->
  wsum (map (sp_decode big x) (map Some bs)) <= k * (sum_len bs + blen bs).
Proof.
  induction 1 as [|b bs Hb _ IH]; [cbn; lia|]. cbn [map]. rewrite blen_cons.
  change (wsum (?v :: ?l)) with (sp_weight v + wsum l). cbn [sum_len fold_right]. fold (sum_len bs). nia.
Qed.
Lemma all_some {A} (f : option A -> bool) cs : f None = false -> forallb f cs = true -> exists bs, cs = map Some bs /\ Forall (fun b => f (Some b) = true) bs.
Proof.
  intros Hf. induction cs as [|c cs IH]; intros H; [exists []; split; [reflexivity|constructor]|].
  cbn [forallb] in H. apply andb_true_iff in H as [H1 H2]. destruct (IH H2) as (bs & -> & HF).
  destruct c as [b|]; [|congruence]. exists (b :: bs). split; [reflexivity|now constructor].
Qed.
Lemma dec_all_combine big (P : ty -> value -> Prop) ts : forall cs, length cs = length ts ->
  (forall t c, In (t, c) (combine ts cs) -> P t (sp_decode big t c)) -> Forall2 P ts (dec_all big ts cs).
Proof.
  unfold dec_all. induction ts as [|t ts IH]; intros [|c cs] Hl H; try discriminate; cbn [combine map]; constructor.
  - cbn [fst snd]. apply H. now left.
  - apply IH; [now injection Hl|]. intros. apply H. now right.
Qed.
Lemma weight_orderly big t : forall b, sp_orderly t (Some b) = true ->
  sp_weight (sp_decode big t (Some b)) <= 3 * type_len t * (blen b + 1).
Proof.
  induction t as [t Hs IH|t Hs IH] using ty_struct_ind; intros b Ho; pose proof (type_len_pos t) as Hp;
    (destruct (size_of t) as [n|] eqn:En; [pose proof (weight_fixed big t n En (Some b)); nia|]).
  - destruct (N.eq_dec (sp_nest t) 0) as [Hz|Hz].
    { pose proof (weight_bound big t (Some b)) as H. rewrite Hz, N.pow_1_r in H. exact H. }
    destruct t as [| | | | | | | | | | | | |x|x|ts|k v]; try discriminate En; cbn [is_struct] in Hs; try tauto;
      try (exfalso; apply Hz; reflexivity).
    + rewrite (type_len_parts (TA x) x) by auto. cbn [sp_nest] in Hz. rewrite sp_size_of in Hz.
      destruct (size_of x) as [k|] eqn:Ex; [tauto|]. cbn [sp_orderly] in Ho. rewrite sp_size_of, En, sp_size_of, Ex in Ho.
      cbn [sp_decode sp_weight]. rewrite sp_size_of, Ex.
      apply all_some in Ho as (bs & Ec & HF); [|apply orderly_none]. rewrite Ec.
      fold (wsum (map (sp_decode big x) (map Some bs))).
      assert (HW : wsum (map (sp_decode big x) (map Some bs)) <= 3 * type_len x * (sum_len bs + blen bs)).
      { apply wsum_sum. rewrite Forall_forall in *. intros c Hc. apply (IH x (or_introl eq_refl)), HF, Hc. }
      apply children_sum in Ec; [|rewrite sp_align_of; auto with al].
      pose proof (N.mul_le_mono_l _ _ (3 * type_len x) Ec). lia.
    + rewrite (type_len_parts (TM x) x) by auto. cbn [sp_decode sp_weight]. rewrite sp_size_of.
      cbn [sp_orderly] in Ho. rewrite sp_size_of, En, sp_size_of in Ho. pose proof (type_len_pos x).
      destruct (size_of x) as [k|] eqn:Ex.
      * destruct (_ =? _); [|nia]. pose proof (weight_fixed big x k Ex (Some b)). nia.
      * destruct b as [|c l] eqn:E; [nia|]. rewrite <- E in *.
        pose proof (IH x (or_intror eq_refl) (removelast b) Ho) as HI. pose proof (removelast_le b). nia.
  - rewrite sp_decode_norm. rewrite sp_decode_struct by (auto using norm_good). cbn [sp_weight].
    assert (E : norm t (Some b) = b).
    { cbn [norm]. unfold seen_bytes. destruct (size_good_dec t (blen b)) as [|Hg]; [reflexivity|].
      exfalso. apply Hg. unfold size_good. rewrite En. destruct t; try exact I. destruct Hs. }
    rewrite E. rewrite orderly_struct in Ho by assumption. unfold orderly_all in Ho. rewrite forallb_forall in Ho.
    fold (wsum (dec_all big (children_of t) (struct_cuts t b))). pose proof (children_len t Hs) as HL.
    assert (H : Forall2 (fun c v => sp_weight v <= 3 * (blen b + 1) * type_len c) (children_of t) (dec_all big (children_of t) (struct_cuts t b))).
    { apply dec_all_combine; [apply struct_cuts_length|]. intros c o Hin. specialize (Ho _ Hin). cbn [fst snd] in Ho.
      destruct o as [d|]; [|now rewrite orderly_none in Ho].
      rewrite Forall_forall in IH. pose proof (IH c (in_combine_l _ _ _ _ Hin) d Ho) as HI.
      pose proof (struct_cuts_len t b d (in_combine_r _ _ _ _ Hin)) as Hd.
      pose proof (N.mul_le_mono_l (blen d + 1) (blen b + 1) (3 * type_len c) ltac:(lia)). lia. }
    apply wsum_parts in H. rewrite sum_types in H. nia.
Qed.

(** ** In range is near *)
Lemma cuts_near ts : forall cs, orderly_all ts cs = true -> length cs = length ts -> ~ In None cs.
Proof.
  unfold orderly_all. induction ts as [|t ts IH]; intros [|c cs] H Hl; try discriminate; [auto|].
  cbn [combine forallb fst snd] in H. apply andb_true_iff in H as [H1 H2]. intros [->|Hin]; [now rewrite orderly_none in H1|].
  apply (IH cs H2); [now injection Hl|exact Hin].
Qed.
Lemma orderly_near t : forall b, len b < 2 ^ 63 -> sp_orderly t (Some b) = true -> sp_near t (Some b) = true.
Proof.
  change (@len byte) with (@blen byte).
  induction t as [t Hs IH|t Hs IH] using ty_struct_ind; intros b Hl Ho;
    (destruct (size_of t) as [n|] eqn:En; [now apply (sp_near_fixed t n)|]).
  - destruct t as [| | | | | | | | | | | | |x|x|ts|k v]; try reflexivity; cbn [is_struct] in Hs; try tauto;
      cbn [sp_orderly] in Ho; rewrite sp_size_of, En in Ho; cbn [sp_near]; rewrite sp_size_of in *.
    + destruct (size_of x) as [k|] eqn:Ex; [reflexivity|]. pose proof Ho as Ho'.
      apply all_some in Ho' as (bs & Ec & HF); [|apply orderly_none]. apply andb_true_iff. split.
      * apply (array_inside_near (sp_align x)); [exact Hl|]. rewrite Ec. intros H. apply in_map_iff in H as (y & H & _). discriminate.
      * apply forallb_forall. intros c Hc. pose proof Hc as Hc'. rewrite sp_array_children_map in Hc'. apply in_map_iff in Hc' as (i & Hi & _).
        rewrite forallb_forall in Ho. specialize (Ho c Hc). destruct c as [c|]; [|now rewrite orderly_none in Ho].
        apply (IH x (or_introl eq_refl)); [|exact Ho]. apply arr_cut_len in Hi. lia.
    + destruct (size_of x) as [k|] eqn:Ex; [reflexivity|]. destruct b as [|c l] eqn:E; [reflexivity|]. rewrite <- E in *.
      apply (IH x (or_intror eq_refl)); [|exact Ho]. pose proof (removelast_le b). lia.
  - rewrite sp_near_struct by assumption. rewrite orderly_struct in Ho by assumption.
    pose proof (struct_cuts_length t b) as Hn. apply andb_true_iff. split.
    + apply struct_inside_near; [exact Hl|]. pose proof (cuts_near _ _ Ho Hn) as H. unfold struct_cuts in H. rewrite En in H. exact H.
    + unfold orderly_all in Ho. unfold near_all. rewrite forallb_forall in *. intros [c o] Hin. specialize (Ho _ Hin). cbn [fst snd] in *.
      destruct o as [d|]; [|now rewrite orderly_none in Ho]. rewrite Forall_forall in IH.
      apply (IH c (in_combine_l _ _ _ _ Hin)); [|exact Ho].
      pose proof (struct_cuts_len t b d (in_combine_r _ _ _ _ Hin)). lia.
Qed.
Lemma weight_in_range h t s v : usable t -> aligned (sp_align t) s -> len (s_data s) < 2 ^ 63 -> sp_orderly t (Some (s_data s)) = true ->
  decode h t s = Ok v -> sp_weight v <= 3 * len (sp_show t) * (len (s_data s) + 1).
Proof.
  intros Hu Ha Hl Ho E. rewrite long_claim in E by (auto using orderly_near). destruct (sp_reads _ _); [|discriminate E].
  injection E as <-. rewrite type_len_show. change (@len byte) with (@blen byte). now apply weight_orderly.
Qed.
Lemma weight_of_normal big t v : sp_typed t v -> len (sp_encode big t v) < 2 ^ 63 ->
  sp_weight v <= 3 * len (sp_show t) * (len (sp_encode big t v) + 1).
Proof.
  intros Ht Hl. pose proof (weight_orderly big t _ (encode_orderly big t v Ht Hl)) as H.
  destruct (encode_back big t v Ht) as [E _]; [lia|]. rewrite E in H. rewrite type_len_show. exact H.
Qed.
Lemma text_in_range shown double D h t s r v : (forall b, len (double b) <= D) -> usable t -> aligned (sp_align t) s -> len (s_data s) < 2 ^ 63 ->
  sp_orderly t (Some (s_data s)) = true -> cast h t s = Ok r -> read h t r = Ok v ->
  exists text, fmt_debug h (core_fmts shown double) t r = Ok text /\ len text <= (32 + D) * (3 * len (sp_show t) * (len (s_data s) + 1)).
Proof.
  intros HD Hu Ha Hl Ho Hc Hr. destruct (text_length shown double D h t s r v HD Hu Ha Hl Hc Hr) as (text & E & H). exists text. split; [exact E|].
  eapply N.le_trans; [exact H|]. apply N.mul_le_mono_l. apply (weight_in_range h t s v Hu Ha Hl Ho). unfold decode. now rewrite Hc.
Qed.
