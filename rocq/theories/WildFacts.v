(** Every type that is not tame has bytes that make reading it panic. *)
From Verif Require Import Base Types Layout AlignedBytes Spec LongSpec Deser Histories BaseFacts TypesFacts LayoutFacts
  AlignedFacts DeserFacts ArrayFacts StructFacts ReadFacts ReadClaims EqFacts EncFacts RoundFacts LongFacts AccessFacts.
From Coq Require Import Lia ZifyBool ZifyNat ZifyN.
Ltac Zify.zify_post_hook ::= Z.div_mod_to_equations.

Lemma fixed_tame t n : size_of t = Some n -> sp_tame t = true.
Proof.
  revert n. induction t as [t Hns IH|t Hs IH] using ty_struct_ind; intros n Hn.
  - destruct t; cbn [is_struct] in Hns; try tauto; try reflexivity; discriminate.
  - pose proof (fixed_children t n Hs Hn) as Hf.
    assert (H : Forall (fun c => sp_tame c = true) (children_of t)).
    { rewrite Forall_forall in *. intros c Hc. specialize (Hf c Hc). unfold is_fixed in Hf.
      destruct (size_of c) eqn:E; [|discriminate]. eapply IH; eauto. }
    rewrite Forall_forall in H. destruct t; cbn [is_struct children_of] in *; try tauto; cbn [sp_tame].
    + apply forallb_forall. exact H.
    + rewrite (H t1), (H t2); auto; cbn [In]; auto.
Qed.
Lemma struct_tame t : is_struct t -> sp_tame t = forallb sp_tame (children_of t).
Proof. destruct t; cbn [is_struct]; try tauto; intros _; cbn [sp_tame children_of forallb]; now rewrite ?andb_true_r. Qed.

(** ** Sizes *)
Fixpoint total (bodies : list (list byte)) : N :=
  match bodies with [] => 0 | b :: r => 16 + len b + total r end.
Lemma pad_to_le al x : is_alignment al -> pad_to al x <= x + 7.
Proof. intros [->|[->|[->| ->]]]; unfold pad_to; lia. Qed.
Lemma lay_struct_total items : Forall (fun it => is_alignment (fst it)) items -> forall bodies pos,
  len (fst (sp_lay_struct pos items bodies)) + 8 * len (snd (sp_lay_struct pos items bodies)) <= total bodies.
Proof.
  induction 1 as [|[al size] items Hal _ IH]; intros bodies pos; [cbn; lia|].
  destruct bodies as [|b bodies]; [cbn; lia|]. cbn [sp_lay_struct total].
  specialize (IH bodies (pad_to al pos + len b)). destruct (sp_lay_struct _ items bodies) as [rest ends]. cbn [fst snd] in *.
  pose proof (pad_to_le al pos Hal). pose proof (pad_to_ge al pos Hal).
  change @len with @blen in *. change nuls with zeros. rewrite !blen_app, blen_zeros.
  assert (Hc : blen (match size, items with None, _ :: _ => (pad_to al pos + blen b) :: ends | _, _ => ends end) <= 1 + blen ends)
    by (destruct size, items; rewrite ?blen_cons; lia).
  lia.
Qed.
Lemma fit_width_le body n : sp_fit_width body n <= 8.
Proof. unfold sp_fit_width. repeat destruct (_ <? _); lia. Qed.
Lemma num_le_length k : forall n, length (num_le k n) = k.
Proof. induction k as [|k IH]; intros n; cbn [num_le length]; [reflexivity|]. now rewrite IH. Qed.
Lemma offsets_len body ends : len (sp_offsets body ends) <= 8 * len ends.
Proof.
  unfold sp_offsets. pose proof (fit_width_le body (len ends)) as Hw.
  generalize dependent (sp_fit_width body (len ends)). intros w Hw. induction ends as [|e r IH]; cbn [map concat]; [cbn; lia|].
  change @len with @blen in *. rewrite blen_app, blen_cons. unfold blen at 1. rewrite num_le_length. lia.
Qed.
Lemma struct_bytes_total items bodies : Forall (fun it => is_alignment (fst it)) items ->
  len (sp_struct_bytes None items bodies) <= total bodies.
Proof.
  intros HA. pose proof (lay_struct_total items HA bodies 0) as H. unfold sp_struct_bytes.
  destruct (sp_lay_struct 0 items bodies) as [body ends]. cbn [fst snd] in H.
  pose proof (offsets_len (len body) (rev ends)) as Ho. change @len with @blen in *.
  unfold blen in Ho at 3. rewrite rev_length in Ho. fold (blen ends) in Ho. rewrite blen_app. lia.
Qed.
Lemma one_element al b : is_alignment al -> len (sp_array_bytes false al [b]) <= len b + 8.
Proof.
  intros Ha. unfold sp_array_bytes. cbn [sp_lay]. rewrite pad_to_0 by assumption. rewrite N.sub_0_r.
  change (nuls 0) with (@nil byte). cbn [app]. rewrite app_nil_r.
  pose proof (offsets_len (len b) [0 + len b]) as H. change @len with @blen in *. rewrite blen_app.
  change (blen [0 + blen b]) with 1 in H. lia.
Qed.

(** ** The bytes *)
Definition wild (t : ty) (d : list byte) : Prop :=
  sp_reads t (Some d) = false /\ sp_near t (Some d) = true /\ len d <= 24 * type_len t.
(** Children of a structure next to the one of interest: as small as possible. *)
Definition plain_body (c : ty) : list byte := zeros (size_or_0 c).
Lemma plain_near c : sp_near c (Some (plain_body c)) = true.
Proof.
  destruct (size_of c) as [n|] eqn:E; [now apply (sp_near_fixed c n)|].
  apply small_near. unfold plain_body, size_or_0. rewrite E. reflexivity.
Qed.
Lemma total_app a b : total (a ++ b) = total a + total b.
Proof. induction a as [|x a IH]; cbn [app total]; [reflexivity|]. lia. Qed.
Lemma total_plain cs : total (map plain_body cs) <= 24 * blen (concat (map display cs)).
Proof.
  induction cs as [|c cs IH]; cbn [map total concat]; [cbn; lia|]. rewrite blen_app. fold (type_len c).
  unfold plain_body at 1. change @len with @blen in *. rewrite blen_zeros.
  pose proof (size_or_0_bound c). pose proof (type_len_pos c). lia.
Qed.
Lemma wild_array x d : size_of x = None -> type_len x < 2 ^ 32 -> len d <= 24 * type_len x ->
  sp_near x (Some d) = true -> sp_whole x (Some d) && sp_reads x (Some d) = false ->
  wild (TA x) (sp_array_bytes false (align_of x) [d]).
Proof.
  intros Hx Ht Hd Hn Hr. pose proof (align_of_alignment x) as Ha. pose proof (one_element (align_of x) d Ha) as Hl.
  assert (Htl : type_len (TA x) = 1 + type_len x) by (unfold type_len; cbn [display]; rewrite blen_cons; lia).
  destruct (array_bytes_cut false (align_of x) [d] Ha ltac:(lia)) as [Hc _]. specialize (Hc (or_introl eq_refl)). cbn [map] in Hc.
  split; [|split; [|lia]].
  - cbn [sp_reads]. rewrite sp_size_of, Hx, sp_align_of, Hc. cbn [forallb]. now rewrite Hr.
  - cbn [sp_near]. rewrite sp_size_of, Hx, sp_align_of.
    rewrite (array_inside_near (align_of x)); [|lia|rewrite Hc; cbn [In]; intros [H|H]; [discriminate|exact H]].
    rewrite Hc. cbn [forallb]. now rewrite Hn.
Qed.
Lemma wild_maybe x d : size_of x = None -> len d <= 24 * type_len x ->
  sp_near x (Some d) = true -> sp_whole x (Some d) && sp_reads x (Some d) = false ->
  wild (TM x) (d ++ [x00]).
Proof.
  intros Hx Hd Hn Hr. assert (Htl : type_len (TM x) = 1 + type_len x) by (unfold type_len; cbn [display]; rewrite blen_cons; lia).
  assert (Hb : exists b r, d ++ [x00] = b :: r) by (destruct d as [|b d]; cbn [app]; eauto). destruct Hb as (b & r & Eb).
  pose proof (removelast_last d x00) as El. rewrite Eb in El.
  split; [|split].
  - cbn [sp_reads]. rewrite sp_size_of, Hx, Eb, El. exact Hr.
  - cbn [sp_near]. rewrite sp_size_of, Hx, Eb, El. exact Hn.
  - change @len with @blen in *. rewrite blen_app, Htl. change (blen [x00]) with 1. lia.
Qed.
Lemma multi_var x : sp_multi x = true -> size_of x = None /\ sp_whole x (Some [x00]) = false /\ sp_near x (Some [x00]) = true.
Proof.
  destruct x as [| | | | | | | | | | | | |y|y|ts|a b]; try discriminate. cbn [sp_multi]. intros H. split; [reflexivity|].
  destruct (sp_size y) as [n|] eqn:E; [|discriminate]. split.
  - cbn [sp_whole]. rewrite E. change (len [x00]) with 1. rewrite sp_size_of in E. destruct (size_of_props y n E) as [Hp _].
    apply negb_true_iff in H. apply N.eqb_neq in H. apply N.eqb_neq. rewrite N.mod_small; lia.
  - cbn [sp_near]. now rewrite E.
Qed.
Lemma wild_exists t : type_len t < 2 ^ 32 -> sp_tame t = false -> exists d, wild t d.
Proof.
  induction t as [t Hns IH|t Hs IH] using ty_struct_ind; intros Hl Ht.
  - destruct t as [| | | | | | | | | | | | |x|x|ts|a b]; cbn [is_struct] in Hns; try tauto; try discriminate; cbn [sp_tame] in Ht;
      specialize (IH x ltac:(auto));
      assert (Hx : type_len x < 2 ^ 32) by (unfold type_len in *; cbn [display] in Hl; rewrite blen_cons in Hl; lia);
      pose proof (type_len_pos x);
      (assert (He : exists d, size_of x = None /\ len d <= 24 * type_len x /\ sp_near x (Some d) = true /\
                      sp_whole x (Some d) && sp_reads x (Some d) = false);
       [destruct (sp_multi x) eqn:Em;
        [destruct (multi_var x Em) as (H1 & H2 & H3); exists [x00]; rewrite H2; split; [exact H1|];
         split; [change (len [x00]) with 1; lia|]; split; [exact H3|reflexivity]
        |cbn [negb andb] in Ht; destruct (IH Hx Ht) as (d & H1 & H2 & H3); exists d; rewrite H1, andb_false_r;
         split; [|auto]; destruct (size_of x) as [n|] eqn:En; [|reflexivity]; rewrite (fixed_tame x n En) in Ht; discriminate]
       |destruct He as (d & H1 & H2 & H3 & H4)]).
    + exact (ex_intro _ _ (wild_array x d H1 Hx H2 H3 H4)).
    + exact (ex_intro _ _ (wild_maybe x d H1 H2 H3 H4)).
  - rewrite struct_tame in Ht by assumption.
    assert (Hc : exists c, In c (children_of t) /\ sp_tame c = false).
    { clear -Ht. induction (children_of t) as [|c cs IHc]; [discriminate|]. cbn [forallb] in Ht. apply andb_false_iff in Ht as [Ht|Ht].
      - exists c. cbn [In]. auto.
      - destruct (IHc Ht) as (c' & H1 & H2). exists c'. cbn [In]. auto. }
    destruct Hc as (c & Hc & Hct). pose proof (child_len t c Hs Hc) as Hcl.
    rewrite Forall_forall in IH. destruct (IH c Hc ltac:(lia) Hct) as (d & H1 & H2 & H3).
    assert (Hcv : size_of c = None).
    { destruct (size_of c) as [n|] eqn:En; [|reflexivity]. rewrite (fixed_tame c n En) in Hct. discriminate. }
    assert (Htv : size_of t = None).
    { destruct (size_of t) as [n|] eqn:En; [|reflexivity]. pose proof (fixed_children t n Hs En) as Hf. rewrite Forall_forall in Hf.
      specialize (Hf c Hc). unfold is_fixed in Hf. rewrite Hcv in Hf. discriminate. }
    pose proof (children_len t Hs) as Hcs. apply in_split in Hc as (l1 & l2 & El). rewrite El in Hcs.
    set (bodies := map plain_body l1 ++ d :: map plain_body l2).
    assert (HA : Forall (fun it => is_alignment (fst it)) (items_of (children_of t))).
    { unfold items_of. rewrite Forall_map. apply Forall_forall. intros c' _. apply align_of_alignment. }
    assert (HF : Forall2 fits (items_of (children_of t)) bodies).
    { rewrite El. unfold items_of, bodies. rewrite map_app. cbn [map].
      assert (Hp : forall l, Forall2 fits (map (fun t => (align_of t, size_of t)) l) (map plain_body l)).
      { induction l as [|c' l IHl]; cbn [map]; constructor; auto. unfold fits, plain_body, size_or_0. cbn [snd].
        destruct (size_of c'); [|exact I]. change @len with @blen. apply blen_zeros. }
      apply Forall2_app; [apply Hp|]. constructor; [|apply Hp]. unfold fits. cbn [snd]. rewrite Hcv. exact I. }
    pose proof (struct_bytes_total (items_of (children_of t)) bodies HA) as Htot.
    assert (Hb : total bodies <= 24 * type_len t).
    { unfold bodies. rewrite total_app. cbn [total]. pose proof (total_plain l1). pose proof (total_plain l2).
      rewrite map_app, concat_app, blen_app in Hcs. cbn [map concat] in Hcs. rewrite blen_app in Hcs. fold (type_len c) in Hcs. lia. }
    pose proof (struct_bytes_var (items_of (children_of t)) bodies HF HA ltac:(lia)) as Hcut.
    exists (sp_struct_bytes None (items_of (children_of t)) bodies).
    assert (Hcuts : struct_cuts t (sp_struct_bytes None (items_of (children_of t)) bodies) = map Some bodies)
      by (unfold struct_cuts; now rewrite Htv).
    split; [|split; [|lia]].
    + rewrite sp_reads_struct, Hcuts by assumption. unfold reads_all. apply not_true_iff_false. intros H.
      rewrite forallb_forall in H. specialize (H (c, Some d)). cbn [fst snd] in H. rewrite H1 in H. discriminate H.
      rewrite El. unfold bodies. rewrite map_app. cbn [map].
      assert (Hlen : length l1 = length (map Some (map plain_body l1))) by now rewrite !map_length.
      clear -Hlen. revert Hlen. generalize (map Some (map plain_body l1)).
      induction l1 as [|y l1 IHl]; intros [|z l]; intros Hlen; try discriminate; cbn [app combine In]; auto.
    + rewrite sp_near_struct, Hcuts by assumption.
      rewrite struct_inside_near; [|lia|rewrite Hcut; apply some_none]. unfold near_all. cbn [andb].
      apply forallb_forall. intros [c' o] Hin. cbn [fst snd].
      rewrite El in Hin. unfold bodies in Hin. rewrite map_app in Hin. cbn [map] in Hin.
      assert (Hlen : length l1 = length (map Some (map plain_body l1))) by now rewrite !map_length.
      assert (Hpl : forall l, In (c', o) (combine l (map Some (map plain_body l))) -> sp_near c' o = true).
      { induction l as [|y l IHl]; cbn [map combine In]; [tauto|]. intros [E|E]; [|auto]. injection E as <- <-. apply plain_near. }
      assert (Hsplit : In (c', o) (combine l1 (map Some (map plain_body l1))) \/ (c', o) = (c, Some d) \/
                       In (c', o) (combine l2 (map Some (map plain_body l2)))).
      { clear -Hin Hlen. revert Hlen Hin. generalize (map Some (map plain_body l1)).
        induction l1 as [|y l1 IHl]; intros [|z l] Hlen Hin; try discriminate; cbn [app combine In] in *.
        - destruct Hin as [E|E]; auto.
        - destruct Hin as [E|E]; auto. destruct (IHl l) as [E'|E']; auto. }
      destruct Hsplit as [E|[E|E]]; [eauto| |eauto]. injection E as -> ->. exact H2.
Qed.
Lemma wild_claim h t a : usable t -> a mod sp_align t = 0 ->
  (sp_tame t = false <-> exists d, len d <= 24 * len (sp_show t) /\ decode h t (Slice a d) = Crash PUnwrap).
Proof.
  intros [Hm Hl] Ha. pose proof Hl as Hl'. rewrite type_len_show in *. split.
  - intros Ht. destruct (wild_exists t Hl' Ht) as (d & H1 & H2 & H3). exists d. split; [exact H3|].
    rewrite long_claim; cbn [s_data]; auto; [now rewrite H1|split; [assumption|now rewrite type_len_show]|lia].
  - intros (d & Hd & E). destruct (decode_any_length h t (Slice a d) PUnwrap) as [[_ H]|[H _]]; auto; try discriminate.
    + split; [assumption|now rewrite type_len_show].
    + cbn [s_data]. lia.
Qed.
