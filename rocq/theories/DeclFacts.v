(** How the declared types lie in memory and which threads may use them: proofs. *)
From Verif Require Import Base Types Layout AlignedBytes Spec Deser Histories Decl DeclSpec
  BaseFacts TypesFacts LayoutFacts DeserFacts ReadFacts AccessFacts ReadClaims OwnClaims.
From Coq Require Import Lia ZifyBool ZifyNat ZifyN.
Ltac Zify.zify_post_hook ::= idtac.
Local Open Scope N_scope.

Definition layouts_of (n : N) : list mty -> option (list (N * N)) :=
  fix all (fs : list mty) : option (list (N * N)) :=
    match fs with
    | [] => Some []
    | f :: fs => match layout_of n f, all fs with Some l, Some ls => Some (l :: ls) | _, _ => None end
    end.
Lemma layouts_cons n f fs : layouts_of n (f :: fs) = match layout_of n f, layouts_of n fs with Some l, Some ls => Some (l :: ls) | _, _ => None end.
Proof. reflexivity. Qed.
Lemma layout_c n fs : layout_of n (MStruct LikeC fs) = match layouts_of n fs with Some ls => let '(_, size, al) := repr_c ls in Some (size, al) | None => None end.
Proof. reflexivity. Qed.
Lemma decl_struct t : is_struct t -> decl t =
  match size_of t with
  | Some _ => match packed_struct t with Some (pads, final) => MStruct LikeC (padded_decl pads (map decl (children_of t)) final) | None => MStruct LikeC [] end
  | None => MStruct Transparent [aligned_decl]
  end.
Proof. destruct t; cbn [is_struct]; tauto || reflexivity. Qed.
Lemma layouts_padded n pads : forall fs ls final, layouts_of n fs = Some ls ->
  layouts_of n (padded_decl pads fs final) = Some (map snd (interleave pads ls final)).
Proof.
  assert (HF : forall final, layouts_of n (if 0 <? final then [MPad final] else []) = Some (map snd (if 0 <? final then [(false, (final, 1))] else []))).
  { intros final. destruct (0 <? final); reflexivity. }
  induction pads as [|p pads IH]; intros [|f fs] ls final H; rewrite ?layouts_cons in H.
  - injection H as <-. apply HF.
  - destruct (layout_of n f), (layouts_of n fs); try discriminate H. injection H as <-. apply HF.
  - injection H as <-. apply HF.
  - destruct (layout_of n f) as [l|] eqn:El; [|discriminate H]. destruct (layouts_of n fs) as [ls'|] eqn:Els; [|discriminate H]. injection H as <-.
    cbn [padded_decl interleave]. specialize (IH fs ls' final Els).
    destruct (0 <? p); cbn [app map snd]; rewrite ?layouts_cons, El, IH; reflexivity.
Qed.
Lemma decl_fixed t k : forall n, size_of t = Some k -> macro_ok t = true -> layout_of n (decl t) = Some (k, align_of t).
Proof.
  revert k. induction t as [t Hns _|t Hs IH] using ty_struct_ind; intros k n Hk Hm.
  - destruct t; cbn [is_struct] in Hns; try tauto; try discriminate Hk; cbn in Hk; injection Hk as <-; reflexivity.
  - pose proof (mem_layout_ok t k Hk Hm) as HL. rewrite mem_layout_struct in HL by assumption. rewrite decl_struct, Hk by assumption.
    destruct (packed_struct t) as [[pads final]|]; [|discriminate HL].
    rewrite layout_c. rewrite (layouts_padded n pads _ (declared (children_of t))).
    + rewrite mem_layouts_declared in HL; [exact HL|].
      rewrite macro_ok_struct in Hm by assumption. apply andb_true_iff in Hm as [Hc _]. rewrite forallb_forall in Hc.
      pose proof (fixed_children t k Hs Hk) as HF. rewrite Forall_forall in *. intros x Hx. specialize (HF x Hx). unfold is_fixed in HF. unfold size_or_0.
      destruct (size_of x) as [m|] eqn:Em; [|discriminate]. apply mem_layout_ok; auto.
    + rewrite macro_ok_struct in Hm by assumption. apply andb_true_iff in Hm as [Hc _].
      pose proof (fixed_children t k Hs Hk) as HF. clear -IH Hc HF. induction IH as [|c cs Hc' _ IHc]; [reflexivity|].
      cbn [forallb map] in *. apply andb_true_iff in Hc as [H1 H2]. inversion HF as [|? ? Hf1 Hf2]; subst. specialize (IHc H2 Hf2).
      unfold is_fixed in Hf1. destruct (size_of c) as [m|] eqn:Em; [|discriminate]. rewrite layouts_cons, (Hc' m n eq_refl H1), IHc.
      unfold declared. cbn [map]. unfold size_or_0. rewrite Em. reflexivity.
Qed.
Lemma decl_aligned n : layout_of n (MStruct Transparent [aligned_decl]) = Some (n, 1).
Proof. cbn. f_equal. f_equal. lia. Qed.
Lemma decl_variable t n : size_of t = None -> (forall x, t = TA x -> size_of x = None) -> layout_of n (decl t) = Some (n, 1).
Proof.
  intros En Hx. destruct t as [| | | | | | | | | | | | |x|x|ts|k v]; try discriminate En; cbn [decl]; rewrite ?En, ?(Hx x eq_refl); try apply decl_aligned; cbn; f_equal; f_equal; lia.
Qed.
Lemma decl_array x k n : size_of x = Some k -> macro_ok x = true -> layout_of n (decl (TA x)) = Some (n * k, align_of x).
Proof. intros Ek Hm. cbn [decl]. rewrite Ek. cbn [layout_of]. now rewrite (decl_fixed x k 0 Ek Hm). Qed.

Lemma fixed_of_layout t l : mem_layout t = Some l -> size_of t <> None.
Proof.
  destruct t as [| | | | | | | | | | | | |x|x|ts|k v]; try discriminate; (rewrite mem_layout_struct by exact I); unfold packed_struct;
    match goal with |- context [size_of ?t] => destruct (size_of t) end; discriminate.
Qed.
(** ** Claims *)
Lemma fixed_claim t k n : usable t -> sp_size t = Some k -> layout_of n (decl t) = Some (k, sp_align t).
Proof. intros Hu Hk. apply usable_readable in Hu as [Hm _]. rewrite sp_size_of in Hk. rewrite sp_align_of. now apply decl_fixed. Qed.
Lemma variable_claim t n : sp_size t = None -> (forall x, t = TA x -> sp_size x = None) -> layout_of n (decl t) = layout_of n bytes_decl.
Proof.
  intros Hk Hx. rewrite sp_size_of in Hk. rewrite decl_variable; auto; [cbn; f_equal; f_equal; lia|]. intros x E. rewrite <- sp_size_of. now apply Hx.
Qed.
Lemma spans_claim h t r : view h t r -> exists al, layout_of (count_of t r) (decl t) = Some (len (s_data r), al) /\ s_addr r mod al = 0.
Proof.
  intros Hv. destruct (view_ref_ok h t r Hv) as [Hu Hr]. apply usable_readable in Hu as [Hm Hl]. destruct Hr as [Ha Hg].
  destruct (size_of t) as [k|] eqn:Ek.
  - exists (align_of t). rewrite (decl_fixed t k _ Ek Hm). unfold size_good in Hg. rewrite Ek in Hg. split; [|exact Ha]. unfold slen, blen in Hg. unfold len. now rewrite Hg.
  - destruct t as [| | | | | | | | | | | | |x|x|ts|a b]; try discriminate Ek;
      try (exists 1; rewrite decl_variable by congruence; split; [reflexivity|apply N.mod_1_r]).
    destruct (size_of x) as [k|] eqn:Ex; [|exists 1; cbn [count_of]; rewrite decl_variable by congruence; split; [|apply N.mod_1_r]].
    + exists (align_of x). rewrite (decl_array x k _ Ex Hm). unfold count_of. rewrite (mem_layout_ok x k Ex Hm).
      unfold size_good in Hg. cbn [size_of] in Hg. rewrite Ex in Hg. split; [|exact Ha].
      f_equal. f_equal. destruct (size_of_props x k Ex) as [Hp _]. pose proof (N.div_mod (slen r) k ltac:(lia)) as Hd. change (len (s_data r)) with (slen r). lia.
    + destruct (mem_layout x) as [[k al]|] eqn:El; [|reflexivity]. exfalso. exact (fixed_of_layout x _ El Ex).
Qed.

Lemma mty_rect' (P : mty -> Prop) :
  (forall n, P (MNum n)) -> (forall n, P (MPad n)) -> P MUnit ->
  (forall m, P m -> P (MPhantom m)) -> (forall m, P m -> P (MSlice m)) -> (forall m, P m -> P (MRef m)) -> (forall m, P m -> P (MRefMut m)) ->
  (forall m, P m -> P (MVec m)) -> (forall m, P m -> P (MPtr m)) -> (forall m, P m -> P (MCell m)) ->
  (forall r fs, Forall P fs -> P (MStruct r fs)) -> forall m, P m.
Proof.
  intros H1 H2 H3 H4 H5 H6 H7 H8 H9 H10 H11. fix IH 1. intros [ | | |m|m|m|m|m|m|m|r fs];
    [apply H1|apply H2|apply H3|apply H4, IH|apply H5, IH|apply H6, IH|apply H7, IH|apply H8, IH|apply H9, IH|apply H10, IH|].
  apply H11. induction fs as [|f fs IHf]; constructor; [apply IH|exact IHf].
Qed.
Lemma sync_iff m : is_sync m = true <-> forall x, sp_inside m x -> ~ sp_raw x.
Proof.
  induction m as [n|n| |m IH|m IH|m IH|m IH|m IH|m IH|m IH|r fs IH] using mty_rect'; cbn [is_sync];
    try (split; [|reflexivity]; intros _ x Hx; inversion Hx; subst; exact (fun H => H));
    try (rewrite IH; split; intros H x Hx; [inversion Hx; subst; [exact (fun H => H)|auto]|apply H; now constructor]);
    try (split; [discriminate|]; intros H; destruct (H _ (In_itself _)); exact I).
  rewrite forallb_forall. split.
  - intros H x Hx. inversion Hx as [| | | | | | | |? ? m ? Hm Hi]; subst; [exact (fun H => H)|]. rewrite Forall_forall in IH. exact (proj1 (IH m Hm) (H m Hm) x Hi).
  - intros H m Hm. rewrite Forall_forall in IH. apply (IH m Hm). intros x Hx. apply H. now apply (In_struct _ _ m).
Qed.
Lemma sync_send m : is_sync m = true -> is_send m = true.
Proof.
  induction m as [n|n| |m IH|m IH|m IH|m IH|m IH|m IH|m IH|r fs IH] using mty_rect'; cbn [is_sync is_send]; auto; try discriminate.
  rewrite !forallb_forall. rewrite Forall_forall in IH. auto.
Qed.
Lemma padded_sync pads : forall fs final, forallb is_sync fs = true -> forallb is_sync (padded_decl pads fs final) = true.
Proof.
  assert (HF : forall final, forallb is_sync (if 0 <? final then [MPad final] else []) = true) by (intros final; destruct (0 <? final); reflexivity).
  induction pads as [|p pads IH]; intros [|f fs] final H; cbn [padded_decl]; try apply HF.
  cbn [forallb] in H. apply andb_true_iff in H as [H1 H2]. rewrite forallb_app. cbn [forallb]. rewrite H1, IH by assumption. now destruct (0 <? p).
Qed.
Lemma decl_sync t : is_sync (decl t) = true.
Proof.
  induction t as [t Hns IH|t Hs IH] using ty_struct_ind.
  - destruct t as [| | | | | | | | | | | | |x|x|ts|k v]; cbn [is_struct] in Hns; try tauto; try reflexivity.
    + cbn [decl]. destruct (size_of x); [|reflexivity]. cbn [is_sync]. apply IH. now left.
    + cbn [decl is_sync forallb aligned_decl bytes_decl]. rewrite IH by (now right). reflexivity.
  - rewrite decl_struct by assumption. destruct (size_of t); [|reflexivity]. destruct (packed_struct t) as [[pads final]|]; [|reflexivity].
    cbn [is_sync]. apply padded_sync. apply forallb_forall. intros m Hm. apply in_map_iff in Hm as (c & <- & Hc). rewrite Forall_forall in IH. now apply IH.
Qed.
Lemma threads_claim t :
  Forall (fun m => is_sync m = true /\ is_send m = true)
    [decl t; MRef (decl t); MRefMut (decl t); MVec (decl t); owned_decl t; MRef (owned_decl t);
     iterator_decl; aligned_decl; MRef aligned_decl; MRefMut aligned_decl;
     buf_decl; gstring_decl; offset_decl; error_decl; lossy_decl; guard_decl].
Proof.
  assert (H : forall m, is_sync m = true -> is_sync m = true /\ is_send m = true) by (intros; split; [assumption|now apply sync_send]).
  repeat (apply Forall_cons; [apply H; cbn; rewrite ?decl_sync; reflexivity|]). apply Forall_nil.
Qed.
Lemma wrap_claim m : (is_sync (wrap_decl m) = is_sync m) /\ (is_send (wrap_decl m) = is_send m).
Proof. cbn. now rewrite !andb_true_r. Qed.
Lemma send_iff m : is_send m = true <-> forall x, sp_owned m x -> sp_sendable x.
Proof.
  induction m as [n|n| |m IH|m IH|m IH|m IH|m IH|m IH|m IH|r fs IH] using mty_rect'; cbn [is_send];
    try (split; [|reflexivity]; intros _ x Hx; inversion Hx; subst; exact I);
    try (rewrite IH; split; intros H x Hx; [inversion Hx; subst; [exact I|auto]|apply H; now constructor]).
  - rewrite sync_iff. split; [intros H x Hx; inversion Hx; subst; exact H|]. intros H. exact (H _ (Own_itself _)).
  - split; [discriminate|]. intros H. destruct (H _ (Own_itself _)).
  - rewrite forallb_forall. split.
    + intros H x Hx. inversion Hx as [| | | | | |? ? m ? Hm Hi]; subst; [exact I|]. rewrite Forall_forall in IH. exact (proj1 (IH m Hm) (H m Hm) x Hi).
    + intros H m Hm. rewrite Forall_forall in IH. apply (IH m Hm). intros x Hx. apply H. now apply (Own_struct _ _ m).
Qed.

(** References to views. *)
Lemma padded_sized pads : forall fs final, existsb is_unsized fs = false -> existsb is_unsized (padded_decl pads fs final) = false.
Proof.
  assert (HF : forall final, existsb is_unsized (if 0 <? final then [MPad final] else []) = false) by (intros final; destruct (0 <? final); reflexivity).
  induction pads as [|p pads IH]; intros [|f fs] final H; cbn [padded_decl]; try apply HF.
  cbn [existsb] in H. apply orb_false_iff in H as [H1 H2]. rewrite existsb_app. cbn [existsb]. rewrite H1, IH by assumption. now destruct (0 <? p).
Qed.
Lemma decl_unsized t : is_unsized (decl t) = negb (is_fixed t).
Proof.
  unfold is_fixed. induction t as [t Hns IH|t Hs IH] using ty_struct_ind.
  - destruct t as [| | | | | | | | | | | | |x|x|ts|k v]; cbn [is_struct] in Hns; try tauto; try reflexivity.
    cbn [decl size_of]. destruct (size_of x); reflexivity.
  - rewrite decl_struct by assumption. destruct (size_of t) as [n|] eqn:Hn; [|reflexivity]. destruct (packed_struct t) as [[pads final]|]; [|reflexivity].
    cbn [is_unsized negb]. apply padded_sized. pose proof (fixed_children t n Hs Hn) as HC. revert IH HC. generalize (children_of t). clear. intros cs IH HC.
    induction cs as [|c cs IHc]; [reflexivity|]. inversion IH; subst. inversion HC; subst. cbn [map existsb]. rewrite IHc by assumption.
    match goal with H : is_unsized (decl c) = _ |- _ => rewrite H end. match goal with H : _ = is_fixed c |- _ => unfold is_fixed in H | H : is_fixed c = true |- _ => unfold is_fixed in H | _ => idtac end. destruct (size_of c); [reflexivity|congruence].
Qed.
Lemma references_claim t n : layout_of n (MRef (decl t)) = Some (if sp_fixed t then 8 else 16, 8) /\ layout_of n (MRefMut (decl t)) = layout_of n (MRef (decl t)).
Proof. cbn [layout_of]. rewrite decl_unsized, sp_fixed_of. now destruct (is_fixed t). Qed.

(** What is trivial takes no room. *)
Lemma trivial_claim m : forall n s a, is_trivial m = true -> layout_of n m = Some (s, a) -> s = 0 /\ a = 1.
Proof.
  induction m as [k|k| |m IH|m IH|m IH|m IH|m IH|m IH|m IH|r fs IH] using mty_rect'; intros n s a Ht Hl; cbn [is_trivial] in Ht; try discriminate Ht;
    try (cbn in Hl; injection Hl as <- <-; split; [lia|reflexivity]).
  destruct r.
  - cbn [layout_of] in Hl. assert (E : (fix main (fs : list mty) : list (option (N * N)) :=
               match fs with [] => [] | f :: fs => if is_trivial f then main fs else layout_of n f :: main fs end) fs = []).
    { clear IH Hl. induction fs as [|f fs IHf]; [reflexivity|]. cbn [forallb] in Ht. apply andb_true_iff in Ht as [H1 H2]. rewrite H1. now apply IHf. }
    rewrite E in Hl. injection Hl as <- <-. split; reflexivity.
  - rewrite layout_c in Hl. destruct (layouts_of n fs) as [ls|] eqn:E; [|discriminate].
    assert (HA : Forall (fun l => l = (0, 1)) ls).
    { clear Hl. revert ls E. induction fs as [|f fs IHf]; intros ls E; [injection E as <-; constructor|]. rewrite layouts_cons in E. cbn [forallb] in Ht. apply andb_true_iff in Ht as [H1 H2].
      inversion IH; subst. destruct (layout_of n f) as [[s' a']|] eqn:Ef; [|discriminate]. destruct (layouts_of n fs) as [ls'|]; [|discriminate]. injection E as <-.
      constructor; [|now apply IHf]. destruct (H3 n s' a' H1 Ef) as [-> ->]. reflexivity. }
    assert (G : exists os, repr_c_go 0 1 ls = (os, 0, 1)).
    { clear - HA. induction HA as [|l ls -> _ [os IHl]]; [exists []; reflexivity|]. exists (0 :: os). cbn [repr_c_go]. change (round_up 0 1 + 0) with 0. change (N.max 1 1) with 1. rewrite IHl. reflexivity. }
    destruct G as [os G]. unfold repr_c in Hl. rewrite G in Hl. injection Hl as <- <-. split; reflexivity.
  - discriminate Hl.
Qed.
