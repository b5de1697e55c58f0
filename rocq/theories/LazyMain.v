(** Each call does what the machine over lazy values does. *)
From Verif Require Import Base Types Layout AlignedBytes Strs Spec Deser Buf Histories Ser SerSpec Cmp CmpSpec Fmt FmtSpec Mut MutSpec OwnSpec Iter IterSpec
  Programs ProgSpec ValSpec LazySpec Offsets
  BaseFacts TypesFacts LayoutFacts AlignedFacts Utf8Facts DeserFacts ArrayFacts StructFacts ReadFacts AccessFacts ReadClaims EqFacts CmpFacts StrFacts
  EncFacts RoundFacts SerMain SerClaims MutFacts EmptyFacts OwnClaims IterFacts ViewFacts FmtFacts MoveFacts ProgFacts ValFacts ValMain LazyFacts.
From Coq Require Import Lia ZifyBool ZifyNat ZifyN.
Ltac Zify.zify_post_hook ::= idtac.

(** ** Which thing an object shows *)
Definition lowns (h : host) (t : ty) (o : owned) (l : lval) : Prop :=
  match o with
  | OCopy r => small t r /\ l = lz h t r
  | OStr d => slen (Slice 0 d) < 2 ^ 32 /\ l = LLeaf (VStr (to_str d))
  | OBuf b => exists d, holds b d /\ len d < 2 ^ 32 /\ l = ldecode (h_big_endian h) t (Some d)
  end.
Definition lshows (h : host) (o : obj) (th : lthing) : Prop :=
  match o, th with
  | ObSlice A s, LtSlice A' d => A = A' /\ s_data s = d
  | ObVec v, LtVec d => v_data v = d
  | ObBuf b, LtBuf d => holds b d
  | ObCow A (Borrowed s), LtCow A' d => A = A' /\ s_data s = d
  | ObCow A (OwnedBuf b), LtCow A' d => A = A' /\ holds b d
  | ObView t r, LtView t' l => t = t' /\ small t r /\ l = lz h t r
  | ObOwned t o, LtOwned t' l => t = t' /\ lowns h t o l
  | ObIter x it, LtIter x' ls => x = x' /\
      exists s j, ref_good (TA x) s /\ slen s < 2 ^ 32 /\ j <= arr_n (s_data s) /\ it = iter_at s j /\
        ls = map (fun i => lelem h x (elem_at h x s i)) (indices j (N.to_nat (arr_n (s_data s) - j)))
  | ObGString g, LtGString s => gs_holds g s
  | ObStr s, LtStr s' => s = s'
  | _, _ => False
  end.
Lemma lshows_face h o th : lshows h o th -> face o = lface th.
Proof.
  destruct o as [A s|v|b|A [s|b]|t r|t o|x it|g|s], th; cbn [lshows face lface]; try tauto; try (intros ->; reflexivity).
  intros [_ ->]. reflexivity.
Qed.
Lemma lshows_faces h os ths : Forall2 (lshows h) os ths -> map face os = map lface ths.
Proof. induction 1; cbn [map]; [reflexivity|]. f_equal; auto. eapply lshows_face; eauto. Qed.

(** ** Casts and owned values *)
Lemma lazy_cast h t s : usable t -> slice_ok (sp_align t) s ->
  ~ (s_data s = [] /\ sp_fixed t = false /\ s_addr s mod sp_align t <> 0) -> len (s_data s) < 2 ^ 32 ->
  exists r, cast h t s = Ok r /\ ref_good t r /\ small t r /\ ldecode (h_big_endian h) t (Some (s_data s)) = lz h t r.
Proof.
  intros Hu Hs Hd Hl. destruct (cast_closed h t s Hu Hs Hd) as (r & E & Hr). exists r. split; [exact E|]. split; [exact Hr|].
  assert (Hq : exists q, cast h t q = Ok r /\ s_data q = s_data s /\ aligned (align_of t) q).
  { destruct Hs as (HA & Ha & _). rewrite sp_align_of in *.
    destruct (N.eq_dec (s_addr s mod align_of t) 0) as [Em|Em]; [exists s; auto|].
    destruct (s_data s) as [|x d] eqn:Ed; [|exfalso; apply Em, Ha; discriminate].
    destruct (sp_fixed t) eqn:Ef; [|tauto]. rewrite fixed_spec in Ef. unfold is_fixed in Ef.
    destruct (size_of t) as [n|] eqn:En; [|discriminate]. exists (Slice 0 []). split; [|split; [reflexivity|reflexivity]].
    rewrite (cast_empty_fixed h t s n (proj1 Hu) Ed En) in E. now rewrite (cast_empty_fixed h t (Slice 0 []) n (proj1 Hu) eq_refl En). }
  destruct Hq as (q & Eq & Hdq & Haq). pose proof Hu as [Hm _].
  destruct (cast_ok h t q Hm Haq) as (r' & Eq' & _ & Hdr & _). rewrite Eq in Eq'. injection Eq' as <-. split.
  - unfold small, is_fixed. destruct (size_of t) as [n|] eqn:En; [auto|right].
    unfold slen in *. rewrite Hdr, Hdq. pose proof (seen_len t (s_data s) En). change (@len byte) with (@blen byte) in Hl. lia.
  - unfold lz. rewrite Hdr, Hdq. apply (ldecode_norm _ t (Some (s_data s))).
Qed.
Lemma lazy_owned h t r a1 a2 : usable t -> sp_ref_size t (len (s_data r)) -> small t r -> near a1 -> near a2 ->
  exists o, to_owned h t r a1 a2 = Ok o /\ lowns h t o (lz h t r).
Proof.
  intros Hu Hs Hl H1 H2.
  assert (Hcopy : lowns h t (OCopy (Slice (8 * a1) (s_data r))) (lz h t r)).
  { split; [|reflexivity]. unfold small in *. exact Hl. }
  destruct (size_of t) as [n|] eqn:En.
  { rewrite own_fixed by (left; congruence). eexists. split; [reflexivity|]. exact Hcopy. }
  destruct Hl as [Hl|Hl]; [unfold is_fixed in Hl; rewrite En in Hl; discriminate|].
  destruct (sp_fixed_array t) eqn:Ef.
  { rewrite own_fixed by (right; exact Ef). eexists. split; [reflexivity|]. exact Hcopy. }
  destruct (to_owned_cases h t r a1 a2 En Ef) as [Ht|E].
  - exists (OStr (to_str (s_data r) ++ [x00])). split; [destruct Ht as [->|[->| ->]]; reflexivity|]. cbn [lowns].
    assert (Hle : blen (to_str (s_data r)) + 1 <= N.max 1 (blen (s_data r))).
    { unfold to_str, as_bytes_non_conformant. destruct (rev (s_data r)) as [|b l] eqn:Er; [cbn; lia|].
      assert (Hr : blen (s_data r) = blen l + 1).
      { unfold blen. rewrite <- (rev_length (s_data r)), Er. cbn [length]. lia. }
      assert (Hrl : blen (rev l) = blen l) by (unfold blen; now rewrite rev_length).
      destruct b; try (cbn; lia). destruct (has_nul (rev l)); [cbn; lia|]. destruct (valid_utf8 (rev l)); [lia|cbn; lia]. }
    split.
    + unfold slen in *. cbn [s_data]. rewrite blen_app, blen_cons, blen_nil. lia.
    + destruct (to_str_normal (to_str (s_data r)) (to_str_good (s_data r))) as [-> _]. rewrite to_str_spec.
      destruct Ht as [->|[->| ->]]; reflexivity.
  - rewrite E. destruct (bytes_hold h (s_data r) a1 a2 H1 H2) as (b & -> & Hb). cbn [bind].
    eexists. split; [reflexivity|]. cbn [lowns]. exists (s_data r). split; [exact Hb|]. split; [exact Hl|reflexivity].
Qed.
Lemma lazy_copy h t s a3 a4 : usable t -> slice_ok (sp_align t) s -> near a3 -> near a4 ->
  ~ (s_data s = [] /\ sp_fixed_array t = true /\ s_addr s mod sp_align t <> 0) -> len (s_data s) < 2 ^ 32 ->
  exists o, (let* r := cast h t s in to_owned h t r a3 a4) = Ok o /\ lowns h t o (ldecode (h_big_endian h) t (Some (s_data s))).
Proof.
  intros Hu Hs H3 H4 Hd Hw.
  assert (G : ~ (s_data s = [] /\ sp_fixed t = false /\ s_addr s mod sp_align t <> 0) ->
    exists o, (let* r := cast h t s in to_owned h t r a3 a4) = Ok o /\ lowns h t o (ldecode (h_big_endian h) t (Some (s_data s)))).
  { intros Hn. destruct (lazy_cast h t s Hu Hs Hn Hw) as (r & -> & Hr & Hsm & E). cbn [bind].
    rewrite E. destruct Hr as (_ & _ & Hsz & _). now apply lazy_owned. }
  destruct (s_data s) as [|x d] eqn:Ed; [|apply G; intros [H _]; discriminate].
  destruct (sp_fixed t) eqn:Ef; [apply G; intros (_ & H & _); discriminate|].
  destruct (sp_fixed_array t) eqn:Efa; [apply G; tauto|].
  unfold sp_fixed in Ef. rewrite sp_size_of in Ef. destruct (size_of t) eqn:En; [discriminate|].
  rewrite cast_var by assumption. cbn [bind]. rewrite <- Ed. apply lazy_owned; auto.
  - apply ref_size_good. unfold size_good. rewrite En. destruct t; try exact I.
    unfold sp_fixed_array in Efa. rewrite sp_size_of in Efa. destruct (size_of t); [discriminate|exact I].
  - right. unfold slen. rewrite Ed. reflexivity.
Qed.
Lemma lz_fmt h F t r : ref_good t r -> small t r ->
  fmt_debug h F t r = lsays (match lforce (lz h t r) with Some v => Some (sp_print F t v) | None => None end).
Proof.
  intros Hr Hs. pose proof (lz_read h t r Hr Hs) as Er. destruct (proj1 (ref_good_iff _ _) Hr) as (H1 & H2 & H3).
  pose proof (fmt_exact h F t H1 r H2 H3) as H. unfold FmtFacts.same in H. rewrite Er in H.
  destruct (lforce (lz h t r)) as [v|] eqn:El; cbn [lsays] in *; [exact H|]. destruct H as (c & -> & [[-> _]|(_ & _ & Hb)]); [reflexivity|].
  exfalso. destruct Hs as [Hs|Hs]; [|lia].
  assert (En : exists n, size_of t = Some n) by (unfold is_fixed in Hs; destruct (size_of t); [eauto|discriminate]). destruct En as [n En].
  unfold lz in El. rewrite lforce_decode in El. unfold forced in El. rewrite (sp_reads_fixed t n _ En) in El. discriminate El.
Qed.
Lemma maybe_number h x r : sp_number x = true -> exists v, lforce (lz h (TM x) r) = Some v.
Proof.
  intros Hx. unfold lz. rewrite lforce_decode. unfold forced.
  replace (sp_reads (TM x) (Some (s_data r))) with true; [eauto|].
  destruct x; try discriminate; cbn [sp_reads sp_size]; try reflexivity; match goal with |- context [?a =? ?b] => destruct (a =? b); reflexivity end.
Qed.

(** What the crate did, what it said, what the machine over lazy values did. *)
Definition lagree (h : host) (p : list obj * option crash) (m : res (list answer)) (q : list lthing * res (list answer)) : Prop :=
  m = snd q /\ Forall2 (lshows h) (fst p) (fst q).

Lemma lagree_made h env env' venv' os ths : Forall2 (lshows h) env' venv' -> length env' = length env ->
  Forall2 (lshows h) os ths -> lagree h (made env' (Ok os)) (said env (made env' (Ok os))) (lnew venv' ths).
Proof.
  intros He' Hl Ho. unfold lagree, lnew. cbn [made said fst snd]. split.
  - f_equal. rewrite skipn_app, Hl, Nat.sub_diag. rewrite (skipn_all2 env') by lia. now apply (lshows_faces h).
  - now apply Forall2_app.
Qed.
Lemma lagree_new h env venv os ths : Forall2 (lshows h) env venv -> Forall2 (lshows h) os ths ->
  lagree h (made env (Ok os)) (said env (made env (Ok os))) (lnew venv ths).
Proof. intros He Ho. now apply lagree_made. Qed.
Lemma lagree_crash h env venv c : Forall2 (lshows h) env venv -> lagree h (env, Some c) (Crash c) (venv, Crash c).
Proof. intros He. split; [reflexivity|exact He]. Qed.
Lemma lagree_say h env venv (m : res answer) a : Forall2 (lshows h) env venv -> m = Ok a ->
  lagree h (made env (unit_ m)) (let* a := m in Ok [a]) (venv, Ok [a]).
Proof. intros He ->. split; [reflexivity|]. cbn [unit_ bind made fst]. now rewrite app_nil_r. Qed.
Lemma lone h o th : lshows h o th -> Forall2 (lshows h) [o] [th].
Proof. intros H. constructor; [exact H|constructor]. Qed.

Ltac llook env venv He Hbad i E E' H :=
  pose proof (pair_get _ _ _ i He) as H;
  destruct (nth_error env i) as [[A0 s0|v0|b0|A0 [s0|b0]|t0 r0|t0 o0|x0 it0|g0|z0]|] eqn:E;
  destruct (nth_error venv i) as [[A0' d0|d0|d0|A0' d0|t0' w0|t0' w0|x0' l0|z0'|z0']|] eqn:E'; cbn [lshows] in H; try contradiction; try exact Hbad.

(** ** Queries *)
Fixpoint lrhs_list (env : list lthing) (x : ty) (l : list rhs) : option (list lval) :=
  match l with
  | [] => Some []
  | n :: l => match lrhs env x n, lrhs_list env x l with Some v, Some vs => Some (v :: vs) | _, _ => None end
  end.
Lemma lrhs_seq env x l : lrhs env (TA x) (RhSeq l) = match lrhs_list env x l with Some vs => Some (LArray vs) | None => None end.
Proof.
  cbn [lrhs]. match goal with |- match ?g l with _ => _ end = _ => assert (E : g l = lrhs_list env x l) end.
  { induction l as [|n l IH]; [reflexivity|]. cbn [lrhs_list]. now rewrite IH. }
  now rewrite E.
Qed.
Definition lrhs_same (h : host) (t : ty) (m : option native) (v : option lval) : Prop :=
  match m, v with Some m, Some v => native_lazy h t m v | None, None => True | _, _ => False end.
Lemma lview_same h env venv j : Forall2 (lshows h) env venv -> Forall (promised h) env ->
  match nth_error env j, nth_error venv j with
  | Some (ObView t q), Some (LtView t' v) => t = t' /\ ref_good t q /\ small t q /\ v = lz h t q
  | Some (ObView _ _), _ => False
  | _, Some (LtView _ _) => False
  | _, _ => True
  end.
Proof.
  intros He Hg. pose proof (pair_get _ _ _ j He) as HJ.
  destruct (nth_error env j) as [[A1 s1|v1|b1|A1 [s1|b1]|t1 r1|t1 o1|x1 it1|g1|z1]|] eqn:EJ;
    destruct (nth_error venv j) as [[A1' d1|d1|d1|A1' d1|t1' w1|t1' w1|x1' l1|z1'|z1']|] eqn:EJ'; cbn [lshows] in HJ; try contradiction; try exact I.
  destruct HJ as (<- & Hs & Er). apply (get_good h _ _ _ Hg) in EJ. cbn [promised] in EJ. auto.
Qed.
Lemma lrhs_agree h env venv : Forall2 (lshows h) env venv -> Forall (promised h) env -> forall n t,
  lrhs_same h t (rhs_native env t n) (lrhs venv t n).
Proof.
  intros He Hg. induction n as [j|b|d|j|l IH|o] using rhs_ind'; intros t.
  - pose proof (lview_same h env venv j He Hg) as H. cbn [rhs_native lrhs].
    destruct (nth_error env j) as [[A1 s1|v1|b1|A1 c1|t1 r1|t1 o1|x1 it1|g1|z1]|], (nth_error venv j) as [[A1' d1|d1|d1|A1' d1|t1' w1|t1' w1|x1' l1|z1'|z1']|];
      try contradiction; try exact I.
    destruct H as (<- & Hv & Hs & ->). destruct (ty_eqb t t1) eqn:Et; [|exact I]. apply ty_eqb_eq in Et as <-. cbn [lrhs_same].
    intros Hrd r Hr Hsr. destruct (proj1 (ref_good_iff _ _) Hv) as (_ & Hq & _).
    replace (eq_native h t r (NView r1)) with (gv_eq h t r r1) by (destruct t; reflexivity). now apply eq_lazy.
  - destruct t; try exact I. apply native_leaf; [constructor|exact I].
  - destruct t; try exact I; (apply native_leaf; [constructor; tauto|exact I]).
  - pose proof (pair_get _ _ _ j He) as HJ. cbn [rhs_native lrhs].
    destruct t; try exact I; (destruct (nth_error env j) as [[A1 s1|v1|b1|A1 [s1|b1]|t1 r1|t1 o1|x1 it1|g1|z1]|] eqn:EJ;
    destruct (nth_error venv j) as [[A1' d1|d1|d1|A1' d1|t1' w1|t1' w1|x1' l1|z1'|z1']|] eqn:EJ'; cbn [lshows] in HJ; try contradiction; try exact I);
    subst; (apply native_leaf; [constructor; tauto|exact I]).
  - destruct t as [| | | | | | | | | | | | |x| | | ]; try exact I. rewrite rhs_seq, lrhs_seq.
    assert (G : match rhs_natives env x l, lrhs_list venv x l with Some ms, Some vs => Forall2 (native_lazy h x) ms vs | None, None => True | _, _ => False end).
    { induction IH as [|n l Hn HF IHl]; cbn [rhs_natives lrhs_list]; [constructor|]. specialize (Hn x). unfold lrhs_same in Hn.
      destruct (rhs_native env x n), (lrhs venv x n); try contradiction; [|exact I].
      destruct (rhs_natives env x l), (lrhs_list venv x l); try contradiction; [|exact I]. now constructor. }
    destruct (rhs_natives env x l), (lrhs_list venv x l); try contradiction; [|exact I]. now apply native_seq.
  - destruct t as [| | | | | | | | | | | | | |x| | ]; try (destruct o; exact I). cbn [rhs_native lrhs].
    destruct o as [j|].
    + rewrite fixed_spec. pose proof (lview_same h env venv j He Hg) as H.
      destruct (nth_error env j) as [[A1 s1|v1|b1|A1 c1|t1 r1|t1 o1|x1 it1|g1|z1]|], (nth_error venv j) as [[A1' d1|d1|d1|A1' d1|t1' w1|t1' w1|x1' l1|z1'|z1']|];
        try contradiction; try (destruct (is_fixed x); exact I).
      destruct H as (<- & Hv & Hs & ->). destruct (is_fixed x) eqn:Ef; [|exact I]. cbn [andb]. destruct (ty_eqb x t1) eqn:Et; [|exact I].
      apply ty_eqb_eq in Et as <-. cbn [lrhs_same]. apply (native_option h x (Some r1) Ef). intros q Hq. injection Hq as <-.
      now destruct (proj1 (ref_good_iff _ _) Hv) as (_ & Hq & _).
    + rewrite fixed_spec. destruct (is_fixed x) eqn:Ef; [|exact I]. cbn [lrhs_same]. apply (native_option h x None Ef). discriminate.
Qed.
Lemma lask_agree h env venv q : Forall2 (lshows h) env venv -> Forall (promised h) env -> ask h env q = lask venv q.
Proof.
  intros He Hg. pose proof (fun i o => get_good h env i o Hg) as Hget. pose proof (eq_refl (@Crash answer NoCompile)) as Hbad.
  destruct q as [i k|i j|i|i n|i j|i j|i]; cbn [ask lask].
  - llook env venv He Hbad i E E' H. destruct H as [_ <-].
    destruct (nth_error (s_data s0) (N.to_nat k)) as [x|] eqn:Ex.
    + assert (Hk : k < len (s_data s0)) by (unfold len; pose proof (proj1 (nth_error_Some (s_data s0) (N.to_nat k)) ltac:(congruence)); lia).
      replace (k <? len (s_data s0)) with true by lia. do 2 f_equal. unfold sub.
      clear -Ex. revert Ex. generalize (s_data s0). induction (N.to_nat k) as [|m IH]; intros [|y d] Ex; cbn [nth_error] in Ex; try discriminate.
      * injection Ex as ->. reflexivity.
      * cbn [skipn]. now apply IH.
    + apply nth_error_None in Ex. replace (k <? len (s_data s0)) with false by (unfold len; lia). reflexivity.
  - pose proof (pair_get _ _ _ j He) as HJ. llook env venv He Hbad i E E' H; destruct (nth_error env j) as [[A1 s1|v1|b1|A1 [s1|b1]|t1 r1|t1 o1|x1 it1|g1|z1]|] eqn:EJ;
      destruct (nth_error venv j) as [[A1' d1|d1|d1|A1' d1|t1' w1|t1' w1|x1' l1|z1'|z1']|] eqn:EJ'; cbn [lshows] in HJ; try contradiction; try exact Hbad.
    destruct H as [<- <-], HJ as [<- <-]. destruct (A0 =? A1); [|reflexivity]. unfold as_eq. now rewrite sp_beq_eqb.
  - llook env venv He Hbad i E E' H. destruct H as (<- & q & j & Hr & Hsm & Hj & -> & ->). rewrite nfwa_size_hint_ok by exact Hj. cbn [bind].
    do 2 f_equal. unfold len, indices. rewrite !map_length, seq_length. lia.
  - llook env venv He Hbad i E E' H. destruct H as (<- & Hsm & ->). apply Hget in E. cbn [promised] in E. destruct (proj1 (ref_good_iff _ _) E) as (Hrd & Hro & _).
    pose proof (lrhs_agree h env venv He Hg n t0) as HR. unfold lrhs_same in HR.
    destruct (rhs_native env t0 n) as [m|], (lrhs venv t0 n) as [w|]; try contradiction; [|reflexivity].
    now rewrite (HR Hrd r0 Hro Hsm).
  - pose proof (pair_get _ _ _ j He) as HJ. llook env venv He Hbad i E E' H; destruct (nth_error env j) as [[A1 s1|v1|b1|A1 [s1|b1]|t1 r1|t1 o1|x1 it1|g1|z1]|] eqn:EJ;
      destruct (nth_error venv j) as [[A1' d1|d1|d1|A1' d1|t1' w1|t1' w1|x1' l1|z1'|z1']|] eqn:EJ'; cbn [lshows] in HJ; try contradiction; try exact Hbad.
    destruct H as (D1 & G1 & _), HJ as (D2 & G2 & _). destruct (gs_eq_spec g0 g1 _ _ G1 G2 D1 D2) as [HG _]. do 2 f_equal.
    rewrite <- beq_iff in HG. destruct (gs_eq g0 g1), (sp_beq z0' z1'); intuition congruence.
  - pose proof (pair_get _ _ _ j He) as HJ. llook env venv He Hbad i E E' H; destruct (nth_error env j) as [[A1 s1|v1|b1|A1 [s1|b1]|t1 r1|t1 o1|x1 it1|g1|z1]|] eqn:EJ;
      destruct (nth_error venv j) as [[A1' d1|d1|d1|A1' d1|t1' w1|t1' w1|x1' l1|z1'|z1']|] eqn:EJ'; cbn [lshows] in HJ; try contradiction; try exact Hbad.
    destruct H as (D1 & G1 & _), HJ as (D2 & G2 & _). do 3 f_equal. apply order_spec. now apply gs_cmp_spec.
  - llook env venv He Hbad i E E' H. destruct (gs_observe h g0 z0' H) as (_ & -> & _). reflexivity.
Qed.

Lemma lcalls_agree h env venv p : Forall2 (lshows h) env venv -> Forall (promised h) env -> possible h env p -> ~ door env p ->
  modest venv p -> lagree h (step h env p) (reply h env p) (lstep (h_big_endian h) venv p).
Proof.
  intros He Hg Hp Hd Hm. pose proof (fun i o => get_good h env i o Hg) as Hget. pose proof (lagree_crash h env venv NoCompile He) as Hbad.
  destruct p as [v|i|i a|i|i m|i|i o|i B|i A a1 a2|i|i t|i t|i a|i|i|i|i|i|i F|i j|i j|i|i|i a1 a2|i t a1 a2|i t a|i
                |i t a1 a2 a3 a4|i t a2 a3 a4|t r a|i a|c|s cap c|i o|i|i|i a|i c1|i|i a| |q];
    match goal with |- lagree h _ ?m _ => let m' := eval cbn [reply] in m in change m with m' end;
    try match goal with |- lagree h (step h env ?p) _ _ => change (match step h env p with (env', None) => Ok (map face (skipn (length env) env')) | (_, Some c) => Crash c end) with (said env (step h env p)) end;
    cbn [step lstep possible door modest] in *.
  - (* PVec *) apply lagree_new; [exact He|]. now apply lone.
  - (* PBytes *) llook env venv He Hbad i E E' H. apply lagree_new; [exact He|]. apply lone. split; [reflexivity|exact H].
  - (* PFromVec *) llook env venv He Hbad i E E' H. apply Hget in E. destruct E as [E1 E2].
    destruct (vec_align_spec h v0 a Hp E1) as (b & Eb & Hh & _). unfold buf_from_vec. rewrite Eb. cbn [one bind].
    apply lagree_new; [exact He|]. apply lone. cbn [lshows]. now rewrite <- H.
  - (* PIntoVec *) llook env venv He Hbad i E E' H. apply Hget in E. destruct (buf_ok_holds b0 E) as (d & Hh & Hga & _).
    unfold buf_into_vec. destruct (vec_unalign_ok h b0 d0 H Hga) as (w & -> & Hd1 & _). cbn [one bind].
    apply lagree_new; [exact He|]. now apply lone.
  - (* PMut *) llook env venv He Hbad i E E' H. apply Hget in E. destruct (buf_ok_holds b0 E) as (d & Hh & Hga & Hl).
    destruct Hp as [Hw Hf]. rewrite (holds_same b0 d0 d H Hh) in *.
    pose proof (run_mut_op_ok h b0 d m Hh Hga ltac:(unfold usize_lim; change (blen d) with (len d); lia) Hw) as HM.
    destruct (plain_mut_op (h_big_endian h) d m) as [d'|].
    + destruct HM as (b' & -> & Hb' & _). split; cbn [fst snd said].
      * rewrite skipn_all2 by (rewrite put_length; lia). reflexivity.
      * now apply put_shows.
    + rewrite HM. now apply lagree_crash.
  - (* PDeref *) llook env venv He Hbad i E E' H. apply Hget in E. destruct (buf_ok_holds b0 E) as (d & Hh & Hga & Hl).
    destruct (buf_deref_ok h b0 d0 H Hga) as (q & -> & Hq & _). cbn [one bind]. apply lagree_new; [exact He|]. apply lone. split; auto.
  - (* PSlice *) llook env venv He Hbad i E E' H. specialize (Hp _ _ eq_refl). apply Hget in E. destruct H as [<- <-].
    destruct (slice_ok_at A0 s0 E) as (HA & Ho & Hl).
    pose proof (run_op_any h A0 s0 o HA Ho ltac:(unfold usize_lim; lia) Hp) as HR.
    change (len (s_data s0)) with (slen s0). rewrite sp_range_op. destruct (op_range s0 o) as [b e]. destruct HR as [H1 H2].
    destruct ((b <=? e) && (e <=? slen s0)) eqn:Eb.
    + destruct (H1 ltac:(lia)) as [-> _]. cbn [one bind]. apply lagree_new; [exact He|]. apply lone. split; [reflexivity|].
      unfold part. cbn [s_data]. now rewrite sub_take_drop.
    + rewrite H2 by lia. now apply lagree_crash.
  - (* PTry *) llook env venv He Hbad i E E' H. rewrite try_as_aligned_always. cbn [opt bind]. apply lagree_new; [exact He|]. apply lone.
    split; [reflexivity|apply H].
  - (* PCopyAlign *) llook env venv He Hbad i E E' H. destruct H as [<- <-]. destruct (A0 =? 1); [|exact Hbad]. destruct Hp as (HA & H1 & H2).
    unfold copy_to_align. destruct (is_aligned s0 A).
    + rewrite try_as_aligned_always. cbn [one bind]. apply lagree_new; [exact He|]. apply lone. split; reflexivity.
    + destruct (bytes_hold h (s_data s0) a1 a2 H1 H2) as (b & Eb & Hb). unfold owned_from_bytes in Eb. rewrite Eb. cbn [one bind].
      apply lagree_new; [exact He|]. apply lone. split; [reflexivity|exact Hb].
  - (* PCowRef *) llook env venv He Hbad i E E' H; destruct H as [<- H]; cbn [cow_as_ref].
    + cbn [one bind]. apply lagree_new; [exact He|]. apply lone. split; auto.
    + apply Hget in E. destruct E as [HA Hb]. destruct (buf_ok_holds b0 Hb) as (d & Hh & Hga & Hl).
      destruct (buf_deref_ok h b0 d0 H Hga) as (q & -> & Hq & _). cbn [bind]. rewrite as_aligned_ok by exact HA. cbn [one bind].
      apply lagree_new; [exact He|]. apply lone. split; auto.
  - (* PCast *) llook env venv He Hbad i E E' H. destruct H as [<- <-]. rewrite trait_align_of, <- sp_align_of.
    destruct (A0 =? sp_align t) eqn:EA; [|exact Hbad]. apply N.eqb_eq in EA. subst A0. specialize (Hm _ _ eq_refl).
    pose proof (Hget _ _ E) as Hs. cbn [promised] in Hs.
    destruct (lazy_cast h t s0 Hp Hs) as (r & -> & Hr & Hsm & Er); [intros HH; apply Hd; exists s0; tauto|exact Hm|].
    cbn [one bind]. apply lagree_new; [exact He|]. apply lone. split; auto.
  - (* PTryInto *) llook env venv He Hbad i E E' H. destruct H as [<- <-]. rewrite trait_align_of, <- sp_align_of.
    assert (Hn : exists n, sp_size t = Some n) by (cbn [In] in Hp; intuition (subst; eexists; reflexivity)). destruct Hn as [n Hn]. rewrite Hn.
    destruct (A0 =? sp_align t) eqn:EA; [|exact Hbad]. apply N.eqb_eq in EA. subst A0. specialize (Hm _ _ eq_refl).
    pose proof (Hget _ _ E) as Hs. cbn [promised] in Hs.
    assert (Hu : usable (TA t)) by (cbn [In] in Hp; intuition (subst; split; reflexivity)).
    assert (Ha : aligned (sp_align t) s0).
    { destruct Hs as (_ & Ha & _). destruct (s_data s0) as [|x d] eqn:Ed; [|apply Ha; discriminate].
      destruct (N.eq_dec (s_addr s0 mod sp_align t) 0) as [Hz|Hz]; [exact Hz|]. exfalso. apply Hd. exists s0. auto. }
    destruct (try_into_claim h t n s0 Hp Hn Ha) as [H1 H2].
    destruct (len (s_data s0) mod n =? 0) eqn:Ez.
    + apply N.eqb_eq in Ez. rewrite H1 by exact Ez. cbn [opt bind]. apply lagree_new; [exact He|]. apply lone.
      assert (Hrg : ref_good (TA t) s0).
      { split; [exact Hu|]. split; [exact Ha|]. split; [unfold sp_ref_size; cbn [sp_size]; now rewrite Hn|right; apply Hs]. }
      assert (Hsm : small (TA t) s0) by (right; exact Hm).
      split; [reflexivity|]. split; [exact Hsm|]. reflexivity.
    + apply N.eqb_neq in Ez. rewrite H2 by exact Ez. cbn [opt bind]. apply lagree_new; [exact He|constructor].
  - (* PAccess *) llook env venv He Hbad i E E' H. destruct H as (<- & Hsm & ->). pose proof (Hget _ _ E) as Hr. cbn [promised] in Hr.
    assert (HI : match a with AcIndex k => k < 2 ^ 60 | _ => True end) by (destruct a; auto).
    pose proof (access_lazy h t0 r0 a Hr Hsm Hp HI) as HA. unfold lz_access in HA. destruct (laccess (h_big_endian h) t0 (lz h t0 r0) a) as [[[x w]|]|c].
    + destruct HA as (q & Eq & <-). rewrite Eq. cbn [opt bind fst snd]. apply lagree_new; [exact He|]. apply lone. split; [reflexivity|]. split; [|reflexivity].
      destruct (proj1 (ref_good_iff _ _) Hr) as (H1 & H2 & H3). pose proof (access_safe h t0 r0 a H1 H2 H3 Hp) as HB. rewrite Eq in HB.
      destruct HB as (A1 & A2 & A3 & A4). unfold small in *. destruct (is_fixed x) eqn:Ef; [auto|right].
      pose proof (placed_len h x r0 q A3 A2 Ef). destruct Hsm as [Hs|Hs]; [apply A4 in Hs; discriminate|lia].
    + rewrite HA. cbn [opt bind]. apply lagree_new; [exact He|constructor].
    + rewrite HA. now apply lagree_crash.
  - (* PSplit *) llook env venv He Hbad i E E' H. destruct H as (<- & Hsm & ->). destruct t0; try exact Hbad.
    pose proof (Hget _ _ E) as Hr. cbn [promised] in Hr. destruct Hr as (_ & Ha & _). change (sp_align TV) with 8 in Ha.
    destruct (variant_split_ok h r0 Ha) as (ts & dat & -> & _ & Ev & _). unfold lz. cbn [ldecode sp_decode bind fst snd]. rewrite Ev.
    apply lagree_new; [exact He|]. constructor; [split; reflexivity|]. apply lone. split; reflexivity.
  - (* PLen *) llook env venv He Hbad i E E' H. destruct H as (<- & Hsm & ->). destruct t0 as [| | | | | | | | | | | | |x| | | ]; try exact Hbad.
    pose proof (Hget _ _ E) as Hr. cbn [promised] in Hr. destruct (proj1 (ref_good_iff _ _) Hr) as (Hrd & Hro & Hsh).
    pose proof (readable_part _ x (or_introl eq_refl) Hrd) as [Hmx _]. pose proof Hro as [Ha _]. change (align_of (TA x)) with (align_of x) in Ha.
    destruct Hsm as [Hsm|Hsm]; [discriminate Hsm|]. unfold is_fixed. destruct (size_of x) as [n|] eqn:En.
    + rewrite (lz_slice h x n) by assumption. split; cbn [fst snd bind made]; [|now rewrite app_nil_r].
      unfold len, slice_elems. rewrite !map_length, seq_length, N2Nat.id. reflexivity.
    + rewrite lz_array by assumption. rewrite nfwa_len_ok by (unfold usize_lim; lia). split; cbn [fst snd bind made unit_]; [|now rewrite app_nil_r].
      unfold len, indices. rewrite !map_length, seq_length, N2Nat.id. reflexivity.
  - (* PIter *) llook env venv He Hbad i E E' H. destruct H as (<- & Hsm & ->). destruct t0 as [| | | | | | | | | | | | |x| | | ]; try exact Hbad.
    pose proof (Hget _ _ E) as Hr. cbn [promised] in Hr. pose proof (proj1 (ref_good_iff _ _) Hr) as (Hrd & Hro & Hsh).
    pose proof (readable_part _ x (or_introl eq_refl) Hrd) as [Hmx _]. pose proof Hro as [Ha _]. change (align_of (TA x)) with (align_of x) in Ha.
    destruct Hsm as [Hsm|Hsm]; [discriminate Hsm|]. rewrite fixed_spec. unfold is_fixed. destruct (size_of x) as [n|] eqn:En.
    + rewrite (lz_slice h x n) by assumption. exact Hbad.
    + rewrite lz_array by assumption.
      rewrite nfwa_into_iter_ok by (auto; unfold usize_lim; lia). cbn [one bind]. apply lagree_new; [exact He|]. apply lone.
      split; [reflexivity|]. exists r0, 0. split; [exact Hr|]. split; [exact Hsm|]. split; [lia|]. split; [reflexivity|]. now rewrite N.sub_0_r.
  - (* PNext *) llook env venv He Hbad i E E' H. destruct H as (<- & q & j & Hr & Hsm & Hj & -> & ->).
    pose proof (Hget _ _ E) as (Hf & _). rewrite fixed_spec in Hf. pose proof Hr as (Hu & Ha & _). pose proof (usable_item x0 Hu) as Hux.
    change (sp_align (TA x0)) with (sp_align x0) in Ha. rewrite sp_align_of in Ha.
    assert (En : size_of x0 = None) by (unfold is_fixed in Hf; destruct (size_of x0); [discriminate|reflexivity]).
    destruct (N.eq_dec j (arr_n (s_data q))) as [->|Hne].
    + rewrite step_end. rewrite N.sub_diag in *. change (indices (arr_n (s_data q)) (N.to_nat 0)) with (@nil N) in *. cbn [map opt bind] in *.
      assert (Hput : Forall2 (lshows h) (put env i (ObIter x0 (iter_at q (arr_n (s_data q))))) venv).
      { replace venv with (put venv i (LtIter x0 [])).
        - apply put_shows; [exact He|]. split; [reflexivity|]. exists q, (arr_n (s_data q)). rewrite N.sub_diag.
          split; [exact Hr|]. split; [exact Hsm|]. split; [lia|]. split; reflexivity.
        - clear -E'. revert i E'. induction venv as [|y venv IH]; intros [|i] E'; cbn [put nth_error] in *; try discriminate; [congruence|].
          f_equal. now apply IH. }
      apply lagree_made; [exact Hput|apply put_length|constructor].
    + replace (N.to_nat (arr_n (s_data q) - j)) with (S (N.to_nat (arr_n (s_data q) - (j + 1)))) by lia. rewrite indices_S. cbn [map].
      assert (Hput : Forall2 (lshows h) (put env i (ObIter x0 (iter_at q (j + 1))))
        (put venv i (LtIter x0 (map (fun i => lelem h x0 (elem_at h x0 q i)) (indices (j + 1) (N.to_nat (arr_n (s_data q) - (j + 1)))))))).
      { apply put_shows; [exact He|]. split; [reflexivity|]. exists q, (j + 1). split; [exact Hr|]. split; [exact Hsm|]. split; [lia|]. auto. }
      rewrite step_ok by (try apply Hux; auto; unfold usize_lim; lia).
      pose proof (proj2 (lz_elem h x0 q j (proj1 Hux) Ha En Hsm)) as Hc. pose proof (elem_at_safe h x0 q j (proj1 Hux) Ha En) as HS.
      destruct (elem_at h x0 q j) as [r|c]; cbn [lelem overflows bind opt].
      * pose proof (lz_neq h x0 r) as Hz.
        assert (HG : lagree h (made (put env i (ObIter x0 (iter_at q (j + 1)))) (Ok [ObView x0 r])) (said env (made (put env i (ObIter x0 (iter_at q (j + 1)))) (Ok [ObView x0 r])))
          (lnew (put venv i (LtIter x0 (map (fun i => lelem h x0 (elem_at h x0 q i)) (indices (j + 1) (N.to_nat (arr_n (s_data q) - (j + 1))))))) [LtView x0 (lz h x0 r)])).
        { apply lagree_made; [exact Hput|apply put_length|]. apply lone. split; [reflexivity|]. split; [|reflexivity].
          destruct HS as [HS1 HS2]. now apply (part_small h q). }
        destruct (lz h x0 r); [congruence| | | | ]; exact HG.
      * subst c. split; [reflexivity|]. exact Hput.
  - (* PRead *) llook env venv He Hbad i E E' H. destruct H as (<- & Hsm & ->). pose proof (Hget _ _ E) as Hr. cbn [promised] in Hr.
    rewrite (lz_read h t0 r0 Hr Hsm). destruct (lforce (lz h t0 r0)); (split; [reflexivity|]); cbn [lsays unit_ bind made fst]; [now rewrite app_nil_r|exact He].
  - (* PDebug *) llook env venv He Hbad i E E' H. destruct H as (<- & Hsm & ->). pose proof (Hget _ _ E) as Hr. cbn [promised] in Hr.
    rewrite (lz_fmt h F t0 r0 Hr Hsm). destruct (lforce (lz h t0 r0)); (split; [reflexivity|]); cbn [lsays unit_ bind made fst]; [now rewrite app_nil_r|exact He].
  - (* PEq *) pose proof (pair_get _ _ _ j He) as HJ. llook env venv He Hbad i E E' H; destruct (nth_error env j) as [[A1 s1|v1|b1|A1 [s1|b1]|t1 r1|t1 o1|x1 it1|g1|z1]|] eqn:EJ;
      destruct (nth_error venv j) as [[A1' d1|d1|d1|A1' d1|t1' w1|t1' w1|x1' l1|z1'|z1']|] eqn:EJ'; cbn [lshows] in HJ; try contradiction; try exact Hbad.
    destruct H as (<- & Hsm & ->), HJ as (<- & Hsm' & ->). destruct (ty_eqb t0 t1) eqn:Et; [|exact Hbad]. apply ty_eqb_eq in Et as <-.
    pose proof (Hget _ _ E) as Hr. pose proof (Hget _ _ EJ) as Hr'. cbn [promised] in Hr, Hr'.
    destruct (proj1 (ref_good_iff _ _) Hr) as (Hrd & Hro & _). destruct (proj1 (ref_good_iff _ _) Hr') as (_ & Hro' & _).
    rewrite (eq_lazy h t0 Hrd r0 r1 Hro Hro' Hsm Hsm'). destruct (leq _ _); (split; [reflexivity|]); cbn [lsays unit_ bind made fst]; [now rewrite app_nil_r|exact He].
  - (* PCmp *) pose proof (pair_get _ _ _ j He) as HJ. llook env venv He Hbad i E E' H; try (destruct H as (<- & Hsm & ->); destruct t0 as [| | | | | | | | | | | | | |x| | ]; try exact Hbad);
      destruct (nth_error env j) as [[A1 s1|v1|b1|A1 [s1|b1]|t1 r1|t1 o1|x1 it1|g1|z1]|] eqn:EJ;
      destruct (nth_error venv j) as [[A1' d1|d1|d1|A1' d1|t1' w1|t1' w1|x1' l1|z1'|z1']|] eqn:EJ'; cbn [lshows] in HJ; try contradiction; try exact Hbad.
    destruct HJ as (<- & Hsm' & ->). destruct t1 as [| | | | | | | | | | | | | |x'| | ]; try exact Hbad.
    destruct (ty_eqb x x') eqn:Et; [|exact Hbad]. apply ty_eqb_eq in Et as <-. specialize (Hm x _ eq_refl).
    pose proof (Hget _ _ E) as Hr. pose proof (Hget _ _ EJ) as Hr'. cbn [promised] in Hr, Hr'.
    assert (HF : forall r, exists v, lforce (lz h (TM x) r) = Some v) by (intros r; apply maybe_number, Hm).
    destruct (HF r0) as [v Ev], (HF r1) as [w Ew]. rewrite Ev, Ew.
    pose proof (lz_read h _ _ Hr Hsm) as Er. pose proof (lz_read h _ _ Hr' Hsm') as Er'. rewrite Ev in Er. rewrite Ew in Er'. cbn [lsays] in Er, Er'.
    rewrite (maybe_cmp_claim h x r0 r1 v w Hm (good_view h _ r0 Hr) (good_view h _ r1 Hr') Er Er'). split; [reflexivity|]. cbn [unit_ bind made fst]. now rewrite app_nil_r.
  - (* PHash *) llook env venv He Hbad i E E' H. destruct H as (<- & Hsm & ->). destruct t0 as [| | | | | | | | | | | | | |x| | ]; try exact Hbad.
    destruct (sp_integer x) eqn:Ei; [|replace (maybe_hash h x r0) with (@Crash (list (Z + list byte)) NoCompile) by (destruct x; try discriminate; reflexivity); exact Hbad].
    pose proof (Hget _ _ E) as Hr. cbn [promised] in Hr. pose proof (proj1 (ref_good_iff (TM x) r0) Hr) as (H1 & H2 & H3).
    pose proof (access_safe h (TM x) r0 AcOption H1 H2 H3 I) as HA. cbn [run_access] in HA.
    destruct (maybe_number h x r0) as [w0 Ew]; [destruct x; try discriminate; reflexivity|]. rewrite Ew.
    pose proof (lz_read h _ _ Hr Hsm) as Er. rewrite Ew in Er. cbn [lsays] in Er.
    assert (Hv : exists o, w0 = VMaybe o /\ match to_option h x r0 with Ok (Some q) => exists v, o = Some v /\ read h x q = Ok v | Ok None => o = None | _ => False end).
    { cbn [read] in Er. destruct (to_option h x r0) as [[q|]|]; [| |discriminate]; cbn [bind] in Er.
      - destruct (read h x q) as [v|] eqn:Eq; [|discriminate]. cbn [bind] in Er. apply ok_is in Er. subst w0. exists (Some v). eauto.
      - apply ok_is in Er. subst w0. eauto. }
    destruct Hv as (o & -> & Ho).
    assert (Hh : maybe_hash h x r0 = Ok (sp_hashed (h_big_endian h) x o)).
    { replace (maybe_hash h x r0) with (let* o := to_option h x r0 in match o with None => Ok [inl 0%Z] | Some r => Ok [inl 1%Z; inr (s_data r)] end)
        by (destruct x; try discriminate; reflexivity).
      destruct (to_option h x r0) as [[q|]|]; [| |contradiction]; cbn [bind] in *.
      - destruct Ho as (v & -> & Hq). destruct HA as (_ & HA & _). now rewrite (integer_bytes h x q v Ei HA Hq).
      - subst o. reflexivity. }
    rewrite Hh. split; [reflexivity|]. cbn [unit_ bind made fst]. now rewrite app_nil_r.
  - (* PToStr *) llook env venv He Hbad i E E' H. destruct H as (<- & Hsm & ->).
    destruct t0; try exact Hbad; unfold lz; cbn [ldecode sp_decode]; rewrite <- to_str_spec; (apply lagree_new; [exact He|]); now apply lone.
  - (* PToOwned *) llook env venv He Hbad i E E' H. destruct H as (<- & Hsm & ->). pose proof (Hget _ _ E) as Hr. cbn [promised] in Hr.
    destruct Hr as (Hu & _ & Hs & _). destruct Hp as [H1 H2].
    destruct (lazy_owned h t0 r0 a1 a2 Hu Hs Hsm H1 H2) as (o & -> & Ho). cbn [one bind]. apply lagree_new; [exact He|]. apply lone.
    split; [reflexivity|exact Ho].
  - (* POwnBytes *) llook env venv He Hbad i E E' H. destruct H as [<- <-]. specialize (Hm _ _ eq_refl). destruct Hp as (Hu & H1 & H2).
    destruct (bytes_hold h (s_data s0) a1 a2 H1 H2) as (b & -> & Hb). cbn [one bind]. apply lagree_new; [exact He|]. apply lone.
    split; [reflexivity|]. exists (s_data s0). auto.
  - (* POwnVec *) llook env venv He Hbad i E E' H. subst d0. specialize (Hm _ eq_refl). destruct Hp as (Hu & H1). pose proof (Hget _ _ E) as [Hv _].
    destruct (vec_align_spec h v0 a H1 Hv) as (b & Eb & Hb & _). unfold buf_from_vec. rewrite Eb. cbn [one bind]. apply lagree_new; [exact He|]. apply lone.
    split; [reflexivity|]. exists (v_data v0). auto.
  - (* PBorrow *) llook env venv He Hbad i E E' H. destruct H as [<- Ho]. pose proof (Hget _ _ E) as Hg0. destruct o0 as [r|d|b]; cbn [owned_borrow promised lowns] in *.
    + cbn [one bind]. apply lagree_new; [exact He|]. apply lone. split; [reflexivity|exact Ho].
    + destruct Ho as [Hl ->]. cbn [one bind]. apply lagree_new; [exact He|]. apply lone. split; [reflexivity|]. split; [right; exact Hl|].
      destruct Hg0 as (Ht & _). cbn [In] in Ht. destruct Ht as [<-|[<-|[<-|[]]]]; unfold lz; cbn [ldecode sp_decode s_data]; now rewrite to_str_spec.
    + destruct Ho as (d & Hh & Hw & ->). destruct Hg0 as [Hu Hb]. unfold owned_deref. destruct (deref_slice h b Hb) as (s & Es & Hs & Hs1 & Hs2).
      destruct (buf_ok_holds b Hb) as (_ & _ & Hga & _).
      destruct (buf_deref_ok h b d Hh Hga) as (s' & Es' & Hds & _). rewrite Es in Es'. injection Es' as <-. rewrite Es. cbn [bind].
      rewrite as_aligned_8. cbn [bind]. change (from_aligned_slice h t0 s) with (cast h t0 s).
      assert (HA : is_alignment (sp_align t0)) by (rewrite sp_align_of; apply align_of_alignment). rewrite <- Hds in *.
      destruct (lazy_cast h t0 s Hu) as (r & -> & Hr & Hsm & Er).
      * apply (slice_ok_le 8); auto using alignment_le8.
      * intros (Hz & Hf & Hmm). apply Hd. exists t0, b. split; [reflexivity|]. apply Hs2 in Hz. split; [exact Hz|]. split; [exact Hf|].
        rewrite (Hs1 Hz) in Hmm. exact Hmm.
      * exact Hw.
      * cbn [one bind]. apply lagree_new; [exact He|]. apply lone. split; auto.
  - (* PFromBytes *) llook env venv He Hbad i E E' H. destruct H as [<- <-]. specialize (Hm _ _ eq_refl). pose proof (Hget _ _ E) as Hs. cbn [promised] in Hs.
    destruct Hp as (Hu & H1 & H2 & H3 & H4). destruct Hs as (_ & _ & Hl).
    unfold from_bytes. rewrite trait_align_of, <- sp_align_of.
    assert (HA : is_alignment (sp_align t)) by (rewrite sp_align_of; apply align_of_alignment).
    destruct (copy_slice h (sp_align t) s0 a1 a2 HA H1 H2 Hl) as (c & Ec & Hc). rewrite Ec. cbn [bind].
    destruct (cow_ref_ok h (sp_align t) c Hc) as (q & Eq & Hq). rewrite Eq. cbn [bind].
    destruct (copy_to_align_ok h (sp_align t) s0 a1 a2 HA H1 H2) as (c' & q' & Ec' & Eq' & Hdq & _ & Hq1 & _).
    rewrite Ec in Ec'. injection Ec' as <-. rewrite Eq in Eq'. injection Eq' as <-. rewrite <- Hdq in *.
    destruct (lazy_copy h t q a3 a4 Hu Hq H3 H4) as (o & -> & Ho).
    { intros (Hz & Hf & Hmm). apply Hd. exists A0, s0. split; [reflexivity|]. split; [congruence|]. split; [exact Hf|].
      intros Hm'. destruct (Hq1 Hm') as [_ ->]. contradiction. }
    { exact Hm. }
    cbn [one bind]. apply lagree_new; [exact He|]. apply lone. split; auto.
  - (* PDeser *) llook env venv He Hbad i E E' H. subst d0. specialize (Hm _ eq_refl). pose proof (Hget _ _ E) as Hv. cbn [promised] in Hv.
    destruct Hp as (Hu & H2 & H3 & H4). destruct Hv as [Hv Hl].
    unfold deserialize. destruct (vec_align_spec h v0 a2 H2 Hv) as (b & Eb & Hh & Hga).
    unfold buf_from_vec. rewrite Eb. cbn [bind]. pose proof (holds_buf_ok b (v_data v0) Hh Hga Hl) as Hb.
    destruct (deref_slice h b Hb) as (s & Es & Hs & Hs1 & Hs2). rewrite Es. cbn [bind]. rewrite as_aligned_8. cbn [bind].
    assert (HA : is_alignment (sp_align t)) by (rewrite sp_align_of; apply align_of_alignment).
    assert (Hds : s_data s = v_data v0).
    { destruct (buf_deref_ok h b (v_data v0) Hh Hga) as (s' & Es' & Hs' & _). rewrite Es in Es'. injection Es' as <-. exact Hs'. }
    destruct (lazy_copy h t s a3 a4 Hu) as (o & -> & Ho); auto.
    { apply (slice_ok_le 8); auto using alignment_le8. }
    { intros (Hz & Hf & Hmm). apply Hd. exists v0. split; [reflexivity|].
      assert (Hvz : v_data v0 = []) by congruence.
      split; [exact Hvz|]. split; [exact Hf|].
      assert (Ebv : b = v0).
      { unfold vec_align in Eb. rewrite vec_is_aligned_spec in Eb. unfold vlen in Eb. rewrite Hvz in Eb. cbn in Eb. congruence. }
      subst b. rewrite (Hs1 Hvz) in Hmm. exact Hmm. }
    { now rewrite Hds. }
    cbn [one bind]. apply lagree_new; [exact He|]. apply lone. split; [reflexivity|]. now rewrite <- Hds.
  - (* PWrite *) destruct Hp as (Hu & Hr & Ha & Hl). unfold written. destruct (existsb _ (rstrings t r)) eqn:En.
    + destruct (nul_claim h t r Hu Hr) as (s & b & e & Hin & Hz & _ & Hser).
      { intros Hno. apply existsb_exists in En as (s & Hin & Hs). apply (Hno s Hin). unfold sp_nul_free in Hs. destruct (in_dec _ _ _) as [H|H]; [exact H|discriminate]. }
      { exact Hl. }
      rewrite (Hser None). cbn [sp_deliver]. now apply lagree_crash.
    + assert (Hno : no_nuls t r).
      { intros s Hin Hz. assert (Hx : existsb (fun s => negb (sp_nul_free s)) (rstrings t r) = true); [|congruence].
        apply existsb_exists. exists s. split; [exact Hin|]. unfold sp_nul_free. destruct (in_dec _ _ _) as [H|H]; [reflexivity|contradiction]. }
      rewrite (ser_claim h t r None Hu Hr Hno Hl). cbn [sp_deliver k_out]. apply lagree_new; [exact He|]. now apply lone.
  - (* PRewrite *) llook env venv He Hbad i E E' H. destruct H as (<- & Hsm & ->). destruct Hp as [Ha Hp].
    pose proof (Hget _ _ E) as Hr. cbn [promised] in Hr. pose proof (lz_read h t0 r0 Hr Hsm) as Er. pose proof Hr as (Hu & _). destruct (proj1 (ref_good_iff _ _) Hr) as (H1 & H2 & H3).
    pose proof (view_means h t0 H1 r0 H2 H3) as HS. unfold ViewFacts.same in HS. rewrite Er in HS. destruct (lforce (lz h t0 r0)) as [w0|]; cbn [lsays] in *.
    + specialize (Hp _ _ w0 eq_refl Er). destruct (view_rval h t0 r0) as [w|c']; [|contradiction]. cbn [bind]. destruct HS as (W1 & W2 & W3). unfold written.
      rewrite (ser_claim h t0 w None Hu W1) by (try (rewrite W3; exact Hp); intros z Hz; rewrite W2 in Hz; contradiction). cbn [sp_deliver k_out]. rewrite W3.
      apply lagree_new; [exact He|]. now apply lone.
    + destruct (view_rval h t0 r0) as [w|c']; [contradiction|]. subst c'. cbn [bind]. now apply lagree_crash.
  - (* PGNew *) apply lagree_new; [exact He|]. apply lone. cbn [lshows]. split; [reflexivity|]. split; [apply good_nil|].
    cbn [gs_new g_cap]. unfold with_cap. change (blen []) with 0. lia.
  - (* PGTry *) destruct Hp as [Hu Hc]. rewrite sp_nul_free_spec. pose proof (fun g => gi_from s cap c g Hu Hc) as Hi. unfold gs_try_from in *.
    destruct (has_nul s); cbn [negb opt bind]; (apply lagree_new; [exact He|]); [constructor|].
    apply lone. apply gs_init_ok. now apply Hi.
  - (* PGs *) llook env venv He Hbad i E E' H. pose proof (run_gs_op_ok g0 z0' o H Hp) as HR.
    destruct (run_gs_op g0 o) as [g' r'], (plain_gs_op z0' o) as [s' r'']. destruct HR as [-> HR]. split; cbn [fst snd]; [reflexivity|]. now apply put_shows.
  - (* PGStr *) llook env venv He Hbad i E E' H. destruct (gs_observe h g0 z0' H) as (-> & _). cbn [one bind]. apply lagree_new; [exact He|]. now apply lone.
  - (* PGCStr *) llook env venv He Hbad i E E' H. destruct (gs_observe h g0 z0' H) as (_ & _ & _ & _ & -> & _). cbn [one bind]. apply lagree_new; [exact He|]. now apply lone.
  - (* PGDeref *) llook env venv He Hbad i E E' H. specialize (Hm _ eq_refl). destruct (gs_observe h g0 z0' H) as (_ & _ & _ & _ & _ & Ed & Et & _).
    apply lagree_new; [exact He|]. apply lone. split; [reflexivity|]. split.
    + right. unfold slen. cbn [s_data]. rewrite Ed, blen_app, blen_cons, blen_nil. change (len z0') with (blen z0') in Hm. lia.
    + unfold lz. cbn [ldecode sp_decode s_data]. now rewrite <- to_str_spec, Et.
  - (* PGClone *) llook env venv He Hbad i E E' H. apply lagree_new; [exact He|]. apply lone. now apply clone_holds.
  - (* PGString *) llook env venv He Hbad i E E' H. destruct (gs_observe h g0 z0' H) as (_ & _ & _ & -> & _). apply lagree_new; [exact He|]. now apply lone.
  - (* PStrBytes *) llook env venv He Hbad i E E' H. apply lagree_new; [exact He|]. apply lone. split; [reflexivity|exact H].
  - (* PBufNew *) apply lagree_new; [exact He|]. apply lone. reflexivity.
  - (* PAsk *) rewrite <- (lask_agree h env venv q He Hg). destruct (ask h env q) as [a|c]; cbn [unit_ bind made]; split; cbn [fst snd]; try reflexivity; [|exact He].
    now rewrite app_nil_r.
Qed.

(** ** Whole programs *)
Lemma lreplies_agree h ps : forall env venv, Forall2 (lshows h) env venv -> Forall (promised h) env -> realistic h env ps -> careful h env ps ->
  all_modest (h_big_endian h) venv ps -> replies h env ps = lreplies (h_big_endian h) venv ps.
Proof.
  induction ps as [|p ps IH]; intros env venv He Hg Hr Hc Hm; cbn [replies lreplies realistic careful all_modest] in *; [reflexivity|].
  destruct Hr as [Hp Hr], Hc as [Hd Hc], Hm as [Hm Hms]. destruct (lcalls_agree h env venv p He Hg Hp Hd Hm) as [A1 A2].
  pose proof (calls_good h env p Hg Hp Hd) as [G1 G2]. destruct (step h env p) as [env' o]. cbn [fst snd] in *.
  assert (E : replies h env' ps = lreplies (h_big_endian h) (fst (lstep (h_big_endian h) venv p)) ps) by now apply IH.
  rewrite <- A1. destruct o as [c|]; [|now rewrite E]. apply calm_not_ub in G2. destruct c; try congruence.
Qed.
Lemma lprograms_agree h ps : realistic h [] ps -> careful h [] ps -> all_modest (h_big_endian h) [] ps ->
  replies h [] ps = lreplies (h_big_endian h) [] ps.
Proof. intros. apply lreplies_agree; auto. Qed.

(** ** Addresses *)
Lemma lforget_step big env p : lstep big env (forget p) = lstep big env p.
Proof.
  destruct p as [v|i|i a|i|i m|i|i o|i B|i A a1 a2|i|i t|i t|i a|i|i|i|i|i|i F|i j|i j|i|i|i a1 a2|i t a1 a2|i t a|i
                |i t a1 a2 a3 a4|i t a2 a3 a4|t r a|i a|c|s cap c|i o|i|i|i a|i c1|i|i a| |q]; try reflexivity; cbn [forget lstep].
  - destruct (nth_error env i) as [[]|]; try reflexivity. destruct m as [o| |]; try reflexivity. destruct o; reflexivity.
  - destruct (nth_error env i) as [[]|]; try reflexivity. destruct o; reflexivity.
Qed.
Lemma forget_modest env p : modest env (forget p) = modest env p.
Proof. destruct p; reflexivity. Qed.
Lemma lforget_replies big ps : forall env, lreplies big env (map forget ps) = lreplies big env ps.
Proof.
  induction ps as [|p ps IH]; intros env; cbn [map lreplies]; [reflexivity|]. rewrite lforget_step. now rewrite IH.
Qed.
Lemma lforget_all big ps : forall env, all_modest big env (map forget ps) <-> all_modest big env ps.
Proof.
  induction ps as [|p ps IH]; intros env; cbn [map all_modest]; [tauto|]. rewrite lforget_step, forget_modest, IH. tauto.
Qed.
Lemma laddresses_forgotten h h' ps ps' : h_big_endian h = h_big_endian h' -> map forget ps = map forget ps' ->
  realistic h [] ps -> careful h [] ps -> realistic h' [] ps' -> careful h' [] ps' -> all_modest (h_big_endian h) [] ps ->
  replies h [] ps = replies h' [] ps'.
Proof.
  intros Eb Ep R C R' C' Hm. rewrite (lprograms_agree h ps) by assumption.
  pose proof (proj2 (lforget_all _ _ _) Hm) as Hf. rewrite Ep, Eb in Hf. pose proof (proj1 (lforget_all _ _ _) Hf) as Hm'. rewrite (lprograms_agree h' ps') by assumption.
  rewrite <- lforget_replies, Ep, lforget_replies, Eb. reflexivity.
Qed.

(** ** Panics *)
Ltac panics := intros HH; first [discriminate HH | injection HH as <-; first [left; reflexivity | right; left; reflexivity | right; right; reflexivity]].
Lemma lask_panics env q c : lask env q = Crash c -> c = PIndex \/ c = PUnwrap \/ c = NoCompile.
Proof.
  destruct q as [i k|i j|i|i n|i j|i j|i]; cbn [lask];
    (destruct (nth_error env i) as [[A0 d0|d0|d0|A0 d0|t0 w0|t0 w0|x0 l0|z0|z0]|]; try panics).
  - destruct (k <? len d0); panics.
  - destruct (nth_error env j) as [[A1 d1|d1|d1|A1 d1|t1 w1|t1 w1|x1 l1|z1|z1]|]; try panics. destruct (A0 =? A1); panics.
  - destruct (lrhs env t0 n) as [l|]; [|panics]. destruct (leq w0 l); cbn [lsays bind]; panics.
  - destruct (nth_error env j) as [[A1 d1|d1|d1|A1 d1|t1 w1|t1 w1|x1 l1|z1|z1]|]; panics.
  - destruct (nth_error env j) as [[A1 d1|d1|d1|A1 d1|t1 w1|t1 w1|x1 l1|z1|z1]|]; panics.
Qed.
Lemma ltouch_panics x l c : ltouch x l = Crash c -> c = PUnwrap.
Proof. unfold ltouch. destruct l; congruence. Qed.
Lemma lnth_panics x ls c : forall k, lnth x ls k = Crash c -> c = PUnwrap.
Proof. induction ls as [|l ls IH]; intros [|k]; cbn [lnth]; try discriminate; destruct l; try congruence; apply IH. Qed.
Lemma lopt_panics x o c : lopt x o = Crash c -> c = PUnwrap.
Proof. destruct o; [apply ltouch_panics|discriminate]. Qed.
Lemma laccess_panics big t l a c : laccess big t l a = Crash c -> c = PIndex \/ c = PUnwrap \/ c = NoCompile.
Proof.
  unfold laccess. destruct t; try discriminate; destruct l as [|v|ls|o|ls]; try discriminate; destruct a as [i|k| | | |k|y|y]; try discriminate;
    try (destruct v; try discriminate);
    try (destruct (nth_error ls (N.to_nat i)); [|panics]);
    try (destruct (nth_error (sp_components _) k); [|panics]);
    intros H; right; left; eauto using ltouch_panics, lnth_panics, lopt_panics.
Qed.
Lemma lstep_panics big env p c : snd (lstep big env p) = Crash c -> c = PIndex \/ c = PUnwrap \/ c = NoCompile.
Proof.
  destruct p as [v|i|i a|i|i m|i|i o|i B|i A a1 a2|i|i t|i t|i a|i|i|i|i|i|i F|i j|i j|i|i|i a1 a2|i t a1 a2|i t a|i
                |i t a1 a2 a3 a4|i t a2 a3 a4|t r a|i a|c0|s cap c0|i o|i|i|i a|i c1|i|i a| |q]; cbn [lstep lnew snd]; try panics;
    try (destruct (lask env q) as [a|c'] eqn:Eq; cbn [bind]; [panics|]; intros H; injection H as <-; now apply (lask_panics env q));
    try (destruct (nth_error env i) as [[A0 d0|d0|d0|A0 d0|t0 w0|t0 w0|x0 l0|z0|z0]|]; cbn [snd lnew]; try panics).
  - destruct (plain_mut_op big d0 m); cbn [snd]; panics.
  - destruct (sp_range (len d0) o) as [b e]. destruct (_ && _); cbn [snd lnew]; panics.
  - destruct (A0 =? 1); cbn [snd lnew]; panics.
  - destruct (A0 =? sp_align t); cbn [snd lnew]; panics.
  - destruct (sp_size t); [|panics]. destruct (A0 =? sp_align t); cbn [snd lnew]; panics.
  - destruct (laccess big t0 w0 a) as [[[x w]|]|c'] eqn:Ea; cbn [snd lnew]; try panics. intros H; injection H as <-. now apply (laccess_panics big t0 w0 a).
  - destruct t0; try panics. destruct w0 as [|v|ls|o|ls]; try panics. destruct v; panics.
  - destruct t0; try panics. destruct w0; panics.
  - destruct t0; try panics. destruct w0; try panics. destruct (sp_fixed t0); cbn [snd lnew]; panics.
  - destruct l0 as [|l l0]; cbn [snd lnew]; [panics|]. destruct l; cbn [snd lnew]; panics.
  - destruct (lforce w0); cbn [lsays bind]; panics.
  - destruct (lforce w0); cbn [lsays bind]; panics.
  - destruct (nth_error env j) as [[A1 d1|d1|d1|A1 d1|t1 w1|t1 w1|x1 l1|z1|z1]|]; try panics.
    destruct (ty_eqb t0 t1); cbn [snd]; [|panics]. destruct (leq w0 w1); cbn [lsays bind]; panics.
  - destruct t0; try panics.
    destruct (nth_error env j) as [[A1 d1|d1|d1|A1 d1|t1 w1|t1 w1|x1 l1|z1|z1]|]; try panics.
    destruct t1; try panics. destruct (ty_eqb t0 t1); cbn [snd]; [|panics]. destruct (lforce w0), (lforce w1); cbn [snd]; panics.
  - destruct t0; try panics. destruct (sp_integer t0); cbn [snd]; [|panics]. destruct (lforce w0) as [[]|]; cbn [snd]; panics.
  - destruct t0; try panics; (destruct w0 as [|v|ls|o|ls]; try panics; destruct v; panics).
  - destruct (existsb _ _); cbn [snd lnew]; panics.
  - destruct (lforce w0); cbn [snd lnew]; panics.
  - destruct (plain_gs_op z0 o); cbn [snd]. panics.
Qed.
Lemma lreplies_panics big c ps : forall env, In (Crash c) (lreplies big env ps) -> c = PIndex \/ c = PUnwrap \/ c = NoCompile.
Proof.
  induction ps as [|p ps IH]; intros env; cbn [lreplies In]; [tauto|]. intros [H|H]; [now apply (lstep_panics big env p)|eapply IH; eauto].
Qed.
Lemma lprograms_panic h c ps : realistic h [] ps -> careful h [] ps -> all_modest (h_big_endian h) [] ps ->
  In (Crash c) (replies h [] ps) -> c = PIndex \/ c = PUnwrap \/ c = NoCompile.
Proof. intros R C M. rewrite lprograms_agree by assumption. apply lreplies_panics. Qed.
