(** Each call does what the machine over values does. *)
From Verif Require Import Base Types Layout AlignedBytes Strs Spec Deser Buf Histories Ser SerSpec Cmp CmpSpec Fmt FmtSpec Mut MutSpec OwnSpec Iter IterSpec
  Programs ProgSpec ValSpec Offsets
  BaseFacts TypesFacts LayoutFacts AlignedFacts Utf8Facts DeserFacts ArrayFacts StructFacts ReadFacts AccessFacts ReadClaims EqFacts CmpFacts StrFacts
  EncFacts RoundFacts SerMain SerClaims MutFacts EmptyFacts OwnClaims IterFacts ViewFacts FmtFacts MoveFacts ProgFacts ValFacts.
From Coq Require Import Lia ZifyBool ZifyNat ZifyN.
Ltac Zify.zify_post_hook ::= idtac.

Definition said (env : list obj) (p : list obj * option crash) : res (list answer) :=
  match p with (env', None) => Ok (map face (skipn (length env) env')) | (_, Some c) => Crash c end.
(** What the crate did, what it said, what the machine over values did. *)
Definition agree (h : host) (p : list obj * option crash) (m : res (list answer)) (q : list thing * res (list answer)) : Prop :=
  m = snd q /\ Forall2 (shows h) (fst p) (fst q).

Lemma agree_made h env env' venv' os ths : Forall2 (shows h) env' venv' -> length env' = length env ->
  Forall2 (shows h) os ths -> agree h (made env' (Ok os)) (said env (made env' (Ok os))) (vnew venv' ths).
Proof.
  intros He' Hl Ho. unfold agree, vnew. cbn [made said fst snd]. split.
  - f_equal. rewrite skipn_app, Hl, Nat.sub_diag. rewrite (skipn_all2 env') by lia. now apply (shows_faces h).
  - now apply Forall2_app.
Qed.
Lemma agree_new h env venv os ths : Forall2 (shows h) env venv -> Forall2 (shows h) os ths ->
  agree h (made env (Ok os)) (said env (made env (Ok os))) (vnew venv ths).
Proof. intros He Ho. now apply agree_made. Qed.
Lemma agree_crash h env venv c : Forall2 (shows h) env venv -> agree h (env, Some c) (Crash c) (venv, Crash c).
Proof. intros He. split; [reflexivity|exact He]. Qed.
Lemma agree_say h env venv (m : res answer) a : Forall2 (shows h) env venv -> m = Ok a ->
  agree h (made env (unit_ m)) (let* a := m in Ok [a]) (venv, Ok [a]).
Proof. intros He ->. split; [reflexivity|]. cbn [unit_ bind made fst]. now rewrite app_nil_r. Qed.
Lemma one_shows h o th : shows h o th -> Forall2 (shows h) [o] [th].
Proof. intros H. constructor; [exact H|constructor]. Qed.
Lemma put_same {A} (env : list A) i o : length (put env i o) = length env.
Proof. apply put_length. Qed.

Lemma holds_same b d d' : holds b d -> holds b d' -> d = d'.
Proof.
  intros H H'. destruct d as [|x d], d' as [|y d']; cbn [holds] in *; [reflexivity| | |].
  - destruct H' as (j & H' & _). rewrite H in H'. destruct j; discriminate.
  - destruct H as (j & H & _). rewrite H' in H. destruct j; discriminate.
  - destruct H as (j & H & Hj), H' as (j' & H' & Hj'). rewrite H in H'.
    assert (Hl : length j = length j') by (unfold blen in *; lia). clear -Hl H'. revert j' Hl H'. induction j as [|a j IH]; intros [|a' j'] Hl H'; try discriminate; [exact H'|].
    cbn [app] in H'. injection H' as _ H'. apply (IH j'); [cbn [length] in Hl; lia|exact H'].
Qed.
Ltac look env venv He Hbad i E E' H :=
  pose proof (pair_get _ _ _ i He) as H;
  destruct (nth_error env i) as [[A0 s0|v0|b0|A0 [s0|b0]|t0 r0|t0 o0|x0 it0|g0|z0]|] eqn:E;
  destruct (nth_error venv i) as [[A0' d0|d0|d0|A0' d0|t0' w0|t0' w0|x0' l0|z0'|z0']|] eqn:E'; cbn [shows] in H; try contradiction; try exact Hbad.

(** ** Queries *)
Fixpoint vrhs_list (env : list thing) (x : ty) (l : list rhs) : option (list value) :=
  match l with
  | [] => Some []
  | n :: l => match vrhs env x n, vrhs_list env x l with Some v, Some vs => Some (v :: vs) | _, _ => None end
  end.
Lemma vrhs_seq env x l : vrhs env (TA x) (RhSeq l) = match vrhs_list env x l with Some vs => Some (VArray vs) | None => None end.
Proof.
  cbn [vrhs]. match goal with |- match ?g l with _ => _ end = _ => assert (E : g l = vrhs_list env x l) end.
  { induction l as [|n l IH]; [reflexivity|]. cbn [vrhs_list]. now rewrite IH. }
  now rewrite E.
Qed.
Definition rhs_same (h : host) (t : ty) (m : option native) (v : option value) : Prop :=
  match m, v with Some m, Some v => native_value h t m v | None, None => True | _, _ => False end.
Lemma view_same h env venv j : Forall2 (shows h) env venv -> Forall (promised h) env ->
  match nth_error env j, nth_error venv j with
  | Some (ObView t q), Some (ThView t' v) => t = t' /\ view h t q /\ read h t q = Ok v
  | Some (ObView _ _), _ => False
  | _, Some (ThView _ _) => False
  | _, _ => True
  end.
Proof.
  intros He Hg. pose proof (pair_get _ _ _ j He) as HJ.
  destruct (nth_error env j) as [[A1 s1|v1|b1|A1 [s1|b1]|t1 r1|t1 o1|x1 it1|g1|z1]|] eqn:EJ;
    destruct (nth_error venv j) as [[A1' d1|d1|d1|A1' d1|t1' w1|t1' w1|x1' l1|z1'|z1']|] eqn:EJ'; cbn [shows] in HJ; try contradiction; try exact I.
  destruct HJ as (<- & _ & Er). apply (get_good h _ _ _ Hg) in EJ. cbn [promised] in EJ. split; [reflexivity|]. split; [now apply good_view|exact Er].
Qed.
Lemma rhs_agree h env venv : Forall2 (shows h) env venv -> Forall (promised h) env -> forall n t,
  rhs_same h t (rhs_native env t n) (vrhs venv t n).
Proof.
  intros He Hg. induction n as [j|b|d|j|l IH|o] using rhs_ind'; intros t.
  - pose proof (view_same h env venv j He Hg) as H. cbn [rhs_native vrhs].
    destruct (nth_error env j) as [[A1 s1|v1|b1|A1 c1|t1 r1|t1 o1|x1 it1|g1|z1]|], (nth_error venv j) as [[A1' d1|d1|d1|A1' d1|t1' w1|t1' w1|x1' l1|z1'|z1']|];
      try contradiction; try exact I.
    destruct H as (<- & Hv & Er). destruct (ty_eqb t t1) eqn:Et; [|exact I]. apply ty_eqb_eq in Et as <-. cbn [rhs_same]. now apply nv_view.
  - destruct t; try exact I. constructor.
  - destruct t; try exact I; constructor; tauto.
  - pose proof (pair_get _ _ _ j He) as HJ. cbn [rhs_native vrhs].
    destruct t; try exact I; (destruct (nth_error env j) as [[A1 s1|v1|b1|A1 [s1|b1]|t1 r1|t1 o1|x1 it1|g1|z1]|] eqn:EJ;
    destruct (nth_error venv j) as [[A1' d1|d1|d1|A1' d1|t1' w1|t1' w1|x1' l1|z1'|z1']|] eqn:EJ'; cbn [shows] in HJ; try contradiction; try exact I);
    subst; constructor; tauto.
  - destruct t as [| | | | | | | | | | | | |x| | | ]; try exact I. rewrite rhs_seq, vrhs_seq.
    assert (G : match rhs_natives env x l, vrhs_list venv x l with Some ms, Some vs => native_values h x ms vs | None, None => True | _, _ => False end).
    { induction IH as [|n l Hn HF IHl]; cbn [rhs_natives vrhs_list]; [constructor|]. specialize (Hn x). unfold rhs_same in Hn.
      destruct (rhs_native env x n), (vrhs venv x n); try contradiction; [|exact I].
      destruct (rhs_natives env x l), (vrhs_list venv x l); try contradiction; [|exact I]. now constructor. }
    destruct (rhs_natives env x l), (vrhs_list venv x l); try contradiction; [|exact I]. now constructor.
  - destruct t as [| | | | | | | | | | | | | |x| | ]; try (destruct o; exact I). cbn [rhs_native vrhs].
    assert (Hs : is_fixed x = true -> sp_size x <> None) by (unfold is_fixed; rewrite sp_size_of; destruct (size_of x); congruence).
    destruct o as [j|].
    + rewrite fixed_spec. pose proof (view_same h env venv j He Hg) as H.
      destruct (nth_error env j) as [[A1 s1|v1|b1|A1 c1|t1 r1|t1 o1|x1 it1|g1|z1]|], (nth_error venv j) as [[A1' d1|d1|d1|A1' d1|t1' w1|t1' w1|x1' l1|z1'|z1']|];
        try contradiction; try (destruct (is_fixed x); exact I).
      destruct H as (<- & Hv & Er). destruct (is_fixed x); [|exact I]. cbn [andb]. destruct (ty_eqb x t1) eqn:Et; [|exact I].
      apply ty_eqb_eq in Et as <-. cbn [rhs_same]. apply nv_some; auto.
    + rewrite fixed_spec. destruct (is_fixed x); [|exact I]. cbn [rhs_same]. apply nv_none; auto.
Qed.
Lemma before_lt a : forall b, sp_lt a b -> sp_before a b = true /\ sp_before b a = false.
Proof.
  induction a as [|x a IH]; intros b H; inversion H as [y s'|x' y s' t' Hl|x' s' t' Hl]; subst; cbn [sp_before]; [auto| |].
  - replace (Byte.to_N x <? Byte.to_N y) with true by lia. replace (Byte.to_N y <? Byte.to_N x) with false by lia.
    replace (Byte.to_N y =? Byte.to_N x) with false by lia. auto.
  - rewrite N.ltb_irrefl, N.eqb_refl. cbn [orb andb]. now apply IH.
Qed.
Lemma before_self a : sp_before a a = false.
Proof. induction a as [|x a IH]; [reflexivity|]. cbn [sp_before]. rewrite N.ltb_irrefl, N.eqb_refl. exact IH. Qed.
Lemma order_spec a b (c : comparison) : match c with Eq => a = b | Lt => sp_lt a b | Gt => sp_lt b a end -> c = sp_order a b.
Proof.
  unfold sp_order. destruct c; intros H.
  - subst. now rewrite before_self.
  - destruct (before_lt _ _ H) as [-> _]. reflexivity.
  - destruct (before_lt _ _ H) as [-> ->]. reflexivity.
Qed.
Lemma ask_agree h env venv q : Forall2 (shows h) env venv -> Forall (promised h) env -> ask h env q = vask venv q.
Proof.
  intros He Hg. pose proof (fun i o => get_good h env i o Hg) as Hget. pose proof (eq_refl (@Crash answer NoCompile)) as Hbad.
  destruct q as [i k|i j|i|i n|i j|i j|i]; cbn [ask vask].
  - look env venv He Hbad i E E' H. destruct H as [_ <-].
    destruct (nth_error (s_data s0) (N.to_nat k)) as [x|] eqn:Ex.
    + assert (Hk : k < len (s_data s0)) by (unfold len; pose proof (proj1 (nth_error_Some (s_data s0) (N.to_nat k)) ltac:(congruence)); lia).
      replace (k <? len (s_data s0)) with true by lia. do 2 f_equal. unfold sub.
      clear -Ex. revert Ex. generalize (s_data s0). induction (N.to_nat k) as [|m IH]; intros [|y d] Ex; cbn [nth_error] in Ex; try discriminate.
      * injection Ex as ->. reflexivity.
      * cbn [skipn]. now apply IH.
    + apply nth_error_None in Ex. replace (k <? len (s_data s0)) with false by (unfold len; lia). reflexivity.
  - pose proof (pair_get _ _ _ j He) as HJ. look env venv He Hbad i E E' H; destruct (nth_error env j) as [[A1 s1|v1|b1|A1 [s1|b1]|t1 r1|t1 o1|x1 it1|g1|z1]|] eqn:EJ;
      destruct (nth_error venv j) as [[A1' d1|d1|d1|A1' d1|t1' w1|t1' w1|x1' l1|z1'|z1']|] eqn:EJ'; cbn [shows] in HJ; try contradiction; try exact Hbad.
    destruct H as [<- <-], HJ as [<- <-]. destruct (A0 =? A1); [|reflexivity]. unfold as_eq. now rewrite sp_beq_eqb.
  - look env venv He Hbad i E E' H. destruct H as (<- & q & j & vs & Hr & Hsm & Er & Hj & -> & ->). rewrite nfwa_size_hint_ok by exact Hj. cbn [bind].
    apply Hget in E. destruct E as (Hf & _). destruct (array_elems h x0 q vs Hr Hf ltac:(lia) Er) as [Hlen _]. do 2 f_equal.
    unfold len. rewrite skipn_length. lia.
  - look env venv He Hbad i E E' H. destruct H as (<- & Hsm & Er). apply Hget in E. cbn [promised] in E.
    pose proof (rhs_agree h env venv He Hg n t0) as HR. unfold rhs_same in HR.
    destruct (rhs_native env t0 n) as [m|], (vrhs venv t0 n) as [w|]; try contradiction; [|reflexivity].
    now rewrite (eq_native_claim h t0 r0 m w0 w (good_view h t0 r0 E) Er HR).
  - pose proof (pair_get _ _ _ j He) as HJ. look env venv He Hbad i E E' H; destruct (nth_error env j) as [[A1 s1|v1|b1|A1 [s1|b1]|t1 r1|t1 o1|x1 it1|g1|z1]|] eqn:EJ;
      destruct (nth_error venv j) as [[A1' d1|d1|d1|A1' d1|t1' w1|t1' w1|x1' l1|z1'|z1']|] eqn:EJ'; cbn [shows] in HJ; try contradiction; try exact Hbad.
    destruct H as (D1 & G1 & _), HJ as (D2 & G2 & _). destruct (gs_eq_spec g0 g1 _ _ G1 G2 D1 D2) as [HG _]. do 2 f_equal.
    rewrite <- beq_iff in HG. destruct (gs_eq g0 g1), (sp_beq z0' z1'); intuition congruence.
  - pose proof (pair_get _ _ _ j He) as HJ. look env venv He Hbad i E E' H; destruct (nth_error env j) as [[A1 s1|v1|b1|A1 [s1|b1]|t1 r1|t1 o1|x1 it1|g1|z1]|] eqn:EJ;
      destruct (nth_error venv j) as [[A1' d1|d1|d1|A1' d1|t1' w1|t1' w1|x1' l1|z1'|z1']|] eqn:EJ'; cbn [shows] in HJ; try contradiction; try exact Hbad.
    destruct H as (D1 & G1 & _), HJ as (D2 & G2 & _). do 3 f_equal. apply order_spec. now apply gs_cmp_spec.
  - look env venv He Hbad i E E' H. destruct (gs_observe h g0 z0' H) as (_ & -> & _). reflexivity.
Qed.

Lemma calls_agree h env venv p : Forall2 (shows h) env venv -> Forall (promised h) env -> possible h env p -> ~ door env p ->
  mild venv p -> agree h (step h env p) (reply h env p) (vstep (h_big_endian h) venv p).
Proof.
  intros He Hg Hp Hd Hm. pose proof (fun i o => get_good h env i o Hg) as Hget. pose proof (agree_crash h env venv NoCompile He) as Hbad.
  destruct p as [v|i|i a|i|i m|i|i o|i B|i A a1 a2|i|i t|i t|i a|i|i|i|i|i|i F|i j|i j|i|i|i a1 a2|i t a1 a2|i t a|i
                |i t a1 a2 a3 a4|i t a2 a3 a4|t r a|i a|c|s cap c|i o|i|i|i a|i c1|i|i a| |q];
    match goal with |- agree h _ ?m _ => let m' := eval cbn [reply] in m in change m with m' end;
    try match goal with |- agree h (step h env ?p) _ _ => change (match step h env p with (env', None) => Ok (map face (skipn (length env) env')) | (_, Some c) => Crash c end) with (said env (step h env p)) end;
    cbn [step vstep possible door mild] in *.
  - (* PVec *) apply agree_new; [exact He|]. now apply one_shows.
  - (* PBytes *) look env venv He Hbad i E E' H. apply agree_new; [exact He|]. apply one_shows. split; [reflexivity|exact H].
  - (* PFromVec *) look env venv He Hbad i E E' H. apply Hget in E. destruct E as [E1 E2].
    destruct (vec_align_spec h v0 a Hp E1) as (b & Eb & Hh & _). unfold buf_from_vec. rewrite Eb. cbn [one bind].
    apply agree_new; [exact He|]. apply one_shows. cbn [shows]. now rewrite <- H.
  - (* PIntoVec *) look env venv He Hbad i E E' H. apply Hget in E. destruct (buf_ok_holds b0 E) as (d & Hh & Hga & _).
    unfold buf_into_vec. destruct (vec_unalign_ok h b0 d0 H Hga) as (w & -> & Hd1 & _). cbn [one bind].
    apply agree_new; [exact He|]. now apply one_shows.
  - (* PMut *) look env venv He Hbad i E E' H. apply Hget in E. destruct (buf_ok_holds b0 E) as (d & Hh & Hga & Hl).
    destruct Hp as [Hw Hf]. rewrite (holds_same b0 d0 d H Hh) in *.
    pose proof (run_mut_op_ok h b0 d m Hh Hga ltac:(unfold usize_lim; change (blen d) with (len d); lia) Hw) as HM.
    destruct (plain_mut_op (h_big_endian h) d m) as [d'|].
    + destruct HM as (b' & -> & Hb' & _). split; cbn [fst snd said].
      * rewrite skipn_all2 by (rewrite put_length; lia). reflexivity.
      * now apply put_shows.
    + rewrite HM. now apply agree_crash.
  - (* PDeref *) look env venv He Hbad i E E' H. apply Hget in E. destruct (buf_ok_holds b0 E) as (d & Hh & Hga & Hl).
    destruct (buf_deref_ok h b0 d0 H Hga) as (q & -> & Hq & _). cbn [one bind]. apply agree_new; [exact He|]. apply one_shows. split; auto.
  - (* PSlice *) look env venv He Hbad i E E' H. specialize (Hp _ _ eq_refl). apply Hget in E. destruct H as [<- <-].
    destruct (slice_ok_at A0 s0 E) as (HA & Ho & Hl).
    pose proof (run_op_any h A0 s0 o HA Ho ltac:(unfold usize_lim; lia) Hp) as HR.
    change (len (s_data s0)) with (slen s0). rewrite sp_range_op. destruct (op_range s0 o) as [b e]. destruct HR as [H1 H2].
    destruct ((b <=? e) && (e <=? slen s0)) eqn:Eb.
    + destruct (H1 ltac:(lia)) as [-> _]. cbn [one bind]. apply agree_new; [exact He|]. apply one_shows. split; [reflexivity|].
      unfold part. cbn [s_data]. now rewrite sub_take_drop.
    + rewrite H2 by lia. now apply agree_crash.
  - (* PTry *) look env venv He Hbad i E E' H. rewrite try_as_aligned_always. cbn [opt bind]. apply agree_new; [exact He|]. apply one_shows.
    split; [reflexivity|apply H].
  - (* PCopyAlign *) look env venv He Hbad i E E' H. destruct H as [<- <-]. destruct (A0 =? 1); [|exact Hbad]. destruct Hp as (HA & H1 & H2).
    unfold copy_to_align. destruct (is_aligned s0 A).
    + rewrite try_as_aligned_always. cbn [one bind]. apply agree_new; [exact He|]. apply one_shows. split; reflexivity.
    + destruct (bytes_hold h (s_data s0) a1 a2 H1 H2) as (b & Eb & Hb). unfold owned_from_bytes in Eb. rewrite Eb. cbn [one bind].
      apply agree_new; [exact He|]. apply one_shows. split; [reflexivity|exact Hb].
  - (* PCowRef *) look env venv He Hbad i E E' H; destruct H as [<- H]; cbn [cow_as_ref].
    + cbn [one bind]. apply agree_new; [exact He|]. apply one_shows. split; auto.
    + apply Hget in E. destruct E as [HA Hb]. destruct (buf_ok_holds b0 Hb) as (d & Hh & Hga & Hl).
      destruct (buf_deref_ok h b0 d0 H Hga) as (q & -> & Hq & _). cbn [bind]. rewrite as_aligned_ok by exact HA. cbn [one bind].
      apply agree_new; [exact He|]. apply one_shows. split; auto.
  - (* PCast *) look env venv He Hbad i E E' H. destruct H as [<- <-]. rewrite trait_align_of, <- sp_align_of.
    destruct (A0 =? sp_align t) eqn:EA; [|exact Hbad]. apply N.eqb_eq in EA. subst A0. specialize (Hm _ _ eq_refl).
    pose proof (Hget _ _ E) as Hs. cbn [promised] in Hs.
    destruct (well_cast h t s0 Hp Hs) as (r & -> & Hr & Hsm & Er); [intros HH; apply Hd; exists s0; tauto|exact Hm|].
    cbn [one bind]. apply agree_new; [exact He|]. apply one_shows. split; auto.
  - (* PTryInto *) look env venv He Hbad i E E' H. destruct H as [<- <-]. rewrite trait_align_of, <- sp_align_of.
    assert (Hn : exists n, sp_size t = Some n) by (cbn [In] in Hp; intuition (subst; eexists; reflexivity)). destruct Hn as [n Hn]. rewrite Hn.
    destruct (A0 =? sp_align t) eqn:EA; [|exact Hbad]. apply N.eqb_eq in EA. subst A0. specialize (Hm _ _ eq_refl).
    pose proof (Hget _ _ E) as Hs. cbn [promised] in Hs.
    assert (Hu : usable (TA t)) by (cbn [In] in Hp; intuition (subst; split; reflexivity)).
    assert (Ha : aligned (sp_align t) s0).
    { destruct Hs as (_ & Ha & _). destruct (s_data s0) as [|x d] eqn:Ed; [|apply Ha; discriminate].
      destruct (N.eq_dec (s_addr s0 mod sp_align t) 0) as [Hz|Hz]; [exact Hz|]. exfalso. apply Hd. exists s0. auto. }
    destruct (try_into_claim h t n s0 Hp Hn Ha) as [H1 H2].
    destruct (len (s_data s0) mod n =? 0) eqn:Ez.
    + apply N.eqb_eq in Ez. rewrite H1 by exact Ez. cbn [opt bind]. apply agree_new; [exact He|]. apply one_shows.
      assert (Hrg : ref_good (TA t) s0).
      { split; [exact Hu|]. split; [exact Ha|]. split; [unfold sp_ref_size; cbn [sp_size]; now rewrite Hn|right; apply Hs]. }
      assert (Hsm : small (TA t) s0) by (right; exact Hm).
      split; [reflexivity|]. split; [exact Hsm|]. rewrite good_read by assumption. apply outcome_ok. split; [|reflexivity].
      cbn [sp_reads]. now rewrite Hn.
    + apply N.eqb_neq in Ez. rewrite H2 by exact Ez. cbn [opt bind]. apply agree_new; [exact He|constructor].
  - (* PAccess *) look env venv He Hbad i E E' H. destruct H as (<- & Hsm & Er). pose proof (Hget _ _ E) as Hr. cbn [promised] in Hr.
    pose proof (access_shows h t0 r0 w0 a Hr Hsm Er Hp) as HA.
    assert (HI : match a with
      | AcIndex k => k < 2 ^ 60
      | AcGet x => forall d, w0 = VVariant (sp_show x) d -> sp_reads x (Some d) = true
      | AcSplit x => forall ts d, w0 = VVariant ts d -> sp_reads x (Some d) = true
      | _ => True
      end).
    { destruct a; auto.
      - intros d ->. now apply (Hm t0 d).
      - intros ts d ->. now apply (Hm t0 ts d). }
    specialize (HA HI). destruct (vaccess (h_big_endian h) t0 w0 a) as [[[x w]|]|c].
    + destruct HA as (q & -> & Hq1 & Hq2). cbn [opt bind fst snd]. apply agree_new; [exact He|]. apply one_shows. split; auto.
    + rewrite HA. cbn [opt bind]. apply agree_new; [exact He|constructor].
    + rewrite HA. now apply agree_crash.
  - (* PSplit *) look env venv He Hbad i E E' H. destruct H as (<- & Hsm & Er). destruct t0; try exact Hbad. cbn [read] in Er.
    destruct (variant_split h r0) as [[ts dat]|]; [|discriminate]. cbn [bind fst snd] in *. apply ok_is in Er. subst w0.
    apply agree_new; [exact He|]. constructor; [split; reflexivity|]. apply one_shows. split; reflexivity.
  - (* PLen *) look env venv He Hbad i E E' H. destruct H as (<- & Hsm & Er). destruct t0 as [| | | | | | | | | | | | |x| | | ]; try exact Hbad.
    pose proof (Hget _ _ E) as Hr. cbn [promised] in Hr.
    assert (Hv : exists vs, w0 = VArray vs).
    { cbn [read] in Er. destruct (array_refs h x r0); [|discriminate]. cbn [bind] in Er. destruct (mapM _ _); [|discriminate]. cbn [bind] in Er.
      apply ok_is in Er. eauto. }
    destruct Hv as [vs ->]. pose proof Hr as (Hu & _). pose proof (usable_item x Hu) as Hux. unfold is_fixed. destruct (size_of x) as [n|] eqn:En.
    + destruct (slice_reads h x n r0 vs Hux En Er) as [Hlen _]. split; cbn [fst snd bind made]; [now rewrite Hlen|now rewrite app_nil_r].
    + assert (Hf : sp_fixed x = false) by (unfold sp_fixed; now rewrite sp_size_of, En). pose proof (good_short _ _ Hr) as Hl.
      destruct (array_elems h x r0 vs Hr Hf Hl Er) as [Hlen _]. change (len (s_data r0)) with (slen r0) in Hl.
      rewrite nfwa_len_ok by (unfold usize_lim; lia). split; cbn [fst snd bind made unit_]; [|now rewrite app_nil_r].
      unfold len. rewrite Hlen, N2Nat.id. reflexivity.
  - (* PIter *) look env venv He Hbad i E E' H. destruct H as (<- & Hsm & Er). destruct t0 as [| | | | | | | | | | | | |x| | | ]; try exact Hbad.
    pose proof (Hget _ _ E) as Hr. cbn [promised] in Hr.
    assert (Hv : exists vs, w0 = VArray vs).
    { cbn [read] in Er. destruct (array_refs h x r0); [|discriminate]. cbn [bind] in Er. destruct (mapM _ _); [|discriminate]. cbn [bind] in Er.
      apply ok_is in Er. eauto. }
    destruct Hv as [vs ->]. rewrite fixed_spec. destruct (is_fixed x) eqn:Ef; [exact Hbad|].
    pose proof Hr as (_ & Ha & _). change (sp_align (TA x)) with (sp_align x) in Ha. rewrite sp_align_of in Ha.
    destruct Hsm as [Hsm|Hsm]; [discriminate Hsm|].
    rewrite nfwa_into_iter_ok by (auto; unfold usize_lim; lia). cbn [one bind]. apply agree_new; [exact He|]. apply one_shows.
    split; [reflexivity|]. exists r0, 0, vs. split; [exact Hr|]. split; [exact Hsm|]. split; [exact Er|]. split; [lia|]. split; reflexivity.
  - (* PNext *) look env venv He Hbad i E E' H. destruct H as (<- & q & j & vs & Hr & Hsm & Er & Hj & -> & ->).
    pose proof (Hget _ _ E) as (Hf & _). rewrite fixed_spec in Hf. pose proof Hr as (Hu & Ha & _). pose proof (usable_item x0 Hu) as Hux.
    change (sp_align (TA x0)) with (sp_align x0) in Ha. rewrite sp_align_of in Ha.
    assert (Hf' : sp_fixed x0 = false) by now rewrite fixed_spec.
    destruct (array_elems h x0 q vs Hr Hf' ltac:(lia) Er) as [Hlen Hnth].
    destruct (N.eq_dec j (arr_n (s_data q))) as [->|Hne].
    + rewrite step_end. rewrite skipn_all2 by lia. cbn [opt bind].
      assert (Hput : Forall2 (shows h) (put env i (ObIter x0 (iter_at q (arr_n (s_data q))))) venv).
      { replace venv with (put venv i (ThIter x0 [])).
        - apply put_shows; [exact He|]. split; [reflexivity|]. exists q, (arr_n (s_data q)), vs. rewrite skipn_all2 by lia.
          split; [exact Hr|]. split; [exact Hsm|]. split; [exact Er|]. split; [lia|]. split; reflexivity.
        - rewrite skipn_all2 in E' by lia. clear -E'. revert i E'. induction venv as [|y venv IH]; intros [|i] E'; cbn [put nth_error] in *; try discriminate; [congruence|].
          f_equal. now apply IH. }
      apply agree_made; [exact Hput|apply put_length|constructor].
    + pose proof (Hnth (N.to_nat j)) as Hj'. destruct (nth_error vs (N.to_nat j)) as [v|] eqn:Ev; [|lia].
      destruct Hj' as (_ & r & Eq & Hq). rewrite N2Nat.id in Eq.
      rewrite step_ok by (try apply Hux; auto; unfold usize_lim; lia). rewrite Eq. cbn [overflows bind opt].
      assert (Esk : skipn (N.to_nat j) vs = v :: skipn (N.to_nat (j + 1)) vs).
      { replace (N.to_nat (j + 1)) with (S (N.to_nat j)) by lia. clear -Ev. revert vs Ev. induction (N.to_nat j) as [|k IH]; intros [|y vs] Ev; cbn [nth_error skipn] in *; try discriminate; [congruence|]. rewrite IH by exact Ev. reflexivity. }
      rewrite Esk. apply agree_made; [apply put_shows; [exact He|]|apply put_length|].
      * split; [reflexivity|]. exists q, (j + 1), vs. split; [exact Hr|]. split; [exact Hsm|]. split; [exact Er|]. split; [lia|]. auto.
      * apply one_shows. split; [reflexivity|]. split; [|exact Hq]. right.
        assert (En : size_of x0 = None) by (unfold is_fixed in Hf; destruct (size_of x0); [discriminate|reflexivity]).
        pose proof (elem_at_safe h x0 q j (proj1 Hux) Ha En) as HS. rewrite Eq in HS. destruct HS as [HS1 HS2].
        pose proof (placed_len h x0 q r HS2 HS1 Hf). lia.
  - (* PRead *) look env venv He Hbad i E E' H. destruct H as (<- & Hsm & Er). rewrite Er. split; [reflexivity|]. cbn [unit_ bind made fst]. now rewrite app_nil_r.
  - (* PDebug *) look env venv He Hbad i E E' H. destruct H as (<- & Hsm & Er). pose proof (Hget _ _ E) as Hr. cbn [promised] in Hr.
    rewrite (fmt_claim h F t0 r0 w0 (good_view h t0 r0 Hr) Er). split; [reflexivity|]. cbn [unit_ bind made fst]. now rewrite app_nil_r.
  - (* PEq *) pose proof (pair_get _ _ _ j He) as HJ. look env venv He Hbad i E E' H; destruct (nth_error env j) as [[A1 s1|v1|b1|A1 [s1|b1]|t1 r1|t1 o1|x1 it1|g1|z1]|] eqn:EJ;
      destruct (nth_error venv j) as [[A1' d1|d1|d1|A1' d1|t1' w1|t1' w1|x1' l1|z1'|z1']|] eqn:EJ'; cbn [shows] in HJ; try contradiction; try exact Hbad.
    destruct H as (<- & Hsm & Er), HJ as (<- & Hsm' & Er'). destruct (ty_eqb t0 t1) eqn:Et; [|exact Hbad]. apply ty_eqb_eq in Et as <-.
    pose proof (Hget _ _ E) as Hr. pose proof (Hget _ _ EJ) as Hr'. cbn [promised] in Hr, Hr'.
    rewrite (eq_claim h t0 r0 r1 w0 w1 (good_view h t0 r0 Hr) (good_view h t0 r1 Hr') Er Er'). split; [reflexivity|]. cbn [unit_ bind made fst]. now rewrite app_nil_r.
  - (* PCmp *) pose proof (pair_get _ _ _ j He) as HJ. look env venv He Hbad i E E' H; try (destruct H as (<- & Hsm & Er); destruct t0 as [| | | | | | | | | | | | | |x| | ]; try exact Hbad);
      destruct (nth_error env j) as [[A1 s1|v1|b1|A1 [s1|b1]|t1 r1|t1 o1|x1 it1|g1|z1]|] eqn:EJ;
      destruct (nth_error venv j) as [[A1' d1|d1|d1|A1' d1|t1' w1|t1' w1|x1' l1|z1'|z1']|] eqn:EJ'; cbn [shows] in HJ; try contradiction; try exact Hbad.
    destruct HJ as (<- & Hsm' & Er'). destruct t1 as [| | | | | | | | | | | | | |x'| | ]; try exact Hbad.
    destruct (ty_eqb x x') eqn:Et; [|exact Hbad]. apply ty_eqb_eq in Et as <-. specialize (Hm x w0 eq_refl).
    pose proof (Hget _ _ E) as Hr. pose proof (Hget _ _ EJ) as Hr'. cbn [promised] in Hr, Hr'.
    rewrite (maybe_cmp_claim h x r0 r1 w0 w1 Hm (good_view h _ r0 Hr) (good_view h _ r1 Hr') Er Er'). split; [reflexivity|]. cbn [unit_ bind made fst]. now rewrite app_nil_r.
  - (* PHash *) look env venv He Hbad i E E' H. destruct H as (<- & Hsm & Er). destruct t0 as [| | | | | | | | | | | | | |x| | ]; try exact Hbad.
    pose proof (Hget _ _ E) as Hr. cbn [promised] in Hr. pose proof (proj1 (ref_good_iff (TM x) r0) Hr) as (H1 & H2 & H3).
    pose proof (access_safe h (TM x) r0 AcOption H1 H2 H3 I) as HA. cbn [run_access] in HA.
    assert (Hv : exists o, w0 = VMaybe o /\ match to_option h x r0 with Ok (Some q) => exists v, o = Some v /\ read h x q = Ok v | Ok None => o = None | _ => False end).
    { cbn [read] in Er. destruct (to_option h x r0) as [[q|]|]; [| |discriminate]; cbn [bind] in Er.
      - destruct (read h x q) as [v|] eqn:Eq; [|discriminate]. cbn [bind] in Er. apply ok_is in Er. subst w0. exists (Some v). eauto.
      - apply ok_is in Er. subst w0. eauto. }
    destruct Hv as (o & -> & Ho). destruct (sp_integer x) eqn:Ei.
    + assert (Hh : maybe_hash h x r0 = Ok (sp_hashed (h_big_endian h) x o)).
      { replace (maybe_hash h x r0) with (let* o := to_option h x r0 in match o with None => Ok [inl 0%Z] | Some r => Ok [inl 1%Z; inr (s_data r)] end)
          by (destruct x; try discriminate; reflexivity).
        destruct (to_option h x r0) as [[q|]|]; [| |contradiction]; cbn [bind] in *.
        - destruct Ho as (v & -> & Hq). destruct HA as (_ & HA & _). now rewrite (integer_bytes h x q v Ei HA Hq).
        - subst o. reflexivity. }
      rewrite Hh. split; [reflexivity|]. cbn [unit_ bind made fst]. now rewrite app_nil_r.
    + replace (maybe_hash h x r0) with (@Crash (list (Z + list byte)) NoCompile) by (destruct x; try discriminate; reflexivity). exact Hbad.
  - (* PToStr *) look env venv He Hbad i E E' H. destruct H as (<- & Hsm & Er).
    destruct t0; try exact Hbad; cbn [read] in Er; apply ok_is in Er; subst w0; (apply agree_new; [exact He|]); now apply one_shows.
  - (* PToOwned *) look env venv He Hbad i E E' H. destruct H as (<- & Hsm & Er). pose proof (Hget _ _ E) as Hr. cbn [promised] in Hr.
    rewrite good_read in Er by assumption. apply outcome_ok in Er as [Er1 Er2]. destruct Hr as (Hu & _ & Hs & _). destruct Hp as [H1 H2].
    destruct (to_owned_owns h t0 r0 a1 a2 Hu Hs Hsm Er1 H1 H2) as (o & -> & Ho). cbn [one bind]. apply agree_new; [exact He|]. apply one_shows.
    split; [reflexivity|]. now rewrite Er2.
  - (* POwnBytes *) look env venv He Hbad i E E' H. destruct H as [<- <-]. specialize (Hm _ _ eq_refl). destruct Hp as (Hu & H1 & H2).
    destruct (bytes_hold h (s_data s0) a1 a2 H1 H2) as (b & -> & Hb). cbn [one bind]. apply agree_new; [exact He|]. apply one_shows.
    split; [reflexivity|]. exists (s_data s0). auto.
  - (* POwnVec *) look env venv He Hbad i E E' H. subst d0. specialize (Hm _ eq_refl). destruct Hp as (Hu & H1). pose proof (Hget _ _ E) as [Hv _].
    destruct (vec_align_spec h v0 a H1 Hv) as (b & Eb & Hb & _). unfold buf_from_vec. rewrite Eb. cbn [one bind]. apply agree_new; [exact He|]. apply one_shows.
    split; [reflexivity|]. exists (v_data v0). auto.
  - (* PBorrow *) look env venv He Hbad i E E' H. destruct H as [<- Ho]. pose proof (Hget _ _ E) as Hg0. destruct o0 as [r|d|b]; cbn [owned_borrow promised owns] in *.
    + cbn [one bind]. apply agree_new; [exact He|]. apply one_shows. split; [reflexivity|exact Ho].
    + destruct Ho as [Hl ->]. cbn [one bind]. apply agree_new; [exact He|]. apply one_shows. split; [reflexivity|]. split; [right; exact Hl|].
      destruct Hg0 as (Ht & _). cbn [In] in Ht. destruct Ht as [<-|[<-|[<-|[]]]]; reflexivity.
    + destruct Ho as (d & Hh & Hw & ->). destruct Hg0 as [Hu Hb]. unfold owned_deref. destruct (deref_slice h b Hb) as (s & Es & Hs & Hs1 & Hs2).
      destruct (buf_ok_holds b Hb) as (_ & _ & Hga & _).
      destruct (buf_deref_ok h b d Hh Hga) as (s' & Es' & Hds & _). rewrite Es in Es'. injection Es' as <-. rewrite Es. cbn [bind].
      rewrite as_aligned_8. cbn [bind]. change (from_aligned_slice h t0 s) with (cast h t0 s).
      assert (HA : is_alignment (sp_align t0)) by (rewrite sp_align_of; apply align_of_alignment). rewrite <- Hds in *.
      destruct (well_cast h t0 s Hu) as (r & -> & Hr & Hsm & Er).
      * apply (slice_ok_le 8); auto using alignment_le8.
      * intros (Hz & Hf & Hmm). apply Hd. exists t0, b. split; [reflexivity|]. apply Hs2 in Hz. split; [exact Hz|]. split; [exact Hf|].
        rewrite (Hs1 Hz) in Hmm. exact Hmm.
      * exact Hw.
      * cbn [one bind]. apply agree_new; [exact He|]. apply one_shows. split; auto.
  - (* PFromBytes *) look env venv He Hbad i E E' H. destruct H as [<- <-]. specialize (Hm _ _ eq_refl). pose proof (Hget _ _ E) as Hs. cbn [promised] in Hs.
    destruct Hp as (Hu & H1 & H2 & H3 & H4). destruct Hs as (_ & _ & Hl).
    unfold from_bytes. rewrite trait_align_of, <- sp_align_of.
    assert (HA : is_alignment (sp_align t)) by (rewrite sp_align_of; apply align_of_alignment).
    destruct (copy_slice h (sp_align t) s0 a1 a2 HA H1 H2 Hl) as (c & Ec & Hc). rewrite Ec. cbn [bind].
    destruct (cow_ref_ok h (sp_align t) c Hc) as (q & Eq & Hq). rewrite Eq. cbn [bind].
    destruct (copy_to_align_ok h (sp_align t) s0 a1 a2 HA H1 H2) as (c' & q' & Ec' & Eq' & Hdq & _ & Hq1 & _).
    rewrite Ec in Ec'. injection Ec' as <-. rewrite Eq in Eq'. injection Eq' as <-. rewrite <- Hdq in *.
    destruct (well_copy h t q a3 a4 Hu Hq H3 H4) as (o & -> & Ho).
    { intros (Hz & Hf & Hmm). apply Hd. exists A0, s0. split; [reflexivity|]. split; [congruence|]. split; [exact Hf|].
      intros Hm'. destruct (Hq1 Hm') as [_ ->]. contradiction. }
    { exact Hm. }
    cbn [one bind]. apply agree_new; [exact He|]. apply one_shows. split; auto.
  - (* PDeser *) look env venv He Hbad i E E' H. subst d0. specialize (Hm _ eq_refl). pose proof (Hget _ _ E) as Hv. cbn [promised] in Hv.
    destruct Hp as (Hu & H2 & H3 & H4). destruct Hv as [Hv Hl].
    unfold deserialize. destruct (vec_align_spec h v0 a2 H2 Hv) as (b & Eb & Hh & Hga).
    unfold buf_from_vec. rewrite Eb. cbn [bind]. pose proof (holds_buf_ok b (v_data v0) Hh Hga Hl) as Hb.
    destruct (deref_slice h b Hb) as (s & Es & Hs & Hs1 & Hs2). rewrite Es. cbn [bind]. rewrite as_aligned_8. cbn [bind].
    assert (HA : is_alignment (sp_align t)) by (rewrite sp_align_of; apply align_of_alignment).
    assert (Hds : s_data s = v_data v0).
    { destruct (buf_deref_ok h b (v_data v0) Hh Hga) as (s' & Es' & Hs' & _). rewrite Es in Es'. injection Es' as <-. exact Hs'. }
    destruct (well_copy h t s a3 a4 Hu) as (o & -> & Ho); auto.
    { apply (slice_ok_le 8); auto using alignment_le8. }
    { intros (Hz & Hf & Hmm). apply Hd. exists v0. split; [reflexivity|].
      assert (Hvz : v_data v0 = []) by congruence.
      split; [exact Hvz|]. split; [exact Hf|].
      assert (Ebv : b = v0).
      { unfold vec_align in Eb. rewrite vec_is_aligned_spec in Eb. unfold vlen in Eb. rewrite Hvz in Eb. cbn in Eb. congruence. }
      subst b. rewrite (Hs1 Hvz) in Hmm. exact Hmm. }
    { now rewrite Hds. }
    cbn [one bind]. apply agree_new; [exact He|]. apply one_shows. split; [reflexivity|]. now rewrite <- Hds.
  - (* PWrite *) destruct Hp as (Hu & Hr & Ha & Hl). unfold written. rewrite (ser_claim h t r None Hu Hr Hm Hl). cbn [sp_deliver k_out].
    apply agree_new; [exact He|]. now apply one_shows.
  - (* PRewrite *) look env venv He Hbad i E E' H. destruct H as (<- & Hsm & Er). destruct Hp as [Ha Hp]. specialize (Hp _ _ w0 eq_refl Er).
    pose proof (Hget _ _ E) as Hr. cbn [promised] in Hr. pose proof Hr as (Hu & _). apply ref_good_iff in Hr as (H1 & H2 & H3).
    pose proof (view_means h t0 H1 r0 H2 H3) as HS. unfold ViewFacts.same in HS. rewrite Er in HS.
    destruct (view_rval h t0 r0) as [w|c']; [|contradiction]. cbn [bind]. destruct HS as (W1 & W2 & W3). unfold written.
    rewrite (ser_claim h t0 w None Hu W1) by (try (rewrite W3; exact Hp); intros z Hz; rewrite W2 in Hz; contradiction). cbn [sp_deliver k_out]. rewrite W3.
    apply agree_new; [exact He|]. now apply one_shows.
  - (* PGNew *) apply agree_new; [exact He|]. apply one_shows. cbn [shows]. split; [reflexivity|]. split; [apply good_nil|].
    cbn [gs_new g_cap]. unfold with_cap. change (blen []) with 0. lia.
  - (* PGTry *) destruct Hp as [Hu Hc]. rewrite sp_nul_free_spec. pose proof (fun g => gi_from s cap c g Hu Hc) as Hi. unfold gs_try_from in *.
    destruct (has_nul s); cbn [negb opt bind]; (apply agree_new; [exact He|]); [constructor|].
    apply one_shows. apply gs_init_ok. now apply Hi.
  - (* PGs *) look env venv He Hbad i E E' H. pose proof (run_gs_op_ok g0 z0' o H Hp) as HR.
    destruct (run_gs_op g0 o) as [g' r'], (plain_gs_op z0' o) as [s' r'']. destruct HR as [-> HR]. split; cbn [fst snd]; [reflexivity|]. now apply put_shows.
  - (* PGStr *) look env venv He Hbad i E E' H. destruct (gs_observe h g0 z0' H) as (-> & _). cbn [one bind]. apply agree_new; [exact He|]. now apply one_shows.
  - (* PGCStr *) look env venv He Hbad i E E' H. destruct (gs_observe h g0 z0' H) as (_ & _ & _ & _ & -> & _). cbn [one bind]. apply agree_new; [exact He|]. now apply one_shows.
  - (* PGDeref *) look env venv He Hbad i E E' H. specialize (Hm _ eq_refl). destruct (gs_observe h g0 z0' H) as (_ & _ & _ & _ & _ & Ed & Et & _).
    apply agree_new; [exact He|]. apply one_shows. split; [reflexivity|]. split.
    + right. unfold slen. cbn [s_data]. rewrite Ed, blen_app, blen_cons, blen_nil. change (len z0') with (blen z0') in Hm. lia.
    + cbn [read s_data]. now rewrite Et.
  - (* PGClone *) look env venv He Hbad i E E' H. apply agree_new; [exact He|]. apply one_shows. now apply clone_holds.
  - (* PGString *) look env venv He Hbad i E E' H. destruct (gs_observe h g0 z0' H) as (_ & _ & _ & -> & _). apply agree_new; [exact He|]. now apply one_shows.
  - (* PStrBytes *) look env venv He Hbad i E E' H. apply agree_new; [exact He|]. apply one_shows. split; [reflexivity|exact H].
  - (* PBufNew *) apply agree_new; [exact He|]. apply one_shows. reflexivity.
  - (* PAsk *) rewrite <- (ask_agree h env venv q He Hg). destruct (ask h env q) as [a|c]; cbn [unit_ bind made]; split; cbn [fst snd]; try reflexivity; [|exact He].
    now rewrite app_nil_r.
Qed.

(** ** Whole programs *)
Lemma replies_agree h ps : forall env venv, Forall2 (shows h) env venv -> Forall (promised h) env -> realistic h env ps -> careful h env ps ->
  all_mild (h_big_endian h) venv ps -> replies h env ps = vreplies (h_big_endian h) venv ps.
Proof.
  induction ps as [|p ps IH]; intros env venv He Hg Hr Hc Hm; cbn [replies vreplies realistic careful all_mild] in *; [reflexivity|].
  destruct Hr as [Hp Hr], Hc as [Hd Hc], Hm as [Hm Hms]. destruct (calls_agree h env venv p He Hg Hp Hd Hm) as [A1 A2].
  pose proof (calls_good h env p Hg Hp Hd) as [G1 G2]. destruct (step h env p) as [env' o]. cbn [fst snd] in *.
  assert (E : replies h env' ps = vreplies (h_big_endian h) (fst (vstep (h_big_endian h) venv p)) ps) by now apply IH.
  rewrite <- A1. destruct o as [c|]; [|now rewrite E]. apply calm_not_ub in G2. destruct c; try congruence.
Qed.
Lemma programs_agree h ps : realistic h [] ps -> careful h [] ps -> all_mild (h_big_endian h) [] ps ->
  replies h [] ps = vreplies (h_big_endian h) [] ps.
Proof. intros. apply replies_agree; auto. Qed.

(** ** Addresses *)
Lemma forget_step big env p : vstep big env (forget p) = vstep big env p.
Proof.
  destruct p as [v|i|i a|i|i m|i|i o|i B|i A a1 a2|i|i t|i t|i a|i|i|i|i|i|i F|i j|i j|i|i|i a1 a2|i t a1 a2|i t a|i
                |i t a1 a2 a3 a4|i t a2 a3 a4|t r a|i a|c|s cap c|i o|i|i|i a|i c1|i|i a| |q]; try reflexivity; cbn [forget vstep].
  - destruct (nth_error env i) as [[]|]; try reflexivity. destruct m as [o| |]; try reflexivity. destruct o; reflexivity.
  - destruct (nth_error env i) as [[]|]; try reflexivity. destruct o; reflexivity.
Qed.
Lemma forget_mild env p : mild env (forget p) = mild env p.
Proof. destruct p; reflexivity. Qed.
Lemma forget_replies big ps : forall env, vreplies big env (map forget ps) = vreplies big env ps.
Proof.
  induction ps as [|p ps IH]; intros env; cbn [map vreplies]; [reflexivity|]. rewrite forget_step. now rewrite IH.
Qed.
Lemma forget_all big ps : forall env, all_mild big env (map forget ps) <-> all_mild big env ps.
Proof.
  induction ps as [|p ps IH]; intros env; cbn [map all_mild]; [tauto|]. rewrite forget_step, forget_mild, IH. tauto.
Qed.
Lemma addresses_forgotten h h' ps ps' : h_big_endian h = h_big_endian h' -> map forget ps = map forget ps' ->
  realistic h [] ps -> careful h [] ps -> realistic h' [] ps' -> careful h' [] ps' -> all_mild (h_big_endian h) [] ps ->
  replies h [] ps = replies h' [] ps'.
Proof.
  intros Eb Ep R C R' C' Hm. rewrite (programs_agree h ps) by assumption.
  pose proof (proj2 (forget_all _ _ _) Hm) as Hf. rewrite Ep, Eb in Hf. pose proof (proj1 (forget_all _ _ _) Hf) as Hm'. rewrite (programs_agree h' ps') by assumption.
  rewrite <- forget_replies, Ep, forget_replies, Eb. reflexivity.
Qed.

(** ** Panics *)
Lemma vask_panics env q c : vask env q = Crash c -> c = PIndex \/ c = NoCompile.
Proof.
  destruct q as [i k|i j|i|i n|i j|i j|i]; cbn [vask];
    (destruct (nth_error env i) as [[A0 d0|d0|d0|A0 d0|t0 w0|t0 w0|x0 l0|z0|z0]|]; try discriminate; try (intros H; injection H as <-; now right)).
  - destruct (k <? len d0); [discriminate|]. intros H; injection H as <-; now left.
  - destruct (nth_error env j) as [[A1 d1|d1|d1|A1 d1|t1 w1|t1 w1|x1 l1|z1|z1]|]; try (intros H; injection H as <-; now right).
    destruct (A0 =? A1); [discriminate|]. intros H; injection H as <-; now right.
  - destruct (vrhs env t0 n); [discriminate|]. intros H; injection H as <-; now right.
  - destruct (nth_error env j) as [[A1 d1|d1|d1|A1 d1|t1 w1|t1 w1|x1 l1|z1|z1]|]; try discriminate; (intros H; injection H as <-; now right).
  - destruct (nth_error env j) as [[A1 d1|d1|d1|A1 d1|t1 w1|t1 w1|x1 l1|z1|z1]|]; try discriminate; (intros H; injection H as <-; now right).
Qed.
Lemma vstep_panics big env p c : snd (vstep big env p) = Crash c -> c = PIndex \/ c = NoCompile.
Proof.
  destruct p as [v|i|i a|i|i m|i|i o|i B|i A a1 a2|i|i t|i t|i a|i|i|i|i|i|i F|i j|i j|i|i|i a1 a2|i t a1 a2|i t a|i
                |i t a1 a2 a3 a4|i t a2 a3 a4|t r a|i a|c0|s cap c0|i o|i|i|i a|i c1|i|i a| |q]; cbn [vstep vnew snd]; try discriminate;
    try (destruct (vask env q) as [a|c'] eqn:Eq; cbn [bind]; [discriminate|]; intros H; injection H as <-; now apply (vask_panics env q));
    destruct (nth_error env i) as [[A0 d0|d0|d0|A0 d0|t0 w0|t0 w0|x0 l0|z0|z0]|]; cbn [snd vnew]; try discriminate;
    try (intros H; injection H as <-; now right).
  - destruct (plain_mut_op big d0 m); cbn [snd]; [discriminate|]. intros H; injection H as <-; now left.
  - destruct (sp_range (len d0) o) as [b e]. destruct (_ && _); cbn [snd vnew]; [discriminate|]. intros H; injection H as <-; now left.
  - destruct (A0 =? 1); cbn [snd vnew]; [discriminate|]. intros H; injection H as <-; now right.
  - destruct (A0 =? sp_align t); cbn [snd vnew]; [discriminate|]. intros H; injection H as <-; now right.
  - destruct (sp_size t); [|intros H; injection H as <-; now right].
    destruct (A0 =? sp_align t); cbn [snd vnew]; [discriminate|]. intros H; injection H as <-; now right.
  - assert (Hv : forall c, vaccess big t0 w0 a = Crash c -> c = PIndex).
    { intros c' H. destruct t0; try discriminate H; destruct w0; try discriminate H; destruct a; try discriminate H.
      cbn [vaccess] in H. destruct (nth_error _ _) in H; [discriminate|]. congruence. }
    destruct (vaccess big t0 w0 a) as [[[x w]|]|c']; cbn [snd vnew]; try discriminate. intros H; injection H as <-. left. now apply Hv.
  - destruct t0; try (intros H; injection H as <-; now right). destruct w0; try (intros H; injection H as <-; now right). discriminate.
  - destruct t0; try (intros H; injection H as <-; now right). destruct w0; try (intros H; injection H as <-; now right). discriminate.
  - destruct t0; try (intros H; injection H as <-; now right). destruct w0; try (intros H; injection H as <-; now right).
    destruct (sp_fixed t0); cbn [snd vnew]; [intros H; injection H as <-; now right|discriminate].
  - destruct l0; cbn [snd vnew]; discriminate.
  - destruct (nth_error env j) as [[A1 d1|d1|d1|A1 d1|t1 w1|t1 w1|x1 l1|z1|z1]|]; try (intros H; injection H as <-; now right).
    destruct (ty_eqb t0 t1); cbn [snd]; [discriminate|]. intros H; injection H as <-; now right.
  - destruct t0; try (intros H; injection H as <-; now right).
    destruct (nth_error env j) as [[A1 d1|d1|d1|A1 d1|t1 w1|t1 w1|x1 l1|z1|z1]|]; try (intros H; injection H as <-; now right).
    destruct t1; try (intros H; injection H as <-; now right).
    destruct (ty_eqb t0 t1); cbn [snd]; [discriminate|]. intros H; injection H as <-; now right.
  - destruct t0; try (intros H; injection H as <-; now right). destruct w0; try (intros H; injection H as <-; now right).
    destruct (sp_integer t0); cbn [snd]; [discriminate|]. intros H; injection H as <-; now right.
  - destruct t0; try (intros H; injection H as <-; now right); (destruct w0; try (intros H; injection H as <-; now right); discriminate).
  - destruct (plain_gs_op z0 o); cbn [snd]. discriminate.
Qed.
Lemma vreplies_panics big c ps : forall env, In (Crash c) (vreplies big env ps) -> c = PIndex \/ c = NoCompile.
Proof.
  induction ps as [|p ps IH]; intros env; cbn [vreplies In]; [tauto|]. intros [H|H]; [now apply (vstep_panics big env p)|eapply IH; eauto].
Qed.
Lemma replies_panics h c ps : realistic h [] ps -> careful h [] ps -> all_mild (h_big_endian h) [] ps ->
  In (Crash c) (replies h [] ps) -> c = PIndex \/ c = NoCompile.
Proof. intros R C M. rewrite programs_agree by assumption. apply vreplies_panics. Qed.
