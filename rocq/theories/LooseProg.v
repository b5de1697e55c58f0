(** Programs that are not careful: what they are told does not depend on where things
    are, up to the first reference that is not aligned. *)
From Verif Require Import Base Types Layout AlignedBytes Strs Spec Deser Buf Histories Ser SerSpec Cmp CmpSpec Fmt FmtSpec Mut MutSpec OwnSpec Iter IterSpec
  Programs ProgSpec ValSpec LazySpec Offsets
  BaseFacts TypesFacts LayoutFacts AlignedFacts Utf8Facts DeserFacts ArrayFacts StructFacts ReadFacts AccessFacts ReadClaims EqFacts CmpFacts StrFacts
  EncFacts RoundFacts SerMain SerClaims MutFacts EmptyFacts OwnClaims IterFacts ViewFacts FmtFacts MoveFacts ProgFacts ValFacts ValMain LazyFacts LazyMain
  BuildProg LooseSpec LooseFacts.
From Coq Require Import Lia ZifyBool ZifyNat ZifyN.
Ltac Zify.zify_post_hook ::= idtac.

(** ** The same objects, all at address 0 *)
Definition flat (s : slice) : slice := Slice 0 (s_data s).
Definition flat_iter (it : nfwa_iter) : nfwa_iter :=
  NfwaIter (flat (it_data it)) (it_offsets it) (it_next_start it) (it_offset_idx it) (it_osz it).
Definition flat_owned (o : owned) : owned :=
  match o with OBuf b => match v_data b with [] => OBuf (Vec 0 []) | _ => OBuf b end | _ => o end.
Definition straight (o : obj) : obj :=
  match o with
  | ObSlice A s => ObSlice A (flat s)
  | ObView t r => ObView t (flat r)
  | ObIter x it => ObIter x (flat_iter it)
  | ObOwned t o => ObOwned t (flat_owned o)
  | _ => o
  end.
Lemma flat_like s : like (flat s) s. Proof. reflexivity. Qed.
Lemma like_flat s : like s (flat s). Proof. reflexivity. Qed.
Lemma like_same s q : like s q -> flat s = flat q.
Proof. unfold like, flat. now intros ->. Qed.
Lemma iter_same a b : iter_like a b -> flat_iter a = flat_iter b.
Proof. intros (H1 & H2 & H3 & H4 & H5). unfold flat_iter. rewrite H2, H3, H4, H5. now rewrite (like_same _ _ H1). Qed.
Lemma iter_flat it : iter_like it (flat_iter it).
Proof. now repeat split. Qed.
Lemma flat_iter_id it : s_addr (it_data it) = 0 -> flat_iter it = it.
Proof. destruct it as [[ad d] o n i z]. cbn. now intros ->. Qed.
Lemma straight_face o : face (straight o) = face o.
Proof. now destruct o. Qed.
Lemma straight_twice o : straight (straight o) = straight o.
Proof.
  destruct o as [A s|v|b|A c|t r|t [r|d|b]|x it|g|s]; try reflexivity. cbn [straight flat_owned].
  destruct (v_data b) eqn:E; cbn [flat_owned]; [reflexivity|]. now rewrite E.
Qed.
Lemma same_faces os os' : map straight os = map straight os' -> map face os = map face os'.
Proof.
  revert os'. induction os as [|o os IH]; intros [|o' os'] H; try discriminate; [reflexivity|]. cbn [map] in *. injection H as H1 H2.
  rewrite <- (straight_face o), <- (straight_face o'), H1. f_equal. now apply IH.
Qed.
Lemma after_like h x : forall n a b, iter_like a b -> iter_like (after h x n a) (after h x n b).
Proof. induction n as [|n IH]; intros a b H; cbn [after]; [exact H|]. apply IH. now apply lo_step. Qed.
Lemma after_data h x : forall n a, it_data (after h x n a) = it_data a.
Proof.
  induction n as [|n IH]; intros a; cbn [after]; [reflexivity|]. rewrite IH. unfold nfwa_step. destruct (_ <=? _); [reflexivity|].
  match goal with |- context [match ?m with Ok _ => _ | Crash _ => _ end] => destruct m as [[[st e] idx]|c] end; reflexivity.
Qed.
Lemma flat_good t r : ref_good t r -> ref_good t (flat r).
Proof. intros (H1 & _ & H3 & H4). split; [exact H1|]. split; [reflexivity|]. split; [exact H3|exact H4]. Qed.
Lemma flat_buf : buf_ok (Vec 0 []).
Proof. split; [reflexivity|]. exists [], []. repeat split; try reflexivity; congruence. Qed.
Lemma flat_iter_at s j : flat_iter (iter_at s j) = iter_at (flat s) j.
Proof. reflexivity. Qed.
Lemma promised_straight h o : promised h o -> promised h (straight o).
Proof.
  destruct o as [A s|v|b|A c|t r|t [r|d|b]|x it|g|s]; try exact (fun H => H); cbn [straight].
  - intros (H1 & _ & H3). split; [exact H1|]. split; [reflexivity|exact H3].
  - apply flat_good.
  - cbn [flat_owned]. destruct (v_data b) eqn:E; [|auto]. intros [Hu _]. split; [exact Hu|apply flat_buf].
  - cbn [promised]. intros (Hf & s & it0 & n & Hs & E0 & ->). split; [exact Hf|]. pose proof (flat_good _ _ Hs) as Hs'.
    assert (EI : forall q, ref_good (TA x) q -> nfwa_into_iter h x q = Ok (iter_at q 0)).
    { intros q (Hu & Ha & _ & Hl). change (sp_align (TA x)) with (sp_align x) in Ha. rewrite sp_align_of in Ha.
      destruct Hl as [Hl|Hl]; [unfold sp_fixed in Hl; discriminate|]. apply nfwa_into_iter_ok; auto. unfold usize_lim, slen. change (blen (s_data q)) with (len (s_data q)). lia. }
    rewrite (EI s Hs) in E0. injection E0 as <-. exists (flat s), (iter_at (flat s) 0), n. split; [exact Hs'|]. split; [now apply EI|].
    rewrite (iter_same _ _ (after_like h x n (iter_at s 0) (iter_at (flat s) 0) (iter_flat _))).
    apply flat_iter_id. now rewrite after_data.
Qed.
Lemma lshows_straight h o th : lshows h o th -> sp_fixed (match o with ObIter x _ => x | _ => TS end) = false -> lshows h (straight o) th.
Proof.
  destruct o as [A s|v|b|A c|t r|t [r|d|b]|x it|g|s]; try exact (fun H _ => H); cbn [straight].
  - destruct th; cbn [lshows flat_owned]; try tauto. intros [Ht (d & Hh & Hl & He)] _. split; [exact Ht|]. destruct (v_data b) eqn:E; cbn [lowns]; exists d; [|auto].
    split; [|auto]. destruct d as [|y d]; [reflexivity|]. cbn [holds] in Hh. destruct Hh as (junk & Hj & _). rewrite E in Hj. destruct junk; discriminate.
  - destruct th; cbn [lshows]; try tauto. intros (<- & s & j & Hr & Hl & Hj & -> & ->) Hf. split; [reflexivity|]. exists (flat s), j.
    split; [now apply flat_good|]. split; [exact Hl|]. split; [exact Hj|]. split; [reflexivity|].
    rewrite fixed_spec in Hf. assert (En : size_of x = None) by (unfold is_fixed in Hf; destruct (size_of x); [discriminate|reflexivity]).
    apply map_ext. intros i. pose proof Hr as (Hu & Ha & _). pose proof (usable_item x Hu) as Hux. change (sp_align (TA x)) with (sp_align x) in Ha. rewrite sp_align_of in Ha.
    rewrite (proj1 (lz_elem h x s i (proj1 Hux) Ha En Hl)), (proj1 (lz_elem h x (flat s) i (proj1 Hux) (eq_refl : aligned (align_of x) (flat s)) En Hl)). reflexivity.
Qed.

(** ** One call here and there *)
Section Sim.
  Context (h : host) (env : list obj).
  Let env' := map straight env.
  Definition sim (p p' : list obj * option crash) (m m' : res (list answer)) : Prop :=
    (exists c, m = Crash c /\ misaligned_crash h c) \/ (exists c, m' = Crash c /\ misaligned_crash h c) \/
    (m = m' /\ map straight (fst p) = map straight (fst p')).
  Definition akin (os os' : list obj) : Prop := map straight os = map straight os'.
  Lemma akin_env : akin env env'.
  Proof. unfold akin, env'. rewrite map_map. apply map_ext. intros. now rewrite straight_twice. Qed.
  Lemma akin_put e e' i o o' : akin e e' -> straight o = straight o' -> akin (put e i o) (put e' i o').
  Proof.
    unfold akin. revert e' i. induction e as [|x e IH]; intros [|x' e'] [|i] H Ho; try discriminate; cbn [put map] in *; try congruence.
    injection H as H1 H2. rewrite H1. f_equal. now apply IH.
  Qed.
  Lemma akin_len e e' : akin e e' -> length e = length e'.
  Proof. unfold akin. intros H. apply (f_equal (@length obj)) in H. now rewrite !map_length in H. Qed.
  Lemma sim_made_in e e' m n : akin e e' -> length e = length env -> lo h akin m n ->
    sim (made e m) (made e' n) (said env (made e m)) (said env' (made e' n)).
  Proof.
    intros He Hl H. pose proof (akin_len _ _ He) as HL. assert (HL' : length env' = length env) by apply map_length.
    destruct H as [(c & -> & Hc)|[(c & -> & Hc)|H]].
    - left. exists c. now split.
    - right. left. exists c. now split.
    - right. right. destruct m as [os|c], n as [os'|c']; cbn [ViewFacts.same] in H; try contradiction; cbn [made said fst]; [|subst; now split].
      split; [|unfold akin in *; rewrite !map_app; congruence]. f_equal.
      rewrite !skipn_app, (skipn_all2 e), (skipn_all2 e') by lia. replace (length env - length e)%nat with 0%nat by lia. replace (length env' - length e')%nat with 0%nat by lia.
      cbn [skipn app]. now apply same_faces.
  Qed.
  Lemma sim_made m n : lo h akin m n -> sim (made env m) (made env' n) (said env (made env m)) (said env' (made env' n)).
  Proof. intros H. apply sim_made_in; auto using akin_env. Qed.
  Lemma sim_eq m : sim (made env m) (made env' m) (said env (made env m)) (said env' (made env' m)).
  Proof. apply sim_made. now apply lo_refl. Qed.
  Lemma sim_say {A} (f : A -> answer) m n : lo h eq m n ->
    sim (made env (unit_ m)) (made env' (unit_ n)) (let* a := m in Ok [f a]) (let* a := n in Ok [f a]).
  Proof.
    intros [(c & -> & Hc)|[(c & -> & Hc)|H]]; [left; exists c; now split|right; left; exists c; now split|right; right].
    destruct m as [a|c], n as [a'|c']; cbn [ViewFacts.same] in H; try contradiction; subst; (split; [reflexivity|]).
    - cbn [unit_ bind made fst]. rewrite !app_nil_r. apply akin_env.
    - cbn [unit_ bind made fst]. apply akin_env.
  Qed.
  Lemma sim_bad c : sim (env, Some c) (env', Some c) (Crash c) (Crash c).
  Proof. right. right. split; [reflexivity|apply akin_env]. Qed.
  Lemma lo_one {A} (R : A -> A -> Prop) (f : A -> obj) m n : (forall a b, R a b -> straight (f a) = straight (f b)) -> lo h R m n -> lo h akin (one f m) (one f n).
  Proof. intros Hf H. eapply lo_bind; [exact H|]. intros a b Hab. apply lo_ok. unfold akin. cbn [map]. now rewrite (Hf a b Hab). Qed.
  Lemma lo_opt (f : slice -> obj) m n : (forall a b, like a b -> straight (f a) = straight (f b)) -> lo h opt_like m n -> lo h akin (opt f m) (opt f n).
  Proof.
    intros Hf H. eapply lo_bind; [exact H|]. intros [a|] [b|] Hab; cbn in Hab; try contradiction; apply lo_ok; unfold akin; cbn [map]; [|reflexivity].
    now rewrite (Hf a b Hab).
  Qed.
  Lemma get_straight i : nth_error env' i = option_map straight (nth_error env i).
  Proof. apply nth_error_map. Qed.
  Definition opt_nlike (a b : option native) : Prop := match a, b with Some x, Some y => nlike x y | None, None => True | _, _ => False end.
  Lemma rhs_like : forall n t, opt_nlike (rhs_native env t n) (rhs_native env' t n).
  Proof.
    induction n as [j|b|d|j|l IH|o] using rhs_ind'; intros t.
    - cbn [rhs_native]. rewrite get_straight. destruct (nth_error env j) as [[A1 s1|v1|b1|A1 c1|t1 r1|t1 o1|x1 it1|g1|z1]|]; cbn [option_map straight]; try exact I.
      destruct (ty_eqb t t1); [|exact I]. constructor. apply like_flat.
    - destruct t; try exact I. constructor.
    - destruct t; try exact I; constructor.
    - cbn [rhs_native]. rewrite get_straight. destruct t; try exact I;
      (destruct (nth_error env j) as [[A1 s1|v1|b1|A1 c1|t1 r1|t1 o1|x1 it1|g1|z1]|]; cbn [option_map straight]; try exact I; constructor).
    - destruct t as [| | | | | | | | | | | | |x| | | ]; try exact I. rewrite !rhs_seq.
      assert (G : match rhs_natives env x l, rhs_natives env' x l with Some ms, Some ns => Forall2 nlike ms ns | None, None => True | _, _ => False end).
      { induction IH as [|n l Hn HF IHl]; cbn [rhs_natives]; [constructor|]. specialize (Hn x). unfold opt_nlike in Hn.
        destruct (rhs_native env x n), (rhs_native env' x n); try contradiction; [|exact I].
        destruct (rhs_natives env x l), (rhs_natives env' x l); try contradiction; [|exact I]. now constructor. }
      destruct (rhs_natives env x l), (rhs_natives env' x l); try contradiction; [|exact I]. now constructor.
    - destruct t as [| | | | | | | | | | | | | |x| | ]; try exact I. cbn [rhs_native]. destruct (is_fixed x); [|exact I]. destruct o as [j|]; [|now constructor].
      rewrite get_straight. destruct (nth_error env j) as [[A1 s1|v1|b1|A1 c1|t1 r1|t1 o1|x1 it1|g1|z1]|]; cbn [option_map straight]; try exact I.
      destruct (ty_eqb x t1); [|exact I]. constructor. apply like_flat.
  Qed.
  Lemma lo_ask q : lo h eq (ask h env q) (ask h env' q).
  Proof.
    destruct q as [i k|i j|i|i n|i j|i j|i]; cbn [ask]; rewrite ?get_straight.
    - destruct (nth_error env i) as [[A1 s1|v1|b1|A1 c1|t1 r1|t1 o1|x1 it1|g1|z1]|]; cbn [option_map straight]; apply lo_eq.
    - destruct (nth_error env i) as [[A1 s1|v1|b1|A1 c1|t1 r1|t1 o1|x1 it1|g1|z1]|]; cbn [option_map straight]; try apply lo_eq.
      destruct (nth_error env j) as [[A2 s2|v2|b2|A2 c2|t2 r2|t2 o2|x2 it2|g2|z2]|]; cbn [option_map straight]; apply lo_eq.
    - destruct (nth_error env i) as [[A1 s1|v1|b1|A1 c1|t1 r1|t1 o1|x1 it1|g1|z1]|]; cbn [option_map straight]; apply lo_eq.
    - destruct (nth_error env i) as [[A1 s1|v1|b1|A1 c1|t1 r1|t1 o1|x1 it1|g1|z1]|]; cbn [option_map straight]; try apply lo_eq.
      pose proof (rhs_like n t1) as Hn. unfold opt_nlike in Hn. destruct (rhs_native env t1 n), (rhs_native env' t1 n); try contradiction; [|apply lo_eq].
      apply (lo_bind h eq); [|intros ? ? <-; apply lo_eq]. apply lo_native; [exact Hn|apply like_flat].
    - destruct (nth_error env i) as [[A1 s1|v1|b1|A1 c1|t1 r1|t1 o1|x1 it1|g1|z1]|]; cbn [option_map straight]; try apply lo_eq.
      destruct (nth_error env j) as [[A2 s2|v2|b2|A2 c2|t2 r2|t2 o2|x2 it2|g2|z2]|]; cbn [option_map straight]; apply lo_eq.
    - destruct (nth_error env i) as [[A1 s1|v1|b1|A1 c1|t1 r1|t1 o1|x1 it1|g1|z1]|]; cbn [option_map straight]; try apply lo_eq.
      destruct (nth_error env j) as [[A2 s2|v2|b2|A2 c2|t2 r2|t2 o2|x2 it2|g2|z2]|]; cbn [option_map straight]; apply lo_eq.
    - destruct (nth_error env i) as [[A1 s1|v1|b1|A1 c1|t1 r1|t1 o1|x1 it1|g1|z1]|]; cbn [option_map straight]; apply lo_eq.
  Qed.
  Lemma copy_ref A s a1 a2 : is_alignment A -> near a1 -> near a2 ->
    exists c q, copy_to_align h A s a1 a2 = Ok c /\ cow_as_ref h A c = Ok q /\ like q s.
  Proof. intros HA H1 H2. destruct (copy_to_align_ok h A s a1 a2 HA H1 H2) as (c & q & Ec & Eq & Hd & _). exists c, q. auto. Qed.
  Lemma deref_empty b : v_data b = [] -> exists q, buf_deref h b = Ok q /\ s_data q = [].
  Proof.
    intros E. unfold buf_deref, offset_to_align, vlen. rewrite E. cbn [blen length N.of_nat N.eqb bind].
    rewrite sl_from_ok by (unfold slen; cbn; lia). cbn [bind]. unfold unchecked. eexists. rewrite Bool.andb_comm. split; reflexivity.
  Qed.
  Ltac slook i :=
    rewrite ?get_straight; destruct (nth_error env i) as [[A0 s0|v0|b0|A0 c0|t0 r0|t0 o0|x0 it0|g0|z0]|]; cbn [option_map straight]; try apply sim_bad.
  Ltac clook j :=
    rewrite ?get_straight; destruct (nth_error env j) as [[A1 s1|v1|b1|A1 c1|t1 r1|t1 o1|x1 it1|g1|z1]|]; cbn [option_map straight]; try apply sim_bad.
  Lemma calls_sim p : possible h env p -> match p with PCopyAlign _ _ _ _ => False | _ => True end ->
    sim (step h env p) (step h env' p) (reply h env p) (reply h env' p).
  Proof.
    intros Hp Hn.
    destruct p as [v|i|i a|i|i m|i|i o|i B|i A a1 a2|i|i t|i t|i a|i|i|i|i|i|i F|i j|i j|i|i|i a1 a2|i t a1 a2|i t a|i
                |i t a1 a2 a3 a4|i t a2 a3 a4|t r a|i a|c|s cap c|i o|i|i|i a|i c1|i|i a| |q];
    match goal with |- sim _ _ ?m ?n => let m' := eval cbn [reply] in m in let n' := eval cbn [reply] in n in change m with m'; change n with n' end;
    try match goal with |- sim (step h env ?p) (step h env' ?p) (match _ with _ => _ end) (match _ with _ => _ end) =>
       change (match step h env p with (e, None) => Ok (map face (skipn (length env) e)) | (_, Some c) => Crash c end) with (said env (step h env p));
       change (match step h env' p with (e, None) => Ok (map face (skipn (length env') e)) | (_, Some c) => Crash c end) with (said env' (step h env' p)) end;
    cbn [step possible] in *.
    - (* PVec *) apply sim_eq.
    - (* PBytes *) slook i. apply sim_eq.
    - (* PFromVec *) slook i. apply sim_eq.
    - (* PIntoVec *) slook i. apply sim_eq.
    - (* PMut *) slook i. destruct (run_mut_op h b0 m); [|apply sim_bad]. right. right. cbn [said fst].
      rewrite !skipn_all2 by (rewrite put_length; lia). split; [reflexivity|]. apply akin_put; [apply akin_env|reflexivity].
    - (* PDeref *) slook i. apply sim_eq.
    - (* PSlice *) slook i. apply sim_made. apply (lo_one like); [|now apply lo_op]. intros a b Hab. cbn [straight]. now rewrite (like_same _ _ Hab).
    - (* PTry *) slook i. rewrite !try_as_aligned_always. apply sim_made, lo_ok. reflexivity.
    - contradiction.
    - (* PCowRef *) slook i. apply sim_eq.
    - (* PCast *) slook i. destruct (A0 =? trait_align t); [|apply sim_bad]. apply sim_made. apply (lo_one like); [|now apply lo_cast].
      intros a b Hab. cbn [straight]. now rewrite (like_same _ _ Hab).
    - (* PTryInto *) slook i. destruct (A0 =? trait_align t); [|apply sim_bad]. apply sim_made. apply lo_opt; [|now apply lo_try_into].
      intros a b Hab. cbn [straight]. now rewrite (like_same _ _ Hab).
    - (* PAccess *) slook i. apply sim_made. eapply lo_bind; [apply (lo_access h t0 r0 (flat r0) a), like_flat|].
      intros [[x w]|] [[x' w']|] Hab; cbn in Hab; try contradiction; apply lo_ok; [|reflexivity]. destruct Hab as [-> Hab]. unfold akin. cbn [map straight fst snd].
      now rewrite (like_same _ _ Hab).
    - (* PSplit *) slook i. destruct t0; try apply sim_bad. apply sim_made. eapply lo_bind; [apply (lo_split h r0 (flat r0)), like_flat|].
      intros a b [H1 H2]. apply lo_ok. unfold akin. cbn [map straight]. now rewrite (like_same _ _ H1), (like_same _ _ H2).
    - (* PLen *) slook i. destruct t0 as [| | | | | | | | | | | | |x| | | ]; try apply sim_bad. rewrite <- (lo_len h _ _ (like_flat r0)).
      change (slen (flat r0)) with (slen r0). unfold is_fixed. destruct (size_of x).
      + right. right. split; [reflexivity|]. cbn [made fst]. rewrite !app_nil_r. apply akin_env.
      + apply sim_say, lo_eq.
    - (* PIter *) slook i. destruct t0 as [| | | | | | | | | | | | |x| | | ]; try apply sim_bad. destruct (is_fixed x); [apply sim_bad|].
      apply sim_made. apply (lo_one iter_like); [|now apply lo_into_iter]. intros a b Hab. cbn [straight]. now rewrite (iter_same _ _ Hab).
    - (* PNext *) slook i. destruct (lo_step h x0 it0 (flat_iter it0) (iter_flat it0)) as [H1 H2].
      destruct (nfwa_step h x0 it0) as [it1 m1], (nfwa_step h x0 (flat_iter it0)) as [it2 m2]. cbn [fst snd] in *.
      apply sim_made_in; [apply akin_put; [apply akin_env|]|apply put_length|].
      + cbn [straight]. now rewrite (iter_same _ _ H2).
      + apply lo_opt; [|exact H1]. intros a b Hab. cbn [straight]. now rewrite (like_same _ _ Hab).
    - (* PRead *) slook i. apply sim_say. now apply lo_read.
    - (* PDebug *) slook i. apply sim_say. now apply lo_debug.
    - (* PEq *) slook i; clook j. destruct (ty_eqb t0 t1); [|apply sim_bad]. apply sim_say. now apply lo_gv_eq.
    - (* PCmp *) slook i; try (destruct t0 as [| | | | | | | | | | | | | |x| | ]; try apply sim_bad). clook j.
      destruct t1 as [| | | | | | | | | | | | | |x'| | ]; try apply sim_bad. destruct (ty_eqb x x'); [|apply sim_bad]. apply sim_say. now apply lo_cmp.
    - (* PHash *) slook i. destruct t0 as [| | | | | | | | | | | | | |x| | ]; try apply sim_bad. apply sim_say. now apply lo_hash.
    - (* PToStr *) slook i. destruct t0; try apply sim_bad; apply sim_eq.
    - (* PToOwned *) slook i. rewrite (own_like h t0 (flat r0) r0 a1 a2 (flat_like r0)). apply sim_eq.
    - (* POwnBytes *) slook i. apply sim_eq.
    - (* POwnVec *) slook i. apply sim_eq.
    - (* PBorrow *) slook i. apply sim_made. apply (lo_one like); [intros a b Hab; cbn [straight]; now rewrite (like_same _ _ Hab)|].
      destruct o0 as [r|d|b]; cbn [flat_owned]; try (apply lo_refl, like_refl).
      destruct (v_data b) eqn:E; [|apply lo_refl, like_refl]. cbn [owned_borrow]. unfold owned_deref.
      destruct (deref_empty b E) as (q & -> & Hq), (deref_empty (Vec 0 []) eq_refl) as (q' & -> & Hq'). cbn [bind]. rewrite !as_aligned_8. cbn [bind].
      apply lo_cast. unfold like. congruence.
    - (* PFromBytes *) slook i. destruct Hp as (Hu & H1 & H2 & H3 & H4). apply sim_made. apply (lo_one eq); [now intros ? ? <-|]. unfold from_bytes.
      assert (HA : is_alignment (trait_align t)) by (rewrite trait_align_of; apply align_of_alignment).
      destruct (copy_ref (trait_align t) s0 a1 a2 HA H1 H2) as (c & q & -> & Eq & Hq), (copy_ref (trait_align t) (flat s0) a1 a2 HA H1 H2) as (c' & q' & -> & Eq' & Hq').
      cbn [bind]. rewrite Eq, Eq'. cbn [bind]. apply lo_cast_own. unfold like in *. now rewrite Hq, Hq'.
    - (* PDeser *) slook i. apply sim_eq.
    - (* PWrite *) apply sim_eq.
    - (* PRewrite *) slook i. apply sim_made. eapply lo_bind; [now apply (lo_view h t0 r0 (flat r0))|]. intros v ? <-. now apply lo_refl.
    - (* PGNew *) apply sim_eq.
    - (* PGTry *) apply sim_eq.
    - (* PGs *) slook i. right. right. split; [reflexivity|]. apply akin_put; [apply akin_env|reflexivity].
    - (* PGStr *) slook i. apply sim_eq.
    - (* PGCStr *) slook i. apply sim_eq.
    - (* PGDeref *) slook i. apply sim_eq.
    - (* PGClone *) slook i. apply sim_eq.
    - (* PGString *) slook i. apply sim_eq.
    - (* PStrBytes *) slook i. apply sim_eq.
    - (* PBufNew *) apply sim_eq.
    - (* PAsk *) apply (sim_say (fun a => a)). apply lo_ask.
  Qed.
End Sim.

(** ** One call and the machine *)
Lemma straight_all h env venv : Forall (promised h) env -> Forall2 (lshows h) env venv ->
  Forall (promised h) (map straight env) /\ Forall2 (lshows h) (map straight env) venv.
Proof.
  intros Hg He. split.
  - apply Forall_map. eapply Forall_impl; [|exact Hg]. intros. now apply promised_straight.
  - induction He as [|o th env venv Ho _ IH]; cbn [map]; inversion Hg as [|? ? Hp Hg']; subst; constructor; [|now apply IH].
    apply lshows_straight; [exact Ho|]. destruct o; try reflexivity. exact (proj1 Hp).
Qed.
Definition plain_crash (c : crash) : Prop := c = PIndex \/ c = PUnwrap \/ c = NoCompile.
Lemma plain_not h c : plain_crash c -> misaligned_crash h c -> False.
Proof. intros [->|[->| ->]] [H|[H _]]; discriminate. Qed.
Lemma ltouch_plain x l c : ltouch x l = Crash c -> plain_crash c.
Proof. destruct l; cbn; intros [= <-]; unfold plain_crash; auto. Qed.
Lemma lnth_plain x c : forall ls k, lnth x ls k = Crash c -> plain_crash c.
Proof. induction ls as [|l ls IH]; intros [|k]; cbn [lnth]; try discriminate; destruct l; try discriminate; try (intros [= <-]; right; now left); apply IH. Qed.
Lemma laccess_plain big t l a c : laccess big t l a = Crash c -> plain_crash c.
Proof.
  unfold laccess, lopt.
  repeat match goal with |- match ?x with _ => _ end = _ -> _ => destruct x end; try discriminate; try apply ltouch_plain; try apply lnth_plain.
  intros [= <-]. now left.
Qed.
Lemma lask_plain venv q c : lask venv q = Crash c -> plain_crash c.
Proof.
  assert (U : forall c, Crash (A := answer) PIndex = Crash c -> plain_crash c) by (intros ? [= <-]; now left).
  assert (N : forall c, Crash (A := answer) NoCompile = Crash c -> plain_crash c) by (intros ? [= <-]; right; now right).
  destruct q; cbn [lask]; repeat match goal with |- match ?x with _ => _ end = _ -> _ => destruct x end; try discriminate; auto.
  destruct (leq _ _); cbn; [discriminate|]. intros [= <-]. right. now left.
Qed.
Lemma lstep_plain big venv p c : snd (lstep big venv p) = Crash c -> plain_crash c.
Proof.
  assert (U : forall c, Crash (A := list answer) PIndex = Crash c -> plain_crash c) by (intros ? [= <-]; now left).
  assert (W : forall c, Crash (A := list answer) PUnwrap = Crash c -> plain_crash c) by (intros ? [= <-]; right; now left).
  assert (N : forall c, Crash (A := list answer) NoCompile = Crash c -> plain_crash c) by (intros ? [= <-]; right; now right).
  assert (L : forall A (o : option A) (f : A -> answer) c, (let* a := lsays o in Ok [f a]) = Crash c -> plain_crash c).
  { intros A [a|] f c0; cbn; [discriminate|]. apply W. }
  destruct p; cbn [lstep]; try discriminate;
    repeat match goal with
    | |- snd (match nth_error venv ?i with _ => _ end) = _ -> _ => destruct (nth_error venv i) as [[]|]
    | |- snd (match laccess ?a ?b ?c ?d with _ => _ end) = _ -> _ => destruct (laccess a b c d) as [[[]|]|] eqn:EL
    | |- snd (let '(_, _) := ?x in _) = _ -> _ => destruct x
    | |- snd (match ?x with _ => _ end) = _ -> _ => destruct x
    end; cbn [snd lnew]; try discriminate; eauto.
  - intros [= <-]. now apply laccess_plain in EL.
  - apply (L _ (lforce l) (fun a => SayText (sp_print F t a))).
  - match goal with |- context [lask venv ?x] => destruct (lask venv x) as [a|c0] eqn:E end; cbn [bind]; [discriminate|]. intros [= <-]. now apply lask_plain in E.
Qed.
Lemma deser_like h t v a2 a3 a4 : near a2 -> v_addr v + 8 < 2 ^ 64 ->
  lo h eq (deserialize h t v a2 a3 a4) (deserialize h t (Vec 0 (v_data v)) a2 a3 a4).
Proof.
  intros H2 Hv.
  assert (D : forall v, v_addr v + 8 < 2 ^ 64 -> exists s, s_data s = v_data v /\
    deserialize h t v a2 a3 a4 = let* r := cast h t s in to_owned h t r a3 a4).
  { intros w Hw. unfold deserialize, buf_from_vec. destruct (vec_align_spec h w a2 H2 Hw) as (b & -> & Hh & Hga). cbn [bind].
    destruct (buf_deref_ok h b (v_data w) Hh Hga) as (s & -> & Hs & _). cbn [bind]. rewrite as_aligned_8. cbn [bind]. eauto. }
  destruct (D v Hv) as (s & Hs & ->), (D (Vec 0 (v_data v)) ltac:(reflexivity)) as (q & Hq & ->). apply lo_cast_own. unfold like. now rewrite Hs, Hq.
Qed.
Lemma loose_call h env venv p : Forall (promised h) (map straight env) -> Forall2 (lshows h) (map straight env) venv ->
  possible h env p -> modest venv p -> fits (h_big_endian h) venv p ->
  (exists c, reply h env p = Crash c /\ misaligned_crash h c) \/
  (reply h env p = snd (lstep (h_big_endian h) venv p) /\
   Forall (promised h) (map straight (fst (step h env p))) /\
   Forall2 (lshows h) (map straight (fst (step h env p))) (fst (lstep (h_big_endian h) venv p))).
Proof.
  intros Hg He Hp Hm Hf. set (env' := map straight env) in *.
  assert (Hget : forall i, nth_error env' i = option_map straight (nth_error env i)) by (intros; apply nth_error_map).
  (* all calls but two *)
  assert (G : match p with PCopyAlign _ _ _ _ => False | _ => True end -> ~ door env' p ->
    (exists c, reply h env p = Crash c /\ misaligned_crash h c) \/
    (reply h env p = snd (lstep (h_big_endian h) venv p) /\
     Forall (promised h) (map straight (fst (step h env p))) /\
     Forall2 (lshows h) (map straight (fst (step h env p))) (fst (lstep (h_big_endian h) venv p)))).
  { intros Hn Hd.
    assert (Hp' : possible h env' p).
    { destruct p; try exact Hp; cbn [possible] in *.
      - intros A s E. rewrite Hget in E. destruct (nth_error env i) as [o1|]; [|discriminate]. destruct o1; try discriminate. injection E as -> <-. now apply (Hp _ _ eq_refl).
      - destruct Hp as [Ha _]. split; [exact Ha|]. intros t r v E Er. pose proof (pair_get _ _ _ i He) as HI. rewrite E in HI.
        destruct (nth_error venv i) as [th|] eqn:EV; [|contradiction]. destruct th; cbn [lshows] in HI; try contradiction. destruct HI as (<- & Hs & ->).
        pose proof (get_good h _ _ _ Hg E) as Hr. cbn [promised] in Hr. rewrite (lz_read h _ _ Hr Hs) in Er.
        destruct (lforce (lz h t r)) as [w|] eqn:EF; [|discriminate]. cbn [lsays] in Er. injection Er as <-. exact (Hf _ _ _ EV EF).
      - intros g E. rewrite Hget in E. destruct (nth_error env i) as [o1|]; [|discriminate]. destruct o1; try discriminate. injection E as ->. now apply (Hp _ eq_refl).
      - destruct Hp as [Ha Hp]. split; [exact Ha|]. intros z E. rewrite Hget in E. destruct (nth_error env i) as [o1|]; [|discriminate].
        destruct o1; try discriminate. injection E as ->. now apply (Hp _ eq_refl). }
    pose proof (lcalls_agree h env' venv p He Hg Hp' Hd Hm) as [HA1 HA2]. destruct (calls_good h env' p Hg Hp' Hd) as [HC _].
    destruct (straight_all h _ _ HC HA2) as [S1 S2].
    destruct (calls_sim h env p Hp Hn) as [H|[(c & H & Hc)|[H1 H2]]]; [now left| |].
    - exfalso. fold env' in H. rewrite HA1 in H. apply lstep_plain in H. now apply (plain_not h c).
    - right. fold env' in H1, H2. rewrite H2. split; [congruence|]. split; assumption. }
  destruct p as [v|i|i a|i|i m|i|i o|i B|i A a1 a2|i|i t|i t|i a|i|i|i|i|i|i F|i j|i j|i|i|i a1 a2|i t a1 a2|i t a|i
                |i t a1 a2 a3 a4|i t a2 a3 a4|t r a|i a|c|s cap c|i o|i|i|i a|i c1|i|i a| |q]; try solve [apply G; [exact I|intros []]].
  - (* PTry *) apply G; [exact I|]. intros (A & s & E & _ & Hz). rewrite Hget in E. destruct (nth_error env i) as [[]|]; try discriminate. injection E as _ <-. now apply Hz.
  - (* PCopyAlign *) clear G. right. cbn [reply step lstep possible] in *. pose proof (pair_get _ _ _ i He) as HI. rewrite Hget in HI.
    assert (Hbad : forall c : crash, Crash c = Crash (A := list answer) c /\ Forall (promised h) env' /\ Forall2 (lshows h) env' venv) by auto.
    pose proof (get_good h env' i) as Hgi. rewrite Hget in Hgi.
    destruct (nth_error env i) as [[A0 s0|v0|b0|A0 [s0|b0]|t0 r0|t0 o0|x0 it0|g0|z0]|]; cbn [option_map straight] in HI; destruct (nth_error venv i) as [[A0' d0|d0|d0|A0' d0|t0' w0|t0' w0|x0' l0|z0'|z0']|]; cbn [lshows] in HI; try contradiction; try apply Hbad.
    destruct HI as [<- <-]. destruct (A0 =? 1); [|apply Hbad]. destruct Hp as (HA & H1 & H2). specialize (Hgi _ Hg eq_refl). destruct Hgi as (_ & _ & Hl).
    destruct (copy_slice h A s0 a1 a2 HA H1 H2 Hl) as (c & Ec & Hc). rewrite Ec. cbn [one bind made fst snd lnew map lface].
    rewrite skipn_app, skipn_all2, Nat.sub_diag by lia. split; [reflexivity|]. rewrite map_app. cbn [map straight]. split.
    + apply Forall_app. split; [exact Hg|]. now repeat constructor.
    + apply Forall2_app; [exact He|]. constructor; [|constructor]. unfold copy_to_align in Ec. destruct (is_aligned s0 A).
      * rewrite try_as_aligned_always in Ec. injection Ec as <-. now split.
      * destruct (bytes_hold h (s_data s0) a1 a2 H1 H2) as (b & Eb & Hb). unfold owned_from_bytes in Eb. rewrite Eb in Ec. cbn [bind] in Ec. injection Ec as <-. now split.
  - (* PCast *) apply G; [exact I|]. intros (s & E & _ & _ & Hz). rewrite Hget in E. destruct (nth_error env i) as [[]|]; try discriminate. injection E as _ <-. now apply Hz.
  - (* PTryInto *) apply G; [exact I|]. intros (s & E & _ & Hz). rewrite Hget in E. destruct (nth_error env i) as [[]|]; try discriminate. injection E as _ <-. now apply Hz.
  - (* PBorrow *) apply G; [exact I|]. intros (t & b & E & Hb & _ & Hz). rewrite Hget in E. destruct (nth_error env i) as [[| | | | |t0 [r0|d0|b0]| | | ]|]; try discriminate.
    cbn [option_map straight flat_owned] in E. destruct (v_data b0) eqn:Eb; injection E as _ <-; [now apply Hz|congruence].
  - (* PFromBytes *) apply G; [exact I|]. intros (A & s & E & _ & _ & Hz). rewrite Hget in E. destruct (nth_error env i) as [[]|]; try discriminate. injection E as _ <-. now apply Hz.
  - (* PDeser *) destruct (nth_error env i) as [[A0 s0|v0|b0|A0 c0|t0 r0|t0 o0|x0 it0|g0|z0]|] eqn:E;
      try (apply G; [exact I|]; intros (v & EV & _); rewrite Hget, E in EV; discriminate).
    destruct (v_data v0) as [|y d] eqn:Ed; [|apply G; [exact I|]; intros (v & EV & Hz & _); rewrite Hget, E in EV; injection EV as <-; congruence].
    clear G. pose proof (pair_get _ _ _ i He) as HI. rewrite Hget, E in HI. cbn [option_map straight] in HI.
    destruct (nth_error venv i) as [[A0' d0|d0|d0|A0' d0|t0' w0|t0' w0|x0' l0|z0'|z0']|] eqn:EV; cbn [lshows] in HI; try contradiction. subst d0. rewrite Ed in EV.
    pose proof (get_good h env' i) as Hgi. rewrite Hget, E in Hgi. specialize (Hgi _ Hg eq_refl). destruct Hgi as [Hv0 _].
    cbn [reply step lstep possible] in *. rewrite E, EV. destruct Hp as (Hu & H2 & H3 & H4).
    (* the same at address 0 *)
    set (w := Vec 0 []).
    assert (Hw1 : Forall (promised h) [ObVec w]) by (constructor; [split; reflexivity|constructor]).
    assert (Hw2 : Forall2 (lshows h) [ObVec w] [LtVec []]) by (constructor; [reflexivity|constructor]).
    assert (Hw3 : possible h [ObVec w] (PDeser 0 t a2 a3 a4)) by (cbn [possible]; auto).
    assert (Hw4 : ~ door [ObVec w] (PDeser 0 t a2 a3 a4)).
    { intros (v & EV' & _ & _ & Hz). cbn [nth_error] in EV'. injection EV' as <-. now apply Hz. }
    assert (Hw5 : modest [LtVec []] (PDeser 0 t a2 a3 a4)) by (intros d EV'; cbn [nth_error] in EV'; injection EV' as <-; reflexivity).
    destruct (lcalls_agree h _ _ _ Hw2 Hw1 Hw3 Hw4 Hw5) as [A1 A2]. destruct (calls_good h _ _ Hw1 Hw3 Hw4) as [A3 _].
    cbn [reply step lstep nth_error] in A1, A2, A3. pose proof (deser_like h t v0 a2 a3 a4 H2 Hv0) as HL. rewrite Ed in HL. fold w in HL.
    destruct (deserialize h t w a2 a3 a4) as [o|c]; cbn [one bind made fst snd lnew] in A1, A2, A3; [|discriminate].
    destruct HL as [(c & -> & Hc)|[(c & HL & _)|HL]]; [left; exists c; now split|discriminate|].
    destruct (deserialize h t v0 a2 a3 a4) as [o'|]; cbn [ViewFacts.same] in HL; [|contradiction]. subst o'. right.
    cbn [one bind made fst snd lnew map lface]. rewrite skipn_app, skipn_all2, Nat.sub_diag by lia. split; [reflexivity|].
    cbn [app] in A2, A3. inversion A2 as [|? ? ? ? _ A2']; subst. inversion A3 as [|? ? _ A3']; subst.
    destruct (straight_all h _ _ A3' A2') as [S1 S2]. rewrite map_app. split; [apply Forall_app; now split|now apply Forall2_app].
Qed.
Lemma loose_programs h : forall ps env venv, Forall (promised h) (map straight env) -> Forall2 (lshows h) (map straight env) venv ->
  realistic h env ps -> all_modest (h_big_endian h) venv ps -> all_fit (h_big_endian h) venv ps ->
  same_until_misaligned h (replies h env ps) (lreplies (h_big_endian h) venv ps).
Proof.
  induction ps as [|p ps IH]; intros env venv Hg He Hr Hm Hf; [now left|].
  cbn [realistic all_modest all_fit replies lreplies] in *. destruct Hr as [Hp Hr], Hm as [Hm1 Hm], Hf as [Hf1 Hf].
  pose proof (step_reply h env p) as SR. pose proof (IH (fst (step h env p)) (fst (lstep (h_big_endian h) venv p))) as IH'.
  destruct (loose_call h env venv p Hg He Hp Hm1 Hf1) as [(c & Ec & Hc)|(E1 & E2 & E3)].
  - right. destruct (step h env p) as [env2 o]. cbn [fst snd] in *.
    destruct o as [c'|]; [specialize (SR c' eq_refl); rewrite Ec in SR; injection SR as <-|].
    + exists [], c, (match c with UBMisaligned => [] | _ => replies h env2 ps end), (lreplies (h_big_endian h) venv (p :: ps)). split; [exact Hc|].
      split; [|reflexivity]. destruct Hc as [->|[-> _]]; cbn [app]; [reflexivity|now rewrite Ec].
    + exists [], c, (replies h env2 ps), (lreplies (h_big_endian h) venv (p :: ps)). split; [exact Hc|]. split; [|reflexivity]. cbn [app]. now rewrite Ec.
  - specialize (IH' E2 E3 Hr Hm Hf).
    assert (Hnu : forall c, snd (step h env p) = Some c -> c <> UBMisaligned).
    { intros c Hs ->. specialize (SR _ Hs). rewrite E1 in SR. apply lstep_plain in SR. destruct SR as [H|[H|H]]; discriminate. }
    assert (EQ : replies h env (p :: ps) = reply h env p :: replies h (fst (step h env p)) ps).
    { cbn [replies]. destruct (step h env p) as [env2 [c|]]; cbn [fst snd] in *; [|reflexivity]. specialize (Hnu c eq_refl). destruct c; try reflexivity. congruence. }
    change (match step h env p with (_, Some UBMisaligned) => [Crash UBMisaligned] | (e, _) => reply h env p :: replies h e ps end) with (replies h env (p :: ps)).
    rewrite EQ, E1. destruct IH' as [->|(pre & c & rest & rest' & Hc & -> & ->)]; [now left|]. right.
    exists (snd (lstep (h_big_endian h) venv p) :: pre), c, rest, rest'. auto.
Qed.

(** ** Programs without undefined behaviour *)
Lemma reply_ub h env p : reply h env p = Crash UBMisaligned -> snd (step h env p) = Some UBMisaligned.
Proof.
  assert (D : forall e : list obj * option crash,
    match e with (env', None) => Ok (map face (skipn (length env) env')) | (_, Some c) => Crash c end = Crash UBMisaligned -> snd e = Some UBMisaligned).
  { intros [e [c|]] H; [|discriminate]. injection H as ->. reflexivity. }
  assert (U : forall A (m : res A) (f : A -> answer), (let* a := m in Ok [f a]) = Crash UBMisaligned -> snd (made env (unit_ m)) = Some UBMisaligned).
  { intros A [a|c] f H; cbn in H; [discriminate|]. injection H as ->. reflexivity. }
  destruct p; cbn [reply]; try apply D; cbn [step];
    repeat match goal with
    | |- context [match nth_error env ?i with _ => _ end] => destruct (nth_error env i) as [[]|]
    | |- context [match ?t with TM _ => _ | _ => _ end] => is_var t; destruct t
    | |- context [match ?t with TA _ => _ | _ => _ end] => is_var t; destruct t
    | |- context [if ty_eqb ?a ?b then _ else _] => destruct (ty_eqb a b)
    end; try discriminate; try apply U.
  unfold is_fixed. destruct (size_of _); [discriminate|apply U].
Qed.
Lemma ub_ends h : forall ps env, In (Crash UBMisaligned) (replies h env ps) -> exec h env ps = None.
Proof.
  induction ps as [|p ps IH]; intros env H; [contradiction|]. cbn [replies exec] in *. pose proof (reply_ub h env p) as HU.
  destruct (step h env p) as [env' [c|]]; cbn [snd] in HU.
  - destruct c; try reflexivity; (destruct H as [H|H]; [specialize (HU H); discriminate|now apply IH]).
  - destruct H as [H|H]; [specialize (HU H); discriminate|now apply IH].
Qed.
Lemma loose_sound h ps : realistic h [] ps -> all_modest (h_big_endian h) [] ps -> all_fit (h_big_endian h) [] ps ->
  exec h [] ps <> None -> (h_debug h = true -> ~ In (Crash PAssert) (replies h [] ps)) ->
  replies h [] ps = lreplies (h_big_endian h) [] ps.
Proof.
  intros Hr Hm Hf Hx Ha.
  destruct (loose_programs h ps [] [] (Forall_nil _) (Forall2_nil _) Hr Hm Hf) as [H|(pre & c & rest & rest' & Hc & E & _)]; [exact H|]. exfalso.
  assert (Hin : In (Crash c) (replies h [] ps)) by (rewrite E; apply in_or_app; right; now left).
  destruct Hc as [->|[-> Hd]]; [apply Hx; now apply ub_ends|now apply Ha].
Qed.
