(** Facts about operations that may panic (C92, C93). *)
From Verif Require Import Base Types Layout AlignedBytes Deser Strs Spec Buf Histories Unwind UnwindSpec
  BaseFacts Utf8Facts StrFacts AlignedFacts.

Lemma st_reserve_cases n a g :
  (st_reserve n a g = (g, Panicked) /\ g_cap g < blen (g_data g) + n) \/
  (exists c, st_reserve n a g = (GS (g_data g) c, Returned tt) /\ g_cap g <= c /\ blen (g_data g) + n <= c).
Proof.
  unfold st_reserve. destruct (_ <=? g_cap g) eqn:E.
  - apply N.leb_le in E. right. exists (g_cap g). destruct g; cbn in *. repeat split; lia.
  - apply N.leb_gt in E. destruct (2 ^ 63 <=? _); [left; auto|].
    destruct a as [m|]; [|left; auto]. right. eexists. split; [reflexivity|]. lia.
Qed.
Lemma st_push_fits s a g : blen (g_data g) + blen s <= g_cap g ->
  st_push s a g = (GS (g_data g ++ s) (g_cap g), Returned tt).
Proof.
  intros H. unfold st_push, andthen, st_reserve.
  replace (_ <=? g_cap g) with true by (symmetry; apply N.leb_le; exact H). reflexivity.
Qed.
Lemma push_cases t a1 a2 a3 g s : gs_holds g s -> has_nul t = false -> is_utf8 t ->
  (un_try_push_str t a1 a2 a3 g = (g, Panicked) /\ g_cap g < blen (s ++ [x00]) + blen t) \/
  (exists c, un_try_push_str t a1 a2 a3 g = (GS ((s ++ t) ++ [x00]) c, Returned true) /\ g_cap g <= c /\
             gs_holds (GS ((s ++ t) ++ [x00]) c) (s ++ t)).
Proof.
  intros (Hd & Hg & Hc) Hn Hu. unfold un_try_push_str. rewrite Hn. unfold andthen.
  destruct (st_reserve_cases (blen t) a1 g) as [[-> Hp]|(c & -> & Hc1 & Hc2)].
  - left. rewrite <- Hd. auto.
  - right. exists c. rewrite Hd, blen_app, blen_cons, blen_nil in Hc2.
    assert (E1 : st_pop (GS (g_data g) c) = (GS s c, Returned tt)).
    { unfold st_pop, pop. cbn [g_data g_cap]. now rewrite Hd, removelast_last. }
    rewrite E1.
    rewrite st_push_fits by (cbn [g_data g_cap]; lia). cbn [g_data g_cap].
    rewrite st_push_fits by (cbn [g_data g_cap]; rewrite blen_app, blen_cons, blen_nil; lia).
    cbn [g_data g_cap]. split; [reflexivity|]. split; [exact Hc1|].
    split; [reflexivity|]. split; [apply good_app; auto; rewrite sp_nul_free_spec, Hn; reflexivity|].
    cbn [g_data g_cap]. rewrite !blen_app. lia.
Qed.

Lemma run_un_op_ok g s o : gs_holds g s -> un_op_wf o ->
  exists s', may_do o s (snd (run_un_op g o)) s' /\ gs_holds (fst (run_un_op g o)) s'.
Proof.
  intros Hh Hw. destruct o as [t a1 a2 a3|a|n a]; cbn [run_un_op un_op_wf] in *.
  - destruct (has_nul t) eqn:E.
    + unfold un_try_push_str. rewrite E. cbn [fst snd done]. exists s. split; [|exact Hh].
      constructor. now apply has_nul_iff.
    + assert (Ht : ~ In x00 t) by (rewrite <- has_nul_iff; congruence).
      destruct (push_cases t a1 a2 a3 g s Hh E Hw) as [[-> _]|(c & -> & _ & Hh')]; cbn [fst snd].
      * exists s. split; [now constructor|exact Hh].
      * exists (s ++ t). split; [now constructor|exact Hh'].
  - destruct Hh as (Hd & Hg & Hc). unfold un_clear, andthen, st_clear.
    rewrite st_push_fits by (cbn [g_data g_cap]; rewrite blen_cons, blen_nil; lia).
    cbn [g_data g_cap app done fst snd]. exists []. split; [constructor|].
    split; [reflexivity|]. split; [apply good_nil|]. cbn [g_cap]. rewrite blen_nil. lia.
  - unfold un_reserve, andthen. exists s.
    destruct (st_reserve_cases n a g) as [[-> _]|(c & -> & Hc1 & _)]; cbn [fst snd done].
    + split; [constructor; auto|exact Hh].
    + split; [constructor; auto|]. destruct Hh as (Hd & Hg & Hc).
      split; [exact Hd|]. split; [exact Hg|]. cbn [g_cap]. lia.
Qed.
Lemma run_un_ok os : forall g s, gs_holds g s -> Forall un_op_wf os ->
  exists s', may_do_all os s (snd (run_un g os)) s' /\ gs_holds (fst (run_un g os)) s'.
Proof.
  induction os as [|o os IH]; intros g s Hh Hos; cbn [run_un].
  - exists s. split; [constructor|exact Hh].
  - inversion Hos as [|? ? Ho Hos']; subst.
    destruct (run_un_op_ok g s o Hh Ho) as (s1 & H1 & Hh1). destruct (run_un_op g o) as [g1 r1]. cbn [fst snd] in *.
    destruct (IH g1 s1 Hh1 Hos') as (s2 & H2 & Hh2). destruct (run_un g1 os) as [g2 rs]. cbn [fst snd] in *.
    exists s2. split; [econstructor; eassumption|exact Hh2].
Qed.
Lemma un_history h s0 g0 os : gs_init s0 g0 -> Forall un_op_wf os ->
  let '(g, rs) := run_un g0 os in
  exists s, may_do_all os s0 rs s /\ good_string s /\ g_data g = s ++ [x00] /\
    gs_as_str h g = Ok s /\ gs_len h g = Ok (len s) /\ gs_into_cstring g = Ok s /\ to_str (gs_deref g) = s.
Proof.
  intros Hi Hos. destruct (run_un_ok os g0 s0 (gs_init_ok _ _ Hi) Hos) as (s & Hm & Hh).
  destruct (run_un g0 os) as [g rs]. cbn [fst snd] in *. exists s.
  destruct (gs_observe h g s Hh) as (H1 & H2 & H3 & H4 & H5 & H6 & H7 & H8).
  destruct Hh as (Hd & Hg & _). repeat split; auto; apply Hg.
Qed.

Lemma pushes_fit os : forall g s, gs_holds g s -> Forall un_op_wf os -> Forall is_push os ->
  blen s + 1 + pushed os <= g_cap g -> ~ In Panicked (snd (run_un g os)).
Proof.
  induction os as [|o os IH]; intros g s Hh Hw Hp Hc; cbn [run_un].
  - cbn. tauto.
  - inversion Hw as [|? ? Ho Hw']; subst. inversion Hp as [|? ? Hq Hp']; subst.
    destruct o as [t a1 a2 a3| |]; cbn [is_push] in Hq; try contradiction.
    cbn [run_un_op pushed fold_right un_op_wf] in *. change (len t) with (blen t) in Hc.
    change (fold_right _ 0 os) with (pushed os) in Hc.
    destruct (has_nul t) eqn:E.
    + unfold un_try_push_str. rewrite E. cbn [done].
      specialize (IH g s Hh Hw' Hp' ltac:(lia)). destruct (run_un g os) as [g2 rs]. cbn [snd] in *.
      intros [H|H]; [discriminate|tauto].
    + destruct (push_cases t a1 a2 a3 g s Hh E Ho) as [[_ Hx]|(c & -> & Hc1 & Hh')].
      * rewrite blen_app, blen_cons, blen_nil in Hx. lia.
      * specialize (IH _ _ Hh' Hw' Hp').
        rewrite blen_app in IH. cbn [g_cap] in IH. specialize (IH ltac:(lia)).
        destruct (run_un _ os) as [g2 rs]. cbn [snd] in *. intros [H|H]; [discriminate|tauto].
Qed.
Lemma un_reserved s0 g0 os n a os' : gs_init s0 g0 -> Forall un_op_wf os ->
  let '(g, r) := run_un_op (fst (run_un g0 os)) (UReserve n a) in
  r = Returned true -> Forall un_op_wf os' -> Forall is_push os' -> pushed os' <= n ->
  ~ In Panicked (snd (run_un g os')).
Proof.
  intros Hi Hos. destruct (run_un_op (fst (run_un g0 os)) (UReserve n a)) as [g' r] eqn:E0. intros Hr Hw Hp Hn. destruct (run_un_ok os g0 s0 (gs_init_ok _ _ Hi) Hos) as (s & _ & Hh).
  destruct (run_un g0 os) as [g rs]. cbn [fst snd] in *. cbn [run_un_op] in E0. unfold un_reserve, andthen in E0.
  destruct (st_reserve_cases n a g) as [[E _]|(c & E & Hc1 & Hc2)]; rewrite E in E0; cbv beta iota delta [done] in E0.
  - congruence.
  - assert (g' = GS (g_data g) c) by congruence. subst g'. destruct Hh as (Hd & Hg & Hc). rewrite Hd, blen_app, blen_cons, blen_nil in Hc2.
    apply (pushes_fit os' _ s); auto.
    + split; [exact Hd|]. split; [exact Hg|]. cbn [g_cap]. lia.
    + cbn [g_cap]. lia.
Qed.

(** ** with_vec *)
(** What a buffer shows: all its vector holds but the padding. *)
Definition shows (b : vec) (st : option (list byte)) : Prop :=
  match st with
  | Some d => exists junk, v_data b = junk ++ d /\ (v_data b = [] \/ blen junk = pad_of b)
  | None => v_data b <> [] /\ blen (v_data b) < pad_of b
  end.
Lemma holds_shows b d : holds b d -> shows b (Some d).
Proof.
  destruct d as [|x d]; cbn [holds shows].
  - intros H. exists []. rewrite H. auto.
  - intros (junk & E & Hj). exists junk. auto.
Qed.
Lemma vlen_pos v : v_data v <> [] -> vlen v =? 0 = false.
Proof. intros H. apply N.eqb_neq. unfold vlen. intros E. apply H. now apply blen_0. Qed.
Lemma shows_unalign h b d : shows b (Some d) -> good_addr b ->
  exists v, vec_unalign h b = Ok v /\ v_data v = d.
Proof.
  intros (junk & E & Hj) Hg. destruct (v_data b) as [|x l] eqn:Eb.
  - destruct (vec_unalign_ok h b []) as (v & H1 & H2 & _); [exact Eb|exact Hg|].
    exists v. split; [exact H1|]. rewrite H2. destruct junk; cbn in E; congruence.
  - assert (Hl : vlen b =? 0 = false) by (apply vlen_pos; congruence).
    destruct Hj as [Hj|Hj]; [congruence|]. unfold vec_unalign. rewrite vec_is_aligned_spec, Hl. cbn [orb].
    destruct (pad_of b =? 0) eqn:Ep.
    + apply N.eqb_eq in Ep. rewrite Ep in Hj. apply blen_0 in Hj. subst junk. exists b. split; [reflexivity|].
      cbn in E. congruence.
    + rewrite offset_to_align_ok by assumption. rewrite Hl. cbn [bind].
      unfold rotate_left. rewrite Eb, E, blen_app.
      replace (pad_of b <=? blen junk + blen d) with true by (symmetry; apply N.leb_le; lia).
      cbn [bind]. rewrite drop_app_eq, take_app_eq by (symmetry; exact Hj).
      rewrite blen_app, Hj. rewrite usub_ok by lia. cbn [bind].
      eexists. split; [reflexivity|]. cbn [v_data]. apply take_app_eq. lia.
Qed.
Lemma shows_deref h b d : shows b (Some d) -> good_addr b ->
  exists s, buf_deref h b = Ok s /\ s_data s = d /\ (d <> [] -> s_addr s mod 8 = 0).
Proof.
  intros (junk & E & Hj) Hg. destruct (v_data b) as [|x l] eqn:Eb.
  - assert (d = []) by (destruct junk; cbn in E; congruence). subst d.
    destruct (buf_deref_ok h b []) as (s & H1 & H2 & H3 & _); [exact Eb|exact Hg|]. eauto.
  - assert (Hl : vlen b =? 0 = false) by (apply vlen_pos; congruence).
    destruct Hj as [Hj|Hj]; [congruence|]. unfold buf_deref. rewrite offset_to_align_ok by assumption. rewrite Hl. cbn [bind].
    rewrite sl_from_ok by (unfold slen; cbn [s_data]; rewrite Eb, E, blen_app; lia).
    cbn [bind s_addr s_data]. pose proof (pad_of_spec b) as [_ Hm].
    rewrite unchecked_ok by exact Hm. eexists. split; [reflexivity|]. cbn [s_data s_addr].
    rewrite Eb, E, drop_app_eq by (symmetry; exact Hj). auto.
Qed.
Lemma shows_none h b : shows b None -> good_addr b ->
  vec_unalign h b = Crash PAssert /\ buf_deref h b = Crash PIndex.
Proof.
  intros (Hn & Hl) Hg. pose proof (vlen_pos b Hn) as Hv. split.
  - unfold vec_unalign. rewrite vec_is_aligned_spec, Hv. cbn [orb].
    destruct (pad_of b =? 0) eqn:Ep; [apply N.eqb_eq in Ep; lia|].
    rewrite offset_to_align_ok by assumption. rewrite Hv. cbn [bind]. unfold rotate_left.
    replace (pad_of b <=? blen (v_data b)) with false by (symmetry; apply N.leb_gt; lia). reflexivity.
  - unfold buf_deref. rewrite offset_to_align_ok by assumption. rewrite Hv. cbn [bind].
    unfold sl_from, slen. cbn [s_data].
    replace (pad_of b <=? blen (v_data b)) with false by (symmetry; apply N.leb_gt; lia). reflexivity.
Qed.
Lemma lost_pad a d : sp_lost a = pad_of (Vec a d).
Proof.
  unfold sp_lost, pad_of, uand, wrapping_neg. cbn [v_addr].
  rewrite (land_mask 8) by (right; right; right; reflexivity). unfold usize_lim. lia.
Qed.
Lemma call_ok h b st c : shows b st -> good_addr b -> call_wf c ->
  match sp_call st c with
  | None => run_un_call h b c = Ok None
  | Some (st', e) => exists b', run_un_call h b c = Ok (Some (b', e)) /\ shows b' st' /\ good_addr b'
  end.
Proof.
  intros Hh Hg (Ha1 & Ha2). unfold run_un_call, un_with_vec, sp_call. destruct st as [d|].
  2:{ destruct (shows_none h b Hh Hg) as [-> _]. eauto. }
  destruct (shows_unalign h b d Hh Hg) as (v & -> & ->). destruct (u_f c d) as [d1 e]. clear d Hh v.
  unfold sp_short. rewrite (lost_pad _ d1), vec_is_aligned_spec.
  destruct d1 as [|x d1].
  { cbn [vlen v_data blen length N.of_nat N.eqb orb].
    assert (H : exists b', Ok (Some (Vec (u_a1 c) [], e)) = Ok (Some (b', e)) /\ shows b' (Some []) /\ good_addr b').
    { exists (Vec (u_a1 c) []). split; [reflexivity|]. split; [exists []; auto|exact Ha1]. }
    destruct (u_a2 c); exact H. }
  set (w := Vec (u_a1 c) (x :: d1)). assert (Hv : vlen w =? 0 = false) by (apply vlen_pos; discriminate).
  rewrite Hv. cbn [orb]. destruct (pad_of w =? 0) eqn:Ep; cbn [negb].
  { assert (H : exists b', Ok (Some (w, e)) = Ok (Some (b', e)) /\ shows b' (Some (x :: d1)) /\ good_addr b').
    { exists w. split; [reflexivity|]. split; [|exact Ha1]. exists []. split; [reflexivity|right]. apply N.eqb_eq in Ep. now rewrite Ep. }
    destruct (u_a2 c); exact H. }
  destruct (u_a2 c) as [a|].
  - destruct (vec_align_spec h w a Ha2 Ha1) as (b1 & E & Hh1 & Hg1).
    unfold vec_align in E. rewrite vec_is_aligned_spec, Hv, Ep in E. cbn [orb] in E. rewrite E. cbn [bind].
    exists b1. split; [reflexivity|]. split; [exact (holds_shows _ _ Hh1)|exact Hg1].
  - destruct e as [n|]; [|reflexivity]. change (len (x :: d1)) with (vlen w). exists w. split; [reflexivity|]. split; [|exact Ha1].
    destruct (pad_of w <=? vlen w) eqn:El; cbn [shows].
    + apply N.leb_le in El. exists (take (pad_of w) (x :: d1)).
      change (skipn (N.to_nat (pad_of w)) (x :: d1)) with (drop (pad_of w) (x :: d1)). rewrite take_drop. split; [reflexivity|right].
      rewrite blen_take. unfold vlen in El. cbn [v_data w] in El. unfold w in El. cbn [v_data] in El. fold w in El. lia.
    + apply N.leb_gt in El. split; [discriminate|exact El].
Qed.
Lemma calls_ok h cs : forall b st, shows b st -> good_addr b -> Forall call_wf cs ->
  match sp_calls st cs with
  | None => run_un_calls h b cs = Ok None
  | Some (st', es) => exists b', run_un_calls h b cs = Ok (Some (b', es)) /\ shows b' st' /\ good_addr b'
  end.
Proof.
  induction cs as [|c cs IH]; intros b st Hh Hg Hcs; cbn [run_un_calls sp_calls].
  - eauto.
  - inversion Hcs as [|? ? Hc Hcs']; subst. pose proof (call_ok h b st c Hh Hg Hc) as Hc1.
    destruct (sp_call st c) as [[st1 e]|].
    + destruct Hc1 as (b1 & -> & Hh1 & Hg1). cbn [bind]. specialize (IH b1 st1 Hh1 Hg1 Hcs').
      destruct (sp_calls st1 cs) as [[st2 es]|].
      * destruct IH as (b2 & -> & Hh2 & Hg2). cbn [bind]. eauto.
      * rewrite IH. reflexivity.
    + rewrite Hc1. reflexivity.
Qed.
Lemma start_ok h v a cs : v_addr v + 8 < 2 ^ 64 -> a + 8 < 2 ^ 64 -> Forall call_wf cs ->
  match sp_calls (Some (v_data v)) cs with
  | None => un_start h v a cs = Ok None
  | Some (Some d, es) =>
      exists b, un_start h v a cs = Ok (Some (b, es)) /\
        (exists s, buf_deref h b = Ok s /\ s_data s = d /\ (d <> [] -> s_addr s mod 8 = 0)) /\
        (exists w, buf_into_vec h b = Ok w /\ v_data w = d)
  | Some (None, es) =>
      exists b, un_start h v a cs = Ok (Some (b, es)) /\ buf_deref h b = Crash PIndex /\ buf_into_vec h b = Crash PAssert
  end.
Proof.
  intros Hv Ha Hcs. unfold un_start, buf_from_vec.
  destruct (vec_align_spec h v a Ha Hv) as (b & -> & Hh & Hg). cbn [bind].
  pose proof (calls_ok h cs b (Some (v_data v)) (holds_shows _ _ Hh) Hg Hcs) as H.
  destruct (sp_calls (Some (v_data v)) cs) as [[[d|] es]|].
  - destruct H as (b' & E & Hh' & Hg'). exists b'. split; [exact E|]. split; [exact (shows_deref h b' d Hh' Hg')|].
    unfold buf_into_vec. exact (shows_unalign h b' d Hh' Hg').
  - destruct H as (b' & E & Hh' & Hg'). exists b'. split; [exact E|]. unfold buf_into_vec. destruct (shows_none h b' Hh' Hg'); auto.
  - exact H.
Qed.
Lemma granted_plain cs : forall d, Forall granted cs ->
  sp_calls (Some d) cs = Some (Some (fst (plain_calls d cs)), snd (plain_calls d cs)).
Proof.
  induction cs as [|c cs IH]; intros d H; cbn [sp_calls plain_calls]; [reflexivity|].
  inversion H as [|? ? Hc Hcs]; subst. unfold sp_call. destruct (u_f c d) as [d1 e].
  unfold sp_short. unfold granted in Hc. destruct (u_a2 c); [|congruence].
  rewrite (IH d1 Hcs). destruct (plain_calls d1 cs). reflexivity.
Qed.
Lemma calls_history h v a cs : v_addr v + 8 < 2 ^ 64 -> a + 8 < 2 ^ 64 -> Forall call_wf cs -> Forall granted cs ->
  let '(d, es) := plain_calls (v_data v) cs in
  exists b, un_start h v a cs = Ok (Some (b, es)) /\
    (exists s, buf_deref h b = Ok s /\ s_data s = d /\ (d <> [] -> s_addr s mod 8 = 0)) /\
    (exists w, buf_into_vec h b = Ok w /\ v_data w = d).
Proof.
  intros Hv Ha Hcs Hgr. pose proof (start_ok h v a cs Hv Ha Hcs) as H.
  rewrite granted_plain in H by exact Hgr. destruct (plain_calls (v_data v) cs) as [d es]. exact H.
Qed.

Lemma bytes_lost h :
  let c := UCall (fun d => (d ++ repeat x07 1, Returned 0)) 101 None in
  call_wf c /\
  fst (plain_calls [x01; x02; x03; x04; x05; x06; x07; x08; x09] [c]) =
    [x01; x02; x03; x04; x05; x06; x07; x08; x09; x07] /\
  exists b, un_start h (Vec 8 [x01; x02; x03; x04; x05; x06; x07; x08; x09]) 8 [c] = Ok (Some (b, [Panicked])) /\
    buf_deref h b = Ok (Slice 104 [x04; x05; x06; x07; x08; x09; x07]).
Proof.
  split; [split; reflexivity|]. split; [reflexivity|].
  eexists. split; [reflexivity|]. destruct h as [[] [] [] ? ?]; reflexivity.
Qed.
Lemma bytes_gone h :
  let c := UCall (fun d => (d ++ repeat x07 1, Returned 0)) 101 None in
  fst (plain_calls [] [c]) = [x07] /\
  exists b, un_start h vec_new 8 [c] = Ok (Some (b, [Panicked])) /\
    buf_deref h b = Crash PIndex /\ buf_into_vec h b = Crash PAssert.
Proof.
  split; [reflexivity|]. eexists. split; [reflexivity|]. destruct h as [[] [] [] ? ?]; split; reflexivity.
Qed.
