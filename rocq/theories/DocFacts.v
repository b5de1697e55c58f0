(** Facts about reading files into buffers and about converting them (C128, C129, C130). *)
From Coq Require Import Lia.
From Verif Require Import Base Types Layout AlignedBytes Strs Spec Deser Buf BaseFacts Histories AlignedFacts Reader ReaderSpec ReaderFacts DocRead.

Lemma take_0 {A} (l : list A) : take 0 l = []. Proof. reflexivity. Qed.
Lemma module_fails h calls a e : module_example h calls a = inl e <->
  exists rest, calls = match e with Some n => Fails n | None => Interrupted end :: rest.
Proof.
  unfold module_example, read_once. split.
  - destruct calls as [|[d| |n] rest]; intros E; try discriminate E; injection E as <-; now exists rest.
  - intros (rest & ->). now destruct e.
Qed.
Lemma module_empty h calls a b : module_example h calls a = inr (Ok b) -> exists s, buf_deref h b = Ok s /\ s_data s = [].
Proof.
  unfold module_example. intros E.
  assert (b = vec_new).
  { destruct calls as [|[d| |e] calls]; cbn in E; try discriminate; now injection E as <-. }
  subst b. clear E. unfold buf_deref. cbn. unfold unchecked. cbn. destruct (h_debug h); eexists; split; reflexivity.
Qed.
Lemma module_refuted : exists (h : host) (calls : list outcome) (a : N) (b : vec) (s : slice),
  Forall goes_on calls /\ concat (map brings calls) <> [] /\
  module_example h calls a = inr (Ok b) /\ buf_deref h b = Ok s /\ s_data s <> concat (map brings calls).
Proof.
  exists (Host false true true 0 0), [Bytes [x01; x02]], 16, vec_new, (Slice 1 []).
  split; [repeat constructor; discriminate|]. repeat split; discriminate.
Qed.

Lemma appended_pre pre rest : Forall goes_on pre -> forall d,
  appended (pre ++ rest) d = appended rest (d ++ concat (map brings pre)).
Proof.
  induction 1 as [|o pre Ho _ IH]; intros d; cbn [app map concat].
  - now rewrite app_nil_r.
  - destruct o as [[|b e]| |e]; cbn [appended brings goes_on] in *; [congruence| |exact (IH d)|tauto].
    rewrite IH. now rewrite app_assoc.
Qed.
Lemma crate_reads h pre rest a1 a2 : a1 + 8 < 2 ^ 64 -> a2 + 8 < 2 ^ 64 -> Forall goes_on pre -> at_end rest ->
  exists b s, crate_example h (pre ++ rest) a1 a2 = inr (Ok b) /\ buf_deref h b = Ok s /\
    s_data s = concat (map brings pre) /\ (s_data s <> [] -> s_addr s mod 8 = 0).
Proof.
  intros H1 H2 Hp Hr. unfold crate_example. rewrite (read_to_end_done pre rest _ Hp Hr). cbn [vec_new v_data app].
  pose proof (buf_history h (Vec a1 (concat (map brings pre))) a2 [] H1 H2 (Forall_nil _)) as H. cbn [run_plain run_buf v_data] in H.
  destruct H as (b & E & (s & E2 & E3 & E4) & _). destruct (buf_from_vec h _ a2) as [b'|] eqn:Eb; [|discriminate].
  cbn [bind] in E. injection E as ->. exists b, s. rewrite E3. auto.
Qed.
Lemma crate_fails h pre e rest a1 a2 : Forall goes_on pre -> crate_example h (pre ++ Fails e :: rest) a1 a2 = inl e.
Proof. intros Hp. unfold crate_example. now rewrite read_to_end_pre. Qed.
Lemma appended_done pre rest d : Forall goes_on pre -> match rest with Fails _ :: _ => True | _ => at_end rest end ->
  appended (pre ++ rest) d = d ++ concat (map brings pre) /\
  match read_to_end (pre ++ rest) [] with inl e => Some e | inr _ => None end = match rest with Fails e :: _ => Some e | _ => None end.
Proof.
  intros Hp Hr. rewrite appended_pre, read_to_end_pre by assumption.
  destruct rest as [|[[|x e]| |e] rest]; try (split; reflexivity); cbn in Hr; discriminate.
Qed.
Lemma with_vec_appends h v a pre rest a1 a2 :
  v_addr v + 8 < 2 ^ 64 -> a + 8 < 2 ^ 64 -> a1 + 8 < 2 ^ 64 -> a2 + 8 < 2 ^ 64 -> Forall goes_on pre ->
  match rest with Fails _ :: _ => True | _ => at_end rest end ->
  exists b0 b s, buf_from_vec h v a = Ok b0 /\
    with_vec_example h b0 (pre ++ rest) a1 a2 = Ok (b, match rest with Fails e :: _ => Some e | _ => None end) /\
    buf_deref h b = Ok s /\ s_data s = v_data v ++ concat (map brings pre) /\ (s_data s <> [] -> s_addr s mod 8 = 0).
Proof.
  intros Hv Ha H1 H2 Hp Hr. unfold with_vec_example.
  destruct (appended_done pre rest (v_data v) Hp Hr) as [E0 ->].
  pose proof (buf_history h v a [BWith (appended (pre ++ rest)) a1 a2] Hv Ha ltac:(repeat constructor; assumption)) as H.
  cbn [run_plain run_buf plain_op run_buf_op] in H. destruct H as (b & E & (s & E2 & E3 & E4) & _).
  destruct (buf_from_vec h v a) as [b0|]; [|discriminate]. cbn [bind run_buf run_buf_op] in E.
  destruct (buf_with_vec h b0 _ a2) as [b'|] eqn:Eb; [|discriminate]. cbn [bind run_buf] in E. injection E as ->.
  rewrite E0 in E3, E4. exists b0, b, s. rewrite Eb, E3. auto.
Qed.
Lemma with_vec_reads h pre rest a1 a2 : a1 + 8 < 2 ^ 64 -> a2 + 8 < 2 ^ 64 -> Forall goes_on pre ->
  match rest with Fails _ :: _ => True | _ => at_end rest end ->
  exists b s, with_vec_example h buf_new (pre ++ rest) a1 a2 = Ok (b, match rest with Fails e :: _ => Some e | _ => None end) /\
    buf_deref h b = Ok s /\ s_data s = concat (map brings pre) /\ (s_data s <> [] -> s_addr s mod 8 = 0).
Proof.
  intros H1 H2 Hp Hr. destruct (with_vec_appends h vec_new 1 pre rest a1 a2 eq_refl eq_refl H1 H2 Hp Hr) as (b0 & b & s & E & H).
  change (Ok buf_new = Ok b0) in E. injection E as <-. exists b, s. exact H.
Qed.

(** ** Conversions *)
Lemma aligned_is v : v_addr v mod 8 = 0 -> vec_is_aligned v = true.
Proof.
  intros H. unfold vec_is_aligned. apply orb_true_iff. right. apply N.eqb_eq. unfold uand.
  change 7 with (N.ones 3). rewrite N.land_ones. exact H.
Qed.
Lemma conversions_noop h v a : v_addr v mod 8 = 0 ->
  buf_from_vec h v a = Ok v /\ buf_into_vec h v = Ok v.
Proof. intros H. unfold buf_from_vec, buf_into_vec, vec_align, vec_unalign. now rewrite (aligned_is v H). Qed.
Lemma conversion_pads h v a : v_addr v + 8 < 2 ^ 64 -> a + 8 < 2 ^ 64 ->
  exists b w, buf_from_vec h v a = Ok b /\ buf_into_vec h b = Ok w /\ v_data w = v_data v /\ v_addr w = v_addr b /\
    (b = v \/ v_addr v mod 8 <> 0 /\ v_addr b = a /\ exists n, n < 8 /\ (a + n) mod 8 = 0 /\ v_data b = nuls n ++ v_data v).
Proof.
  intros Hv Ha. destruct (vec_is_aligned v) eqn:Ev.
  - exists v, v. unfold buf_from_vec, buf_into_vec, vec_align, vec_unalign. rewrite Ev. auto 6.
  - destruct (vec_align_spec h v a Ha Hv) as (b & E & Hh & Hg). destruct (vec_unalign_ok h b _ Hh Hg) as (w & E2 & Ew & Ewa).
    exists b, w. split; [exact E|]. split; [exact E2|]. split; [exact Ew|]. split; [exact Ewa|]. right.
    split. { intros H. rewrite (aligned_is v H) in Ev. discriminate. }
    unfold vec_align in E. rewrite Ev in E. unfold align_cold in E.
    assert (Hl : vlen v =? 0 = false) by (unfold vec_is_aligned in Ev; destruct (vlen v =? 0); [discriminate|reflexivity]).
    rewrite offset_to_align_ok in E by exact Ha. change (vlen (Vec a (v_data v))) with (vlen v) in E. rewrite Hl in E. cbn [bind v_data] in E.
    pose proof (pad_of_spec (Vec a (v_data v))) as [Hp Hm]. cbn [v_addr] in Hm. set (n := pad_of (Vec a (v_data v))) in *.
    unfold rotate_right in E. rewrite blen_app in E.
    assert (Hz : blen (zeros n) = n) by (unfold blen, zeros; rewrite repeat_length; lia). rewrite Hz in E.
    replace (n <=? blen (v_data v) + n) with true in E by (symmetry; apply N.leb_le; lia). cbn [bind] in E.
    replace (blen (v_data v) + n - n) with (blen (v_data v)) in E by lia.
    rewrite drop_app_eq, take_app_eq in E by reflexivity. injection E as <-.
    split; [reflexivity|]. exists n. auto.
Qed.
