(** Programs that go through no door keep every promise. *)
From Verif Require Import Base Types Layout AlignedBytes Strs Spec Deser Buf Histories Ser SerSpec Cmp Fmt Mut MutSpec OwnSpec Iter IterSpec Programs ProgSpec
  BaseFacts TypesFacts LayoutFacts AlignedFacts Utf8Facts DeserFacts ArrayFacts StructFacts ReadFacts AccessFacts ReadClaims EqFacts StrFacts
  EncFacts SerMain SerClaims MutFacts EmptyFacts OwnClaims IterFacts ViewFacts FmtFacts.
From Coq Require Import Lia ZifyBool ZifyNat ZifyN.
Ltac Zify.zify_post_hook ::= idtac.

Definition calm (c : crash) : Prop := In c [PIndex; PUnwrap; POverflow; NoCompile].
Definition fine (h : host) (m : res (list obj)) : Prop :=
  match m with Ok os => Forall (promised h) os | Crash c => calm c end.
Definition good_step (h : host) (p : list obj * option crash) : Prop :=
  Forall (promised h) (fst p) /\ match snd p with Some c => calm c | None => True end.

Lemma made_good h env m : Forall (promised h) env -> fine h m -> good_step h (made env m).
Proof.
  intros He Hm. unfold made. destruct m as [os|c]; split; cbn [fst snd]; auto. now apply Forall_app.
Qed.
Lemma calm_compile : calm NoCompile.
Proof. unfold calm. cbn [In]. tauto. Qed.
Lemma bad_good h env : Forall (promised h) env -> good_step h (env, Some NoCompile).
Proof. intros He. split; [exact He|exact calm_compile]. Qed.
Lemma put_good h env i o : Forall (promised h) env -> promised h o -> Forall (promised h) (put env i o).
Proof.
  intros He Ho. revert i. induction He as [|x env Hx He IH]; intros [|i]; cbn [put]; constructor; auto.
Qed.
Lemma get_good h env i o : Forall (promised h) env -> nth_error env i = Some o -> promised h o.
Proof. intros He E. rewrite Forall_forall in He. apply He. eapply nth_error_In; eauto. Qed.
Lemma calm_index : calm PIndex. Proof. unfold calm. cbn [In]. tauto. Qed.
Lemma calm_unwrap : calm PUnwrap. Proof. unfold calm. cbn [In]. tauto. Qed.
Lemma calm_overflow : calm POverflow. Proof. unfold calm. cbn [In]. tauto. Qed.
Lemma calm_bad h t n c : bad h t n c -> calm c.
Proof. intros [[-> _]|[-> _]]; [exact calm_unwrap|exact calm_overflow]. Qed.
Lemma fine_unit {A} h t n (m : res A) : good_or_bad h t n m -> fine h (unit_ m).
Proof. destruct m; cbn; [constructor|]. apply calm_bad. Qed.

(** ** Slices, buffers *)
Lemma slice_ok_at A s : slice_ok A s -> is_alignment A /\ ok_at A s /\ slen s < 2 ^ 63.
Proof.
  intros (HA & Ha & Hl). split; [exact HA|]. split; [|exact Hl].
  destruct (s_data s) as [|x d] eqn:E; [right; unfold slen; now rewrite E|left; apply Ha; discriminate].
Qed.
Lemma ok_at_slice A s : is_alignment A -> ok_at A s -> slen s < 2 ^ 63 -> slice_ok A s.
Proof.
  intros HA Ho Hl. split; [exact HA|]. split; [|exact Hl]. intros Hne. destruct Ho as [Ha|Hz]; [exact Ha|].
  unfold slen in Hz. destruct (s_data s); [congruence|unfold blen in Hz; cbn [length] in Hz; lia].
Qed.
Lemma buf_ok_holds b : buf_ok b -> exists d, holds b d /\ good_addr b /\ len d < 2 ^ 63.
Proof.
  intros (Hg & pad & d & E & Hl & H0 & H1). exists d. split; [|split; [exact Hg|exact Hl]].
  destruct d as [|x d]; cbn [holds].
  - rewrite E, H0 by reflexivity. reflexivity.
  - exists pad. split; [exact E|]. destruct (H1 ltac:(discriminate)) as [Hp Hm]. destruct (pad_of_spec b) as [Hp' Hm'].
    change (blen pad) with (len pad). remember (len pad) as a. remember (pad_of b) as c. remember (v_addr b) as v.
    clear -Hp Hm Hp' Hm'. 
    pose proof (N.div_mod (v + a) 8 ltac:(lia)). pose proof (N.div_mod (v + c) 8 ltac:(lia)). lia.
Qed.
Lemma holds_buf_ok b d : holds b d -> good_addr b -> len d < 2 ^ 63 -> buf_ok b.
Proof.
  intros Hh Hg Hl. split; [exact Hg|]. destruct d as [|x d]; cbn [holds] in Hh.
  - exists [], []. split; [exact Hh|]. split; [reflexivity|]. split; [reflexivity|]. congruence.
  - destruct Hh as (junk & E & Hj). exists junk, (x :: d). split; [exact E|]. split; [exact Hl|]. split; [discriminate|].
    intros _. change (len junk) with (blen junk). rewrite Hj. apply pad_of_spec.
Qed.
Lemma aligned_alignment8 : is_alignment 8. Proof. right; right; right; reflexivity. Qed.
Lemma deref_slice h b : buf_ok b ->
  exists s, buf_deref h b = Ok s /\ slice_ok 8 s /\ (v_data b = [] -> s = Slice (v_addr b) []) /\ (s_data s = [] -> v_data b = []).
Proof.
  intros Hb. destruct (buf_ok_holds b Hb) as (d & Hh & Hg & Hl).
  destruct (buf_deref_ok h b d Hh Hg) as (s & E & Hd & Ha & He). exists s. split; [exact E|]. split.
  - split; [exact aligned_alignment8|]. split; [intros Hne; apply Ha; congruence|]. now rewrite Hd.
  - split.
    + intros Hn. destruct b as [a dat]. cbn [v_data v_addr] in *. subst dat. rewrite buf_deref_empty in E. congruence.
    + intros Hn. rewrite Hn in Hd. subst d. exact Hh.
Qed.
Lemma fine_buf h v a : near (v_addr v) -> len (v_data v) < 2 ^ 63 -> near a ->
  exists b, buf_from_vec h v a = Ok b /\ buf_ok b.
Proof.
  intros Hv Hl Ha. unfold buf_from_vec. destruct (vec_align_spec h v a Ha Hv) as (b & E & Hh & Hg).
  exists b. split; [exact E|]. now apply (holds_buf_ok b (v_data v)).
Qed.
Lemma to_vec_near d a : near a -> near (v_addr (to_vec d a)).
Proof. unfold near. destruct d; cbn [to_vec vec_new v_addr]; lia. Qed.
Lemma to_vec_data d a : v_data (to_vec d a) = d.
Proof. destruct d; reflexivity. Qed.
Lemma fine_bytes h d a1 a2 : len d < 2 ^ 63 -> near a1 -> near a2 ->
  exists b, owned_from_bytes h d a1 a2 = Ok b /\ buf_ok b.
Proof. intros Hl H1 H2. apply fine_buf; auto; [now apply to_vec_near|now rewrite to_vec_data]. Qed.
Lemma copy_slice h A s a1 a2 : is_alignment A -> near a1 -> near a2 -> len (s_data s) < 2 ^ 63 ->
  exists c, copy_to_align h A s a1 a2 = Ok c /\ promised h (ObCow A c).
Proof.
  intros HA H1 H2 Hl. unfold copy_to_align. destruct (is_aligned s A) eqn:E.
  - rewrite try_as_aligned_always. eexists. split; [reflexivity|]. cbn [promised]. split; [exact HA|]. split; [|exact Hl].
    intros _. unfold is_aligned in E. now apply N.eqb_eq in E.
  - destruct (fine_bytes h (s_data s) a1 a2 Hl H1 H2) as (b & E' & Hb). unfold owned_from_bytes in E'. rewrite E'. cbn [bind].
    eexists. split; [reflexivity|]. split; assumption.
Qed.
Lemma alignment_le8 A : is_alignment A -> A <= 8.
Proof. intros [->|[->|[->| ->]]]; lia. Qed.
Lemma slice_ok_le A B s : is_alignment B -> B <= A -> slice_ok A s -> slice_ok B s.
Proof.
  intros HB Hle (HA & Ha & Hl). split; [exact HB|]. split; [|exact Hl]. intros Hne. specialize (Ha Hne).
  now apply (aligned_le B A s HB HA Hle).
Qed.
Lemma as_aligned_ok A s : is_alignment A -> as_aligned 8 A s = Ok s.
Proof. intros [->|[->|[->| ->]]]; reflexivity. Qed.
Lemma cow_ref_ok h A c : promised h (ObCow A c) -> exists s, cow_as_ref h A c = Ok s /\ slice_ok A s.
Proof.
  destruct c as [s|b]; cbn [promised cow_as_ref].
  - eauto.
  - intros [HA Hb]. destruct (deref_slice h b Hb) as (s & -> & Hs & _). cbn [bind]. rewrite as_aligned_ok by exact HA.
    exists s. split; [reflexivity|]. apply (slice_ok_le 8); auto using alignment_le8.
Qed.
Lemma slice_step h A s o : slice_ok A s -> op_wf A o ->
  fine h (one (ObSlice (op_align A o)) (run_op h A s o)).
Proof.
  intros Hs Hw. destruct (slice_ok_at A s Hs) as (HA & Ho & Hl).
  pose proof (run_op_any h A s o HA Ho ltac:(unfold usize_lim; lia) Hw) as H.
  assert (HB : is_alignment (op_align A o)) by (apply op_align_alignment; assumption).
  destruct (op_range s o) as [b e]. destruct H as [H1 H2].
  destruct (N.le_gt_cases b e) as [Hbe|Hbe]; [destruct (N.le_gt_cases e (slen s)) as [He|He]|].
  - destruct (H1 (conj Hbe He)) as [-> Ha]. cbn [one bind fine]. constructor; [|constructor]. cbn [promised].
    apply ok_at_slice; auto. rewrite slen_part by assumption. lia.
  - rewrite H2 by lia. exact calm_index.
  - rewrite H2 by lia. exact calm_index.
Qed.

(** ** References *)
Lemma ref_good_iff t r : ref_good t r <-> readable t /\ ref_ok t r /\ short t r.
Proof.
  unfold ref_good, ref_ok, short, sp_fixed, is_fixed. rewrite usable_readable, ref_size_good, sp_align_of, sp_size_of.
  change (len (s_data r)) with (slen r). tauto.
Qed.
Lemma default_short h t r : default_ref h t = Ok r -> usable t -> ref_good t r.
Proof.
  intros E Hu. destruct (default_ref_ok h t (proj1 Hu)) as (r' & E' & Hd & Hr & _). rewrite E in E'. injection E' as <-.
  apply ref_good_iff. split; [now apply usable_readable|]. split; [exact Hr|]. unfold short, is_fixed.
  unfold default_bytes in Hd. destruct (size_of t); [now left|right]. unfold slen. rewrite Hd. reflexivity.
Qed.
Lemma cast_ref h t s : usable t -> aligned (align_of t) s -> slen s < 2 ^ 63 ->
  exists r, cast h t s = Ok r /\ ref_good t r /\ (sp_fixed t = false -> sp_fixed_array t = false -> r = s).
Proof.
  intros Hu Ha Hl. destruct (cast_cases h t s (proj1 Hu) Ha) as [[Hg E]|[Hg E]].
  - exists s. split; [exact E|]. split; [|reflexivity]. apply ref_good_iff. split; [now apply usable_readable|].
    split; [split; assumption|now right].
  - destruct (default_ref_ok h t (proj1 Hu)) as (r & E' & Hd & _). exists r. split; [congruence|].
    split; [now apply (default_short h)|]. intros Hf Hf'. exfalso. apply Hg. unfold size_good.
    unfold sp_fixed in Hf. rewrite sp_size_of in Hf. destruct (size_of t); [discriminate|].
    destruct t; try exact I. unfold sp_fixed_array in Hf'. rewrite sp_size_of in Hf'. destruct (size_of t); [discriminate|exact I].
Qed.
Lemma fixed_spec t : sp_fixed t = is_fixed t.
Proof. unfold sp_fixed, is_fixed. now rewrite sp_size_of. Qed.
(** Casting when the door is closed. *)
Lemma cast_closed h t s : usable t -> slice_ok (sp_align t) s ->
  ~ (s_data s = [] /\ sp_fixed t = false /\ s_addr s mod sp_align t <> 0) ->
  exists r, cast h t s = Ok r /\ ref_good t r.
Proof.
  intros Hu (HA & Ha & Hl) Hd. rewrite sp_align_of in *.
  destruct (N.eq_dec (s_addr s mod align_of t) 0) as [E|E].
  - destruct (cast_ref h t s Hu E Hl) as (r & H1 & H2 & _). eauto.
  - destruct (s_data s) as [|x d] eqn:Ed; [|exfalso; apply E, Ha; discriminate].
    destruct (sp_fixed t) eqn:Ef; [|tauto]. rewrite fixed_spec in Ef. unfold is_fixed in Ef.
    destruct (size_of t) as [n|] eqn:En; [|discriminate]. rewrite (cast_empty_fixed h t s n (proj1 Hu) Ed En).
    destruct (default_ref_ok h t (proj1 Hu)) as (r & E' & _). exists r. split; [exact E'|]. now apply (default_short h).
Qed.
Lemma to_owned_good h t r a1 a2 : usable t -> sp_ref_size t (len (s_data r)) -> sp_fixed t = true \/ len (s_data r) < 2 ^ 63 ->
  near a1 -> near a2 -> exists o, to_owned h t r a1 a2 = Ok o /\ promised h (ObOwned t o).
Proof.
  intros Hu Hs Hl H1 H2. unfold sp_fixed in Hl. rewrite sp_size_of in Hl.
  assert (Hcopy : sp_fixed t = true \/ len (s_data r) < 2 ^ 63 -> ref_good t (Slice (8 * a1) (s_data r))).
  { intros Hl'. split; [exact Hu|]. split; [|split; [exact Hs|exact Hl']]. rewrite sp_align_of. apply aligned_8.
    unfold aligned. cbn [s_addr]. rewrite N.mul_comm. apply N.mod_mul. lia. }
  destruct (size_of t) as [n|] eqn:En.
  { rewrite own_fixed by (left; congruence). eexists. split; [reflexivity|]. apply Hcopy. left. unfold sp_fixed. now rewrite sp_size_of, En. }
  destruct Hl as [Hl|Hl]; [discriminate|].
  destruct (sp_fixed_array t) eqn:Ef.
  { rewrite own_fixed by (right; exact Ef). eexists. split; [reflexivity|]. apply Hcopy. now right. }
  destruct (to_owned_cases h t r a1 a2 En Ef) as [Ht|E].
  - exists (OStr (to_str (s_data r) ++ [x00])). split; [destruct Ht as [->|[->| ->]]; reflexivity|]. cbn [promised].
    split; [cbn [In]; intuition auto|]. split; [|exists (to_str (s_data r)); split; [apply to_str_good|reflexivity]].
    assert (Hle : blen (to_str (s_data r)) + 1 <= N.max 1 (blen (s_data r))).
    { unfold to_str, as_bytes_non_conformant. destruct (rev (s_data r)) as [|b l] eqn:Er; [cbn; lia|].
      assert (Hr : blen (s_data r) = blen l + 1).
      { unfold blen. rewrite <- (rev_length (s_data r)), Er. cbn [length]. lia. }
      assert (Hrl : blen (rev l) = blen l) by (unfold blen; now rewrite rev_length).
      destruct b; try (cbn; lia). destruct (has_nul (rev l)); [cbn; lia|]. destruct (valid_utf8 (rev l)); [lia|cbn; lia]. }
    change (blen (to_str (s_data r) ++ [x00]) < 2 ^ 63). rewrite blen_app, blen_cons, blen_nil.
    change (blen (s_data r) < 2 ^ 63) in Hl. lia.
  - rewrite E. destruct (fine_bytes h (s_data r) a1 a2 Hl H1 H2) as (b & -> & Hb). cbn [bind].
    eexists. split; [reflexivity|]. split; assumption.
Qed.
(** Casting only to copy: empty data of a type other than a slice is harmless. *)
Lemma cast_copy h t s a3 a4 : usable t -> slice_ok (sp_align t) s -> near a3 -> near a4 ->
  ~ (s_data s = [] /\ sp_fixed_array t = true /\ s_addr s mod sp_align t <> 0) ->
  exists o, (let* r := cast h t s in to_owned h t r a3 a4) = Ok o /\ promised h (ObOwned t o).
Proof.
  intros Hu Hs H3 H4 Hd. pose proof Hs as (_ & Ha & Hl).
  destruct (s_data s) as [|x d] eqn:Ed.
  - destruct (sp_fixed t) eqn:Ef.
    + destruct (cast_closed h t s Hu Hs) as (r & -> & Hr); [intros (_ & H & _); congruence|]. cbn [bind].
      destruct Hr as (_ & _ & Hr1 & Hr2). now apply to_owned_good.
    + destruct (sp_fixed_array t) eqn:Efa.
      * destruct (cast_closed h t s Hu Hs) as (r & -> & Hr); [intros (_ & _ & H); apply Hd; auto|]. cbn [bind].
        destruct Hr as (_ & _ & Hr1 & Hr2). now apply to_owned_good.
      * unfold sp_fixed in Ef. rewrite sp_size_of in Ef. destruct (size_of t) eqn:En; [discriminate|].
        rewrite cast_var by assumption. cbn [bind]. apply to_owned_good; auto.
        -- apply ref_size_good. unfold size_good. rewrite En. destruct t; try exact I.
           unfold sp_fixed_array in Efa. rewrite sp_size_of in Efa. destruct (size_of t); [discriminate|exact I].
        -- right. rewrite Ed. reflexivity.
  - destruct (cast_closed h t s Hu Hs) as (r & -> & Hr); [intros (H & _); congruence|]. cbn [bind].
    destruct Hr as (_ & _ & Hr1 & Hr2). now apply to_owned_good.
Qed.

(** ** Changing a buffer *)
Lemma ranges_within n ops o k : n < 2 ^ 63 -> ops_wf 8 ops -> sp_ranges n ops = Some (o, k) -> o + k <= n.
Proof.
  intros Hn Hw E. set (s := Slice 0 (nuls n)).
  assert (Hs : slen s = n) by (unfold slen, s; cbn [s_data]; unfold nuls, blen; rewrite repeat_length; lia).
  pose proof (run_ops_any (Host false false false 0 0) ops 8 s aligned_alignment8 (or_introl eq_refl)
    ltac:(unfold usize_lim; lia) Hw) as H.
  rewrite Hs, E in H. tauto.
Qed.
Lemma plain_mut_len big d m d' : len d < 2 ^ 63 -> mut_op_wf m ->
  match m with MOp (BWith f _ _) => forall d, len d < 2 ^ 63 -> len (f d) < 2 ^ 63 | _ => True end ->
  plain_mut_op big d m = Some d' -> len d' < 2 ^ 63.
Proof.
  intros Hl Hw Hf. destruct m as [o|ops i x|ops junk t p r]; cbn [plain_mut_op mut_op_wf] in *.
  - destruct o as [i x|f a1 a2|a2]; cbn [plain_op].
    + change (len d) with (blen d) at 1. destruct (i <? blen d) eqn:E; [|discriminate].
      rewrite <- upd_split by lia. intros H'. injection H' as <-. unfold len. rewrite upd_length. exact Hl.
    + intros H'. injection H' as <-. apply Hf. exact Hl.
    + intros H'. injection H' as <-. exact Hl.
  - destruct Hw as [Hw _]. destruct (sp_ranges (len d) ops) as [[o n]|] eqn:E; [|discriminate].
    pose proof (ranges_within (len d) ops o n Hl Hw E) as Hle. destruct (i <? n) eqn:Ei; [|discriminate].
    intros H. injection H as <-. rewrite overwrite_splice.
    change (blen (splice d (o + i) [x]) < 2 ^ 63). rewrite splice_len; [exact Hl|].
    change (blen [x]) with 1. change (blen d) with (len d). lia.
  - destruct Hw as (Hw & _ & [Hm _] & Hfx & o' & c & Hp & Hr & Hfi).
    destruct (sp_ranges (len d) ops) as [[o n]|] eqn:E; [|discriminate].
    pose proof (ranges_within (len d) ops o n Hl Hw E) as Hle. rewrite Hp.
    destruct (sp_size t) as [k|] eqn:Ek; [|intros H; injection H as <-; exact Hl]. rewrite sp_size_of in Ek.
    destruct (n =? k) eqn:En; intros H; injection H as <-; [|exact Hl].
    destruct (member_exact big p t k o' c Ek Hm Hp) as (_ & Hmc & m & Hcm & Hom & _).
    assert (Him : blen (sp_image big c r) = m).
    { destruct (image_exact (Host big false false 0 0) (fun _ => x00) c m r Hcm Hmc Hr Hfi) as (_ & Him & _). exact Him. }
    rewrite overwrite_splice. change (blen (splice d (o + o') (sp_image big c r)) < 2 ^ 63).
    rewrite splice_len; [exact Hl|]. change (blen d) with (len d). lia.
Qed.

(** ** Iterators *)
Lemma step_iter h x s i : usable x -> is_fixed x = false -> aligned (align_of x) s -> slen s < 2 ^ 63 -> i <= arr_n (s_data s) ->
  let p := nfwa_step h x (iter_at s i) in
  (exists j, j <= arr_n (s_data s) /\ fst p = iter_at s j) /\
  match snd p with
  | Ok (Some r) => ref_good x r
  | Ok None => True
  | Crash c => calm c
  end.
Proof.
  intros Hu Hf Ha Hl Hi. cbv zeta. destruct (N.eq_dec i (arr_n (s_data s))) as [->|Hne].
  - rewrite step_end. cbn [fst snd]. split; [exists (arr_n (s_data s)); split; [lia|reflexivity]|exact I].
  - rewrite step_ok by (try apply Hu; auto; unfold usize_lim; lia). cbn [fst snd]. split.
    + destruct (overflows _); eexists; (split; [|reflexivity]); lia.
    + assert (En : size_of x = None) by (unfold is_fixed in Hf; destruct (size_of x); [discriminate|reflexivity]).
      pose proof (elem_at_safe h x s i (proj1 Hu) Ha En) as H. destruct (elem_at h x s i) as [r|c]; cbn [bind].
      * destruct H as [Hr Hp]. apply ref_good_iff. split; [now apply usable_readable|]. split; [exact Hr|]. right.
        pose proof (placed_len h x s r Hp Hr Hf). lia.
      * now apply calm_bad in H.
Qed.
Lemma after_at h x s n : usable x -> is_fixed x = false -> aligned (align_of x) s -> slen s < 2 ^ 63 -> forall i, i <= arr_n (s_data s) ->
  exists j, j <= arr_n (s_data s) /\ after h x n (iter_at s i) = iter_at s j.
Proof.
  intros Hu Hf Ha Hl. induction n as [|n IH]; intros i Hi; cbn [after]; [eauto|].
  destruct (step_iter h x s i Hu Hf Ha Hl Hi) as [(j & Hj & ->) _]. now apply IH.
Qed.
Lemma after_S h x n it : after h x (S n) it = fst (nfwa_step h x (after h x n it)).
Proof. revert it. induction n as [|n IH]; intros it; [reflexivity|]. cbn [after] in *. now rewrite IH. Qed.
Lemma usable_item x : usable (TA x) -> usable x.
Proof. intros H. apply (usable_part _ x (or_introl eq_refl) H). Qed.
Lemma iter_step h x it : promised h (ObIter x it) ->
  let p := nfwa_step h x it in promised h (ObIter x (fst p)) /\ fine h (opt (ObView x) (snd p)).
Proof.
  cbn [promised]. intros (Hf & s & it0 & n & Hs & E0 & ->). cbv zeta. rewrite fixed_spec in Hf.
  pose proof Hs as (Hu & Ha & _ & Hl). apply usable_item in Hu. change (sp_align (TA x)) with (sp_align x) in Ha. rewrite sp_align_of in Ha.
  destruct Hl as [Hl|Hl]; [unfold sp_fixed in Hl; discriminate|].
  assert (E1 : it0 = iter_at s 0).
  { rewrite nfwa_into_iter_ok in E0 by (auto; unfold usize_lim, slen; change (blen (s_data s)) with (len (s_data s)); lia). congruence. }
  subst it0. split.
  - rewrite fixed_spec. split; [exact Hf|]. exists s, (iter_at s 0), (S n). rewrite after_S. auto.
  - destruct (after_at h x s n Hu Hf Ha Hl 0 ltac:(lia)) as (j & Hj & ->).
    destruct (step_iter h x s j Hu Hf Ha Hl Hj) as [_ H]. destruct (snd _) as [[r|]|c]; cbn [opt bind fine]; auto.
Qed.

(** ** Comparing types *)
Lemma ty_eqb_eq a : forall b, ty_eqb a b = true -> a = b.
Proof.
  induction a using ty_ind'; intros b E; destruct b; try discriminate E; try reflexivity; cbn [ty_eqb] in E.
  - f_equal. auto.
  - f_equal. auto.
  - f_equal. revert ts0 E. induction H as [|x xs Hx HF IH]; intros [|y ys] E; try discriminate E; [reflexivity|].
    apply andb_true_iff in E as [E1 E2]. f_equal; auto.
  - apply andb_true_iff in E as [E1 E2]. f_equal; auto.
Qed.
(** ** Writing *)
Lemma written_fine h t r a : usable t -> rtyped t r -> near a ->
  len (sp_written (h_big_endian h) t (rvalue true (h_big_endian h) t r)) < 2 ^ 63 -> fine h (written h t r a).
Proof.
  intros Hu Hr Ha Hl. unfold written. destruct (rgood t r) eqn:E.
  - apply rgood_iff in E. rewrite (ser_claim h t r None Hu Hr E Hl). cbn [sp_deliver k_out fine].
    constructor; [|constructor]. split; assumption.
  - assert (Hn : ~ no_nuls t r) by (intros H; apply rgood_iff in H; congruence).
    destruct (nul_claim h t r Hu Hr Hn Hl) as (s & d1 & d2 & _ & _ & _ & H). rewrite (H None). cbn [sp_deliver fine]. exact calm_unwrap.
Qed.
Lemma within_len s r : within s r -> slen r <= slen s.
Proof. intros (b & e & Hb & He & ->). rewrite slen_part by assumption. lia. Qed.

(** ** Queries *)
Definition answers {A : Type} (m : res A) : Prop := match m with Ok _ => True | Crash c => calm c end.
Lemma answers_unit {A : Type} h (m : res A) : answers m -> fine h (unit_ m).
Proof. destruct m; cbn; [constructor|auto]. Qed.
Lemma answers_bind {A B : Type} (m : res A) (f : A -> res B) : answers m -> (forall x, answers (f x)) -> answers (bind m f).
Proof. destruct m; cbn; auto. Qed.
Lemma answers_bad {A : Type} h t n (m : res A) : good_or_bad h t n m -> answers m.
Proof. destruct m; cbn; [auto|]. apply calm_bad. Qed.
Lemma slice_eq_answers (eqs : list (slice -> res bool)) : forall rs,
  (forall e r, In e eqs -> In r rs -> answers (e r)) -> answers (slice_eq_seq eqs rs).
Proof.
  induction eqs as [|e eqs IH]; intros [|r rs] H; cbn [slice_eq_seq]; try exact I.
  apply answers_bind; [apply H; now left|]. intros [|]; [|exact I]. apply IH. intros. apply H; now right.
Qed.
Lemma nfwa_eq_answers h x (eqs : list (slice -> res bool)) a : aligned (align_of x) a -> macro_ok x = true -> size_of x = None ->
  slen a < usize_lim -> (forall e r, In e eqs -> good_elem h (TA x) x a r -> answers (e r)) ->
  forall i, i <= arr_n (s_data a) -> answers (nfwa_eq_seq h x eqs (iter_at a i)).
Proof.
  intros Ha Hm Hn Hl. induction eqs as [|e eqs IH]; intros He i Hi; cbn [nfwa_eq_seq];
    (destruct (N.eq_dec i (arr_n (s_data a))) as [->|Hne]; [rewrite nfwa_next_end; exact I|]);
    rewrite nfwa_next_ok by (auto; lia); pose proof (elem_at_safe h x a i Hm Ha Hn) as Sa;
    (destruct (elem_at h x a i) as [r|]; cbn [bind fst snd answers]; [|eapply calm_bad; exact Sa]); [exact I|].
  apply answers_bind; [apply He; [now left|exact Sa]|]. intros [|]; [|exact I]. apply IH; [|lia]. intros. apply He; [now right|assumption].
Qed.
Section RhsInd.
  Variable P : rhs -> Prop.
  Hypothesis Hv : forall j, P (RhView j).
  Hypothesis Hb : forall b, P (RhBool b).
  Hypothesis Hs : forall d, P (RhStr d).
  Hypothesis Ht : forall j, P (RhText j).
  Hypothesis Hl : forall l, Forall P l -> P (RhSeq l).
  Hypothesis Ho : forall o, P (RhOption o).
  Fixpoint rhs_ind' (n : rhs) : P n :=
    match n with
    | RhView j => Hv j
    | RhBool b => Hb b
    | RhStr d => Hs d
    | RhText j => Ht j
    | RhSeq l => Hl l ((fix go (l : list rhs) : Forall P l :=
                          match l with [] => Forall_nil _ | n :: l => Forall_cons _ (rhs_ind' n) (go l) end) l)
    | RhOption o => Ho o
    end.
End RhsInd.
Fixpoint rhs_natives (env : list obj) (x : ty) (l : list rhs) : option (list native) :=
  match l with
  | [] => Some []
  | n :: l => match rhs_native env x n, rhs_natives env x l with Some m, Some ms => Some (m :: ms) | _, _ => None end
  end.
Lemma rhs_seq env x l : rhs_native env (TA x) (RhSeq l) = match rhs_natives env x l with Some ms => Some (NSeq ms) | None => None end.
Proof.
  cbn [rhs_native]. match goal with |- match ?g l with _ => _ end = _ => assert (E : g l = rhs_natives env x l) end.
  { induction l as [|n l IH]; [reflexivity|]. cbn [rhs_natives]. now rewrite IH. }
  now rewrite E.
Qed.
Lemma native_answers h env : Forall (promised h) env -> forall n t r m, readable t -> ref_ok t r -> short t r ->
  rhs_native env t n = Some m -> answers (eq_native h t r m).
Proof.
  intros He. pose proof (fun i o => get_good h env i o He) as Hget.
  induction n as [j|b|d|j|l IH|o] using rhs_ind'; intros t r m H1 H2 H3 E.
  - cbn [rhs_native] in E. destruct (nth_error env j) as [[| | | |t' q| | | |]|] eqn:Ej; try discriminate E.
    destruct (ty_eqb t t') eqn:Et; [|discriminate E]. apply ty_eqb_eq in Et as <-. injection E as <-.
    apply Hget in Ej. cbn [promised] in Ej. apply ref_good_iff in Ej as (Q1 & Q2 & Q3). cbn [eq_native].
    eapply answers_bad. now apply eq_safe.
  - cbn [rhs_native] in E. destruct t; try discriminate E. injection E as <-. exact I.
  - cbn [rhs_native] in E. destruct t; try discriminate E; injection E as <-; exact I.
  - cbn [rhs_native] in E. destruct t; try discriminate E; (destruct (nth_error env j) as [[]|]; try discriminate E); injection E as <-; exact I.
  - destruct t as [| | | | | | | | | | | | |x| | | ]; try discriminate E. rewrite rhs_seq in E.
    destruct (rhs_natives env x l) as [ms|] eqn:El; [|discriminate E]. injection E as <-.
    pose proof (readable_part _ x (or_introl eq_refl) H1) as Hx. pose proof Hx as [Hm _].
    assert (Hs : forall e r', In e (map (fun m r => eq_native h x r m) ms) -> ref_ok x r' -> short x r' -> answers (e r')).
    { intros e r' Hin R1 R2. apply in_map_iff in Hin as (m & <- & Hin). clear -IH El Hin R1 R2 Hx.
      revert ms El Hin. induction IH as [|n l Hn HF IHl]; intros ms El Hin; cbn [rhs_natives] in El.
      - injection El as <-. contradiction.
      - destruct (rhs_native env x n) as [m0|] eqn:E0; [|discriminate El].
        destruct (rhs_natives env x l) as [ms0|]; [|discriminate El]. injection El as <-.
        destruct Hin as [->|Hin]; [now apply Hn|now apply (IHl ms0)]. }
    destruct H3 as [Hf|Hla]; [discriminate|]. pose proof H2 as [Haa _]. change (align_of (TA x)) with (align_of x) in Haa.
    cbn [eq_native]. destruct (size_of x) as [n|] eqn:En.
    + rewrite (mem_layout_ok x n) in * by assumption. destruct (_ =? _); [|exact I].
      destruct (slice_elems_ok x n r En H2) as [_ Fa]. rewrite Forall_forall in Fa.
      apply slice_eq_answers. intros e q Hi Hq. apply Hs; [exact Hi|now apply Fa|]. left. unfold is_fixed. now rewrite En.
    + rewrite nfwa_len_ok by (unfold usize_lim; lia). cbn [bind]. destruct (_ =? _); [|exact I].
      rewrite nfwa_into_iter_ok by (auto; unfold usize_lim; lia). cbn [bind].
      apply nfwa_eq_answers; auto; [unfold usize_lim; lia| |lia].
      intros e q Hi [Q1 Q2]. apply Hs; [exact Hi|exact Q1|]. right.
      assert (Ef : is_fixed x = false) by (unfold is_fixed; now rewrite En).
      pose proof (placed_len h x r q Q2 Q1 Ef). lia.
  - cbn [rhs_native] in E. destruct t as [| | | | | | | | | | | | | |x| | ]; try discriminate E. destruct (is_fixed x) eqn:Ef; [|discriminate E].
    pose proof (readable_part _ x (or_intror eq_refl) H1) as Hx.
    assert (En : exists n, size_of x = Some n) by (unfold is_fixed in Ef; destruct (size_of x); [eauto|discriminate]). destruct En as [n En].
    pose proof H2 as [Ha _]. change (align_of (TM x)) with (align_of x) in Ha.
    assert (G : forall o, (forall q, o = Some q -> readable x /\ ref_ok x q /\ short x q) -> answers (eq_native h (TM x) r (NOption o))).
    { intros o' Ho. cbn [eq_native]. rewrite En. pose proof (access_safe h (TM x) r AcOption H1 H2 H3 I) as HA. cbn [run_access] in HA.
      destruct (to_option h x r) as [oa|c]; cbn [bind] in *.
      2:{ destruct HA as [HA|(i & HA & _)]; [eapply calm_bad; exact HA|discriminate]. }
      destruct oa as [a|], o' as [q|]; try exact I. destruct (Ho q eq_refl) as (Q1 & Q2 & Q3). destruct HA as (_ & A1 & _).
      eapply answers_bad. apply eq_safe; auto. now left. }
    destruct o as [j|].
    + destruct (nth_error env j) as [[| | | |t' q| | | |]|] eqn:Ej; try discriminate E.
      destruct (ty_eqb x t') eqn:Et; [|discriminate E]. apply ty_eqb_eq in Et as <-. injection E as <-.
      apply G. intros q' [= <-]. apply Hget in Ej. cbn [promised] in Ej. now apply ref_good_iff in Ej.
    + injection E as <-. apply G. discriminate.
Qed.
Lemma promised_iter h x it : promised h (ObIter x it) -> exists s j, slen s < 2 ^ 63 /\ j <= arr_n (s_data s) /\ it = iter_at s j.
Proof.
  cbn [promised]. intros (Hf & s & it0 & n & Hs & E0 & ->). rewrite fixed_spec in Hf.
  pose proof Hs as (Hu & Ha & _ & Hl). apply usable_item in Hu. change (sp_align (TA x)) with (sp_align x) in Ha. rewrite sp_align_of in Ha.
  destruct Hl as [Hl|Hl]; [unfold sp_fixed in Hl; discriminate|].
  rewrite nfwa_into_iter_ok in E0 by (auto; unfold usize_lim, slen; change (blen (s_data s)) with (len (s_data s)); lia). injection E0 as <-.
  destruct (after_at h x s n Hu Hf Ha Hl 0 ltac:(lia)) as (j & Hj & ->). exists s, j. auto.
Qed.
Lemma promised_gs h g : promised h (ObGString g) -> exists s, gs_holds g s.
Proof.
  intros (s & Gs & Gd & Gc). exists s. split; [exact Gd|]. split; [exact Gs|].
  rewrite Gd in Gc. change (blen (s ++ [x00]) <= g_cap g) in Gc. rewrite blen_app, blen_cons, blen_nil in Gc. lia.
Qed.
Lemma holds_promised h g s : gs_holds g s -> promised h (ObGString g).
Proof.
  intros (Gd & Gs & Gc). exists s. split; [exact Gs|]. split; [exact Gd|]. rewrite Gd. change (blen (s ++ [x00]) <= g_cap g).
  rewrite blen_app, blen_cons, blen_nil. lia.
Qed.
Lemma clone_holds g s c : gs_holds g s -> gs_holds (GS (g_data g) (with_cap (blen (g_data g)) c)) s.
Proof.
  intros (Gd & Gs & Gc). split; [exact Gd|]. split; [exact Gs|]. cbn [g_cap]. unfold with_cap. rewrite Gd, blen_app, blen_cons, blen_nil. lia.
Qed.
Lemma ask_answers h env q : Forall (promised h) env -> answers (ask h env q).
Proof.
  intros He. pose proof (fun i o => get_good h env i o He) as Hget.
  destruct q as [i k|i j|i|i n|i j|i j|i]; cbn [ask].
  - destruct (nth_error env i) as [[A s| | | | | | | |]|]; try exact calm_compile. destruct (nth_error (s_data s) _); [exact I|exact calm_index].
  - destruct (nth_error env i) as [[A s| | | | | | | |]|]; try exact calm_compile.
    destruct (nth_error env j) as [[B s'| | | | | | | |]|]; try exact calm_compile. destruct (A =? B); [exact I|exact calm_compile].
  - destruct (nth_error env i) as [[| | | | | |x it| |]|] eqn:E; try exact calm_compile. apply Hget in E.
    destruct (promised_iter h x it E) as (s & j & Hl & Hj & ->). rewrite nfwa_size_hint_ok by exact Hj. exact I.
  - destruct (nth_error env i) as [[| | | |t r| | | |]|] eqn:E; try exact calm_compile. apply Hget in E. cbn [promised] in E.
    apply ref_good_iff in E as (H1 & H2 & H3). destruct (rhs_native env t n) as [m|] eqn:Em; [|exact calm_compile].
    apply answers_bind; [|intros; exact I]. now apply (native_answers h env He n).
  - destruct (nth_error env i) as [[]|]; try exact calm_compile. destruct (nth_error env j) as [[]|]; try exact calm_compile. exact I.
  - destruct (nth_error env i) as [[]|]; try exact calm_compile. destruct (nth_error env j) as [[]|]; try exact calm_compile. exact I.
  - destruct (nth_error env i) as [[| | | | | | |g|]|] eqn:E; try exact calm_compile. apply Hget in E.
    destruct (promised_gs h g E) as (s & Hh). destruct (gs_observe h g s Hh) as (_ & -> & _). exact I.
Qed.


(** ** One call *)
Lemma calls_good h env p : Forall (promised h) env -> possible h env p -> ~ door env p -> good_step h (step h env p).
Proof.
  intros He Hp Hd. pose proof (fun i o => get_good h env i o He) as Hget. pose proof (bad_good h env He) as Hbad.
  destruct p as [v|i|i a|i|i m|i|i o|i B|i A a1 a2|i|i t|i t|i a|i|i|i|i|i|i F|i j|i j|i|i|i a1 a2|i t a1 a2|i t a|i
                |i t a1 a2 a3 a4|i t a2 a3 a4|t r a|i a|c|s cap c|i o|i|i|i a|i c|i|i a| |q]; cbn [possible door step] in *.
  - apply made_good; [exact He|]. cbn [fine]. repeat constructor; apply Hp.
  - destruct (nth_error env i) as [[| v | | | | | | |]|] eqn:E; try exact Hbad. apply Hget in E. cbn [promised] in E.
    apply made_good; [exact He|]. cbn [fine]. constructor; [|constructor]. cbn [promised]. split; [left; reflexivity|].
    split; [intros _; apply N.mod_1_r|apply E].
  - destruct (nth_error env i) as [[| v | | | | | | |]|] eqn:E; try exact Hbad. apply Hget in E. cbn [promised] in E.
    apply made_good; [exact He|]. destruct (fine_buf h v a) as (b & -> & Hb); try apply E; [exact Hp|].
    cbn [one bind fine]. constructor; [exact Hb|constructor].
  - destruct (nth_error env i) as [[| | b | | | | | |]|] eqn:E; try exact Hbad. apply Hget in E. cbn [promised] in E.
    apply made_good; [exact He|]. destruct (buf_ok_holds b E) as (d & Hh & Hg & Hl). unfold buf_into_vec.
    destruct (vec_unalign_ok h b d Hh Hg) as (w & -> & Hd1 & Hd2). cbn [one bind fine]. constructor; [|constructor]. cbn [promised].
    rewrite Hd1, Hd2. split; [exact Hg|exact Hl].
  - destruct (nth_error env i) as [[| | b | | | | | |]|] eqn:E; try exact Hbad. apply Hget in E. cbn [promised] in E.
    destruct Hp as [Hw Hf]. destruct (buf_ok_holds b E) as (d & Hh & Hg & Hl).
    pose proof (run_mut_op_ok h b d m Hh Hg ltac:(unfold usize_lim; change (blen d) with (len d); lia) Hw) as H.
    destruct (plain_mut_op (h_big_endian h) d m) as [d'|] eqn:Em.
    + destruct H as (b' & -> & H1 & H2 & _). split; cbn [fst snd]; [|exact I]. apply put_good; [exact He|]. cbn [promised].
      apply (holds_buf_ok b' d' H1 H2). exact (plain_mut_len _ d m d' Hl Hw Hf Em).
    + rewrite H. split; [exact He|exact calm_index].
  - destruct (nth_error env i) as [[| | b | | | | | |]|] eqn:E; try exact Hbad. apply Hget in E. cbn [promised] in E.
    apply made_good; [exact He|]. destruct (deref_slice h b E) as (s & -> & Hs & _). cbn [one bind fine]. constructor; [exact Hs|constructor].
  - destruct (nth_error env i) as [[A s| | | | | | | |]|] eqn:E; try exact Hbad. specialize (Hp A s eq_refl). apply Hget in E. cbn [promised] in E.
    apply made_good; [exact He|]. now apply slice_step.
  - destruct (nth_error env i) as [[A s| | | | | | | |]|] eqn:E; try exact Hbad. apply Hget in E. cbn [promised] in E.
    apply made_good; [exact He|]. rewrite try_as_aligned_always. cbn [opt bind fine]. constructor; [|constructor]. cbn [promised].
    destruct E as (HA & Ha & Hl). split; [exact Hp|]. split; [|exact Hl]. intros Hne.
    destruct (N.eq_dec (s_addr s mod B) 0) as [Hz|Hz]; [exact Hz|]. exfalso. apply Hd. exists A, s. auto.
  - destruct (nth_error env i) as [[A0 s| | | | | | | |]|] eqn:E; try exact Hbad. destruct (A0 =? 1); [|exact Hbad]. apply Hget in E. cbn [promised] in E.
    apply made_good; [exact He|]. destruct E as (_ & _ & Hl). destruct Hp as (HA & H1 & H2).
    destruct (copy_slice h A s a1 a2 HA H1 H2 Hl) as (c & -> & Hc). cbn [one bind fine]. constructor; [exact Hc|constructor].
  - destruct (nth_error env i) as [[| | |A c| | | | |]|] eqn:E; try exact Hbad. apply Hget in E.
    apply made_good; [exact He|]. destruct (cow_ref_ok h A c E) as (s & -> & Hs). cbn [one bind fine]. constructor; [exact Hs|constructor].
  - destruct (nth_error env i) as [[A s| | | | | | | |]|] eqn:E; try exact Hbad. destruct (A =? trait_align t) eqn:EA; [|exact Hbad].
    apply N.eqb_eq in EA. rewrite trait_align_of, <- sp_align_of in EA. subst A. pose proof (Hget _ _ E) as Hs. cbn [promised] in Hs.
    apply made_good; [exact He|]. destruct (cast_closed h t s Hp Hs) as (r & -> & Hr).
    { intros H. apply Hd. exists s. tauto. }
    cbn [one bind fine]. constructor; [exact Hr|constructor].
  - destruct (nth_error env i) as [[A s| | | | | | | |]|] eqn:E; try exact Hbad. destruct (A =? trait_align t) eqn:EA; [|exact Hbad].
    apply N.eqb_eq in EA. rewrite trait_align_of, <- sp_align_of in EA. subst A. pose proof (Hget _ _ E) as Hs. cbn [promised] in Hs.
    apply made_good; [exact He|].
    assert (Hn : exists n, sp_size t = Some n) by (cbn [In] in Hp; intuition (subst; eexists; reflexivity)). destruct Hn as [n Hn].
    assert (Hu : usable (TA t)) by (cbn [In] in Hp; intuition (subst; split; reflexivity)).
    assert (Ha : aligned (sp_align t) s).
    { destruct Hs as (_ & Ha & _). destruct (s_data s) as [|x d] eqn:Ed; [|apply Ha; discriminate].
      destruct (N.eq_dec (s_addr s mod sp_align t) 0) as [Hz|Hz]; [exact Hz|]. exfalso. apply Hd. exists s. auto. }
    destruct (try_into_claim h t n s Hp Hn Ha) as [H1 H2].
    destruct (N.eq_dec (len (s_data s) mod n) 0) as [Hz|Hz].
    + rewrite H1 by exact Hz. cbn [opt bind fine]. constructor; [|constructor]. cbn [promised]. split; [exact Hu|]. split; [exact Ha|].
      split; [unfold sp_ref_size; cbn [sp_size]; now rewrite Hn|right; apply Hs].
    + rewrite H2 by exact Hz. cbn [opt bind fine]. constructor.
  - destruct (nth_error env i) as [[| | | |t r| | | |]|] eqn:E; try exact Hbad. apply Hget in E. cbn [promised] in E.
    apply made_good; [exact He|]. apply ref_good_iff in E as (H1 & H2 & H3).
    pose proof (access_safe h t r a H1 H2 H3 Hp) as HA. destruct (run_access h t r a) as [[[t2 r2]|]|c]; cbn [opt bind fine fst snd].
    + constructor; [|constructor]. cbn [promised]. apply ref_good_iff. destruct HA as (A1 & A2 & A3 & A4).
      split; [exact A1|]. split; [exact A2|]. destruct (is_fixed t2) eqn:Ef; [now left|right].
      pose proof (placed_len h t2 r r2 A3 A2 Ef). destruct H3 as [H3|H3]; [now apply A4 in H3|lia].
    + constructor.
    + destruct HA as [HA|(k & _ & [->|[-> _]])]; [now apply calm_bad in HA|exact calm_index|exact calm_overflow].
  - destruct (nth_error env i) as [[| | | |t r| | | |]|] eqn:E; try exact Hbad. apply Hget in E. cbn [promised] in E.
    destruct t; try exact Hbad. apply made_good; [exact He|].
    destruct E as (_ & Ha & _ & [Hf|Hl]); [discriminate Hf|]. change (sp_align TV) with 8 in Ha.
    destruct (variant_split_ok h r Ha) as (ts & dat & -> & Hdat & _ & Hpl). cbn [bind fine fst snd].
    change (len (s_data r)) with (slen r) in Hl.
    assert (Hls : slen ts < 2 ^ 63 /\ slen dat < 2 ^ 63).
    { destruct Hpl as [[W1 W2]|(-> & _ & Hz)].
      - apply within_len in W1, W2. lia.
      - split; [reflexivity|]. unfold slen. rewrite Hz. reflexivity. }
    destruct Hls as [Hl1 Hl2]. constructor; [|constructor; [|constructor]]; cbn [promised].
    + split; [left; reflexivity|]. split; [intros _; apply N.mod_1_r|exact Hl1].
    + split; [exact aligned_alignment8|]. split; [intros _; exact Hdat|exact Hl2].
  - destruct (nth_error env i) as [[| | | |t r| | | |]|] eqn:E; try exact Hbad. apply Hget in E. cbn [promised] in E.
    destruct t; try exact Hbad. destruct (is_fixed t) eqn:Ef; (apply made_good; [exact He|]); [constructor|].
    destruct E as (_ & _ & _ & [Hf|Hl]); [discriminate Hf|].
    rewrite nfwa_len_ok by (unfold usize_lim, slen; change (blen (s_data r)) with (len (s_data r)); lia). constructor.
  - destruct (nth_error env i) as [[| | | |t r| | | |]|] eqn:E; try exact Hbad. apply Hget in E. cbn [promised] in E.
    destruct t; try exact Hbad. destruct (is_fixed t) eqn:Ef; [exact Hbad|]. apply made_good; [exact He|].
    pose proof E as (_ & Ha & _ & [Hf|Hl]); [discriminate Hf|].
    change (sp_align (TA t)) with (sp_align t) in Ha. rewrite sp_align_of in Ha.
    rewrite nfwa_into_iter_ok by (auto; unfold usize_lim, slen; change (blen (s_data r)) with (len (s_data r)); lia).
    cbn [one bind fine]. constructor; [|constructor]. cbn [promised]. rewrite fixed_spec. split; [exact Ef|].
    exists r, (iter_at r 0), O. split; [exact E|]. split; [|reflexivity].
    apply nfwa_into_iter_ok; [exact Ha|]. unfold usize_lim, slen; change (blen (s_data r)) with (len (s_data r)); lia.
  - destruct (nth_error env i) as [[| | | | | |x it| |]|] eqn:E; try exact Hbad. apply Hget in E.
    destruct (iter_step h x it E) as [H1 H2]. destruct (nfwa_step h x it) as [it' m]. cbn [fst snd] in H1, H2.
    apply made_good; [now apply put_good|exact H2].
  - destruct (nth_error env i) as [[| | | |t r| | | |]|] eqn:E; try exact Hbad. apply Hget in E. cbn [promised] in E.
    apply made_good; [exact He|]. apply ref_good_iff in E as (H1 & H2 & H3). apply (fine_unit h t (slen r)). now apply read_safe.
  - destruct (nth_error env i) as [[| | | |t r| | | |]|] eqn:E; try exact Hbad. apply Hget in E. cbn [promised] in E.
    apply made_good; [exact He|]. apply ref_good_iff in E as (H1 & H2 & H3). apply (fine_unit h t (slen r)).
    pose proof (fmt_exact h F t H1 r H2 H3) as H. unfold FmtFacts.same in H. destruct (read h t r) as [v|c'].
    + rewrite H. exact I.
    + destruct H as (c'' & -> & Hb). exact Hb.
  - destruct (nth_error env i) as [[| | | |t r| | | |]|] eqn:E; try exact Hbad.
    destruct (nth_error env j) as [[| | | |t' q| | | |]|] eqn:E'; try exact Hbad.
    destruct (ty_eqb t t') eqn:Et; [|exact Hbad]. apply ty_eqb_eq in Et as <-.
    apply Hget in E, E'. cbn [promised] in E, E'. apply made_good; [exact He|].
    apply ref_good_iff in E as (H1 & H2 & H3). apply ref_good_iff in E' as (H4 & H5 & H6).
    apply (fine_unit h t (N.max (slen r) (slen q))). now apply eq_safe.
  - destruct (nth_error env i) as [[| | | |t r| | | |]|] eqn:E; try exact Hbad. destruct t as [| | | | | | | | | | | | | |x| | ]; try exact Hbad.
    destruct (nth_error env j) as [[| | | |t' q| | | |]|] eqn:E'; try exact Hbad. destruct t' as [| | | | | | | | | | | | | |x'| | ]; try exact Hbad.
    destruct (ty_eqb x x') eqn:Et; [|exact Hbad]. apply ty_eqb_eq in Et as <-.
    apply Hget in E, E'. cbn [promised] in E, E'. apply made_good; [exact He|].
    destruct E as (Hu & Ha & _). destruct E' as (_ & Ha' & _).
    change (sp_align (TM x)) with (sp_align x) in *. rewrite sp_align_of in *.
    pose proof (usable_part _ x (or_intror eq_refl) Hu) as Hux.
    unfold maybe_cmp. destruct (size_of x) as [n|] eqn:En; [|exact calm_compile].
    rewrite !(to_option_fixed h x _ n) by (auto; apply Hux). cbn [bind].
    destruct (slen r =? n), (slen q =? n); try constructor. destruct x; try exact calm_compile; constructor.
  - destruct (nth_error env i) as [[| | | |t r| | | |]|] eqn:E; try exact Hbad. destruct t as [| | | | | | | | | | | | | |x| | ]; try exact Hbad.
    apply Hget in E. cbn [promised] in E. apply made_good; [exact He|]. destruct E as (Hu & Ha & _).
    change (sp_align (TM x)) with (sp_align x) in *. rewrite sp_align_of in *.
    pose proof (usable_part _ x (or_intror eq_refl) Hu) as Hux.
    assert (G : forall n, size_of x = Some n -> fine h (unit_ (let* oa := to_option h x r in
       match oa with None => Ok [inl 0%Z] | Some q => Ok [inl 1%Z; inr (s_data q)] end))).
    { intros n En. rewrite (to_option_fixed h x r n) by (auto; apply Hux). cbn [bind]. destruct (slen r =? n); constructor. }
    destruct x; try exact calm_compile; (eapply G; reflexivity).
  - destruct (nth_error env i) as [[| | | |t r| | | |]|] eqn:E; try exact Hbad.
    destruct t; try exact Hbad; (apply made_good; [exact He|]); cbn [fine]; (constructor; [apply to_str_good|constructor]).
  - destruct (nth_error env i) as [[| | | |t r| | | |]|] eqn:E; try exact Hbad. apply Hget in E. cbn [promised] in E.
    apply made_good; [exact He|]. destruct E as (Hu & _ & Hs & Hl). destruct Hp as [H1 H2].
    destruct (to_owned_good h t r a1 a2 Hu Hs Hl H1 H2) as (o & -> & Ho). cbn [one bind fine]. constructor; [exact Ho|constructor].
  - destruct (nth_error env i) as [[A s| | | | | | | |]|] eqn:E; try exact Hbad. apply Hget in E. cbn [promised] in E.
    apply made_good; [exact He|]. destruct Hp as (Hu & H1 & H2). destruct E as (_ & _ & Hl).
    destruct (fine_bytes h (s_data s) a1 a2 Hl H1 H2) as (b & -> & Hb). cbn [one bind fine].
    constructor; [split; assumption|constructor].
  - destruct (nth_error env i) as [[| v | | | | | | |]|] eqn:E; try exact Hbad. apply Hget in E. cbn [promised] in E.
    apply made_good; [exact He|]. destruct Hp as [Hu Ha]. destruct E as [H1 H2].
    destruct (fine_buf h v a H1 H2 Ha) as (b & -> & Hb). cbn [one bind fine]. constructor; [split; assumption|constructor].
  - destruct (nth_error env i) as [[| | | | |t o| | |]|] eqn:E; try exact Hbad. pose proof (Hget _ _ E) as Ho.
    apply made_good; [exact He|]. destruct o as [r|d|b]; cbn [owned_borrow promised] in *.
    + cbn [one bind fine]. constructor; [exact Ho|constructor].
    + cbn [one bind fine]. constructor; [|constructor]. destruct Ho as (Ht & Hl & _). cbn [promised].
      cbn [In] in Ht. destruct Ht as [<-|[<-|[<-|[]]]]; (split; [split; reflexivity|]);
        (split; [apply N.mod_1_r|]); (split; [exact I|right; exact Hl]).
    + destruct Ho as [Hu Hb]. unfold owned_deref. destruct (deref_slice h b Hb) as (s & -> & Hs & Hs1 & Hs2). cbn [bind].
      rewrite as_aligned_8. cbn [bind]. change (from_aligned_slice h t s) with (cast h t s).
      assert (HA : is_alignment (sp_align t)) by (rewrite sp_align_of; apply align_of_alignment).
      destruct (cast_closed h t s Hu) as (r & -> & Hr).
      * apply (slice_ok_le 8); auto using alignment_le8.
      * intros (Hz & Hf & Hm). apply Hd. exists t, b. split; [reflexivity|]. apply Hs2 in Hz. split; [exact Hz|]. split; [exact Hf|].
        rewrite (Hs1 Hz) in Hm. exact Hm.
      * cbn [one bind fine]. constructor; [exact Hr|constructor].
  - destruct (nth_error env i) as [[A s| | | | | | | |]|] eqn:E; try exact Hbad. pose proof (Hget _ _ E) as Hs. cbn [promised] in Hs.
    apply made_good; [exact He|]. destruct Hp as (Hu & H1 & H2 & H3 & H4). destruct Hs as (_ & _ & Hl).
    unfold from_bytes. rewrite trait_align_of, <- sp_align_of.
    assert (HA : is_alignment (sp_align t)) by (rewrite sp_align_of; apply align_of_alignment).
    destruct (copy_slice h (sp_align t) s a1 a2 HA H1 H2 Hl) as (c & Ec & Hc). rewrite Ec. cbn [bind].
    destruct (cow_ref_ok h (sp_align t) c Hc) as (q & Eq & Hq). rewrite Eq. cbn [bind].
    destruct (copy_to_align_ok h (sp_align t) s a1 a2 HA H1 H2) as (c' & q' & Ec' & Eq' & Hdq & _ & Hq1 & _).
    rewrite Ec in Ec'. injection Ec' as <-. rewrite Eq in Eq'. injection Eq' as <-.
    destruct (cast_copy h t q a3 a4 Hu Hq H3 H4) as (o & -> & Ho).
    { intros (Hz & Hf & Hm). apply Hd. exists A, s. split; [reflexivity|]. split; [congruence|]. split; [exact Hf|].
      intros Hm'. destruct (Hq1 Hm') as [_ ->]. contradiction. }
    cbn [one bind fine]. constructor; [exact Ho|constructor].
  - destruct (nth_error env i) as [[| v | | | | | | |]|] eqn:E; try exact Hbad. pose proof (Hget _ _ E) as Hv. cbn [promised] in Hv.
    apply made_good; [exact He|]. destruct Hp as (Hu & H2 & H3 & H4). destruct Hv as [Hv Hl].
    unfold deserialize. destruct (vec_align_spec h v a2 H2 Hv) as (b & Eb & Hh & Hg).
    unfold buf_from_vec. rewrite Eb. cbn [bind]. pose proof (holds_buf_ok b (v_data v) Hh Hg Hl) as Hb.
    destruct (deref_slice h b Hb) as (s & Es & Hs & Hs1 & Hs2). rewrite Es. cbn [bind]. rewrite as_aligned_8. cbn [bind].
    assert (HA : is_alignment (sp_align t)) by (rewrite sp_align_of; apply align_of_alignment).
    destruct (cast_copy h t s a3 a4 Hu) as (o & -> & Ho); auto.
    { apply (slice_ok_le 8); auto using alignment_le8. }
    { intros (Hz & Hf & Hm). apply Hd. exists v. split; [reflexivity|].
      assert (Hvz : v_data v = []).
      { destruct (buf_deref_ok h b (v_data v) Hh Hg) as (s' & Es' & Hs' & _). rewrite Es in Es'. injection Es' as <-. congruence. }
      split; [exact Hvz|]. split; [exact Hf|].
      assert (Ebv : b = v).
      { unfold vec_align in Eb. rewrite vec_is_aligned_spec in Eb. unfold vlen in Eb. rewrite Hvz in Eb. cbn in Eb. congruence. }
      subst b. rewrite (Hs1 Hvz) in Hm. exact Hm. }
    cbn [one bind fine]. constructor; [exact Ho|constructor].
  - apply made_good; [exact He|]. destruct Hp as (Hu & Hr & Ha & Hl). now apply written_fine.
  - destruct (nth_error env i) as [[| | | |t r| | | |]|] eqn:E; try exact Hbad. destruct Hp as [Ha Hp]. specialize (Hp t r).
    apply Hget in E. cbn [promised] in E.
    apply made_good; [exact He|]. pose proof E as (Hu & _). apply ref_good_iff in E as (H1 & H2 & H3).
    pose proof (view_means h t H1 r H2 H3) as HS. unfold ViewFacts.same in HS.
    pose proof (read_safe h t H1 r H2 H3) as HR.
    destruct (read h t r) as [v|c], (view_rval h t r) as [w|c']; try contradiction.
    + cbn [bind]. destruct HS as (W1 & _ & W3). apply written_fine; auto. rewrite W3. now apply Hp.
    + subst c'. cbn [bind fine]. now apply calm_bad in HR.
  - apply made_good; [exact He|]. cbn [fine]. constructor; [|constructor]. exists []. split; [apply good_nil|].
    split; [reflexivity|]. cbn [gs_new g_data g_cap]. unfold with_cap. change (len [x00]) with 1. lia.
  - apply made_good; [exact He|]. destruct Hp as [Hu Hc]. destruct (gs_try_from s cap c) as [g|] eqn:Eg; cbn [opt bind fine]; constructor; [|constructor].
    destruct (gs_init_ok s g (gi_from s cap c g Hu Hc Eg)) as (G1 & G2 & G3). exists s. split; [exact G2|]. split; [exact G1|].
    rewrite G1. change (blen (s ++ [x00]) <= g_cap g). rewrite blen_app, blen_cons, blen_nil. lia.
  - destruct (nth_error env i) as [[| | | | | | |g|]|] eqn:E; try exact Hbad. apply Hget in E. cbn [promised] in E.
    destruct E as (s & Gs & Gd & Gc).
    assert (Hh : gs_holds g s).
    { split; [exact Gd|]. split; [exact Gs|]. rewrite Gd in Gc. change (blen (s ++ [x00]) <= g_cap g) in Gc. rewrite blen_app, blen_cons, blen_nil in Gc. lia. }
    pose proof (run_gs_op_ok g s o Hh Hp) as H. destruct (run_gs_op g o) as [g' r'], (plain_gs_op s o) as [s' r'']. destruct H as [_ (G1 & G2 & G3)].
    cbn [fst]. split; cbn [fst snd]; [|exact I]. apply put_good; [exact He|]. cbn [promised]. exists s'. split; [exact G2|]. split; [exact G1|].
    rewrite G1. change (blen (s' ++ [x00]) <= g_cap g'). rewrite blen_app, blen_cons, blen_nil. lia.
  - destruct (nth_error env i) as [[| | | | | | |g|]|] eqn:E; try exact Hbad. apply Hget in E. cbn [promised] in E.
    destruct E as (s & Gs & Gd & Gc). apply made_good; [exact He|].
    assert (Hh : gs_holds g s).
    { split; [exact Gd|]. split; [exact Gs|]. rewrite Gd in Gc. change (blen (s ++ [x00]) <= g_cap g) in Gc. rewrite blen_app, blen_cons, blen_nil in Gc. lia. }
    destruct (gs_observe h g s Hh) as (-> & _). cbn [one bind fine]. constructor; [exact Gs|constructor].
  - destruct (nth_error env i) as [[| | | | | | |g|]|] eqn:E; try exact Hbad. apply Hget in E. cbn [promised] in E.
    destruct E as (s & Gs & Gd & Gc). apply made_good; [exact He|].
    assert (Hh : gs_holds g s).
    { split; [exact Gd|]. split; [exact Gs|]. rewrite Gd in Gc. change (blen (s ++ [x00]) <= g_cap g) in Gc. rewrite blen_app, blen_cons, blen_nil in Gc. lia. }
    destruct (gs_observe h g s Hh) as (_ & _ & _ & _ & -> & _). cbn [one bind fine]. constructor; [exact Gs|constructor].
  - destruct (nth_error env i) as [[| | | | | | |g|]|] eqn:E; try exact Hbad. specialize (Hp g eq_refl). apply made_good; [exact He|].
    cbn [fine]. constructor; [|constructor]. cbn [promised]. split; [split; reflexivity|]. split; [apply N.mod_1_r|].
    split; [exact I|right; exact Hp].
  - destruct (nth_error env i) as [[| | | | | | |g|]|] eqn:E; try exact Hbad. apply Hget in E. apply made_good; [exact He|].
    destruct (promised_gs h g E) as (s & Hh). cbn [fine]. constructor; [|constructor]. apply (holds_promised h _ s). now apply clone_holds.
  - destruct (nth_error env i) as [[| | | | | | |g|]|] eqn:E; try exact Hbad. apply Hget in E. apply made_good; [exact He|].
    destruct (promised_gs h g E) as (s & Hh). destruct (gs_observe h g s Hh) as (_ & _ & _ & -> & _). destruct Hh as (_ & Gs & _).
    cbn [fine]. constructor; [exact Gs|constructor].
  - destruct (nth_error env i) as [[| | | | | | | |s]|] eqn:E; try exact Hbad. destruct Hp as [Ha Hp]. specialize (Hp s eq_refl).
    apply made_good; [exact He|]. cbn [fine]. constructor; [|constructor]. cbn [promised]. split; [left; reflexivity|].
    split; [intros _; apply N.mod_1_r|exact Hp].
  - apply made_good; [exact He|]. cbn [fine]. constructor; [|constructor]. split; [reflexivity|]. exists [], []. cbn.
    split; [reflexivity|]. split; [reflexivity|]. split; [reflexivity|]. congruence.
  - apply made_good; [exact He|]. apply answers_unit. now apply ask_answers.
Qed.

(** ** The doors *)
Lemma fixed_array_traps h t s : usable t -> sp_fixed_array t = true -> s_data s = [] -> s_addr s mod sp_align t <> 0 ->
  cast h t s = Crash (sp_misaligned h).
Proof.
  intros Hu Hf Hs Hm. destruct (fixed_array_size t Hf) as (x & n & -> & Ex).
  change (sp_align (TA x)) with (sp_align x) in Hm. rewrite sp_align_of in Hm.
  unfold cast, from_aligned_slice, try_from_aligned_slice. cbn [size_of]. rewrite Ex.
  pose proof (usable_item x Hu) as Hx. rewrite (mem_layout_ok x n) by (auto; apply Hx). unfold cast_slice.
  change (trait_align (TA x)) with (trait_align x). rewrite trait_align_of, N.ltb_irrefl.
  pose proof (proj1 (size_of_props _ _ Ex)) as Hn. replace (n =? 0) with false by lia.
  unfold slen. rewrite Hs. replace (blen [] mod n) with 0 by (symmetry; apply N.mod_0_l; lia). rewrite N.eqb_refl.
  unfold is_aligned. replace (s_addr s mod align_of x =? 0) with false by lia. cbn [negb].
  unfold sp_misaligned. rewrite !andb_true_r. destruct (h_debug h); reflexivity.
Qed.
Lemma try_into_traps h t s : In t [TY; TN; TQ; TI; TU; TX; TT; TD] -> s_data s = [] -> s_addr s mod sp_align t <> 0 ->
  slice_try_into h t s = Crash (sp_misaligned h).
Proof.
  intros Ht Hs Hm. rewrite sp_align_of in Hm.
  assert (Hn : exists n, size_of t = Some n) by (cbn [In] in Ht; intuition (subst; eexists; reflexivity)). destruct Hn as [n Hn].
  assert (Hmc : macro_ok t = true) by (cbn [In] in Ht; intuition (subst; reflexivity)).
  assert (E : slice_try_into h t s = cast_slice h (align_of t) (n, align_of t) s).
  { unfold slice_try_into. rewrite (mem_layout_ok t n Hn Hmc), trait_align_of. cbn [In] in Ht. intuition (subst; reflexivity). }
  rewrite E. unfold cast_slice. rewrite N.ltb_irrefl.
  pose proof (proj1 (size_of_props _ _ Hn)) as Hnp. replace (n =? 0) with false by lia.
  unfold slen. rewrite Hs. replace (blen [] mod n) with 0 by (symmetry; apply N.mod_0_l; lia). rewrite N.eqb_refl.
  unfold is_aligned. replace (s_addr s mod align_of t =? 0) with false by lia. cbn [negb].
  unfold sp_misaligned. rewrite !andb_true_r. destruct (h_debug h); reflexivity.
Qed.
Lemma one_not_multiple t : forall a, a mod sp_align t <> 0 -> 1 mod sp_align t <> 0.
Proof.
  intros a. rewrite sp_align_of. destruct (align_of_alignment t) as [E|[E|[E|E]]]; rewrite E; try (intros _; discriminate).
  rewrite N.mod_1_r. congruence.
Qed.
Lemma last_broken h env o : ~ promised h o -> ~ Forall (promised h) (env ++ [o]).
Proof. intros Hn H. apply Forall_app in H as [_ H]. inversion H; subst. contradiction. Qed.
(** Casting through an open door. *)
Lemma cast_open h env t s : usable t -> s_data s = [] -> sp_fixed t = false -> s_addr s mod sp_align t <> 0 ->
  let p := made env (one (ObView t) (cast h t s)) in snd p = Some (sp_misaligned h) \/ ~ Forall (promised h) (fst p).
Proof.
  intros Hu Hs Hf Hm. cbv zeta. destruct (sp_fixed_array t) eqn:Efa.
  - rewrite fixed_array_traps by assumption. left. reflexivity.
  - assert (En : size_of t = None) by (rewrite fixed_spec in Hf; unfold is_fixed in Hf; destruct (size_of t); [discriminate|reflexivity]).
    rewrite cast_var by assumption. right. cbn [one bind made fst]. apply last_broken. cbn [promised]. intros (_ & Ha & _). contradiction.
Qed.
Lemma doors_open h env p : Forall (promised h) env -> possible h env p -> door env p ->
  snd (step h env p) = Some (sp_misaligned h) \/ ~ Forall (promised h) (fst (step h env p)).
Proof.
  intros He Hp Hd. pose proof (fun i o => get_good h env i o He) as Hget.
  destruct p as [v|i|i a|i|i m|i|i o|i B|i A a1 a2|i|i t|i t|i a|i|i|i|i|i|i F|i j|i j|i|i|i a1 a2|i t a1 a2|i t a|i
                |i t a1 a2 a3 a4|i t a2 a3 a4|t r a|i a|c|s cap c|i o|i|i|i a|i c|i|i a| |q]; cbn [possible door step] in *; try contradiction.
  - destruct Hd as (A & s & E & Hne & Hm). rewrite E. right. rewrite try_as_aligned_always. cbn [opt bind made fst].
    apply last_broken. cbn [promised]. intros (_ & Ha & _). auto.
  - destruct Hd as (s & E & Hz & Hf & Hm). rewrite E. rewrite trait_align_of, <- sp_align_of, N.eqb_refl. now apply cast_open.
  - destruct Hd as (s & E & Hz & Hm). rewrite E. rewrite trait_align_of, <- sp_align_of, N.eqb_refl.
    rewrite try_into_traps by assumption. left. reflexivity.
  - destruct Hd as (t & b & E & Hz & Hf & Hm). rewrite E. apply Hget in E. cbn [promised] in E. destruct E as [Hu _].
    cbn [owned_borrow]. unfold owned_deref. destruct b as [a d]. cbn [v_data v_addr] in *. subst d.
    rewrite buf_deref_empty. cbn [bind]. rewrite as_aligned_8. cbn [bind]. now apply cast_open.
  - destruct Hd as (A & s & E & Hz & Hf & Hm). rewrite E. destruct Hp as (Hu & _). left.
    unfold from_bytes, copy_to_align, is_aligned. rewrite trait_align_of, <- sp_align_of.
    replace (s_addr s mod sp_align t =? 0) with false by (symmetry; now apply N.eqb_neq). rewrite Hz.
    change (buf_from_vec h (to_vec [] a1) a2) with (@Ok vec vec_new). cbn [bind cow_as_ref]. unfold vec_new.
    rewrite buf_deref_empty. cbn [bind]. rewrite as_aligned_ok by (rewrite sp_align_of; apply align_of_alignment). cbn [bind].
    rewrite fixed_array_traps; auto. cbn [s_addr]. eapply one_not_multiple; eauto.
  - destruct Hd as (v & E & Hz & Hf & Hm). rewrite E. destruct Hp as (Hu & _). left.
    destruct v as [a d]. cbn [v_data v_addr] in *. subst d. unfold deserialize.
    change (buf_from_vec h (Vec a []) a2) with (@Ok vec (Vec a [])). cbn [bind]. rewrite buf_deref_empty. cbn [bind].
    rewrite as_aligned_8. cbn [bind]. rewrite fixed_array_traps; auto.
Qed.

(** ** Whole programs *)
Lemma calm_not_ub c : calm c -> c <> UBMisaligned.
Proof. intros [<-|[<-|[<-|[<-|[]]]]]; discriminate. Qed.
Lemma exec_good h ps : forall env, Forall (promised h) env -> realistic h env ps -> careful h env ps ->
  exists env', exec h env ps = Some env' /\ Forall (promised h) env'.
Proof.
  induction ps as [|p ps IH]; intros env He Hr Hc; cbn [exec realistic careful] in *; [eauto|].
  destruct Hr as [Hp Hr], Hc as [Hd Hc]. pose proof (calls_good h env p He Hp Hd) as [H1 H2].
  destruct (step h env p) as [env' o]. cbn [fst snd] in *. destruct o as [c|]; [|now apply IH].
  apply calm_not_ub in H2. destruct c; try congruence; now apply IH.
Qed.
Lemma door_dec env p : door env p \/ ~ door env p.
Proof.
  destruct p as [v|i|i a|i|i m|i|i o|i B|i A a1 a2|i|i t|i t|i a|i|i|i|i|i|i F|i j|i j|i|i|i a1 a2|i t a1 a2|i t a|i
                |i t a1 a2 a3 a4|i t a2 a3 a4|t r a|i a|c|s cap c|i o|i|i|i a|i c|i|i a| |q]; cbn [door]; auto.
  - destruct (nth_error env i) as [[A s| | | | | | | |]|] eqn:E; try (right; intros (A' & s' & H & _); congruence).
    destruct (s_data s) as [|x d] eqn:Ed; [right; intros (A' & s' & H & H' & _); congruence|].
    destruct (N.eq_dec (s_addr s mod B) 0) as [Hz|Hz]; [right; intros (A' & s' & H & _ & H'); congruence|].
    left. exists A, s. split; [reflexivity|]. split; [congruence|exact Hz].
  - destruct (nth_error env i) as [[A s| | | | | | | |]|] eqn:E; try (right; intros (s' & H & _); congruence).
    destruct (N.eq_dec A (sp_align t)) as [->|Hn]; [|right; intros (s' & H & _); congruence].
    destruct (s_data s) as [|x d] eqn:Ed; [|right; intros (s' & H & H' & _); congruence].
    destruct (sp_fixed t) eqn:Ef; [right; intros (s' & H & _ & H' & _); congruence|].
    destruct (N.eq_dec (s_addr s mod sp_align t) 0) as [Hz|Hz]; [right; intros (s' & H & _ & _ & H'); congruence|].
    left. exists s. auto.
  - destruct (nth_error env i) as [[A s| | | | | | | |]|] eqn:E; try (right; intros (s' & H & _); congruence).
    destruct (N.eq_dec A (sp_align t)) as [->|Hn]; [|right; intros (s' & H & _); congruence].
    destruct (s_data s) as [|x d] eqn:Ed; [|right; intros (s' & H & H' & _); congruence].
    destruct (N.eq_dec (s_addr s mod sp_align t) 0) as [Hz|Hz]; [right; intros (s' & H & _ & H'); congruence|].
    left. exists s. auto.
  - destruct (nth_error env i) as [[| | | | |t [r|d|b]| | |]|] eqn:E; try (right; intros (t' & b' & H & _); congruence).
    destruct (v_data b) as [|x d] eqn:Ed; [|right; intros (t' & b' & H & H' & _); congruence].
    destruct (sp_fixed t) eqn:Ef; [right; intros (t' & b' & H & _ & H' & _); congruence|].
    destruct (N.eq_dec (v_addr b mod sp_align t) 0) as [Hz|Hz]; [right; intros (t' & b' & H & _ & _ & H'); congruence|].
    left. exists t, b. auto.
  - destruct (nth_error env i) as [[A s| | | | | | | |]|] eqn:E; try (right; intros (A' & s' & H & _); congruence).
    destruct (s_data s) as [|x d] eqn:Ed; [|right; intros (A' & s' & H & H' & _); congruence].
    destruct (sp_fixed_array t) eqn:Ef; [|right; intros (A' & s' & H & _ & H' & _); congruence].
    destruct (N.eq_dec (s_addr s mod sp_align t) 0) as [Hz|Hz]; [right; intros (A' & s' & H & _ & _ & H'); congruence|].
    left. exists A, s. auto.
  - destruct (nth_error env i) as [[| v | | | | | | |]|] eqn:E; try (right; intros (s' & H & _); congruence).
    destruct (v_data v) as [|x d] eqn:Ed; [|right; intros (s' & H & H' & _); congruence].
    destruct (sp_fixed_array t) eqn:Ef; [|right; intros (s' & H & _ & H' & _); congruence].
    destruct (N.eq_dec (v_addr v mod sp_align t) 0) as [Hz|Hz]; [right; intros (s' & H & _ & _ & H'); congruence|].
    left. exists v. auto.
Qed.
Lemma exec_first h ps : forall env, Forall (promised h) env -> realistic h env ps ->
  (exists env', exec h env ps = Some env' /\ Forall (promised h) env') \/
  (exists before p after env', ps = before ++ p :: after /\
     exec h env before = Some env' /\ Forall (promised h) env' /\ door env' p).
Proof.
  induction ps as [|p ps IH]; intros env He Hr; cbn [realistic] in Hr; [left; cbn [exec]; eauto|].
  destruct Hr as [Hp Hr]. destruct (door_dec env p) as [Hd|Hd].
  { right. exists [], p, ps, env. cbn [exec app]. auto. }
  pose proof (calls_good h env p He Hp Hd) as [H1 H2].
  destruct (step h env p) as [env' o] eqn:Es. cbn [fst snd] in *.
  assert (G : forall qs, exec h env (p :: qs) = exec h env' qs).
  { intros qs. cbn [exec]. rewrite Es. destruct o as [c|]; [|reflexivity]. apply calm_not_ub in H2. destruct c; congruence. }
  destruct (IH env' H1 Hr) as [(e & E & Hg)|(before & q & after & e & -> & E & Hg & Hq)].
  - left. exists e. rewrite G. auto.
  - right. exists (p :: before), q, after, e. rewrite G. auto.
Qed.
Lemma exec_only_doors h ps : realistic h [] ps -> exec h [] ps = None ->
  exists before p after env, ps = before ++ p :: after /\ exec h [] before = Some env /\ Forall (promised h) env /\ door env p.
Proof.
  intros Hr E. destruct (exec_first h ps [] (Forall_nil _) Hr) as [(e & E' & _)|H]; [congruence|exact H].
Qed.
Lemma step_claim h env p : Forall (promised h) env -> possible h env p -> ~ door env p ->
  let '(env', o) := step h env p in
  Forall (promised h) env' /\ (o = None \/ exists c, o = Some c /\ In c [PIndex; PUnwrap; POverflow; NoCompile]).
Proof.
  intros He Hp Hd. pose proof (calls_good h env p He Hp Hd) as [H1 H2]. destruct (step h env p) as [env' o].
  cbn [fst snd] in *. split; [exact H1|]. destruct o as [c|]; [right; exists c; auto|auto].
Qed.
Lemma door_claim h env p : Forall (promised h) env -> possible h env p -> door env p ->
  let '(env', o) := step h env p in
  o = Some (if h_debug h then PAssert else UBMisaligned) \/ ~ Forall (promised h) env'.
Proof.
  intros He Hp Hd. pose proof (doors_open h env p He Hp Hd) as H. destruct (step h env p) as [env' o]. exact H.
Qed.
Lemma program_cons h env p ps env' o : step h env p = (env', o) -> possible h env p -> ~ door env p ->
  realistic h env' ps /\ careful h env' ps -> realistic h env (p :: ps) /\ careful h env (p :: ps).
Proof. intros E Hp Hd [H1 H2]. cbn [realistic careful]. rewrite E. cbn [fst]. auto. Qed.
