(** Builds with checks and builds without, continued: whole programs. *)
From Verif Require Import Base Types Layout AlignedBytes Strs Spec Deser Ser Buf Cmp Fmt CoreFmt Flags Histories BuildSpec BaseFacts LayoutFacts
  SerSpec SerFacts SerMain BuildFacts Mut MutSpec Iter Programs BuildMore BuildProgSpec.

Section BP.
  Context (both : bool) (h : host).
  Notation r := (unguarded both h).
  Hint Resolve ov_uadd ov_usub ov_umul ov_align_offset ov_unchecked ov_split_at ov_ix_to ov_ix_from_al ov_align_bytes ov_empty_aligned
    ov_try_cast ov_cast_slice ov_try_from ov_default ov_from ov_unwrap ov_cast ov_read_uint ov_last ov_len ov_is_empty ov_into_iter ov_next
    ov_collect ov_items ov_index ov_first ov_last_item ov_refs ov_option ov_split ov_get ov_to_tuple ov_nth ov_eq ov_read ov_view ov_hint ov_native
    ov_offset_to_align ov_vec_align ov_vec_unalign ov_deref ov_to_owned ov_borrow ov_from_mut ov_copy ov_cow ov_access ov_op ov_cmp ov_hash ov_debug
    ov_buf_op ov_from_bytes ov_deserialize ov_try_into ov_assign : ov.

  (** A failed check of a call, and where it leaves the program. *)
  Definition step_ov (p p' : list obj * option crash) : Prop :=
    p = p' \/ exists c, snd p = Some c /\ check_fails both c.
  Lemma so_refl p : step_ov p p. Proof. now left. Qed.
  Lemma so_made env m m' : or_check both m m' -> step_ov (made env m) (made env m').
  Proof. intros [-> |(c & -> & Hc)]; [now left|]. right. exists c. now split. Qed.
  Lemma ov_ops : forall os A s, or_check both (run_ops h A s os) (run_ops r A s os).
  Proof. induction os as [|o os IH]; intros A s; cbn [run_ops]; ov. Qed.
  Hint Resolve ov_ops : ov.
  Lemma ov_mut b m : or_check both (run_mut_op h b m) (run_mut_op r b m).
  Proof. destruct m; cbn [run_mut_op]; ov. Qed.
  Lemma ov_written t q a : or_check both (written h t q a) (written r t q a).
  Proof.
    unfold written, serialize. destruct (sov_ser both h q t (Sink [] None)) as [E|(k & c & -> & Hc)].
    - rewrite E. apply ov_refl.
    - now apply ov_crash.
  Qed.
  Lemma ov_from_vec v a : or_check both (buf_from_vec h v a) (buf_from_vec r v a).
  Proof. unfold buf_from_vec. ov. Qed.
  Lemma ov_into_vec b : or_check both (buf_into_vec h b) (buf_into_vec r b).
  Proof. unfold buf_into_vec. ov. Qed.
  Hint Resolve ov_mut ov_written ov_from_vec ov_into_vec : ov.
  Lemma ov_own_bytes d a1 a2 : or_check both (owned_from_bytes h d a1 a2) (owned_from_bytes r d a1 a2).
  Proof. unfold owned_from_bytes. ov. Qed.
  Lemma ov_gs_len g : or_check both (gs_len h g) (gs_len r g).
  Proof. unfold gs_len. ov. Qed.
  Lemma ov_gs_str g : or_check both (gs_as_str h g) (gs_as_str r g).
  Proof. unfold gs_as_str. ov. Qed.
  Hint Resolve ov_own_bytes ov_gs_len ov_gs_str : ov.
  Lemma ov_ask env q : or_check both (ask h env q) (ask r env q).
  Proof. destruct q; cbn [ask]; ov. Qed.
  Hint Resolve ov_ask : ov.
  Lemma ov_nfwa_step x it : nfwa_step h x it = nfwa_step r x it \/ exists c, snd (nfwa_step h x it) = Crash c /\ check_fails both c.
  Proof.
    unfold nfwa_step. destruct (_ <=? _); [now left|].
    match goal with |- match ?a with _ => _ end = match ?b with _ => _ end \/ _ => assert (H : or_check both a b) by ov end.
    destruct H as [<- |(c & -> & Hc)]; [|right; exists c; now split].
    match goal with |- match ?a with _ => _ end = _ \/ _ => destruct a as [[[st e] idx]|c] end; [|now left].
    match goal with |- (_, ?a) = (_, ?b) \/ _ => assert (H : or_check both a b) by ov end.
    destruct H as [<- |(c & -> & Hc)]; [now left|right; exists c; now split].
  Qed.
  Ltac so_step :=
    match goal with
    | |- step_ov ?x ?y => constr_eq x y; apply so_refl
    | |- step_ov (made _ _) (made _ _) => apply so_made; unfold one, opt, unit_
    | |- step_ov (match ?x with _ => _ end) (match ?y with _ => _ end) => constr_eq x y; destruct x
    | |- step_ov (if ?x then _ else _) (if ?y then _ else _) => constr_eq x y; destruct x
    | |- or_check _ _ _ => ov
    end.
  Lemma step_builds env p : step_ov (step h env p) (step r env p).
  Proof.
    destruct p; cbn [step]; repeat so_step.
    - destruct (ov_mut b m) as [<- |(c & -> & Hc)]; [now left|right; exists c; now split].
    - destruct (ov_nfwa_step x it) as [<- |(c & E & Hc)]; [apply so_refl|]. right. exists c. split; [|exact Hc].
      destruct (nfwa_step h x it) as [it' m]. cbn [snd] in E. now rewrite E.
  Qed.
  (** A call that panics says so. *)
  Lemma unit_crash {A} (m : res A) env c : snd (made env (unit_ m)) = Some c -> m = Crash c.
  Proof. destruct m as [x|c0]; cbn; [discriminate|]. now intros [= ->]. Qed.
  Lemma step_reply h0 env p c : snd (step h0 env p) = Some c -> reply h0 env p = Crash c.
  Proof.
    assert (D : forall e : list obj * option crash, snd e = Some c ->
      match e with (env', None) => Ok (map face (skipn (length env) env')) | (_, Some c0) => Crash c0 end = Crash c).
    { intros [e o] E. cbn [snd] in E. now rewrite E. }
    destruct p; cbn [reply]; try apply D; cbn [step];
      repeat match goal with
      | |- context [match nth_error env ?i with _ => _ end] => destruct (nth_error env i) as [[]|]
      | |- context [match ?t with TM _ => _ | _ => _ end] => is_var t; destruct t
      | |- context [match ?t with TA _ => _ | _ => _ end] => is_var t; destruct t
      | |- context [if ty_eqb ?a ?b then _ else _] => destruct (ty_eqb a b)
      end; try (intros H; cbn in H; congruence); try (intros H; apply unit_crash in H; now rewrite H).
    unfold is_fixed. destruct (size_of t); [discriminate|]. intros H; apply unit_crash in H; now rewrite H.
  Qed.

  Lemma reply_builds env p : or_check both (reply h env p) (reply r env p).
  Proof.
    assert (D : forall e e', step_ov e e' -> or_check both
      match e with (env', None) => Ok (map face (skipn (length env) env')) | (_, Some c0) => Crash c0 end
      match e' with (env', None) => Ok (map face (skipn (length env) env')) | (_, Some c0) => Crash c0 end).
    { intros [e o] e' [<- |(c & E & Hc)]; [apply ov_refl|]. cbn [snd] in E. rewrite E. now apply ov_crash. }
    destruct p; cbn [reply]; try (apply D, step_builds); ov.
  Qed.

  (** ** Whole programs *)
  Lemma programs_builds : forall ps env, same_until_check both (replies h env ps) (replies r env ps).
  Proof.
    induction ps as [|p ps IH]; intros env; [now left|]. cbn [replies].
    destruct (reply_builds env p) as [Er|(c & Er & Hc)].
    - destruct (step_builds env p) as [Es|(c & Es & Hc)].
      + rewrite <- Es. destruct (step h env p) as [env' o].
        destruct (match o with Some UBMisaligned => true | _ => false end) eqn:Eo.
        * destruct o as [[]|]; try discriminate Eo. now left.
        * assert (G : same_until_check both (reply h env p :: replies h env' ps) (reply r env p :: replies r env' ps)).
          { rewrite <- Er. destruct (IH env') as [-> |(told & c & rest & rest' & Hc & E1 & E2)]; [now left|]. right.
            exists (reply h env p :: told), c, rest, rest'. rewrite E1, E2. now repeat split. }
          destruct o as [[]|]; exact G || discriminate Eo.
      + right. exists [], c. pose proof (step_reply h env p c Es) as E. rewrite E.
        destruct (step h env p) as [env' o]. cbn [snd] in Es. subst o.
        destruct c; try (destruct Hc as [Hc|[_ Hc]]; discriminate Hc); eexists; eexists; (split; [exact Hc|]); split; reflexivity.
    - right. exists [], c. rewrite Er.
      destruct (step h env p) as [env' o] eqn:Es.
      destruct (match o with Some UBMisaligned => true | _ => false end) eqn:Eo.
      + destruct o as [[]|]; try discriminate Eo. exfalso.
        rewrite (step_reply h env p UBMisaligned) in Er by now rewrite Es. injection Er as <-. destruct Hc as [Hc|[_ Hc]]; discriminate Hc.
      + assert (G : exists rest rest', check_fails both c /\ Crash c :: replies h env' ps = [] ++ Crash c :: rest /\
          match step r env p with (_, Some UBMisaligned) => [Crash UBMisaligned] | (e, _) => reply r env p :: replies r e ps end = [] ++ rest')
          by (eexists; eexists; (split; [exact Hc|]); split; reflexivity).
        destruct o as [[]|]; exact G || discriminate Eo.
  Qed.
  Lemma programs_end : forall ps env, (forall c, check_fails both c -> ~ In (Crash c) (replies h env ps)) ->
    replies h env ps = replies r env ps /\ exec h env ps = exec r env ps.
  Proof.
    induction ps as [|p ps IH]; intros env H; [now split|]. cbn [replies exec] in *.
    destruct (step_builds env p) as [Es|(c & Es & Hc)].
    - rewrite <- Es. destruct (step h env p) as [env' o] eqn:E.
      destruct (match o with Some UBMisaligned => true | _ => false end) eqn:Eo.
      + destruct o as [[]|]; try discriminate Eo. now split.
      + assert (H' : forall c, check_fails both c -> ~ In (Crash c) (reply h env p :: replies h env' ps))
          by (destruct o as [[]|]; exact H || discriminate Eo).
        destruct (IH env') as [E1 E2]. { intros c Hc Hi. apply (H' c Hc). now right. }
        destruct (reply_builds env p) as [Er|(c & Er & Hc)]; [|exfalso; apply (H' c Hc); left; exact Er].
        rewrite <- Er, <- E1, <- E2. destruct o as [[]|]; try discriminate Eo; now split.
    - exfalso. apply (H c Hc). pose proof (step_reply h env p c Es) as E.
      destruct (step h env p) as [env' o]. cbn [snd] in Es. subst o.
      destruct c; try (destruct Hc as [Hc|[_ Hc]]; discriminate Hc); left; exact E.
  Qed.
End BP.
