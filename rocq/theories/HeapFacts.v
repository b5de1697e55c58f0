(** What serialising keeps on the heap: proofs. *)
From Verif Require Import Base Types Layout AlignedBytes Strs Spec Deser Ser SerSpec WriterSpec Heap HeapSpec BaseFacts TypesFacts LayoutFacts.
From Coq Require Import Lia ZifyBool ZifyNat ZifyN.
Ltac Zify.zify_post_hook ::= idtac.
Local Open Scope N_scope.

Lemma rval_cases (P : rval -> Prop) :
  (forall r, match r with RWrap _ x | ROpt (Some x) => P x | RList rs | RTuple rs => Forall P rs | _ => True end -> P r) -> forall r, P r.
Proof.
  intros H. fix IH 1. intros r. apply H. destruct r as [| | | | | | |u x|rs|[x|]|rs]; try exact I; try apply IH.
  - induction rs as [|x rs IHr]; constructor; [apply IH|exact IHr].
  - induction rs as [|x rs IHr]; constructor; [apply IH|exact IHr].
Qed.

Section Track.
Context {K : Type} {W : Write K}.
(** [m'] does what [m] does, at most [n] offsets at a time are added to those kept, and [c] are left. *)
Definition tracks {A} (m' : M (K * room) A) (m : M K A) (n c : N) : Prop := forall k g, r_now g <= r_most g ->
  let '(k', r) := m' (k, g) in
  m k = (fst k', r) /\ r_most g <= r_most (snd k') <= N.max (r_most g) (r_now g + n) /\
  match r with SOk _ => r_now (snd k') = r_now g + c /\ r_most (snd k') = N.max (r_most g) (r_now g + n) | _ => True end.
Lemma t_ret {A} (a : A) : tracks (sret a) (sret a) 0 0.
Proof. intros k g Hg. cbn. repeat split; lia. Qed.
Lemma t_lift {A} (m : res A) : tracks (lift m) (lift m) 0 0.
Proof. intros k g Hg. unfold lift. destruct m; cbn; repeat split; lia. Qed.
Lemma t_crash {A} c n d : tracks (lift (Crash c) : M (K * room) A) (lift (Crash c)) n d.
Proof. intros k g Hg. cbn. repeat split; lia. Qed.
Lemma t_error {A} e n d : tracks (serror e : M (K * room) A) (serror e) n d.
Proof. intros k g Hg. cbn. repeat split; lia. Qed.
Lemma t_write bs : tracks (write_all bs) (write_all bs) 0 0.
Proof. intros k g Hg. unfold write_all at 1, room_write. cbn [fst snd]. destruct (write_all bs k) as [k' r]. cbn [fst snd]. repeat split; try lia. destruct r; auto. lia. Qed.
Lemma t_push {A} (f' : unit -> M (K * room) A) (m : M K A) n c : tracks (f' tt) m n c -> tracks (sbind push_offset f') m (1 + n) (1 + c).
Proof.
  intros H k g Hg. unfold sbind, push_offset. cbn [fst snd]. specialize (H k (Room (r_now g + 1) (N.max (r_most g) (r_now g + 1)))). cbn [r_now r_most] in H.
  specialize (H ltac:(lia)). destruct (f' tt _) as [k' r]. destruct H as (H1 & H2 & H3). split; [exact H1|]. split; [lia|]. destruct r; auto. lia.
Qed.
Lemma t_scope {A} (m' : M (K * room) A) m n c : tracks m' m n c -> tracks (scope m') m n 0.
Proof.
  intros H k g Hg. specialize (H k g Hg). unfold scope. destruct (m' (k, g)) as [k' r]. cbn [fst snd r_now r_most]. destruct H as (H1 & H2 & H3).
  split; [exact H1|]. split; [lia|]. destruct r; auto. lia.
Qed.
Lemma t_bind {A B} (m' : M (K * room) A) m (f' : A -> M (K * room) B) f n n' c' :
  tracks m' m n 0 -> (forall a, tracks (f' a) (f a) n' c') -> tracks (sbind m' f') (sbind m f) (N.max n n') c'.
Proof.
  intros H Hf k g Hg. specialize (H k g Hg). unfold sbind. destruct (m' (k, g)) as [[k1 g1] r]. cbn [fst snd] in *. destruct H as (H1 & H2 & H3). rewrite H1.
  destruct r as [a|e|c].
  - specialize (Hf a k1 g1 ltac:(lia)). destruct (f' a (k1, g1)) as [k' r]. destruct Hf as (F1 & F2 & F3). split; [exact F1|]. split; [lia|]. destruct r; auto. lia.
  - cbn [fst snd]. repeat split; lia.
  - cbn [fst snd]. repeat split; lia.
Qed.
Lemma t_then {A B} (m' : M (K * room) A) m (f' : A -> M (K * room) B) f n c :
  tracks m' m 0 0 -> (forall a, tracks (f' a) (f a) n c) -> tracks (sbind m' f') (sbind m f) n c.
Proof. intros H Hf. pose proof (t_bind m' m f' f 0 n c H Hf) as G. now rewrite N.max_0_l in G. Qed.
Lemma t_first {A B} (m' : M (K * room) A) m (f' : A -> M (K * room) B) f n :
  tracks m' m n 0 -> (forall a, tracks (f' a) (f a) 0 0) -> tracks (sbind m' f') (sbind m f) n 0.
Proof. intros H Hf. pose proof (t_bind m' m f' f n 0 0 H Hf) as G. now rewrite N.max_0_r in G. Qed.

Ltac tr := repeat first [apply t_then; [first [apply t_lift|apply t_write|assumption]|intros ?] | apply t_ret | apply t_lift | apply t_write].
Lemma t_each w offsets : tracks (write_each w offsets) (write_each w offsets) 0 0.
Proof. induction offsets as [|o r IH]; cbn [write_each]; tr. exact IH. Qed.
Lemma t_offsets h b offsets : tracks (write_offsets h b offsets) (write_offsets h b offsets) 0 0.
Proof.
  pose proof (fun w => t_each w offsets) as HE. unfold write_offsets. cbv zeta.
  repeat first [apply t_then; [first [apply t_lift|apply HE]|intros ?] | apply t_ret
               | match goal with |- context [if ?b then _ else _] => destruct b end].
Qed.
Lemma t_padding h A o : tracks (write_padding h A o) (write_padding h A o) 0 0.
Proof. unfold write_padding. tr. Qed.

Inductive all_track : list (M (K * room) N) -> list (M K N) -> list N -> Prop :=
| at_nil : all_track [] [] []
| at_cons m' m n ms' ms ns : tracks m' m n 0 -> all_track ms' ms ns -> all_track (m' :: ms') (m :: ms) (n :: ns).
Lemma t_seq h ms' ms ns : all_track ms' ms ns -> forall b, tracks (ser_seq h ms' b) (ser_seq h ms b) (sp_greatest ns) 0.
Proof.
  induction 1 as [|m' m n ms' ms ns Hm _ IH]; intros b; cbn [ser_seq sp_greatest fold_right]; [apply t_ret|].
  apply t_bind; [exact Hm|]. intros a. apply t_then; [apply t_lift|]. intros b'. apply IH.
Qed.
Fixpoint rising (ns : list N) : N := match ns with [] => 0 | n :: ns => N.max n (1 + rising ns) end.
Lemma t_nfwa h al ms' ms ns : all_track ms' ms ns -> forall b os, tracks (ser_nfwa_m h al ms' b os) (ser_nfwa h al ms b os) (rising ns) (len ns).
Proof.
  induction 1 as [|m' m n ms' ms ns Hm _ IH]; intros b os; cbn [ser_nfwa_m ser_nfwa rising]; [apply t_offsets|].
  replace (len (n :: ns)) with (1 + len ns) by (unfold len; cbn [length]; lia).
  apply t_bind; [exact Hm|]. intros a. apply t_then; [apply t_lift|]. intros b'. apply t_push. tr. apply IH.
Qed.

Definition cmd_child (c : cmd) : list nat := match c with CChild n | CChildAdd n => [n] | _ => [] end.
Lemma track_nth ms' ms ns : all_track ms' ms ns -> forall i, match nth_error ms' i, nth_error ms i with
  | Some m', Some m => tracks m' m (nth i ns 0) 0 | None, None => True | _, _ => False end.
Proof. induction 1 as [|m' m n ms' ms ns Hm _ IH]; intros [|i]; cbn [nth_error nth]; auto. apply IH. Qed.
Lemma t_cmds h ms' ms ns : all_track ms' ms ns -> forall cmds off fo,
  tracks (run_cmds h cmds ms' off fo) (run_cmds h cmds ms off fo) (sp_greatest (map (fun i => nth i ns 0) (flat_map cmd_child cmds))) 0.
Proof.
  intros HA. pose proof (track_nth _ _ _ HA) as HN.
  induction cmds as [|c cmds IH]; intros off fo; cbn [run_cmds flat_map]; [apply t_ret|].
  destruct c as [n|n|A|n|n|i]; cbn [cmd_child app map sp_greatest fold_right]; fold (sp_greatest (map (fun i => nth i ns 0) (flat_map cmd_child cmds))).
  - apply t_then; [apply t_write|]. intros _. apply IH.
  - apply t_then; [apply t_lift|]. intros ?. apply IH.
  - apply t_then; [apply t_padding|]. intros ?. apply t_then; [apply t_lift|]. intros ?. apply IH.
  - specialize (HN n). destruct (nth_error ms' n), (nth_error ms n); try tauto; [|apply t_crash]. apply t_bind; [exact HN|]. intros _. apply IH.
  - specialize (HN n). destruct (nth_error ms' n), (nth_error ms n); try tauto; [|apply t_crash]. apply t_bind; [exact HN|]. intros ?. apply t_then; [apply t_lift|]. intros ?. apply IH.
  - destruct (i <? 0)%Z; [apply t_crash|]. destruct (set_nth fo (Z.to_nat i) off); [apply IH|apply t_crash].
Qed.
End Track.

Lemma nonfixed_children nfo cs : forall n b o nth, flat_map cmd_child (nonfixed_cmds n b o nth nfo cs) = seq n (length cs).
Proof.
  induction cs as [|c cs IH]; intros n b o nth; [reflexivity|]. cbn [nonfixed_cmds length seq].
  destruct (align_of c <=? b); [destruct (0 <? align o (align_of c) - o)|]; destruct (size_of c);
    cbn [app flat_map cmd_child]; rewrite ?IH; try reflexivity;
    destruct cs; cbn [app flat_map cmd_child]; rewrite ?IH; reflexivity.
Qed.
Lemma packed_children pads : forall n final, flat_map cmd_child (packed_cmds n pads final) = seq n (length pads).
Proof.
  induction pads as [|p pads IH]; intros n final; cbn [packed_cmds length seq]; [destruct (0 <? final); reflexivity|].
  rewrite !flat_map_app. cbn [flat_map cmd_child app]. rewrite IH. destruct (0 <? p); reflexivity.
Qed.
Lemma map_nth_seq (ns : list N) : map (fun i => nth i ns 0) (seq 0 (length ns)) = ns.
Proof.
  induction ns as [|n ns IH]; [reflexivity|]. cbn [length seq map nth]. f_equal. rewrite <- seq_shift, map_map. exact IH.
Qed.
Lemma cmds_greatest (cs : list ty) (ns : list N) : length cs = length ns -> forall cmds, flat_map cmd_child cmds = seq 0 (length cs) ->
  sp_greatest (map (fun i => nth i ns 0) (flat_map cmd_child cmds)) = sp_greatest ns.
Proof. intros Hl cmds H; rewrite H, Hl, map_nth_seq; reflexivity. Qed.

Lemma walk_pads_length l : forall p, length (walk_pads p l) = length l.
Proof. induction l as [|[a s] l IH]; intros p; cbn; [reflexivity|]. now rewrite IH. Qed.
(** A structure. *)
Lemma t_struct {K} {W : Write K} h t ms' ms ns : sp_is_struct t = true -> all_track ms' ms ns -> length ns = length (children_of t) ->
  tracks (ser_struct h t ms') (ser_struct h t ms) (sp_greatest ns) 0.
Proof.
  intros Hs HA Hl. unfold ser_struct. destruct (size_of t) as [n|] eqn:Hn.
  - destruct (packed_struct t) as [[pads final]|] eqn:Hp; [|apply t_crash]. destruct (mem_layout t) as [[size al]|]; [|apply t_crash].
    assert (Hlp : length pads = length (children_of t)).
    { assert (Hst : is_struct t) by (destruct t; cbn in Hs; try discriminate Hs; exact I). rewrite (packed_struct_exact t n Hst Hn) in Hp.
      destruct (struct_exact t); [|discriminate Hp]. injection Hp as <- _. rewrite walk_pads_length. unfold fixed_items. now rewrite map_length. }
    apply t_first; [|intros; apply t_ret].
    rewrite <- (cmds_greatest (children_of t) ns (eq_sym Hl) (packed_cmds 0 pads final)) by (now rewrite packed_children, Hlp).
    now apply t_cmds.
  - apply t_first; [|intros; apply t_offsets].
    rewrite <- (cmds_greatest (children_of t) ns (eq_sym Hl) (nonfixed_cmds 0 8 0 0 (n_frame_offsets (children_of t)) (children_of t))) by (now rewrite nonfixed_children).
    now apply t_cmds.
Qed.

Lemma greatest_zero l : Forall (fun n => n = 0) l -> sp_greatest l = 0.
Proof. induction 1 as [|n l Hn _ IH]; cbn; [reflexivity|]. fold (sp_greatest l). lia. Qed.
Definition kepts := fix go (rs : list rval) (ts : list ty) : list N :=
  match rs, ts with r' :: rs, t' :: ts => sp_kept r' t' :: go rs ts | _, _ => [] end.
Lemma fixed_components t n : sp_size t = Some n -> Forall (fun c => sp_size c <> None) (sp_components t).
Proof.
  destruct t as [| | | | | | | | | | | | | | |l|k v]; cbn [sp_components sp_size]; intros H; try discriminate H; try apply Forall_nil.
  - destruct (all_some (map sp_size l)) as [szs|] eqn:E; [|discriminate]. clear H. revert szs E.
    induction l as [|c l IH]; intros szs E; [constructor|]. cbn [map all_some] in E. destruct (sp_size c) eqn:Ec; [|discriminate].
    destruct (all_some (map sp_size l)) as [l0|] eqn:El; [|discriminate]. constructor; [congruence|]. now apply (IH l0).
  - destruct (sp_size k) eqn:Ek; [|discriminate]. destruct (sp_size v) eqn:Ev; [|discriminate]. repeat constructor; congruence.
Qed.
Lemma kept_fixed r : forall t, sp_size t <> None -> sp_kept r t = 0.
Proof.
  induction r as [r IH] using rval_cases. intros t Ht.
  destruct r as [| | | | | | |u x|rs|[x|]|rs]; cbn [sp_kept]; try reflexivity.
  - destruct t; try reflexivity. exfalso. apply Ht. reflexivity.
  - destruct t; try (destruct rs; reflexivity); exfalso; apply Ht; reflexivity.
  - destruct t; try reflexivity; exfalso; apply Ht; reflexivity.
  - change (sp_greatest (kepts rs (sp_components t)) = 0). apply greatest_zero.
    destruct (sp_size t) as [n|] eqn:E; [|congruence]. apply fixed_components in E. clear Ht. revert E. generalize (sp_components t).
    induction IH as [|r' rs Hr _ IHr]; intros [|c ts] E; cbn [kepts]; try constructor.
    + apply Hr. now inversion E.
    + apply IHr. now inversion E.
Qed.
Lemma rising_go x rs : forall i, (fix go (rs : list rval) (i : N) : N := match rs with [] => i | r' :: rs => N.max (i + sp_kept r' x) (go rs (i + 1)) end) rs i
  = i + rising (map (fun r => sp_kept r x) rs).
Proof. induction rs as [|r rs IH]; intros i; cbn [map rising]; [lia|]. rewrite IH. lia. Qed.

Lemma t_tuple {K} {W : Write K} h t rs : sp_is_struct t = true ->
  Forall (fun r => forall t, tracks (ser_m h r t) (ser h r t) (sp_kept r t) 0) rs ->
  tracks (if Nat.eqb (length (children_of t)) (length rs) then ser_struct h t
            ((fix go (rs : list rval) (ts : list ty) : list (M (K * room) N) :=
                match rs, ts with r :: rs', t :: ts' => ser_m h r t :: go rs' ts' | _, _ => [] end) rs (children_of t)) else lift (Crash NoCompile))
         (if Nat.eqb (length (children_of t)) (length rs) then ser_struct h t
            ((fix go (rs : list rval) (ts : list ty) : list (M K N) :=
                match rs, ts with r :: rs', t :: ts' => ser h r t :: go rs' ts' | _, _ => [] end) rs (children_of t)) else lift (Crash NoCompile))
         (sp_greatest (kepts rs (sp_components t))) 0.
Proof.
  intros Hs IH. rewrite (comps_children t Hs). destruct (Nat.eqb_spec (length (children_of t)) (length rs)) as [Hl|Hl]; [|apply t_crash].
  apply t_struct; [exact Hs| |].
  - clear Hl. generalize (children_of t). clear t Hs. induction IH as [|r rs Hr _ IHr]; intros [|c ts]; constructor; [apply Hr|apply IHr].
  - revert Hl. generalize (children_of t). clear. induction rs as [|r rs IHr]; intros [|c ts] Hl; cbn in *; try discriminate; [reflexivity|]. f_equal. apply IHr. lia.
Qed.

Theorem ser_tracks {K} {W : Write K} h r : forall t, tracks (ser_m h r t) (ser h r t) (sp_kept r t) 0.
Proof.
  induction r as [r IH] using rval_cases. intros t.
  assert (HI : forall k z (n : N), tracks (K := K) (do _ <- write_all (int_bytes h k z); sret n) (do _ <- write_all (int_bytes h k z); sret n) 0 0)
    by (intros; apply t_then; [apply t_write|]; intros; apply t_ret).
  destruct t, r as [| | | | | | |u x|rs|[x|]|rs]; cbn [ser_m ser]; try apply t_crash; try apply HI; cbn [sp_kept];
    try (repeat (apply t_then; [first [apply t_lift|apply t_write]|intros ?]); first [apply t_ret|apply t_lift]; fail);
    try (destruct (has_nul _); [apply t_error|]; repeat (apply t_then; [first [apply t_lift|apply t_write]|intros ?]); first [apply t_ret|apply t_lift]; fail).
  - apply t_first; [apply IH|]. intros. repeat (apply t_then; [first [apply t_lift|apply t_write]|intros ?]). apply t_lift.
  - rewrite <- sp_fixed_of. unfold sp_fixed. assert (HA : all_track (map (fun r => ser_m h r t) rs) (map (fun r => ser h r t) rs) (map (fun r => sp_kept r t) rs))
      by (induction IH as [|r rs Hr _ IHr]; cbn [map]; constructor; [apply Hr|exact IHr]).
    destruct (sp_size t) as [n|] eqn:E.
    + replace (match rs with [] => 0 | _ :: _ => 0 end) with (sp_greatest (map (fun r => sp_kept r t) rs)); [now apply t_seq|].
      rewrite greatest_zero by (apply Forall_forall; intros x Hx; apply in_map_iff in Hx; destruct Hx as (r & <- & _); apply kept_fixed; congruence).
      destruct rs; reflexivity.
    + apply t_scope with (c := len (map (fun r => sp_kept r t) rs)).
      replace (match rs with [] => _ | _ :: _ => _ end) with (rising (map (fun r => sp_kept r t) rs)); [now apply t_nfwa|].
      pose proof (rising_go t rs 0) as G. rewrite N.add_0_l in G. rewrite <- G. destruct rs; reflexivity.
  - destruct (is_fixed t); [apply t_crash|]. destruct rs as [|r rs]; [apply t_ret|]. apply t_first; [inversion IH; subst; auto|].
    intros. apply t_then; [apply t_write|]. intros. apply t_lift.
  - destruct (is_fixed t); [apply IH|]. apply t_first; [apply IH|]. intros. apply t_then; [apply t_write|]. intros. apply t_lift.
  - apply (t_tuple h (TTuple ts) rs); auto.
  - apply (t_tuple h (TDict t1 t2) rs); auto.
Qed.

(** Left, however it is left, with what was kept when it was begun. *)
Section Level.
Context {K : Type} {W : Write K}.
Definition level {A} (m : M (K * room) A) : Prop := forall kg, r_now (snd (fst (m kg))) = r_now (snd kg).
Lemma l_bind {A B} (m : M (K * room) A) (f : A -> M (K * room) B) : level m -> (forall a, level (f a)) -> level (sbind m f).
Proof. intros Hm Hf kg. unfold sbind. specialize (Hm kg). destruct (m kg) as [k' [a|e|c]]; cbn [fst] in *; [rewrite Hf; exact Hm|exact Hm|exact Hm]. Qed.
Lemma l_ret {A} (a : A) : level (sret a). Proof. intros kg. reflexivity. Qed.
Lemma l_lift {A} (m : res A) : level (lift m). Proof. intros kg. unfold lift. destruct m; reflexivity. Qed.
Lemma l_error {A} e : level (serror e : M (K * room) A). Proof. intros kg. reflexivity. Qed.
Lemma l_write bs : level (write_all bs).
Proof. intros kg. unfold write_all, room_write. destruct (write_all bs (fst kg)). reflexivity. Qed.
Lemma l_scope {A} (m : M (K * room) A) : level (scope m).
Proof. intros kg. unfold scope. destruct (m kg). reflexivity. Qed.
Lemma l_each w os : level (write_each w os).
Proof. induction os as [|o os IH]; cbn [write_each]; [apply l_ret|]. apply l_bind; [apply l_write|]. intros _. exact IH. Qed.
Ltac lv := repeat first [apply l_bind; [first [apply l_lift|apply l_write|apply l_each|assumption]|intros ?] | apply l_ret | apply l_lift | apply l_write | apply l_error
  | match goal with |- level (if ?b then _ else _) => destruct b end].
Lemma l_offsets h b os : level (write_offsets h b os).
Proof. unfold write_offsets. cbv zeta. lv. Qed.
Lemma l_padding h A o : level (write_padding h A o).
Proof. unfold write_padding. lv. Qed.
Lemma l_seq h ms : Forall level ms -> forall b, level (ser_seq h ms b).
Proof. induction 1 as [|m ms Hm _ IH]; intros b; cbn [ser_seq]; lv. apply IH. Qed.
Lemma l_cmds h ms : Forall level ms -> forall cmds off fo, level (run_cmds h cmds ms off fo).
Proof.
  intros HF. assert (HN : forall n m, nth_error ms n = Some m -> level m) by (intros n m Hn; apply nth_error_In in Hn; rewrite Forall_forall in HF; auto).
  induction cmds as [|c cmds IH]; intros off fo; cbn [run_cmds]; [apply l_ret|].
  destruct c as [n|n|A|n|n|i].
  - lv. apply IH.
  - lv. apply IH.
  - apply l_bind; [apply l_padding|]. intros. lv. apply IH.
  - specialize (HN n). destruct (nth_error ms n); [|apply l_lift]. apply l_bind; [auto|]. intros. apply IH.
  - specialize (HN n). destruct (nth_error ms n); [|apply l_lift]. apply l_bind; [auto|]. intros. lv. apply IH.
  - destruct (i <? 0)%Z; [apply l_lift|]. destruct (set_nth fo (Z.to_nat i) off); [apply IH|apply l_lift].
Qed.
Lemma l_struct h t ms : Forall level ms -> level (ser_struct h t ms).
Proof.
  intros HF. unfold ser_struct. destruct (size_of t).
  - destruct (packed_struct t) as [[pads final]|]; [|apply l_lift]. destruct (mem_layout t) as [[size al]|]; [|apply l_lift].
    apply l_bind; [now apply l_cmds|]. intros. apply l_ret.
  - apply l_bind; [now apply l_cmds|]. intros. apply l_offsets.
Qed.
End Level.
Lemma ser_level {K} {W : Write K} h r : forall t, level (ser_m h r t).
Proof.
  induction r as [r IH] using rval_cases. intros t.
  destruct t, r as [| | | | | | |u x|rs|[x|]|rs]; cbn [ser_m];
    repeat first [apply l_scope | apply IH | apply l_bind; [first [apply l_lift|apply l_write|apply IH]|intros ?] | apply l_ret | apply l_lift | apply l_write | apply l_error
      | match goal with |- level (if ?b then _ else _) => destruct b end].
  - apply l_seq. induction IH as [|r rs Hr _ IHr]; cbn [map]; constructor; [apply Hr|exact IHr].
  - destruct rs as [|r rs]; [apply l_ret|]. inversion IH; subst.
    repeat first [apply l_bind; [first [apply l_lift|apply l_write|auto]|intros ?] | apply l_lift ].
  - apply l_struct. cbn [children_of]. revert ts. induction IH as [|r rs Hr _ IHr]; intros [|c ts]; constructor; [apply Hr|apply IHr].
  - apply l_struct. generalize (children_of (TDict t1 t2)). induction IH as [|r rs Hr _ IHr]; intros [|c ts]; constructor; [apply Hr|apply IHr].
Qed.

(** Each offset kept is written in at least a byte. *)
Definition gains {A} (m : M sink A) (n : N) : Prop := forall k k' a, m k = (k', SOk a) -> len (k_out k) + n <= len (k_out k').
Lemma g_weak {A} (m : M sink A) n n' : gains m n -> n' <= n -> gains m n'.
Proof. intros H Hn k k' a E. specialize (H _ _ _ E). lia. Qed.
Lemma g_bind {A B} (m : M sink A) (f : A -> M sink B) n n' : gains m n -> (forall a, gains (f a) n') -> gains (sbind m f) (n + n').
Proof.
  intros Hm Hf k k' b E. unfold sbind in E. destruct (m k) as [k1 [a|e|c]] eqn:E1; try discriminate.
  specialize (Hm _ _ _ E1). specialize (Hf a _ _ _ E). lia.
Qed.
Lemma g_then {A B} (m : M sink A) (f : A -> M sink B) n : gains m 0 -> (forall a, gains (f a) n) -> gains (sbind m f) n.
Proof. intros Hm Hf. apply (g_bind m f 0 n Hm Hf). Qed.
Lemma g_ret {A} (a : A) : gains (sret a) 0. Proof. intros k k' b [= <- _]. lia. Qed.
Lemma g_lift {A} (m : res A) : gains (lift m) 0.
Proof. intros k k' b E. unfold lift in E. destruct m; inversion E. lia. Qed.
Lemma g_crash {A} c n : gains (lift (Crash c) : M sink A) n. Proof. intros k k' b E. discriminate E. Qed.
Lemma g_error {A} e n : gains (serror e : M sink A) n. Proof. intros k k' b E. discriminate E. Qed.
Lemma g_write bs : gains (write_all bs) (len bs).
Proof.
  intros k k' a E. unfold write_all, sink_write in E. destruct (k_left k); [destruct (blen bs <=? n)|]; inversion E; cbn [k_out]; unfold len; rewrite app_length; lia.
Qed.
Lemma g_written bs : gains (write_all bs) 0.
Proof. eapply g_weak; [apply g_write|lia]. Qed.
Lemma g_each w os : (0 < w)%nat -> gains (write_each w os) (len os).
Proof.
  intros Hw. induction os as [|o os IH]; cbn [write_each]; [apply g_ret|].
  eapply g_weak; [apply g_bind; [apply g_write|intros _; exact IH]|]. unfold len. rewrite length_to_le. cbn [length]. lia.
Qed.
Lemma g_offsets h b os : gains (write_offsets h b os) (len os).
Proof.
  assert (HE : forall w (s : N), (0 < w)%nat -> gains (do _ <- write_each w os; sret s) (len os)).
  { intros w s Hw. eapply g_weak; [apply g_bind; [now apply g_each|intros; apply g_ret]|lia]. }
  unfold write_offsets. cbv zeta.
  repeat first [apply HE; lia | apply g_then; [apply g_lift|intros ?] | match goal with |- gains (if ?b then _ else _) _ => destruct b end].
Qed.
Inductive all_gain : list (M sink N) -> list N -> Prop :=
| ag_nil : all_gain [] []
| ag_cons m n ms ns : gains m n -> all_gain ms ns -> all_gain (m :: ms) (n :: ns).
Lemma g_seq h ms ns : all_gain ms ns -> forall b, gains (ser_seq h ms b) 0.
Proof.
  induction 1 as [|m n ms ns Hm _ IH]; intros b; cbn [ser_seq]; [apply g_ret|]. apply g_then; [eapply g_weak; [exact Hm|lia]|].
  intros. apply g_then; [apply g_lift|]. intros. apply IH.
Qed.
Lemma g_nfwa h al ms ns : all_gain ms ns -> forall b os, gains (ser_nfwa h al ms b os) (len os + rising ns).
Proof.
  induction 1 as [|m n ms ns Hm _ IH]; intros b os; cbn [ser_nfwa rising]; [eapply g_weak; [apply g_offsets|lia]|].
  apply g_weak with (n := n + (len os + 1 + rising ns)); [|lia].
  apply g_bind; [exact Hm|]. intros a. apply g_then; [apply g_lift|]. intros b'. cbv zeta.
  repeat (apply g_then; [first [apply g_lift|apply g_written]|intros ?]). eapply g_weak; [apply IH|].
  unfold len. rewrite app_length. cbn [length]. lia.
Qed.
Lemma gain_nth ms ns : all_gain ms ns -> forall i m, nth_error ms i = Some m -> gains m (nth i ns 0).
Proof. induction 1 as [|m n ms ns Hm _ IH]; intros [|i] x Hx; cbn in *; try discriminate; [now injection Hx as <-|now apply IH]. Qed.
Lemma g_cmds h ms ns : all_gain ms ns -> forall cmds off fo,
  gains (run_cmds h cmds ms off fo) (sp_greatest (map (fun i => nth i ns 0) (flat_map cmd_child cmds))).
Proof.
  intros HA. pose proof (gain_nth _ _ HA) as HN.
  induction cmds as [|c cmds IH]; intros off fo; cbn [run_cmds flat_map]; [apply g_ret|].
  destruct c as [n|n|A|n|n|i]; cbn [cmd_child app map sp_greatest fold_right]; fold (sp_greatest (map (fun i => nth i ns 0) (flat_map cmd_child cmds))).
  - apply g_then; [apply g_written|]. intros _. apply IH.
  - apply g_then; [apply g_lift|]. intros ?. apply IH.
  - apply g_then; [unfold write_padding|intros ?; apply g_then; [apply g_lift|]; intros ?; apply IH].
    repeat (apply g_then; [first [apply g_lift|apply g_written]|intros ?]). apply g_ret.
  - specialize (HN n). destruct (nth_error ms n); [|apply g_crash]. eapply g_weak; [apply g_bind; [apply HN; reflexivity|intros; apply IH]|lia].
  - specialize (HN n). destruct (nth_error ms n); [|apply g_crash].
    eapply g_weak; [apply g_bind; [apply HN; reflexivity|intros; apply g_then; [apply g_lift|intros; apply IH]]|lia].
  - destruct (i <? 0)%Z; [apply g_crash|]. destruct (set_nth fo (Z.to_nat i) off); [apply IH|apply g_crash].
Qed.
Lemma g_struct h t ms ns : sp_is_struct t = true -> all_gain ms ns -> length ns = length (children_of t) -> gains (ser_struct h t ms) (sp_greatest ns).
Proof.
  intros Hs HA Hl. unfold ser_struct. destruct (size_of t) as [n|] eqn:Hn.
  - destruct (packed_struct t) as [[pads final]|] eqn:Hp; [|apply g_crash]. destruct (mem_layout t) as [[size al]|]; [|apply g_crash].
    assert (Hlp : length pads = length (children_of t)).
    { assert (Hst : is_struct t) by (destruct t; cbn in Hs; try discriminate Hs; exact I). rewrite (packed_struct_exact t n Hst Hn) in Hp.
      destruct (struct_exact t); [|discriminate Hp]. injection Hp as <- _. rewrite walk_pads_length. unfold fixed_items. now rewrite map_length. }
    rewrite <- (cmds_greatest (children_of t) ns (eq_sym Hl) (packed_cmds 0 pads final)) by (now rewrite packed_children, Hlp).
    eapply g_weak; [apply g_bind; [apply (g_cmds h ms ns HA)|intros; apply g_ret]|lia].
  - rewrite <- (cmds_greatest (children_of t) ns (eq_sym Hl) (nonfixed_cmds 0 8 0 0 (n_frame_offsets (children_of t)) (children_of t))) by (now rewrite nonfixed_children).
    eapply g_weak; [apply g_bind; [apply (g_cmds h ms ns HA)|intros; eapply g_weak; [apply g_offsets|apply N.le_0_l]]|lia].
Qed.
Lemma g_tuple h t rs : sp_is_struct t = true -> Forall (fun r => forall t, gains (ser h r t) (sp_kept r t)) rs ->
  gains (if Nat.eqb (length (children_of t)) (length rs) then ser_struct h t
            ((fix go (rs : list rval) (ts : list ty) : list (M sink N) :=
                match rs, ts with r :: rs', t :: ts' => ser h r t :: go rs' ts' | _, _ => [] end) rs (children_of t)) else lift (Crash NoCompile))
         (sp_greatest (kepts rs (sp_components t))).
Proof.
  intros Hs IH. rewrite (comps_children t Hs). destruct (Nat.eqb_spec (length (children_of t)) (length rs)) as [Hl|Hl]; [|apply g_crash].
  apply g_struct; [exact Hs| |].
  - clear Hl. generalize (children_of t). clear t Hs. induction IH as [|r rs Hr _ IHr]; intros [|c ts]; constructor; [apply Hr|apply IHr].
  - revert Hl. generalize (children_of t). clear. induction rs as [|r rs IHr]; intros [|c ts] Hl; cbn in *; try discriminate; [reflexivity|]. f_equal. apply IHr. lia.
Qed.
Theorem ser_gains h r : forall t, gains (ser h r t) (sp_kept r t).
Proof.
  induction r as [r IH] using rval_cases. intros t.
  destruct t, r as [| | | | | | |u x|rs|[x|]|rs]; cbn [ser]; try apply g_crash; cbn [sp_kept];
    try (repeat (apply g_then; [first [apply g_lift|apply g_written]|intros ?]); first [apply g_ret|apply g_lift]; fail);
    try (destruct (has_nul _); [apply g_error|]; repeat (apply g_then; [first [apply g_lift|apply g_written]|intros ?]); first [apply g_ret|apply g_lift]; fail).
  - eapply g_weak; [apply g_bind; [apply IH|]; intros; repeat (apply g_then; [first [apply g_lift|apply g_written]|intros ?]); apply g_lift|lia].
  - rewrite <- sp_fixed_of. unfold sp_fixed. assert (HA : all_gain (map (fun r => ser h r t) rs) (map (fun r => sp_kept r t) rs))
      by (induction IH as [|r rs Hr _ IHr]; cbn [map]; constructor; [apply Hr|exact IHr]).
    destruct (sp_size t) as [n|] eqn:E.
    + replace (match rs with [] => 0 | _ :: _ => 0 end) with 0 by (destruct rs; reflexivity). eapply g_seq; exact HA.
    + eapply g_weak; [apply (g_nfwa h _ _ _ HA)|]. pose proof (rising_go t rs 0) as G. rewrite N.add_0_l in G. rewrite <- G. destruct rs; cbn [len length]; lia.
  - destruct (is_fixed t); [apply g_crash|]. destruct rs as [|r rs]; [apply g_ret|].
    eapply g_weak; [apply g_bind; [inversion IH; subst; auto|]; intros; apply g_then; [apply g_written|]; intros; apply g_lift|lia].
  - destruct (is_fixed t); [apply IH|].
    eapply g_weak; [apply g_bind; [apply IH|]; intros; apply g_then; [apply g_written|]; intros; apply g_lift|lia].
  - apply (g_tuple h (TTuple ts) rs); auto.
  - apply (g_tuple h (TDict t1 t2) rs); auto.
Qed.

Lemma parts_pos r : 1 <= sp_parts r.
Proof. destruct r as [| | | | | | |u x|rs|[x|]|rs]; cbn [sp_parts]; lia. Qed.
Lemma kept_parts r : forall t, sp_kept r t <= sp_parts r.
Proof.
  induction r as [r IH] using rval_cases. intros t.
  destruct r as [| | | | | | |u x|rs|[x|]|rs]; cbn [sp_kept sp_parts]; try lia.
  - destruct t; try lia. specialize (IH u). lia.
  - destruct t; try (destruct rs; lia).
    + assert (HR : rising (map (fun r => sp_kept r t) rs) <= fold_right (fun r n => sp_parts r + n) 0 rs).
      { induction IH as [|r rs Hr _ IHr]; cbn [map rising fold_right]; [lia|]. specialize (Hr t). pose proof (parts_pos r). lia. }
      destruct (sp_size t); [destruct rs; lia|]. pose proof (rising_go t rs 0) as G. destruct rs; lia.
    + destruct IH as [|r rs Hr _]; [lia|]. specialize (Hr t). cbn [fold_right]. lia.
  - destruct t; try lia. specialize (IH t). lia.
  - change (sp_greatest (kepts rs (sp_components t)) <= 1 + fold_right (fun r n => sp_parts r + n) 0 rs).
    assert (HG : forall ts, sp_greatest (kepts rs ts) <= fold_right (fun r n => sp_parts r + n) 0 rs); [|specialize (HG (sp_components t)); lia].
    induction IH as [|r rs Hr _ IHr]; intros [|c ts]; cbn [kepts sp_greatest fold_right]; try lia.
    specialize (Hr c). specialize (IHr ts). fold (sp_greatest (kepts rs ts)). lia.
Qed.

Theorem kept_claim {K} {W : Write K} h r t k : let '((k', g), res) := ser_m h r t (k, Room 0 0) in
  ser h r t k = (k', res) /\ r_now g = 0 /\ r_most g <= sp_kept r t /\ (forall n, res = SOk n -> r_most g = sp_kept r t).
Proof.
  pose proof (ser_tracks h r t k (Room 0 0)) as H. pose proof (ser_level h r t (k, Room 0 0)) as HL. cbn [r_now r_most snd] in *.
  specialize (H (N.le_refl 0)). destruct (ser_m h r t (k, Room 0 0)) as [[k' g] res]. cbn [fst snd] in *. destruct H as (H1 & H2 & H3).
  split; [exact H1|]. split; [exact HL|]. split; [lia|]. intros n ->. lia.
Qed.
Theorem kept_written h r t budget n : snd (serialize h t r budget) = SOk n -> sp_kept r t <= len (SerSpec.sp_output (serialize h t r budget)).
Proof.
  intros H. unfold serialize, SerSpec.sp_output in *. pose proof (ser_gains h r t (Sink [] budget)) as G.
  destruct (ser h r t (Sink [] budget)) as [k' res]. cbn [fst snd] in *. subst res. specialize (G k' n eq_refl). cbn in G. lia.
Qed.
