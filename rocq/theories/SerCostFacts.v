(** How many steps serialising takes: proofs. *)
From Verif Require Import Base BaseFacts Types Layout AlignedBytes Strs Spec Deser Ser Histories SerSpec WriterSpec Cost CostFacts SerCost SerCostSpec PiecesFacts HeapFacts.
From Coq Require Import Lia ZifyBool ZifyNat ZifyN.
Ltac Zify.zify_post_hook ::= idtac.
Local Open Scope N_scope.

Section Within.
Context {K : Type} {W : Write K}.
(** [m'] does what [m] does, in at most [n] steps, and gives only what [Q] holds of. *)
Definition within {A} (m' : M (K * N) A) (m : M K A) (n : N) (Q : A -> Prop) : Prop := forall k c,
  let '(k', r) := m' (k, c) in m k = (fst k', r) /\ snd k' <= c + n /\ (forall a, r = SOk a -> Q a).
Lemma w_le {A} (m' : M (K * N) A) m n n' (Q Q' : A -> Prop) : within m' m n Q -> n <= n' -> (forall a, Q a -> Q' a) -> within m' m n' Q'.
Proof. intros H Hn HQ k c. specialize (H k c). destruct (m' (k, c)) as [k' r]. destruct H as (H1 & H2 & H3). repeat split; [exact H1|lia|auto]. Qed.
Lemma w_any {A} (m' : M (K * N) A) m n n' (Q : A -> Prop) : within m' m n Q -> n <= n' -> within m' m n' any.
Proof. intros H Hn. apply (w_le _ _ _ _ _ _ H Hn). intros ? _. exact I. Qed.
Lemma w_ret {A} (a : A) n (Q : A -> Prop) : Q a -> within (sret a) (sret a) n Q.
Proof. intros HQ k c. cbn. repeat split; [lia|]. intros b [= <-]. exact HQ. Qed.
Lemma w_error {A} e n (Q : A -> Prop) : within (serror e) (serror e) n Q.
Proof. intros k c. cbn. repeat split; [lia|discriminate]. Qed.
Lemma w_crash {A} x n (Q : A -> Prop) : within (lift (Crash x)) (lift (Crash x)) n Q.
Proof. intros k c. cbn. repeat split; [lia|discriminate]. Qed.
Lemma w_spend {A} n (m : res A) : within (spend n m) (lift m) n any.
Proof. intros k c. unfold spend, sbind, tick, lift. destruct m; cbn; repeat split; lia. Qed.
Lemma w_clocked {A} (m' : timed A) (m : res A) n : result_of m' = m -> steps_of m' <= n -> within (clocked m') (lift m) n any.
Proof. intros <- Hn. apply (w_any _ _ (steps_of m') n any); [apply w_spend|exact Hn]. Qed.
Lemma w_write d : within (write_all d) (write_all d) 1 any.
Proof. intros k c. unfold write_all at 1, clock_write. cbn [fst snd]. destruct (write_all d k) as [k' r]. cbn [fst snd]. repeat split; lia. Qed.
Lemma w_tick {A} n (f : unit -> M (K * N) A) m b (Q : A -> Prop) : within (f tt) m b Q -> within (sbind (tick n) f) m (n + b) Q.
Proof.
  intros H k c. unfold sbind, tick. cbn [fst snd]. specialize (H k (c + n)). destruct (f tt (k, c + n)) as [k' r]. destruct H as (H1 & H2 & H3). repeat split; [exact H1|lia|exact H3].
Qed.
Lemma w_bind {A B} (m' : M (K * N) A) m (f' : A -> M (K * N) B) f a b (Q : A -> Prop) (R : B -> Prop) :
  within m' m a Q -> (forall x, Q x -> within (f' x) (f x) b R) -> within (sbind m' f') (sbind m f) (a + b) R.
Proof.
  intros H Hf k c. specialize (H k c). unfold sbind. destruct (m' (k, c)) as [[k1 c1] r]. cbn [fst snd] in *. destruct H as (H1 & H2 & H3). rewrite H1.
  destruct r as [x|e|e].
  - specialize (Hf x (H3 x eq_refl) k1 c1). destruct (f' x (k1, c1)) as [k' r]. destruct Hf as (F1 & F2 & F3). repeat split; [exact F1|lia|exact F3].
  - cbn [fst snd]. repeat split; [lia|discriminate].
  - cbn [fst snd]. repeat split; [lia|discriminate].
Qed.
Lemma w_sbind {A B} n (m : res A) (f' : A -> M (K * N) B) f b (R : B -> Prop) :
  (forall x, within (f' x) (f x) b R) -> within (sbind (spend n m) f') (sbind (lift m) f) (n + b) R.
Proof. intros Hf. apply (w_bind _ _ _ _ n b any); [apply w_spend|]. intros x _. apply Hf. Qed.
Lemma w_wbind {B} d (f' : unit -> M (K * N) B) f b (R : B -> Prop) : within (f' tt) (f tt) b R -> within (sbind (write_all d) f') (sbind (write_all d) f) (1 + b) R.
Proof. intros Hf. apply (w_bind _ _ _ _ 1 b any); [apply w_write|]. intros [] _. exact Hf. Qed.
Lemma w_pure {A B} (m : timed A) (x : A) (f : A -> M (K * N) B) g n b (Q : B -> Prop) :
  result_of m = Ok x -> steps_of m <= n -> within (f x) g b Q -> within (sbind (clocked m) f) g (n + b) Q.
Proof.
  intros Hm Hn H k c. unfold clocked, spend, sbind, tick. cbn [fst snd]. rewrite Hm. cbn [lift]. specialize (H k (c + steps_of m)).
  destruct (f x (k, c + steps_of m)) as [k' r]. destruct H as (H1 & H2 & H3). repeat split; [exact H1|lia|exact H3].
Qed.
Lemma w_align {B} h A o (f' : N -> M (K * N) B) f b (R : B -> Prop) :
  (forall x, within (f' x) (f x) b R) -> within (sbind (clocked (align_offset_t h A o)) f') (sbind (lift (align_offset h A o)) f) (5 + b) R.
Proof.
  intros Hf. apply (w_bind _ _ _ _ 5 b any); [|intros x _; apply Hf]. apply w_clocked; [apply CostFacts.er_align|apply CostFacts.w_align].
Qed.
Ltac ww := repeat first [apply w_sbind; intros ? | apply w_wbind | apply w_align; intros ? | apply w_tick | now apply w_ret | apply w_spend | apply w_error | apply w_crash].

Lemma t_padding h A o : within (write_padding_t h A o) (write_padding h A o) 8 any.
Proof. unfold write_padding_t, write_padding. change 8 with (5 + (1 + (1 + (1 + 0)))). ww. Qed.
Lemma t_each w l : within (write_each_t w l) (write_each w l) (1 + 4 * len l) any.
Proof.
  induction l as [|o l IH]; cbn [write_each_t write_each].
  - intros k c. cbn. repeat split; lia.
  - apply (w_any _ _ (3 + (1 + (1 + 4 * len l))) _ any); [ww; exact IH|unfold len; cbn [length]; lia].
Qed.
Lemma t_offsets h b l : within (write_offsets_t h b l) (write_offsets h b l) (12 + 4 * len l) any.
Proof.
  assert (HE : forall w (s : N), within (do _ <- write_each_t w l; sret s) (do _ <- write_each w l; sret s) (1 + 4 * len l) any).
  { intros w s. apply (w_any _ _ (1 + 4 * len l + 0) _ any); [|lia]. eapply w_bind; [apply t_each|]. intros; now apply w_ret. }
  unfold write_offsets_t, write_offsets. cbv zeta.
  apply (w_any _ _ (1 + (1 + (10 + 4 * len l))) _ any); [|lia]. ww. destruct (_ <=? 255).
  - apply (w_any _ _ (1 + (1 + 4 * len l)) _ any); [|lia]. ww. apply HE.
  - apply (w_any _ _ (1 + (1 + (1 + (7 + 4 * len l)))) _ any); [|lia]. ww. destruct (_ <=? 65535).
    + apply (w_any _ _ (2 + (1 + 4 * len l)) _ any); [|lia]. ww. apply HE.
    + apply (w_any _ _ (1 + (1 + (1 + (4 + 4 * len l)))) _ any); [|lia]. ww. destruct (_ <=? 4294967295).
      * apply (w_any _ _ (2 + (1 + 4 * len l)) _ any); [|lia]. ww. apply HE.
      * apply (w_any _ _ (1 + (1 + (1 + 4 * len l))) _ any); [|lia]. ww. apply HE.
Qed.
Lemma len_cons {A} (x : A) l : len (x :: l) = 1 + len l.
Proof. unfold len. cbn [length]. lia. Qed.
Lemma sum_cons x l : sum (x :: l) = x + sum l.
Proof. reflexivity. Qed.
Inductive all_within : list (M (K * N) N) -> list (M K N) -> list N -> Prop :=
| aw_nil : all_within [] [] []
| aw_cons m' m n ms' ms ns : within m' m n any -> all_within ms' ms ns -> all_within (m' :: ms') (m :: ms) (n :: ns).
Lemma t_seq h ms' ms ns : all_within ms' ms ns -> forall b, within (ser_seq_t h ms' b) (ser_seq h ms b) (sum ns + 2 * len ns + 1) any.
Proof.
  induction 1 as [|m' m n ms' ms ns Hm _ IH]; intros b; cbn [ser_seq_t ser_seq].
  - apply (w_any _ _ (1 + 0) _ any); [ww|cbn; lia].
  - apply (w_any _ _ (1 + (n + (1 + (sum ns + 2 * len ns + 1)))) _ any); [|rewrite sum_cons, !len_cons; lia].
    apply w_tick. eapply w_bind; [exact Hm|]. intros x _. apply w_sbind. intros y. apply IH.
Qed.
Lemma t_nfwa h al ms' ms ns : all_within ms' ms ns -> forall b os, within (ser_nfwa_t h al ms' b os) (ser_nfwa h al ms b os) (sum ns + 16 * len ns + 13 + 4 * len os) any.
Proof.
  induction 1 as [|m' m n ms' ms ns Hm _ IH]; intros b os; cbn [ser_nfwa_t ser_nfwa].
  - apply (w_any _ _ (1 + (12 + 4 * len os)) _ any); [|change (sum []) with 0; change (len (@nil N)) with 0; lia]. apply w_tick. apply t_offsets.
  - apply (w_any _ _ (1 + (n + (1 + (1 + (5 + (1 + (1 + (1 + (1 + (sum ns + 16 * len ns + 13 + 4 * (len os + 1))))))))))) _ any);
      [|rewrite sum_cons, !len_cons; lia].
    apply w_tick. eapply w_bind; [exact Hm|]. intros x _. apply w_sbind. intros b'. ww.
    eapply w_any; [apply IH|]. unfold len. rewrite app_length. cbn [length]. lia.
Qed.
Definition cmd_time (ns : list N) (c : cmd) : N :=
  match c with CZeros _ | CAdd _ | CFrame _ => 1 | CPad _ => 9 | CChild n => nth n ns 0 | CChildAdd n => nth n ns 0 + 1 end.
Lemma within_nth ms' ms ns : all_within ms' ms ns -> forall i, match nth_error ms' i, nth_error ms i with
  | Some m', Some m => within m' m (nth i ns 0) any | None, None => True | _, _ => False end.
Proof. induction 1 as [|m' m n ms' ms ns Hm _ IH]; intros [|i]; cbn [nth_error nth]; auto. apply IH. Qed.
Lemma t_cmds h ms' ms ns : all_within ms' ms ns -> forall cmds off fo,
  within (run_cmds_t h cmds ms' off fo) (run_cmds h cmds ms off fo) (sum (map (cmd_time ns) cmds)) (fun p => length (snd p) = length fo).
Proof.
  intros HA. pose proof (within_nth _ _ _ HA) as HN.
  induction cmds as [|c cmds IH]; intros off fo; cbn [run_cmds_t run_cmds map sum fold_right]; [now apply w_ret|]. fold (sum (map (cmd_time ns) cmds)).
  destruct c as [n|n|A|n|n|i]; cbn [cmd_time].
  - apply w_wbind, IH.
  - apply w_sbind. intros ?. apply IH.
  - change 9 with (8 + 1). rewrite <- N.add_assoc. eapply w_bind; [apply t_padding|]. intros p _. apply w_sbind. intros ?. apply IH.
  - specialize (HN n). destruct (nth_error ms' n), (nth_error ms n); try tauto; [|apply w_crash]. eapply w_bind; [exact HN|]. intros ? _. apply IH.
  - specialize (HN n). destruct (nth_error ms' n), (nth_error ms n); try tauto; [|apply w_crash]. rewrite <- N.add_assoc.
    eapply w_bind; [exact HN|]. intros ? _. apply w_sbind. intros ?. apply IH.
  - apply w_tick. destruct (i <? 0)%Z; [apply w_crash|]. destruct (set_nth fo (Z.to_nat i) off) as [fo'|] eqn:E; [|apply w_crash].
    eapply w_le; [apply IH|lia|]. intros p ->. now apply set_nth_len in E.
Qed.
End Within.
Lemma nonfixed_time ns ts : forall n base off k nfo, sum (map (cmd_time ns) (nonfixed_cmds n base off k nfo ts)) <= sum (skipn n ns) + 11 * len ts.
Proof.
  induction ts as [|t ts IH]; intros n base off k nfo; cbn [nonfixed_cmds]; [cbn; lia|].
  pose proof (skipn_step ns n) as Hs.
  assert (Hl : len (t :: ts) = 1 + len ts) by (unfold len; cbn [length]; lia). rewrite Hl.
  destruct (align_of t <=? base); [destruct (0 <? _)|]; (destruct (size_of t) as [z|];
    [|destruct ts as [|t' ts]]);
    repeat rewrite map_app; repeat rewrite sum_app;
    match goal with |- context [nonfixed_cmds (S n) ?b ?o ?k ?f ?l] => specialize (IH (S n) b o k f); remember (nonfixed_cmds (S n) b o k f l) as r eqn:Er; clear Er end;
    cbn [map cmd_time sum fold_right]; lia.
Qed.
Lemma packed_time ns pads final : forall n, sum (map (cmd_time ns) (packed_cmds n pads final)) <= sum (skipn n ns) + len pads + 1.
Proof.
  induction pads as [|p pads IH]; intros n; cbn [packed_cmds].
  - destruct (0 <? final); cbn [map cmd_time sum fold_right]; lia.
  - pose proof (skipn_step ns n) as Hs. specialize (IH (S n)).
    assert (Hl : len (p :: pads) = 1 + len pads) by (unfold len; cbn [length]; lia). rewrite Hl.
    repeat rewrite map_app. repeat rewrite sum_app. destruct (0 <? p); cbn [map cmd_time sum fold_right] in *; lia.
Qed.
Section Ser.
Context {K : Type} {W : Write K}.
Lemma t_struct h t ms' ms ns : all_within (K := K) ms' ms ns -> within (ser_struct_t h t ms') (ser_struct h t ms) (sum ns + 16 * len (children_of t) + 12) any.
Proof.
  intros H. unfold ser_struct_t, ser_struct. cbv zeta. destruct (size_of t).
  - destruct (packed_struct t) as [[pads final]|] eqn:Ep; [|apply w_crash]. destruct (mem_layout t) as [[size al]|]; [|apply w_crash].
    eapply w_any; [eapply (w_bind _ _ _ _ _ 0 _ any); [apply (t_cmds h ms' ms ns H)|]; intros p _; now apply w_ret|].
    pose proof (packed_time ns pads final 0) as Hs. cbn [skipn] in Hs.
    assert (Hp : len pads <= len (children_of t)).
    { unfold packed_struct in Ep. destruct (size_of t); [|discriminate]. destruct (packed_go _ _) as [[pads' e]|] eqn:E; [|discriminate].
      destruct (_ <=? _); [|discriminate]. injection Ep as <- _. apply packed_len in E. unfold len. rewrite E, combine_length, map_length. lia. }
    lia.
  - pose proof (frames_len (children_of t)) as Hf.
    eapply w_any; [apply w_tick; eapply (w_bind _ _ _ _ _ (12 + 4 * len (children_of t)) _ any); [apply (t_cmds h ms' ms ns H)|];
      intros p Hp; cbv beta in Hp; apply (w_any _ _ (12 + 4 * len (snd p)) _ any); [apply t_offsets|]|].
    + unfold len in *. rewrite Hp, repeat_length. lia.
    + pose proof (nonfixed_time ns (children_of t) 0 8 0 0 (n_frame_offsets (children_of t))) as Hs. cbn [skipn] in Hs. lia.
Qed.
Definition time (r : rval) : N := 36 * sp_parts r - 16 + 3 * sp_given r.
Lemma sum_time rs : sum (map time rs) + 16 * len rs <= 36 * fold_right (fun r n => sp_parts r + n) 0 rs + 3 * fold_right (fun r n => sp_given r + n) 0 rs.
Proof.
  unfold len, sum, time. induction rs as [|r rs IH]; cbn [map fold_right length]; [lia|]. pose proof (parts_pos r). lia.
Qed.
Lemma a_members h rs : Forall (fun r => forall t, within (K := K) (ser_t h r t) (ser h r t) (time r) any) rs -> forall ts, length ts = length rs ->
  all_within ((fix go (rs : list rval) (ts : list ty) : list (M (K * N) N) :=
              match rs, ts with r :: rs', t :: ts' => ser_t h r t :: go rs' ts' | _, _ => [] end) rs ts)
             ((fix go (rs : list rval) (ts : list ty) : list (M K N) :=
              match rs, ts with r :: rs', t :: ts' => ser h r t :: go rs' ts' | _, _ => [] end) rs ts) (map time rs).
Proof.
  induction 1 as [|r rs Hr _ IH]; intros [|t ts] E; try discriminate E; cbn [map]; constructor; auto.
Qed.
Ltac ww := repeat first [apply w_sbind; intros ? | apply w_wbind | apply w_tick | now apply w_ret | apply w_spend | apply w_error | apply w_crash].
Lemma t_view h d : within (K := K)
  (do b <- clocked (to_str_t d); do _ <- tick (1 + blen b); do _ <- write_all b; do _ <- write_all [x00]; spend 1 (uadd h (blen b) 1))
  (let b := to_str d in do _ <- write_all b; do _ <- write_all [x00]; lift (uadd h (blen b) 1)) (12 + 3 * len d) any.
Proof.
  cbv zeta.
  assert (Hb : blen (to_str d) <= len d).
  { unfold to_str. change (@len byte) with (@blen byte). pose proof (as_bytes_len d). cbv zeta. destruct (has_nul _); [apply N.le_0_l|]. destruct (valid_utf8 _); [lia|apply N.le_0_l]. }
  apply (w_any _ _ (8 + 2 * blen d + (1 + blen (to_str d) + (1 + (1 + 1)))) _ any); [|change (@blen byte d) with (len d); lia].
  apply (w_pure _ (to_str d)); [apply er_to_str|apply w_to_str|]. ww.
Qed.
Theorem ser_within h r : forall t, within (K := K) (ser_t h r t) (ser h r t) (time r) any.
Proof.
  induction r as [r IH] using rval_cases. intros t. unfold time.
  destruct r as [z|bits|b|b|s|d|d|u x|rs|o|rs]; destruct t as [| | | | | | | | | | | | |y|y|ts|k v]; cbn [ser_t ser]; try solve [apply w_crash];
    try solve [apply (w_any _ _ (1 + (1 + 0)) _ any); [ww|cbn [sp_parts sp_given]; lia]];
    try solve [apply (w_any _ _ (2 + (1 + 0)) _ any); [ww|cbn [sp_parts sp_given]; lia]];
    try solve [eapply w_any; [apply t_view|cbn [sp_parts sp_given]; lia]];
    try solve [apply (w_any _ _ (1 + blen s + (1 + (1 + 1))) _ any); [apply w_tick; destruct (has_nul s); ww|cbn [sp_parts sp_given]; change (@len byte) with (@blen byte); lia]].
  - apply (w_any _ _ (10 + len d + (1 + (1 + (1 + (1 + 1))))) _ any); [|cbn [sp_parts sp_given]; lia].
    eapply (w_bind _ _ _ _ _ _ any); [apply w_clocked; [apply er_split|apply (w_split h (Slice 0 d))]|]. intros p _. cbv zeta. ww.
  - pose proof (parts_pos x). eapply w_any; [eapply (w_bind _ _ _ _ _ (1 + (1 + (1 + 1))) _ any); [apply IH|]; intros n _; ww|unfold time; cbn [sp_parts sp_given]; lia].
  - assert (H : all_within (map (fun r => ser_t h r y) rs) (map (fun r => ser h r y) rs) (map time rs)).
    { induction IH as [|r rs Hr _ IHr]; cbn [map]; constructor; [apply Hr|exact IHr]. }
    pose proof (sum_time rs) as Hs. cbn [sp_parts sp_given]. assert (Hl : len (map time rs) = len rs) by (unfold len; now rewrite map_length).
    cbv zeta. destruct (is_fixed y); (eapply w_any; [first [apply (t_seq h _ _ _ H)|apply (t_nfwa h _ _ _ _ H)]|]); rewrite Hl; change (len (@nil N)) with 0; lia.
  - destruct (is_fixed y); [apply w_crash|]. apply (w_any _ _ (1 + (36 * sp_parts (RList rs) - 17 + 3 * sp_given (RList rs))) _ any); [|cbn [sp_parts]; lia].
    apply w_tick. destruct rs as [|r rs]; [now apply w_ret|]. inversion IH as [|? ? H1 H2]; subst. pose proof (parts_pos r).
    eapply w_any; [eapply (w_bind _ _ _ _ _ (1 + 1) _ any); [apply H1|]; intros n _; ww|unfold time; cbn [sp_parts sp_given fold_right]; lia].
  - apply (w_any _ _ (1 + (36 * sp_parts (ROpt o) - 17 + 3 * sp_given (ROpt o))) _ any); [|destruct o; cbn [sp_parts]; lia].
    apply w_tick. destruct o as [r|]; [|now apply w_ret]. pose proof (parts_pos r). destruct (is_fixed y).
    + eapply w_any; [apply IH|unfold time; cbn [sp_parts sp_given]; lia].
    + eapply w_any; [eapply (w_bind _ _ _ _ _ (1 + 1) _ any); [apply IH|]; intros n _; ww|unfold time; cbn [sp_parts sp_given]; lia].
  - cbv zeta. destruct (Nat.eqb _ _) eqn:E; [|apply w_crash]. apply Nat.eqb_eq in E. eapply w_any; [apply t_struct, a_members; [exact IH|exact E]|].
    pose proof (sum_time rs) as Hs. cbn [sp_parts sp_given]. unfold len in *. lia.
  - cbv zeta. destruct (Nat.eqb _ _) eqn:E; [|apply w_crash]. apply Nat.eqb_eq in E. eapply w_any; [apply t_struct, a_members; [exact IH|exact E]|].
    pose proof (sum_time rs) as Hs. cbn [sp_parts sp_given]. unfold len in *. lia.
Qed.
Theorem time_claim h r t k : let '((k', n), res) := ser_t h r t (k, 0) in
  ser h r t k = (k', res) /\ n <= 36 * sp_parts r - 16 + 3 * sp_given r.
Proof.
  pose proof (ser_within h r t k 0) as H. destruct (ser_t h r t (k, 0)) as [[k' n] res]. destruct H as (H1 & H2 & _). cbn [fst snd] in *. unfold time in H2. split; [exact H1|lia].
Qed.
End Ser.
