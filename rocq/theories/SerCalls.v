(** How many steps serialising takes, at least: proofs. *)
From Verif Require Import Base Types Layout AlignedBytes Strs Spec Deser Ser Histories SerSpec WriterSpec Cost CostFacts SerCost SerCostSpec SerCostFacts PiecesFacts HeapFacts.
From Coq Require Import Lia ZifyBool ZifyNat ZifyN.
Ltac Zify.zify_post_hook ::= idtac.
Local Open Scope N_scope.

Section Calls.
Context {K : Type} {W : Write K}.
Variable calls : K -> N.
Hypothesis counts : forall d k, calls (fst (write_all d k)) = calls k + 1.
(** A step, at least, for every call of the writer. *)
Definition pays {A} (m : M (K * N) A) : Prop := forall k c,
  let '(k', r) := m (k, c) in calls (fst k') + c <= calls k + snd k'.
Lemma y_ret {A} (a : A) : pays (sret a).
Proof. intros k c. cbn. lia. Qed.
Lemma y_error {A} e : pays (serror (A := A) e).
Proof. intros k c. cbn. lia. Qed.
Lemma y_lift {A} (m : res A) : pays (lift m).
Proof. intros k c. unfold lift. destruct m; cbn; lia. Qed.
Lemma y_tick n : pays (tick n).
Proof. intros k c. cbn. lia. Qed.
Lemma y_bind {A B} (m : M (K * N) A) (f : A -> M (K * N) B) : pays m -> (forall x, pays (f x)) -> pays (sbind m f).
Proof.
  intros H Hf k c. specialize (H k c). unfold sbind. destruct (m (k, c)) as [[k1 c1] r]. cbn [fst snd] in *.
  destruct r as [x|e|e]; [|cbn [fst snd]; lia..]. specialize (Hf x k1 c1). destruct (f x (k1, c1)) as [k' r]. lia.
Qed.
Lemma y_spend {A} n (m : res A) : pays (spend n m).
Proof. apply y_bind; [apply y_tick|intros; apply y_lift]. Qed.
Lemma y_clocked {A} (m : timed A) : pays (clocked m).
Proof. apply y_spend. Qed.
Lemma y_write d : pays (write_all d).
Proof. intros k c. unfold write_all at 1, clock_write. cbn [fst snd]. pose proof (counts d k). destruct (write_all d k) as [k' r]. cbn [fst snd] in *. lia. Qed.
Ltac yy := repeat first [apply y_bind; [|intros ?] | apply y_ret | apply y_error | apply y_tick | apply y_spend | apply y_clocked | apply y_write | apply y_lift].
Lemma y_padding h A o : pays (write_padding_t h A o).
Proof. unfold write_padding_t. yy. Qed.
Lemma y_each w l : pays (write_each_t w l).
Proof. induction l as [|o l IH]; cbn [write_each_t]; yy. exact IH. Qed.
Lemma y_offsets h b l : pays (write_offsets_t h b l).
Proof.
  unfold write_offsets_t. cbv zeta. yy. destruct (_ <=? 255); yy; try apply y_each.
  destruct (_ <=? 65535); yy; try apply y_each. destruct (_ <=? 4294967295); yy; apply y_each.
Qed.
Ltac yo := repeat first [apply y_offsets | apply y_padding | apply y_bind; [|intros ?] | apply y_ret | apply y_error | apply y_tick | apply y_spend | apply y_clocked | apply y_write | apply y_lift].
Lemma y_seq h ms : Forall pays ms -> forall b, pays (ser_seq_t h ms b).
Proof. induction 1 as [|m ms Hm _ IH]; intros b; cbn [ser_seq_t]; yy; [exact Hm|apply IH]. Qed.
Lemma y_nfwa h al ms : Forall pays ms -> forall b os, pays (ser_nfwa_t h al ms b os).
Proof. induction 1 as [|m ms Hm _ IH]; intros b os; cbn [ser_nfwa_t]; cbv zeta; yo; [exact Hm|apply IH]. Qed.
Lemma y_cmds h ms : Forall pays ms -> forall cmds off fo, pays (run_cmds_t h cmds ms off fo).
Proof.
  intros HA. assert (HN : forall i m, nth_error ms i = Some m -> pays m).
  { intros i m E. apply nth_error_In in E. rewrite Forall_forall in HA. now apply HA. }
  induction cmds as [|c cmds IH]; intros off fo; cbn [run_cmds_t]; [apply y_ret|].
  destruct c as [n|n|A|n|n|i].
  - yy. apply IH.
  - yy. apply IH.
  - yo. apply IH.
  - destruct (nth_error ms n) eqn:E; [|apply y_lift]. yy; [now apply (HN n)|apply IH].
  - destruct (nth_error ms n) eqn:E; [|apply y_lift]. yy; [now apply (HN n)|apply IH].
  - yy. destruct (i <? 0)%Z; [apply y_lift|]. destruct (set_nth _ _ _); [apply IH|apply y_lift].
Qed.
Lemma y_struct h t ms : Forall pays ms -> pays (ser_struct_t h t ms).
Proof.
  intros H. unfold ser_struct_t. cbv zeta. destruct (size_of t).
  - destruct (packed_struct t) as [[pads final]|]; [|apply y_lift]. destruct (mem_layout t) as [[size al]|]; [|apply y_lift]. yy. now apply y_cmds.
  - yo. now apply y_cmds.
Qed.
Lemma y_members h rs : Forall (fun r => forall t, pays (ser_t h r t)) rs -> forall ts,
  Forall pays ((fix go (rs : list rval) (ts : list ty) : list (M (K * N) N) :=
    match rs, ts with r :: rs', t :: ts' => ser_t h r t :: go rs' ts' | _, _ => [] end) rs ts).
Proof. induction 1 as [|r rs Hr _ IH]; intros [|t ts]; constructor; auto. Qed.
Theorem ser_pays h r : forall t, pays (ser_t h r t).
Proof.
  induction r as [r IH] using rval_cases. intros t.
  destruct r as [z|bits|b|b|s|d|d|u x|rs|o|rs]; destruct t as [| | | | | | | | | | | | |y|y|ts|k v]; cbn [ser_t]; try solve [yy];
    try solve [yy; destruct (has_nul s); yy].
  - yy. apply IH.
  - assert (H : Forall pays (map (fun r => ser_t h r y) rs)).
    { induction IH as [|r rs Hr _ IHr]; cbn [map]; constructor; [apply Hr|exact IHr]. }
    cbv zeta. destruct (is_fixed y); [now apply y_seq|now apply y_nfwa].
  - destruct (is_fixed y); [apply y_lift|]. yy. destruct rs as [|r rs]; [yy|]. inversion IH as [|? ? H1 H2]; subst. yy. apply H1.
  - yy. destruct o as [r|]; [|yy]. destruct (is_fixed y); yy; apply IH.
  - cbv zeta. destruct (Nat.eqb _ _); [|apply y_lift]. apply y_struct, y_members, IH.
  - cbv zeta. destruct (Nat.eqb _ _); [|apply y_lift]. apply y_struct, y_members, IH.
Qed.
Theorem calls_claim h r t k : let '((k', n), _) := ser_t h r t (k, 0) in calls k' <= calls k + n.
Proof. pose proof (ser_pays h r t k 0) as H. destruct (ser_t h r t (k, 0)) as [[k' n] res]. cbn [fst snd] in *. lia. Qed.
End Calls.
