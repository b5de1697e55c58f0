(** How many pieces a writer is offered. *)
From Verif Require Import Base BaseFacts Types Layout AlignedBytes Strs Spec Deser Ser Histories SerSpec Writer WriterSpec SerMain WriterFacts.
From Coq Require Import Lia ZifyBool ZifyNat ZifyN.
#[local] Existing Instance log_write.

Definition offers {A} (m : M log A) (n : N) (Q : A -> Prop) : Prop :=
  forall l, exists ps x, m l = (l ++ ps, x) /\ len ps <= n /\ (forall a, x = SOk a -> Q a).
Definition any {A} : A -> Prop := fun _ => True.
Lemma o_le {A} (m : M log A) a b (Q R : A -> Prop) : offers m a Q -> a <= b -> (forall x, Q x -> R x) -> offers m b R.
Proof. intros H Hl HQ l. destruct (H l) as (ps & x & E & Hp & Hx). exists ps, x. split; [exact E|]. split; [lia|auto]. Qed.
Lemma o_any {A} (m : M log A) a b (Q : A -> Prop) : offers m a Q -> a <= b -> offers m b any.
Proof. intros H Hl. apply (o_le m a b Q any H Hl). intros ? _. exact I. Qed.
Lemma o_ret {A} (a : A) n (Q : A -> Prop) : Q a -> offers (sret a) n Q.
Proof. intros HQ l. exists [], (SOk a). unfold sret. rewrite app_nil_r. split; [reflexivity|]. split; [cbn; lia|]. congruence. Qed.
Lemma o_error {A} e n (Q : A -> Prop) : offers (serror e) n Q.
Proof. intros l. exists [], (SErr e). unfold serror. rewrite app_nil_r. split; [reflexivity|]. split; [cbn; lia|]. discriminate. Qed.
Lemma o_lift {A} (m : res A) n : offers (lift m) n any.
Proof.
  intros l. exists [], (match m with Ok a => SOk a | Crash c => SCrash c end). unfold lift. rewrite app_nil_r.
  split; [now destruct m|]. split; [cbn; lia|]. intros; exact I.
Qed.
Lemma o_crash {A} c n (Q : A -> Prop) : offers (lift (Crash c)) n Q.
Proof. intros l. exists [], (SCrash c). cbn. rewrite app_nil_r. split; [reflexivity|]. split; [lia|]. discriminate. Qed.
Lemma o_all d : offers (write_all d) 1 any.
Proof. intros l. exists [d], (SOk tt). split; [reflexivity|]. split; [cbn; lia|]. intros; exact I. Qed.
Lemma o_bind {A B} (m : M log A) (f : A -> M log B) a b (Q : A -> Prop) (R : B -> Prop) :
  offers m a Q -> (forall x, Q x -> offers (f x) b R) -> offers (sbind m f) (a + b) R.
Proof.
  intros Hm Hf l. destruct (Hm l) as (ps & x & E & Hp & Hx). unfold sbind. rewrite E. destruct x as [y|e|c].
  - destruct (Hf y (Hx y eq_refl) (l ++ ps)) as (qs & z & E' & Hq & Hz). exists (ps ++ qs), z. rewrite E', app_assoc.
    split; [reflexivity|]. split; [|exact Hz]. unfold len in *. rewrite app_length. lia.
  - exists ps, (SErr e). split; [reflexivity|]. split; [lia|discriminate].
  - exists ps, (SCrash c). split; [reflexivity|]. split; [lia|discriminate].
Qed.
Lemma o_lbind {A B} (m : res A) (f : A -> M log B) b (R : B -> Prop) :
  (forall x, offers (f x) b R) -> offers (sbind (lift m) f) b R.
Proof. intros Hf. change b with (0 + b). apply (o_bind _ _ 0 b any); [apply o_lift|]. intros x _. apply Hf. Qed.
Lemma o_wbind {B} d (f : unit -> M log B) b (R : B -> Prop) : offers (f tt) b R -> offers (sbind (write_all d) f) (1 + b) R.
Proof. intros Hf. apply (o_bind _ _ 1 b any); [apply o_all|]. intros [] _. exact Hf. Qed.
Ltac oo := repeat first [now apply o_ret | apply o_error | apply o_crash | apply o_lift | apply o_lbind; intros ? | eapply o_wbind].

Lemma o_padding h A p : offers (write_padding h A p) 1 any.
Proof. unfold write_padding. oo. apply (o_le _ (1 + 0) 1 any any); [|lia|auto]. oo. Qed.
Lemma o_each n l : offers (write_each n l) (len l) any.
Proof.
  induction l as [|o l IH]; cbn [write_each]; [now apply o_ret|]. replace (len (o :: l)) with (1 + len l) by (unfold len; cbn [length]; lia). now apply o_wbind.
Qed.
Lemma o_offsets h b l : offers (write_offsets h b l) (len l) any.
Proof.
  unfold write_offsets. assert (H : forall n (x : N), offers (do _ <- write_each n l; sret x) (len l) any).
  { intros n x. apply (o_le _ (len l + 0) _ any any); [|lia|auto]. eapply o_bind; [apply o_each|]. intros _ _. now apply o_ret. }
  repeat first [apply H | apply o_lbind; intros ? | match goal with |- offers (if ?b then _ else _) _ _ => destruct b end].
Qed.
Definition sum (l : list N) : N := fold_right N.add 0 l.
Definition does (m : M log N) (n : N) : Prop := offers m n any.
Lemma o_seq h l ns : Forall2 does l ns -> forall b, offers (ser_seq h l b) (sum ns) any.
Proof.
  induction 1 as [|m n l ns Hm _ IH]; intros b; cbn [ser_seq sum fold_right]; [now apply o_ret|].
  eapply o_bind; [exact Hm|]. intros x _. apply o_lbind. intros y. apply IH.
Qed.
Lemma o_nfwa h al l ns : Forall2 does l ns -> forall b o, offers (ser_nfwa h al l b o) (sum ns + 2 * len l + len o) any.
Proof.
  induction 1 as [|m n l ns Hm _ IH]; intros b o; cbn [ser_nfwa sum fold_right].
  - eapply o_any; [apply o_offsets|lia].
  - apply (o_le _ (n + (1 + (sum ns + 2 * len l + len (o ++ [b])))) _ any any); [|fold (sum ns); unfold len; rewrite app_length; cbn [length]; lia|auto].
    eapply o_bind; [exact Hm|]. intros x _. repeat (apply o_lbind; intros ?). apply o_wbind. apply o_lbind. intros ?.
    eapply o_any; [apply IH|]. unfold len. rewrite !app_length. cbn [length]. lia.
Qed.
Definition cmd_cost (ns : list N) (c : cmd) : N :=
  match c with CZeros _ | CPad _ => 1 | CChild n | CChildAdd n => nth n ns 0 | _ => 0 end.
Lemma o_child ms ns i : Forall2 does ms ns -> match nth_error ms i with Some m => does m (nth i ns 0) | None => True end.
Proof. intros H. revert i. induction H; intros [|i]; cbn [nth_error nth]; auto. apply IHForall2. Qed.
Lemma set_nth_len {A} (l : list A) x : forall i l', set_nth l i x = Some l' -> length l' = length l.
Proof.
  induction l as [|a l IH]; intros [|i] l' E; cbn [set_nth] in E; try discriminate; [now injection E as <-|].
  destruct (set_nth l i x) eqn:E'; [|discriminate]. injection E as <-. cbn [length]. now rewrite (IH _ _ E').
Qed.
Lemma o_cmds h ms ns : Forall2 does ms ns -> forall cmds off fo,
  offers (run_cmds h cmds ms off fo) (sum (map (cmd_cost ns) cmds)) (fun p => length (snd p) = length fo).
Proof.
  intros H. induction cmds as [|c cmds IH]; intros off fo; cbn [run_cmds map sum fold_right]; [now apply o_ret|]. fold (sum (map (cmd_cost ns) cmds)).
  destruct c as [n|n|A|n|n|i]; cbn [cmd_cost].
  - apply o_wbind, IH.
  - apply o_lbind. intros ?. apply IH.
  - eapply o_bind; [apply o_padding|]. intros p _. apply o_lbind. intros ?. apply IH.
  - pose proof (o_child ms ns n H) as Hn. destruct (nth_error ms n); [|apply o_crash]. eapply o_bind; [exact Hn|]. intros ? _. apply IH.
  - pose proof (o_child ms ns n H) as Hn. destruct (nth_error ms n); [|apply o_crash]. eapply o_bind; [exact Hn|]. intros ? _. apply o_lbind. intros ?. apply IH.
  - destruct (i <? 0)%Z; [apply o_crash|]. destruct (set_nth fo (Z.to_nat i) off) as [fo'|] eqn:E; [|apply o_crash].
    eapply o_le; [apply IH|lia|]. intros p ->. now apply set_nth_len in E.
Qed.
Lemma sum_app a b : sum (a ++ b) = sum a + sum b.
Proof. unfold sum. induction a as [|x a IH]; cbn [app fold_right]; lia. Qed.
Lemma skipn_step ns : forall n, sum (skipn n ns) = nth n ns 0 + sum (skipn (S n) ns).
Proof. induction ns as [|x ns IH]; intros [|n]; cbn [skipn nth sum fold_right]; try reflexivity. rewrite IH. now destruct ns. Qed.
Lemma nonfixed_sum ns ts : forall n base off k nfo, sum (map (cmd_cost ns) (nonfixed_cmds n base off k nfo ts)) <= sum (skipn n ns) + len ts.
Proof.
  induction ts as [|t ts IH]; intros n base off k nfo; cbn [nonfixed_cmds]; [cbn; lia|].
  pose proof (skipn_step ns n) as Hs.
  assert (Hl : len (t :: ts) = 1 + len ts) by (unfold len; cbn [length]; lia). rewrite Hl.
  destruct (align_of t <=? base); [destruct (0 <? _)|]; (destruct (size_of t) as [z|];
    [|destruct ts as [|t' ts]]);
    repeat rewrite map_app; repeat rewrite sum_app;
    match goal with |- context [nonfixed_cmds (S n) ?b ?o ?k ?f ?l] => specialize (IH (S n) b o k f); remember (nonfixed_cmds (S n) b o k f l) as r eqn:Er; clear Er end;
    cbn [map cmd_cost sum fold_right]; lia.
Qed.
Lemma packed_sum ns pads final : forall n, sum (map (cmd_cost ns) (packed_cmds n pads final)) <= sum (skipn n ns) + len pads + 1.
Proof.
  induction pads as [|p pads IH]; intros n; cbn [packed_cmds].
  - destruct (0 <? final); cbn [map cmd_cost sum fold_right]; lia.
  - pose proof (skipn_step ns n) as Hs. specialize (IH (S n)).
    assert (Hl : len (p :: pads) = 1 + len pads) by (unfold len; cbn [length]; lia). rewrite Hl.
    repeat rewrite map_app. repeat rewrite sum_app. destruct (0 <? p); cbn [map cmd_cost sum fold_right] in *; lia.
Qed.
Lemma packed_len l : forall x pads e, packed_go l x = Some (pads, e) -> length pads = length l.
Proof.
  induction l as [|[[a b] c] l IH]; intros x pads e E; cbn [packed_go] in E.
  - now injection E as <- _.
  - repeat match goal with H : context [match ?x with _ => _ end] |- _ => destruct x eqn:?; try discriminate end; injection E as <- _; cbn [length]; f_equal; eauto.
Qed.
Lemma frames_len ts : n_frame_offsets ts <= len ts.
Proof.
  unfold n_frame_offsets. assert (H : blen (filter (fun t => negb (is_fixed t)) ts) <= len ts).
  { unfold blen, len. induction ts as [|t ts IH]; cbn [filter length]; [lia|]. destruct (negb _); cbn [length]; lia. }
  destruct (rev ts); [exact H|]. destruct (is_fixed t); lia.
Qed.
Lemma o_struct h t ms ns : Forall2 does ms ns -> offers (ser_struct h t ms) (sum ns + 2 * len (children_of t) + 1) any.
Proof.
  intros H. unfold ser_struct. destruct (size_of t).
  - destruct (packed_struct t) as [[pads final]|] eqn:Ep; [|apply o_crash]. destruct (mem_layout t) as [[size al]|]; [|apply o_crash].
    eapply o_any; [eapply (o_bind _ _ _ 0 _ any); [apply (o_cmds h ms ns H)|]; intros p _; now apply o_ret|].
    pose proof (packed_sum ns pads final 0) as Hs. cbn [skipn] in Hs.
    assert (Hp : len pads <= len (children_of t)).
    { unfold packed_struct in Ep. destruct (size_of t); [|discriminate]. destruct (packed_go _ _) as [[pads' e]|] eqn:E; [|discriminate].
      destruct (_ <=? _); [|discriminate]. injection Ep as <- _. apply packed_len in E. unfold len. rewrite E, combine_length, map_length. lia. }
    lia.
  - eapply o_any; [eapply (o_bind _ _ _ (len (children_of t)) _ any); [apply (o_cmds h ms ns H)|]; intros p Hp; cbv beta in Hp; apply (o_le _ (len (snd p)) _ any any); [apply o_offsets| |auto]|].
    + pose proof (frames_len (children_of t)). unfold len in *. rewrite Hp, repeat_length. lia.
    + pose proof (nonfixed_sum ns (children_of t) 0 8 0 0 (n_frame_offsets (children_of t))) as Hs. cbn [skipn] in Hs. lia.
Qed.
Lemma parts_pos r : 1 <= sp_parts r.
Proof. destruct r as [| | | | | | | | |[|]|]; cbn [sp_parts]; lia. Qed.
Lemma sum_parts rs : sum (map (fun r => 5 * sp_parts r - 2) rs) + 2 * len rs <= 5 * fold_right (fun r n => sp_parts r + n) 0 rs.
Proof.
  unfold len, sum. induction rs as [|r rs IH]; cbn [map fold_right length]; [lia|]. pose proof (parts_pos r). lia.
Qed.
Lemma o_map (f : rval -> M log N) rs : Forall (fun r => does (f r) (5 * sp_parts r - 2)) rs -> Forall2 does (map f rs) (map (fun r => 5 * sp_parts r - 2) rs).
Proof. induction 1; cbn [map]; constructor; auto. Qed.
Lemma o_members h rs : Forall (fun r => forall t, does (ser h r t) (5 * sp_parts r - 2)) rs -> forall ts, length ts = length rs ->
  Forall2 does ((fix go (rs : list rval) (ts : list ty) : list (M log N) :=
              match rs, ts with
              | r :: rs', t :: ts' => ser h r t :: go rs' ts'
              | _, _ => []
              end) rs ts) (map (fun r => 5 * sp_parts r - 2) rs).
Proof.
  induction 1 as [|r rs Hr _ IH]; intros [|t ts] E; try discriminate E; cbn [map]; constructor; auto.
Qed.
Lemma o_ser h r : forall t, does (ser h r t) (5 * sp_parts r - 2).
Proof.
  induction r as [z|bits|b|b|s|d|d|u r IH|rs IH|o IH|rs IH] using rval_nest; intros t; unfold does;
    destruct t as [| | | | | | | | | | | | |x|x|ts|k v]; cbn [ser]; try solve [apply o_crash];
    try solve [eapply o_any; [oo|cbn [sp_parts]; lia]].
  all: try solve [apply (o_any _ (1 + 0) _ any); [oo|cbn [sp_parts]; lia]].
  all: try solve [apply (o_any _ (1 + (1 + 0)) _ any); [oo|cbn [sp_parts]; lia]].
  all: try solve [destruct (has_nul s); [apply o_error|]; apply (o_any _ (1 + (1 + 0)) _ any); [oo|cbn [sp_parts]; lia]].
  - apply (o_any _ (1 + (1 + (1 + 0))) _ any); [oo|cbn [sp_parts]; lia].
  - pose proof (parts_pos r). eapply o_any; [eapply (o_bind _ _ _ (1 + (1 + 0)) _ any); [apply IH|]; intros n _; oo|cbn [sp_parts]; lia].
  - assert (H : Forall2 does (map (fun r => ser h r x) rs) (map (fun r => 5 * sp_parts r - 2) rs)).
    { apply o_map. eapply Forall_impl; [|exact IH]. intros r Hr. apply Hr. }
    pose proof (sum_parts rs) as Hs. cbn [sp_parts]. destruct (is_fixed x); (eapply o_any; [first [apply (o_seq h _ _ H)|apply (o_nfwa h _ _ _ H)]|]).
    + lia.
    + unfold len in *. rewrite map_length. cbn [length]. lia.
  - destruct (is_fixed x); [apply o_crash|]. destruct rs as [|r rs]; [now apply o_ret|]. inversion IH as [|? ? H1 H2]; subst. pose proof (parts_pos r).
    eapply o_any; [eapply (o_bind _ _ _ (1 + 0) _ any); [apply H1|]; intros n _; oo|cbn [sp_parts fold_right]; lia].
  - destruct o as [r|]; [|now apply o_ret]. specialize (IH r eq_refl). pose proof (parts_pos r). destruct (is_fixed x).
    + eapply o_any; [apply IH|cbn [sp_parts]; lia].
    + eapply o_any; [eapply (o_bind _ _ _ (1 + 0) _ any); [apply IH|]; intros n _; oo|cbn [sp_parts]; lia].
  - destruct (Nat.eqb _ _) eqn:E; [|apply o_crash]. apply Nat.eqb_eq in E. eapply o_any; [apply o_struct, o_members; [exact IH|exact E]|].
    pose proof (sum_parts rs) as Hs. cbn [sp_parts]. unfold len in *. lia.
  - destruct (Nat.eqb _ _) eqn:E; [|apply o_crash]. apply Nat.eqb_eq in E. eapply o_any; [apply o_struct, o_members; [exact IH|exact E]|].
    pose proof (sum_parts rs) as Hs. cbn [sp_parts]. unfold len in *. lia.
Qed.
Lemma few_pieces h t r : exists pieces, len pieces <= 5 * sp_parts r - 2 /\
  concat pieces = sp_output (serialize h t r None) /\
  forall K (W : Write K) (k : K), ser h r t k = offer pieces (snd (serialize h t r None)) k.
Proof.
  destruct (o_ser h r t []) as (ps & x & E & Hl & _). exists ps. split; [exact Hl|]. cbn [app] in E.
  destruct (any_writer h t r) as (qs & Hc & Hk). pose proof (Hk log log_write []) as Hq. rewrite E in Hq.
  assert (Ho : forall ps (x : sres N) l, @offer log _ log_write ps x l = (l ++ ps, x)).
  { clear. intros ps. induction ps as [|p ps' IH]; intros y l; cbn [offer]; [f_equal; symmetry; apply app_nil_r|]. cbn. rewrite IH. f_equal. symmetry. apply (app_assoc l [p] ps'). }
  rewrite Ho in Hq. cbn [app] in Hq. injection Hq as <- _. split; [exact Hc|exact Hk].
Qed.
(** Arrays of numbers: one piece for each. *)
Lemma byte_pieces h zs : len zs < 2 ^ 64 -> forall K (W : Write K) (k : K),
  ser h (RList (map RInt zs)) (TA TY) k = offer (map (fun z => [n2b (Z.to_N (z mod 256))]) zs) (SOk (len zs)) k.
Proof.
  intros Hl K W k. cbn [ser is_fixed]. change (is_fixed TY) with true. cbn [Bool.bool_dec].
  assert (H : forall zs b k, b + len zs < 2 ^ 64 ->
    ser_seq h (map (fun r => ser h r TY) (map RInt zs)) b k = offer (map (fun z => [n2b (Z.to_N (z mod 256))]) zs) (SOk (b + len zs)) k).
  { clear. induction zs as [|z zs IH]; intros b k Hb; cbn [map ser_seq offer].
    - unfold sret. do 3 f_equal. cbn. lia.
    - assert (Hc : len (z :: zs) = 1 + len zs) by (unfold len; cbn [length]; lia). rewrite Hc in *.
      unfold sbind at 1. cbn [ser]. unfold sbind at 1.
      replace (int_bytes h 1 z) with [n2b (Z.to_N (z mod 256))].
      2:{ unfold int_bytes, to_ne. change (2 ^ (8 * Z.of_nat 1))%Z with 256%Z. destruct (h_big_endian h); reflexivity. }
      destruct (write_all [n2b (Z.to_N (z mod 256))] k) as [k' [u|e|c]]; [|reflexivity|reflexivity]. cbn [sret].
      unfold sbind, lift, uadd. change (N.of_nat 1) with 1. rewrite (proj2 (N.ltb_lt _ _)) by (change usize_lim with (2 ^ 64); lia).
      rewrite IH by lia. do 2 f_equal. lia. }
  rewrite H by lia. reflexivity.
Qed.
