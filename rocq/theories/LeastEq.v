(** The least number of steps comparing takes: proofs. *)
From Verif Require Import Base BaseFacts Types Layout LayoutFacts AlignedBytes Strs Spec Deser Histories Cost CostFacts EqFacts LeastSpec LeastFacts.
From Coq Require Import Lia ZifyBool ZifyNat ZifyN.
Ltac Zify.zify_post_hook ::= idtac.
Local Open Scope N_scope.

Ltac inv H a E := let S := fresh "S" in apply bind_ok in H as (a & E & H & S); try rewrite S; clear S.
Lemma strlen_le d : len (to_str d) <= len (as_bytes_non_conformant d).
Proof.
  unfold to_str. cbv zeta. destruct (has_nul _); [unfold len at 1; cbn [length]; lia|]. destruct (valid_utf8 _); [lia|unfold len at 1; cbn [length]; lia].
Qed.
Lemma compare_least a b : result_of (compare_t a b) = Ok true -> 1 + len a <= steps_of (compare_t a b).
Proof.
  unfold compare_t, costs, result_of, steps_of. cbn [fst snd]. intros [= H]. apply bytes_eqb_eq in H. subst. rewrite N.eqb_refl. unfold blen, len. lia.
Qed.
Lemma str_eq_least a b : result_of (str_eq_t a b) = Ok true -> 1 + len (to_str a) <= steps_of (str_eq_t a b).
Proof.
  unfold str_eq_t. intros H. inv H x Ex. inv H y Ey. injection Ex as <-. inv H e Ee. destruct e.
  - apply compare_least in Ee. pose proof (strlen_le a). lia.
  - inv H x' Ex'. pose proof (er_to_str a) as HE. unfold result_of in Ex'. rewrite HE in Ex'. injection Ex' as <-.
    assert (Ht : result_of (to_str_t a) = Ok (to_str a)) by exact HE. apply str_least in Ht. lia.
Qed.
(** Elements found equal one after another, and the steps it took. *)
Inductive paid (f : slice -> slice -> timed bool) : list slice -> list slice -> N -> Prop :=
| pd_nil : paid f [] [] 0
| pd_cons a b xs ys n : result_of (f a b) = Ok true -> paid f xs ys n -> paid f (a :: xs) (b :: ys) (steps_of (f a b) + n).
Lemma eq_all_paid f : forall xs ys, length xs = length ys -> result_of (eq_all_t f xs ys) = Ok true -> exists n, paid f xs ys n /\ n <= steps_of (eq_all_t f xs ys).
Proof.
  induction xs as [|x xs IH]; intros [|y ys] El H; try discriminate El; cbn [eq_all_t] in *.
  - exists 0. split; [constructor|lia].
  - inv H e E. destruct e; [|discriminate]. injection El as El. destruct (IH ys El H) as (n & Hn & Hs). exists (steps_of (f x y) + n). split; [now constructor|lia].
Qed.
Lemma eq_go_paid h x f : forall fa ia ib fb xs ys, result_of (nfwa_collect_t h x fa ia) = Ok xs -> result_of (nfwa_collect_t h x fb ib) = Ok ys ->
  length xs = length ys -> result_of (nfwa_eq_go_t h x f fa ia ib) = Ok true -> exists n, paid f xs ys n /\ n <= steps_of (nfwa_eq_go_t h x f fa ia ib).
Proof.
  induction fa as [|fa IH]; intros ia ib fb xs ys Hx Hy El H; cbn [nfwa_collect_t nfwa_eq_go_t] in *; [discriminate|].
  destruct fb as [|fb]; cbn [nfwa_collect_t] in Hy; [discriminate|].
  inv Hx p Ep. inv Hy q Eq'. inv H p' Ep'. rewrite Ep in Ep'. injection Ep' as <-. destruct (fst p) as [a|].
  - inv Hx xs' Ex. injection Hx as <-. destruct (fst q) as [b|] eqn:Eb.
    + inv Hy ys' Ey. injection Hy as <-. inv H q' Eq''. rewrite Eq' in Eq''. injection Eq'' as <-. rewrite Eb in H |- *. inv H e Ee. destruct e; [|discriminate].
      injection El as El. destruct (IH _ _ _ _ _ Ex Ey El H) as (n & Hn & Hs). exists (steps_of (f a b) + n). split; [now constructor|lia].
    + injection Hy as <-. discriminate El.
  - injection Hx as <-. destruct ys; [|discriminate El]. exists 0. split; [constructor|lia].
Qed.
Definition compared (vs : list value) : N := fold_right (fun v n => sp_compared v + n) 0 vs.
Section Each.
Variables (h : host) (x : ty).
Hypothesis IH : forall a b v w, result_of (read_t h x a) = Ok v -> result_of (read_t h x b) = Ok w -> sp_veq v w = true ->
  result_of (gv_eq_t h x a b) = Ok true -> sp_compared v <= steps_of (gv_eq_t h x a b).
Let go := fix go (rs : list slice) : timed (list value) :=
  match rs with [] => now [] | r :: rs => let+ v := read_t h x r in let+ vs := go rs in now (v :: vs) end.
Lemma go_len : forall rs vs, result_of (go rs) = Ok vs -> length vs = length rs.
Proof.
  induction rs as [|r rs IHr]; intros vs H; cbn [go] in H; [now injection H as <-|]. inv H v E. inv H vs' E'. injection H as <-. cbn [length]. f_equal. now apply IHr.
Qed.
Lemma paid_least xs ys n : paid (gv_eq_t h x) xs ys n -> forall vs ws, result_of (go xs) = Ok vs -> result_of (go ys) = Ok ws -> all2 vs ws = true -> compared vs <= n.
Proof.
  induction 1 as [|a b xs ys n Hab _ IHp]; intros vs ws Ev Ew Ha; cbn [go] in *; [injection Ev as <-; cbn; lia|].
  inv Ev v E1. inv Ev vs' E2. injection Ev as <-. inv Ew w F1. inv Ew ws' F2. injection Ew as <-. cbn [all2] in Ha. apply andb_true_iff in Ha as [H1 H2].
  specialize (IH a b v w E1 F1 H1 Hab). specialize (IHp vs' ws' E2 F2 H2). unfold compared in *. cbn [fold_right]. lia.
Qed.
End Each.
Lemma all2_length vs ws : all2 vs ws = true -> length vs = length ws.
Proof. intros H. destruct (Nat.eq_dec (length vs) (length ws)) as [E|E]; [exact E|]. rewrite all2_len in H by exact E. discriminate. Qed.
Definition members (vs : list value) : N := fold_right (fun v n => 2 + sp_compared v + n) 0 vs.
Lemma members_sum vs : members vs = 2 * len vs + compared vs.
Proof. unfold members, compared, len. induction vs as [|v vs IH]; cbn [fold_right length]; lia. Qed.
Lemma eq_least h : forall t a b v w, result_of (read_t h t a) = Ok v -> result_of (read_t h t b) = Ok w -> sp_veq v w = true ->
  result_of (gv_eq_t h t a b) = Ok true -> sp_compared v <= steps_of (gv_eq_t h t a b).
Proof.
  induction t as [t Hns IH|t Hs IH] using ty_struct_ind; intros a b v w Ha Hb Hv H.
  - destruct t as [| | | | | | | | | | | | |x|x|ts|k u]; try (cbn in Hns; tauto); cbn [read_t gv_eq_t] in *;
      try (unfold costs, steps_of; cbn [fst]; unfold result_of, costs in Ha; cbn [snd read] in Ha;
           repeat (unfold bind in Ha; match type of Ha with context [match ?m with _ => _ end] => destruct m; try discriminate end);
           injection Ha as <-; cbn [sp_compared]; lia).
    1-3: inv Ha x E; injection Ha as <-; pose proof (er_to_str (s_data a)) as HE; unfold result_of in E; rewrite HE in E; injection E as <-;
      apply str_eq_least in H; cbn [sp_compared]; lia.
    + inv Ha p E. injection Ha as <-. inv H p' E'. rewrite E in E'. injection E' as <-. inv H q Eq'. inv H e Ee. destruct e; [|discriminate].
      apply compare_least in Ee, H. cbn [sp_compared]. lia.
    + specialize (IH x (or_introl eq_refl)). inv Ha xs Ex. inv Hb ys Ey. inv Ha vs Ev. inv Hb ws Ew. injection Ha as <-. injection Hb as <-. rewrite veq_array in Hv.
      pose proof (all2_length _ _ Hv) as Hl. rewrite (go_len h x _ _ Ev), (go_len h x _ _ Ew) in Hl. cbn [sp_compared]. fold (compared vs).
      unfold array_refs_t in Ex, Ey. destruct (size_of x) as [sz|].
      * destruct (mem_layout x) as [[size al]|]; [|discriminate]. injection Ex as <-. injection Ey as <-. inv H c E. destruct c; [|discriminate].
        destruct (eq_all_paid _ _ _ Hl H) as (n & Hn & Hs). pose proof (paid_least h x IH _ _ _ Hn _ _ Ev Ew Hv). unfold costs, steps_of at 1. cbn [fst]. lia.
      * unfold nfwa_items_t in Ex, Ey. inv Ex ia Ea. inv Ey ib Eb. unfold nfwa_eq_t in *. inv H la El. inv H lb Elb. inv H c Ec. destruct c; [|discriminate].
        inv H ia' Ea'. rewrite Ea in Ea'. injection Ea' as <-. inv H ib' Eb'. rewrite Eb in Eb'. injection Eb' as <-.
        destruct (eq_go_paid _ _ _ _ _ _ _ _ _ Ex Ey Hl H) as (n & Hn & Hs). pose proof (paid_least h x IH _ _ _ Hn _ _ Ev Ew Hv). unfold costs, steps_of at 3. cbn [fst]. lia.
    + specialize (IH x (or_intror eq_refl)). inv Ha oa Ea. inv Hb ob Eb. inv H oa' Ea'. rewrite Ea in Ea'. injection Ea' as <-. inv H ob' Eb'. rewrite Eb in Eb'. injection Eb' as <-.
      apply option_least in Ea, Eb. destruct oa as [ra|].
      * inv Ha v' Ev. injection Ha as <-. destruct ob as [rb|]; [|discriminate]. inv Hb w' Ew. injection Hb as <-. cbn [sp_veq] in Hv. specialize (IH _ _ _ _ Ev Ew Hv H). cbn [sp_compared]. lia.
      * injection Ha as <-. cbn [sp_compared]. lia.
  - destruct t as [| | | | | | | | | | | | |x|x|ts|k u]; try (cbn in Hs; tauto); cbn [read_t gv_eq_t] in *.
    + inv Ha xs Ex. inv Hb ys Ey. inv Ha vs Ev. inv Hb ws Ew. injection Ha as <-. injection Hb as <-. rewrite veq_tuple in Hv.
      inv H xs' Ex'. rewrite Ex in Ex'. injection Ex' as <-. inv H ys' Ey'. rewrite Ey in Ey'. injection Ey' as <-. apply tuple_least in Ex, Ey.
      cbn [sp_compared]. fold (members vs). rewrite members_sum. cbn [children_of] in IH.
      match type of H with result_of ?m = _ => assert (HB : len vs <= len xs /\ len vs <= len ys /\ compared vs <= steps_of m); [|lia] end.
      clear Ex Ey Hs. revert xs ys vs ws Ev Ew Hv H. induction IH as [|t ts Ht _ IHt]; intros [|r xs] [|q ys] vs ws Ev Ew Hv H;
        try (injection Ev as <-; unfold compared, len; cbn [fold_right length]; lia).
      * injection Ew as <-. destruct vs; [unfold compared, len; cbn [fold_right length]; lia|discriminate].
      * inv Ev v E1. inv Ev vs' E2. injection Ev as <-. inv Ew w F1. inv Ew ws' F2. injection Ew as <-. cbn [all2] in Hv. apply andb_true_iff in Hv as [H1 H2].
        inv H e Ee. destruct e; [|discriminate]. specialize (Ht _ _ _ _ E1 F1 H1 Ee). specialize (IHt _ _ _ _ E2 F2 H2 H). unfold compared, len in *. cbn [fold_right length]. lia.
    + inv Ha xs Ex. inv Hb ys Ey. inv H xs' Ex'. rewrite Ex in Ex'. injection Ex' as <-. inv H ys' Ey'. rewrite Ey in Ey'. injection Ey' as <-. apply tuple_least in Ex, Ey.
      cbn [children_of] in IH. inversion IH as [|? ? Hk H2]; subst. inversion H2 as [|? ? Hu _]; subst.
      destruct xs as [|ra [|rb [|]]]; try (injection Ha as <-; cbn [sp_compared fold_right]; lia).
      inv Ha va Eva. inv Ha vb Evb. injection Ha as <-. destruct ys as [|qa [|qb [|]]]; try (injection Hb as <-; discriminate Hv).
      inv Hb wa Ewa. inv Hb wb Ewb. injection Hb as <-. rewrite veq_tuple in Hv. cbn [all2] in Hv. apply andb_true_iff in Hv as [H1 Hv]. apply andb_true_iff in Hv as [H3 _].
      inv H e Ee. destruct e; [|discriminate]. specialize (Hk _ _ _ _ Eva Ewa H1 Ee). specialize (Hu _ _ _ _ Evb Ewb H3 H). cbn [sp_compared fold_right]. unfold len in Ex, Ey. cbn [length] in Ex, Ey. lia.
Qed.
Theorem equal_least h t a b v w : view h t a -> view h t b -> read h t a = Ok v -> read h t b = Ok w -> sp_veq v w = true ->
  result_of (gv_eq_t h t a b) = Ok true /\ sp_compared v <= steps_of (gv_eq_t h t a b).
Proof.
  intros Va Vb Ha Hb Hv. assert (H : result_of (gv_eq_t h t a b) = Ok true).
  { unfold result_of. rewrite er_eq, (eq_claim h t a b v w Va Vb Ha Hb). now rewrite Hv. }
  split; [exact H|]. apply (eq_least h t a b v w); [unfold result_of; now rewrite er_read|unfold result_of; now rewrite er_read|exact Hv|exact H].
Qed.
