(** The least number of steps reading takes: proofs. *)
From Verif Require Import Base BaseFacts Types Layout LayoutFacts TypesFacts AlignedBytes Strs Spec Deser Cost CostFacts LeastSpec.
From Coq Require Import Lia ZifyBool ZifyNat ZifyN.
Ltac Zify.zify_post_hook ::= idtac.
Local Open Scope N_scope.

Lemma bind_ok {A B} (m : timed A) (f : A -> timed B) b : result_of (tbind m f) = Ok b ->
  exists a, result_of m = Ok a /\ result_of (f a) = Ok b /\ steps_of (tbind m f) = steps_of m + steps_of (f a).
Proof. unfold tbind, result_of, steps_of. destruct (snd m) as [a|c]; [|discriminate]. intros H. exists a. auto. Qed.
Ltac inv H a E := let S := fresh "S" in apply bind_ok in H as (a & E & H & S); try rewrite S; clear S.
Lemma str_least d x : result_of (to_str_t d) = Ok x -> 4 + 2 * len x <= steps_of (to_str_t d).
Proof.
  unfold to_str_t, as_bytes_non_conformant_t, tbind, costs, now, result_of, steps_of. cbn [fst snd].
  destruct (has_nul _); cbn [fst snd]; [intros [= <-]; unfold len; cbn [length]; lia|].
  destruct (valid_utf8 _); cbn [fst snd]; intros [= <-]; [unfold blen, len; lia|unfold len; cbn [length]; lia].
Qed.
Lemma split_least h s p : result_of (variant_split_t h s) = Ok p -> 1 + len (s_data (fst p)) <= steps_of (variant_split_t h s).
Proof.
  unfold variant_split_t. intros H. inv H m E. injection E as <-. destruct (memrchr0 (s_data s)) as [mid|].
  - inv H q Esp. inv H ts Ets. injection H as <-. cbn [fst]. unfold costs, steps_of at 1. cbn [fst].
    unfold split_at_t in Esp. inv Esp b Eb. inv Esp a Ea. inv Esp b' Eb'. injection Esp as <-. cbn [snd] in Ets.
    unfold result_of, costs in Ets, Ea. cbn [snd] in Ets, Ea.
    unfold sl_from, slen in *. destruct (mid <=? blen (s_data s)) eqn:E1; [|discriminate]. injection Ea as <-. cbn [s_data] in Ets.
    destruct (1 <=? _); [|discriminate]. injection Ets as <-. cbn [s_data]. unfold drop, blen, len in *. rewrite !skipn_length. lia.
  - inv H e Ee. injection H as <-. cbn [fst s_data]. unfold empty_aligned_t, align_bytes_t in *. inv Ee a Ea. unfold costs, steps_of at 1 2. cbn [fst]. unfold len. cbn [length]. lia.
Qed.
Definition total (vs : list value) : N := fold_right (fun v n => 1 + sp_looked v + n) 0 vs.
Definition below (vs : list value) : N := fold_right (fun v n => sp_looked v + n) 0 vs.
Lemma total_below vs : total vs = len vs + below vs.
Proof. unfold total, below, len. induction vs as [|v vs IH]; cbn [fold_right length]; lia. Qed.
Lemma next_least h x it p : result_of (nfwa_next_t h x it) = Ok p -> 1 <= steps_of (nfwa_next_t h x it).
Proof. unfold nfwa_next_t. intros H. inv H c E. unfold costs, steps_of at 1. cbn [fst]. lia. Qed.
Lemma collect_least h x f : forall it rs, result_of (nfwa_collect_t h x f it) = Ok rs -> 1 + len rs <= steps_of (nfwa_collect_t h x f it).
Proof.
  induction f as [|f IH]; intros it rs H; cbn [nfwa_collect_t] in *; [discriminate|]. inv H p E. apply next_least in E. destruct (fst p) as [r|].
  - inv H rs' E'. apply IH in E'. injection H as <-. unfold len in *. cbn [length]. lia.
  - injection H as <-. unfold len. cbn [length]. lia.
Qed.
Lemma refs_least h x s rs : result_of (array_refs_t h x s) = Ok rs -> 1 + len rs <= steps_of (array_refs_t h x s).
Proof.
  unfold array_refs_t. destruct (size_of x).
  - destruct (mem_layout x) as [[size al]|]; [|discriminate]. intros [= <-]. unfold costs, steps_of. cbn [fst].
    unfold len, slice_elems. rewrite map_length, seq_length. lia.
  - unfold nfwa_items_t. intros H. inv H it E. apply collect_least in H. lia.
Qed.
Lemma option_least h x s o : result_of (to_option_t h x s) = Ok o -> 1 <= steps_of (to_option_t h x s).
Proof.
  unfold to_option_t. destruct (size_of x); [unfold try_from_aligned_slice_t, costs, steps_of; cbn [fst]; lia|].
  intros H. inv H c E. unfold costs, steps_of at 1. cbn [fst]. lia.
Qed.
Lemma fields_least s : forall offs lays rs, result_of (field_refs_t s offs lays) = Ok rs -> len rs <= steps_of (field_refs_t s offs lays).
Proof.
  induction offs as [|o offs IH]; intros [|l lays] rs H; cbn [field_refs_t] in *; try (injection H as <-; unfold len; cbn [length]; lia).
  inv H r E. inv H rs' E'. injection H as <-. apply IH in E'. unfold costs, steps_of at 1. cbn [fst]. unfold len in *. cbn [length]. lia.
Qed.
Lemma nonfixed_least h al nfo s : forall ts rows rs, result_of (nonfixed_refs_t h al nfo s ts rows) = Ok rs -> len rs <= steps_of (nonfixed_refs_t h al nfo s ts rows).
Proof.
  induction ts as [|t ts IH]; intros [|[[[i a] b] c] rows] rs H; cbn [nonfixed_refs_t] in *; try (injection H as <-; unfold len; cbn [length]; lia).
  inv H d E. inv H r Er. inv H rs' E'. injection H as <-. apply IH in E'. unfold costs, steps_of at 1. cbn [fst]. unfold len in *. cbn [length]. lia.
Qed.
Lemma tuple_least h t s rs : result_of (to_tuple_t h t s) = Ok rs -> len rs <= steps_of (to_tuple_t h t s).
Proof.
  unfold to_tuple_t. cbv zeta. destruct (size_of t).
  - destruct (field_offsets t); [|discriminate]. destruct (mem_layouts _); [|discriminate]. apply fields_least.
  - apply nonfixed_least.
Qed.
Lemma read_least h : forall t s v, result_of (read_t h t s) = Ok v -> sp_looked v <= steps_of (read_t h t s).
Proof.
  induction t as [t Hns IH|t Hs IH] using ty_struct_ind; intros s v H.
  - destruct t as [| | | | | | | | | | | | |x|x|ts|a b]; try (cbn in Hns; tauto); cbn [read_t] in *;
      try (unfold costs, steps_of; cbn [fst]; unfold result_of, costs in H; cbn [snd read] in H;
           repeat (unfold bind in H; match type of H with context [match ?m with _ => _ end] => destruct m; try discriminate end);
           injection H as <-; cbn [sp_looked]; lia).
    + inv H x E. injection H as <-. apply str_least in E. cbn [sp_looked]. lia.
    + inv H x E. injection H as <-. apply str_least in E. cbn [sp_looked]. lia.
    + inv H x E. injection H as <-. apply str_least in E. cbn [sp_looked]. lia.
    + inv H p E. injection H as <-. apply split_least in E. cbn [sp_looked]. lia.
    + specialize (IH x (or_introl eq_refl)). inv H rs E. apply refs_least in E. inv H vs Ev. injection H as <-. cbn [sp_looked]. fold (total vs). rewrite total_below.
      assert (HB : len vs <= len rs /\ below vs <= steps_of ((fix go (rs : list slice) : timed (list value) :=
        match rs with [] => now [] | r :: rs => let+ v := read_t h x r in let+ vs := go rs in now (v :: vs) end) rs)); [|lia].
      clear E. revert vs Ev. induction rs as [|r rs IHr]; intros vs Ev.
      * injection Ev as <-. cbn. lia.
      * inv Ev v Ev1. apply IH in Ev1. inv Ev vs' Ev2. apply IHr in Ev2. injection Ev as <-. unfold below, len in *. cbn [fold_right length]. lia.
    + specialize (IH x (or_intror eq_refl)). inv H o E. apply option_least in E. destruct o as [r|].
      * inv H w Ew. injection H as <-. apply IH in Ew. cbn [sp_looked]. lia.
      * injection H as <-. cbn [sp_looked]. lia.
  - destruct t as [| | | | | | | | | | | | |x|x|ts|a b]; try (cbn in Hs; tauto); cbn [read_t] in *.
    + inv H rs E. apply tuple_least in E. inv H vs Ev. injection H as <-. cbn [sp_looked]. fold (total vs). rewrite total_below. cbn [children_of] in IH.
      match type of Ev with result_of ?m = _ => assert (HB : len vs <= len rs /\ below vs <= steps_of m); [|lia] end.
      clear E Hs. revert rs vs Ev. induction IH as [|t ts Ht _ IHt]; intros [|r rs] vs Ev; try (injection Ev as <-; unfold below, len; cbn [fold_right length]; lia).
      inv Ev v Ev1. apply Ht in Ev1. inv Ev vs' Ev2. apply IHt in Ev2. injection Ev as <-. unfold below, len in *. cbn [fold_right length]. lia.
    + inv H rs E. apply tuple_least in E. cbn [children_of] in IH. inversion IH as [|? ? Ha H2]; subst. inversion H2 as [|? ? Hb _]; subst.
      destruct rs as [|ra [|rb [|]]]; try (injection H as <-; cbn [sp_looked fold_right]; lia).
      inv H va Ea. inv H vb Eb. injection H as <-. apply Ha in Ea. apply Hb in Eb. cbn [sp_looked fold_right]. unfold len in E. cbn [length] in E. lia.
Qed.
Theorem decode_least h t s v : decode h t s = Ok v -> 5 + sp_looked v <= steps_of (decode_t h t s).
Proof.
  intros Hd. assert (H : result_of (decode_t h t s) = Ok v) by (rewrite <- Hd; apply er_decode).
  unfold decode_t in *. inv H r E. apply read_least in H. unfold from_aligned_slice_t in *. inv E o Eo. unfold try_from_aligned_slice_t, costs, steps_of at 1. cbn [fst]. lia.
Qed.
Theorem get_least h t s r : variant_get h t s = Ok (Some r) -> 8 + 2 * len (sp_show t) <= steps_of (variant_get_t h t s).
Proof.
  intros Hd. assert (H : result_of (variant_get_t h t s) = Ok (Some r)) by (rewrite <- Hd; apply er_get).
  unfold variant_get_t in *. inv H p Ep. apply split_least in Ep. inv H e Ee. unfold result_of, costs in Ee. cbn [snd] in Ee.
  destruct e; [|discriminate]. injection Ee as Ee. apply bytes_eqb_eq in Ee. rewrite Ee in Ep.
  inv H d Eg. inv H o Eo. unfold from_aligned_slice_t in *. inv Eo q Eq'. unfold try_from_aligned_slice_t, costs, steps_of at 2 3 4. cbn [fst].
  unfold slen. rewrite Ee, N.eqb_refl, <- display_show. unfold blen, len in *. lia.
Qed.
