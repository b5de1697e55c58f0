(** Proofs for C112. *)
From Verif Require Import Base BaseFacts AlignedBytes Types Layout Spec LayoutFacts TableSpec.
From Coq Require Import Lia.

Lemma exp_align t : 2 ^ N.log2 (sp_align t) = sp_align t.
Proof.
  rewrite sp_align_of. destruct (align_of_alignment t) as [->|[->|[->| ->]]]; reflexivity.
Qed.
Lemma log2_le_align a b : is_alignment a -> is_alignment (2 ^ b) -> (N.log2 a <=? b) = (a <=? 2 ^ b).
Proof.
  intros Ha Hb. assert (E : 2 ^ N.log2 a = a) by (destruct Ha as [->|[->|[->| ->]]]; reflexivity).
  destruct (N.log2 a <=? b) eqn:E1.
  - apply N.leb_le in E1. symmetry. apply N.leb_le. rewrite <- E. apply N.pow_le_mono_r; lia.
  - apply N.leb_gt in E1. symmetry. apply N.leb_gt. rewrite <- E. apply N.pow_lt_mono_r; lia.
Qed.
Definition pow_row (r : Z * N * N * N) : row := let '(i, a, b, c) := r in (i, a, 2 ^ b, c).
Lemma table_loop ts : forall i a b c, is_alignment (2 ^ b) ->
  table_go i a (2 ^ b) c ts = map pow_row (py_loop i a b c (map py_item ts)).
Proof.
  induction ts as [|t ts IH]; intros i a b c Hb; [reflexivity|].
  pose proof (align_of_alignment t) as Hal. pose proof (exp_align t) as Ex. rewrite <- sp_align_of in Hal.
  cbn [map py_loop table_go py_item]. rewrite <- !sp_align_of, <- sp_size_of.
  rewrite log2_le_align by assumption.
  assert (Hneg : forall n : N, (Z.of_N n =? -1)%Z = false) by (intros n; lia).
  assert (Hal' : is_alignment (2 ^ N.log2 (sp_align t))) by (now rewrite Ex).
  assert (H0 : is_alignment (2 ^ 0)) by (left; reflexivity).
  destruct (sp_align t <=? 2 ^ b).
  - cbn [map pow_row]. unfold py_align. rewrite Ex, (align_pad_to (sp_align t)) by assumption. f_equal.
    destruct (sp_size t) as [n|].
    + rewrite Hneg, N2Z.id. now apply IH.
    + cbn [Z.eqb Pos.eqb]. change 1 with (2 ^ 0) at 1. now apply IH.
  - cbn [map pow_row]. unfold py_align. rewrite Ex, (align_pad_to (2 ^ b)) by assumption. f_equal.
    destruct (sp_size t) as [n|].
    + rewrite Hneg, N2Z.id. rewrite <- Ex at 1. now apply IH.
    + cbn [Z.eqb Pos.eqb]. change 1 with (2 ^ 0) at 1. now apply IH.
Qed.
Lemma table_claim ts :
  generate_table ts = map (fun r => let '(i, a, b, c) := r in (i, a, 2 ^ b, c)) (py_generate_table (map py_item ts)).
Proof. apply (table_loop ts (-1)%Z 0 0 0). left; reflexivity. Qed.

Lemma pad_multiple al k x : al <> 0 -> pad_to al (x + al * k) = pad_to al x + al * k.
Proof.
  intros H. unfold pad_to. rewrite (N.mul_comm al k), N.mod_add by assumption. lia.
Qed.
Lemma reduce_claim offset r : py_start offset (py_reduce r) = py_start offset r.
Proof.
  destruct r as [[[i a] b] c]. cbn [py_start py_reduce]. unfold py_align.
  assert (H : 2 ^ b <> 0) by (apply N.pow_nonzero; lia).
  rewrite N.add_assoc, pad_multiple by assumption. pose proof (N.div_mod c (2 ^ b) H). lia.
Qed.
Lemma pad_multiple_of al x : al <> 0 -> exists k, pad_to al x = al * k.
Proof.
  intros H. unfold pad_to. pose proof (N.div_mod x al H) as E. pose proof (N.mod_lt x al H).
  destruct (N.eq_dec (x mod al) 0) as [E0|E0].
  - exists (x / al). rewrite E0 in *. rewrite N.sub_0_r, N.mod_same by assumption. lia.
  - exists (x / al + 1). rewrite (N.mod_small (al - x mod al)) by lia. lia.
Qed.
Lemma lor_low k b c : c < 2 ^ b -> N.lor (2 ^ b * k) c = 2 ^ b * k + c.
Proof.
  intros Hc. pose proof (lor_add_land (2 ^ b * k) c) as H.
  assert (E : N.land (2 ^ b * k) c = 0); [|lia].
  apply N.bits_inj. intros n. rewrite N.land_spec, N.bits_0.
  destruct (N.lt_ge_cases n b) as [Hn|Hn].
  - rewrite N.mul_comm, N.mul_pow2_bits_low by assumption. reflexivity.
  - destruct (N.eq_dec c 0) as [->|Hc0]; [now rewrite N.bits_0, andb_false_r|].
    rewrite (N.bits_above_log2 c) by (apply N.log2_lt_pow2 in Hc; lia). apply andb_false_r.
Qed.
Lemma or_claim offset r : let '(i, a, b, c) := r in c < 2 ^ b -> py_start_or offset r = py_start offset r.
Proof.
  destruct r as [[[i a] b] c]. intros Hc. cbn [py_start py_start_or]. unfold py_align.
  destruct (pad_multiple_of (2 ^ b) (offset i + a)) as [k ->]; [apply N.pow_nonzero; lia|]. now apply lor_low.
Qed.
Lemma or_reduced offset r : py_start_or offset (py_reduce r) = py_start offset r.
Proof.
  rewrite <- reduce_claim. pose proof (or_claim offset (py_reduce r)) as H. destruct r as [[[i a] b] c].
  cbn [py_reduce] in *. apply H. apply N.mod_lt. apply N.pow_nonzero; lia.
Qed.
Lemma loop_index ts : forall i a b c r, (-1 <= i)%Z -> In r (py_loop i a b c ts) -> (-1 <= fst (fst (fst r)))%Z.
Proof.
  induction ts as [|[d e] ts IH]; intros i a b c r Hi H; [destruct H|].
  cbn [py_loop] in H. destruct (d <=? b).
  - destruct H as [<-|H]; [exact Hi|]. destruct (e =? -1)%Z; eapply IH; try exact H; lia.
  - destruct H as [<-|H]; [exact Hi|]. destruct (e =? -1)%Z; eapply IH; try exact H; lia.
Qed.
Lemma start_row ends r : (-1 <= fst (fst (fst r)))%Z -> row_pos ends (pow_row r) = py_start (py_offsets ends) r.
Proof.
  destruct r as [[[i a] b] c]. cbn [fst]. intros Hi. cbn [row_pos pow_row py_start]. unfold py_align, py_offsets.
  do 3 f_equal. destruct (i <? 0)%Z eqn:E.
  - replace i with (-1)%Z by lia. reflexivity.
  - replace (Z.to_nat (i + 1)) with (S (Z.to_nat i)) by lia. reflexivity.
Qed.
Lemma starts_claim ends ts :
  map (py_start_or (py_offsets ends)) (map py_reduce (py_generate_table (map py_item ts))) =
  sp_starts ends 0 0 (map (fun t => (sp_align t, sp_size t)) ts).
Proof.
  transitivity (map (row_pos ends) (generate_table ts)).
  - rewrite table_claim, !map_map. apply map_ext_in. intros r Hr. rewrite or_reduced.
    symmetry. change (let '(i, a, b, c) := r in (i, a, 2 ^ b, c)) with (pow_row r). apply start_row.
    eapply loop_index; [|exact Hr]. lia.
  - rewrite table_pos. f_equal. unfold items_of. apply map_ext. intros t. now rewrite sp_align_of, sp_size_of.
Qed.
Lemma unreduced_row : exists r, In r (generate_table [TY; TI; TI]) /\
  let '(i, a, b, c) := r in ~ c < b /\ N.lor (align a b) c <> pad_to b a + c.
Proof. exists ((-1)%Z, 1, 4, 4). split; [vm_compute; tauto|]. split; vm_compute; congruence. Qed.
