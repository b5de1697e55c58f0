(** Owned values: C12, C32, C33 and what holds instead. *)
From Verif Require Import Base Types Layout AlignedBytes Strs Spec Deser Ser Buf Histories SerSpec OwnSpec
  BaseFacts TypesFacts LayoutFacts AlignedFacts Utf8Facts DeserFacts ArrayFacts StructFacts ReadFacts AccessFacts ReadClaims EncFacts SerFacts ViewFacts MoveFacts EmptyFacts.
From Coq Require Import Lia ZifyBool ZifyNat ZifyN.
Ltac Zify.zify_post_hook ::= Z.div_mod_to_equations.

Lemma fixed_no_trap t n : size_of t = Some n -> sp_trap t = false /\ sp_fixed_array t = false.
Proof.
  intros En. destruct t as [| | | | | | | | | | | | |x|x|ts|k v] eqn:Et; try discriminate; try (split; reflexivity);
  rewrite <- Et in *; (assert (Hs : is_struct t) by (subst; exact I));
  (split; [|subst; reflexivity]); rewrite trap_struct by assumption; pose proof (fixed_children t n Hs En) as Hfix;
  generalize true; revert Hfix; generalize (children_of t); clear; (induction l as [|c l IH]; intros HF f; [reflexivity|]);
  inversion HF as [|? ? H1 H2]; subst; cbn [in_place existsb fst snd]; rewrite H1; cbn [negb]; rewrite andb_false_r; cbn [andb orb]; now apply IH.
Qed.
Lemma as_aligned_8 t s : as_aligned 8 (trait_align t) s = Ok s.
Proof.
  unfold as_aligned, aligned_to. rewrite trait_align_of.
  destruct (align_of_alignment t) as [->|[->|[->| ->]]]; reflexivity.
Qed.
Lemma aligned_8 t s : aligned 8 s -> aligned (align_of t) s.
Proof.
  intros H. apply (aligned_le _ 8); auto with al; [right; right; right; reflexivity|].
  destruct (align_of_alignment t) as [->|[->|[->| ->]]]; discriminate.
Qed.

Lemma buf_deref_empty h a : buf_deref h (Vec a []) = Ok (Slice a []).
Proof.
  unfold buf_deref, offset_to_align. cbn [vlen v_data blen length N.of_nat N.eqb]. cbn [bind].
  rewrite sl_from_ok by (unfold slen; cbn; lia). cbn [bind s_addr s_data v_addr]. rewrite N.add_0_r.
  change (drop 0 (v_data (Vec a []))) with (@nil byte). now rewrite unchecked_empty by reflexivity.
Qed.
(** Bytes copied into an [Owned]. *)
Lemma owned_buf h t d a1 a2 : a1 + 8 < 2 ^ 64 -> a2 + 8 < 2 ^ 64 ->
  exists s, s_data s = d /\ (d <> [] -> aligned 8 s) /\ (d = [] -> s = Slice 1 []) /\
    own_read h t (let* b := owned_from_bytes h d a1 a2 in Ok (OBuf b)) = decode h t s.
Proof.
  intros H1 H2. unfold owned_from_bytes, buf_from_vec, own_read.
  destruct d as [|x d].
  { exists (Slice 1 []). split; [reflexivity|]. split; [tauto|]. split; [reflexivity|].
    change (vec_align h (to_vec [] a1) a2) with (@Ok vec vec_new). cbn [bind owned_borrow]. unfold owned_deref, vec_new.
    rewrite buf_deref_empty. cbn [bind]. rewrite as_aligned_8. reflexivity. }
  remember (x :: d) as l eqn:El. assert (Hne : l <> []) by (subst; discriminate). clear El.
  assert (Hv : v_addr (to_vec l a1) + 8 < usize_lim) by (destruct l; cbn [to_vec vec_new v_addr]; unfold usize_lim; lia).
  assert (Hvd : v_data (to_vec l a1) = l) by (destruct l; reflexivity).
  destruct (vec_align_spec h (to_vec l a1) a2 H2 Hv) as (b & -> & Hh & Hg). rewrite Hvd in Hh. cbn [bind].
  destruct (buf_deref_ok h b l Hh Hg) as (s & Es & Hd & Ha & _).
  exists s. split; [exact Hd|]. split; [exact Ha|]. split; [contradiction|].
  unfold owned_borrow, owned_deref. rewrite Es. cbn [bind]. rewrite as_aligned_8. reflexivity.
Qed.
(** Casting bytes of a variable-size type that is not an array of fixed-size
    elements never looks at the address. *)
Lemma cast_var h t s : size_of t = None -> sp_fixed_array t = false -> cast h t s = Ok s.
Proof.
  intros Hn Hf. unfold cast, from_aligned_slice, try_from_aligned_slice. rewrite Hn.
  destruct t as [| | | | | | | | | | | | |x|x|ts|k v]; try reflexivity.
  cbn [sp_fixed_array] in Hf. rewrite sp_size_of in Hf. destruct (size_of x); [discriminate|reflexivity].
Qed.
Lemma decode_var h t s : size_of t = None -> sp_fixed_array t = false -> decode h t s = read h t s.
Proof. intros Hn Hf. unfold decode. now rewrite cast_var. Qed.

(** [to_owned] and back, for a reference to bytes of any address. *)
Lemma own_copy h t s a1 : macro_ok t = true -> aligned (align_of t) s ->
  own_read h t (Ok (OCopy (Slice (8 * a1) (s_data s)))) = read h t s.
Proof.
  intros Hm Ha. unfold own_read. cbn [bind owned_borrow]. apply read_place; auto.
  apply aligned_8. unfold aligned. cbn [s_addr]. rewrite N.mul_comm. apply N.mod_mul. discriminate.
Qed.
Lemma to_owned_cases h t r a1 a2 : size_of t = None -> sp_fixed_array t = false ->
  (t = TS \/ t = TO \/ t = TG) \/
  to_owned h t r a1 a2 = (let* b := owned_from_bytes h (s_data r) a1 a2 in Ok (OBuf b)).
Proof.
  intros Hn Hf. unfold to_owned. rewrite Hn. destruct t as [| | | | | | | | | | | | |x|x|ts|k v]; try discriminate;
    try (left; tauto); try (right; reflexivity).
  right. cbn [sp_fixed_array] in Hf. rewrite sp_size_of in Hf. unfold is_fixed. destruct (size_of x); [discriminate|reflexivity].
Qed.
Lemma own_string h t r a1 a2 : t = TS \/ t = TO \/ t = TG -> own_read h t (to_owned h t r a1 a2) = read h t r.
Proof.
  intros [->|[->| ->]]; unfold own_read, to_owned; cbn [size_of bind owned_borrow read s_data];
    rewrite (proj1 (to_str_normal _ (to_str_good (s_data r)))); reflexivity.
Qed.
Lemma fixed_array_size t : sp_fixed_array t = true -> exists x n, t = TA x /\ size_of x = Some n.
Proof.
  destruct t as [| | | | | | | | | | | | |x|x|ts|k v]; try discriminate. cbn [sp_fixed_array]. rewrite sp_size_of.
  destruct (size_of x) as [n|] eqn:E; [eauto|discriminate].
Qed.
Lemma own_fixed h t r a1 a2 : size_of t <> None \/ sp_fixed_array t = true ->
  to_owned h t r a1 a2 = Ok (OCopy (Slice (8 * a1) (s_data r))).
Proof.
  unfold to_owned. intros [H|H].
  - destruct (size_of t); [reflexivity|congruence].
  - apply fixed_array_size in H as (x & n & -> & E). cbn [size_of]. unfold is_fixed. now rewrite E.
Qed.
Lemma to_owned_keeps h t r a1 a2 : usable t -> ref_ok t r -> a1 + 8 < 2 ^ 64 -> a2 + 8 < 2 ^ 64 ->
  s_data r <> [] \/ sp_fixed_array t = true \/ sp_trap t = false ->
  own_read h t (to_owned h t r a1 a2) = read h t r.
Proof.
  intros Hu [Ha Hg] H1 H2 Hor. destruct (size_of t) as [n|] eqn:En.
  { rewrite own_fixed by (left; congruence). apply own_copy; [apply Hu|exact Ha]. }
  destruct (sp_fixed_array t) eqn:Ef.
  { rewrite own_fixed by auto. apply own_copy; [apply Hu|exact Ha]. }
  destruct (to_owned_cases h t r a1 a2 En Ef) as [Ht| ->]; [now apply own_string|].
  destruct (owned_buf h t (s_data r) a1 a2 H1 H2) as (s & Hd & Hal & Hemp & ->).
  destruct (s_data r) as [|b d] eqn:Er.
  - destruct Hor as [Hor|[Hor|Hor]]; [congruence|discriminate|].
    rewrite (Hemp eq_refl). rewrite decode_empty by (auto; congruence). rewrite Hor.
    rewrite <- (decode_var h t r) by assumption. rewrite decode_empty by (auto; congruence). now rewrite Hor.
  - rewrite decode_var by assumption. apply read_place; [apply Hu|congruence| |exact Ha].
    apply aligned_8, Hal. discriminate.
Qed.
Lemma to_owned_traps h t r a1 a2 : usable t -> a1 + 8 < 2 ^ 64 -> a2 + 8 < 2 ^ 64 ->
  s_data r = [] -> sp_fixed_array t = false -> sp_trap t = true ->
  own_read h t (to_owned h t r a1 a2) = Crash (sp_misaligned h).
Proof.
  intros Hu H1 H2 Hr Hf Ht. destruct (size_of t) as [n|] eqn:En.
  { apply fixed_no_trap in En as [En _]. congruence. }
  destruct (to_owned_cases h t r a1 a2 En Hf) as [[->|[->| ->]]| ->]; try discriminate.
  destruct (owned_buf h t (s_data r) a1 a2 H1 H2) as (s & _ & _ & Hemp & ->).
  rewrite (Hemp Hr), decode_empty by (auto; reflexivity). now rewrite Ht.
Qed.
(** An empty reference at any address. *)
Lemma to_owned_empty h t r a1 a2 : usable t -> a1 + 8 < 2 ^ 64 -> a2 + 8 < 2 ^ 64 ->
  s_data r = [] -> size_of t = None -> sp_fixed_array t = false ->
  own_read h t (to_owned h t r a1 a2) =
  if sp_trap t then Crash (sp_misaligned h) else Ok (sp_default (h_big_endian h) t).
Proof.
  intros Hu H1 H2 Hr Hn Hf. destruct (sp_trap t) eqn:Et; [now apply to_owned_traps|].
  destruct (to_owned_cases h t r a1 a2 Hn Hf) as [Ht| ->].
  { rewrite own_string by assumption. rewrite <- decode_var by assumption. rewrite decode_empty by (auto; congruence). now rewrite Et. }
  destruct (owned_buf h t (s_data r) a1 a2 H1 H2) as (s & _ & _ & Hemp & ->).
  rewrite (Hemp Hr), decode_empty by (auto; congruence). now rewrite Et.
Qed.
Lemma own_read_bind {A} h t (m : res A) f : own_read h t (bind m f) = let* x := m in own_read h t (f x).
Proof. unfold own_read. destruct m; reflexivity. Qed.
(** Cast, then [to_owned]. *)
Lemma cast_to_owned h t s a1 a2 : usable t -> aligned (align_of t) s -> s_data s <> [] ->
  a1 + 8 < 2 ^ 64 -> a2 + 8 < 2 ^ 64 ->
  own_read h t (let* r := cast h t s in to_owned h t r a1 a2) = decode h t s.
Proof.
  intros Hu Ha Hne H1 H2. rewrite own_read_bind. unfold decode.
  destruct (cast_ok h t s (proj1 Hu) Ha) as (r & E & Hr & Hd & _). rewrite E. cbn [bind].
  apply to_owned_keeps; auto. destruct (size_of t) as [n|] eqn:En; [right; right; now apply fixed_no_trap in En|].
  destruct (sp_fixed_array t) eqn:Ef; [auto|]. left. rewrite cast_var in E by assumption. injection E as <-. exact Hne.
Qed.
Lemma cast_to_owned_empty h t s a1 a2 : usable t -> s_data s = [] -> a1 + 8 < 2 ^ 64 -> a2 + 8 < 2 ^ 64 ->
  own_read h t (let* r := cast h t s in to_owned h t r a1 a2) =
  if sp_trap t && negb (sp_fixed_array t && (s_addr s mod sp_align t =? 0))
  then Crash (sp_misaligned h) else Ok (sp_default (h_big_endian h) t).
Proof.
  intros Hu Hs H1 H2. rewrite own_read_bind. destruct (size_of t) as [n|] eqn:En.
  { rewrite (cast_empty_fixed h t s n) by (auto; apply Hu). destruct (fixed_no_trap t n En) as [-> _]. cbn [andb].
    destruct (default_ref_ok h t (proj1 Hu)) as (r & -> & Hd & Hr & _). cbn [bind].
    rewrite own_fixed by (left; congruence). rewrite own_copy by (apply Hu || apply Hr). now apply read_default. }
  destruct (sp_fixed_array t) eqn:Ef.
  - destruct (fixed_array_size t Ef) as (x & n & -> & Ex). cbn [sp_trap]. rewrite sp_size_of, Ex.
    change (sp_align (TA x)) with (sp_align x). rewrite sp_align_of. cbn [andb].
    unfold cast, from_aligned_slice, try_from_aligned_slice. cbn [size_of]. rewrite Ex.
    pose proof (usable_part _ x (or_introl eq_refl) Hu) as Hx.
    rewrite (mem_layout_ok x n) by (auto; apply Hx). unfold cast_slice.
    change (trait_align (TA x)) with (trait_align x). rewrite trait_align_of, N.ltb_irrefl.
    pose proof (proj1 (size_of_props _ _ Ex)) as Hn. replace (n =? 0) with false by lia.
    unfold slen. rewrite Hs. replace (blen [] mod n) with 0 by (symmetry; apply N.mod_0_l; lia). rewrite N.eqb_refl.
    unfold is_aligned. destruct (s_addr s mod align_of x =? 0) eqn:Ea; cbn [negb].
    + rewrite andb_false_r, andb_false_r. cbn [bind].
      rewrite own_fixed by (right; exact Ef).
      rewrite own_copy by (apply Hu || (apply N.eqb_eq in Ea; exact Ea)).
      apply read_default; auto. split; [apply N.eqb_eq in Ea; exact Ea|].
      unfold size_good. cbn [size_of]. rewrite Ex. unfold slen. rewrite Hs. apply N.mod_0_l; lia.
    + rewrite !andb_true_r. unfold sp_misaligned.
      assert (E1 : (1 <? align_of x) = true).
      { apply N.eqb_neq in Ea. pose proof (align_nz x). destruct (1 <? align_of x) eqn:E; [reflexivity|].
        assert (E2 : align_of x = 1) by lia. rewrite E2, N.mod_1_r in Ea. congruence. }
      rewrite E1. destruct (h_debug h); reflexivity.
  - cbn [andb negb]. rewrite andb_true_r. rewrite cast_var by assumption. cbn [bind]. now apply to_owned_empty.
Qed.

Lemma from_bytes_claim h t data q a1 a2 a3 a4 : usable t ->
  a1 + 8 < 2 ^ 64 -> a2 + 8 < 2 ^ 64 -> a3 + 8 < 2 ^ 64 -> a4 + 8 < 2 ^ 64 ->
  s_data data <> [] -> aligned (sp_align t) q -> s_data q = s_data data ->
  own_read h t (from_bytes h t data a1 a2 a3 a4) = decode h t q.
Proof.
  intros Hu H1 H2 H3 H4 Hne Hq Hqd. rewrite sp_align_of in Hq. unfold from_bytes. rewrite trait_align_of.
  destruct (copy_to_align_ok h (align_of t) data a1 a2 (align_of_alignment t) H1 H2) as (c & s & -> & Ec & Hd & Ha & _).
  cbn [bind]. rewrite Ec. cbn [bind]. specialize (Ha Hne). rewrite cast_to_owned; auto; [|congruence].
  apply decode_place; auto; [apply Hu|congruence].
Qed.
Lemma from_bytes_empty_claim h t data a1 a2 a3 a4 : usable t -> a3 + 8 < 2 ^ 64 -> a4 + 8 < 2 ^ 64 ->
  s_data data = [] ->
  own_read h t (from_bytes h t data a1 a2 a3 a4) =
  if sp_trap t && negb (sp_fixed_array t && (s_addr data mod sp_align t =? 0))
  then Crash (sp_misaligned h) else Ok (sp_default (h_big_endian h) t).
Proof.
  intros Hu H3 H4 Hd. unfold from_bytes, copy_to_align, is_aligned. rewrite trait_align_of, sp_align_of.
  destruct (s_addr data mod align_of t =? 0) eqn:E.
  - rewrite try_as_aligned_always. cbn [bind cow_as_ref]. rewrite cast_to_owned_empty by assumption.
    now rewrite sp_align_of, E.
  - rewrite Hd. change (buf_from_vec h (to_vec [] a1) a2) with (@Ok vec vec_new). cbn [bind cow_as_ref]. unfold vec_new.
    rewrite buf_deref_empty. cbn [bind]. pose proof (as_aligned_8 t (Slice 1 [])) as E8. rewrite trait_align_of in E8.
    rewrite E8. cbn [bind]. rewrite cast_to_owned_empty by (auto; reflexivity). rewrite sp_align_of. cbn [s_addr].
    assert (E1 : (1 mod align_of t =? 0) = false).
    { destruct (align_of_alignment t) as [Ea|[Ea|[Ea|Ea]]]; rewrite Ea in *; try reflexivity.
      rewrite N.mod_1_r in E. discriminate. }
    now rewrite E1.
Qed.
Lemma deserialize_claim h t v q a2 a3 a4 : usable t ->
  v_addr v + 8 < 2 ^ 64 -> a2 + 8 < 2 ^ 64 -> a3 + 8 < 2 ^ 64 -> a4 + 8 < 2 ^ 64 ->
  v_data v <> [] -> aligned (sp_align t) q -> s_data q = v_data v ->
  own_read h t (deserialize h t v a2 a3 a4) = decode h t q.
Proof.
  intros Hu H1 H2 H3 H4 Hne Hq Hqd. rewrite sp_align_of in Hq. unfold deserialize, buf_from_vec.
  destruct (vec_align_spec h v a2 H2 H1) as (b & -> & Hh & Hg). cbn [bind].
  destruct (buf_deref_ok h b _ Hh Hg) as (s & -> & Hd & Ha & _). cbn [bind]. rewrite as_aligned_8. cbn [bind].
  specialize (Ha Hne). apply aligned_8 with (t := t) in Ha.
  rewrite cast_to_owned; auto; [|congruence]. apply decode_place; auto; [apply Hu|congruence].
Qed.
Lemma deserialize_empty_claim h t va a2 a3 a4 : usable t -> a3 + 8 < 2 ^ 64 -> a4 + 8 < 2 ^ 64 ->
  own_read h t (deserialize h t (Vec va []) a2 a3 a4) =
  if sp_trap t && negb (sp_fixed_array t && (va mod sp_align t =? 0))
  then Crash (sp_misaligned h) else Ok (sp_default (h_big_endian h) t).
Proof.
  intros Hu H3 H4. unfold deserialize. change (buf_from_vec h (Vec va []) a2) with (@Ok vec (Vec va [])). cbn [bind].
  rewrite buf_deref_empty. cbn [bind]. rewrite as_aligned_8. cbn [bind]. rewrite cast_to_owned_empty by auto. reflexivity.
Qed.
Lemma view_ref_ok h t r : view h t r -> usable t /\ ref_ok t r.
Proof.
  intros (t0 & s & Hu & Ha & Hl & Hre). rewrite sp_align_of in Ha. apply usable_readable in Hu.
  destruct (reach_safe h t0 s t r Hu Ha Hl Hre) as (H1 & H2 & _). split; [now apply usable_readable|exact H2].
Qed.
Lemma to_owned_claim h t r a1 a2 : view h t r -> a1 + 8 < 2 ^ 64 -> a2 + 8 < 2 ^ 64 ->
  s_data r <> [] \/ sp_fixed_array t = true \/ sp_trap t = false ->
  own_read h t (to_owned h t r a1 a2) = read h t r.
Proof. intros Hv. destruct (view_ref_ok h t r Hv). intros. now apply to_owned_keeps. Qed.
Lemma to_owned_trap_claim h t r a1 a2 : view h t r -> a1 + 8 < 2 ^ 64 -> a2 + 8 < 2 ^ 64 ->
  s_data r = [] -> sp_fixed_array t = false -> sp_trap t = true ->
  own_read h t (to_owned h t r a1 a2) = Crash (sp_misaligned h) /\
  read h t r = Ok (sp_default (h_big_endian h) t).
Proof.
  intros Hv H1 H2 Hd Hf Ht. destruct (view_ref_ok h t r Hv) as [Hu Hr]. split; [now apply to_owned_traps|].
  destruct (size_of t) as [n|] eqn:En; [apply fixed_no_trap in En as [En _]; congruence|].
  apply read_default; auto. unfold default_bytes. now rewrite En.
Qed.
Lemma empty_stream_refuted : forall h, exists (t : ty) (v : vec),
  usable t /\ v_data v = [] /\ deserialize h t v 8 8 8 = Crash (if h_debug h then PAssert else UBMisaligned).
Proof.
  intros h. exists (TA TI), vec_new. split; [split; reflexivity|]. split; [reflexivity|].
  unfold deserialize, vec_new. change (buf_from_vec h (Vec 1 []) 8) with (@Ok vec (Vec 1 [])). cbn [bind].
  rewrite buf_deref_empty. cbn [bind]. rewrite as_aligned_8. cbn [bind].
  unfold cast, from_aligned_slice, try_from_aligned_slice. cbn. destruct (h_debug h); reflexivity.
Qed.

(** ** C12: framing-offset width *)
Lemma width_least n : n < 2 ^ 64 ->
  (n = 0 -> osz_n (offset_size n) = 0) /\
  (0 < n -> In (osz_n (offset_size n)) [1; 2; 4; 8] /\ n < 256 ^ osz_n (offset_size n) /\
     forall w, In w [1; 2; 4; 8] -> n < 256 ^ w -> osz_n (offset_size n) <= w).
Proof.
  intros Hn. rewrite offset_size_width. unfold sp_width. split; [intros ->; reflexivity|]. intros H0.
  replace (n =? 0) with false by lia.
  assert (E1 : 256 ^ 1 = 2 ^ 8) by reflexivity. assert (E2 : 256 ^ 2 = 2 ^ 16) by reflexivity.
  assert (E4 : 256 ^ 4 = 2 ^ 32) by reflexivity. assert (E8 : 256 ^ 8 = 2 ^ 64) by reflexivity.
  destruct (n <? 2 ^ 8) eqn:F1; [|destruct (n <? 2 ^ 16) eqn:F2; [|destruct (n <? 2 ^ 32) eqn:F4]].
  all: split; [cbn; tauto|]; split; [lia|]; intros w [<-|[<-|[<-|[<-|[]]]]]; lia.
Qed.
Lemma width_agree h body offsets pre : offsets <> [] -> body + 8 * len offsets < 2 ^ 63 ->
  exists out, write_offsets h body offsets (Sink pre None) = (Sink (pre ++ out) None, SOk (body + len out)) /\
    out = concat (map (num_le (N.to_nat (osz_n (offset_size (body + len out))))) offsets) /\
    forall i o, nth_error offsets i = Some o -> o <= body ->
      read_uint h out (offset_size (body + len out)) (N.of_nat i) = Ok o.
Proof.
  intros Hne Hb. exists (sp_offsets body offsets).
  assert (Hlen : len (sp_offsets body offsets) = sp_fit_width body (len offsets) * len offsets).
  { unfold sp_offsets. now rewrite nums_len, N2Nat.id. }
  assert (Hpos : 0 < len offsets) by (destruct offsets; [congruence|]; unfold len; cbn [length]; lia).
  pose proof (fit_width_pos body (len offsets)) as Hf.
  assert (Hw : osz_n (offset_size (body + len (sp_offsets body offsets))) = sp_fit_width body (len offsets)).
  { rewrite offset_size_width, Hlen. now apply fit_width_read. }
  assert (Hle : sp_fit_width body (len offsets) * len offsets <= 8 * len offsets) by (apply N.mul_le_mono_r; lia).
  split; [|split].
  - rewrite writes_offsets by (rewrite Hlen; lia). reflexivity.
  - rewrite Hw. reflexivity.
  - intros i o Hi Ho. assert (Hil : N.of_nat i < len offsets).
    { unfold len. apply nth_error_Some_lt in Hi || (assert (nth_error offsets i <> None) by congruence; apply nth_error_Some in H); lia. }
    assert (Hmul : N.of_nat i * sp_fit_width body (len offsets) + sp_fit_width body (len offsets) <= sp_fit_width body (len offsets) * len offsets).
    { replace (N.of_nat i * sp_fit_width body (len offsets) + sp_fit_width body (len offsets))
        with (sp_fit_width body (len offsets) * (N.of_nat i + 1)) by lia. apply N.mul_le_mono_l. lia. }
    rewrite read_uint_ok.
    + rewrite Hw. unfold sp_offsets. pose proof (nums_sub (N.to_nat (sp_fit_width body (len offsets))) offsets i o Hi) as Hs.
      rewrite sub_take_drop, N2Nat.id in Hs. rewrite Hs. f_equal. apply num_le_back. rewrite N2Nat.id.
      eapply N.le_lt_trans; [exact Ho|]. apply fit_width_range. lia.
    + rewrite Hw. change (blen (sp_offsets body offsets)) with (len (sp_offsets body offsets)). lia.
    + change (blen (sp_offsets body offsets)) with (len (sp_offsets body offsets)). unfold usize_lim. lia.
Qed.
Lemma width_none h body pre : body < 2 ^ 63 ->
  write_offsets h body [] (Sink pre None) = (Sink pre None, SOk body).
Proof.
  intros Hb. rewrite (writes_offsets h body []) by (cbn; lia). cbn [k_left k_out]. unfold sp_offsets. cbn [map concat].
  rewrite app_nil_r. unfold len. cbn [length N.of_nat]. now rewrite N.add_0_r.
Qed.
Lemma to_owned_refuted h : exists (t : ty) (r : slice), view h t r /\
  read h t r = Ok (VTuple [VArray []; VArray []]) /\
  own_read h t (to_owned h t r 8 8) = Crash (if h_debug h then PAssert else UBMisaligned).
Proof.
  exists (TTuple [TA TI; TA TI]), (Slice 4 []).
  assert (Hv : view h (TTuple [TA TI; TA TI]) (Slice 4 [])).
  { exists (TTuple [TA TI; TA TI]), (Slice 4 []). repeat split. apply reach_cast. reflexivity. }
  split; [exact Hv|]. apply and_comm.
  apply (to_owned_trap_claim h (TTuple [TA TI; TA TI]) (Slice 4 []) 8 8 Hv); reflexivity.
Qed.
Lemma position_claim h t s q : macro_ok t = true -> s_data s = s_data q ->
  aligned (sp_align t) s -> aligned (sp_align t) q -> decode h t s = decode h t q.
Proof. rewrite sp_align_of. apply decode_place. Qed.
Lemma position_modulo_claim h t s q : macro_ok t = true -> s_data s = s_data q ->
  s_addr s mod sp_align t = s_addr q mod sp_align t -> decode h t s = decode h t q.
Proof.
  rewrite sp_align_of. intros Hm Hd Ha. unfold decode. apply same_eq.
  eapply same_bind; [apply moved_cast; [exact Hm|split; [exact Hd|exact Ha]]|].
  intros a b Hab. rewrite (read_moved h t Hm a b Hab). now apply same_refl.
Qed.
