(** Which addresses a value can be read at: proofs. *)
From Verif Require Import Base Types Layout AlignedBytes Strs Spec Deser Buf OwnSpec Histories NeedSpec LooseSpec
  BaseFacts TypesFacts LayoutFacts AlignedFacts DeserFacts ArrayFacts StructFacts ReadFacts AccessFacts ReadClaims BuildSpec ViewFacts BuildFacts LooseFacts.
From Coq Require Import Lia ZifyBool ZifyNat ZifyN.
Ltac Zify.zify_post_hook ::= idtac.
Local Open Scope N_scope.

(** ** Alignments *)
Lemma max_alignment a b : is_alignment a -> is_alignment b -> is_alignment (N.max a b).
Proof. unfold is_alignment. intros [->|[->|[->| ->]]] [->|[->|[->| ->]]]; cbn; auto. Qed.
Lemma most_alignment l : Forall is_alignment l -> is_alignment (sp_most l).
Proof. induction 1 as [|a l Ha _ IH]; [now left|]. cbn [sp_most fold_right]. now apply max_alignment. Qed.
Lemma mod_max a x y : is_alignment x -> is_alignment y -> (a mod N.max x y = 0 <-> a mod x = 0 /\ a mod y = 0).
Proof.
  intros Hx Hy. destruct (N.max_spec x y) as [[H ->]|[H ->]].
  - split; [|tauto]. intros E. split; [|exact E]. eapply (align_divides x y); eauto. lia.
  - split; [|tauto]. intros E. split; [exact E|]. eapply (align_divides y x); eauto.
Qed.
Lemma mod_most a l : Forall is_alignment l -> (a mod sp_most l = 0 <-> Forall (fun n => a mod n = 0) l).
Proof.
  induction 1 as [|n l Hn Hl IH]; cbn [sp_most fold_right].
  - split; [constructor|]. intros _. apply N.mod_1_r.
  - fold (sp_most l). rewrite mod_max by (auto using most_alignment). rewrite IH. split; [intros []; now constructor|]. intros H. inversion H; now split.
Qed.
Lemma most_le l m : 1 <= m -> Forall (fun n => n <= m) l -> sp_most l <= m.
Proof. intros Hm. induction 1 as [|n l Hn _ IH]; cbn [sp_most fold_right]; [exact Hm|]. fold (sp_most l). lia. Qed.
Lemma most_ge l n : In n l -> n <= sp_most l.
Proof. induction l as [|x l IH]; [intros []|]. cbn [In sp_most fold_right]. fold (sp_most l). intros [->|H]; [lia|]. specialize (IH H). lia. Qed.

Definition needs_all (ts : list ty) (cs : list (option (list byte))) : list N := map (fun p => sp_needs (fst p) (snd p)) (combine ts cs).
Lemma needs_struct t b : is_struct t -> size_of t = None ->
  sp_needs t (Some b) = sp_most (needs_all (children_of t) (struct_cuts t b)).
Proof.
  intros Hs En. unfold struct_cuts. rewrite En.
  destruct t as [| | | | | | | | | | | | |x|x|ts|k v]; cbn [is_struct] in Hs; try tauto; cbn [sp_needs children_of].
  - rewrite sp_size_of, En. f_equal. unfold items_of.
    replace (map (fun t => (sp_align t, sp_size t)) ts) with (map (fun t => (align_of t, size_of t)) ts)
      by (apply map_ext; intros; now rewrite sp_align_of, sp_size_of).
    generalize (sp_struct_children (map (fun t => (align_of t, size_of t)) ts) b) as cs. clear.
    induction ts as [|t ts IH]; intros [|c cs]; try reflexivity. unfold needs_all. cbn [combine map fst snd]. f_equal. apply IH.
  - rewrite sp_size_of, En. unfold items_of. cbn [map]. rewrite !sp_align_of, !sp_size_of.
    pose proof (sp_struct_children_length [(align_of k, size_of k); (align_of v, size_of v)] b) as Hl.
    destruct (sp_struct_children _ b) as [|ck [|cv [|]]]; cbn [length] in Hl; try lia.
    reflexivity.
Qed.
Lemma needs_alignment t : forall d, is_alignment (sp_needs t d) /\ sp_needs t d <= align_of t.
Proof.
  assert (H1 : forall t, is_alignment 1 /\ 1 <= align_of t).
  { intros t0. split; [now left|]. pose proof (align_of_alignment t0) as H. destruct H as [->|[->|[->| ->]]]; lia. }
  induction t as [t Hns IH|t Hs IH] using ty_struct_ind; intros [b|]; try (destruct t; apply H1).
  - destruct (size_of t) as [n|] eqn:En.
    { replace (sp_needs t (Some b)) with (if len b =? n then sp_align t else 1) by (destruct t; cbn [sp_needs]; rewrite sp_size_of, En; reflexivity).
      rewrite sp_align_of. destruct (_ =? _); [split; [apply align_of_alignment|lia]|apply H1]. }
    destruct t as [| | | | | | | | | | | | |x|x|ts|k v]; cbn [is_struct] in Hns; try tauto; try discriminate En; try (apply H1).
    + change (align_of (TA x)) with (align_of x). cbn [sp_needs]. rewrite sp_size_of, En, !sp_size_of, sp_align_of. destruct (size_of x) as [n|] eqn:Ex.
      * destruct (_ =? 0); [split; [apply align_of_alignment|lia]|apply H1].
      * specialize (IH x (or_introl eq_refl)).
        assert (HF : forall P : N -> Prop, (forall d, P (sp_needs x d)) -> Forall P (map (sp_needs x) (sp_array_children (align_of x) b))).
        { intros P HP. apply Forall_forall. intros n Hn. apply in_map_iff in Hn as (d & <- & _). apply HP. }
        split; [apply most_alignment, HF; apply IH|]. apply most_le; [apply H1|]. apply (HF (fun n => n <= align_of x)). apply IH.
    + change (align_of (TM x)) with (align_of x). cbn [sp_needs]. rewrite sp_size_of, En, !sp_size_of. specialize (IH x (or_intror eq_refl)).
      destruct (size_of x) as [n|]; [apply IH|]. destruct b; [apply H1|apply IH].
  - destruct (size_of t) as [n|] eqn:En.
    { replace (sp_needs t (Some b)) with (if len b =? n then sp_align t else 1) by (destruct t; cbn [sp_needs]; rewrite sp_size_of, En; reflexivity).
      rewrite sp_align_of. destruct (_ =? _); [split; [apply align_of_alignment|lia]|apply H1]. }
    rewrite needs_struct by assumption. unfold needs_all.
    assert (HF : forall p, In p (combine (children_of t) (struct_cuts t b)) -> is_alignment (sp_needs (fst p) (snd p)) /\ sp_needs (fst p) (snd p) <= align_of t).
    { intros [c d] Hin. apply in_combine_l in Hin. cbn [fst snd]. rewrite Forall_forall in IH. destruct (IH c Hin d) as [H2 H3]. split; [exact H2|].
      pose proof (children_align t c Hs Hin). lia. }
    split; [apply most_alignment|apply most_le; [apply H1|]]; apply Forall_forall; intros n Hn; apply in_map_iff in Hn as (p & <- & Hp); apply HF, Hp.
Qed.

(** ** Results *)
Definition fine {A} (m : res A) : Prop := exists a, m = Ok a.
Lemma fine_ok {A} (a : A) : fine (Ok a). Proof. now exists a. Qed.
Lemma fine_crash {A} c : ~ @fine A (Crash c). Proof. intros [a H]. discriminate H. Qed.
Lemma fine_bind_ok {A B} (m : res A) (f : A -> B) : fine (let* x := m in Ok (f x)) <-> fine m.
Proof. destruct m as [a|c]; cbn [bind]; split; intros [x H]; try discriminate H; apply fine_ok. Qed.
Lemma fine_mapM2 {A B C D} (f : A -> res B) (key : A -> C) (g : C -> B -> res D) l :
  fine (let* rs := mapM f l in mapM (fun p => g (fst p) (snd p)) (combine (map key l) rs)) <->
  Forall (fun a => fine (let* r := f a in g (key a) r)) l.
Proof.
  induction l as [|a l IH]; cbn [mapM map].
  - split; [constructor|]. intros _. apply fine_ok.
  - split.
    + intros [vs H]. destruct (f a) as [r|c] eqn:Ef; [|discriminate H]. cbn [bind] in H.
      destruct (mapM f l) as [rs|c] eqn:Em; [|discriminate H]. cbn [bind combine mapM fst snd] in H.
      destruct (g (key a) r) as [v|c] eqn:Eg; [|discriminate H]. cbn [bind] in H.
      constructor; [rewrite Ef; cbn [bind]; rewrite Eg; apply fine_ok|]. apply IH. cbn [bind].
      destruct (mapM _ (combine _ rs)) as [ws|c]; [apply fine_ok|discriminate H].
    + intros H. inversion H as [|? ? H1 H2]; subst. apply IH in H2. destruct (f a) as [r|c]; [|now apply fine_crash in H1]. cbn [bind] in *.
      destruct (mapM f l) as [rs|c]; [|now apply fine_crash in H2]. cbn [bind combine mapM fst snd] in *.
      destruct (g (key a) r) as [v|c]; [|now apply fine_crash in H1]. cbn [bind] in *.
      destruct (mapM _ (combine _ rs)) as [ws|c]; [apply fine_ok|now apply fine_crash in H2].
Qed.
Lemma fine_mapM2' {A B D} (f : A -> res B) (g : B -> res D) l :
  fine (let* rs := mapM f l in mapM g rs) <-> Forall (fun a => fine (let* r := f a in g r)) l.
Proof.
  rewrite <- (fine_mapM2 f (fun a => a) (fun _ => g)). rewrite map_id.
  assert (E : forall rs l, length rs = length l -> mapM (fun p : A * B => g (snd p)) (combine l rs) = mapM g rs).
  { induction rs as [|r rs IH]; intros [|a l'] Hl; cbn [length] in Hl; try lia; [reflexivity|]. cbn [combine mapM snd]. rewrite IH by lia. reflexivity. }
  assert (Hl : forall l rs, mapM f l = Ok rs -> length rs = length l).
  { clear. induction l as [|a l IH]; cbn [mapM]; intros rs H; [now injection H as <-|]. destruct (f a); [|discriminate H]. cbn [bind] in H.
    destruct (mapM f l) as [rs'|]; [|discriminate H]. injection H as <-. cbn [length]. f_equal. now apply IH. }
  destruct (mapM f l) as [rs|c] eqn:Em; cbn [bind]; [|reflexivity]. rewrite E by (now apply Hl). reflexivity.
Qed.

Section Release.
  Context (h : host) (Hd : h_debug h = false).
  Lemma unchecked_release A s : unchecked h A s = Ok s.
  Proof. unfold unchecked. now rewrite Hd. Qed.
  Lemma ix_to_release A s e : e <= slen s -> ix_to h A s e = Ok (part s 0 e).
  Proof. intros He. unfold ix_to. rewrite sl_to_ok by assumption. cbn [bind]. rewrite unchecked_release, part_0. reflexivity. Qed.
  Lemma ix_to_from_release {B} A s b e (k : slice -> res B) : b <= e -> e <= slen s ->
    (let* a := ix_to h A s e in let* c := ix_from_al h A a b in k c) = k (part s b e).
  Proof.
    intros Hb He. rewrite ix_to_release by assumption. cbn [bind]. unfold ix_from_al.
    assert (Hl : slen (part s 0 e) = e) by (rewrite slen_part; lia).
    rewrite sl_from_ok by lia. cbn [bind]. rewrite unchecked_release. cbn [bind].
    f_equal. rewrite <- part_end, Hl. rewrite part_part by (rewrite ?Hl; lia). f_equal.
  Qed.

  (** ** Casts *)
  Lemma checked_release s al : (if h_debug h && negb (is_aligned s al) then Crash PAssert else if is_aligned s al then Ok (Some s) else Crash UBMisaligned) =
    if is_aligned s al then Ok (Some s) else Crash UBMisaligned.
  Proof. now rewrite Hd. Qed.
  (** What is checked when a reference is made. *)
  Definition checks (t : ty) : N := if is_fixed t || sp_fixed_array t then align_of t else 1.
  Lemma try_release t s : macro_ok t = true -> size_good t (slen s) ->
    try_from_aligned_slice h t s = if s_addr s mod checks t =? 0 then Ok (Some s) else Crash UBMisaligned.
  Proof.
    intros Hm Hg. unfold try_from_aligned_slice, size_good, checks, is_fixed in *.
    destruct (size_of t) as [n|] eqn:En.
    - rewrite (mem_layout_ok t n) by assumption. unfold try_cast_slice_to. rewrite Hg, N.eqb_refl. cbn [orb]. apply checked_release.
    - cbn [orb]. destruct t as [| | | | | | | | | | | | |x|x|ts|k v]; cbn [sp_fixed_array]; rewrite ?N.mod_1_r; try reflexivity.
      rewrite sp_size_of. destruct (size_of x) as [m|] eqn:Em; [|now rewrite N.mod_1_r].
      rewrite (mem_layout_ok x m) by assumption. unfold cast_slice. rewrite trait_align_of. change (align_of (TA x)) with (align_of x).
      rewrite N.ltb_irrefl, Hd. cbn [andb]. apply size_of_props in Em as [Em _].
      replace (m =? 0) with false by (symmetry; apply N.eqb_neq; lia). rewrite Hg. reflexivity.
  Qed.
  Lemma try_release_none t s : macro_ok t = true -> ~ size_good t (slen s) -> try_from_aligned_slice h t s = Ok None.
  Proof.
    intros Hm Hg. unfold try_from_aligned_slice, size_good in *.
    destruct (size_of t) as [n|] eqn:En.
    - rewrite (mem_layout_ok t n) by assumption. unfold try_cast_slice_to. replace (n =? slen s) with false by (symmetry; apply N.eqb_neq; congruence). reflexivity.
    - destruct t as [| | | | | | | | | | | | |x|x|ts|k v]; try tauto.
      destruct (size_of x) as [m|] eqn:Em; [|tauto].
      rewrite (mem_layout_ok x m) by assumption. unfold cast_slice. rewrite trait_align_of. change (align_of (TA x)) with (align_of x).
      rewrite N.ltb_irrefl, Hd. cbn [andb]. apply size_of_props in Em as [Em _].
      replace (m =? 0) with false by (symmetry; apply N.eqb_neq; lia).
      replace (slen s mod m =? 0) with false by (symmetry; now apply N.eqb_neq). reflexivity.
  Qed.
  Lemma fine_default t : readable t -> fine (let* r := default_ref h t in read h t r).
  Proof.
    intros [Hm Hl]. destruct (default_ref_ok h t Hm) as (r & -> & Hb & Hr & _). cbn [bind]. rewrite read_exact; auto.
    - unfold outcome. replace (s_data r) with (norm t None) by (rewrite Hb; reflexivity). rewrite <- sp_reads_norm.
      rewrite sp_reads_nil by (now left). apply fine_ok.
    - unfold small, is_fixed. destruct (size_of t) as [n|] eqn:En; [now left|]. right. unfold slen. rewrite Hb. unfold default_bytes. rewrite En. reflexivity.
  Qed.
  Lemma fine_ref t s : readable t -> ref_ok t s -> slen s < 2 ^ 32 -> sp_reads t (Some (s_data s)) = true -> fine (read h t s).
  Proof. intros [Hm Hl] Hr Hs Hrd. rewrite read_exact; auto; [|now right]. unfold outcome. rewrite Hrd. apply fine_ok. Qed.

  (** ** What is known of the parts *)
  Definition known (t : ty) : Prop := forall s, slen s < 2 ^ 32 -> sp_reads t (Some (s_data s)) = true ->
    (fine (decode h t s) <-> s_addr s mod sp_needs t (Some (s_data s)) = 0).
  Lemma known_unwrap t s : known t -> macro_ok t = true -> size_of t = None -> slen s < 2 ^ 32 ->
    sp_whole t (Some (s_data s)) = true -> sp_reads t (Some (s_data s)) = true ->
    (fine (let* r := cast_unwrap h t s in read h t r) <-> s_addr s mod sp_needs t (Some (s_data s)) = 0).
  Proof.
    intros Hk Hm Hn Hs Hw Hrd. rewrite <- (Hk s Hs Hrd). unfold decode, cast, from_aligned_slice, cast_unwrap.
    rewrite sp_whole_fits in Hw by assumption. change (blen (s_data s)) with (slen s) in Hw.
    destruct (size_good_dec t (slen s)) as [Hg|Hg]; [|discriminate Hw]. rewrite try_release by assumption.
    destruct (_ =? 0); reflexivity.
  Qed.
  Lemma part_need t s st e : st mod align_of t = 0 ->
    (s_addr (part s st e) mod sp_needs t (Some (s_data (part s st e))) = 0 <-> s_addr s mod sp_needs t (Some (s_data (part s st e))) = 0).
  Proof.
    intros Hst. destruct (needs_alignment t (Some (s_data (part s st e)))) as [Ha Hle].
    assert (Hst' : st mod sp_needs t (Some (s_data (part s st e))) = 0) by (eapply align_divides; [exact Ha|apply align_of_alignment|exact Hle|exact Hst]).
    revert Ha Hst'. generalize (sp_needs t (Some (s_data (part s st e)))). intros n Ha Hst'. cbn [part s_addr].
    assert (n <> 0) by (destruct Ha as [->|[->|[->| ->]]]; lia).
    rewrite N.add_mod, Hst', N.add_0_r, N.mod_mod by assumption. reflexivity.
  Qed.

  (** ** Arrays *)
  Lemma into_iter_release x s : slen s < usize_lim -> nfwa_into_iter h x s = Ok (iter_at s 0).
  Proof.
    intros Hl. unfold nfwa_into_iter, slen in *. rewrite read_lfo_ok by assumption. cbn [bind fst snd].
    unfold split_at. pose proof (arr_lfo_le (s_data s)) as Hle.
    rewrite sl_to_ok by assumption. cbn [bind]. rewrite sl_from_ok by assumption. cbn [bind].
    rewrite unchecked_release. cbn [bind fst snd]. unfold iter_at. rewrite part_0. reflexivity.
  Qed.
  Lemma next_release x s i : slen s < usize_lim -> i < arr_n (s_data s) ->
    nfwa_next h x (iter_at s i) = (let* r := elem_at h x s i in Ok (Some r, iter_at s (i + 1))).
  Proof.
    intros Hl Hi. unfold nfwa_next, elem_at. change (slen s) with (blen (s_data s)) in *.
    cbn [iter_at it_offsets it_offset_idx it_next_start it_osz it_data].
    pose proof (arr_lfo_le (s_data s)) as Hle. pose proof (arr_lfo_mod (s_data s)) as Hn.
    pose proof (arr_osz_pos (s_data s)) as Hp.
    assert (Hi2 : i * osz_n (arr_osz (s_data s)) + osz_n (arr_osz (s_data s)) <= arr_n (s_data s) * osz_n (arr_osz (s_data s))) by nia.
    rewrite blen_drop, Hn.
    replace (arr_n (s_data s) * osz_n (arr_osz (s_data s)) <=? i * osz_n (arr_osz (s_data s))) with false
      by (symmetry; apply N.leb_gt; lia).
    destruct (align_offset h (trait_align x) (arr_prev (s_data s) i)) as [start|c] eqn:Es; [|reflexivity].
    cbn [bind]. clear Es.
    rewrite bs_from_ok by (rewrite blen_drop; lia). cbn [bind].
    rewrite read_uint_ok by (rewrite ?blen_drop; lia). cbn [bind].
    rewrite N.mul_0_l, drop_0, drop_drop.
    replace (of_le _) with (arr_end (s_data s) i) by (unfold arr_end; now rewrite le_num_of_le, sub_take_drop).
    rewrite uadd_ok by lia. cbn [bind].
    assert (Ei : NfwaIter (part s 0 (arr_lfo (s_data s))) (drop (arr_lfo (s_data s)) (s_data s)) (arr_end (s_data s) i)
        (i * osz_n (arr_osz (s_data s)) + osz_n (arr_osz (s_data s))) (arr_osz (s_data s)) = iter_at s (i + 1)).
    { unfold iter_at. f_equal; [|lia]. unfold arr_prev.
      replace (i + 1 =? 0) with false by (symmetry; apply N.eqb_neq; lia). now rewrite N.add_sub. }
    rewrite Ei. rewrite slen_part by (unfold slen; lia). rewrite N.sub_0_r.
    replace ((arr_end (s_data s) i <? start) || (arr_lfo (s_data s) <? arr_end (s_data s) i))
      with (negb ((start <=? arr_end (s_data s) i) && (arr_end (s_data s) i <=? arr_lfo (s_data s)))) by lia.
    destruct ((start <=? arr_end (s_data s) i) && _) eqn:E; cbn [negb].
    - rewrite ix_to_from_release; [|lia|rewrite slen_part by (unfold slen; lia); lia].
      rewrite part_part by (rewrite ?slen_part; unfold slen; lia). rewrite !N.add_0_l. reflexivity.
    - destruct (empty_aligned h (trait_align x)); [|reflexivity]. cbn [bind].
      destruct (cast_unwrap h x a); reflexivity.
  Qed.
  Lemma collect_release x s : slen s < usize_lim ->
    forall k i fuel, i + N.of_nat k = arr_n (s_data s) -> (k < fuel)%nat ->
    nfwa_collect h x fuel (iter_at s i) = mapM (elem_at h x s) (indices i k).
  Proof.
    intros Hl. induction k as [|k IH]; intros i fuel Hi Hf; (destruct fuel as [|fuel]; [lia|]); cbn [nfwa_collect].
    - replace i with (arr_n (s_data s)) by lia. rewrite nfwa_next_end. reflexivity.
    - rewrite next_release by (auto; lia). rewrite indices_S. cbn [mapM].
      destruct (elem_at h x s i) as [r|c]; [|reflexivity]. cbn [bind fst snd].
      rewrite IH by lia. reflexivity.
  Qed.
  Lemma items_release x s : slen s < usize_lim ->
    nfwa_items h x s = mapM (elem_at h x s) (indices 0 (N.to_nat (arr_n (s_data s)))).
  Proof.
    intros Hl. unfold nfwa_items. rewrite into_iter_release by assumption. cbn [bind].
    apply collect_release; auto; [lia|]. pose proof (arr_n_le (s_data s)) as H. unfold blen in H. lia.
  Qed.
  Lemma elem_release x s i : readable x -> known x -> size_of x = None -> slen s < 2 ^ 32 ->
    sp_whole x (arr_cut (align_of x) (s_data s) i) = true -> sp_reads x (arr_cut (align_of x) (s_data s) i) = true ->
    (fine (let* r := elem_at h x s i in read h x r) <-> s_addr s mod sp_needs x (arr_cut (align_of x) (s_data s) i) = 0).
  Proof.
    intros Hx Hk Hn Hl. pose proof (arr_prev_bound32 (s_data s) i Hl) as Hprev. unfold elem_at, arr_cut, cut. rewrite trait_align_of.
    assert (H8 : align_of x <= 8) by (pose proof (align_of_alignment x) as HA; destruct HA as [->|[->|[->| ->]]]; lia).
    rewrite align_offset_ok by (auto with al; unfold usize_lim; lia). cbn [bind].
    pose proof (arr_lfo_le (s_data s)) as Hle.
    set (st := pad_to (align_of x) (arr_prev (s_data s) i)). set (e := arr_end (s_data s) i).
    destruct ((st <=? e) && (e <=? arr_lfo (s_data s))) eqn:E; intros Hw Hrd.
    - rewrite <- (part_sub s st e) in *.
      rewrite <- part_need by (apply pad_to_mod; auto with al). apply known_unwrap; auto; [apply Hx|].
      rewrite slen_part; unfold slen in *; lia.
    - destruct (empty_aligned_static h (align_of x)) as (z & -> & Hz & Hza & Hzs); auto with al.
      destruct Hx as [Hm Htl]. cbn [bind]. rewrite cast_unwrap_empty by assumption. cbn [bind].
      replace (sp_needs x None) with 1 by (destruct x; reflexivity). rewrite N.mod_1_r. split; [reflexivity|]. intros _.
      apply fine_ref; [now split| | |].
      + split; [exact Hza|]. unfold size_good, slen. rewrite Hn, Hz. destruct x; auto.
        destruct (size_of x) as [m|] eqn:Em; [|exact I]. apply size_of_props in Em as [Em _].
        cbn [blen length N.of_nat]. apply N.mod_0_l. lia.
      + unfold slen. rewrite Hz. reflexivity.
      + rewrite Hz. apply sp_reads_nil. now right.
  Qed.

  (** ** Structures *)
  Lemma child_release child b s k a c (last_child : bool) nfo : readable child -> known child ->
    is_alignment b -> align_of child <= b -> c mod align_of child = 0 ->
    slen s < 2 ^ 32 -> a + c + 16 < 2 ^ 40 -> size_or_0 child < 2 ^ 40 ->
    N.of_nat k + 1 < 2 ^ 32 -> nfo < 2 ^ 32 ->
    (if size_of child then True else if last_child then True else N.of_nat k + 1 <= nfo) ->
    N.of_nat k <= nfo ->
    let d := s_data s in
    let w := sp_width (blen d) in
    let start := pad_to b (st_prev d k + a) + c in
    let stop := st_stop d (blen d - w * nfo) start (size_of child) last_child k in
    let x := if w * nfo <=? blen d then cut d start stop (blen d - w * nfo) else None in
    sp_reads child x = true ->
    (fine (let* r := get_child_elem h child b s (Z.of_nat k - 1) a c (size_of child) last_child nfo in read h child r) <->
     s_addr s mod sp_needs child x = 0).
  Proof.
    intros Hx Hk Hb Hle Hc Hl Hac Hsz Hk0 Hnfo Hk2 Hk1 d w start stop. cbv zeta. unfold get_child_elem.
    assert (Hnf : ~ far d nfo k) by (intros [_ Hf]; pose proof (st_prev_bound32 d k Hl); lia).
    destruct (calc_offsets_long h child b (s_data s) k a c last_child nfo) as [->|[_ Hf]]; auto; try (unfold slen in *; lia); try (intros Hf; elim Hnf; exact Hf); try (elim Hnf; exact Hf).
    cbn [bind]. fold d w start stop. unfold offsets_view.
    assert (Hdef : fine (let* r := default_ref h child in read h child r) <-> s_addr s mod sp_needs child None = 0).
    { replace (sp_needs child None) with 1 by (destruct child; reflexivity). rewrite N.mod_1_r. split; [reflexivity|]. intros _. now apply fine_default. }
    destruct (w * nfo <=? blen d); [|intros _; exact Hdef]. unfold cut.
    destruct ((start <=? stop) && (stop <=? blen d - w * nfo)) eqn:E; [|intros _; exact Hdef]. intros Hrd.
    assert (Hsm : start mod align_of child = 0).
    { unfold start. apply align_add; auto with al.
      apply (align_divides _ b); auto with al. now apply pad_to_mod. }
    unfold d in Hrd |- *. rewrite <- (part_sub s start stop) in Hrd |- *.
    rewrite <- part_need by assumption.
    rewrite <- (Hk (part s start stop)); [|rewrite slen_part; unfold slen in *; fold d in Hl |- *; lia|exact Hrd].
    unfold decode, cast.
    rewrite ix_to_from_release by (unfold slen; fold d; lia). reflexivity.
  Qed.
  Lemma fine_cons {A B C} (m : res A) (n : res (list B)) (f : A -> res C) (g : list B -> res (list C)) :
    fine (let* rs := (let* r := m in let* rs := n in Ok (r, rs)) in let* v := f (fst rs) in let* vs := g (snd rs) in Ok (v :: vs)) <->
    fine (let* r := m in f r) /\ fine (let* rs := n in g rs).
  Proof.
    destruct m as [r|c]; cbn [bind]; [|split; [intros H; now apply fine_crash in H|intros [H _]; now apply fine_crash in H]].
    destruct n as [rs|c]; cbn [bind fst snd]; [|split; [intros H; now apply fine_crash in H|intros [_ H]; now apply fine_crash in H]].
    destruct (f r) as [v|c]; cbn [bind]; [|split; [intros H; now apply fine_crash in H|intros [H _]; now apply fine_crash in H]].
    rewrite (fine_bind_ok (g rs) (fun vs => v :: vs)). split; [intros H; split; [apply fine_ok|exact H]|tauto].
  Qed.
  Lemma nonfixed_release al s (Hal : is_alignment al) nfo children : slen s < 2 ^ 32 -> nfo < 2 ^ 32 ->
    forall k a b c,
    is_alignment b ->
    Forall (fun t => readable t /\ known t /\ align_of t <= al) children ->
    a + c + 32 + lay_bound children < 2 ^ 40 ->
    N.of_nat k + N.of_nat (length children) + 1 < 2 ^ 32 ->
    (children <> [] -> N.of_nat k + sp_n_offsets (items_of children) = nfo) ->
    let d := s_data s in
    let w := sp_width (blen d) in
    let cs := if w * nfo <=? blen d
              then sp_struct_cut d w (blen d - w * nfo) (pad_to b (st_prev d k + a) + c) (N.of_nat k) (items_of children)
              else map (fun _ => None) (items_of children) in
    reads_all children cs = true ->
    (fine (let* rs := nonfixed_refs h al nfo s children (table_go (Z.of_nat k - 1) a b c children) in
           mapM (fun p => read h (fst p) (snd p)) (combine children rs)) <->
     Forall (fun n => s_addr s mod n = 0) (needs_all children cs)).
  Proof.
    intros Hl Hnfo. induction children as [|child rest IH]; intros k a b c Hb Hch Hlay Hk Hoff d w cs Hrd.
    - split; [constructor|]. intros _. apply fine_ok.
    - inversion Hch as [|? ? (Hrc & Hkn & Hle) Hch']; subst. cbn [lay_bound length] in Hlay, Hk.
      pose proof (align_of_alignment child) as Hca.
      set (last_child := match rest with [] => true | _ => false end).
      set (a' := if align_of child <=? b then a else a + align c b).
      set (b' := if align_of child <=? b then b else align_of child).
      set (c' := if align_of child <=? b then align c (align_of child) else 0).
      assert (Hb8 : b <= 8) by (destruct Hb as [->|[->|[->| ->]]]; lia).
      assert (Hc8 : align_of child <= 8) by (destruct Hca as [->|[->|[->| ->]]]; lia).
      assert (Hb' : is_alignment b') by (unfold b'; destruct (_ <=? b); assumption).
      assert (Hle' : align_of child <= b') by (unfold b'; destruct (_ <=? b) eqn:E; lia).
      assert (Hc' : c' mod align_of child = 0).
      { unfold c'. destruct (_ <=? b); [rewrite align_pad_to by assumption; now apply pad_to_mod|reflexivity]. }
      assert (Hac' : a' + c' <= a + c + 8).
      { unfold a', c'. destruct (_ <=? b).
        - rewrite align_pad_to by assumption. pose proof (pad_to_lt (align_of child) c Hca). lia.
        - rewrite align_pad_to by assumption. pose proof (pad_to_lt b c Hb). lia. }
      assert (Hpos : pad_to b' (st_prev d k + a') + c' = pad_to (align_of child) (pad_to b (st_prev d k + a) + c)).
      { unfold a', b', c'. destruct (align_of child <=? b) eqn:E.
        - rewrite align_pad_to, merge_rule_1 by (auto; lia). reflexivity.
        - rewrite align_pad_to, merge_rule_2 by (auto; lia). rewrite N.add_0_r. f_equal. lia. }
      assert (Hrow : table_go (Z.of_nat k - 1) a b c (child :: rest) =
        @cons row (Z.of_nat k - 1, a', b', c')%Z
        match size_of child with
        | Some size => table_go (Z.of_nat k - 1) a' b' (c' + size) rest
        | None => table_go (Z.of_nat (S k) - 1) 0 1 0 rest
        end).
      { cbn [table_go]. unfold a', b', c'. destruct (align_of child <=? b); f_equal;
          destruct (size_of child); try reflexivity; f_equal; lia. }
      rewrite Hrow. cbn [nonfixed_refs]. unfold as_aligned, aligned_to. rewrite trait_align_of.
      replace (align_of child <=? al) with true by lia. cbn [bind]. fold last_child.
      assert (Hk1 : N.of_nat k + sp_n_offsets (items_of (child :: rest)) = nfo) by (apply Hoff; discriminate).
      assert (Hn : sp_n_offsets (items_of (child :: rest)) =
        if last_child then 0 else (if size_of child then 0 else 1) + sp_n_offsets (items_of rest)).
      { unfold last_child. cbn [items_of map]. fold (items_of rest). cbn [sp_n_offsets].
        destruct rest as [|y rest]; [destruct (size_of child); reflexivity|].
        cbn [items_of map]. destruct (size_of child); reflexivity. }
      rewrite Hn in Hk1.
      assert (Hsz : size_or_0 child < 2 ^ 40) by lia.
      set (pos := pad_to (align_of child) (pad_to b (st_prev d k + a) + c)) in *.
      set (x0 := if w * nfo <=? blen d then cut d pos (st_stop d (blen d - w * nfo) pos (size_of child) last_child k) (blen d - w * nfo) else None).
      set (cs' := if w * nfo <=? blen d
           then match size_of child with
                | Some size => sp_struct_cut d w (blen d - w * nfo) (pos + size) (N.of_nat k) (items_of rest)
                | None => sp_struct_cut d w (blen d - w * nfo) (st_end d k) (N.of_nat k + 1) (items_of rest)
                end
           else map (fun _ => None) (items_of rest)).
      assert (Hcs : combine (child :: rest) cs = (child, x0) :: combine rest cs').
      { unfold cs, x0, cs', st_stop. cbn [items_of map]. fold (items_of rest). destruct (w * nfo <=? blen d); [|reflexivity].
        cbn [sp_struct_cut]. fold pos. destruct (size_of child) as [size|]; [reflexivity|]. unfold last_child.
        destruct rest as [|y rest]; [reflexivity|]. destruct (items_of (y :: rest)) eqn:Ei; [discriminate|]. reflexivity. }
      unfold reads_all in Hrd. unfold needs_all. rewrite Hcs in Hrd |- *. cbn [forallb map fst snd] in Hrd |- *.
      apply andb_true_iff in Hrd as [Hr0 Hr1].
      pose proof (child_release child b' s k a' c' last_child nfo Hrc Hkn Hb' Hle' Hc' Hl ltac:(lia) Hsz ltac:(lia) Hnfo) as HC.
      cbv zeta in HC. fold d w in HC. rewrite Hpos in HC. fold x0 in HC.
      assert (HC' : fine (let* r := get_child_elem h child b' s (Z.of_nat k - 1) a' c' (size_of child) last_child nfo in read h child r) <->
        s_addr s mod sp_needs child x0 = 0).
      { apply HC; auto; [|lia]. destruct (size_of child); [exact I|]. destruct last_child; [exact I|]. lia. }
      clear HC.
      match goal with |- context [nonfixed_refs h al nfo s rest ?rows] => set (rr := rows) in * end.
      assert (HR : fine (let* rs := nonfixed_refs h al nfo s rest rr in mapM (fun p => read h (fst p) (snd p)) (combine rest rs)) <->
        Forall (fun n => s_addr s mod n = 0) (map (fun p => sp_needs (fst p) (snd p)) (combine rest cs'))).
      { unfold rr, cs' in *. unfold size_or_0 in Hlay, Hsz. destruct (size_of child) as [size|] eqn:Esz.
        - pose proof (IH k a' b' (c' + size) Hb' Hch' ltac:(lia) ltac:(lia)) as IHk. cbv zeta in IHk. fold d w in IHk.
          replace (pad_to b' (st_prev d k + a') + (c' + size)) with (pos + size) in IHk by lia.
          apply IHk; [|exact Hr1]. intros Hr. unfold last_child in Hk1. destruct rest; [congruence|]. lia.
        - pose proof (IH (S k) 0 1 0 ltac:(now left) Hch' ltac:(lia) ltac:(lia)) as IHk. cbv zeta in IHk. fold d w in IHk.
          replace (pad_to 1 (st_prev d (S k) + 0) + 0) with (st_end d k) in IHk
            by (rewrite pad_to_1; cbn [st_prev sp_prev_end]; unfold st_prev, sp_prev_end; lia).
          replace (N.of_nat (S k)) with (N.of_nat k + 1) in IHk by lia.
          apply IHk; [|exact Hr1]. intros Hr. unfold last_child in Hk1. destruct rest; [congruence|]. lia. }
      transitivity (fine (let* r := get_child_elem h child b' s (Z.of_nat k - 1) a' c' (size_of child) last_child nfo in read h child r) /\
        fine (let* rs := nonfixed_refs h al nfo s rest rr in mapM (fun p => read h (fst p) (snd p)) (combine rest rs))).
      + rewrite <- fine_cons.
        destruct (get_child_elem _ _ _ _ _ _ _ _ _ _) as [r|?]; cbn [bind]; [|reflexivity].
        destruct (nonfixed_refs _ _ _ _ _ _) as [rs|?]; cbn [bind combine mapM fst snd]; reflexivity.
      + rewrite HC', HR. split; [intros []; now constructor|]. intros H. inversion H. now split.
  Qed.

  (** ** Everything *)
  Lemma tuple_release t s : is_struct t -> readable t -> size_of t = None -> slen s < 2 ^ 32 ->
    (fine (read h t s) <-> fine (let* rs := to_tuple h t s in mapM (fun p => read h (fst p) (snd p)) (combine (children_of t) rs))).
  Proof.
    intros Hs [Hm Htl] En Hl.
    destruct (to_tuple h t s) as [rs|c] eqn:Et.
    - assert (Hlen : length rs = length (children_of t)).
      { destruct (to_tuple_exact h t (Slice 0 (s_data s)) Hs Hm Htl) as (rs' & Et' & HF).
        - split; [unfold aligned; cbn [s_addr]; apply N.mod_0_l; pose proof (align_of_alignment t) as HA; destruct HA as [->|[->|[->| ->]]]; lia|].
          unfold size_good. rewrite En. destruct t; cbn [is_struct] in Hs; try tauto; exact I.
        - exact Hl.
        - apply Forall2_length in HF. rewrite combine_length, struct_cuts_length, Nat.min_id in HF.
          destruct (lo_tuple h t s (Slice 0 (s_data s)) eq_refl) as [(c & E & _)|[(c & E & _)|E]]; try congruence.
          rewrite Et, Et' in E. cbn in E. apply Forall2_length in E. cbn [s_data] in HF. congruence. }
      rewrite (read_struct h t s rs Hs Et Hlen). cbn [bind]. apply fine_bind_ok.
    - cbn [bind]. split; intros H; exfalso; revert H; [|apply fine_crash].
      destruct t; cbn [is_struct] in Hs; try tauto; cbn [read]; rewrite Et; cbn [bind]; apply fine_crash.
  Qed.
  Lemma split_release s : fine (variant_split h s).
  Proof.
    destruct (variant_split_ok h (Slice 0 (s_data s))) as (ts & dat & E & _); [reflexivity|].
    unfold variant_split in *. cbn [s_data] in E. destruct (memrchr0 (s_data s)) as [mid|].
    - unfold split_at in *. unfold sl_to in *. change (slen (Slice 0 (s_data s))) with (slen s) in E. destruct (mid <=? slen s) eqn:Em; [|discriminate E].
      cbn [bind] in *. rewrite !sl_from_ok in * by (change (slen (Slice 0 (s_data s))) with (slen s); lia). cbn [bind fst snd] in *.
      rewrite !unchecked_release in *. cbn [bind fst snd] in *. unfold sl_from in *. unfold slen in *. cbn [s_data] in *.
      destruct (1 <=? _); [apply fine_ok|discriminate E].
    - destruct (empty_aligned h 8); [apply fine_ok|discriminate E].
  Qed.
  Lemma all_known t : readable t -> known t.
  Proof.
    induction t as [t Hns IH|t Hs IH] using ty_struct_ind; intros Hr s Hl Hrd; pose proof Hr as [Hm Htl].
    - destruct (is_fixed t || sp_fixed_array t) eqn:Hf.
      { (* checked as a whole *)
        destruct (size_good_dec t (slen s)) as [Hg|Hg].
        - assert (En : sp_needs t (Some (s_data s)) = checks t).
          { unfold checks, size_good, is_fixed in *. rewrite Hf. destruct (size_of t) as [n|] eqn:En.
            - unfold slen in Hg. destruct t; cbn [sp_needs]; rewrite sp_size_of, En; change (len (s_data s)) with (blen (s_data s)); rewrite Hg, N.eqb_refl; apply sp_align_of.
            - destruct t as [| | | | | | | | | | | | |x|x|ts|k v]; cbn [sp_fixed_array] in Hf; try discriminate Hf.
              rewrite sp_size_of in Hf. cbn [sp_needs]. rewrite sp_size_of, En, sp_size_of. destruct (size_of x) as [m|]; [|discriminate Hf].
              change (len (s_data s)) with (slen s). rewrite Hg. exact (sp_align_of x). }
          rewrite En. unfold decode, cast, from_aligned_slice. rewrite try_release by assumption.
          destruct (s_addr s mod checks t =? 0) eqn:Ea; cbn [bind].
          + apply N.eqb_eq in Ea. split; [now intros _|]. intros _. apply fine_ref; auto. split; [|exact Hg]. unfold checks in Ea. rewrite Hf in Ea. exact Ea.
          + apply N.eqb_neq in Ea. split; [intros H; now apply fine_crash in H|]. intros H. now elim Ea.
        - assert (En : sp_needs t (Some (s_data s)) = 1).
          { unfold size_good, is_fixed in *. destruct (size_of t) as [n|] eqn:En.
            - unfold slen in Hg. destruct t; cbn [sp_needs]; rewrite sp_size_of, En; change (len (s_data s)) with (blen (s_data s));
                (replace (blen (s_data s) =? n) with false by (symmetry; now apply N.eqb_neq)); reflexivity.
            - destruct t as [| | | | | | | | | | | | |x|x|ts|k v]; cbn [sp_fixed_array] in Hf; try discriminate Hf.
              rewrite sp_size_of in Hf. cbn [sp_needs]. rewrite sp_size_of, En, sp_size_of. destruct (size_of x) as [m|]; [|discriminate Hf].
              change (len (s_data s)) with (slen s). replace (slen s mod m =? 0) with false by (symmetry; now apply N.eqb_neq). reflexivity. }
          rewrite En, N.mod_1_r. unfold decode, cast, from_aligned_slice. rewrite try_release_none by assumption. cbn [bind].
          split; [reflexivity|]. intros _. now apply fine_default. }
      apply orb_false_iff in Hf as [Hf Hfa]. unfold is_fixed in Hf. destruct (size_of t) as [n|] eqn:En; [discriminate Hf|].
      assert (Hc : cast h t s = Ok s).
      { unfold cast, from_aligned_slice. rewrite try_release; [|assumption|].
        - unfold checks, is_fixed. rewrite En, Hfa. cbn [orb]. rewrite N.mod_1_r. reflexivity.
        - unfold size_good. rewrite En. destruct t; cbn [sp_fixed_array] in Hfa; try exact I. rewrite sp_size_of in Hfa. destruct (size_of t); [discriminate Hfa|exact I]. }
      unfold decode. rewrite Hc. cbn [bind].
      destruct t as [| | | | | | | | | | | | |x|x|ts|k v]; cbn [is_struct] in Hns; try tauto; try discriminate En.
      + cbn [read sp_needs sp_size]. rewrite N.mod_1_r. split; [reflexivity|]. intros _. apply fine_ok.
      + cbn [read sp_needs sp_size]. rewrite N.mod_1_r. split; [reflexivity|]. intros _. apply fine_ok.
      + cbn [read sp_needs sp_size]. rewrite N.mod_1_r. split; [reflexivity|]. intros _. apply fine_ok.
      + cbn [read sp_needs sp_size]. rewrite N.mod_1_r. split; [reflexivity|]. intros _. apply fine_bind_ok. apply split_release.
      + (* array of variable-size elements *)
        specialize (IH x (or_introl eq_refl) (readable_part (TA x) x (or_introl eq_refl) Hr)).
        cbn [sp_fixed_array] in Hfa. rewrite sp_size_of in Hfa. cbn [sp_reads] in Hrd. rewrite sp_size_of in Hrd. rewrite sp_align_of in Hrd.
        cbn [read sp_needs]. rewrite sp_size_of, En, sp_size_of, sp_align_of. unfold array_refs.
        destruct (size_of x) as [m|] eqn:Ex; [discriminate Hfa|].
        rewrite items_release by (unfold usize_lim; lia).
        rewrite sp_array_children_map in *. set (idx := indices _ _) in *.
        rewrite mod_most by (apply Forall_forall; intros n Hn; apply in_map_iff in Hn as (d & <- & _); apply needs_alignment).
        transitivity (fine (let* rs := mapM (elem_at h x s) idx in mapM (read h x) rs)).
        { destruct (mapM (elem_at h x s) idx) as [rs|c]; cbn [bind]; [apply fine_bind_ok|]. split; intros H; now apply fine_crash in H. }
        rewrite fine_mapM2', map_map, Forall_map.
        rewrite forallb_forall in Hrd. split; intros H; rewrite Forall_forall in *; intros i Hi; specialize (H i Hi);
          specialize (Hrd _ (in_map _ _ _ Hi)); apply andb_true_iff in Hrd as [Hw Hrd];
          (apply elem_release; [exact (readable_part (TA x) x (or_introl eq_refl) Hr)|exact IH|exact Ex|exact Hl|exact Hw|exact Hrd|exact H]).
      + (* maybe *)
        specialize (IH x (or_intror eq_refl) (readable_part (TM x) x (or_intror eq_refl) Hr)).
        cbn [sp_reads] in Hrd. rewrite sp_size_of in Hrd. cbn [read sp_needs]. rewrite sp_size_of, En, sp_size_of. unfold to_option.
        destruct (size_of x) as [m|] eqn:Ex.
        * rewrite <- (IH s Hl) by (now rewrite (sp_reads_fixed x m)). unfold decode, cast, from_aligned_slice.
          destruct (size_good_dec x (slen s)) as [Hg|Hg].
          -- rewrite try_release by assumption. destruct (_ =? 0); cbn [bind]; [apply fine_bind_ok|]. split; intros H; now apply fine_crash in H.
          -- rewrite try_release_none by assumption. cbn [bind]. split; intros _; [|apply fine_ok].
             apply fine_default. exact (readable_part (TM x) x (or_intror eq_refl) Hr).
        * change (slen s) with (blen (s_data s)) in *. destruct (s_data s) as [|b0 d0] eqn:Ed.
          { change (blen (@nil byte)) with 0. cbn [N.eqb bind]. rewrite N.mod_1_r. split; [reflexivity|]. intros _. apply fine_ok. }
          assert (Hne : s_data s <> []) by (rewrite Ed; discriminate).
          rewrite <- Ed in *. rewrite (removelast_take (s_data s) Hne) in *. cbv zeta in Hrd. apply andb_true_iff in Hrd as [Hw Hrd].
          assert (Hbl : blen (s_data s) <> 0) by (rewrite Ed, blen_cons; lia).
          replace (blen (s_data s) =? 0) with false by (symmetry; now apply N.eqb_neq).
          rewrite usub_ok by lia. cbn [bind]. rewrite ix_to_release by (unfold slen; lia). cbn [bind].
          assert (Hp : s_data (part s 0 (blen (s_data s) - 1)) = take (blen (s_data s) - 1) (s_data s)) by (rewrite part_0; reflexivity).
          rewrite <- Hp in Hw, Hrd |- *.
          rewrite <- (part_need x s 0) by (apply N.mod_0_l; pose proof (align_of_alignment x) as HA; destruct HA as [->|[->|[->| ->]]]; lia).
          rewrite <- (known_unwrap x (part s 0 (blen (s_data s) - 1)) IH Hm Ex); auto.
          2:{ rewrite slen_part by (unfold slen; lia). lia. }
          destruct (cast_unwrap h x _) as [r|c]; cbn [bind]; [apply fine_bind_ok|]. split; intros H; now apply fine_crash in H.
    - destruct (size_of t) as [n|] eqn:En.
      { destruct (N.eq_dec (slen s) n) as [Hg|Hg].
        - assert (Hsg : size_good t (slen s)) by (unfold size_good; now rewrite En).
          assert (E1 : sp_needs t (Some (s_data s)) = checks t).
          { unfold checks, is_fixed. rewrite En. cbn [orb]. unfold slen in Hg. destruct t; cbn [sp_needs]; rewrite sp_size_of, En;
              change (len (s_data s)) with (blen (s_data s)); rewrite Hg, N.eqb_refl; apply sp_align_of. }
          rewrite E1. unfold decode, cast, from_aligned_slice. rewrite try_release by assumption.
          destruct (s_addr s mod checks t =? 0) eqn:Ea; cbn [bind].
          + apply N.eqb_eq in Ea. split; [now intros _|]. intros _. apply fine_ref; auto. split; [|exact Hsg]. unfold checks, is_fixed in Ea. rewrite En in Ea. exact Ea.
          + apply N.eqb_neq in Ea. split; [intros H; now apply fine_crash in H|]. intros H. now elim Ea.
        - assert (Hsg : ~ size_good t (slen s)) by (unfold size_good; now rewrite En).
          assert (E1 : sp_needs t (Some (s_data s)) = 1).
          { unfold slen in Hg. destruct t; cbn [sp_needs]; rewrite sp_size_of, En; change (len (s_data s)) with (blen (s_data s));
                (replace (blen (s_data s) =? n) with false by (symmetry; now apply N.eqb_neq)); reflexivity. }
          rewrite E1, N.mod_1_r. unfold decode, cast, from_aligned_slice. rewrite try_release_none by assumption. cbn [bind].
          split; [reflexivity|]. intros _. now apply fine_default. }
      assert (Hc : cast h t s = Ok s).
      { unfold cast, from_aligned_slice. rewrite try_release; [|assumption|].
        - unfold checks, is_fixed. rewrite En. replace (sp_fixed_array t) with false by (destruct t; cbn [is_struct] in Hs; tauto). cbn [orb]. rewrite N.mod_1_r. reflexivity.
        - unfold size_good. rewrite En. destruct t; cbn [is_struct] in Hs; tauto. }
      unfold decode. rewrite Hc. cbn [bind]. rewrite tuple_release by assumption.
      rewrite needs_struct by assumption. rewrite sp_reads_struct in Hrd by assumption.
      rewrite mod_most.
      2:{ apply Forall_forall. intros n Hn. apply in_map_iff in Hn as (p & <- & _). apply needs_alignment. }
      unfold to_tuple. rewrite En. unfold struct_cuts in *. rewrite En in *. rewrite n_frame_offsets_spec.
      destruct (struct_bounds t Hs Htl) as [Hlb Hlen]. pose proof (sp_n_offsets_le (children_of t)) as Hno.
      pose proof (nonfixed_release (align_of t) s (align_of_alignment t) (sp_n_offsets (items_of (children_of t))) (children_of t) Hl ltac:(lia) 0 0 1 0) as HN.
      cbv zeta in HN. replace (pad_to 1 (st_prev (s_data s) 0 + 0) + 0) with 0 in HN by reflexivity.
      unfold sp_struct_children in *. change (len (s_data s)) with (blen (s_data s)) in *.
      apply HN; [now left| |lia|lia|lia|exact Hrd].
      apply Forall_forall. intros c Hcin. rewrite Forall_forall in IH. pose proof (readable_child t c Hs Hr Hcin) as Hrc.
      split; [exact Hrc|]. split; [now apply IH|]. now apply children_align.
  Qed.
End Release.

(** ** The claims *)
Lemma aligned_at_0 a d : is_alignment a -> aligned a (Slice 0 d).
Proof. intros HA. unfold aligned. cbn [s_addr]. apply N.mod_0_l. destruct HA as [->|[->|[->| ->]]]; lia. Qed.
Lemma lo_decode h t s q : like s q -> lo h eq (decode h t s) (decode h t q).
Proof. intros H. unfold decode. eapply lo_bind; [now apply lo_cast|]. intros a b. apply lo_read. Qed.
Lemma at_any_address h t s : usable t -> slen s < 2 ^ 32 ->
  (exists c, decode h t s = Crash c /\ misaligned_crash h c) \/ decode h t s = outcome (h_big_endian h) t (s_data s).
Proof.
  intros Hu Hl. apply usable_readable in Hu as [Hm Htl].
  pose proof (decode_exact h t (Slice 0 (s_data s)) Hm Htl (aligned_at_0 _ _ (align_of_alignment t)) Hl) as Eq.
  destruct (lo_decode h t s (Slice 0 (s_data s)) eq_refl) as [H|[(c & E & Hc)|E]]; [now left| |].
  - rewrite Eq in E. unfold outcome in E. destruct (sp_reads _ _); [discriminate E|]. injection E as <-.
    destruct Hc as [Hc|[Hc _]]; discriminate Hc.
  - right. rewrite Eq in E. unfold outcome in *. cbn [s_data] in E. destruct (sp_reads _ _), (decode h t s); cbn [ViewFacts.same] in E; try tauto; now subst.
Qed.
Lemma need_release h t s : h_debug h = false -> usable t -> slen s < 2 ^ 32 -> sp_reads t (Some (s_data s)) = true ->
  decode h t s = if s_addr s mod sp_needs t (Some (s_data s)) =? 0 then Ok (sp_decode (h_big_endian h) t (Some (s_data s))) else Crash UBMisaligned.
Proof.
  intros Hd Hu Hl Hr. pose proof (all_known h Hd t (proj1 (usable_readable t) Hu) s Hl Hr) as [H1 H2].
  destruct (at_any_address h t s Hu Hl) as [(c & E & Hc)|E].
  - destruct (N.eqb_spec (s_addr s mod sp_needs t (Some (s_data s))) 0) as [Ha|Ha].
    + destruct (H2 Ha) as [v Ev]. rewrite E in Ev. discriminate Ev.
    + rewrite E. destruct Hc as [->|[_ Hc]]; [reflexivity|]. rewrite Hd in Hc. discriminate Hc.
  - unfold outcome in E. rewrite Hr in E. rewrite E. destruct (N.eqb_spec (s_addr s mod sp_needs t (Some (s_data s))) 0) as [Ha|Ha]; [reflexivity|].
    elim Ha. apply H1. rewrite E. apply fine_ok.
Qed.
Lemma need_any h t s v : usable t -> slen s < 2 ^ 32 -> decode h t s = Ok v ->
  s_addr s mod sp_needs t (Some (s_data s)) = 0 /\ v = sp_decode (h_big_endian h) t (Some (s_data s)).
Proof.
  intros Hu Hl E. destruct (at_any_address h t s Hu Hl) as [(c & E' & Hc)|E']; [congruence|].
  unfold outcome in E'. destruct (sp_reads t (Some (s_data s))) eqn:Hr; [|congruence].
  split; [|congruence]. destruct (ov_decode true h t s) as [Er|(c & Ec & _)]; [|congruence].
  apply (all_known (unguarded true h) eq_refl t (proj1 (usable_readable t) Hu) s Hl Hr). rewrite <- Er, E. apply fine_ok.
Qed.
Lemma could_fixed t n : size_of t = Some n -> sp_could_need t = align_of t.
Proof. intros En. destruct t; cbn [sp_could_need]; rewrite sp_size_of, En; apply sp_align_of. Qed.
Lemma could_struct t : is_struct t -> size_of t = None -> sp_could_need t = sp_most (map sp_could_need (children_of t)).
Proof. intros Hs En. destruct t; cbn [is_struct] in Hs; try tauto; cbn [sp_could_need children_of map]; rewrite sp_size_of, En; reflexivity. Qed.
Lemma could_alignment t : is_alignment (sp_could_need t).
Proof.
  induction t as [t Hns IH|t Hs IH] using ty_struct_ind; (destruct (size_of t) as [n|] eqn:En; [rewrite (could_fixed t n En); apply align_of_alignment|]).
  - destruct t as [| | | | | | | | | | | | |x|x|ts|k v]; cbn [is_struct] in Hns; try tauto; try discriminate En;
      cbn [sp_could_need]; rewrite ?sp_size_of, ?En; cbn [sp_size]; try now left.
    + apply IH. now left.
    + apply IH. now right.
  - rewrite could_struct by assumption. apply most_alignment. apply Forall_map. exact IH.
Qed.
Lemma need_could t : forall d, sp_needs t d <= sp_could_need t.
Proof.
  assert (H1 : forall t, 1 <= sp_could_need t).
  { intros u. pose proof (could_alignment u) as HA. destruct HA as [->|[->|[->| ->]]]; lia. }
  induction t as [t Hns IH|t Hs IH] using ty_struct_ind; (intros [b|]; [|specialize (H1 t); destruct t; exact H1]);
    (destruct (size_of t) as [n|] eqn:En;
      [rewrite (could_fixed t n En); rewrite <- sp_align_of; pose proof (align_of_alignment t) as HA; rewrite <- sp_align_of in HA;
       assert (1 <= sp_align t) by (destruct HA as [->|[->|[->| ->]]]; lia); destruct t; cbn [sp_needs]; rewrite sp_size_of, En; destruct (_ =? _); lia|]).
  - destruct t as [| | | | | | | | | | | | |x|x|ts|k v]; cbn [is_struct] in Hns; try tauto; try discriminate En; try (cbn; lia).
    + specialize (IH x (or_introl eq_refl)). cbn [sp_needs sp_could_need]. rewrite !sp_size_of, En. destruct (size_of x) as [m|] eqn:Ex.
      * rewrite (could_fixed x m Ex), sp_align_of. pose proof (align_of_alignment x) as HA. assert (1 <= align_of x) by (destruct HA as [->|[->|[->| ->]]]; lia).
        destruct (_ =? _); lia.
      * apply most_le; [apply H1|]. apply Forall_map, Forall_forall. intros c _. apply IH.
    + specialize (IH x (or_intror eq_refl)). cbn [sp_needs sp_could_need]. rewrite !sp_size_of, En. destruct (size_of x) as [m|]; [apply IH|].
      destruct b; [apply H1|apply IH].
  - rewrite needs_struct, could_struct by assumption. unfold needs_all. generalize (struct_cuts t b). revert IH. generalize (children_of t).
    induction l as [|x l IHl]; intros IH cs; [cbn; lia|]. destruct cs as [|c cs]; cbn [combine map sp_most fold_right fst snd].
    + pose proof (H1 x). lia.
    + inversion IH as [|? ? Hx Hl']; subst. specialize (Hx c). specialize (IHl Hl' cs). unfold sp_most in IHl. lia.
Qed.
Lemma could_release h t s : h_debug h = false -> usable t -> slen s < 2 ^ 32 -> sp_reads t (Some (s_data s)) = true ->
  s_addr s mod sp_could_need t = 0 -> decode h t s = Ok (sp_decode (h_big_endian h) t (Some (s_data s))).
Proof.
  intros Hd Hu Hl Hr Ha. rewrite need_release by assumption.
  assert (E : s_addr s mod sp_needs t (Some (s_data s)) = 0).
  { eapply (align_divides _ (sp_could_need t)); [apply needs_alignment|apply could_alignment|apply need_could|exact Ha]. }
  rewrite E. reflexivity.
Qed.
