(** Reading parts of data that may panic. *)
From Verif Require Import Base Types Layout AlignedBytes Strs Spec Deser Buf Histories Ser SerSpec Cmp CmpSpec Fmt FmtSpec Mut MutSpec OwnSpec Iter IterSpec
  Programs ProgSpec ValSpec LazySpec LongSpec
  BaseFacts TypesFacts LayoutFacts AlignedFacts Utf8Facts DeserFacts ArrayFacts StructFacts ReadFacts AccessFacts ReadClaims EqFacts CmpFacts StrFacts
  EncFacts RoundFacts SerMain SerClaims MutFacts EmptyFacts OwnClaims IterFacts ViewFacts FmtFacts MoveFacts ProgFacts ValFacts.
From Coq Require Import Lia ZifyBool ZifyNat ZifyN.
Ltac Zify.zify_post_hook ::= idtac.

(** ** Lazy decoding *)
Lemma ldecode_calm big t d : ldecode big t d <> LPanic.
Proof.
  destruct t as [| | | | | | | | | | | | |x|x|ts|k v]; cbn [ldecode]; try discriminate.
  destruct (match sp_size (TDict k v) with Some _ => _ | None => _ end) as [|a [|b [|c l]]]; discriminate.
Qed.
Lemma ldecode_norm big t d : ldecode big t d = ldecode big t (Some (norm t d)).
Proof.
  destruct t as [| | | | | | | | | | | | |x|x|ts|k v];
    try (cbn [ldecode]; f_equal; apply sp_decode_norm).
  - cbn [ldecode]. rewrite sp_size_of. destruct (size_of x) as [n|] eqn:En.
    + rewrite (norm_arr x n) by assumption. fold (opt_bytes d). change (@len byte) with (@blen byte).
      destruct (blen (opt_bytes d) mod n =? 0) eqn:E.
      * rewrite E. reflexivity.
      * cbn [blen length N.of_nat]. destruct (0 mod n =? 0); reflexivity.
    + rewrite norm_var; [reflexivity|reflexivity|]. intros y Hy. injection Hy as <-. exact En.
  - cbn [ldecode]. rewrite (norm_var (TM x)) by (reflexivity || discriminate). reflexivity.
  - cbn [ldecode]. rewrite sp_size_of. destruct (size_of (TTuple ts)) as [n|] eqn:En.
    + rewrite <- (sized_norm (TTuple ts) n) by assumption. reflexivity.
    + rewrite norm_var by (assumption || discriminate). reflexivity.
  - cbn [ldecode]. rewrite sp_size_of. destruct (size_of (TDict k v)) as [n|] eqn:En.
    + rewrite <- (sized_norm (TDict k v) n) by assumption. reflexivity.
    + rewrite norm_var by (assumption || discriminate). reflexivity.
Qed.
Definition ldec_all (big : bool) (ts : list ty) (cs : list (option (list byte))) : list lval :=
  map (fun p => ldecode big (fst p) (snd p)) (combine ts cs).
Lemma ldecode_struct big t d : is_struct t -> size_good t (blen d) ->
  ldecode big t (Some d) = LTuple (ldec_all big (children_of t) (struct_cuts t d)).
Proof.
  intros Hs Hg. pose proof (struct_cuts_length t d) as Hl. unfold ldec_all.
  assert (E : (match sp_size t with
               | Some n => sp_struct_cut (if len d =? n then d else nuls n) 0 n 0 0 (items_of (children_of t))
               | None => sp_struct_children (items_of (children_of t)) d
               end) = struct_cuts t d).
  { unfold struct_cuts. rewrite sp_size_of. unfold size_good in Hg. destruct (size_of t); [|reflexivity].
    change (len d) with (blen d). rewrite Hg, N.eqb_refl. reflexivity. }
  destruct t as [| | | | | | | | | | | | |x|x|ts|k v]; cbn [is_struct] in Hs; try tauto; cbn [ldecode children_of] in *.
  - rewrite sp_items_of, E. f_equal. generalize (struct_cuts (TTuple ts) d). clear.
    induction ts as [|t ts IH]; intros [|c cs]; cbn [combine map]; try reflexivity.
    cbn [fst snd]. f_equal. apply IH.
  - rewrite sp_items_of, E. cbn [length] in Hl.
    destruct (struct_cuts (TDict k v) d) as [|a [|b [|c l]]]; cbn [length] in Hl; try lia. reflexivity.
Qed.

(** ** The parts of a view *)
Definition lz (h : host) (t : ty) (r : slice) : lval := ldecode (h_big_endian h) t (Some (s_data r)).
Definition lelem (h : host) (x : ty) (m : res slice) : lval := match m with Ok r => lz h x r | Crash _ => LPanic end.
Lemma whole_fixed x n c : size_of x = Some n -> sp_whole x c = true.
Proof. destruct x; try reflexivity. discriminate. Qed.
Lemma lz_slice h x n s : size_of x = Some n -> ref_ok (TA x) s -> lz h (TA x) s = LArray (map (lz h x) (slice_elems n s)).
Proof.
  intros En Hr. destruct (slice_elems_ok x n s En Hr) as [Hd _]. destruct Hr as [_ Hg]. unfold size_good in Hg. cbn [size_of] in Hg. rewrite En in Hg.
  unfold lz. cbn [ldecode]. rewrite sp_size_of, En. change (len (s_data s)) with (slen s). rewrite Hg. cbn [N.eqb].
  rewrite <- Hd, !map_map. f_equal. apply map_ext. intros r. now rewrite (whole_fixed x n).
Qed.
Lemma lz_elem h x s i : macro_ok x = true -> aligned (align_of x) s -> size_of x = None -> slen s < 2 ^ 32 ->
  lelem h x (elem_at h x s i) =
    (let c := arr_cut (align_of x) (s_data s) i in if sp_whole x c then ldecode (h_big_endian h) x c else LPanic) /\
  match elem_at h x s i with Crash c => c = PUnwrap | _ => True end.
Proof.
  intros Hm Ha En Hl. pose proof (elem_at_exact h x s i Hm Ha En Hl) as He. cbv zeta. unfold elem_view in He.
  destruct (arr_cut (align_of x) (s_data s) i) as [b|].
  - rewrite sp_whole_fits by assumption. destruct (size_good_dec x (blen b)) as [Hg|Hg].
    + destruct He as (r & -> & _ & Hd). cbn [lelem]. unfold lz. rewrite Hd. auto.
    + rewrite He. auto.
  - destruct He as (r & -> & _ & Hd). cbn [lelem]. unfold lz. rewrite Hd. split; [|exact I].
    replace (sp_whole x None) with true by (destruct x; reflexivity).
    rewrite (ldecode_norm _ x None), norm_none_var by assumption. reflexivity.
Qed.
Lemma lz_array h x s : macro_ok x = true -> aligned (align_of x) s -> size_of x = None -> slen s < 2 ^ 32 ->
  lz h (TA x) s = LArray (map (fun i => lelem h x (elem_at h x s i)) (indices 0 (N.to_nat (arr_n (s_data s))))).
Proof.
  intros Hm Ha En Hl. unfold lz at 1. cbn [ldecode]. rewrite sp_size_of, En, sp_align_of, sp_array_children_map, map_map. f_equal.
  apply map_ext. intros i. symmetry. now apply lz_elem.
Qed.
Definition lmaybe (h : host) (x : ty) (m : res (option slice)) : option lval :=
  match m with Ok None => None | Ok (Some r) => Some (lz h x r) | Crash _ => Some LPanic end.
Lemma lz_maybe h x s : macro_ok x = true -> aligned (align_of x) s ->
  lz h (TM x) s = LMaybe (lmaybe h x (to_option h x s)) /\
  match to_option h x s with Crash c => c = PUnwrap | _ => True end.
Proof.
  intros Hm Ha. unfold lz at 1. cbn [ldecode]. rewrite sp_size_of. destruct (size_of x) as [n|] eqn:En.
  - rewrite (to_option_fixed h x s n) by assumption. change (len (s_data s)) with (slen s).
    destruct (slen s =? n); split; try exact I; reflexivity.
  - rewrite to_option_var by assumption. change (slen s) with (blen (s_data s)).
    destruct (s_data s) as [|b d0] eqn:Ed; [split; [reflexivity|exact I]|].
    assert (Hne : s_data s <> []) by (rewrite Ed; discriminate).
    rewrite <- Ed in *. rewrite (removelast_take (s_data s) Hne).
    assert (Hbl : blen (s_data s) <> 0) by (rewrite Ed, blen_cons; lia).
    replace (blen (s_data s) =? 0) with false by (symmetry; now apply N.eqb_neq).
    assert (Ht : blen (take (blen (s_data s) - 1) (s_data s)) = blen (s_data s) - 1) by (rewrite blen_take; lia).
    cbn zeta. rewrite sp_whole_fits by assumption. rewrite Ht.
    destruct (size_good_dec x (blen (s_data s) - 1)); split; try exact I; try reflexivity.
    cbn [lmaybe]. unfold lz. now rewrite part_0.
Qed.
Lemma lz_tuple h t s : is_struct t -> readable t -> ref_ok t s -> small t s ->
  exists rs, to_tuple h t s = Ok rs /\ length rs = length (children_of t) /\
    lz h t s = LTuple (map (fun p => lz h (fst p) (snd p)) (combine (children_of t) rs)).
Proof.
  intros Hs [Hm Htl] Hr Hsm.
  assert (HT : exists rs, to_tuple h t s = Ok rs /\
    Forall2 (fun p r => child_view h s (fst p) (snd p) r) (combine (children_of t) (struct_cuts t (s_data s))) rs).
  { destruct (size_of t) as [n|] eqn:En; [now apply (to_tuple_fixed h t s n)|]. destruct Hsm as [Hf|Hl].
    - unfold is_fixed in Hf. rewrite En in Hf. discriminate.
    - now apply to_tuple_exact. }
  destruct HT as (rs & E & HF). exists rs. split; [exact E|].
  pose proof (struct_cuts_length t (s_data s)) as Hlen.
  assert (Hrs : length rs = length (children_of t)).
  { apply Forall2_length in HF. rewrite combine_length, Hlen, Nat.min_id in HF. lia. }
  split; [exact Hrs|]. unfold lz at 1. rewrite ldecode_struct by (auto; apply Hr). f_equal. unfold ldec_all.
  clear E. revert rs Hrs HF. revert Hlen. generalize (struct_cuts t (s_data s)). generalize (children_of t). clear.
  induction l as [|c cs IH]; intros [|d ds] Hlen [|r rs] Hrs HF; cbn [length combine map] in *; try lia; [reflexivity|].
  inversion HF as [|? ? ? ? Hv HF']; subst. cbn [fst snd] in *. f_equal.
  - destruct Hv as (_ & _ & Hd). unfold lz. rewrite Hd. apply ldecode_norm.
  - apply (IH ds); auto; lia.
Qed.

Lemma child_small h t s c r : is_struct t -> In c (children_of t) -> small t s -> placed h c s r -> ref_ok c r -> small c r.
Proof.
  intros Hs Hc [Hf|Hl] Hp Hr.
  - left. unfold is_fixed in Hf. destruct (size_of t) as [n|] eqn:En; [|discriminate].
    pose proof (fixed_children t n Hs En) as HA. now apply (proj1 (Forall_forall _ _) HA).
  - unfold small. destruct (is_fixed c) eqn:E; [now left|right]. pose proof (placed_len h c s r Hp Hr E). lia.
Qed.
Lemma part_small h s c r : placed h c s r -> ref_ok c r -> slen s < 2 ^ 32 -> small c r.
Proof.
  intros Hp Hr Hl. unfold small. destruct (is_fixed c) eqn:E; [now left|right]. pose proof (placed_len h c s r Hp Hr E). lia.
Qed.
Lemma small_short t s : small t s -> short t s.
Proof. intros [H|H]; [now left|right; lia]. Qed.

(** ** Touching everything *)
Fixpoint lforces (ls : list lval) : option (list value) :=
  match ls with
  | [] => Some []
  | l :: ls => match lforce l, lforces ls with Some v, Some vs => Some (v :: vs) | _, _ => None end
  end.
Lemma lforce_array ls : lforce (LArray ls) = match lforces ls with Some vs => Some (VArray vs) | None => None end.
Proof. reflexivity. Qed.
Lemma lforce_tuple ls : lforce (LTuple ls) = match lforces ls with Some vs => Some (VTuple vs) | None => None end.
Proof. reflexivity. Qed.
Definition forced (big : bool) (t : ty) (d : option (list byte)) : option value :=
  if sp_reads t d then Some (sp_decode big t d) else None.
Lemma lforces_map {A} (f : A -> lval) (ok : A -> bool) (g : A -> value) l :
  (forall a, In a l -> lforce (f a) = if ok a then Some (g a) else None) ->
  lforces (map f l) = if forallb ok l then Some (map g l) else None.
Proof.
  induction l as [|a l IH]; intros H; cbn [map lforces forallb]; [reflexivity|].
  rewrite (H a (or_introl eq_refl)), IH by (intros b Hb; apply H; now right).
  destruct (ok a); [|reflexivity]. cbn [andb]. destruct (forallb ok l); reflexivity.
Qed.
Lemma lforce_decode big t : forall d, lforce (ldecode big t d) = forced big t d.
Proof.
  unfold forced. induction t as [t Hns IH|t Hs IH] using ty_struct_ind; intros d.
  - destruct t as [| | | | | | | | | | | | |x|x|ts|k v]; cbn [is_struct] in Hns; try tauto; try reflexivity.
    + specialize (IH x (or_introl eq_refl)). cbn [ldecode sp_reads sp_decode]. rewrite lforce_array.
      set (cs := match sp_size x with Some _ => _ | None => _ end).
      rewrite (lforces_map _ (fun c => sp_whole x c && sp_reads x c) (sp_decode big x)).
      2:{ intros c _. destruct (sp_whole x c); [apply IH|reflexivity]. }
      subst cs. destruct (sp_size x) as [n|] eqn:En.
      * rewrite sp_size_of in En. rewrite (proj2 (forallb_forall _ _)); [reflexivity|].
        intros c _. now rewrite (whole_fixed x n), (sp_reads_fixed x n).
      * destruct (forallb _ _); reflexivity.
    + specialize (IH x (or_intror eq_refl)). cbn [ldecode sp_reads sp_decode]. destruct (sp_size x) as [n|] eqn:En.
      * rewrite sp_size_of in En. destruct (len _ =? n); [|reflexivity]. cbn [lforce]. rewrite IH, (sp_reads_fixed x n) by assumption. reflexivity.
      * destruct (match d with Some b => b | None => [] end) as [|b l]; [reflexivity|]. cbv zeta.
        set (c := Some (removelast (b :: l))). cbn [lforce]. destruct (sp_whole x c); [|reflexivity]. cbn [andb]. rewrite IH.
        destruct (sp_reads x c); reflexivity.
  - rewrite ldecode_norm, sp_decode_norm, (sp_reads_norm t d). set (b := norm t d).
    assert (Hg : size_good t (blen b)).
    { unfold size_good, b. destruct (size_of t) as [n|] eqn:En; [now apply norm_fixed_len|]. destruct t; cbn [is_struct] in Hs; tauto. }
    rewrite ldecode_struct, sp_decode_struct by assumption. rewrite lforce_tuple. unfold ldec_all, dec_all.
    rewrite (lforces_map _ (fun p => sp_reads (fst p) (snd p)) (fun p => sp_decode big (fst p) (snd p))).
    2:{ intros [c e] Hin. cbn [fst snd]. rewrite Forall_forall in IH. apply IH. now apply in_combine_l in Hin. }
    assert (Hreads : sp_reads t (Some b) = reads_all (children_of t) (struct_cuts t b)).
    { destruct (size_of t) as [n|] eqn:En; [|now apply sp_reads_struct].
      rewrite (sp_reads_fixed t n) by assumption. symmetry. apply forallb_forall.
      intros [c e] Hin. apply in_combine_l in Hin. pose proof (fixed_children t n Hs En) as Hfc.
      rewrite Forall_forall in Hfc. specialize (Hfc c Hin). unfold is_fixed in Hfc.
      destruct (size_of c) as [m|] eqn:Em; [|discriminate]. now apply (sp_reads_fixed c m). }
    rewrite Hreads. unfold reads_all. destruct (forallb _ _); reflexivity.
Qed.
Lemma lz_read h t r : ref_good t r -> small t r -> read h t r = lsays (lforce (lz h t r)).
Proof.
  intros Hr Hs. rewrite good_read by assumption. unfold lz. rewrite lforce_decode. unfold outcome, forced.
  destruct (sp_reads t (Some (s_data r))); reflexivity.
Qed.

(** ** Comparing *)
Fixpoint leqs (xs ys : list lval) : option bool :=
  match xs, ys with
  | [], [] => Some true
  | x :: xs, y :: ys => match leq x y with Some true => leqs xs ys | r => r end
  | _, _ => Some false
  end.
Lemma leq_array xs ys : leq (LArray xs) (LArray ys) = if len xs =? len ys then leqs xs ys else Some false.
Proof. reflexivity. Qed.
Lemma leq_tuple xs ys : leq (LTuple xs) (LTuple ys) = leqs xs ys.
Proof. reflexivity. Qed.
Lemma leq_panic a : leq a LPanic = None.
Proof. destruct a as [| | | [|]| ]; reflexivity. Qed.
Definition leq_ok (h : host) (x : ty) (a b : slice) : Prop := gv_eq h x a b = lsays (leq (lz h x a) (lz h x b)).
Lemma eq_all_lazy h x : forall rs qs, (forall r q, In r rs -> In q qs -> leq_ok h x r q) ->
  eq_all (gv_eq h x) rs qs = lsays (leqs (map (lz h x) rs) (map (lz h x) qs)).
Proof.
  induction rs as [|r rs IH]; intros [|q qs] Hg; cbn [eq_all map leqs]; try reflexivity.
  rewrite (Hg r q (or_introl eq_refl) (or_introl eq_refl)). destruct (leq _ _) as [[|]|]; cbn [lsays bind]; try reflexivity.
  apply IH. intros. apply Hg; now right.
Qed.
Lemma nfwa_eq_go_lazy h x a b : aligned (align_of x) a -> aligned (align_of x) b -> macro_ok x = true -> size_of x = None ->
  slen a < 2 ^ 32 -> slen b < 2 ^ 32 -> arr_n (s_data a) = arr_n (s_data b) ->
  (forall i j r q, elem_at h x a i = Ok r -> elem_at h x b j = Ok q -> leq_ok h x r q) ->
  forall k i fuel, i + N.of_nat k = arr_n (s_data a) -> (k < fuel)%nat ->
  nfwa_eq_go h x (gv_eq h x) fuel (iter_at a i) (iter_at b i) =
  lsays (leqs (map (fun i => lelem h x (elem_at h x a i)) (indices i k)) (map (fun i => lelem h x (elem_at h x b i)) (indices i k))).
Proof.
  intros Ha Hb Hm En Hla Hlb Hn Hg. induction k as [|k IH]; intros i fuel Hi Hf; (destruct fuel as [|fuel]; [lia|]); cbn [nfwa_eq_go].
  - replace i with (arr_n (s_data a)) by lia. rewrite nfwa_next_end. reflexivity.
  - rewrite indices_S. cbn [map leqs].
    rewrite nfwa_next_ok by (auto; unfold usize_lim; lia). rewrite (nfwa_next_ok h x b) by (auto; unfold usize_lim; lia).
    pose proof (proj2 (lz_elem h x a i Hm Ha En Hla)) as Ca. pose proof (proj2 (lz_elem h x b i Hm Hb En Hlb)) as Cb.
    destruct (elem_at h x a i) as [r|] eqn:Ea; cbn [bind fst snd lelem]; [|rewrite Ca; reflexivity].
    destruct (elem_at h x b i) as [q|] eqn:Eb; cbn [bind fst snd lelem]; [|rewrite Cb, leq_panic; reflexivity].
    rewrite (Hg i i r q Ea Eb). destruct (leq _ _) as [[|]|]; cbn [lsays bind]; try reflexivity. apply IH; lia.
Qed.
Lemma struct_eq_lazy h t : is_struct t -> forall ra rb, length ra = length (children_of t) -> length rb = length (children_of t) ->
  Forall (fun p => leq_ok h (fst p) (fst (snd p)) (snd (snd p))) (combine (children_of t) (combine ra rb)) ->
  forall a b, to_tuple h t a = Ok ra -> to_tuple h t b = Ok rb ->
  gv_eq h t a b = lsays (leqs (map (fun p => lz h (fst p) (snd p)) (combine (children_of t) ra))
                              (map (fun p => lz h (fst p) (snd p)) (combine (children_of t) rb))).
Proof.
  intros Hs ra rb Hla Hlb HF a b Ta Tb.
  destruct t as [| | | | | | | | | | | | |x|x|ts|k v]; cbn [is_struct] in Hs; try tauto; cbn [gv_eq children_of] in *;
    rewrite Ta, Tb; cbn [bind].
  - clear Ta Tb Hs a b. revert ra rb Hla Hlb HF.
    induction ts as [|t ts IH]; intros [|x ra] [|y rb] Hla Hlb HF; cbn [length] in *; try lia; cbn [combine map fst snd leqs] in *; [reflexivity|].
    inversion HF as [|? ? H1 H2]; subst. cbn [fst snd] in *. rewrite H1. destruct (leq _ _) as [[|]|]; cbn [lsays bind]; try reflexivity.
    apply IH; auto; lia.
  - destruct ra as [|r1 [|r2 [|r3 ra]]]; cbn [length] in Hla; try lia.
    destruct rb as [|q1 [|q2 [|q3 rb]]]; cbn [length] in Hlb; try lia. cbn [combine map fst snd leqs] in *.
    inversion HF as [|p l G1 G2]; subst. inversion G2 as [|p' l' G3 G4]; subst. cbn [fst snd] in *. rewrite G1.
    destruct (leq _ _) as [[|]|]; cbn [lsays bind]; try reflexivity. rewrite G3. destruct (leq _ _) as [[|]|]; reflexivity.
Qed.
Lemma eq_leaf h t a b : readable t -> ref_ok t a -> ref_ok t b -> small t a -> small t b ->
  match t with TA _ | TM _ | TTuple _ | TDict _ _ => False | _ => True end -> leq_ok h t a b.
Proof.
  intros Hrd Ha Hb Hsa Hsb Ht. pose proof Hrd as [Hm Hl].
  assert (Ea : read h t a = Ok (sp_decode (h_big_endian h) t (Some (s_data a)))).
  { rewrite read_exact by assumption. unfold outcome. destruct t; try contradiction; reflexivity. }
  assert (Eb : read h t b = Ok (sp_decode (h_big_endian h) t (Some (s_data b)))).
  { rewrite read_exact by assumption. unfold outcome. destruct t; try contradiction; reflexivity. }
  unfold leq_ok. rewrite (eq_exact h t Hrd a b Ha Hb (small_short _ _ Hsa) (small_short _ _ Hsb) _ _ Ea Eb).
  unfold lz. destruct t; try contradiction; reflexivity.
Qed.
Lemma leq_maybe_mixed x y : leq (LMaybe x) (LMaybe y) =
  match x, y with
  | Some a, Some b => leq a b
  | None, None => Some true
  | _, _ => if lpanics x || lpanics y then None else Some false
  end.
Proof. destruct x, y; reflexivity. Qed.
Lemma lz_calm h x r : lpanics (Some (lz h x r)) = false.
Proof. unfold lz. pose proof (ldecode_calm (h_big_endian h) x (Some (s_data r))). cbn [lpanics]. destruct (ldecode _ _ _); congruence. Qed.
Lemma eq_lazy h t : readable t -> forall a b, ref_ok t a -> ref_ok t b -> small t a -> small t b -> leq_ok h t a b.
Proof.
  induction t as [t Hns IH|t Hs IH] using ty_struct_ind; intros Hrd a b Hra Hrb Hsa Hsb.
  - destruct t as [| | | | | | | | | | | | |x|x|ts|k v]; cbn [is_struct] in Hns; try tauto; try (now apply eq_leaf).
    + (* array *) pose proof (readable_part _ x (or_introl eq_refl) Hrd) as Hx. pose proof Hx as [Hm _].
      destruct Hsa as [Hf|Hla]; [discriminate|]. destruct Hsb as [Hf|Hlb]; [discriminate|].
      pose proof Hra as [Haa _]. pose proof Hrb as [Hab _]. change (align_of (TA x)) with (align_of x) in Haa, Hab.
      assert (Hgood : forall r q, ref_ok x r -> ref_ok x q -> placed h x a r -> placed h x b q -> leq_ok h x r q).
      { intros r q R1 R2 P1 P2. apply IH; auto; eapply part_small; eauto. }
      unfold leq_ok. cbn [gv_eq]. destruct (size_of x) as [n|] eqn:En.
      * rewrite (mem_layout_ok x n) by assumption. rewrite !(lz_slice h x n) by assumption. rewrite leq_array.
        destruct (slice_elems_ok x n a En Hra) as [_ Fa]. destruct (slice_elems_ok x n b En Hrb) as [_ Fb].
        rewrite Forall_forall in Fa, Fb. unfold len. rewrite !map_length.
        assert (Hlen : forall s, N.of_nat (length (slice_elems n s)) = slen s / n)
          by (intros s; unfold slice_elems; rewrite map_length, seq_length; apply N2Nat.id).
        rewrite !Hlen. destruct (slen a / n =? slen b / n); [|reflexivity].
        apply eq_all_lazy. intros r q Hr Hq. destruct (Fa r Hr), (Fb q Hq). apply Hgood; auto; now left.
      * rewrite !lz_array by assumption. rewrite leq_array. unfold nfwa_eq. rewrite !nfwa_len_ok by (unfold usize_lim; lia). cbn [bind].
        assert (Hlen : forall s, len (map (fun i => lelem h x (elem_at h x s i)) (indices 0 (N.to_nat (arr_n (s_data s))))) = arr_n (s_data s))
          by (intros s; unfold len, indices; rewrite !map_length, seq_length; apply N2Nat.id).
        rewrite !Hlen. destruct (arr_n (s_data a) =? arr_n (s_data b)) eqn:El; [|reflexivity]. apply N.eqb_eq in El.
        rewrite !nfwa_into_iter_ok by (auto; unfold usize_lim; lia). cbn [bind]. rewrite <- El.
        apply nfwa_eq_go_lazy; auto; try lia.
        -- intros i j r q Er Eq. pose proof (elem_at_safe h x a i Hm Haa En) as Sa. pose proof (elem_at_safe h x b j Hm Hab En) as Sb.
           rewrite Er in Sa. rewrite Eq in Sb. destruct Sa, Sb. now apply Hgood.
        -- pose proof (arr_n_le (s_data a)) as H. unfold blen in H. lia.
    + (* maybe *) pose proof (readable_part _ x (or_intror eq_refl) Hrd) as Hx. pose proof Hx as [Hm _].
      pose proof (access_safe h (TM x) a AcOption Hrd Hra (small_short _ _ Hsa) I) as Aa.
      pose proof (access_safe h (TM x) b AcOption Hrd Hrb (small_short _ _ Hsb) I) as Ab. cbn [run_access] in Aa, Ab.
      destruct Hsa as [Hf|Hla]; [discriminate|]. destruct Hsb as [Hf|Hlb]; [discriminate|].
      pose proof Hra as [Haa _]. pose proof Hrb as [Hab _]. change (align_of (TM x)) with (align_of x) in Haa, Hab.
      destruct (lz_maybe h x a Hm Haa) as [La Ca]. destruct (lz_maybe h x b Hm Hab) as [Lb Cb].
      unfold leq_ok. rewrite La, Lb, leq_maybe_mixed. cbn [gv_eq]. clear La Lb.
      destruct (to_option h x a) as [[r|]|]; cbn [bind lmaybe]; [| |subst; destruct (to_option h x b) as [[q|]|]; reflexivity];
        (destruct (to_option h x b) as [[q|]|]; cbn [bind lmaybe]; [| |subst; rewrite ?leq_panic; cbn [lpanics]; rewrite ?orb_true_r; reflexivity]);
        try (rewrite !lz_calm); try reflexivity.
      destruct Aa as (_ & A1 & A2 & _). destruct Ab as (_ & B1 & B2 & _). apply IH; auto; eapply part_small; eauto.
  - destruct (to_tuple_short h t a Hs Hrd Hra (small_short _ _ Hsa)) as [(ra & Ta & Fa)|(Ta & _)];
      destruct (lz_tuple h t a Hs Hrd Hra Hsa) as (ra' & Ta' & La & Za); [|congruence].
    destruct (to_tuple_short h t b Hs Hrd Hrb (small_short _ _ Hsb)) as [(rb & Tb & Fb)|(Tb & _)];
      destruct (lz_tuple h t b Hs Hrd Hrb Hsb) as (rb' & Tb' & Lb & Zb); [|congruence].
    rewrite Ta in Ta'. rewrite Tb in Tb'. injection Ta' as <-. injection Tb' as <-.
    unfold leq_ok. rewrite Za, Zb, leq_tuple. apply (struct_eq_lazy h t Hs ra rb La Lb) with (a := a) (b := b); auto.
    apply Forall_forall. intros [c [r q]] Hin. cbn [fst snd].
    apply In_nth_error in Hin as [k Hk]. rewrite !AccessFacts.nth_error_combine in Hk.
    destruct (nth_error (children_of t) k) as [c'|] eqn:K1; [|discriminate].
    destruct (nth_error ra k) as [r'|] eqn:K2; [|discriminate].
    destruct (nth_error rb k) as [q'|] eqn:K3; [|discriminate]. injection Hk as -> -> ->.
    pose proof (Forall2_nth _ _ _ Fa k c r K1 K2) as [A1 A2].
    pose proof (Forall2_nth _ _ _ Fb k c q K1 K3) as [B1 B2].
    assert (Hc : In c (children_of t)) by (eapply nth_error_In; eauto).
    rewrite Forall_forall in IH. apply IH; auto.
    + exact (readable_child t c Hs Hrd Hc).
    + exact (child_small h t a c r Hs Hc Hsa A2 A1).
    + exact (child_small h t b c q Hs Hc Hsb B2 B1).
Qed.

(** ** Comparing with native values *)
Definition native_lazy (h : host) (t : ty) (m : native) (l : lval) : Prop :=
  readable t -> forall r, ref_ok t r -> small t r -> eq_native h t r m = lsays (leq (lz h t r) l).
Lemma native_leaf h t m w : native_value h t m w ->
  match t with TA _ | TM _ | TTuple _ | TDict _ _ => False | _ => True end -> native_lazy h t m (LLeaf w).
Proof.
  intros Hn Ht Hrd r Hr Hs. pose proof Hrd as [Hm Hl].
  assert (Er : read h t r = Ok (sp_decode (h_big_endian h) t (Some (s_data r)))).
  { rewrite read_exact by assumption. unfold outcome. destruct t; try contradiction; reflexivity. }
  rewrite (proj1 (native_all h) t m w Hn Hrd r _ Hr (small_short _ _ Hs) Er). unfold lz. destruct t; try contradiction; reflexivity.
Qed.
Lemma slice_eq_seq_lazy h x : forall rs l ws, Forall2 (native_lazy h x) l ws -> readable x ->
  Forall (fun r => ref_ok x r /\ small x r) rs -> length rs = length l ->
  slice_eq_seq (map (fun m r => eq_native h x r m) l) rs = lsays (leqs (map (lz h x) rs) ws).
Proof.
  induction rs as [|r rs IH]; intros [|n l] ws HF Hx Hr Hl; cbn [length] in Hl; try lia;
    inversion HF as [|? w ? ws' Hn HF']; subst; cbn [map slice_eq_seq leqs] in *; [reflexivity|].
  inversion Hr as [|? ? [H1 H2] Hr']; subst. rewrite (Hn Hx r H1 H2). destruct (leq _ _) as [[|]|]; cbn [lsays bind]; try reflexivity.
  apply IH; auto.
Qed.
Lemma nfwa_eq_seq_lazy h x a : aligned (align_of x) a -> slen a < 2 ^ 32 -> macro_ok x = true -> size_of x = None -> readable x ->
  forall l i ws, i + N.of_nat (length l) = arr_n (s_data a) -> Forall2 (native_lazy h x) l ws ->
  nfwa_eq_seq h x (map (fun m r => eq_native h x r m) l) (iter_at a i) =
  lsays (leqs (map (fun i => lelem h x (elem_at h x a i)) (indices i (length l))) ws).
Proof.
  intros Ha Hla Hm En Hx. induction l as [|n l IH]; intros i ws Hi HF; inversion HF as [|? w ? ws' Hn HF']; subst; cbn [length] in *.
  - cbn [map nfwa_eq_seq]. replace i with (arr_n (s_data a)) by lia. rewrite nfwa_next_end. reflexivity.
  - rewrite indices_S. cbn [map nfwa_eq_seq leqs]. rewrite nfwa_next_ok by (auto; unfold usize_lim; lia).
    pose proof (elem_at_safe h x a i Hm Ha En) as HS. pose proof (proj2 (lz_elem h x a i Hm Ha En Hla)) as Ca.
    destruct (elem_at h x a i) as [r|]; cbn [bind fst snd lelem]; [|rewrite Ca; reflexivity].
    destruct HS as [H1 H2]. rewrite (Hn Hx r H1 (part_small h a x r H2 H1 Hla)).
    destruct (leq _ _) as [[|]|]; cbn [lsays bind]; try reflexivity. apply IH; auto. lia.
Qed.
Lemma native_seq h x l ws : Forall2 (native_lazy h x) l ws -> native_lazy h (TA x) (NSeq l) (LArray ws).
Proof.
  intros HF Hrd r Hr Hs. pose proof (readable_part _ x (or_introl eq_refl) Hrd) as Hx. pose proof Hx as [Hm _].
  destruct Hs as [Hf|Hl]; [discriminate|]. pose proof Hr as [Ha _]. change (align_of (TA x)) with (align_of x) in Ha.
  pose proof (Forall2_length _ _ _ HF) as Hlw. cbn [eq_native]. destruct (size_of x) as [n|] eqn:En.
  - rewrite (mem_layout_ok x n) by assumption. rewrite (lz_slice h x n) by assumption. rewrite leq_array.
    assert (Hn : length (slice_elems n r) = N.to_nat (slen r / n)) by (unfold slice_elems; now rewrite map_length, seq_length).
    unfold len. rewrite map_length, Hn, N2Nat.id, <- Hlw. destruct (slen r / n =? N.of_nat (length l)) eqn:El; [|reflexivity]. apply N.eqb_eq in El.
    destruct (slice_elems_ok x n r En Hr) as [_ Fa]. rewrite Forall_forall in Fa. apply slice_eq_seq_lazy; auto; [|lia].
    apply Forall_forall. intros q Hq. destruct (Fa q Hq) as [H1 H2]. split; [exact H1|]. left. unfold is_fixed. now rewrite En.
  - rewrite lz_array by assumption. rewrite leq_array. rewrite nfwa_len_ok by (unfold usize_lim; lia). cbn [bind].
    unfold len. rewrite map_length. unfold indices at 1. rewrite map_length, seq_length, N2Nat.id, <- Hlw.
    destruct (arr_n (s_data r) =? N.of_nat (length l)) eqn:El; [|reflexivity]. apply N.eqb_eq in El.
    rewrite nfwa_into_iter_ok by (auto; unfold usize_lim; lia). cbn [bind]. rewrite (nfwa_eq_seq_lazy h x r Ha Hl Hm En Hx l 0 ws) by (auto; lia).
    now rewrite El, Nat2N.id.
Qed.
Lemma native_option h x o : is_fixed x = true -> (forall q, o = Some q -> ref_ok x q) ->
  native_lazy h (TM x) (NOption o) (LMaybe (match o with Some q => Some (lz h x q) | None => None end)).
Proof.
  intros Hf Ho Hrd r Hr Hs. pose proof (readable_part _ x (or_intror eq_refl) Hrd) as Hx. pose proof Hx as [Hm _].
  pose proof Hr as [Ha _]. change (align_of (TM x)) with (align_of x) in Ha.
  assert (En : exists n, size_of x = Some n) by (unfold is_fixed in Hf; destruct (size_of x); [eauto|discriminate]). destruct En as [n En].
  pose proof (access_safe h (TM x) r AcOption Hrd Hr (small_short _ _ Hs) I) as HA. cbn [run_access] in HA.
  cbn [eq_native]. rewrite En. destruct (lz_maybe h x r Hm Ha) as [-> Ca]. rewrite leq_maybe_mixed.
  destruct (to_option h x r) as [[p|]|]; cbn [bind lmaybe]; [| |subst; destruct o as [q|]; reflexivity];
    (destruct o as [q|]; [|rewrite ?lz_calm; reflexivity]).
  - destruct HA as (_ & A1 & _). apply eq_lazy; auto; left; exact Hf.
  - rewrite lz_calm. reflexivity.
Qed.

(** ** Parts *)
Lemma lz_neq h x r : lz h x r <> LPanic.
Proof. apply ldecode_calm. Qed.
Lemma ltouch_lz h x r : ltouch x (lz h x r) = Ok (Some (x, lz h x r)).
Proof. pose proof (lz_neq h x r). unfold ltouch. destruct (lz h x r); congruence. Qed.
Lemma lnth_cons x l ls k : l <> LPanic -> lnth x (l :: ls) k = match k with O => Ok (Some (x, l)) | S k => lnth x ls k end.
Proof. intros H. destruct l, k; try congruence; reflexivity. Qed.
Definition lz_access (h : host) (m : res (option (ty * lval))) (n : res (option (ty * slice))) : Prop :=
  match m with
  | Ok (Some (x, w)) => exists q, n = Ok (Some (x, q)) /\ lz h x q = w
  | Ok None => n = Ok None
  | Crash c => n = Crash c
  end.
Lemma touch_some h x (m : res slice) : match m with Crash c => c = PUnwrap | _ => True end ->
  lz_access h (ltouch x (lelem h x m)) (let* r := m in Ok (Some (x, r))).
Proof.
  destruct m as [r|c]; cbn [lelem bind]; [|intros ->; reflexivity]. intros _. rewrite ltouch_lz. exists r. auto.
Qed.
Lemma nth_lazy h x s : macro_ok x = true -> aligned (align_of x) s -> size_of x = None -> slen s < 2 ^ 32 ->
  forall k i m, i + N.of_nat m = arr_n (s_data s) ->
  lz_access h (lnth x (map (fun i => lelem h x (elem_at h x s i)) (indices i m)) k)
    (let* o := nfwa_nth h x (iter_at s i) k in Ok (match o with Some r => Some (x, r) | None => None end)).
Proof.
  intros Hm Ha En Hl. induction k as [|k IH]; intros i m Hi; cbn [nfwa_nth];
    (destruct m as [|m]; [replace i with (arr_n (s_data s)) by lia; rewrite nfwa_next_end; cbn [bind fst snd]|
      rewrite indices_S; cbn [map]; rewrite nfwa_next_ok by (auto; unfold usize_lim; lia);
      pose proof (proj2 (lz_elem h x s i Hm Ha En Hl)) as Ca; destruct (elem_at h x s i) as [r|]; cbn [bind fst snd lelem];
      [rewrite lnth_cons by apply lz_neq|subst; reflexivity]]).
  - reflexivity.
  - exists r. auto.
  - specialize (IH (arr_n (s_data s)) 0%nat ltac:(lia)). exact IH.
  - apply IH. lia.
Qed.
Lemma map_slice_nth h x n s i : nth_error (map (lz h x) (slice_elems n s)) (N.to_nat i) =
  match fixed_elem n s i with Some r => Some (lz h x r) | None => None end.
Proof.
  rewrite nth_error_map. unfold slice_elems, fixed_elem. rewrite nth_error_map. destruct (i <? slen s / n) eqn:Ei.
  - rewrite (nth_error_nth' _ 0%nat), seq_nth by (rewrite ?seq_length; lia). cbn [option_map]. replace (N.of_nat (0 + N.to_nat i)) with i by lia. reflexivity.
  - rewrite (proj2 (nth_error_None _ _)) by (rewrite seq_length; lia). reflexivity.
Qed.
Lemma lnth_calm x ls : Forall (fun l => l <> LPanic) ls -> forall k,
  lnth x ls k = Ok (match nth_error ls k with Some l => Some (x, l) | None => None end).
Proof.
  induction 1 as [|l ls Hl H IH]; intros k; [destruct k; reflexivity|]. rewrite lnth_cons by assumption. destruct k; [reflexivity|apply IH].
Qed.
Lemma map_indices_nth {A} (f : N -> A) m i : nth_error (map f (indices 0 m)) i = if (i <? m)%nat then Some (f (N.of_nat i)) else None.
Proof. rewrite nth_error_map, indices_nth, N.add_0_l. destruct (i <? m)%nat; reflexivity. Qed.
Lemma access_lazy h t r a : ref_good t r -> small t r -> access_wf a ->
  match a with AcIndex k => k < 2 ^ 60 | _ => True end ->
  lz_access h (laccess (h_big_endian h) t (lz h t r) a) (run_access h t r a).
Proof.
  intros Hr Hs Hw Hi. pose proof Hr as (Hu & Ha & _).
  pose proof (proj1 (ref_good_iff t r) Hr) as (Hrd & Hro & Hsh).
  assert (Hnone : forall l, (forall q, laccess (h_big_endian h) t l a <> Ok (Some q)) -> True) by auto. clear Hnone.
  destruct t as [| | | | | | | | | | | | |x|x|ts|k w]; try reflexivity.
  - (* variants *)
    assert (Hl : slen r < 2 ^ 32) by (destruct Hs as [Hs|Hs]; [discriminate|exact Hs]). change (sp_align TV) with 8 in Ha.
    destruct (variant_split_ok h r Ha) as (vts & vdat & Es & _ & Ev & _).
    assert (Hz : lz h TV r = LLeaf (VVariant (s_data vts) (s_data vdat))) by (unfold lz; cbn [ldecode sp_decode]; now rewrite Ev).
    rewrite Hz.
    destruct a as [| | | | | |x|x]; try reflexivity; destruct Hw as [Hm Hsh']; assert (Hux : usable x) by (split; assumption).
    + destruct (get_claim h x r Hux Ha) as (ts & dat & o & Es' & Eo & H1 & H2). rewrite Es in Es'. injection Es' as <- <-.
      cbn [run_access laccess]. rewrite Eo. cbn [bind]. rewrite sp_beq_eqb. destruct (bytes_eqb (s_data vts) (sp_show x)) eqn:Eb.
      * apply bytes_eqb_eq in Eb. destruct (H2 Eb) as (q & -> & Eq). exists q. split; [reflexivity|].
        destruct (split_claim h r Ha) as (ts' & dat' & Es' & Had & _ & Hd). rewrite Es in Es'. injection Es' as <- <-.
        assert (Had' : aligned (align_of x) vdat) by now apply aligned_8.
        destruct (cast_ok h x vdat Hm Had') as (q' & Eq' & _ & Hdq & _). rewrite Eq in Eq'. injection Eq' as <-.
        unfold lz. rewrite Hdq. symmetry. apply (ldecode_norm _ x (Some (s_data vdat))).
      * apply bytes_eqb_neq in Eb. rewrite (H1 Eb). reflexivity.
    + destruct (split_claim h r Ha) as (ts' & dat' & Es' & Had & _ & Hd). rewrite Es in Es'. injection Es' as <- <-.
      cbn [run_access laccess]. rewrite Es. cbn [bind fst snd]. rewrite as_aligned_8. cbn [bind].
      assert (Had' : aligned (align_of x) vdat) by now apply aligned_8.
      destruct (cast_ok h x vdat Hm Had') as (q & Eq & _ & Hdq & _). rewrite Eq. cbn [bind]. exists q. split; [reflexivity|].
      unfold lz. rewrite Hdq. symmetry. apply (ldecode_norm _ x (Some (s_data vdat))).
  - (* arrays *)
    assert (Hl : slen r < 2 ^ 32) by (destruct Hs as [Hs|Hs]; [discriminate|exact Hs]).
    change (sp_align (TA x)) with (sp_align x) in Ha. rewrite sp_align_of in Ha. pose proof (usable_item x Hu) as [Hm _].
    destruct (size_of x) as [n|] eqn:En.
    + rewrite (lz_slice h x n) by assumption.
      assert (Hall : Forall (fun l => l <> LPanic) (map (lz h x) (slice_elems n r))).
      { apply Forall_forall. intros l Hin. apply in_map_iff in Hin as (q & <- & _). apply lz_neq. }
      assert (Hnth : forall i, lz_access h (Ok (match nth_error (map (lz h x) (slice_elems n r)) (N.to_nat i) with Some l => Some (x, l) | None => None end))
                (Ok (match fixed_elem n r i with Some q => Some (x, q) | None => None end))).
      { intros i. rewrite map_slice_nth. destruct (fixed_elem n r i) as [q|]; [exists q; auto|reflexivity]. }
      assert (Hopt : forall i, lopt x (nth_error (map (lz h x) (slice_elems n r)) i) = Ok (match nth_error (map (lz h x) (slice_elems n r)) i with Some l => Some (x, l) | None => None end)).
      { intros i. destruct (nth_error _ i) as [l|] eqn:El; [|reflexivity]. apply nth_error_In in El. rewrite Forall_forall in Hall. specialize (Hall _ El).
        cbn [lopt]. unfold ltouch. destruct l; congruence. }
      destruct a as [i|k| | | | | |]; cbn [run_access laccess]; rewrite ?En; try reflexivity.
      * rewrite map_slice_nth. destruct (fixed_elem n r i) as [q|]; [rewrite ltouch_lz; exists q; auto|reflexivity].
      * rewrite lnth_calm by exact Hall. specialize (Hnth (N.of_nat k)). now rewrite Nat2N.id in Hnth.
      * rewrite hd_nth, Hopt. apply (Hnth 0).
      * rewrite rev_last. assert (Hlen : length (map (lz h x) (slice_elems n r)) = N.to_nat (slen r / n))
          by (unfold slice_elems; now rewrite !map_length, seq_length).
        specialize (Hnth (slen r / n - 1)). specialize (Hopt (length (map (lz h x) (slice_elems n r)) - 1)%nat).
        replace (N.to_nat (slen r / n - 1)) with (length (map (lz h x) (slice_elems n r)) - 1)%nat in Hnth by lia.
        destruct (map (lz h x) (slice_elems n r)) as [|l0 ls'].
        -- replace (slen r / n =? 0) with true by (cbn [length] in Hlen; lia). reflexivity.
        -- rewrite Hopt. replace (slen r / n =? 0) with false by (cbn [length] in Hlen; lia). exact Hnth.
    + rewrite lz_array by assumption. assert (Hl' : slen r < usize_lim) by (unfold usize_lim; lia).
      pose proof (fun i => proj2 (lz_elem h x r i Hm Ha En Hl)) as Hc.
      destruct a as [i|k| | | | | |]; cbn [run_access laccess]; rewrite ?En; try reflexivity.
      * rewrite map_indices_nth. destruct (N.to_nat i <? N.to_nat (arr_n (s_data r)))%nat eqn:Ei.
        -- rewrite N2Nat.id, nfwa_index_ok by (auto; lia). apply touch_some, Hc.
        -- rewrite index_beyond by (auto; lia). reflexivity.
      * rewrite nfwa_into_iter_ok by assumption. cbn [bind]. apply nth_lazy; auto. lia.
      * rewrite hd_nth, map_indices_nth. unfold nfwa_first, nfwa_is_empty. rewrite nfwa_len_ok by assumption. cbn [bind].
        destruct (0 <? N.to_nat (arr_n (s_data r)))%nat eqn:Ei.
        -- replace (arr_n (s_data r) =? 0) with false by lia. rewrite nfwa_index_ok by (auto; lia).
           cbn [lopt]. change (N.of_nat 0) with 0. pose proof (touch_some h x (elem_at h x r 0) (Hc 0)) as HT.
           destruct (elem_at h x r 0); exact HT.
        -- replace (arr_n (s_data r) =? 0) with true by lia. reflexivity.
      * rewrite rev_last. unfold nfwa_last, nfwa_is_empty. rewrite nfwa_len_ok by assumption. cbn [bind].
        destruct (map _ (indices 0 (N.to_nat (arr_n (s_data r))))) as [|l0 ls'] eqn:El.
        -- apply map_eq_nil in El. unfold indices in El. apply map_eq_nil in El. apply (f_equal (@length nat)) in El. rewrite seq_length in El. cbn [length] in El.
           replace (arr_n (s_data r) =? 0) with true by lia. reflexivity.
        -- pose proof (f_equal (@length lval) El) as Hlen. unfold indices in Hlen. rewrite !map_length, seq_length in Hlen. cbn [length] in Hlen.
           rewrite <- El. rewrite map_length. unfold indices at 2. rewrite map_length, seq_length, map_indices_nth.
           replace (N.to_nat (arr_n (s_data r)) - 1 <? N.to_nat (arr_n (s_data r)))%nat with true by lia.
           replace (N.of_nat (N.to_nat (arr_n (s_data r)) - 1)) with (arr_n (s_data r) - 1) by lia.
           replace (arr_n (s_data r) =? 0) with false by lia. rewrite usub_ok by lia. cbn [bind]. rewrite nfwa_index_ok by (auto; lia).
           cbn [lopt]. pose proof (touch_some h x (elem_at h x r (arr_n (s_data r) - 1)) (Hc _)) as HT.
           destruct (elem_at h x r _); exact HT.
  - (* maybes *)
    change (sp_align (TM x)) with (sp_align x) in Ha. rewrite sp_align_of in Ha. pose proof (usable_item x Hu) as [Hm _].
    destruct (lz_maybe h x r Hm Ha) as [-> Hc]. destruct a; try reflexivity. cbn [run_access laccess].
    destruct (to_option h x r) as [[q|]|]; cbn [bind lmaybe lopt]; [|reflexivity|subst; reflexivity]. rewrite ltouch_lz. exists q. auto.
  - (* structures *)
    set (t := TTuple ts) in *. assert (Hst : is_struct t) by exact I.
    destruct (lz_tuple h t r Hst Hrd Hro Hs) as (rs & Er & Hlen & ->). destruct a; try reflexivity.
    cbn [run_access laccess t]. fold t. rewrite Er. cbn [bind]. change (sp_components t) with (children_of t).
    destruct (nth_error (children_of t) k) as [c|] eqn:Ec; [|reflexivity]. rewrite nth_error_map, AccessFacts.nth_error_combine, Ec.
    destruct (nth_error rs k) as [q|] eqn:Eq; cbn [option_map lopt fst snd]; [rewrite ltouch_lz; exists q; auto|reflexivity].
  - set (t := TDict k w) in *. assert (Hst : is_struct t) by exact I.
    destruct (lz_tuple h t r Hst Hrd Hro Hs) as (rs & Er & Hlen & ->). destruct a as [| | | | |j| |]; try reflexivity.
    cbn [run_access laccess t]. fold t. rewrite Er. cbn [bind]. change (sp_components t) with (children_of t).
    destruct (nth_error (children_of t) j) as [c|] eqn:Ec; [|reflexivity]. rewrite nth_error_map, AccessFacts.nth_error_combine, Ec.
    destruct (nth_error rs j) as [q|] eqn:Eq; cbn [option_map lopt fst snd]; [rewrite ltouch_lz; exists q; auto|reflexivity].
Qed.

(** ** Comparing what can be touched *)
Fixpoint lval_ind' (P : lval -> Prop) (Hp : P LPanic) (Hv : forall v, P (LLeaf v)) (Ha : forall ls, Forall P ls -> P (LArray ls))
  (Hn : P (LMaybe None)) (Hs : forall l, P l -> P (LMaybe (Some l))) (Ht : forall ls, Forall P ls -> P (LTuple ls)) (l : lval) : P l :=
  let all := fix all ls : Forall P ls := match ls with [] => Forall_nil _ | l :: ls => Forall_cons l (lval_ind' P Hp Hv Ha Hn Hs Ht l) (all ls) end in
  match l with
  | LPanic => Hp
  | LLeaf v => Hv v
  | LArray ls => Ha ls (all ls)
  | LMaybe None => Hn
  | LMaybe (Some l) => Hs l (lval_ind' P Hp Hv Ha Hn Hs Ht l)
  | LTuple ls => Ht ls (all ls)
  end.
Inductive shaped : lval -> Prop :=
| shaped_leaf v : match v with VArray _ | VMaybe _ | VTuple _ => False | _ => True end -> shaped (LLeaf v)
| shaped_panic : shaped LPanic
| shaped_array ls : Forall shaped ls -> shaped (LArray ls)
| shaped_none : shaped (LMaybe None)
| shaped_some l : shaped l -> shaped (LMaybe (Some l))
| shaped_tuple ls : Forall shaped ls -> shaped (LTuple ls).
Fixpoint veqs (xs ys : list value) : bool :=
  match xs, ys with [], [] => true | x :: xs, y :: ys => sp_veq x y && veqs xs ys | _, _ => false end.
Lemma lforces_len ls : forall vs, lforces ls = Some vs -> length vs = length ls.
Proof.
  induction ls as [|l ls IH]; intros vs E; cbn [lforces] in E; [injection E as <-; reflexivity|].
  destruct (lforce l); [|discriminate]. destruct (lforces ls); [|discriminate]. injection E as <-. cbn [length]. f_equal. now apply IH.
Qed.
Lemma veqs_len xs : forall ys, length xs <> length ys -> veqs xs ys = false.
Proof.
  induction xs as [|x xs IH]; intros [|y ys] H; cbn [length veqs] in *; try reflexivity; try lia. rewrite IH by lia. apply andb_false_r.
Qed.
Lemma leqs_forced ls : Forall (fun a => forall b v w, shaped b -> lforce a = Some v -> lforce b = Some w -> leq a b = Some (sp_veq v w)) ls ->
  forall ms vs ws, Forall shaped ms -> lforces ls = Some vs -> lforces ms = Some ws -> leqs ls ms = Some (veqs vs ws).
Proof.
  induction 1 as [|a ls Ha _ IH]; intros [|b ms] vs ws Hm Ev Ew; cbn [lforces leqs] in *.
  - injection Ev as <-. injection Ew as <-. reflexivity.
  - injection Ev as <-. destruct (lforce b); [|discriminate]. destruct (lforces ms); [|discriminate]. injection Ew as <-. reflexivity.
  - injection Ew as <-. destruct (lforce a); [|discriminate]. destruct (lforces ls); [|discriminate]. injection Ev as <-. reflexivity.
  - destruct (lforce a) as [v|] eqn:Ea; [|discriminate]. destruct (lforces ls) as [vs'|]; [|discriminate]. injection Ev as <-.
    destruct (lforce b) as [w|] eqn:Eb; [|discriminate]. destruct (lforces ms) as [ws'|] eqn:Em; [|discriminate]. injection Ew as <-.
    inversion Hm; subst. rewrite (Ha b v w) by auto. cbn [veqs]. destruct (sp_veq v w); [|reflexivity]. cbn [andb]. now apply IH.
Qed.
Lemma leq_forced a : shaped a -> forall b v w, shaped b -> lforce a = Some v -> lforce b = Some w -> leq a b = Some (sp_veq v w).
Proof.
  induction a as [|v0|ls IH| |l IH|ls IH] using lval_ind'; intros Sa b v w Sb Ea Eb; inversion Sa as [? Hv| |? HF| |? Hl|? HF]; subst; try discriminate.
  - cbn [lforce] in Ea. injection Ea as <-. inversion Sb; subst; try discriminate.
    + cbn [lforce] in Eb. injection Eb as <-. reflexivity.
    + rewrite lforce_array in Eb. destruct (lforces ls); [|discriminate]. injection Eb as <-. destruct v0; try contradiction; reflexivity.
    + cbn [lforce] in Eb. injection Eb as <-. destruct v0; try contradiction; reflexivity.
    + cbn [lforce] in Eb. destruct (lforce l); [|discriminate]. injection Eb as <-. destruct v0; try contradiction; reflexivity.
    + rewrite lforce_tuple in Eb. destruct (lforces ls); [|discriminate]. injection Eb as <-. destruct v0; try contradiction; reflexivity.
  - rewrite lforce_array in Ea. destruct (lforces ls) as [vs|] eqn:Es; [|discriminate]. injection Ea as <-. inversion Sb as [w0 Hw| |ms HM| |m Hmm|ms HM]; subst; try discriminate.
    + cbn [lforce] in Eb. injection Eb as <-. destruct w0; try contradiction; reflexivity.
    + rewrite lforce_array in Eb. destruct (lforces ms) as [ws|] eqn:Em; [|discriminate]. injection Eb as <-. rewrite leq_array.
      change (sp_veq (VArray vs) (VArray ws)) with (veqs vs ws). destruct (len ls =? len ms) eqn:El.
      * apply leqs_forced; auto. rewrite Forall_forall in *. auto.
      * rewrite veqs_len; [reflexivity|]. rewrite (lforces_len ls vs Es), (lforces_len ms ws Em). unfold len in El. lia.
    + cbn [lforce] in Eb. injection Eb as <-. reflexivity.
    + cbn [lforce] in Eb. destruct (lforce m); [|discriminate]. injection Eb as <-. reflexivity.
    + rewrite lforce_tuple in Eb. destruct (lforces ms); [|discriminate]. injection Eb as <-. reflexivity.
  - cbn [lforce] in Ea. injection Ea as <-. inversion Sb as [w0 Hw| |ms HM| |m Hmm|ms HM]; subst; try discriminate.
    + cbn [lforce] in Eb. injection Eb as <-. destruct w0; try contradiction; reflexivity.
    + rewrite lforce_array in Eb. destruct (lforces ms); [|discriminate]. injection Eb as <-. reflexivity.
    + cbn [lforce] in Eb. injection Eb as <-. reflexivity.
    + cbn [lforce] in Eb. destruct (lforce m) eqn:Em; [|discriminate]. injection Eb as <-. destruct m; try discriminate; reflexivity.
    + rewrite lforce_tuple in Eb. destruct (lforces ms); [|discriminate]. injection Eb as <-. reflexivity.
  - cbn [lforce] in Ea. destruct (lforce l) as [v1|] eqn:El; [|discriminate]. injection Ea as <-. inversion Sb as [w0 Hw| |ms HM| |m Hmm|ms HM]; subst; try discriminate.
    + cbn [lforce] in Eb. injection Eb as <-. destruct w0; try contradiction; reflexivity.
    + rewrite lforce_array in Eb. destruct (lforces ms); [|discriminate]. injection Eb as <-. reflexivity.
    + cbn [lforce] in Eb. injection Eb as <-. destruct l; try discriminate; reflexivity.
    + cbn [lforce] in Eb. destruct (lforce m) as [w1|] eqn:Em; [|discriminate]. injection Eb as <-. change (leq l m = Some (sp_veq v1 w1)). now apply IH.
    + rewrite lforce_tuple in Eb. destruct (lforces ms); [|discriminate]. injection Eb as <-. reflexivity.
  - rewrite lforce_tuple in Ea. destruct (lforces ls) as [vs|] eqn:Es; [|discriminate]. injection Ea as <-. inversion Sb as [w0 Hw| |ms HM| |m Hmm|ms HM]; subst; try discriminate.
    + cbn [lforce] in Eb. injection Eb as <-. destruct w0; try contradiction; reflexivity.
    + rewrite lforce_array in Eb. destruct (lforces ms); [|discriminate]. injection Eb as <-. reflexivity.
    + cbn [lforce] in Eb. injection Eb as <-. reflexivity.
    + cbn [lforce] in Eb. destruct (lforce m); [|discriminate]. injection Eb as <-. reflexivity.
    + rewrite lforce_tuple in Eb. destruct (lforces ms) as [ws|] eqn:Em; [|discriminate]. injection Eb as <-. rewrite leq_tuple.
      change (sp_veq (VTuple vs) (VTuple ws)) with (veqs vs ws). apply leqs_forced; auto. rewrite Forall_forall in *. auto.
Qed.
Lemma shaped_map {A} (f : A -> lval) l : (forall a, shaped (f a)) -> Forall shaped (map f l).
Proof. intros H. induction l; cbn [map]; auto. Qed.
Lemma ldecode_shaped big t : forall d, shaped (ldecode big t d).
Proof.
  induction t as [| | | | | | | | | | | | |x IH|x IH|ts IH|k IHk v IHv] using ty_ind'; intros d; try (cbn [ldecode sp_decode]; constructor; exact I).
  - cbn [ldecode sp_decode]. constructor. unfold sp_variant. repeat match goal with |- match match ?c with _ => _ end with _ => _ end => destruct c end; exact I.
  - cbn [ldecode]. constructor. apply shaped_map. intros c. destruct (sp_whole x c); [apply IH|constructor].
  - cbn [ldecode]. destruct (sp_size x) as [n|].
    + destruct (_ =? n); constructor. apply IH.
    + destruct (match d with Some b => b | None => [] end); constructor. cbv zeta. destruct (sp_whole _ _); [apply IH|constructor].
  - cbn [ldecode]. constructor. match goal with |- Forall shaped (?f ts ?c) => generalize c end.
    induction IH as [|t ts Ht HF IHF]; intros [|c cs]; constructor; auto.
  - cbn [ldecode]. match goal with |- shaped (match ?c with _ => _ end) => destruct c as [|ck [|cv [|? ?]]] end; constructor; auto.
Qed.
Lemma leq_decode big t d e : sp_reads t d = true -> sp_reads t e = true ->
  leq (ldecode big t d) (ldecode big t e) = Some (sp_veq (sp_decode big t d) (sp_decode big t e)).
Proof.
  intros Hd He. apply leq_forced; auto using ldecode_shaped; rewrite lforce_decode; unfold forced; [now rewrite Hd|now rewrite He].
Qed.
