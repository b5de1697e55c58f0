(** Reading a whole value. *)
From Verif Require Import Base Types Layout AlignedBytes Strs Spec Deser Histories
  LongSpec BaseFacts TypesFacts LayoutFacts AlignedFacts Utf8Facts DeserFacts ArrayFacts StructFacts.
From Coq Require Import Lia ZifyBool ZifyNat ZifyN.
Ltac Zify.zify_post_hook ::= Z.div_mod_to_equations.

(** ** The specification's view of wrong sizes and missing children *)
Definition norm (t : ty) (d : option (list byte)) : list byte :=
  match d with Some b => seen_bytes t b | None => default_bytes t end.
Lemma nuls_zeros n : nuls n = zeros n. Proof. reflexivity. Qed.
Lemma norm_fixed t n d : size_of t = Some n ->
  norm t d = match d with Some b => if len b =? n then b else nuls n | None => nuls n end.
Proof.
  intros Hn. unfold norm, seen_bytes, default_bytes. rewrite Hn. destruct d as [b|]; [|reflexivity].
  destruct (size_good_dec t (blen b)) as [H|H]; unfold size_good in H; rewrite Hn in H.
  - replace (len b =? n) with true; [reflexivity|]. symmetry. now apply N.eqb_eq.
  - replace (len b =? n) with false; [reflexivity|]. symmetry. now apply N.eqb_neq.
Qed.
Lemma norm_fixed_len t n d : size_of t = Some n -> blen (norm t d) = n.
Proof.
  intros Hn. rewrite (norm_fixed t n) by assumption. destruct d as [b|]; [|apply blen_zeros].
  destruct (len b =? n) eqn:E; [apply N.eqb_eq in E; exact E|apply blen_zeros].
Qed.
Definition opt_bytes (d : option (list byte)) : list byte := match d with Some b => b | None => [] end.
Lemma norm_var t d : size_of t = None -> (forall x, t = TA x -> size_of x = None) -> norm t d = opt_bytes d.
Proof.
  intros Hn Hx. unfold norm, seen_bytes, default_bytes. rewrite Hn. destruct d as [b|]; [|reflexivity].
  destruct (size_good_dec t (blen b)) as [H|H]; [reflexivity|]. exfalso. apply H. unfold size_good. rewrite Hn.
  destruct t; auto. rewrite (Hx t eq_refl). exact I.
Qed.
Lemma norm_arr x n d : size_of x = Some n ->
  norm (TA x) d = if blen (opt_bytes d) mod n =? 0 then opt_bytes d else [].
Proof.
  intros Hn. pose proof (size_of_props x n Hn) as [Hp _].
  unfold norm, seen_bytes, default_bytes. cbn [size_of]. destruct d as [b|]; cbn [opt_bytes].
  - destruct (size_good_dec (TA x) (blen b)) as [H|H]; unfold size_good in H; cbn [size_of] in H; rewrite Hn in H.
    + rewrite H. reflexivity.
    + replace (blen b mod n =? 0) with false; [reflexivity|]. symmetry. now apply N.eqb_neq.
  - destruct (_ =? 0); reflexivity.
Qed.
Lemma sized_norm t n d : size_of t = Some n ->
  (match d with Some b => if len b =? n then b else nuls n | None => nuls n end) =
  (if len (norm t d) =? n then norm t d else nuls n).
Proof.
  intros Hn. change (len (norm t d)) with (blen (norm t d)). rewrite (norm_fixed_len t n) by assumption.
  rewrite N.eqb_refl. symmetry. now apply norm_fixed.
Qed.

Lemma sp_decode_norm big t d : sp_decode big t d = sp_decode big t (Some (norm t d)).
Proof.
  destruct t as [| | | | | | | | | | | | |x|x|ts|k v];
    try (cbn [sp_decode];
         rewrite <- (sized_norm TB 1) || rewrite <- (sized_norm TN 2) || rewrite <- (sized_norm TI 4) || rewrite <- (sized_norm TX 8);
         reflexivity).
  - cbn [sp_decode]. rewrite <- (sized_norm TY 1) by reflexivity. reflexivity.
  - cbn [sp_decode]. rewrite <- (sized_norm TQ 2) by reflexivity. reflexivity.
  - cbn [sp_decode]. rewrite <- (sized_norm TU 4) by reflexivity. reflexivity.
  - cbn [sp_decode]. rewrite <- (sized_norm TT 8) by reflexivity. reflexivity.
  - cbn [sp_decode]. rewrite <- (sized_norm TD 8) by reflexivity. reflexivity.
  - cbn [sp_decode]. rewrite (norm_var TS) by (reflexivity || discriminate). reflexivity.
  - cbn [sp_decode]. rewrite (norm_var TO) by (reflexivity || discriminate). reflexivity.
  - cbn [sp_decode]. rewrite (norm_var TG) by (reflexivity || discriminate). reflexivity.
  - cbn [sp_decode]. rewrite (norm_var TV) by (reflexivity || discriminate). reflexivity.
  - cbn [sp_decode]. rewrite sp_size_of. destruct (size_of x) as [n|] eqn:En.
    + rewrite (norm_arr x n) by assumption. fold (opt_bytes d). change (@len byte) with (@blen byte).
      destruct (blen (opt_bytes d) mod n =? 0) eqn:E.
      * rewrite E. reflexivity.
      * cbn [blen length N.of_nat]. destruct (0 mod n =? 0); reflexivity.
    + rewrite norm_var; [reflexivity|reflexivity|]. intros y Hy. injection Hy as <-. exact En.
  - cbn [sp_decode]. rewrite (norm_var (TM x)) by (reflexivity || discriminate). reflexivity.
  - cbn [sp_decode]. rewrite sp_size_of. destruct (size_of (TTuple ts)) as [n|] eqn:En.
    + rewrite <- (sized_norm (TTuple ts) n) by assumption. reflexivity.
    + rewrite norm_var by (assumption || discriminate). reflexivity.
  - cbn [sp_decode]. rewrite sp_size_of. destruct (size_of (TDict k v)) as [n|] eqn:En.
    + rewrite <- (sized_norm (TDict k v) n) by assumption. reflexivity.
    + rewrite norm_var by (assumption || discriminate). reflexivity.
Qed.

Lemma sp_reads_fixed t n d : size_of t = Some n -> sp_reads t d = true.
Proof.
  intros Hn. destruct t; try reflexivity; try discriminate; cbn [sp_reads]; rewrite sp_size_of, Hn; reflexivity.
Qed.
Lemma sp_reads_norm t d : sp_reads t d = sp_reads t (Some (norm t d)).
Proof.
  destruct (size_of t) as [n|] eqn:En; [now rewrite !(sp_reads_fixed t n)|].
  destruct t as [| | | | | | | | | | | | |x|x|ts|k v]; try reflexivity.
  - cbn [sp_reads]. rewrite sp_size_of. destruct (size_of x) as [n|] eqn:Ex; [reflexivity|].
    rewrite norm_var; [reflexivity|reflexivity|]. intros y Hy. injection Hy as <-. exact Ex.
  - cbn [sp_reads]. rewrite (norm_var (TM x)) by (reflexivity || discriminate). reflexivity.
  - cbn [sp_reads]. rewrite (norm_var (TTuple ts)) by (assumption || discriminate). reflexivity.
  - cbn [sp_reads]. rewrite (norm_var (TDict k v)) by (assumption || discriminate). reflexivity.
Qed.

(** ** Structures in one form *)
Definition dec_all (big : bool) (ts : list ty) (cs : list (option (list byte))) : list value :=
  map (fun p => sp_decode big (fst p) (snd p)) (combine ts cs).
Definition reads_all (ts : list ty) (cs : list (option (list byte))) : bool :=
  forallb (fun p => sp_reads (fst p) (snd p)) (combine ts cs).
Lemma sp_struct_cut_length d w lim items : forall pos k, length (sp_struct_cut d w lim pos k items) = length items.
Proof.
  induction items as [|[al [sz|]] items IH]; intros pos k; cbn [sp_struct_cut length]; auto.
  destruct items; cbn [length]; auto.
Qed.
Lemma sp_struct_children_length items d : length (sp_struct_children items d) = length items.
Proof.
  unfold sp_struct_children. destruct (_ <=? _); [apply sp_struct_cut_length|apply map_length].
Qed.
Lemma struct_cuts_length t d : length (struct_cuts t d) = length (children_of t).
Proof.
  unfold struct_cuts. destruct (size_of t); rewrite ?sp_struct_cut_length, ?sp_struct_children_length;
    apply map_length.
Qed.
Lemma sp_decode_struct big t d : is_struct t -> size_good t (blen d) ->
  sp_decode big t (Some d) = VTuple (dec_all big (children_of t) (struct_cuts t d)).
Proof.
  intros Hs Hg. pose proof (struct_cuts_length t d) as Hl. unfold dec_all.
  destruct t as [| | | | | | | | | | | | |x|x|ts|k v]; cbn [is_struct] in Hs; try tauto; cbn [sp_decode children_of] in *.
  - unfold struct_cuts in *. rewrite sp_size_of. rewrite sp_items_of.
    assert (E : (match size_of (TTuple ts) with
                 | Some n => sp_struct_cut (match size_of (TTuple ts) with
                      | Some n => if len d =? n then d else nuls n | None => d end) 0 n 0 0 (items_of ts)
                 | None => sp_struct_children (items_of ts) (match size_of (TTuple ts) with
                      | Some n => if len d =? n then d else nuls n | None => d end)
                 end) = struct_cuts (TTuple ts) d).
    { unfold struct_cuts. cbn [children_of]. unfold size_good in Hg. destruct (size_of (TTuple ts)); [|reflexivity].
      change (len d) with (blen d). rewrite Hg, N.eqb_refl. reflexivity. }
    rewrite E. fold (struct_cuts (TTuple ts) d). f_equal. generalize (struct_cuts (TTuple ts) d). clear.
    induction ts as [|t ts IH]; intros [|c cs]; cbn [combine map]; try reflexivity.
    cbn [fst snd]. f_equal. apply IH.
  - unfold struct_cuts in Hl. cbn [children_of] in Hl. rewrite sp_size_of, sp_items_of.
    assert (E : (match size_of (TDict k v) with
                 | Some n => sp_struct_cut (match size_of (TDict k v) with
                      | Some n => if len d =? n then d else nuls n | None => d end) 0 n 0 0 (items_of [k; v])
                 | None => sp_struct_children (items_of [k; v]) (match size_of (TDict k v) with
                      | Some n => if len d =? n then d else nuls n | None => d end)
                 end) = struct_cuts (TDict k v) d).
    { unfold struct_cuts. cbn [children_of]. unfold size_good in Hg. destruct (size_of (TDict k v)); [|reflexivity].
      change (len d) with (blen d). rewrite Hg, N.eqb_refl. reflexivity. }
    rewrite E. pose proof (struct_cuts_length (TDict k v) d) as Hl2. cbn [children_of length] in Hl2.
    destruct (struct_cuts (TDict k v) d) as [|a [|b [|c l]]]; cbn [length] in Hl2; try lia. reflexivity.
Qed.
Lemma sp_reads_struct t d : is_struct t -> size_of t = None ->
  sp_reads t (Some d) = reads_all (children_of t) (struct_cuts t d).
Proof.
  intros Hs Hn. unfold reads_all, struct_cuts. rewrite Hn.
  destruct t as [| | | | | | | | | | | | |x|x|ts|k v]; cbn [is_struct] in Hs; try tauto; cbn [sp_reads children_of] in *;
    rewrite sp_size_of, Hn, sp_items_of.
  - generalize (sp_struct_children (items_of ts) d). clear.
    induction ts as [|t ts IH]; intros [|c cs]; cbn [combine forallb]; try reflexivity.
    cbn [fst snd]. f_equal. apply IH.
  - pose proof (sp_struct_children_length (items_of [k; v]) d) as Hl.
    change (length (items_of [k; v])) with 2%nat in Hl.
    destruct (sp_struct_children _ d) as [|a [|b [|c l]]]; cbn [length] in Hl; try lia.
    cbn [combine forallb fst snd]. now rewrite andb_true_r.
Qed.
Lemma read_struct h t s rs : is_struct t -> to_tuple h t s = Ok rs -> length rs = length (children_of t) ->
  read h t s = let* vs := mapM (fun p => read h (fst p) (snd p)) (combine (children_of t) rs) in Ok (VTuple vs).
Proof.
  intros Hs E Hl.
  destruct t as [| | | | | | | | | | | | |x|x|ts|k v]; cbn [is_struct] in Hs; try tauto; cbn [read children_of] in *;
    rewrite E; cbn [bind].
  - f_equal. clear E Hl. revert rs. induction ts as [|t ts IH]; intros [|r rs]; cbn [combine mapM fst snd]; try reflexivity.
    destruct (read h t r); [|reflexivity]. cbn [bind]. rewrite IH. reflexivity.
  - destruct rs as [|a [|b [|c l]]]; cbn [length] in Hl; try lia. cbn [combine mapM fst snd].
    destruct (read h k a); [|reflexivity]. cbn [bind]. destruct (read h v b); reflexivity.
Qed.

(** ** Numbers *)
Lemma signed_ok bits n : 0 < bits -> n < 2 ^ bits -> signed bits n = sp_signed bits n.
Proof.
  intros Hb Hn. unfold signed, sp_signed.
  replace bits with (N.succ (bits - 1)) in Hn at 1 by lia. rewrite N.pow_succ_r in Hn by lia.
  assert (Hp : 0 < 2 ^ (bits - 1)) by (apply N.neq_0_lt_0, N.pow_nonzero; lia).
  assert (E : N.testbit n (bits - 1) = negb (n <? 2 ^ (bits - 1))).
  { destruct (n <? 2 ^ (bits - 1)) eqn:E.
    - cbn [negb]. apply N.ltb_lt in E. apply N.testbit_false. now rewrite N.div_small by assumption.
    - cbn [negb]. apply N.ltb_ge in E. apply N.testbit_true.
      replace (n / 2 ^ (bits - 1)) with 1; [reflexivity|].
      apply (N.div_unique n (2 ^ (bits - 1)) 1 (n - 2 ^ (bits - 1))); lia. }
  rewrite E. destruct (n <? 2 ^ (bits - 1)); reflexivity.
Qed.
Lemma of_ne_bound h d : of_ne h d < 256 ^ blen d.
Proof.
  unfold of_ne. destruct (h_big_endian h); [|apply of_le_bound].
  rewrite <- blen_rev. apply of_le_bound.
Qed.
Lemma of_ne_bound' h d k : blen d = k -> of_ne h d < 2 ^ (8 * k).
Proof.
  intros <-. rewrite N.pow_mul_r. change (2 ^ 8) with 256. apply of_ne_bound.
Qed.

(** ** Fixed-width arrays *)
Lemma sp_pieces_map n d : forall fuel k,
  (0 < n)%nat -> blen d = N.of_nat (k * n) -> (k <= fuel)%nat ->
  sp_pieces fuel n d = map (fun i => take (N.of_nat n) (drop (N.of_nat (i * n)) d)) (seq 0 k).
Proof.
  intros fuel k Hn. revert fuel d. induction k as [|k IH]; intros fuel d Hd Hf.
  - cbn in Hd. apply blen_0 in Hd. subst. destruct fuel; reflexivity.
  - destruct fuel as [|fuel]; [lia|].
    destruct d as [|b d0] eqn:E; [unfold blen in Hd; cbn [length] in Hd; lia|]. rewrite <- E in *. clear E b d0.
    assert (E : sp_pieces (S fuel) n d = firstn n d :: sp_pieces fuel n (skipn n d)).
    { destruct d; [unfold blen in Hd; cbn [length] in Hd; lia|reflexivity]. }
    rewrite E. cbn [seq map]. f_equal.
    + unfold take, drop. cbn [Nat.mul]. rewrite !Nat2N.id. reflexivity.
    + rewrite IH; [|unfold blen in *; rewrite skipn_length; lia|lia].
      rewrite <- seq_shift, map_map. apply map_ext. intros i.
      replace (skipn n d) with (drop (N.of_nat n) d) by (unfold drop; now rewrite Nat2N.id).
      rewrite drop_drop. do 2 f_equal. lia.
Qed.
Lemma slice_elems_ok x n s : size_of x = Some n -> ref_ok (TA x) s ->
  map s_data (slice_elems n s) = sp_pieces (length (s_data s)) (N.to_nat n) (s_data s) /\
  Forall (fun r => ref_ok x r /\ within s r) (slice_elems n s).
Proof.
  intros Hn [Ha Hg]. unfold size_good in Hg. cbn [size_of] in Hg. rewrite Hn in Hg.
  pose proof (size_of_props x n Hn) as [Hp Hm]. change (align_of (TA x)) with (align_of x) in Ha.
  assert (Hq : slen s = slen s / n * n) by (rewrite (N.div_mod (slen s) n) at 1 by lia; rewrite Hg; lia).
  split.
  - unfold slice_elems. rewrite (sp_pieces_map (N.to_nat n) (s_data s) _ (N.to_nat (slen s / n))); try lia.
    + rewrite map_map. apply map_ext. intros i. unfold slice_elem. cbn [s_data].
      rewrite N2Nat.id. do 2 f_equal. lia.
    + fold (slen s). rewrite Hq at 1. lia.
    + assert (slen s / n <= slen s) by (apply N.div_le_upper_bound; nia). unfold slen, blen in *. lia.
  - unfold slice_elems. apply Forall_forall. intros r Hr. apply in_map_iff in Hr as (i & <- & Hi).
    apply in_seq in Hi. assert (Hin : N.of_nat i < slen s / n) by lia.
    assert (Hle : N.of_nat i * n + n <= slen s) by nia.
    assert (Ep : slice_elem n s (N.of_nat i) = part s (N.of_nat i * n) (N.of_nat i * n + n)).
    { unfold slice_elem, part. do 2 f_equal. lia. }
    rewrite Ep. split; [split|].
    + apply aligned_part; auto with al.
      pose proof (align_of_pos x) as Hap. rewrite N.mul_mod, Hm, N.mul_0_r by lia. apply N.mod_0_l. lia.
    + unfold size_good. rewrite Hn, slen_part by lia. lia.
    + exists (N.of_nat i * n), (N.of_nat i * n + n). repeat split; lia.
Qed.

(** ** The result of reading, exactly *)
Definition small (t : ty) (s : slice) : Prop := is_fixed t = true \/ slen s < 2 ^ 32.
Definition held (t : ty) (s : slice) : Prop := is_fixed t = true \/ slen s < 2 ^ 63.
Definition outcome (big : bool) (t : ty) (d : list byte) : res value :=
  if sp_reads t (Some d) then Ok (sp_decode big t (Some d)) else Crash PUnwrap.

Lemma mapM_outcome {A} (f : A -> res value) (ok nr : A -> bool) (g : A -> value) l :
  (forall x, In x l -> f x = (if ok x then Ok (g x) else Crash PUnwrap) \/ (f x = Crash POverflow /\ nr x = false)) ->
  mapM f l = (if forallb ok l then Ok (map g l) else Crash PUnwrap) \/
  (mapM f l = Crash POverflow /\ forallb nr l = false).
Proof.
  induction l as [|x l IH]; intros H; [left; reflexivity|]. cbn [mapM forallb map].
  destruct (H x (or_introl eq_refl)) as [E|[E En]]; rewrite E.
  2:{ right. rewrite En. auto. }
  destruct (ok x); [|left; reflexivity]. cbn [bind andb].
  destruct IH as [E2|[E2 En2]]; [intros; apply H; right; assumption| |]; rewrite E2.
  - left. destruct (forallb ok l); reflexivity.
  - right. rewrite En2, andb_false_r. auto.
Qed.

(** ** Near framing offsets *)
Lemma sp_near_fixed t n d : size_of t = Some n -> sp_near t d = true.
Proof.
  intros Hn. destruct t; try reflexivity; try discriminate; cbn [sp_near]; rewrite sp_size_of, Hn; reflexivity.
Qed.
Lemma sp_near_norm t d : sp_near t d = sp_near t (Some (norm t d)).
Proof.
  destruct (size_of t) as [n|] eqn:En; [now rewrite !(sp_near_fixed t n)|].
  destruct t as [| | | | | | | | | | | | |x|x|ts|k v]; try reflexivity.
  - cbn [sp_near]. rewrite sp_size_of. destruct (size_of x) as [n|] eqn:Ex; [reflexivity|].
    rewrite norm_var; [reflexivity|reflexivity|]. intros y Hy. injection Hy as <-. exact Ex.
  - cbn [sp_near]. rewrite (norm_var (TM x)) by (reflexivity || discriminate). reflexivity.
  - cbn [sp_near]. rewrite (norm_var (TTuple ts)) by (assumption || discriminate). reflexivity.
  - cbn [sp_near]. rewrite (norm_var (TDict k v)) by (assumption || discriminate). reflexivity.
Qed.
Definition near_all (ts : list ty) (cs : list (option (list byte))) : bool :=
  forallb (fun p => sp_near (fst p) (snd p)) (combine ts cs).
Lemma sp_near_struct t d : is_struct t -> size_of t = None ->
  sp_near t (Some d) = sp_struct_near (items_of (children_of t)) d && near_all (children_of t) (struct_cuts t d).
Proof.
  intros Hs Hn. unfold near_all, struct_cuts. rewrite Hn.
  destruct t as [| | | | | | | | | | | | |x|x|ts|k v]; cbn [is_struct] in Hs; try tauto; cbn [sp_near children_of] in *;
    rewrite sp_size_of, Hn, sp_items_of; f_equal.
  - generalize (sp_struct_children (items_of ts) d). clear.
    induction ts as [|t ts IH]; intros [|c cs]; cbn [combine forallb]; try reflexivity.
    cbn [fst snd]. f_equal. apply IH.
  - pose proof (sp_struct_children_length (items_of [k; v]) d) as Hl.
    change (length (items_of [k; v])) with 2%nat in Hl.
    destruct (sp_struct_children _ d) as [|a [|b [|c l]]]; cbn [length] in Hl; try lia.
    cbn [combine forallb fst snd]. now rewrite andb_true_r.
Qed.
Lemma sp_array_near_map d : sp_array_near d = forallb (fun i => near (arr_end d i)) (indices 0 (N.to_nat (arr_n d))).
Proof.
  unfold sp_array_near. change (len d) with (blen d).
  destruct (blen d =? 0) eqn:E0.
  { apply N.eqb_eq in E0. unfold arr_n, arr_lfo. rewrite E0. reflexivity. }
  fold (arr_width d). fold (arr_last d). fold (arr_good d).
  assert (Hpos : 0 < blen d) by lia.
  destruct (arr_good d) eqn:Eg.
  - assert (El : arr_lfo d = arr_last d) by (unfold arr_lfo; now rewrite E0, Eg).
    rewrite <- El. rewrite <- (arr_osz_width d Hpos). fold (arr_n d).
    unfold indices. generalize (seq 0 (N.to_nat (arr_n d))). intros l.
    induction l as [|j l IH]; [reflexivity|]. cbn [forallb map]. rewrite <- IH. f_equal.
  - assert (El : arr_lfo d = blen d) by (unfold arr_lfo; now rewrite E0, Eg).
    assert (En : arr_n d = 0).
    { pose proof (arr_lfo_mod d) as H. rewrite El, N.sub_diag in H. pose proof (arr_osz_pos d). nia. }
    rewrite En. reflexivity.
Qed.
Lemma in_indices i k n : In i (indices k n) <-> k <= i < k + N.of_nat n.
Proof.
  unfold indices. rewrite in_map_iff. split.
  - intros (j & <- & Hj). apply in_seq in Hj. lia.
  - intros H. exists (N.to_nat (i - k)). split; [lia|]. apply in_seq. lia.
Qed.
Lemma array_far d i : In i (indices 0 (N.to_nat (arr_n d))) -> 2 ^ 63 <= arr_prev d i -> sp_array_near d = false.
Proof.
  intros Hi Hp. rewrite sp_array_near_map. apply not_true_iff_false. intros H. rewrite forallb_forall in H.
  apply in_indices in Hi. unfold arr_prev in Hp. destruct (i =? 0) eqn:E; [lia|].
  specialize (H (i - 1)). rewrite in_indices in H. unfold near in H. lia.
Qed.
Lemma struct_far_near t d : struct_far t d -> sp_struct_near (items_of (children_of t)) d = false.
Proof.
  intros (_ & k & Hk & Hw & Hp). unfold sp_struct_near. change (len d) with (blen d).
  replace (sp_width (blen d) * sp_n_offsets (items_of (children_of t)) <=? blen d) with true by lia.
  apply not_true_iff_false. intros H. rewrite forallb_forall in H.
  destruct k as [|k]; [cbn in Hp; lia|]. specialize (H k). rewrite in_seq in H.
  unfold near in H. cbn [st_prev sp_prev_end] in Hp. unfold st_prev, sp_prev_end, st_end in Hp. lia.
Qed.

Lemma seen_len t d : size_of t = None -> blen (seen_bytes t d) <= blen d.
Proof.
  intros Hn. unfold seen_bytes, default_bytes. rewrite Hn. destruct (size_good_dec t _); [lia|].
  rewrite blen_nil. lia.
Qed.
Lemma cut_len d a b lim x : cut d a b lim = Some x -> blen x <= blen d.
Proof.
  unfold cut. destruct (_ && _); [|discriminate]. intros H. apply Some_inj in H as <-.
  rewrite sub_take_drop, blen_take, blen_drop. lia.
Qed.
Lemma cut_len_lim d a b lim x : cut d a b lim = Some x -> blen x <= lim.
Proof.
  unfold cut. destruct (_ && _) eqn:E; [|discriminate]. intros H. apply Some_inj in H as <-.
  rewrite sub_take_drop, blen_take, blen_drop. lia.
Qed.
Lemma struct_cut_len d w lim items : forall pos k x,
  In (Some x) (sp_struct_cut d w lim pos k items) -> blen x <= blen d.
Proof.
  induction items as [|[al [sz|]] items IH]; intros pos k x; cbn [sp_struct_cut]; [intros []| |].
  - intros [H|H]; eauto using cut_len.
  - destruct items as [|it items]; (intros [H|H]; [eauto using cut_len|]); [destruct H|eauto].
Qed.
Lemma struct_cuts_len t d x : In (Some x) (struct_cuts t d) -> blen x <= blen d.
Proof.
  unfold struct_cuts. destruct (size_of t); [apply struct_cut_len|].
  unfold sp_struct_children. destruct (_ <=? _); [apply struct_cut_len|].
  intros H. apply in_map_iff in H as (? & ? & _). discriminate.
Qed.
Lemma arr_cut_len al d i x : arr_cut al d i = Some x -> blen x <= blen d.
Proof. apply cut_len. Qed.

Lemma sp_whole_fits x b : size_of x = None ->
  sp_whole x (Some b) = if size_good_dec x (blen b) then true else false.
Proof.
  intros Hn. destruct (size_good_dec x (blen b)) as [H|H]; unfold size_good in H; rewrite Hn in H;
    destruct x; try tauto; try reflexivity; cbn [sp_whole]; rewrite sp_size_of;
    destruct (size_of x) as [n|]; try tauto.
  - change (len b) with (blen b). rewrite H. reflexivity.
  - change (len b) with (blen b). now apply N.eqb_neq.
Qed.
Lemma sp_whole_empty x : size_of x = None -> sp_whole x (Some []) = true.
Proof.
  intros Hn. rewrite sp_whole_fits by assumption. destruct (size_good_dec x _) as [H|H]; [reflexivity|].
  exfalso. apply H. unfold size_good. rewrite Hn. destruct x; auto.
  destruct (size_of x) as [m|] eqn:Em; [|exact I]. apply size_of_props in Em as [Em _]. apply N.mod_0_l. lia.
Qed.
Lemma sp_reads_empty_none t : size_of t = None -> sp_reads t None = sp_reads t (Some []).
Proof. intros. destruct t; try reflexivity. Qed.
Lemma norm_none_var t : size_of t = None -> norm t None = [].
Proof. intros H. unfold norm, default_bytes. now rewrite H. Qed.
Lemma seen_good t d : size_good t (blen d) -> seen_bytes t d = d.
Proof. intros H. unfold seen_bytes. destruct (size_good_dec t _); tauto. Qed.

Lemma macro_ok_parts t x : t = TA x \/ t = TM x -> macro_ok t = true -> macro_ok x = true.
Proof. intros [->| ->] H; exact H. Qed.
Lemma type_len_parts t x : t = TA x \/ t = TM x -> type_len t = 1 + type_len x.
Proof. intros [->| ->]; unfold type_len; cbn [display]; apply blen_cons. Qed.

Lemma removelast_take (d : list byte) : d <> [] -> removelast d = take (blen d - 1) d.
Proof.
  intros H. pose proof (app_removelast_last x00 H) as E. remember (removelast d) as r.
  rewrite E. symmetry. apply take_app_eq. rewrite blen_app, blen_cons, blen_nil. lia.
Qed.

Lemma Forall2_length {A B} (R : A -> B -> Prop) l l' : Forall2 R l l' -> length l = length l'.
Proof. induction 1; cbn; auto. Qed.

Lemma read_long h t : macro_ok t = true -> type_len t < 2 ^ 32 ->
  forall s, ref_ok t s -> held t s -> (sp_near t (Some (s_data s)) = false -> h_overflow_checks h = true) ->
  read h t s = outcome (h_big_endian h) t (s_data s) \/
  (read h t s = Crash POverflow /\ sp_near t (Some (s_data s)) = false).
Proof.
  unfold outcome. induction t as [t Hns IH|t Hs IH] using ty_struct_ind; intros Hm Hl s Hr Hsm Hov.
  - destruct t as [| | | | | | | | | | | | |x|x|ts|k v]; cbn [is_struct] in Hns; try tauto;
      try (left; destruct Hr as [_ Hg]; unfold size_good in Hg; cbn [size_of] in Hg; unfold slen in Hg;
           cbn [read sp_reads sp_decode]; change (len (s_data s)) with (blen (s_data s));
           rewrite Hg, N.eqb_refl, sp_num_of_ne;
           pose proof (of_ne_bound' h (s_data s) _ Hg) as Hb).
    + repeat f_equal. destruct (of_ne h (s_data s) =? 0) eqn:E; cbn [negb].
      * apply N.eqb_eq in E. rewrite E. reflexivity.
      * apply N.ltb_lt. apply N.eqb_neq in E. lia.
    + reflexivity.
    + rewrite (signed_ok 16) by (lia || exact Hb). reflexivity.
    + reflexivity.
    + rewrite (signed_ok 32) by (lia || exact Hb). reflexivity.
    + reflexivity.
    + rewrite (signed_ok 64) by (lia || exact Hb). reflexivity.
    + reflexivity.
    + reflexivity.
    + left. cbn [read sp_reads sp_decode]. now rewrite to_str_spec.
    + left. cbn [read sp_reads sp_decode]. now rewrite to_str_spec.
    + left. cbn [read sp_reads sp_decode]. now rewrite to_str_spec.
    + left. cbn [read sp_reads sp_decode]. destruct Hr as [Ha _].
      destruct (variant_split_ok h s Ha) as (ts & dat & -> & _ & E & _). cbn [bind fst snd]. now rewrite E.
    + (* array *)
      specialize (IH x (or_introl eq_refl)). change (macro_ok x = true) in Hm.
      rewrite (type_len_parts (TA x) x) in Hl by auto. specialize (IH Hm ltac:(lia)).
      destruct Hsm as [Hf|Hsm]; [discriminate|].
      cbn [read sp_reads sp_decode sp_near] in *. unfold array_refs. rewrite sp_size_of in *.
      destruct (size_of x) as [n|] eqn:En.
      * left. rewrite (mem_layout_ok x n) by assumption. cbn [bind].
        destruct (slice_elems_ok x n s En Hr) as [Hd HF]. rewrite Forall_forall in HF.
        destruct Hr as [Ha Hg]. unfold size_good in Hg. cbn [size_of] in Hg. rewrite En in Hg.
        change (len (s_data s)) with (slen s). rewrite Hg. cbn [N.eqb].
        destruct (mapM_outcome (read h x) (fun _ => true) (fun _ => true) (fun r => sp_decode (h_big_endian h) x (Some (s_data r))) (slice_elems n s)) as [->|[_ Hf]].
        -- intros r Hr. left. destruct (HF r Hr) as [Hrr _].
           destruct (IH r) as [->|[_ Hf]]; auto.
           ++ left. unfold is_fixed. now rewrite En.
           ++ now rewrite (sp_near_fixed x n).
           ++ now rewrite (sp_reads_fixed x n).
           ++ rewrite (sp_near_fixed x n) in Hf by assumption. discriminate.
        -- replace (forallb (fun _ => true) (slice_elems n s)) with true
             by (symmetry; apply forallb_forall; reflexivity).
           cbn [bind]. rewrite <- Hd, !map_map. reflexivity.
        -- exfalso. assert (forallb (fun _ : slice => true) (slice_elems n s) = true) by (apply forallb_forall; reflexivity). congruence.
      * destruct Hr as [Ha _]. change (align_of (TA x)) with (align_of x) in Ha.
        rewrite nfwa_items_ok by (auto; unfold usize_lim; lia).
        rewrite sp_align_of, sp_array_children_map in *. set (idx := indices _ _) in *.
        set (f := arr_cut (align_of x) (s_data s)) in *.
        set (nr := sp_array_near (s_data s) && forallb (sp_near x) (map f idx)) in *.
        assert (Hnr : forall i, In i idx -> sp_near x (f i) = false -> nr = false).
        { intros i Hi Hf. unfold nr. apply andb_false_iff. right. apply not_true_iff_false. intros H.
          rewrite forallb_forall in H. rewrite (H (f i)) in Hf by (apply in_map; assumption). discriminate. }
        assert (Hel : forall i, In i idx ->
          match elem_at h x s i with
          | Ok r => sp_whole x (f i) = true /\
                    (read h x r = outcome (h_big_endian h) x (norm x (f i)) \/ (read h x r = Crash POverflow /\ nr = false))
          | Crash c => (c = PUnwrap /\ sp_whole x (f i) = false) \/ (c = POverflow /\ nr = false)
          end).
        { intros i Hi.
          assert (Hfar : 2 ^ 63 <= arr_prev (s_data s) i -> nr = false).
          { intros Hp. unfold nr. rewrite (array_far (s_data s) i) by assumption. reflexivity. }
          destruct (elem_at_long h x s i Hm Ha En) as [He|[-> Hp]].
          { destruct (N.lt_ge_cases (arr_prev (s_data s) i) (2 ^ 63)); [auto|]. right. auto. }
          2:{ right. auto. }
          unfold elem_view in He. fold f in He. destruct (f i) as [b|] eqn:Ec.
          - pose proof (arr_cut_len _ _ _ _ Ec) as Hb. rewrite sp_whole_fits by assumption.
            destruct (size_good_dec x (blen b)) as [Hg|Hg].
            + destruct He as (r & -> & Hr & Hd). split; [reflexivity|].
              destruct (IH r) as [E|[E Hf]]; [assumption|right; unfold slen in *; rewrite Hd; lia| | |].
              * rewrite Hd. intros Hf. apply Hov. apply (Hnr i Hi). now rewrite Ec.
              * left. rewrite E. unfold norm. rewrite Hd, seen_good by assumption. reflexivity.
              * right. split; [exact E|]. apply (Hnr i Hi). rewrite Ec, <- Hd. exact Hf.
            + rewrite He. auto.
          - destruct He as (r & -> & Hr & Hd). split; [destruct x; reflexivity|].
            assert (Hfn : sp_near x (Some (s_data r)) = sp_near x None).
            { rewrite (sp_near_norm x None), norm_none_var, Hd by assumption. reflexivity. }
            destruct (IH r) as [E|[E Hf]]; [assumption|right; unfold slen; rewrite Hd; reflexivity| | |].
            + rewrite Hfn. intros Hf. apply Hov. apply (Hnr i Hi). now rewrite Ec.
            + left. rewrite E. unfold norm, default_bytes. rewrite En, Hd. reflexivity.
            + right. split; [exact E|]. apply (Hnr i Hi). now rewrite Ec, <- Hfn. }
        clearbody idx nr f. clear IH Hnr.
        assert (Hgoal :
          (let* rs := mapM (elem_at h x s) idx in mapM (read h x) rs) =
          (if forallb (fun c => sp_whole x c && sp_reads x c) (map f idx)
           then Ok (map (sp_decode (h_big_endian h) x) (map f idx)) else Crash PUnwrap) \/
          ((let* rs := mapM (elem_at h x s) idx in mapM (read h x) rs) = Crash POverflow /\ nr = false)).
        { induction idx as [|i idx IHi]; [left; reflexivity|]. cbn [map mapM forallb].
          pose proof (Hel i (or_introl eq_refl)) as He.
          assert (Hel' : forall i, In i idx -> _) by (intros i' Hi'; exact (Hel i' (or_intror Hi'))).
          specialize (IHi Hel'). clear Hel Hel'.
          destruct (elem_at h x s i) as [r|c].
          2:{ destruct He as [[-> ->]|[-> Hf]]; [left; reflexivity|right; auto]. }
          destruct He as [-> Hread]. cbn [bind andb]. unfold outcome in Hread.
          rewrite <- sp_reads_norm, <- sp_decode_norm in Hread.
          destruct (mapM (elem_at h x s) idx) as [rs|c] eqn:Em; cbn [bind] in *.
          - cbn [mapM]. destruct Hread as [->|[-> Hf]]; [|right; auto].
            destruct (sp_reads x (f i)); [|left; reflexivity]. cbn [bind andb].
            destruct IHi as [->|[-> Hf]]; [|right; auto].
            left. destruct (forallb _ _); reflexivity.
          - destruct IHi as [IHi|[IHi Hf]].
            + left. destruct (forallb _ (map f idx)); [discriminate|]. rewrite andb_false_r. congruence.
            + right. split; [congruence|exact Hf]. }
        destruct (mapM (elem_at h x s) idx) as [rs|c]; cbn [bind] in *.
        -- destruct Hgoal as [->|[-> Hf]]; [left|right; auto]. destruct (forallb _ _); reflexivity.
        -- destruct Hgoal as [Hgoal|[Hgoal Hf]]; [left|right; split; [congruence|exact Hf]].
           destruct (forallb _ _); [discriminate|]. congruence.
    + (* maybe *)
      specialize (IH x (or_intror eq_refl)). change (macro_ok x = true) in Hm.
      rewrite (type_len_parts (TM x) x) in Hl by auto. specialize (IH Hm ltac:(lia)).
      destruct Hsm as [Hf|Hsm]; [discriminate|]. destruct Hr as [Ha _]. change (align_of (TM x)) with (align_of x) in Ha.
      cbn [read sp_reads sp_decode sp_near] in *. rewrite sp_size_of in *.
      destruct (size_of x) as [n|] eqn:En.
      * rewrite (to_option_fixed h x s n) by assumption. cbn [bind]. change (len (s_data s)) with (slen s).
        left. destruct (slen s =? n) eqn:E; [|reflexivity]. apply N.eqb_eq in E.
        destruct (IH s) as [->|[_ Hf]].
        -- split; [assumption|]. unfold size_good. now rewrite En.
        -- left. unfold is_fixed. now rewrite En.
        -- now rewrite (sp_near_fixed x n).
        -- rewrite (sp_reads_fixed x n) by assumption. reflexivity.
        -- rewrite (sp_near_fixed x n) in Hf by assumption. discriminate.
      * rewrite to_option_var by assumption. change (slen s) with (blen (s_data s)).
        destruct (s_data s) as [|b d0] eqn:Ed.
        { left. reflexivity. }
        assert (Hne : s_data s <> []) by (rewrite Ed; discriminate).
        rewrite <- Ed in *. rewrite (removelast_take (s_data s) Hne) in *.
        assert (Hbl : blen (s_data s) <> 0) by (rewrite Ed, blen_cons; lia).
        replace (blen (s_data s) =? 0) with false by (symmetry; now apply N.eqb_neq).
        assert (Ht : blen (take (blen (s_data s) - 1) (s_data s)) = blen (s_data s) - 1) by (rewrite blen_take; lia).
        cbn zeta. rewrite sp_whole_fits by assumption. rewrite Ht.
        destruct (size_good_dec x (blen (s_data s) - 1)) as [Hg|Hg]; [|left; reflexivity]. cbn [bind andb].
        assert (Hp : s_data (part s 0 (blen (s_data s) - 1)) = take (blen (s_data s) - 1) (s_data s)).
        { rewrite part_0. reflexivity. }
        assert (Hpl : slen (part s 0 (blen (s_data s) - 1)) = blen (s_data s) - 1) by (unfold slen; rewrite Hp; exact Ht).
        destruct (IH (part s 0 (blen (s_data s) - 1))) as [->|[-> Hf]].
        -- split; [apply aligned_part; auto with al|]. now rewrite Hpl.
        -- right. rewrite Hpl. unfold slen in Hsm. lia.
        -- rewrite Hp. exact Hov.
        -- rewrite Hp. left. destruct (sp_reads x _); reflexivity.
        -- right. rewrite Hp in Hf. auto.
  - (* structures *)
    assert (Hex : (exists rs, to_tuple h t s = Ok rs /\
      Forall2 (fun p r => child_view h s (fst p) (snd p) r)
              (combine (children_of t) (struct_cuts t (s_data s))) rs) \/
      (to_tuple h t s = Crash POverflow /\ sp_near t (Some (s_data s)) = false)).
    { destruct (size_of t) as [n|] eqn:En.
      - left. now apply (to_tuple_fixed h t s n).
      - destruct Hsm as [Hf|Hsm]; [unfold is_fixed in Hf; rewrite En in Hf; discriminate|].
        assert (Hfar : struct_far t (s_data s) -> sp_near t (Some (s_data s)) = false).
        { intros Hf. rewrite sp_near_struct by assumption. now rewrite struct_far_near. }
        destruct (to_tuple_long h t s) as [H|[H Hf]]; auto. }
    destruct Hex as [(rs & E & HF)|[E Hf]].
    2:{ right. split; [|exact Hf]. clear IH. destruct t; cbn [is_struct] in Hs; try tauto; cbn [read]; rewrite E; reflexivity. }
    pose proof (struct_cuts_length t (s_data s)) as Hlen.
    assert (Hrs : length rs = length (children_of t)).
    { apply Forall2_length in HF. rewrite combine_length, Hlen, Nat.min_id in HF. lia. }
    rewrite (read_struct h t s rs) by assumption.
    destruct Hr as [Ha Hg]. rewrite sp_decode_struct by assumption.
    assert (Hnr : forall p, In p (combine (children_of t) (struct_cuts t (s_data s))) ->
      sp_near (fst p) (snd p) = false -> sp_near t (Some (s_data s)) = false).
    { intros [c x] Hin Hf. cbn [fst snd] in Hf. destruct (size_of t) as [n|] eqn:En.
      - pose proof (fixed_children t n Hs En) as Hfc. rewrite Forall_forall in Hfc.
        specialize (Hfc c (in_combine_l _ _ _ _ Hin)). unfold is_fixed in Hfc. destruct (size_of c) as [m|] eqn:Em; [|discriminate].
        rewrite (sp_near_fixed c m) in Hf by assumption. discriminate.
      - rewrite sp_near_struct by assumption. apply andb_false_iff. right. apply not_true_iff_false. intros H.
        unfold near_all in H. rewrite forallb_forall in H. specialize (H _ Hin). cbn [fst snd] in H. congruence. }
    assert (Hchild : forall p r, In p (combine (children_of t) (struct_cuts t (s_data s))) ->
      child_view h s (fst p) (snd p) r ->
      read h (fst p) r = (if sp_reads (fst p) (snd p) then Ok (sp_decode (h_big_endian h) (fst p) (snd p)) else Crash PUnwrap) \/
      (read h (fst p) r = Crash POverflow /\ sp_near t (Some (s_data s)) = false)).
    { intros p r Hin Hv. pose proof (Hnr p Hin) as Hnp. destruct p as [c x]. destruct Hv as (Hrr & _ & Hd). cbn [fst snd] in *.
      pose proof (in_combine_l _ _ _ _ Hin) as Hc. pose proof (in_combine_r _ _ _ _ Hin) as Hx.
      fold (norm c x) in Hd. pose proof (sp_near_norm c x) as Hnn. rewrite <- Hd in Hnn. rewrite Hnn in Hnp.
      rewrite Forall_forall in IH. destruct (IH c) with (s := r) as [E2|[E2 Hf]]; auto.
      - eapply macro_ok_child; eauto.
      - pose proof (child_len t c Hs Hc). lia.
      - unfold held, is_fixed. destruct (size_of c) as [m|] eqn:Em; [auto|right]. unfold slen. rewrite Hd.
        destruct Hsm as [Hf|Hsm].
        + unfold is_fixed in Hf. destruct (size_of t) as [n|] eqn:En; [|discriminate].
          pose proof (fixed_children t n Hs En) as Hfc. rewrite Forall_forall in Hfc.
          specialize (Hfc c Hc). unfold is_fixed in Hfc. rewrite Em in Hfc. discriminate.
        + unfold norm. destruct x as [b|].
          * pose proof (seen_len c b Em). pose proof (struct_cuts_len t (s_data s) b Hx).
            unfold slen in Hsm. lia.
          * unfold default_bytes. rewrite Em. reflexivity.
      - left. rewrite E2, Hd. rewrite <- sp_reads_norm, <- sp_decode_norm. reflexivity. }
    assert (Hreads : sp_reads t (Some (s_data s)) = reads_all (children_of t) (struct_cuts t (s_data s))).
    { destruct (size_of t) as [n|] eqn:En; [|now apply sp_reads_struct].
      rewrite (sp_reads_fixed t n) by assumption. symmetry. apply forallb_forall.
      intros [c x] Hin. apply in_combine_l in Hin. pose proof (fixed_children t n Hs En) as Hfc.
      rewrite Forall_forall in Hfc. specialize (Hfc c Hin). unfold is_fixed in Hfc.
      destruct (size_of c) as [m|] eqn:Em; [|discriminate]. now apply (sp_reads_fixed c m). }
    rewrite Hreads. unfold reads_all, dec_all. clear Hreads IH Hov Hnr.
    assert (Hgoal : mapM (fun p => read h (fst p) (snd p)) (combine (children_of t) rs) =
      (if forallb (fun p => sp_reads (fst p) (snd p)) (combine (children_of t) (struct_cuts t (s_data s)))
      then Ok (map (fun p => sp_decode (h_big_endian h) (fst p) (snd p)) (combine (children_of t) (struct_cuts t (s_data s))))
      else Crash PUnwrap) \/
      (mapM (fun p => read h (fst p) (snd p)) (combine (children_of t) rs) = Crash POverflow /\ sp_near t (Some (s_data s)) = false)).
    { revert HF Hlen Hrs Hchild. generalize (sp_near t (Some (s_data s))) as nr.
      generalize (struct_cuts t (s_data s)) as cs. generalize (children_of t) as ts. clear.
      induction rs as [|r rs IH]; intros [|c ts] [|x cs] nr HF Hlen Hrs Hchild; cbn [length combine] in *; try lia; try (left; reflexivity).
      inversion HF as [|? ? ? ? Hv HF']; subst. cbn [mapM fst snd forallb map].
      pose proof (Hchild (c, x) r (or_introl eq_refl) Hv) as H1. cbn [fst snd] in H1.
      destruct H1 as [H1|[H1 Hf]]; rewrite H1; [|right; auto].
      destruct (sp_reads c x); [|left; reflexivity]. cbn [bind andb].
      destruct (IH ts cs nr) as [->|[-> Hf]]; [assumption|lia|lia| | |right; auto].
      - intros p r' Hp. apply Hchild. right. exact Hp.
      - left. destruct (forallb _ _); reflexivity. }
    destruct Hgoal as [->|[-> Hf]]; [left|right; auto]. destruct (forallb _ _); reflexivity.
Qed.

(** Containers below 4 GiB have near framing offsets only. *)
Lemma small_array_near d : blen d < 2 ^ 32 -> sp_array_near d = true.
Proof.
  intros Hl. rewrite sp_array_near_map. apply forallb_forall. intros i _.
  pose proof (arr_end_bound32 d i Hl). unfold near. lia.
Qed.
Lemma small_struct_near items d : blen d < 2 ^ 32 -> sp_struct_near items d = true.
Proof.
  intros Hl. unfold sp_struct_near. destruct (_ <=? _); [|reflexivity]. apply forallb_forall. intros i _.
  pose proof (st_end_bound32 d i Hl) as H. unfold st_end in H. unfold near. change (len d) with (blen d). lia.
Qed.
Lemma small_near t : forall d, blen (opt_bytes d) < 2 ^ 32 -> sp_near t d = true.
Proof.
  induction t as [t Hns IH|t Hs IH] using ty_struct_ind; intros d Hl.
  - destruct t as [| | | | | | | | | | | | |x|x|ts|k v]; cbn [is_struct] in Hns; try tauto; try reflexivity.
    + specialize (IH x (or_introl eq_refl)). cbn [sp_near]. rewrite sp_size_of. destruct (size_of x); [reflexivity|].
      fold (opt_bytes d). rewrite small_array_near by assumption. apply forallb_forall. intros c Hc.
      apply IH. rewrite sp_array_children_map in Hc. apply in_map_iff in Hc as (i & Hi & _).
      destruct c as [b|]; [apply arr_cut_len in Hi; cbn [opt_bytes]; lia|reflexivity].
    + specialize (IH x (or_intror eq_refl)). cbn [sp_near]. rewrite sp_size_of. destruct (size_of x); [reflexivity|].
      fold (opt_bytes d). destruct (opt_bytes d) as [|b l] eqn:E; [reflexivity|]. apply IH. cbn [opt_bytes].
      rewrite removelast_take by discriminate. rewrite blen_take. lia.
  - rewrite sp_near_norm. destruct (size_of t) as [n|] eqn:En; [now rewrite (sp_near_fixed t n)|].
    assert (Hnl : blen (norm t d) < 2 ^ 32).
    { rewrite norm_var; auto. intros x ->. destruct Hs. }
    rewrite sp_near_struct, small_struct_near by assumption. apply forallb_forall. intros [c x] Hin.
    pose proof (in_combine_l _ _ _ _ Hin) as Hc. pose proof (in_combine_r _ _ _ _ Hin) as Hx. cbn [fst snd].
    rewrite Forall_forall in IH. apply IH; [exact Hc|]. destruct x as [b|]; [|reflexivity].
    apply struct_cuts_len in Hx. cbn [opt_bytes]. lia.
Qed.

Lemma read_exact h t : macro_ok t = true -> type_len t < 2 ^ 32 ->
  forall s, ref_ok t s -> small t s -> read h t s = outcome (h_big_endian h) t (s_data s).
Proof.
  intros Hm Hl s Hr Hs.
  assert (Hn : sp_near t (Some (s_data s)) = true).
  { destruct Hs as [Hf|Hs]; [|now apply small_near]. unfold is_fixed in Hf.
    destruct (size_of t) as [n|] eqn:En; [|discriminate]. now rewrite (sp_near_fixed t n). }
  destruct (read_long h t Hm Hl s Hr) as [E|[_ E]]; [|congruence|exact E|congruence].
  destruct Hs as [Hf|Hs]; [left; exact Hf|right; lia].
Qed.

Lemma decode_long h t s : macro_ok t = true -> type_len t < 2 ^ 32 -> aligned (align_of t) s ->
  slen s < 2 ^ 63 -> (sp_near t (Some (s_data s)) = false -> h_overflow_checks h = true) ->
  decode h t s = outcome (h_big_endian h) t (s_data s) \/
  (decode h t s = Crash POverflow /\ sp_near t (Some (s_data s)) = false).
Proof.
  intros Hm Hl Ha Hs Hov. unfold decode. destruct (cast_ok h t s Hm Ha) as (r & -> & Hr & Hd & _). cbn [bind].
  change (seen_bytes t (s_data s)) with (norm t (Some (s_data s))) in Hd.
  assert (Hn : sp_near t (Some (s_data r)) = sp_near t (Some (s_data s))).
  { rewrite Hd. symmetry. apply sp_near_norm. }
  rewrite <- Hn in *. destruct (read_long h t Hm Hl r Hr) as [->|E]; auto.
  - unfold held, is_fixed. destruct (size_of t) as [n|] eqn:En; [auto|right].
    unfold slen in *. rewrite Hd. pose proof (seen_len t (s_data s) En) as H. unfold norm. lia.
  - left. unfold outcome. rewrite Hd. now rewrite <- sp_reads_norm, <- sp_decode_norm.
Qed.

Lemma decode_exact h t s : macro_ok t = true -> type_len t < 2 ^ 32 -> aligned (align_of t) s ->
  slen s < 2 ^ 32 -> decode h t s = outcome (h_big_endian h) t (s_data s).
Proof.
  intros Hm Hl Ha Hs. unfold decode. destruct (cast_ok h t s Hm Ha) as (r & -> & Hr & Hd & _). cbn [bind].
  rewrite read_exact; auto.
  - unfold outcome. rewrite Hd. change (seen_bytes t (s_data s)) with (norm t (Some (s_data s))).
    now rewrite <- sp_reads_norm, <- sp_decode_norm.
  - unfold small, is_fixed. destruct (size_of t) as [n|] eqn:En; [auto|right].
    unfold slen in *. rewrite Hd. pose proof (seen_len t (s_data s) En). lia.
Qed.

(** ** Types that never panic *)
Lemma tame_whole x c : sp_multi x = false -> sp_whole x c = true.
Proof.
  intros H. destruct x; try reflexivity. cbn [sp_multi sp_whole] in *. destruct c as [b|]; [|reflexivity].
  destruct (sp_size x) as [n|]; [|reflexivity]. apply negb_false_iff in H. apply N.eqb_eq in H. subst n.
  rewrite N.mod_1_r. reflexivity.
Qed.
Lemma tame_reads t : sp_tame t = true -> forall d, sp_reads t d = true.
Proof.
  induction t using ty_ind'; intros Ht d; try reflexivity.
  - cbn [sp_tame] in Ht. apply andb_true_iff in Ht as [H1 H2]. apply negb_true_iff in H1. cbn [sp_reads].
    destruct (sp_size t); [reflexivity|]. apply forallb_forall. intros c _.
    rewrite tame_whole by assumption. now rewrite IHt.
  - cbn [sp_tame] in Ht. apply andb_true_iff in Ht as [H1 H2]. apply negb_true_iff in H1. cbn [sp_reads].
    destruct (sp_size t); [reflexivity|]. destruct (match d with Some b => b | None => [] end) eqn:E; [reflexivity|].
    rewrite tame_whole by assumption. now rewrite IHt.
  - cbn [sp_tame] in Ht. cbn [sp_reads]. destruct (sp_size (TTuple ts)); [reflexivity|].
    generalize (sp_struct_children (map (fun t => (sp_align t, sp_size t)) ts)
       match d with Some b => b | None => [] end).
    induction H as [|t ts Ht0 _ IH]; intros cs; [reflexivity|]. cbn [forallb] in Ht.
    apply andb_true_iff in Ht as [Ht1 Ht2]. destruct cs as [|c cs]; [reflexivity|].
    rewrite Ht0 by assumption. now rewrite IH.
  - cbn [sp_tame] in Ht. apply andb_true_iff in Ht as [H1 H2]. cbn [sp_reads].
    destruct (sp_size _); [reflexivity|].
    destruct (sp_struct_children _ _) as [|a [|b [|c l]]]; try reflexivity. now rewrite IHt1, IHt2.
Qed.
