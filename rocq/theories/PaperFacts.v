(** Where no documented deviation applies, reading follows the Specification: C95. *)
From Verif Require Import Base Types Layout AlignedBytes Strs Spec Deser Histories LongSpec PaperSpec
  BaseFacts TypesFacts LayoutFacts AlignedFacts Utf8Facts DeserFacts ArrayFacts StructFacts ReadFacts AccessFacts ReadClaims
  EqFacts EncFacts RoundFacts LongFacts.
From Coq Require Import Lia ZifyBool ZifyNat ZifyN.

Definition cut_at (d : list byte) (limit : N) (r : option (N * N)) : option (list byte) :=
  match r with Some (a, b) => cut d a b limit | None => None end.
Lemma cut_pa d limit rs : limit <= len d -> pa_apart d limit rs = true ->
  map (fun c => opt_bytes c) (map (cut_at d limit) rs) = map (pa_bytes d) rs.
Proof.
  intros Hl H. rewrite map_map. apply map_ext_in. intros [[a b]|] Hin; [|reflexivity].
  unfold pa_apart in H. rewrite forallb_forall in H. specialize (H _ Hin). cbn beta iota in H.
  cbn [cut_at pa_bytes]. unfold cut.
  destruct (a <=? b) eqn:E1; [|reflexivity]. destruct (b <=? limit) eqn:E2; cbn [andb].
  - replace (b <=? len d) with true by lia. reflexivity.
  - destruct (b <=? len d) eqn:E3; [|reflexivity].
    replace (limit <? b) with true in H by lia. destruct (a <? b) eqn:E4; [discriminate|].
    replace (b - a) with 0 by lia. reflexivity.
Qed.
Lemma cut_apart d limit rs : ~ In None (map (cut_at d limit) rs) -> pa_apart d limit rs = true.
Proof.
  intros H. apply forallb_forall. intros [[a b]|] Hin; [|reflexivity].
  destruct (limit <? b) eqn:E; [|now rewrite andb_false_r]. exfalso. apply H.
  apply in_map_iff. exists (Some (a, b)). split; [|exact Hin]. cbn [cut_at]. unfold cut.
  replace (b <=? limit) with false by lia. now rewrite andb_false_r.
Qed.
(** ** Arrays *)
Lemma array_cut_map al d limit ends : forall prev,
  sp_array_cut al d limit prev ends = map (cut_at d limit) (pa_array_ranges al prev ends).
Proof. induction ends as [|e r IH]; intros prev; cbn; [reflexivity|]. f_equal. apply IH. Qed.
Lemma array_children_map al d :
  sp_array_children al d = map (cut_at d (fst (pa_ends d))) (pa_array_ranges al 0 (snd (pa_ends d))).
Proof.
  unfold sp_array_children, pa_ends. destruct (len d =? 0) eqn:E0.
  - replace (0 <? len d) with false by lia. reflexivity.
  - replace (0 <? len d) with true by lia. cbn [andb]. destruct (_ && _); [|reflexivity]. cbn [fst snd].
    apply array_cut_map.
Qed.
Lemma pa_ends_le d : fst (pa_ends d) <= len d.
Proof. unfold pa_ends. destruct (_ && _) eqn:E; cbn [fst]; lia. Qed.
(** ** Structures *)
Lemma struct_cut_map d w lim k : w = sp_width (len d) -> w * k <= len d -> forall items prev nth,
  (items <> [] -> nth + sp_n_offsets items = k) ->
  sp_struct_cut d w lim prev nth items = map (cut_at d lim) (pa_struct_ranges d (Some lim) (Some prev) nth items).
Proof.
  intros -> Hk. induction items as [|[al [s|]] rest IH]; intros prev nth Hn; cbn [sp_struct_cut pa_struct_ranges map option_map]; [reflexivity| |].
  - cbn [cut_at]. f_equal. apply IH. intros Hr. specialize (Hn ltac:(discriminate)). destruct rest; [congruence|]. exact Hn.
  - destruct rest as [|it rest]; [reflexivity|]. specialize (Hn ltac:(discriminate)).
    change (sp_n_offsets ((al, None) :: it :: rest)) with (1 + sp_n_offsets (it :: rest)) in Hn.
    assert (Eo : pa_offset d nth = Some (le_num (sub d (len d - sp_width (len d) * (nth + 1)) (sp_width (len d))))).
    { unfold pa_offset. replace (_ <=? _) with true; [reflexivity|]. symmetry. apply N.leb_le.
      assert (sp_width (len d) * (nth + 1) <= sp_width (len d) * k) by (apply N.mul_le_mono_l; lia). lia. }
    rewrite Eo. cbn [cut_at]. f_equal. apply IH. intros _. lia.
Qed.
Lemma struct_cut_fixed d w w' lim : forall items prev nth, Forall (fun i => snd i <> None) items ->
  sp_struct_cut d w lim prev nth items = sp_struct_cut d w' lim prev nth items.
Proof.
  induction items as [|[al [s|]] rest IH]; intros prev nth H; inversion H; subst; cbn [sp_struct_cut] in *; [reflexivity| |].
  - f_equal. auto.
  - cbn [snd] in *. congruence.
Qed.
Lemma n_offsets_fixed items : Forall (fun i => snd i <> None) items -> sp_n_offsets items = 0.
Proof.
  induction items as [|[al [s|]] rest IH]; intros H; inversion H; subst; cbn [snd] in *; try congruence; cbn; auto.
  destruct rest; auto.
Qed.
Lemma apart_fixed d : forall items prev nth, Forall (fun i => snd i <> None) items ->
  pa_apart d (len d) (pa_struct_ranges d (Some (len d)) prev nth items) = true.
Proof.
  assert (G : forall r, (match r with Some (a, b) => negb ((a <? b) && (b <=? len d) && (len d <? b)) | None => true end) = true).
  { intros [[a b]|]; [|reflexivity]. destruct (b <=? len d) eqn:E; [|now rewrite andb_false_r].
    replace (len d <? b) with false by lia. now rewrite andb_false_r. }
  intros items prev nth _. apply forallb_forall. intros r _. apply G.
Qed.
(** What the reader of a structure sees, both ways. *)
Definition lies (t : ty) (d : list byte) : bool :=
  match pa_limit (items_of (children_of t)) d with
  | Some limit => pa_apart d limit (pa_struct_ranges d (Some limit) (Some 0) 0 (items_of (children_of t)))
  | None => false
  end.
Lemma items_fixed t n : is_struct t -> size_of t = Some n -> Forall (fun i => snd i <> None) (items_of (children_of t)).
Proof.
  intros Hs Hn. pose proof (fixed_children t n Hs Hn) as H. unfold items_of. rewrite Forall_forall in *.
  intros i Hi. apply in_map_iff in Hi as (c & <- & Hc). specialize (H c Hc). unfold is_fixed in H. cbn [snd].
  destruct (size_of c); [discriminate|discriminate].
Qed.
Lemma struct_cuts_pa t d : is_struct t -> size_good t (blen d) -> (size_of t = None -> lies t d = true) ->
  map (fun c => opt_bytes c) (struct_cuts t d) = pa_struct (items_of (children_of t)) d.
Proof.
  intros Hs Hg Hl. unfold struct_cuts, pa_struct. unfold size_good in Hg.
  destruct (size_of t) as [n|] eqn:En.
  - pose proof (items_fixed t n Hs En) as Hf. set (items := items_of (children_of t)) in *.
    unfold pa_limit. rewrite (n_offsets_fixed items Hf), N.mul_0_r. replace (0 <=? len d) with true by lia.
    rewrite N.sub_0_r. subst n.
    rewrite (struct_cut_fixed d 0 (sp_width (len d))) by assumption.
    rewrite (struct_cut_map d _ (blen d) 0) by (auto; intros; rewrite ?n_offsets_fixed by assumption; lia).
    change (blen d) with (len d). apply cut_pa; [apply N.le_refl|]. apply apart_fixed. exact Hf.
  - specialize (Hl eq_refl). unfold lies in Hl. set (items := items_of (children_of t)) in *.
    unfold sp_struct_children. unfold pa_limit in *.
    destruct (sp_width (len d) * sp_n_offsets items <=? len d) eqn:E; [|discriminate].
    rewrite (struct_cut_map d _ _ (sp_n_offsets items)) by (auto; lia).
    apply cut_pa; [lia|exact Hl].
Qed.
(** ** Strings *)
Lemma to_nul_free s : ~ In x00 s -> to_nul (s ++ [x00]) = s.
Proof.
  induction s as [|b s IH]; intros H; [reflexivity|]. cbn [app to_nul].
  destruct (Byte.eqb b x00) eqn:E. { apply Byte.byte_dec_bl in E. subst. exfalso. apply H. now left. }
  f_equal. apply IH. intros G. apply H. now right.
Qed.
Lemma terminated_last d : terminated d = true -> d = removelast d ++ [x00].
Proof.
  destruct d as [|b d]; [discriminate|]. unfold terminated. intros H. apply Byte.byte_dec_bl in H.
  rewrite (app_removelast_last x01) at 1 by discriminate. now rewrite H.
Qed.
Lemma sp_string_terminated d : sp_string d =
  if terminated d && sp_utf8 (removelast d) && sp_nul_free (removelast d) then removelast d else [].
Proof. destruct d; reflexivity. Qed.
Lemma text_same d : pa_text d = true ->
  sp_string d = (if terminated d then removelast d else []) /\ pa_string d = sp_string d.
Proof.
  unfold pa_text, pa_string. rewrite sp_string_terminated. destruct (terminated d) eqn:E; cbn [negb orb andb]; [|auto].
  intros H. rewrite H. split; [reflexivity|]. apply andb_true_iff in H as [_ H]. unfold sp_nul_free in H.
  destruct (in_dec _ _ _) as [Hi|Hi]; [discriminate|]. rewrite (terminated_last d E) at 1. now apply to_nul_free.
Qed.
(** ** The whole *)
Lemma decode_opt big t c : sp_decode big t c = sp_decode big t (Some (opt_bytes c)).
Proof.
  destruct c as [b|]; [reflexivity|]. rewrite sp_decode_norm. symmetry. rewrite sp_decode_norm. do 2 f_equal. cbn [opt_bytes].
  destruct (size_of t) as [n|] eqn:En.
  - rewrite !(norm_fixed t n) by assumption. pose proof (size_of_props t n En) as [Hp _].
    replace (len (@nil byte) =? n) with false by (symmetry; apply N.eqb_neq; change (len (@nil byte)) with 0; lia). reflexivity.
  - unfold norm, seen_bytes, default_bytes. rewrite En. destruct (size_good_dec _ _); reflexivity.
Qed.
Definition padec_all (nm : names) (big : bool) (ts : list ty) (cs : list (list byte)) : list value :=
  map (fun p => pa_decode nm big (fst p) (snd p)) (combine ts cs).
Lemma pa_struct_ranges_length d lim items : forall prev nth, length (pa_struct_ranges d lim prev nth items) = length items.
Proof. induction items as [|[al s] items IH]; intros; cbn [pa_struct_ranges length]; auto. Qed.
Lemma pa_struct_length items d : length (pa_struct items d) = length items.
Proof. unfold pa_struct. now rewrite map_length, pa_struct_ranges_length. Qed.
Definition sized_as (t : ty) (d : list byte) : list byte :=
  match size_of t with Some n => if len d =? n then d else nuls n | None => d end.
Lemma pa_decode_struct nm big t d : is_struct t ->
  pa_decode nm big t d = VTuple (padec_all nm big (children_of t) (pa_struct (items_of (children_of t)) (sized_as t d))).
Proof.
  intros Hs. unfold padec_all, sized_as.
  destruct t as [| | | | | | | | | | | | |x|x|ts|k v]; cbn [is_struct] in Hs; try tauto; cbn [pa_decode children_of];
    rewrite sp_size_of, sp_items_of.
  - f_equal. generalize (pa_struct (items_of ts)
      match size_of (TTuple ts) with Some n => if len d =? n then d else nuls n | None => d end). clear.
    induction ts as [|t ts IH]; intros [|c cs]; cbn [combine map]; try reflexivity. cbn [fst snd]. f_equal. apply IH.
  - pose proof (pa_struct_length (items_of [k; v])
      match size_of (TDict k v) with Some n => if len d =? n then d else nuls n | None => d end) as Hl.
    change (length (items_of [k; v])) with 2%nat in Hl.
    destruct (pa_struct _ _) as [|a [|b [|c l]]]; cbn [length] in Hl; try lia. reflexivity.
Qed.
Definition plain_all (nm : names) (ts : list ty) (cs : list (list byte)) : bool :=
  forallb (fun p => pa_plain nm (fst p) (snd p)) (combine ts cs).
Lemma pa_plain_struct nm t d : is_struct t -> size_of t = None ->
  pa_plain nm t d = lies t d && plain_all nm (children_of t) (pa_struct (items_of (children_of t)) d).
Proof.
  intros Hs Hn. unfold plain_all, lies.
  destruct t as [| | | | | | | | | | | | |x|x|ts|k v]; cbn [is_struct] in Hs; try tauto; cbn [pa_plain children_of];
    rewrite sp_size_of, Hn, sp_items_of; f_equal.
  - generalize (pa_struct (items_of ts) d). clear.
    induction ts as [|t ts IH]; intros [|c cs]; cbn [combine forallb]; try reflexivity. cbn [fst snd]. f_equal. apply IH.
  - pose proof (pa_struct_length (items_of [k; v]) d) as Hl.
    change (length (items_of [k; v])) with 2%nat in Hl.
    destruct (pa_struct _ _) as [|a [|b [|c l]]]; cbn [length] in Hl; try lia. cbn [combine forallb fst snd]. now rewrite andb_true_r.
Qed.
Lemma pa_plain_fixed nm t n d : size_of t = Some n -> pa_plain nm t d = true.
Proof. intros Hn. destruct t; try reflexivity; try discriminate; cbn [pa_plain]; rewrite sp_size_of, Hn; reflexivity. Qed.

Lemma paper_decode nm big t : forall d, pa_plain nm t d = true -> sp_decode big t (Some d) = pa_decode nm big t d.
Proof.
  induction t as [t Hns IH|t Hs IH] using ty_struct_ind; intros d Hp.
  - destruct t as [| | | | | | | | | | | | |x|x|ts|a b]; cbn [is_struct] in Hns; try tauto; try reflexivity;
      cbn [pa_plain sp_decode pa_decode] in *.
    + destruct (text_same d Hp) as [_ ->]. reflexivity.
    + apply andb_true_iff in Hp as [Hp Hk]. apply andb_true_iff in Hp as [Hp Ht].
      destruct (text_same d Hp) as [-> _]. now rewrite Ht, Hk.
    + apply andb_true_iff in Hp as [Hp Hk]. destruct (text_same d Hp) as [-> _].
      destruct (terminated d); [|reflexivity]. cbn [negb orb] in Hk. now rewrite Hk.
    + unfold sp_variant. destruct (sp_split_last d) as [[data ts]|]; [|reflexivity]. now rewrite Hp.
    + f_equal. rewrite sp_size_of in *. destruct (size_of x) as [n|] eqn:En.
      * destruct (_ =? 0); [|reflexivity]. rewrite map_map. apply map_ext. intros c.
        apply (IH x (or_introl eq_refl)). now apply (pa_plain_fixed nm x n).
      * apply andb_true_iff in Hp as [Ha Hp]. unfold pa_array in *. rewrite <- (cut_pa d (fst (pa_ends d))) in * by (auto; apply pa_ends_le).
        rewrite <- array_children_map in *. rewrite map_map. apply map_ext_in. intros c Hc.
        rewrite decode_opt. apply (IH x (or_introl eq_refl)). rewrite forallb_forall in Hp. apply Hp.
        apply in_map_iff. exists c. auto.
    + f_equal. rewrite sp_size_of in *. destruct (size_of x) as [n|] eqn:En.
      * destruct (_ =? n); [|reflexivity]. f_equal. apply (IH x (or_intror eq_refl)). now apply (pa_plain_fixed nm x n).
      * destruct d as [|b d]; [reflexivity|]. f_equal. apply (IH x (or_intror eq_refl)). exact Hp.
  - rewrite pa_decode_struct by assumption.
    assert (En : sp_decode big t (Some d) = sp_decode big t (Some (sized_as t d))).
    { unfold sized_as. destruct (size_of t) as [n|] eqn:En; [|reflexivity].
      rewrite (sp_decode_norm big t (Some d)), (norm_fixed t n) by assumption. reflexivity. }
    assert (Hg : size_good t (blen (sized_as t d))).
    { unfold size_good, sized_as. destruct (size_of t) as [n|] eqn:E.
      - destruct (len d =? n) eqn:El; [change (len d) with (blen d) in El; lia|]. unfold nuls. apply blen_zeros.
      - destruct t; auto. cbn [is_struct] in Hs. tauto. }
    rewrite En, sp_decode_struct by assumption. f_equal. clear En.
    assert (Hpl : (size_of t = None -> lies t (sized_as t d) = true) /\
      plain_all nm (children_of t) (pa_struct (items_of (children_of t)) (sized_as t d)) = true).
    { destruct (size_of t) as [n|] eqn:En.
      - split; [discriminate|]. unfold plain_all. apply forallb_forall. intros [c b] Hin. cbn [fst snd].
        pose proof (fixed_children t n Hs En) as Hfx. rewrite Forall_forall in Hfx.
        specialize (Hfx c (in_combine_l _ _ _ _ Hin)). unfold is_fixed in Hfx. destruct (size_of c) as [m|] eqn:Em; [|discriminate].
        now apply (pa_plain_fixed nm c m).
      - unfold sized_as. rewrite En. rewrite pa_plain_struct in Hp by assumption. apply andb_true_iff in Hp as [H1 H2]. auto. }
    destruct Hpl as [Hli Hpl]. rewrite <- struct_cuts_pa in * by assumption.
    pose proof (struct_cuts_length t (sized_as t d)) as Hlen.
    revert Hpl Hlen IH. generalize (struct_cuts t (sized_as t d)). generalize (children_of t). clear.
    unfold dec_all, padec_all, plain_all.
    intros cs. induction cs as [|c cs IHc]; intros [|x cuts] Hpl Hlen IH; cbn [combine map length forallb fst snd] in *; try reflexivity; try lia.
    apply andb_true_iff in Hpl as [H1 H2]. inversion IH; subst. f_equal; [|apply IHc; auto].
    rewrite decode_opt. auto.
Qed.

Lemma paper_claim nm h t s : usable t -> aligned (sp_align t) s -> len (s_data s) < 2 ^ 63 ->
  sp_near t (Some (s_data s)) = true -> pa_plain nm t (s_data s) = true ->
  decode h t s = if sp_reads t (Some (s_data s)) then Ok (pa_decode nm (h_big_endian h) t (s_data s)) else Crash PUnwrap.
Proof. intros. rewrite long_claim by assumption. now rewrite (paper_decode nm). Qed.

(** ** Normal forms *)
Lemma named_struct nm t vs : is_struct t -> length vs = length (children_of t) ->
  pa_named nm t (VTuple vs) = forallb (fun p => pa_named nm (fst p) (snd p)) (combine (children_of t) vs).
Proof.
  intros Hs Hl. destruct t as [| | | | | | | | | | | | |x|x|ts|a b]; cbn [is_struct] in Hs; try tauto; cbn [pa_named children_of] in *.
  - clear. revert vs. induction ts as [|t ts IH]; intros [|v vs]; cbn [combine forallb fst snd]; try reflexivity. f_equal. apply IH.
  - destruct vs as [|x [|y [|]]]; cbn [length] in Hl; try lia. cbn [combine forallb fst snd]. now rewrite andb_true_r.
Qed.
Lemma split_last_app data ts : ~ In x00 ts -> sp_split_last (data ++ x00 :: ts) = Some (data, ts).
Proof.
  intros H. assert (G : sp_split_last ts = None).
  { induction ts as [|b ts IH]; [reflexivity|]. cbn [sp_split_last]. rewrite IH by (intros G; apply H; now right).
    destruct (Byte.eqb b x00) eqn:E; [|reflexivity]. apply Byte.byte_dec_bl in E. subst. exfalso. apply H. now left. }
  induction data as [|b data IH]; cbn [app sp_split_last]; [now rewrite G|]. now rewrite IH.
Qed.
Lemma terminated_app s : terminated (s ++ [x00]) = true.
Proof. unfold terminated. destruct (s ++ [x00]) eqn:E; [destruct s; discriminate|]. rewrite <- E, last_last. reflexivity. Qed.
Lemma good_text s : good_string s -> pa_text (s ++ [x00]) = true.
Proof.
  intros [H1 H2]. unfold pa_text. rewrite terminated_app, removelast_last. cbn [negb orb].
  apply sp_utf8_ok in H1. rewrite H1. unfold sp_nul_free. destruct (in_dec _ _ _); [tauto|reflexivity].
Qed.
Lemma plain_encode nm big t : forall v, sp_typed t v -> pa_named nm t v = true -> len (sp_encode big t v) < 2 ^ 63 ->
  pa_plain nm t (sp_encode big t v) = true.
Proof.
  unfold sp_encode.
  induction t as [t Hns IH|t Hs IH] using ty_struct_ind; intros v Ht Hv Hl.
  - destruct t as [| | | | | | | | | | | | |x|x|ts|a b]; cbn [is_struct] in Hns; try tauto; try reflexivity;
      destruct v as [z|bits|b|s|s d|vs|o|vs]; cbn [sp_typed] in Ht; try tauto; cbn [sp_bytes pa_plain pa_named] in *.
    + now apply good_text.
    + rewrite good_text, terminated_app, removelast_last by assumption. exact Hv.
    + rewrite good_text, terminated_app, removelast_last by assumption. exact Hv.
    + change (d ++ [x00] ++ s) with (d ++ x00 :: s). now rewrite split_last_app.
    + change (sp_typed (TA x) (VArray vs)) in Ht. rewrite typed_array in Ht.
      rewrite sp_fixed_of, sp_size_of in *. unfold is_fixed in *.
      destruct (size_of x) as [n|] eqn:En; [reflexivity|].
      destruct (array_bytes_cut false (sp_align x) (map (sp_bytes false big x) vs)) as [HC _];
        [rewrite sp_align_of; auto with al|lia|]. specialize (HC ltac:(now left)).
      set (d := sp_array_bytes false (sp_align x) (map (sp_bytes false big x) vs)) in *.
      assert (Hap : pa_apart d (fst (pa_ends d)) (pa_array_ranges (sp_align x) 0 (snd (pa_ends d))) = true).
      { apply cut_apart. rewrite <- array_children_map, HC. apply some_none. }
      rewrite Hap. cbn [andb]. unfold pa_array. rewrite <- (cut_pa d (fst (pa_ends d))) by (auto; apply pa_ends_le).
      rewrite <- array_children_map, HC, map_map. cbn [opt_bytes]. rewrite map_id.
      apply forallb_forall. intros c Hc. apply in_map_iff in Hc as (v & <- & Hvi).
      rewrite Forall_forall in Ht. rewrite forallb_forall in Hv.
      apply (IH x (or_introl eq_refl)); auto.
      pose proof (array_bytes_len false (align_of x) (map (sp_bytes false big x) vs) (sp_bytes false big x v)) as H.
      unfold d in Hl. rewrite sp_align_of in Hl. apply (in_map (sp_bytes false big x)) in Hvi. specialize (H ltac:(auto with al) Hvi). lia.
    + destruct o as [v|]; [|rewrite sp_size_of; destruct (size_of x); reflexivity].
      rewrite sp_fixed_of, sp_size_of in *. unfold is_fixed in *.
      destruct (size_of x) as [n|] eqn:En; [reflexivity|].
      destruct (sp_bytes false big x v ++ [x00]) eqn:E; [destruct (sp_bytes false big x v); discriminate|]. rewrite <- E in *.
      rewrite removelast_last. apply (IH x (or_intror eq_refl)); auto.
      change @len with @blen in *. rewrite blen_app in Hl. lia.
  - destruct (size_of t) as [n|] eqn:En; [now rewrite (pa_plain_fixed nm t n)|].
    destruct (typed_struct t v Hs Ht) as (vs & -> & HF).
    pose proof (Forall2_length _ _ _ HF) as Hlen.
    destruct (struct_bytes_cuts false big t vs Hs HF) as [Hc Hg]; [lia|].
    rewrite named_struct in Hv by auto.
    set (d := sp_bytes false big t (VTuple vs)) in *.
    assert (Hli : lies t d = true).
    { unfold struct_cuts in Hc. rewrite En in Hc. unfold lies, sp_struct_children, pa_limit in *.
      destruct (sp_width (len d) * sp_n_offsets (items_of (children_of t)) <=? len d) eqn:E.
      - apply cut_apart. rewrite <- (struct_cut_map d (sp_width (len d)) _ (sp_n_offsets (items_of (children_of t)))) by (auto; lia).
        rewrite Hc. apply some_none.
      - exfalso. assert (Hch : children_of t <> []).
        { intros G. destruct t as [| | | | | | | | | | | | |x|x|ts|a b]; cbn [is_struct children_of] in *; try tauto; try discriminate.
          subst. discriminate. }
        unfold enc_all in Hc. destruct (children_of t) as [|c0 cs0]; [congruence|]. destruct vs as [|v0 vs0]; [discriminate|].
        cbn in Hc. discriminate. }
    rewrite pa_plain_struct by assumption. rewrite Hli. cbn [andb].
    rewrite <- struct_cuts_pa by auto. rewrite Hc, map_map. cbn [opt_bytes]. rewrite map_id.
    unfold plain_all, enc_all. apply forallb_forall. intros [c b] Hin. cbn [fst snd].
    assert (G : exists v, In (c, v) (combine (children_of t) vs) /\ b = sp_bytes false big c v).
    { clear -Hin. revert vs Hin. induction (children_of t) as [|c0 cs IH]; intros [|v vs] Hin; cbn [combine map] in *; try contradiction.
      destruct Hin as [Hin|Hin].
      - inversion Hin; subst. exists v. split; [now left|reflexivity].
      - destruct (IH vs Hin) as (w & Hw & ->). exists w. split; [now right|reflexivity]. }
    destruct G as (v & Hvi & ->). rewrite Forall_forall in IH. apply IH.
    + eapply in_combine_l; eauto.
    + pose proof (Forall2_combine _ _ _ HF) as G. rewrite Forall_forall in G. exact (G _ Hvi).
    + rewrite forallb_forall in Hv. exact (Hv _ Hvi).
    + assert (Hle : len (sp_bytes false big c v) <= len (sp_bytes false big t (VTuple vs))).
      { apply enc_len; auto. unfold enc_all. apply in_map_iff. exists (c, v). auto. }
      fold d in Hle. lia.
Qed.
Lemma paper_normal nm big t v : sp_typed t v -> pa_named nm t v = true -> len (sp_encode big t v) < 2 ^ 63 ->
  pa_plain nm t (sp_encode big t v) = true /\ pa_decode nm big t (sp_encode big t v) = v.
Proof.
  intros Ht Hv Hl. pose proof (plain_encode nm big t v Ht Hv Hl) as Hp. split; [exact Hp|].
  rewrite <- paper_decode by assumption. destruct (encode_back big t v Ht) as (E & _); [lia|]. congruence.
Qed.

(** ** The deviations *)
Lemma simple_decode nm h t s : sp_near t (Some (s_data s)) = true -> sp_reads t (Some (s_data s)) = true ->
  usable t -> aligned (sp_align t) s -> len (s_data s) < 2 ^ 63 ->
  decode h t s = Ok (sp_decode (h_big_endian h) t (Some (s_data s))) /\
  (sp_decode (h_big_endian h) t (Some (s_data s)) <> pa_decode nm (h_big_endian h) t (s_data s) ->
   decode h t s <> Ok (pa_decode nm (h_big_endian h) t (s_data s))).
Proof.
  intros H1 H2 H3 H4 H5. assert (E : decode h t s = Ok (sp_decode (h_big_endian h) t (Some (s_data s)))).
  { rewrite long_claim by assumption. now rewrite H2. }
  split; [exact E|]. rewrite E. intros H G. apply H. congruence.
Qed.
Lemma string_deviates nm h s : len (s_data s) < 2 ^ 63 -> terminated (s_data s) = true -> pa_text (s_data s) = false ->
  decode h TS s = Ok (VStr []) /\ pa_decode nm (h_big_endian h) TS (s_data s) = VStr (to_nul (s_data s)).
Proof.
  intros Hl Ht Hp. destruct (simple_decode nm h TS s) as [E _]; auto; try reflexivity; try (split; reflexivity).
  { apply N.mod_1_r. }
  split.
  - rewrite E. cbn [sp_decode]. rewrite sp_string_terminated, Ht. unfold pa_text in Hp. rewrite Ht in Hp. cbn [negb orb] in Hp.
    cbn [andb]. now rewrite Hp.
  - cbn [pa_decode]. unfold pa_string. now rewrite Ht.
Qed.
Lemma good_sp_string x : good_string x -> sp_string (x ++ [x00]) = x.
Proof.
  intros H. pose proof (good_text x H) as G. apply text_same in G as [G _]. rewrite G, terminated_app. apply removelast_last.
Qed.
Lemma path_deviates nm h a x : good_string x -> len x + 1 < 2 ^ 63 -> ok_path nm x = false ->
  decode h TO (Slice a (x ++ [x00])) = Ok (VStr x) /\ pa_decode nm (h_big_endian h) TO (x ++ [x00]) = VStr ["/"%byte].
Proof.
  intros Hx Hl Hp. destruct (simple_decode nm h TO (Slice a (x ++ [x00]))) as [E _]; auto; try reflexivity; try (split; reflexivity).
  { apply N.mod_1_r. } { cbn [s_data]. change @len with @blen in *. rewrite blen_app. exact Hl. }
  split; [rewrite E; cbn [sp_decode s_data]; now rewrite good_sp_string|].
  cbn [pa_decode]. rewrite terminated_app, removelast_last. cbn [andb]. now rewrite Hp.
Qed.
Lemma sig_deviates nm h a x : good_string x -> len x + 1 < 2 ^ 63 -> ok_sig nm x = false ->
  decode h TG (Slice a (x ++ [x00])) = Ok (VStr x) /\ pa_decode nm (h_big_endian h) TG (x ++ [x00]) = VStr [].
Proof.
  intros Hx Hl Hp. destruct (simple_decode nm h TG (Slice a (x ++ [x00]))) as [E _]; auto; try reflexivity; try (split; reflexivity).
  { apply N.mod_1_r. } { cbn [s_data]. change @len with @blen in *. rewrite blen_app. exact Hl. }
  split; [rewrite E; cbn [sp_decode s_data]; now rewrite good_sp_string|].
  cbn [pa_decode]. rewrite terminated_app, removelast_last. cbn [andb]. now rewrite Hp.
Qed.
Lemma variant_deviates nm h a data ts : a mod 8 = 0 -> ~ In x00 ts -> len data + len ts + 1 < 2 ^ 63 -> ok_type nm ts = false ->
  decode h TV (Slice a (data ++ x00 :: ts)) = Ok (VVariant ts data) /\
  pa_decode nm (h_big_endian h) TV (data ++ x00 :: ts) = VVariant ["("; ")"]%byte [].
Proof.
  intros Ha Hx Hl Hp. destruct (simple_decode nm h TV (Slice a (data ++ x00 :: ts))) as [E _]; auto; try reflexivity; try (split; reflexivity).
  { cbn [s_data]. change @len with @blen in *. rewrite blen_app, blen_cons. lia. }
  split; [rewrite E; cbn [sp_decode s_data]; unfold sp_variant; now rewrite split_last_app|].
  cbn [pa_decode]. rewrite split_last_app by assumption. now rewrite Hp.
Qed.
Lemma overlap_deviates nm h a :
  (decode h (TA TS) (Slice a [x61; x03; x00; x01]) = Ok (VArray [VStr []; VStr []; VStr []]) /\
   pa_decode nm (h_big_endian h) (TA TS) [x61; x03; x00; x01] = VArray [VStr [x61; x03]; VStr []; VStr []]) /\
  (decode h (TTuple [TS; TS; TS]) (Slice a [x61; x00; x02]) = Ok (VTuple [VStr []; VStr []; VStr []]) /\
   pa_decode nm (h_big_endian h) (TTuple [TS; TS; TS]) [x61; x00; x02] = VTuple [VStr (bs "a"); VStr []; VStr []]).
Proof.
  split; split; try reflexivity.
  - destruct (simple_decode nm h (TA TS) (Slice a [x61; x03; x00; x01])) as [E _]; auto; try reflexivity; try (split; reflexivity).
    apply N.mod_1_r.
  - destruct (simple_decode nm h (TTuple [TS; TS; TS]) (Slice a [x61; x00; x02])) as [E _]; auto; try reflexivity; try (split; reflexivity).
    apply N.mod_1_r.
Qed.
