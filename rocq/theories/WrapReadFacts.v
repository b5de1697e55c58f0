(** Reading where sums wrap around: proofs. *)
From Verif Require Import Base Types Layout AlignedBytes Strs Spec Deser Histories LongSpec WrapSpec
  BaseFacts TypesFacts LayoutFacts AlignedFacts Utf8Facts DeserFacts ArrayFacts StructFacts ReadFacts AccessFacts ReadClaims.
From Coq Require Import Lia ZifyBool ZifyNat ZifyN.
Ltac Zify.zify_post_hook ::= Z.div_mod_to_equations.

(** ** Arithmetic *)
Lemma wrap_lim x : wrap x = x mod usize_lim. Proof. reflexivity. Qed.
Lemma wrap_small x : x < 2 ^ 64 -> wrap x = x.
Proof. intros. unfold wrap. now apply N.mod_small. Qed.
Lemma wrap_add x y : wrap (wrap x + y) = wrap (x + y).
Proof. unfold wrap. rewrite N.add_mod_idemp_l by discriminate. reflexivity. Qed.
Lemma wrap_mod A x : is_alignment A -> wrap x mod A = x mod A.
Proof. apply usize_mod_alignment. Qed.
Lemma pad_wrap A x : is_alignment A -> wrap (pad_to A (wrap x)) = wrap (pad_to A x).
Proof. intros HA. unfold pad_to. rewrite (wrap_mod A x HA). apply wrap_add. Qed.
Lemma uadd_wrap h x y : h_overflow_checks h = false -> uadd h x y = Ok (wrap (x + y)).
Proof.
  intros Ho. unfold uadd. rewrite Ho. destruct (x + y <? usize_lim) eqn:E; [|reflexivity].
  rewrite wrap_small by (unfold usize_lim in E; lia). reflexivity.
Qed.
Lemma align_offset_wrap h A x : h_overflow_checks h = false -> is_alignment A -> x < usize_lim ->
  align_offset h A x = Ok (wrap (pad_to A x)).
Proof.
  intros Ho HA Hx. destruct (N.lt_ge_cases (x + A) usize_lim) as [Hlt|Hge].
  { rewrite align_offset_ok by assumption. f_equal. symmetry. apply wrap_small.
    pose proof (pad_to_lt A x HA). unfold usize_lim in *. lia. }
  unfold align_offset. rewrite uadd_wrap by assumption. cbn [bind].
  assert (H8 : A <= 8) by (destruct HA as [->|[->|[->| ->]]]; lia).
  assert (Hw : wrap (x + A) = x + A - usize_lim).
  { rewrite wrap_lim. unfold usize_lim in *. lia. }
  rewrite Hw. destruct (N.eq_dec (x + A) usize_lim) as [He|Hne].
  - rewrite He, N.sub_diag. unfold usub at 1. rewrite Ho. 
    assert (Hx2 : x = usize_lim - A) by lia. rewrite Hx2.
    destruct HA as [->|[->|[->| ->]]]; reflexivity.
  - rewrite usub_ok by lia. cbn [bind].
    assert (Hr : exists r, r < A - 1 /\ x + A - usize_lim - 1 = r /\ x = usize_lim + 1 + r - A).
    { exists (x + A - usize_lim - 1). lia. }
    destruct Hr as (r & Hr & -> & ->).
    destruct HA as [->|[->|[->| ->]]]; rewrite usub_ok by lia; cbn [bind]; try lia.
    + assert (r = 0) as -> by lia. reflexivity.
    + assert (r = 0 \/ r = 1 \/ r = 2) as [->|[->| ->]] by lia; reflexivity.
    + assert (r = 0 \/ r = 1 \/ r = 2 \/ r = 3 \/ r = 4 \/ r = 5 \/ r = 6) as H by lia.
      decompose [or] H; subst r; reflexivity.
Qed.

(** ** Elements *)
Definition w_arr_cut (al : N) (d : list byte) (i : N) : option (list byte) :=
  cut d (wrap (pad_to al (arr_prev d i))) (arr_end d i) (arr_lfo d).
Lemma w_array_cut_map al d k : forall i,
  w_array_cut al d (arr_lfo d) (arr_prev d i) (map (arr_end d) (indices i k)) = map (w_arr_cut al d) (indices i k).
Proof.
  induction k as [|k IH]; intros i; [reflexivity|]. rewrite indices_S. cbn [map w_array_cut]. f_equal.
  rewrite <- IH. f_equal. unfold arr_prev. replace (i + 1 =? 0) with false by lia. now rewrite N.add_sub.
Qed.
Lemma w_array_children_map al d :
  w_array_children al d = map (w_arr_cut al d) (indices 0 (N.to_nat (arr_n d))).
Proof.
  unfold w_array_children. change (len d) with (blen d).
  destruct (blen d =? 0) eqn:E0.
  { apply N.eqb_eq in E0. unfold arr_n, arr_lfo. rewrite E0. reflexivity. }
  fold (arr_width d). fold (arr_last d). fold (arr_good d).
  assert (Hpos : 0 < blen d) by lia.
  destruct (arr_good d) eqn:Eg.
  - assert (El : arr_lfo d = arr_last d) by (unfold arr_lfo; now rewrite E0, Eg).
    rewrite <- El. rewrite <- (arr_osz_width d Hpos). fold (arr_n d).
    rewrite <- w_array_cut_map. f_equal. unfold indices. rewrite map_map. apply map_ext.
    intros j. unfold arr_end. now rewrite N.add_0_l.
  - assert (El : arr_lfo d = blen d) by (unfold arr_lfo; now rewrite E0, Eg).
    assert (En : arr_n d = 0).
    { pose proof (arr_lfo_mod d) as H. rewrite El, N.sub_diag in H. pose proof (arr_osz_pos d). nia. }
    rewrite En. reflexivity.
Qed.
Lemma elem_at_wrap h x s i : h_overflow_checks h = false -> macro_ok x = true -> aligned (align_of x) s ->
  size_of x = None -> elem_view h x (w_arr_cut (align_of x) (s_data s) i) (elem_at h x s i).
Proof.
  intros Ho Hm Ha Hn. unfold elem_view, elem_at, w_arr_cut, cut. rewrite trait_align_of.
  rewrite align_offset_wrap by (auto with al; apply arr_prev_bound). cbn [bind].
  pose proof (arr_lfo_le (s_data s)) as Hle.
  set (st := wrap (pad_to (align_of x) (arr_prev (s_data s) i))). set (e := arr_end (s_data s) i).
  assert (Hst : st mod align_of x = 0).
  { unfold st. rewrite wrap_mod by auto with al. apply pad_to_mod; auto with al. }
  destruct ((st <=? e) && (e <=? arr_lfo (s_data s))) eqn:E.
  - assert (Hp : aligned (align_of x) (part s st e)) by (apply aligned_part; auto with al).
    rewrite cast_unwrap_cases by assumption. unfold slen. rewrite part_sub.
    destruct (size_good_dec x _) as [Hg|Hg]; [|reflexivity].
    eexists. split; [reflexivity|]. split; [split; [assumption|]|apply part_sub].
    unfold slen. now rewrite part_sub.
  - destruct (empty_aligned_static h (align_of x)) as (z & -> & Hz & Hza & Hzs); auto with al.
    cbn [bind]. rewrite cast_unwrap_empty by assumption.
    exists z. split; [reflexivity|]. split; [split; [assumption|]|assumption].
    unfold size_good, slen. rewrite Hn, Hz. destruct x; auto.
    destruct (size_of x) as [m|] eqn:Em; [|exact I]. apply size_of_props in Em as [Em _].
    cbn [blen length N.of_nat]. apply N.mod_0_l. lia.
Qed.

(** ** Members *)
Lemma calc_start_wrap h child b fo a c : h_overflow_checks h = false ->
  is_alignment b -> align_of child <= b -> c mod align_of child = 0 -> 
  calc_start h (trait_align child) b fo a c = Ok (wrap (pad_to b (fo + a) + c)).
Proof.
  intros Ho Hb Hle Hc. unfold calc_start. rewrite trait_align_of.
  rewrite uadd_wrap by assumption. cbn [bind].
  rewrite align_offset_wrap by (auto; apply N.mod_lt; discriminate). cbn [bind].
  unfold ao_into. replace (align_of child <=? b) with true by lia. cbn [bind].
  unfold try_new. rewrite Hc. cbn [N.eqb bind]. unfold ao_add. rewrite uadd_wrap by assumption.
  rewrite pad_wrap by assumption. now rewrite wrap_add.
Qed.
Definition w_stop (d : list byte) (limit start : N) (size : option N) (last_child : bool) (k : nat) : N :=
  match size with
  | Some s => wrap (start + s)
  | None => if last_child then limit else st_end d k
  end.
Lemma calc_offsets_wrap h child b d k a c (last_child : bool) nfo : h_overflow_checks h = false ->
  is_alignment b -> align_of child <= b -> c mod align_of child = 0 ->
  blen d < 2 ^ 63 -> N.of_nat k + 1 < 2 ^ 32 -> nfo < 2 ^ 32 ->
  (if size_of child then True else if last_child then True else N.of_nat k + 1 <= nfo) ->
  N.of_nat k <= nfo ->
  let w := sp_width (blen d) in
  let start := pad_to b (st_prev d k + a) + c in
  calc_offsets h (trait_align child) b d (Z.of_nat k - 1) a c (size_of child) last_child nfo =
  Ok (offsets_view d w nfo (wrap start) (w_stop d (blen d - w * nfo) start (size_of child) last_child k)).
Proof.
  intros Ho Hb Hle Hc Hl Hk Hnfo Hk2 Hk1 w start. unfold calc_offsets, offsets_view.
  rewrite Zk, Zk2, nth_last_ok by (unfold usize_lim; lia). cbn [bind]. fold w.
  assert (Hw : w <= 8).
  { unfold w, sp_width. repeat destruct (_ =? _); repeat destruct (_ <? _); lia. }
  assert (Hwk : w * N.of_nat k <= w * nfo) by nia.
  rewrite offset_size_width. fold w.
  destruct (w * nfo <=? blen d) eqn:Enfo.
  2:{ destruct (w * N.of_nat k <=? blen d); [|reflexivity].
      rewrite umul_ok by (unfold usize_lim; nia). cbn [bind]. unfold checked_sub.
      now rewrite Enfo. }
  replace (w * N.of_nat k <=? blen d) with true by lia.
  rewrite umul_ok by (unfold usize_lim; nia). cbn [bind]. unfold checked_sub. rewrite Enfo.
  rewrite calc_start_wrap by assumption. cbn [bind]. fold start.
  unfold w_stop in *. destruct (size_of child) as [sz|] eqn:Esz.
  - rewrite uadd_wrap, wrap_add by assumption. cbn [bind]. destruct (_ && _); reflexivity.
  - destruct last_child; cbn [bind].
    + destruct (_ && _); reflexivity.
    + rewrite nth_last_ok by (unfold usize_lim; lia). cbn [bind]. fold w.
      replace (w * N.of_nat (S k) <=? blen d) with true by nia.
      cbn [st_prev sp_prev_end]. unfold st_prev, sp_prev_end. destruct (_ && _); reflexivity.
Qed.
Lemma get_child_wrap h child b s k a c (last_child : bool) nfo : h_overflow_checks h = false ->
  macro_ok child = true -> aligned (align_of child) s ->
  is_alignment b -> align_of child <= b -> c mod align_of child = 0 ->
  slen s < 2 ^ 63 -> N.of_nat k + 1 < 2 ^ 32 -> nfo < 2 ^ 32 ->
  (if size_of child then True else if last_child then True else N.of_nat k + 1 <= nfo) ->
  N.of_nat k <= nfo ->
  let d := s_data s in
  let w := sp_width (blen d) in
  let start := pad_to b (st_prev d k + a) + c in
  let stop := w_stop d (blen d - w * nfo) start (size_of child) last_child k in
  exists r, get_child_elem h child b s (Z.of_nat k - 1) a c (size_of child) last_child nfo = Ok r /\
    child_view h s child (if w * nfo <=? blen d then cut d (wrap start) stop (blen d - w * nfo) else None) r.
Proof.
  intros Ho Hm Ha Hb Hle Hc Hl Hk Hnfo Hk2 Hk1 d w start stop. unfold get_child_elem.
  rewrite calc_offsets_wrap by assumption.
  cbn [bind]. fold d w start stop. unfold offsets_view.
  assert (Hdef : exists r, default_ref h child = Ok r /\ child_view h s child None r).
  { destruct (default_ref_ok h child Hm) as (r & Er & Hd & Hr & Hs). exists r.
    split; [exact Er|]. split; [exact Hr|]. split; [apply placed_static; assumption|exact Hd]. }
  destruct (w * nfo <=? blen d); [|exact Hdef]. unfold cut.
  destruct ((wrap start <=? stop) && _) eqn:E; [|exact Hdef].
  assert (Hsm : wrap start mod align_of child = 0).
  { rewrite wrap_mod by auto with al. unfold start. apply align_add; auto with al.
    apply (align_divides _ b); auto with al. now apply pad_to_mod. }
  rewrite ix_to_from_k; auto with al; try (rewrite trait_align_of; assumption); try (unfold slen; fold d; lia).
  destruct (cast_ok h child (part s (wrap start) stop)) as (r & Er & Hr & Hd & Hp); auto.
  { apply aligned_part; auto with al. }
  exists r. split; [exact Er|]. split; [exact Hr|]. split.
  - destruct Hp as [->|[Hp Hpd]]; [left|apply placed_static; assumption]. exists (wrap start), stop. unfold slen. fold d. repeat split; lia.
  - rewrite Hd. now rewrite part_sub.
Qed.
Lemma nonfixed_refs_wrap h al s nfo children : h_overflow_checks h = false -> is_alignment al -> aligned al s ->
  slen s < 2 ^ 63 -> nfo < 2 ^ 32 ->
  forall k a b c,
  is_alignment b ->
  Forall (fun t => macro_ok t = true /\ align_of t <= al) children ->
  N.of_nat k + N.of_nat (length children) + 1 < 2 ^ 32 ->
  (children <> [] -> N.of_nat k + sp_n_offsets (items_of children) = nfo) ->
  let d := s_data s in
  let w := sp_width (blen d) in
  exists rs,
    nonfixed_refs h al nfo s children (table_go (Z.of_nat k - 1) a b c children) = Ok rs /\
    Forall2 (fun p r => child_view h s (fst p) (snd p) r)
      (combine children (if w * nfo <=? blen d
                         then w_struct_cut d w (blen d - w * nfo)
                                (pad_to b (st_prev d k + a) + c) (N.of_nat k) (items_of children)
                         else map (fun _ => None) (items_of children))) rs.
Proof.
  intros Ho Hal Ha Hl Hnfo. induction children as [|child rest IH]; intros k a b c Hb Hch Hk Hoff d w.
  - exists []. split; [reflexivity|constructor].
  - inversion Hch as [|? ? [Hm Hle] Hch']; subst. cbn [length] in Hk.
    pose proof (align_of_alignment child) as Hca.
    destruct (as_aligned_child al s Hal Ha child Hle) as [Eas Hac].
    set (last_child := match rest with [] => true | _ => false end).
    set (a' := if align_of child <=? b then a else a + align c b).
    set (b' := if align_of child <=? b then b else align_of child).
    set (c' := if align_of child <=? b then align c (align_of child) else 0).
    assert (Hb' : is_alignment b') by (unfold b'; destruct (_ <=? b); assumption).
    assert (Hle' : align_of child <= b') by (unfold b'; destruct (_ <=? b) eqn:E; lia).
    assert (Hc' : c' mod align_of child = 0).
    { unfold c'. destruct (_ <=? b); [rewrite align_pad_to by assumption; now apply pad_to_mod|reflexivity]. }
    assert (Hpos : pad_to b' (st_prev d k + a') + c' = pad_to (align_of child) (pad_to b (st_prev d k + a) + c)).
    { unfold a', b', c'. destruct (align_of child <=? b) eqn:E.
      - rewrite align_pad_to, merge_rule_1 by (auto; lia). reflexivity.
      - rewrite align_pad_to, merge_rule_2 by (auto; lia). rewrite N.add_0_r. f_equal. lia. }
    assert (Hrow : table_go (Z.of_nat k - 1) a b c (child :: rest) =
      @cons row (Z.of_nat k - 1, a', b', c')%Z
      match size_of child with
      | Some size => table_go (Z.of_nat k - 1) a' b' (c' + size) rest
      | None => table_go (Z.of_nat (S k) - 1) 0 1 0 rest
      end).
    { cbn [table_go]. unfold a', b', c'. destruct (align_of child <=? b); f_equal;
        destruct (size_of child); try reflexivity; f_equal; lia. }
    rewrite Hrow. cbn [nonfixed_refs]. rewrite Eas. cbn [bind]. fold last_child.
    assert (Hk1 : N.of_nat k + sp_n_offsets (items_of (child :: rest)) = nfo) by (apply Hoff; discriminate).
    assert (Hn : sp_n_offsets (items_of (child :: rest)) =
      if last_child then 0 else (if size_of child then 0 else 1) + sp_n_offsets (items_of rest)).
    { unfold last_child. cbn [items_of map]. fold (items_of rest). cbn [sp_n_offsets].
      destruct rest as [|y rest]; [destruct (size_of child); reflexivity|].
      cbn [items_of map]. destruct (size_of child); reflexivity. }
    rewrite Hn in Hk1.
    destruct (get_child_wrap h child b' s k a' c' last_child nfo) as (r & Er & Hv); auto; try lia.
    { destruct (size_of child); [exact I|]. destruct last_child; [exact I|]. lia. }
    rewrite Er. cbn [bind]. fold d w in Hv. rewrite Hpos in Hv.
    set (pos := pad_to (align_of child) (pad_to b (st_prev d k + a) + c)) in *.
    assert (HIH : exists rs,
      nonfixed_refs h al nfo s rest
        match size_of child with
        | Some size => table_go (Z.of_nat k - 1) a' b' (c' + size) rest
        | None => table_go (Z.of_nat (S k) - 1) 0 1 0 rest
        end = Ok rs /\
      Forall2 (fun p r => child_view h s (fst p) (snd p) r)
        (combine rest (if w * nfo <=? blen d
           then match size_of child with
                | Some size => w_struct_cut d w (blen d - w * nfo) (pos + size) (N.of_nat k) (items_of rest)
                | None => w_struct_cut d w (blen d - w * nfo) (st_end d k) (N.of_nat k + 1) (items_of rest)
                end
           else map (fun _ => None) (items_of rest))) rs).
    { destruct (size_of child) as [size|] eqn:Esz.
      - destruct (IH k a' b' (c' + size)) as (rs & E & HF); auto; try lia.
        { intros Hr. destruct rest; [congruence|]. cbn [last_child] in Hk1. lia. }
        exists rs. split; [exact E|]. fold d w in HF.
        replace (pad_to b' (st_prev d k + a') + (c' + size)) with (pos + size) in HF by lia.
        exact HF.
      - destruct (IH (S k) 0 1 0) as (rs & E & HF); auto; try lia.
        { left; reflexivity. }
        { intros Hr. destruct rest; [congruence|]. cbn [last_child] in Hk1. lia. }
        exists rs. split; [exact E|]. fold d w in HF.
        replace (pad_to 1 (st_prev d (S k) + 0) + 0) with (st_end d k) in HF
          by (rewrite pad_to_1; cbn [st_prev sp_prev_end]; unfold st_prev, sp_prev_end; lia).
        replace (N.of_nat (S k)) with (N.of_nat k + 1) in HF by lia. exact HF. }
    destruct HIH as (rs & Ers & HF). rewrite Ers. cbn [bind]. exists (r :: rs). split; [reflexivity|].
    cbn [items_of map]. fold (items_of rest).
    destruct (w * nfo <=? blen d).
    + cbn [w_struct_cut]. fold pos. unfold w_stop in Hv.
      destruct (size_of child) as [size|].
      * cbn [combine]. constructor; [exact Hv|exact HF].
      * unfold last_child in Hv. destruct rest as [|y rest].
        -- cbn [items_of map combine]. constructor; [exact Hv|]. inversion HF. constructor.
        -- destruct (items_of (y :: rest)) eqn:Ei; [discriminate|]. rewrite <- Ei in *.
           cbn [combine]. constructor; [exact Hv|exact HF].
    + cbn [map combine]. constructor; [exact Hv|exact HF].
Qed.
Lemma to_tuple_wrap h t s : h_overflow_checks h = false -> is_struct t -> macro_ok t = true -> type_len t < 2 ^ 32 ->
  size_of t = None -> ref_ok t s -> slen s < 2 ^ 63 ->
  exists rs, to_tuple h t s = Ok rs /\
    Forall2 (fun p r => child_view h s (fst p) (snd p) r)
            (combine (children_of t) (w_struct_children (items_of (children_of t)) (s_data s))) rs.
Proof.
  intros Ho Hs Hm Htl En [Ha Hg] Hl. unfold to_tuple. rewrite En.
  destruct (struct_bounds t Hs Htl) as [Hlb Hlen].
  pose proof (struct_children_ok t Hs Hm) as Hch.
  rewrite n_frame_offsets_spec. pose proof (sp_n_offsets_le (children_of t)) as Hno.
  destruct (nonfixed_refs_wrap h (align_of t) s (sp_n_offsets (items_of (children_of t))) (children_of t)
     Ho (align_of_alignment t) Ha Hl ltac:(lia) 0 0 1 0) as (rs & E & HF); auto; try lia.
  { left; reflexivity. }
  exists rs. split; [exact E|]. unfold w_struct_children.
  change (len (s_data s)) with (blen (s_data s)).
  replace (pad_to 1 (st_prev (s_data s) 0 + 0) + 0) with 0 in HF by reflexivity.
  exact HF.
Qed.

(** ** The specification in one form *)
Lemma w_reads_fixed t n d : size_of t = Some n -> w_reads t d = true.
Proof.
  intros Hn. destruct t; try reflexivity; try discriminate; cbn [w_reads]; rewrite sp_size_of, Hn; reflexivity.
Qed.
Lemma w_reads_norm t d : w_reads t d = w_reads t (Some (norm t d)).
Proof.
  destruct (size_of t) as [n|] eqn:En; [now rewrite !(w_reads_fixed t n)|].
  destruct t as [| | | | | | | | | | | | |x|x|ts|k v]; try reflexivity.
  - cbn [w_reads]. rewrite sp_size_of. destruct (size_of x) as [n|] eqn:Ex; [reflexivity|].
    rewrite norm_var; [reflexivity|reflexivity|]. intros y Hy. injection Hy as <-. exact Ex.
  - cbn [w_reads]. rewrite (norm_var (TM x)) by (reflexivity || discriminate). reflexivity.
  - cbn [w_reads]. rewrite (norm_var (TTuple ts)) by (assumption || discriminate). reflexivity.
  - cbn [w_reads]. rewrite (norm_var (TDict k v)) by (assumption || discriminate). reflexivity.
Qed.
Definition w_cuts (t : ty) (d : list byte) : list (option (list byte)) :=
  match size_of t with
  | Some n => sp_struct_cut d 0 n 0 0 (items_of (children_of t))
  | None => w_struct_children (items_of (children_of t)) d
  end.
Definition w_dec_all (big : bool) (ts : list ty) (cs : list (option (list byte))) : list value :=
  map (fun p => w_decode big (fst p) (snd p)) (combine ts cs).
Definition w_reads_all (ts : list ty) (cs : list (option (list byte))) : bool :=
  forallb (fun p => w_reads (fst p) (snd p)) (combine ts cs).
Lemma w_struct_cut_length d w lim items : forall pos k, length (w_struct_cut d w lim pos k items) = length items.
Proof.
  induction items as [|[al [sz|]] items IH]; intros pos k; cbn [w_struct_cut length]; auto.
  destruct items; cbn [length]; auto.
Qed.
Lemma w_struct_children_length items d : length (w_struct_children items d) = length items.
Proof.
  unfold w_struct_children. destruct (_ <=? _); [apply w_struct_cut_length|apply map_length].
Qed.
Lemma w_cuts_length t d : length (w_cuts t d) = length (children_of t).
Proof.
  unfold w_cuts. destruct (size_of t); rewrite ?sp_struct_cut_length, ?w_struct_children_length; apply map_length.
Qed.
Lemma w_decode_struct big t d : is_struct t ->
  w_decode big t d = VTuple (w_dec_all big (children_of t) (w_cuts t (norm t d))).
Proof.
  intros Hs. pose proof (w_cuts_length t (norm t d)) as Hl. unfold w_dec_all.
  destruct t as [| | | | | | | | | | | | |x|x|ts|k v]; cbn [is_struct] in Hs; try tauto; cbn [w_decode children_of] in *; rewrite sp_size_of, sp_items_of.
  - assert (E : (match size_of (TTuple ts) with
                 | Some n => sp_struct_cut (match d with Some b => if len b =? n then b else nuls n | None => nuls n end) 0 n 0 0 (items_of ts)
                 | None => w_struct_children (items_of ts) (match d with Some b => b | None => [] end)
                 end) = w_cuts (TTuple ts) (norm (TTuple ts) d)).
    { unfold w_cuts. cbn [children_of]. destruct (size_of (TTuple ts)) as [n|] eqn:En.
      - now rewrite (norm_fixed _ n).
      - rewrite norm_var by (assumption || discriminate). reflexivity. }
    rewrite E. f_equal. generalize (w_cuts (TTuple ts) (norm (TTuple ts) d)). clear.
    induction ts as [|t ts IH]; intros [|c cs]; cbn [combine map]; try reflexivity.
    cbn [fst snd]. f_equal. apply IH.
  - assert (E : (match size_of (TDict k v) with
                 | Some n => sp_struct_cut (match d with Some b => if len b =? n then b else nuls n | None => nuls n end) 0 n 0 0 (items_of [k; v])
                 | None => w_struct_children (items_of [k; v]) (match d with Some b => b | None => [] end)
                 end) = w_cuts (TDict k v) (norm (TDict k v) d)).
    { unfold w_cuts. cbn [children_of]. destruct (size_of (TDict k v)) as [n|] eqn:En.
      - now rewrite (norm_fixed _ n).
      - rewrite norm_var by (assumption || discriminate). reflexivity. }
    rewrite E. cbn [length] in Hl.
    destruct (w_cuts (TDict k v) _) as [|a [|b [|c l]]]; cbn [length] in Hl; try lia. reflexivity.
Qed.
Lemma norm_norm t d : norm t (Some (norm t d)) = norm t d.
Proof.
  destruct (size_of t) as [n|] eqn:En.
  - rewrite (norm_fixed t n (Some (norm t d))) by assumption. change (len (norm t d)) with (blen (norm t d)).
    rewrite (norm_fixed_len t n) by assumption. now rewrite N.eqb_refl.
  - destruct t as [| | | | | | | | | | | | |x|x|ts|k v]; try discriminate En;
      try (rewrite !norm_var by (assumption || discriminate); reflexivity).
    destruct (size_of x) as [n|] eqn:Ex.
    + rewrite !(norm_arr x n) by assumption. destruct (blen (opt_bytes d) mod n =? 0) eqn:E; cbn [opt_bytes].
      * now rewrite E.
      * destruct (_ =? 0); reflexivity.
    + rewrite !norm_var; try assumption; try reflexivity; intros y Hy; injection Hy as <-; exact Ex.
Qed.
Lemma w_decode_norm big t d : w_decode big t d = w_decode big t (Some (norm t d)).
Proof.
  destruct t as [| | | | | | | | | | | | |x|x|ts|k v]; try exact (sp_decode_norm big _ d).
  - cbn [w_decode]. rewrite sp_size_of. destruct (size_of x) as [n|] eqn:En.
    + rewrite (norm_arr x n) by assumption. fold (opt_bytes d). change (@len byte) with (@blen byte).
      destruct (blen (opt_bytes d) mod n =? 0) eqn:E.
      * rewrite E. reflexivity.
      * cbn [blen length N.of_nat]. destruct (0 mod n =? 0); reflexivity.
    + rewrite norm_var; [reflexivity|reflexivity|]. intros y Hy. injection Hy as <-. exact En.
  - cbn [w_decode]. rewrite (norm_var (TM x)) by (reflexivity || discriminate). reflexivity.
  - rewrite !w_decode_struct by exact I. now rewrite norm_norm.
  - rewrite !w_decode_struct by exact I. now rewrite norm_norm.
Qed.
Lemma w_reads_struct t d : is_struct t -> size_of t = None ->
  w_reads t (Some d) = w_reads_all (children_of t) (w_cuts t d).
Proof.
  intros Hs Hn. unfold w_reads_all, w_cuts. rewrite Hn.
  destruct t as [| | | | | | | | | | | | |x|x|ts|k v]; cbn [is_struct] in Hs; try tauto; cbn [w_reads children_of] in *;
    rewrite sp_size_of, Hn, sp_items_of.
  - generalize (w_struct_children (items_of ts) d). clear.
    induction ts as [|t ts IH]; intros [|c cs]; cbn [combine forallb]; try reflexivity.
    cbn [fst snd]. f_equal. apply IH.
  - pose proof (w_struct_children_length (items_of [k; v]) d) as Hl.
    change (length (items_of [k; v])) with 2%nat in Hl.
    destruct (w_struct_children _ d) as [|a [|b [|c l]]]; cbn [length] in Hl; try lia.
    cbn [combine forallb fst snd]. now rewrite andb_true_r.
Qed.
(** Fixed-size types contain nothing to wrap. *)
Lemma w_decode_fixed big t : forall n, size_of t = Some n -> forall d, w_decode big t d = sp_decode big t d.
Proof.
  induction t as [t Hns IH|t Hs IH] using ty_struct_ind; intros n Hn d.
  - destruct t; cbn [is_struct] in Hns; try tauto; try discriminate Hn; reflexivity.
  - rewrite w_decode_struct by assumption. rewrite sp_decode_norm, sp_decode_struct; [|assumption|].
    2:{ unfold size_good. rewrite Hn. now apply norm_fixed_len. }
    f_equal. unfold w_dec_all, dec_all, w_cuts, struct_cuts. rewrite Hn. apply map_ext_in. intros [c x] Hin. cbn [fst snd].
    apply in_combine_l in Hin. pose proof (fixed_children t n Hs Hn) as Hf. rewrite Forall_forall in Hf, IH.
    specialize (Hf c Hin). unfold is_fixed in Hf. destruct (size_of c) as [m|] eqn:Em; [|discriminate].
    exact (IH c Hin m Em x).
Qed.
Lemma w_struct_cut_len d w lim items : forall pos k x,
  In (Some x) (w_struct_cut d w lim pos k items) -> blen x <= blen d.
Proof.
  induction items as [|[al [sz|]] items IH]; intros pos k x; cbn [w_struct_cut]; [intros []|..].
  - intros [H|H]; [eapply cut_len; eassumption|eauto].
  - destruct items as [|i0 items0]; intros [H|H]; try (eapply cut_len; eassumption); [contradiction H|eauto].
Qed.
Lemma w_cuts_len t d x : In (Some x) (w_cuts t d) -> blen x <= blen d.
Proof.
  unfold w_cuts. destruct (size_of t); [apply struct_cut_len|]. unfold w_struct_children.
  destruct (_ <=? _); [apply w_struct_cut_len|]. intros H. apply in_map_iff in H as (? & ? & _). discriminate.
Qed.
Lemma w_arr_cut_len al d i x : w_arr_cut al d i = Some x -> blen x <= blen d.
Proof. apply cut_len. Qed.

(** ** Reading *)
Definition w_outcome (big : bool) (t : ty) (d : list byte) : res value :=
  if w_reads t (Some d) then Ok (w_decode big t (Some d)) else Crash PUnwrap.
Lemma read_fixed h t n s : macro_ok t = true -> type_len t < 2 ^ 32 -> ref_ok t s -> size_of t = Some n ->
  read h t s = w_outcome (h_big_endian h) t (s_data s).
Proof.
  intros Hm Hl Hr Hn. unfold w_outcome. rewrite (w_reads_fixed t n), (w_decode_fixed _ t n) by assumption.
  destruct (read_long h t Hm Hl s Hr) as [E|[_ E]].
  - left. unfold is_fixed. now rewrite Hn.
  - rewrite (sp_near_fixed t n) by assumption. discriminate.
  - rewrite E. unfold outcome. now rewrite (sp_reads_fixed t n).
  - rewrite (sp_near_fixed t n) in E by assumption. discriminate.
Qed.
Lemma read_wrap h t : h_overflow_checks h = false -> macro_ok t = true -> type_len t < 2 ^ 32 ->
  forall s, ref_ok t s -> held t s -> read h t s = w_outcome (h_big_endian h) t (s_data s).
Proof.
  intros Ho. induction t as [t Hns IH|t Hs IH] using ty_struct_ind; intros Hm Hl s Hr Hsm;
    (destruct (size_of t) as [n|] eqn:En; [now apply (read_fixed h t n)|]);
    (destruct Hsm as [Hf|Hsm]; [unfold is_fixed in Hf; rewrite En in Hf; discriminate|]).
  - destruct t as [| | | | | | | | | | | | |x|x|ts|k v]; cbn [is_struct] in Hns; try tauto; try discriminate En; unfold w_outcome.
    + cbn [read w_reads w_decode sp_decode]. now rewrite to_str_spec.
    + cbn [read w_reads w_decode sp_decode]. now rewrite to_str_spec.
    + cbn [read w_reads w_decode sp_decode]. now rewrite to_str_spec.
    + cbn [read w_reads w_decode sp_decode]. destruct Hr as [Ha _].
      destruct (variant_split_ok h s Ha) as (ts & dat & -> & _ & E & _). cbn [bind fst snd]. now rewrite E.
    + (* array *)
      specialize (IH x (or_introl eq_refl)). change (macro_ok x = true) in Hm.
      rewrite (type_len_parts (TA x) x) in Hl by auto. specialize (IH Hm ltac:(lia)).
      cbn [read w_reads w_decode] in *. unfold array_refs. rewrite sp_size_of in *.
      destruct (size_of x) as [n|] eqn:Ex.
      * rewrite (mem_layout_ok x n) by assumption. cbn [bind].
        destruct (slice_elems_ok x n s Ex Hr) as [Hd HF]. rewrite Forall_forall in HF.
        destruct Hr as [Ha Hg]. unfold size_good in Hg. cbn [size_of] in Hg. rewrite Ex in Hg.
        change (len (s_data s)) with (slen s). rewrite Hg. cbn [N.eqb]. rewrite <- Hd.
        assert (E : forall l, (forall r, In r l -> In r (slice_elems n s)) ->
          mapM (read h x) l = Ok (map (fun r => w_decode (h_big_endian h) x (Some (s_data r))) l)).
        { induction l as [|r l IHl]; intros Hin; [reflexivity|]. cbn [mapM map].
          rewrite IH; [|now apply HF, Hin; left|left; unfold is_fixed; now rewrite Ex].
          unfold w_outcome. rewrite (w_reads_fixed x n) by assumption. cbn [bind].
          rewrite IHl by (intros; apply Hin; now right). reflexivity. }
        rewrite E by auto. cbn [bind]. rewrite !map_map. reflexivity.
      * destruct Hr as [Ha _]. change (align_of (TA x)) with (align_of x) in Ha.
        rewrite nfwa_items_ok by (auto; unfold usize_lim; lia).
        rewrite sp_align_of, w_array_children_map in *. set (idx := indices _ _) in *.
        set (f := w_arr_cut (align_of x) (s_data s)) in *.
        assert (Hel : forall i, 
          match elem_at h x s i with
          | Ok r => sp_whole x (f i) = true /\ read h x r = w_outcome (h_big_endian h) x (norm x (f i))
          | Crash c => c = PUnwrap /\ sp_whole x (f i) = false
          end).
        { intros i. pose proof (elem_at_wrap h x s i Ho Hm Ha Ex) as He.
          unfold elem_view in He. fold f in He. destruct (f i) as [b|] eqn:Ec.
          - pose proof (w_arr_cut_len _ _ _ _ Ec) as Hb. rewrite sp_whole_fits by assumption.
            destruct (size_good_dec x (blen b)) as [Hg|Hg].
            + destruct He as (r & -> & Hr & Hd). split; [reflexivity|].
              rewrite IH; [|assumption|right; unfold slen in *; rewrite Hd; lia].
              unfold norm. rewrite Hd, seen_good by assumption. reflexivity.
            + rewrite He. auto.
          - destruct He as (r & -> & Hr & Hd). split; [destruct x; reflexivity|].
            rewrite IH; [|assumption|right; unfold slen; rewrite Hd; reflexivity].
            unfold norm, default_bytes. rewrite Ex, Hd. reflexivity. }
        clearbody idx f. clear IH.
        assert (Hgoal :
          (let* rs := mapM (elem_at h x s) idx in mapM (read h x) rs) =
          (if forallb (fun c => sp_whole x c && w_reads x c) (map f idx)
           then Ok (map (w_decode (h_big_endian h) x) (map f idx)) else Crash PUnwrap)).
        { induction idx as [|i idx IHi]; [reflexivity|]. cbn [map mapM forallb].
          pose proof (Hel i) as He. destruct (elem_at h x s i) as [r|c]; [|destruct He as [-> ->]; reflexivity].
          destruct He as [-> Hread]. cbn [bind andb]. unfold w_outcome in Hread.
          rewrite <- w_reads_norm, <- w_decode_norm in Hread.
          destruct (mapM (elem_at h x s) idx) as [rs|c] eqn:Em; cbn [bind] in *.
          - cbn [mapM]. rewrite Hread. destruct (w_reads x (f i)); [|reflexivity]. cbn [bind andb].
            rewrite IHi. destruct (forallb _ _); reflexivity.
          - destruct (forallb _ (map f idx)); [discriminate|]. rewrite andb_false_r. congruence. }
        destruct (mapM (elem_at h x s) idx) as [rs|c]; cbn [bind] in *.
        -- rewrite Hgoal. destruct (forallb _ _); reflexivity.
        -- destruct (forallb _ _); [discriminate|]. congruence.
    + (* maybe *)
      specialize (IH x (or_intror eq_refl)). change (macro_ok x = true) in Hm.
      rewrite (type_len_parts (TM x) x) in Hl by auto. specialize (IH Hm ltac:(lia)).
      destruct Hr as [Ha _]. change (align_of (TM x)) with (align_of x) in Ha.
      cbn [read w_reads w_decode] in *. rewrite sp_size_of in *.
      destruct (size_of x) as [n|] eqn:Ex.
      * rewrite (to_option_fixed h x s n) by assumption. cbn [bind]. change (len (s_data s)) with (slen s).
        destruct (slen s =? n) eqn:E; [|reflexivity]. apply N.eqb_eq in E.
        rewrite IH; [|split; [assumption|unfold size_good; now rewrite Ex]|left; unfold is_fixed; now rewrite Ex].
        unfold w_outcome. rewrite (w_reads_fixed x n) by assumption. reflexivity.
      * rewrite to_option_var by assumption. change (slen s) with (blen (s_data s)).
        destruct (s_data s) as [|b d0] eqn:Ed; [reflexivity|].
        assert (Hne : s_data s <> []) by (rewrite Ed; discriminate).
        rewrite <- Ed in *. rewrite (removelast_take (s_data s) Hne) in *.
        assert (Hbl : blen (s_data s) <> 0) by (rewrite Ed, blen_cons; lia).
        replace (blen (s_data s) =? 0) with false by (symmetry; now apply N.eqb_neq).
        assert (Ht : blen (take (blen (s_data s) - 1) (s_data s)) = blen (s_data s) - 1) by (rewrite blen_take; lia).
        cbn zeta. rewrite sp_whole_fits by assumption. rewrite Ht.
        destruct (size_good_dec x (blen (s_data s) - 1)) as [Hg|Hg]; [|reflexivity]. cbn [bind andb].
        assert (Hp : s_data (part s 0 (blen (s_data s) - 1)) = take (blen (s_data s) - 1) (s_data s)).
        { rewrite part_0. reflexivity. }
        assert (Hpl : slen (part s 0 (blen (s_data s) - 1)) = blen (s_data s) - 1) by (unfold slen; rewrite Hp; exact Ht).
        rewrite IH.
        -- unfold w_outcome. rewrite Hp. destruct (w_reads x _); reflexivity.
        -- split; [apply aligned_part; auto with al|]. now rewrite Hpl.
        -- right. rewrite Hpl. unfold slen in Hsm. lia.
  - (* structures *)
    destruct (to_tuple_wrap h t s Ho Hs Hm Hl En Hr Hsm) as (rs & E & HF).
    assert (Hcu : w_struct_children (items_of (children_of t)) (s_data s) = w_cuts t (s_data s)) by (unfold w_cuts; now rewrite En).
    rewrite Hcu in HF. clear Hcu. pose proof (w_cuts_length t (s_data s)) as Hlen.
    assert (Hrs : length rs = length (children_of t)).
    { apply Forall2_length in HF. rewrite combine_length, Hlen, Nat.min_id in HF. lia. }
    rewrite (read_struct h t s rs) by assumption. unfold w_outcome.
    rewrite w_decode_struct, w_reads_struct by assumption.
    rewrite norm_var by (try assumption; intros y ->; cbn [is_struct] in Hs; tauto). cbn [opt_bytes].
    assert (Hchild : forall p r, In p (combine (children_of t) (w_cuts t (s_data s))) ->
      child_view h s (fst p) (snd p) r ->
      read h (fst p) r = (if w_reads (fst p) (snd p) then Ok (w_decode (h_big_endian h) (fst p) (snd p)) else Crash PUnwrap)).
    { intros [c x] r Hin (Hrr & _ & Hd). cbn [fst snd] in *.
      pose proof (in_combine_l _ _ _ _ Hin) as Hc. pose proof (in_combine_r _ _ _ _ Hin) as Hx.
      fold (norm c x) in Hd. rewrite Forall_forall in IH. rewrite (IH c Hc).
      - unfold w_outcome. rewrite Hd, <- w_reads_norm, <- w_decode_norm. reflexivity.
      - eapply macro_ok_child; eauto.
      - pose proof (child_len t c Hs Hc). lia.
      - exact Hrr.
      - unfold held, is_fixed. destruct (size_of c) as [m|] eqn:Em; [auto|right]. unfold slen. rewrite Hd.
        unfold norm. destruct x as [b|].
        + pose proof (seen_len c b Em). pose proof (w_cuts_len t (s_data s) b Hx). unfold slen in Hsm. lia.
        + unfold default_bytes. rewrite Em. reflexivity. }
    unfold w_reads_all, w_dec_all. clear IH.
    assert (Hgoal : mapM (fun p => read h (fst p) (snd p)) (combine (children_of t) rs) =
      (if forallb (fun p => w_reads (fst p) (snd p)) (combine (children_of t) (w_cuts t (s_data s)))
      then Ok (map (fun p => w_decode (h_big_endian h) (fst p) (snd p)) (combine (children_of t) (w_cuts t (s_data s))))
      else Crash PUnwrap)).
    { revert HF Hlen Hrs Hchild. 
      generalize (w_cuts t (s_data s)) as cs. generalize (children_of t) as ts. clear.
      induction rs as [|r rs IH]; intros [|c ts] [|x cs] HF Hlen Hrs Hchild; cbn [length combine] in *; try lia; try reflexivity.
      inversion HF as [|? ? ? ? Hv HF']; subst. cbn [mapM fst snd forallb map].
      pose proof (Hchild (c, x) r (or_introl eq_refl) Hv) as H1. cbn [fst snd] in H1. rewrite H1.
      destruct (w_reads c x); [|reflexivity]. cbn [bind andb].
      rewrite (IH ts cs) by (try assumption; try lia; intros p r' Hp; apply Hchild; now right).
      destruct (forallb _ _); reflexivity. }
    rewrite Hgoal. destruct (forallb _ _); reflexivity.
Qed.
Lemma wrap_claim h t s : usable t -> aligned (sp_align t) s -> len (s_data s) < 2 ^ 63 -> h_overflow_checks h = false ->
  decode h t s = if w_reads t (Some (s_data s)) then Ok (w_decode (h_big_endian h) t (Some (s_data s))) else Crash PUnwrap.
Proof.
  intros [Hm Hl] Ha Hs Ho. rewrite sp_align_of in Ha. rewrite type_len_show in Hl.
  unfold decode. destruct (cast_ok h t s Hm Ha) as (r & -> & Hr & Hd & _). cbn [bind].
  change (seen_bytes t (s_data s)) with (norm t (Some (s_data s))) in Hd.
  rewrite read_wrap; auto.
  - unfold w_outcome. rewrite Hd, <- w_reads_norm, <- w_decode_norm. reflexivity.
  - unfold held, is_fixed. destruct (size_of t) as [n|] eqn:En; [auto|right].
    unfold slen in *. rewrite Hd. pose proof (seen_len t (s_data s) En) as H. unfold norm. change @len with @blen in *. lia.
Qed.
(** Nothing wraps where all offsets are near. *)
Lemma wrap_near_claim big t d : usable t -> len d < 2 ^ 63 -> sp_near t (Some d) = true ->
  w_reads t (Some d) = sp_reads t (Some d) /\
  (sp_reads t (Some d) = true -> w_decode big t (Some d) = sp_decode big t (Some d)).
Proof.
  intros [Hm Hl] Hs Hn. rewrite type_len_show in Hl.
  set (h := Host big false false 0 0). set (s := Slice 0 d).
  assert (Ha : aligned (align_of t) s).
  { unfold aligned. apply N.mod_0_l. pose proof (align_of_alignment t) as HA. destruct HA as [->|[->|[->| ->]]]; discriminate. }
  assert (Hu : usable t) by (split; [exact Hm|now rewrite type_len_show]).
  pose proof (wrap_claim h t s Hu ltac:(now rewrite sp_align_of) Hs eq_refl) as E1.
  destruct (decode_long h t s Hm Hl Ha Hs) as [E2|[_ E2]]; [cbn [s s_data]; congruence| |cbn [s s_data] in E2; congruence].
  rewrite E1 in E2. unfold outcome in E2. cbn [s s_data h h_big_endian] in E2.
  destruct (w_reads t (Some d)), (sp_reads t (Some d)); try discriminate; split; try reflexivity; try discriminate.
  intros _. congruence.
Qed.
