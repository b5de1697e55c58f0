(** Reading with overflow checks: what follows. *)
From Verif Require Import Base Types Layout AlignedBytes Strs Spec Deser Buf Histories LongSpec TableSpec SumSpec OwnSpec
  BaseFacts TypesFacts LayoutFacts AlignedFacts DeserFacts ArrayFacts StructFacts ReadFacts AccessFacts ReadClaims LongFacts SumFacts
  OwnClaims Reader ReaderSpec ReaderFacts OstreeLs OstreeSpec OstreeFacts OstreeMain OstreeMainFacts.
From Coq Require Import Lia ZifyBool ZifyNat ZifyN.
Ltac Zify.zify_post_hook ::= idtac.

Lemma sums_claim h t s : usable t -> aligned (sp_align t) s -> len (s_data s) < 2 ^ 63 -> h_overflow_checks h = true ->
  match decode h t s with
  | Ok v => sp_reads t (Some (s_data s)) = true /\ sp_sums t (Some (s_data s)) = true /\
            v = sp_decode (h_big_endian h) t (Some (s_data s))
  | Crash POverflow => sp_sums t (Some (s_data s)) = false
  | Crash PUnwrap => sp_reads t (Some (s_data s)) = false
  | Crash _ => False
  end.
Proof.
  intros [Hm Hl] Ha Hs Ho. rewrite sp_align_of in Ha. rewrite type_len_show in Hl.
  unfold decode. destruct (cast_ok h t s Hm Ha) as (r & -> & Hr & Hd & _). cbn [bind].
  change (seen_bytes t (s_data s)) with (norm t (Some (s_data s))) in Hd.
  rewrite (sp_reads_norm t (Some (s_data s))), (sp_sums_norm t (Some (s_data s))), (sp_decode_norm _ t (Some (s_data s))), <- Hd.
  apply read_sums; auto.
  unfold held, is_fixed. destruct (size_of t) as [n|] eqn:En; [auto|right].
  unfold slen in *. rewrite Hd. pose proof (seen_len t (s_data s) En) as H. unfold norm. change @len with @blen in *. lia.
Qed.
Lemma sums_exactly h t s : usable t -> aligned (sp_align t) s -> len (s_data s) < 2 ^ 63 -> h_overflow_checks h = true ->
  (sp_sums t (Some (s_data s)) = true ->
   decode h t s = if sp_reads t (Some (s_data s)) then Ok (sp_decode (h_big_endian h) t (Some (s_data s))) else Crash PUnwrap) /\
  (sp_sums t (Some (s_data s)) = false -> sp_reads t (Some (s_data s)) = true -> decode h t s = Crash POverflow) /\
  (sp_sums t (Some (s_data s)) = false -> sp_reads t (Some (s_data s)) = false ->
   decode h t s = Crash POverflow \/ decode h t s = Crash PUnwrap).
Proof.
  intros Hu Ha Hs Ho. pose proof (sums_claim h t s Hu Ha Hs Ho) as H.
  destruct (decode h t s) as [v|[]]; try contradiction.
  - destruct H as (-> & -> & ->). repeat split; intros; try discriminate; reflexivity.
  - rewrite H. repeat split; intros; try discriminate; auto.
  - rewrite H. repeat split; intros; try discriminate; auto.
Qed.

(** Near offsets make no sum too large. *)
Lemma near_sums t : macro_ok t = true -> type_len t < 2 ^ 32 -> forall d, blen (opt_bytes d) < 2 ^ 63 ->
  sp_near t d = true -> sp_sums t d = true.
Proof.
  induction t as [t Hns IH|t Hs IH] using ty_struct_ind; intros Hm Hl d Hd Hn.
  - destruct t as [| | | | | | | | | | | | |x|x|ts|k v]; cbn [is_struct] in Hns; try tauto; try reflexivity.
    + specialize (IH x (or_introl eq_refl) Hm). rewrite (type_len_parts (TA x) x) in Hl by auto. specialize (IH ltac:(lia)).
      cbn [sp_near sp_sums] in *. destruct (sp_size x); [reflexivity|]. fold (opt_bytes d) in *.
      apply andb_prop in Hn as [H1 H2]. apply andb_true_intro. split.
      * rewrite sp_align_of, sp_array_sums_map by auto with al. rewrite sp_array_near_map in H1.
        apply forallb_forall. intros i Hi. rewrite forallb_forall in H1. rewrite in_64_lim. unfold usize_lim.
        assert (Hp : arr_prev (opt_bytes d) i < 2 ^ 63).
        { apply in_indices in Hi. unfold arr_prev. destruct (i =? 0) eqn:E; [reflexivity|].
          specialize (H1 (i - 1)). rewrite in_indices in H1. unfold near in H1. lia. }
        pose proof (align_of_alignment x) as HA. destruct HA as [->|[->|[->| ->]]]; lia.
      * apply forallb_forall. intros c Hc. rewrite forallb_forall in H2. apply IH; [|now apply H2].
        rewrite sp_array_children_map in Hc. apply in_map_iff in Hc as (i & <- & _).
        destruct (arr_cut _ _ i) as [b|] eqn:Ec; [|reflexivity]. pose proof (cut_len _ _ _ _ _ Ec). cbn [opt_bytes] in *. lia.
    + specialize (IH x (or_intror eq_refl) Hm). rewrite (type_len_parts (TM x) x) in Hl by auto. specialize (IH ltac:(lia)).
      cbn [sp_near sp_sums] in *. destruct (sp_size x); [reflexivity|]. fold (opt_bytes d) in *.
      destruct (opt_bytes d) as [|b r] eqn:Eo; [reflexivity|]. apply IH; [|exact Hn]. cbn [opt_bytes].
      rewrite removelast_take by discriminate. rewrite blen_take. lia.
  - rewrite sp_sums_norm. rewrite sp_near_norm in Hn. destruct (size_of t) as [n|] eqn:En; [now apply (sp_sums_fixed t n)|].
    rewrite norm_var in * by (try assumption; intros y ->; cbn [is_struct] in Hs; tauto).
    set (b := opt_bytes d) in *.
    rewrite sp_near_struct in Hn by assumption. apply andb_prop in Hn as [H1 H2].
    rewrite sp_sums_struct by assumption. apply andb_true_intro. split.
    + set (h := Host false true false 0 0). set (s := Slice 0 b).
      assert (Hr : ref_ok t s).
      { split; [unfold aligned; apply N.mod_0_l; pose proof (align_of_alignment t) as HA; destruct HA as [->|[->|[->| ->]]]; discriminate|].
        unfold size_good. rewrite En. destruct t; cbn [is_struct] in Hs; tauto. }
      pose proof (to_tuple_sums h t s eq_refl Hs Hm Hl En Hr Hd) as E.
      change (s_data s) with b in E. destruct (sp_struct_sums _ b); [reflexivity|].
      destruct (to_tuple_long h t s Hs Hm Hl Hr Hd ltac:(auto)) as [(rs & E' & _)|[_ Hf]]; [congruence|].
      apply struct_far_near in Hf. change (s_data s) with b in Hf. congruence.
    + unfold sums_all, near_all in *. rewrite forallb_forall in *. intros [c x] Hin. cbn [fst snd].
      pose proof (in_combine_l _ _ _ _ Hin) as Hc. pose proof (in_combine_r _ _ _ _ Hin) as Hx. rewrite Forall_forall in IH.
      apply (IH c Hc).
      * eapply macro_ok_child; eauto.
      * pose proof (child_len t c Hs Hc). lia.
      * destruct x as [x|]; [|reflexivity]. pose proof (struct_cuts_len t b x Hx). cbn [opt_bytes]. lia.
      * exact (H2 _ Hin).
Qed.
Lemma near_sums_claim t d : usable t -> len d < 2 ^ 63 -> sp_near t (Some d) = true -> sp_sums t (Some d) = true.
Proof. intros [Hm Hl] Hd. rewrite type_len_show in Hl. now apply near_sums. Qed.

(** ** Two elements, the first ending at [e] *)
Definition far_bytes (n e : N) : list byte := zeros n ++ num_le 8 e ++ num_le 8 n.
Lemma far_len n e : len (far_bytes n e) = n + 16.
Proof.
  unfold far_bytes. change (@len byte) with (@blen byte). rewrite !blen_app, blen_zeros.
  change (blen (num_le 8 e)) with 8. change (blen (num_le 8 n)) with 8. lia.
Qed.
Lemma far_shape n e : 2 ^ 32 <= n -> n + 16 < 2 ^ 63 -> e < 2 ^ 64 ->
  arr_lfo (far_bytes n e) = n /\ arr_n (far_bytes n e) = 2 /\ arr_end (far_bytes n e) 0 = e /\ arr_end (far_bytes n e) 1 = n.
Proof.
  intros Hn Hn2 He. assert (Hbl : blen (far_bytes n e) = n + 16) by apply far_len.
  assert (Hdrop : forall k, drop (n + k) (far_bytes n e) = drop k (num_le 8 e ++ num_le 8 n)).
  { intros k. unfold far_bytes. rewrite drop_app_ge by (rewrite blen_zeros; lia). rewrite blen_zeros. f_equal. lia. }
  assert (Hw : arr_width (far_bytes n e) = 8).
  { unfold arr_width. rewrite Hbl. unfold sp_width.
    replace (n + 16 =? 0) with false by lia. replace (n + 16 <? 2 ^ 8) with false by lia.
    replace (n + 16 <? 2 ^ 16) with false by lia. replace (n + 16 <? 2 ^ 32) with false by lia. reflexivity. }
  assert (Hlast : arr_last (far_bytes n e) = n).
  { unfold arr_last. rewrite Hw, Hbl, sub_take_drop. replace (n + 16 - 8) with (n + 8) by lia.
    rewrite Hdrop. change (drop 8 (num_le 8 e ++ num_le 8 n)) with (num_le 8 n).
    change (take 8 (num_le 8 n)) with (num_le 8 n). apply le_num_le8. lia. }
  assert (Hlfo : arr_lfo (far_bytes n e) = n).
  { unfold arr_lfo, arr_good. rewrite Hlast, Hw, Hbl. replace (n + 16 =? 0) with false by lia.
    replace (n <=? n + 16) with true by lia. replace (n + 16 - n) with 16 by lia. reflexivity. }
  assert (Hosz : osz_n (arr_osz (far_bytes n e)) = 8) by (rewrite arr_osz_width by lia; exact Hw).
  split; [exact Hlfo|]. split; [|split].
  - unfold arr_n. rewrite Hlfo, Hosz, Hbl. replace (n + 16 - n) with 16 by lia. reflexivity.
  - unfold arr_end. rewrite Hlfo, Hosz, sub_take_drop. rewrite N.mul_0_l, Hdrop.
    change (take 8 (drop 0 (num_le 8 e ++ num_le 8 n))) with (num_le 8 e). apply le_num_le8. lia.
  - unfold arr_end. rewrite Hlfo, Hosz, sub_take_drop. rewrite N.mul_1_l, Hdrop.
    change (take 8 (drop 8 (num_le 8 e ++ num_le 8 n))) with (num_le 8 n). apply le_num_le8. lia.
Qed.
Lemma far_case n e : 2 ^ 32 <= n -> n + 16 < 2 ^ 63 -> 2 ^ 63 <= e -> e < 2 ^ 64 ->
  sp_near (TA TS) (Some (far_bytes n e)) = false /\ sp_reads (TA TS) (Some (far_bytes n e)) = true /\
  sp_sums (TA TS) (Some (far_bytes n e)) = (e <? 2 ^ 64 - 1).
Proof.
  intros Hn Hn2 He1 He2. destruct (far_shape n e Hn Hn2 He2) as (Hlfo & Han & He & He').
  cbn [sp_near sp_reads sp_sums sp_size]. change (sp_align TS) with 1.
  rewrite sp_array_near_map, sp_array_sums_map, sp_array_children_map, Han by (left; reflexivity).
  change (indices 0 (N.to_nat 2)) with [0; 1]. cbn [map forallb sp_near sp_sums sp_reads sp_whole sp_size].
  change (arr_prev (far_bytes n e) 1) with (arr_end (far_bytes n e) 0). change (arr_prev (far_bytes n e) 0) with 0.
  rewrite He. unfold near, in_64. replace (e <? 2 ^ 63) with false by lia. change (0 + 1 <? 2 ^ 64) with true.
  split; [reflexivity|]. split; [|].
  - destruct (arr_cut 1 (far_bytes n e) 0), (arr_cut 1 (far_bytes n e) 1); reflexivity.
  - cbn [andb]. rewrite !andb_true_r. lia.
Qed.

(** ** The example program *)
Lemma collect_loop h x line : forall fuel it out, print_loop h x line fuel it = (out, None) ->
  exists rs ls, nfwa_collect h x fuel it = Ok rs /\ mapM line rs = Ok ls.
Proof.
  induction fuel as [|f IH]; intros it out E; [discriminate|]. cbn [nfwa_collect print_loop] in *.
  destruct (nfwa_next h x it) as [[[r|] it']|c]; cbn [bind fst snd]; [| |discriminate].
  - destruct (line r) as [l|c] eqn:El; [|discriminate]. cbv zeta in E.
    destruct (print_loop h x line f it') as [out' o] eqn:Ep. cbn [fst snd] in E. injection E as _ ->.
    destruct (IH _ _ Ep) as (rs & ls & Ec & Em). rewrite Ec. cbn [bind]. exists (r :: rs), (l :: ls).
    split; [reflexivity|]. cbn [mapM]. rewrite El. cbn [bind]. now rewrite Em.
  - exists [], []. split; reflexivity.
Qed.
Lemma collect_array h x line s out : print_array h x line s = (out, None) ->
  exists rs ls, nfwa_items h x s = Ok rs /\ mapM line rs = Ok ls.
Proof.
  unfold nfwa_items, print_array. intros E. destruct (nfwa_into_iter h x s) as [it|c]; [|discriminate].
  cbn [bind]. now apply collect_loop with out.
Qed.
Lemma read_bytes_ok h r : exists v, read h (TA TY) r = Ok v.
Proof.
  cbn [read]. unfold array_refs. cbn [size_of mem_layout bind].
  change (exists v, (let* vs := mapM (read h TY) (slice_elems 1 r) in Ok (VArray vs)) = Ok v).
  rewrite (mapM_ok_map _ (fun s => VInt (Z.of_N (of_ne h (s_data s))))) by reflexivity. cbn [bind]. eauto.
Qed.
Lemma dir_read h r l : ls_dir h r = Ok l -> exists v, read h (TTuple [TS; TA TY; TA TY]) r = Ok v.
Proof.
  unfold ls_dir. intros E. apply bind_ok in E as (rs & Er & E).
  destruct rs as [|a [|b [|c [|? ?]]]]; try discriminate. 
  rewrite (read_struct h (TTuple [TS; TA TY; TA TY]) r [a; b; c] I Er eq_refl). cbn [children_of combine mapM fst snd].
  destruct (read_bytes_ok h b) as [vb ->]. destruct (read_bytes_ok h c) as [vc ->]. cbn [read bind]. eauto.
Qed.
Lemma file_read h r l : ls_file h r = Ok l -> exists v, read h (TTuple [TS; TA TY]) r = Ok v.
Proof.
  unfold ls_file. intros E. apply bind_ok in E as (rs & Er & E).
  destruct rs as [|a [|b [|? ?]]]; try discriminate. 
  rewrite (read_struct h (TTuple [TS; TA TY]) r [a; b] I Er eq_refl). cbn [children_of combine mapM fst snd].
  destruct (read_bytes_ok h b) as [vb ->]. cbn [read bind]. eauto.
Qed.
Lemma mapM_also {A B C} (f : A -> res B) (g : A -> res C) : (forall a b, f a = Ok b -> exists c, g a = Ok c) ->
  forall l ys, mapM f l = Ok ys -> exists zs, mapM g l = Ok zs.
Proof.
  intros H. induction l as [|a l IH]; intros ys E; [now exists []|].
  apply mapM_cons in E as (y & ys' & Ey & Es & ->). destruct (H _ _ Ey) as [z Ez]. destruct (IH _ Es) as [zs Ezs].
  exists (z :: zs). cbn [mapM]. now rewrite Ez, Ezs.
Qed.
Lemma array_read h x line s out : size_of x = None -> (forall r l, line r = Ok l -> exists v, read h x r = Ok v) ->
  print_array h x line s = (out, None) -> exists v, read h (TA x) s = Ok v.
Proof.
  intros Hn Hl E. apply collect_array in E as (rs & ls & Er & Em).
  destruct (mapM_also line (read h x) Hl rs ls Em) as [vs Ev].
  cbn [read]. unfold array_refs. rewrite Hn, Er. cbn [bind]. rewrite Ev. cbn [bind]. eauto.
Qed.
Lemma print_read h tree out : ls_print h tree = (out, Returned) -> exists v, own_read h ostree_ty tree = Ok v.
Proof.
  unfold ls_print, own_read. destruct tree as [o|]; [|discriminate]. cbn [bind].
  destruct (owned_borrow h ostree_ty o) as [r|]; [|discriminate]. cbn [bind].
  destruct (to_tuple h ostree_ty r) as [rs|] eqn:Er; [|discriminate].
  destruct rs as [|files [|dirs [|]]]; try discriminate.
  destruct (print_array h _ _ dirs) as [out1 [c|]] eqn:Ed; [discriminate|].
  destruct (print_array h _ _ files) as [out2 [c|]] eqn:Ef; [discriminate|]. intros _.
  apply array_read in Ed as [vd Ed]; [|reflexivity|apply dir_read].
  apply array_read in Ef as [vf Ef]; [|reflexivity|apply file_read].
  rewrite (read_struct h ostree_ty r [files; dirs] I Er eq_refl). unfold ostree_ty at 1. cbn [children_of combine mapM fst snd].
  rewrite Ef, Ed. cbn [bind]. eauto.
Qed.
Lemma main_sums h pre rest a1 a2 a3 a4 : h_overflow_checks h = true ->
  a1 + 8 < 2 ^ 64 -> a2 + 8 < 2 ^ 64 -> a3 + 8 < 2 ^ 64 -> a4 + 8 < 2 ^ 64 ->
  Forall goes_on pre -> at_end rest -> len (concat (map brings pre)) < 2 ^ 63 ->
  (snd (ls_main h (inr (pre ++ rest)) a1 a2 a3 a4) = Panicked POverflow <-> sp_sums sp_dirtree (Some (concat (map brings pre))) = false).
Proof.
  intros Ho H1 H2 H3 H4 Hg He Hl.
  destruct (main_claim h pre rest a1 a2 a3 a4 H1 H2 H3 H4 Hg He Hl) as [E|[(out & more & E & _) [_ Hn]]].
  - rewrite E. cbn [snd]. split; [discriminate|]. intros Hs. exfalso.
    unfold ls_main, ls_function, deserialize_from in E. rewrite read_to_end_done in E by assumption. cbn [app] in E.
    set (d := concat (map brings pre)) in *.
    destruct (ls_print h _) as [out [|e|c]] eqn:Ep; try discriminate.
    apply print_read in Ep as [v Ev]. destruct d as [|b d]; [discriminate Hs|].
    rewrite (deserialize_claim h ostree_ty (Vec a1 (b :: d)) (Slice 0 (b :: d))) in Ev; try assumption; try reflexivity; [|apply ostree_usable|discriminate].
    pose proof (sums_claim h ostree_ty (Slice 0 (b :: d)) ostree_usable eq_refl Hl Ho) as H. rewrite Ev in H.
    destruct H as (_ & H & _). cbn [s_data] in H. change ostree_ty with sp_dirtree in H. congruence.
  - rewrite E. cbn [snd]. split; [|reflexivity]. intros _.
    destruct (sp_sums sp_dirtree _) eqn:Hs; [|reflexivity]. exfalso.
    destruct (concat (map brings pre)) as [|b d] eqn:Ed; [discriminate Hn|].
    assert (Eo : ostree_ls h (Vec a1 (b :: d)) a2 a3 a4 = Ok (sp_ls (sp_decode (h_big_endian h) ostree_ty (Some (b :: d))))).
    { apply ls_of_read. rewrite (deserialize_claim h ostree_ty (Vec a1 (b :: d)) (Slice 0 (b :: d))); try assumption; try reflexivity; [|apply ostree_usable|discriminate].
      destruct (sums_exactly h ostree_ty (Slice 0 (b :: d)) ostree_usable eq_refl Hl Ho) as [H _].
      rewrite H by exact Hs. now rewrite ostree_tame. }
    apply print_of_ls in Eo. unfold ls_main, ls_function, deserialize_from in E. rewrite read_to_end_done in E by assumption.
    cbn [app] in E. rewrite Ed, Eo in E. discriminate.
Qed.
(** A file whose one framing offset is [2^64 - 1]. *)
Definition bad_tree (n : N) : list byte := zeros n ++ repeat xff 8.
Lemma bad_tree_len n : len (bad_tree n) = n + 8.
Proof.
  unfold bad_tree. change (@len byte) with (@blen byte). rewrite blen_app, blen_zeros.
  change (blen (repeat xff 8)) with 8. lia.
Qed.
Lemma bad_tree_sums n : 2 ^ 32 <= n -> sp_sums sp_dirtree (Some (bad_tree n)) = false.
Proof.
  intros Hn. unfold sp_dirtree. remember (TA (TTuple [TS; TA TY])) as x1 eqn:E1. remember (TA (TTuple [TS; TA TY; TA TY])) as x2 eqn:E2.
  cbn [sp_sums]. assert (Hs : sp_size (TTuple [x1; x2]) = None) by (subst; reflexivity). rewrite Hs.
  apply andb_false_iff. left. unfold sp_struct_sums. rewrite bad_tree_len.
  assert (Hw : sp_width (n + 8) = 8).
  { unfold sp_width. replace (n + 8 =? 0) with false by lia. replace (n + 8 <? 2 ^ 8) with false by lia.
    replace (n + 8 <? 2 ^ 16) with false by lia. replace (n + 8 <? 2 ^ 32) with false by lia. reflexivity. }
  rewrite Hw. assert (Hk : sp_n_offsets (map (fun t => (sp_align t, sp_size t)) [x1; x2]) = 1) by (subst; reflexivity).
  rewrite Hk. replace (8 * 1 <=? n + 8) with true by lia.
  assert (Ht : combine (py_generate_table (map py_item [x1; x2])) (map sp_size [x1; x2]) =
    [((-1)%Z, 0, 0, 0, None); (0%Z, 0, 0, 0, None)]) by (subst; reflexivity).
  rewrite Ht. cbn [forallb sp_row_sums Z.ltb Z.compare Z.to_N]. rewrite bad_tree_len.
  replace (n + 8 - 8 * (0 + 1)) with n by lia.
  assert (He : sub (bad_tree n) n 8 = repeat xff 8).
  { rewrite sub_take_drop. unfold bad_tree. rewrite drop_app_eq by now rewrite blen_zeros. reflexivity. }
  rewrite He. reflexivity.
Qed.
Lemma bad_tree_panics h n a1 a2 a3 a4 : h_overflow_checks h = true -> 2 ^ 32 <= n -> n + 8 < 2 ^ 63 ->
  a1 + 8 < 2 ^ 64 -> a2 + 8 < 2 ^ 64 -> a3 + 8 < 2 ^ 64 -> a4 + 8 < 2 ^ 64 ->
  snd (ls_main h (inr [Bytes (bad_tree n); Bytes []]) a1 a2 a3 a4) = Panicked POverflow.
Proof.
  intros Ho Hn Hn2 H1 H2 H3 H4. change [Bytes (bad_tree n); Bytes []] with ([Bytes (bad_tree n)] ++ [Bytes []]).
  assert (E : concat (map brings [Bytes (bad_tree n)]) = bad_tree n) by (cbn [map brings concat]; apply app_nil_r).
  apply main_sums; auto.
  - constructor; [|constructor]. cbn [goes_on]. intros H. pose proof (bad_tree_len n) as L. rewrite H in L. cbn in L. lia.
  - reflexivity.
  - rewrite E, bad_tree_len. exact Hn2.
  - rewrite E. now apply bad_tree_sums.
Qed.
