(** The whole example program. *)
From Verif Require Import Base Types Layout AlignedBytes Strs Spec Deser Buf LongSpec Histories OwnSpec OwnClaims ReadClaims WrapSpec WrapReadFacts WrapMore BuildSpec BuildFacts BaseFacts Reader ReaderSpec ReaderFacts OstreeLs OstreeSpec OstreeFacts OstreeMain.

Lemma loop_collect h x line : forall fuel it rs ls, nfwa_collect h x fuel it = Ok rs -> mapM line rs = Ok ls ->
  print_loop h x line fuel it = (concat ls, None).
Proof.
  induction fuel as [|f IH]; intros it rs ls E M; [discriminate|]. cbn [nfwa_collect print_loop] in *.
  destruct (nfwa_next h x it) as [[[r|] it']|c]; cbn [bind fst snd] in E; [| |discriminate].
  - apply bind_ok in E as (rs' & E & E'). injection E' as <-.
    apply mapM_cons in M as (l & ls' & El & M & ->). rewrite El. now rewrite (IH _ _ _ E M).
  - injection E as <-. injection M as <-. reflexivity.
Qed.
Lemma array_collect h x line s rs ls : nfwa_items h x s = Ok rs -> mapM line rs = Ok ls ->
  print_array h x line s = (concat ls, None).
Proof.
  unfold nfwa_items, print_array. intros E M. destruct (nfwa_into_iter h x s) as [it|c]; [|discriminate].
  now apply loop_collect with rs.
Qed.
Lemma print_of_ls h v a2 a3 a4 out : ostree_ls h v a2 a3 a4 = Ok out ->
  ls_print h (deserialize h ostree_ty v a2 a3 a4) = (out, Returned).
Proof.
  unfold ostree_ls, ls_print. destruct (deserialize h ostree_ty v a2 a3 a4) as [tree|]; [|discriminate]. cbn [bind].
  destruct (owned_borrow h ostree_ty tree) as [r|]; [|discriminate]. cbn [bind].
  destruct (to_tuple h ostree_ty r) as [rs|]; [|discriminate]. cbn [bind].
  destruct rs as [|files [|dirs [|]]]; try discriminate. intros E.
  apply bind_ok in E as (ds & Ed & E). apply bind_ok in E as (dl & Edl & E).
  apply bind_ok in E as (fs & Ef & E). apply bind_ok in E as (fl & Efl & E). injection E as <-.
  now rewrite (array_collect _ _ _ _ _ _ Ed Edl), (array_collect _ _ _ _ _ _ Ef Efl).
Qed.

(** ** Without overflow checks *)
Lemma w_dir big d : w_decode big (TTuple [TS; TA TY; TA TY]) d = sp_decode big (TTuple [TS; TA TY; TA TY]) d.
Proof.
  cbn [w_decode sp_decode]. change (sp_size (TTuple [TS; TA TY; TA TY])) with (@None N). cbv iota.
  rewrite struct_children_1 by (repeat constructor). reflexivity.
Qed.
Lemma w_file big d : w_decode big (TTuple [TS; TA TY]) d = sp_decode big (TTuple [TS; TA TY]) d.
Proof.
  cbn [w_decode sp_decode]. change (sp_size (TTuple [TS; TA TY])) with (@None N). cbv iota.
  rewrite struct_children_1 by (repeat constructor). reflexivity.
Qed.
Lemma w_items big x d : sp_align x = 1 -> sp_size x = None -> (forall d, w_decode big x d = sp_decode big x d) ->
  w_decode big (TA x) d = sp_decode big (TA x) d.
Proof.
  intros Ha Hs H. cbn [w_decode sp_decode]. rewrite Hs, Ha, array_children_1. f_equal. apply map_ext. exact H.
Qed.
Lemma w_tree big d : w_decode big ostree_ty d = sp_decode big ostree_ty d.
Proof.
  pose proof (fun c => w_items big (TTuple [TS; TA TY]) c eq_refl eq_refl (w_file big)) as H1.
  pose proof (fun c => w_items big (TTuple [TS; TA TY; TA TY]) c eq_refl eq_refl (w_dir big)) as H2.
  unfold ostree_ty. remember (TA (TTuple [TS; TA TY])) as x1 eqn:E1. remember (TA (TTuple [TS; TA TY; TA TY])) as x2 eqn:E2.
  cbn [w_decode sp_decode]. assert (Hs : sp_size (TTuple [x1; x2]) = None) by (subst; reflexivity). rewrite Hs.
  rewrite struct_children_1 by (subst; repeat constructor). f_equal.
  destruct (sp_struct_children _ _) as [|c1 [|c2 cs]]; [reflexivity| |]; rewrite ?H1, ?H2; reflexivity.
Qed.
Lemma ostree_wrap h v a2 a3 a4 : h_overflow_checks h = false ->
  v_addr v + 8 < 2 ^ 64 -> a2 + 8 < 2 ^ 64 -> a3 + 8 < 2 ^ 64 -> a4 + 8 < 2 ^ 64 -> len (v_data v) < 2 ^ 63 ->
  ostree_ls h v a2 a3 a4 = Ok (sp_ls (sp_decode (h_big_endian h) ostree_ty (Some (v_data v)))).
Proof.
  intros Ho H1 H2 H3 H4 Hl. apply ls_of_read. destruct v as [va d]. cbn [v_addr v_data] in *. destruct d as [|b d].
  - rewrite deserialize_empty_claim by (auto; apply ostree_usable). destruct (h_big_endian h); reflexivity.
  - rewrite (deserialize_claim h ostree_ty (Vec va (b :: d)) (Slice 0 (b :: d))); try assumption; try reflexivity; [|apply ostree_usable|discriminate].
    destruct (decode_release_any_length h ostree_ty (Slice 0 (b :: d))) as [w E]; try assumption; try reflexivity; [apply ostree_usable|].
    pose proof E as E'. rewrite wrap_claim in E' by (try assumption; try reflexivity; apply ostree_usable).
    destruct (w_reads _ _); [|discriminate]. rewrite E. rewrite <- E', w_tree. reflexivity.
Qed.

(** ** What is printed before a check fails *)
Definition begins {A} (p q : list A) : Prop := exists rest, q = p ++ rest.
Definition stops_early (P : crash -> Prop) (p q : list byte * option crash) : Prop :=
  p = q \/ exists c, snd p = Some c /\ P c /\ begins (fst p) (fst q).
Lemma loop_early b h x line line' : (forall s, or_check b (line s) (line' s)) -> forall fuel it,
  stops_early (check_fails b) (print_loop h x line fuel it) (print_loop (unguarded b h) x line' fuel it).
Proof.
  intros Hl. induction fuel as [|f IH]; intros it; [now left|]. cbn [print_loop].
  destruct (ov_next b h x it) as [->|(c & -> & Hc)].
  - destruct (nfwa_next (unguarded b h) x it) as [[[r|] it']|c]; [|now left|now left].
    destruct (Hl r) as [->|(c & -> & Hc)].
    + destruct (line' r) as [l|c]; [|now left]. cbv zeta.
      destruct (IH it') as [->|(c & E & Hc & rest & E')]; [now left|]. right. exists c. cbn [fst snd].
      split; [exact E|]. split; [exact Hc|]. exists rest. rewrite E'. apply app_assoc.
    + right. exists c. split; [reflexivity|]. split; [exact Hc|]. eexists. reflexivity.
  - right. exists c. split; [reflexivity|]. split; [exact Hc|]. eexists. reflexivity.
Qed.
Lemma array_early b h x line line' s : (forall s, or_check b (line s) (line' s)) ->
  stops_early (check_fails b) (print_array h x line s) (print_array (unguarded b h) x line' s).
Proof.
  intros Hl. unfold print_array. destruct (ov_into_iter b h x s) as [->|(c & -> & Hc)].
  - destruct (nfwa_into_iter (unguarded b h) x s); [now apply loop_early|now left].
  - right. exists c. split; [reflexivity|]. split; [exact Hc|]. eexists. reflexivity.
Qed.
Lemma dir_early b h s : or_check b (ls_dir h s) (ls_dir (unguarded b h) s).
Proof. unfold ls_dir. apply ov_bind; [apply ov_to_tuple|]. intros. apply ov_refl. Qed.
Lemma file_early b h s : or_check b (ls_file h s) (ls_file (unguarded b h) s).
Proof. unfold ls_file. apply ov_bind; [apply ov_to_tuple|]. intros. apply ov_refl. Qed.
Lemma print_early b h v a2 a3 a4 :
  let p := ls_print h (deserialize h ostree_ty v a2 a3 a4) in
  let q := ls_print (unguarded b h) (deserialize (unguarded b h) ostree_ty v a2 a3 a4) in
  p = q \/ exists c, snd p = Panicked c /\ check_fails b c /\ begins (fst p) (fst q).
Proof.
  cbv zeta. unfold ls_print.
  assert (H : or_check b (let* o := deserialize h ostree_ty v a2 a3 a4 in let* r := owned_borrow h ostree_ty o in to_tuple h ostree_ty r)
    (let* o := deserialize (unguarded b h) ostree_ty v a2 a3 a4 in let* r := owned_borrow (unguarded b h) ostree_ty o in to_tuple (unguarded b h) ostree_ty r)).
  { apply ov_bind; [apply ov_deserialize|]. intros o. apply ov_bind; [apply ov_borrow|]. intros r. apply ov_to_tuple. }
  destruct H as [->|(c & -> & Hc)].
  2:{ right. exists c. split; [reflexivity|]. split; [exact Hc|]. eexists. reflexivity. }
  destruct (let* o := _ in _) as [rs|c]; [|now left]. destruct rs as [|files [|dirs [|]]]; try (now left).
  destruct (array_early b h (TTuple [TS; TA TY; TA TY]) _ _ dirs (dir_early b h)) as [->|(c & E & Hc & rest & E')].
  - destruct (print_array (unguarded b h) _ _ dirs) as [out [c|]]; [now left|].
    destruct (array_early b h (TTuple [TS; TA TY]) _ _ files (file_early b h)) as [->|(c & E & Hc & rest & E')]; [now left|].
    right. exists c. destruct (print_array h _ _ files) as [out1 o1]. cbn [fst snd] in E. subst o1. cbn [fst snd].
    split; [reflexivity|]. split; [exact Hc|]. exists rest. destruct (print_array (unguarded b h) _ _ files) as [out2 [c2|]]; cbn [fst] in *; rewrite E'; apply app_assoc.
  - right. exists c. destruct (print_array h _ _ dirs) as [out1 o1]. cbn [fst snd] in E. subst o1. cbn [fst snd].
    split; [reflexivity|]. split; [exact Hc|].
    destruct (print_array (unguarded b h) _ _ dirs) as [out2 [c2|]]; cbn [fst] in *; [now exists rest|].
    destruct (print_array (unguarded b h) _ _ files) as [out3 [c3|]]; cbn [fst] in *; exists (rest ++ out3); rewrite E', app_assoc; reflexivity.
Qed.
Lemma main_near h pre rest a1 a2 a3 a4 :
  a1 + 8 < 2 ^ 64 -> a2 + 8 < 2 ^ 64 -> a3 + 8 < 2 ^ 64 -> a4 + 8 < 2 ^ 64 ->
  Forall goes_on pre -> at_end rest ->
  len (concat (map brings pre)) < 2 ^ 63 -> sp_near sp_dirtree (Some (concat (map brings pre))) = true ->
  ls_main h (inr (pre ++ rest)) a1 a2 a3 a4 =
  (sp_ls (sp_decode (h_big_endian h) sp_dirtree (Some (concat (map brings pre)))), Returned).
Proof.
  intros. unfold ls_main, ls_function, deserialize_from. rewrite read_to_end_done by assumption. cbn [app].
  rewrite (print_of_ls h _ a2 a3 a4 _ (ostree_long h (Vec a1 (concat (map brings pre))) a2 a3 a4 H H0 H1 H2 H5 H6)). reflexivity.
Qed.
Lemma main_claim h pre rest a1 a2 a3 a4 :
  a1 + 8 < 2 ^ 64 -> a2 + 8 < 2 ^ 64 -> a3 + 8 < 2 ^ 64 -> a4 + 8 < 2 ^ 64 ->
  Forall goes_on pre -> at_end rest -> len (concat (map brings pre)) < 2 ^ 63 ->
  let d := concat (map brings pre) in
  let listing := sp_ls (sp_decode (h_big_endian h) sp_dirtree (Some d)) in
  let done := ls_main h (inr (pre ++ rest)) a1 a2 a3 a4 in
  done = (listing, Returned) \/
  (exists out more, done = (out, Panicked POverflow) /\ listing = out ++ more) /\
  h_overflow_checks h = true /\ sp_near sp_dirtree (Some d) = false.
Proof.
  intros H1 H2 H3 H4 Hg He Hl d listing done.
  destruct (h_overflow_checks h) eqn:Ho.
  - destruct (sp_near sp_dirtree (Some d)) eqn:Hn; [left; now apply main_near|].
    assert (Hu : h_overflow_checks (unguarded false h) = false) by reflexivity.
    pose proof (ostree_wrap (unguarded false h) (Vec a1 d) a2 a3 a4 Hu H1 H2 H3 H4 Hl) as E. apply print_of_ls in E.
    cbn [unguarded h_big_endian v_data] in E. change ostree_ty with sp_dirtree in E at 2. fold listing in E.
    unfold done, ls_main, ls_function, deserialize_from. rewrite read_to_end_done by assumption. cbn [app]. fold d.
    destruct (print_early false h (Vec a1 d) a2 a3 a4) as [Ep|(c & Ec & [->|[? _]] & more & Em)]; [| |discriminate].
    + left. rewrite Ep, E. reflexivity.
    + right. split; [|auto]. destruct (ls_print h _) as [out e] eqn:Ep. cbn [snd fst] in *. subst e. exists out, more.
      split; [reflexivity|]. rewrite E in Em. exact Em.
  - left. pose proof (ostree_wrap h (Vec a1 d) a2 a3 a4 Ho H1 H2 H3 H4 Hl) as E. apply print_of_ls in E.
    unfold done, ls_main, ls_function, deserialize_from. rewrite read_to_end_done by assumption. cbn [app]. fold d.
    rewrite E. reflexivity.
Qed.
Lemma main_fails h file e : file = inl e \/ (exists pre rest, file = inr (pre ++ Fails e :: rest) /\ Forall goes_on pre) ->
  forall a1 a2 a3 a4, ls_function h file a1 a2 a3 a4 = ([], Errored e) /\ ls_main h file a1 a2 a3 a4 = ([], Panicked PUnwrap).
Proof.
  intros [->|(pre & rest & -> & H)] a1 a2 a3 a4; unfold ls_main, ls_function; [auto|]. rewrite reader_fails by exact H. auto.
Qed.
