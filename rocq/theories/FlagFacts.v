(** Format flags: [{:#?}] and others. *)
From Verif Require Import Base Types Layout AlignedBytes Strs Spec Deser Buf Histories
  BaseFacts TypesFacts LayoutFacts AlignedFacts Utf8Facts DeserFacts ArrayFacts StructFacts ReadFacts AccessFacts ReadClaims EqFacts
  OwnClaims Fmt FmtSpec FmtFacts CoreFmt PrintFacts Flags FlagSpec.
From Coq Require Import Lia ZifyBool ZifyNat ZifyN.
Ltac Zify.zify_post_hook ::= Z.div_mod_to_equations.

(** Everything after the first line one step further in. *)
Definition ind (s : list byte) : list byte :=
  concat (map (fun c => if Byte.eqb c x0a then c :: bs "    " else [c]) s).
Lemma ind_app a b : ind (a ++ b) = ind a ++ ind b.
Proof. unfold ind. now rewrite map_app, concat_app. Qed.
Lemma ind_one s : one_line s -> ind s = s.
Proof.
  unfold one_line. induction s as [|c s IH]; intros H; [reflexivity|]. unfold ind. cbn [map concat].
  destruct (Byte.eqb c x0a) eqn:E.
  - apply Byte.byte_dec_bl in E. subst c. elim H. now left.
  - cbn [app]. f_equal. apply IH. intros Hi. apply H. now right.
Qed.
Lemma one_app a b : one_line a -> one_line b -> one_line (a ++ b).
Proof. unfold one_line. intros Ha Hb H. apply in_app_or in H. tauto. Qed.
Lemma spaces_one d : one_line (concat (repeat (bs "    ") d)).
Proof.
  induction d as [|d IH]; [intros []|]. cbn [repeat concat]. apply one_app; [|exact IH]. intros H. cbn in H. intuition discriminate.
Qed.
Lemma ind_line d : ind (sp_line d) = sp_line (S d).
Proof.
  unfold sp_line. change (x0a :: concat (repeat (bs "    ") d)) with ([x0a] ++ concat (repeat (bs "    ") d)).
  rewrite ind_app, (ind_one _ (spaces_one d)). reflexivity.
Qed.
Lemma pad_entry x : forall b, pad_adapter b (x ++ bs "," ++ [x0a]) = (if b then bs "    " else []) ++ ind x ++ bs "," ++ [x0a].
Proof.
  induction x as [|c x IH]; intros b; [destruct b; reflexivity|]. cbn [app pad_adapter]. rewrite IH. unfold ind at 2. cbn [map concat].
  fold (ind x). destruct (Byte.eqb c x0a); reflexivity.
Qed.
Lemma entries_block l : [x0a] ++ entries l = sp_block 0 (map ind l).
Proof.
  unfold entries, sp_block. induction l as [|x l IH]; [reflexivity|]. cbn [map concat]. rewrite pad_entry.
  rewrite <- (app_assoc (sp_line 1 ++ _)). rewrite <- IH. unfold sp_line. cbn [repeat concat app]. now rewrite app_nil_r, <- !app_assoc.
Qed.
Lemma ind_block d l : ind (sp_block d l) = sp_block (S d) (map ind l).
Proof.
  unfold sp_block. rewrite ind_app, ind_line. f_equal. induction l as [|x l IH]; [reflexivity|].
  cbn [map concat]. rewrite !ind_app, ind_line, IH. reflexivity.
Qed.

(** Plain text has no line breaks. *)
Lemma bs_one s : existsb (Byte.eqb x0a) s = false -> one_line s.
Proof.
  intros H Hi. assert (existsb (Byte.eqb x0a) s = true) by (apply existsb_exists; exists x0a; split; [exact Hi|reflexivity]). congruence.
Qed.
Lemma concat_one l : Forall one_line l -> one_line (concat l).
Proof. induction 1; [intros []|]. cbn [concat]. now apply one_app. Qed.
Lemma sep_one sep l : one_line sep -> Forall one_line l -> one_line (sp_sep sep l).
Proof.
  intros Hs H. destruct H as [|x l Hx Hl]; [intros []|]. cbn [sp_sep]. apply one_app; [exact Hx|]. apply concat_one.
  apply Forall_map. eapply Forall_impl; [|exact Hl]. intros y Hy. now apply one_app.
Qed.
Definition plain_lines (F : fmts) : Prop :=
  (forall z, one_line (f_int F z)) /\ (forall n, one_line (f_double F n)) /\ (forall s, one_line (f_str F s)).
Lemma print_one F t : plain_lines F -> forall v, one_line (sp_print F t v).
Proof.
  intros (Hi & Hd & Hs).
  assert (Hb : forall b : bool, one_line (if b then bs "true" else bs "false")) by (intros []; apply bs_one; reflexivity).
  assert (Hv : forall ts d, one_line (bs "Variant { type: " ++ f_str F (f_lossy F ts) ++
      bs ", data: [" ++ sp_sep (bs ", ") (map (fun b => f_int F (Z.of_N (b2n b))) d) ++ bs "] }")).
  { intros ts d. apply one_app; [apply bs_one; reflexivity|]. apply one_app; [apply Hs|]. apply one_app; [apply bs_one; reflexivity|].
    apply one_app; [|apply bs_one; reflexivity]. apply sep_one; [apply bs_one; reflexivity|]. apply Forall_map, Forall_forall. intros; apply Hi. }
  induction t using ty_ind'; intros v; cbn [sp_print];
    (destruct v as [z|n|b|s|tss dd|vs|[w|]|vs]; auto; try (intros []; fail)).
  - apply one_app; [apply bs_one; reflexivity|]. apply one_app; [|apply bs_one; reflexivity].
    assert (HF : Forall one_line (map (sp_print F t) vs)) by (apply Forall_map, Forall_forall; auto).
    destruct (sp_size t); [apply sep_one; [apply bs_one; reflexivity|exact HF]|].
    unfold sp_trail. apply concat_one, Forall_map. eapply Forall_impl; [|exact HF]. intros y Hy. apply one_app; [exact Hy|apply bs_one; reflexivity].
  - apply one_app; [apply bs_one; reflexivity|]. apply one_app; [apply IHt|apply bs_one; reflexivity].
  - apply bs_one; reflexivity.
  - apply one_app; [apply bs_one; reflexivity|]. apply one_app.
    + apply sep_one; [apply bs_one; reflexivity|]. revert vs. induction H as [|c ts Hc Hts IH]; intros [|v vs]; auto.
    + apply one_app; [|apply bs_one; reflexivity]. destruct (_ =? 1); apply bs_one; reflexivity.
  - destruct vs as [|a [|b [|c vs]]]; try (intros []; fail).
    apply one_app; [apply bs_one; reflexivity|]. apply one_app; [apply IHt1|]. apply one_app; [apply bs_one; reflexivity|].
    apply one_app; [apply IHt2|apply bs_one; reflexivity].
Qed.

(** One step further in. *)
Lemma one_lines_plain F G : one_lines F G -> plain_lines F.
Proof. unfold one_lines, plain_lines. tauto. Qed.
Lemma flags_in F G t : g_alternate G = true -> one_lines F G ->
  forall d v, sp_flags F G (S d) t v = ind (sp_flags F G d t v).
Proof.
  intros HG HL. pose proof (one_lines_plain F G HL) as HP. destruct HL as (_ & _ & _ & Hi & Hd & Hs & Hb & Hu).
  assert (Hn : one_line []) by (intros []).
  induction t using ty_ind'; intros d v; cbn [sp_flags]; rewrite ?HG;
    try (destruct v; symmetry; apply ind_one; auto using print_one; fail).
  - destruct v as [z|n|b|s|tss dd|vs|[w|]|vs]; try (symmetry; apply ind_one; auto; fail).
    destruct (sp_size t); [|symmetry; apply ind_one, print_one; exact HP].
    destruct vs as [|v vs]; [reflexivity|]. rewrite !ind_app, ind_block, map_map. do 2 f_equal. f_equal. apply map_ext. intros w. apply IHt.
  - destruct v as [z|n|b|s|tss dd|vs|[w|]|vs]; try (symmetry; apply ind_one; auto; fail); [|reflexivity].
    rewrite !ind_app, ind_block. cbn [map]. rewrite IHt. reflexivity.
  - destruct v as [z|n|b|s|tss dd|vs|[w|]|vs]; try (destruct ts; symmetry; apply ind_one; auto; fail).
    assert (E : forall d vs, (fix go (ts : list ty) (vs : list value) : list (list byte) :=
       match ts, vs with t :: ts', v :: vs' => sp_flags F G (S d) t v :: go ts' vs' | _, _ => [] end) ts vs =
       map ind ((fix go (ts : list ty) (vs : list value) : list (list byte) :=
       match ts, vs with t :: ts', v :: vs' => sp_flags F G d t v :: go ts' vs' | _, _ => [] end) ts vs)).
    { clear d vs. intros d. induction H as [|c ts Hc Hts IH]; intros [|v vs]; auto. cbn [map]. now rewrite Hc, IH. }
    specialize (E (S d) vs). destruct ts as [|c ts]; [destruct vs; [symmetry; apply ind_one; auto|]|]; rewrite !ind_app, ind_block; [reflexivity|]. do 2 f_equal. f_equal. exact E.
  - destruct v as [z|n|b|s|tss dd|vs|[w|]|vs]; try (symmetry; apply ind_one; auto; fail).
    destruct vs as [|a [|b [|c vs]]]; try (symmetry; apply ind_one; auto; fail).
    rewrite !ind_app, ind_block. cbn [map]. rewrite IHt1, IHt2. reflexivity.
Qed.

(** Without [#] the depth does not matter. *)
Lemma flags_flat F G t : g_alternate G = false -> forall d e v, sp_flags F G d t v = sp_flags F G e t v.
Proof.
  intros HG. induction t using ty_ind'; intros d e v; cbn [sp_flags]; rewrite ?HG; try reflexivity.
  - destruct v as [z|n|b|s|tss dd|vs|[w|]|vs]; try reflexivity. destruct (sp_size t); [|reflexivity].
    do 2 f_equal. f_equal. apply map_ext. intros w. apply IHt.
  - destruct v as [z|n|b|s|tss dd|vs|[w|]|vs]; try reflexivity. do 2 f_equal. apply IHt.
  - destruct v as [z|n|b|s|tss dd|vs|[w|]|vs]; try (destruct ts; reflexivity).
    assert (E : (fix go (ts : list ty) (vs : list value) : list (list byte) :=
       match ts, vs with t :: ts', v :: vs' => sp_flags F G d t v :: go ts' vs' | _, _ => [] end) ts vs =
       (fix go (ts : list ty) (vs : list value) : list (list byte) :=
       match ts, vs with t :: ts', v :: vs' => sp_flags F G e t v :: go ts' vs' | _, _ => [] end) ts vs).
    { revert vs. induction H as [|c ts Hc Hts IH]; intros [|v vs]; auto. f_equal; auto. }
    destruct ts as [|c ts]; [destruct vs; reflexivity|]. f_equal. f_equal. f_equal. f_equal. exact E.
  - destruct v as [z|n|b|s|tss dd|vs|[w|]|vs]; try reflexivity. destruct vs as [|a [|b [|c vs]]]; try reflexivity.
    rewrite (IHt1 d e), (IHt2 d e). reflexivity.
Qed.

Section Claims.
Context (h : host) (F : fmts) (G : flags).
Hypothesis HL : g_alternate G = true -> one_lines F G.

Lemma list_ok x vs : (exists n, sp_size x = Some n) ->
  flag_list G (map (sp_flags F G 0 x) vs) = sp_flags F G 0 (TA x) (VArray vs).
Proof.
  intros [n En]. cbn [sp_flags]. rewrite En. unfold flag_list. destruct (g_alternate G) eqn:HG.
  - destruct vs as [|v vs]; [reflexivity|]. cbn [map]. rewrite app_assoc with (m := entries _).
    rewrite entries_block. cbn [map]. rewrite map_map, <- flags_in by auto.
    rewrite (map_ext _ (sp_flags F G 1 x)) by (intros; symmetry; apply flags_in; auto). reflexivity.
  - unfold fmt_list. now rewrite join_sep.
Qed.
Lemma some_ok x v : flag_some G (sp_flags F G 0 x v) = sp_flags F G 0 (TM x) (VMaybe (Some v)).
Proof.
  cbn [sp_flags]. unfold flag_some. destruct (g_alternate G) eqn:HG; [|reflexivity].
  rewrite app_assoc with (m := entries _), entries_block. cbn [map]. now rewrite <- flags_in by auto.
Qed.
Definition items (d : nat) (t : ty) (vs : list value) : list (list byte) :=
  map (fun q => sp_flags F G d (fst q) (snd q)) (combine (children_of t) vs).
Lemma items_go d ts vs : (fix go (ts : list ty) (vs : list value) : list (list byte) :=
    match ts, vs with t :: ts', v :: vs' => sp_flags F G d t v :: go ts' vs' | _, _ => [] end) ts vs =
  items d (TTuple ts) vs.
Proof.
  unfold items. cbn [children_of]. revert vs. induction ts as [|t ts IH]; intros [|v vs]; try reflexivity. cbn [combine map fst snd]. now rewrite IH.
Qed.
Lemma tuple_flags d c ts vs : sp_flags F G d (TTuple (c :: ts)) (VTuple vs) =
  bs "(" ++ (if g_alternate G then sp_block d (items (S d) (TTuple (c :: ts)) vs)
             else sp_sep (bs ", ") (items d (TTuple (c :: ts)) vs) ++ (if len (c :: ts) =? 1 then bs "," else [])) ++ bs ")".
Proof. rewrite <- !items_go. destruct vs; reflexivity. Qed.
Lemma struct_ok t vs : is_struct t -> length vs = length (children_of t) ->
  flag_tuple G (items 0 t vs) = sp_flags F G 0 t (VTuple vs).
Proof.
  intros Hs Hl.
  assert (HB : forall a l, g_alternate G = true -> items 0 t vs = a :: l ->
    bs "(" ++ [x0a] ++ entries (a :: l) ++ bs ")" = bs "(" ++ sp_block 0 (items 1 t vs) ++ bs ")").
  { intros a l HG E. rewrite app_assoc with (m := entries _), entries_block, <- E. f_equal. f_equal. f_equal.
    unfold items. rewrite map_map. apply map_ext. intros q. symmetry. apply flags_in; auto. }
  destruct t as [| | | | | | | | | | | | |x|x|ts|k v]; cbn [is_struct] in Hs; try tauto; cbn [children_of] in *.
  - destruct ts as [|c ts].
    { destruct vs; [reflexivity|discriminate]. }
    rewrite tuple_flags. destruct vs as [|w vs]; [discriminate|].
    destruct (items 0 (TTuple (c :: ts)) (w :: vs)) as [|a l] eqn:E; [discriminate|]. cbn [flag_tuple].
    destruct (g_alternate G) eqn:HG; [apply HB; auto|]. rewrite <- E, tuple_sep. f_equal. rewrite <- app_assoc. f_equal. f_equal.
    assert (El : length (items 0 (TTuple (c :: ts)) (w :: vs)) = length (c :: ts)).
    { unfold items. rewrite map_length, combine_length, Hl. cbn [children_of]. lia. }
    unfold len. now rewrite El.
  - destruct vs as [|a [|b [|c vs]]]; cbn [length] in Hl; try lia. unfold items in *. cbn [children_of combine map fst snd flag_tuple] in *.
    cbn [sp_flags]. destruct (g_alternate G) eqn:HG; [eapply HB; eauto|]. unfold fmt_tuple. cbn [fmt_join]. now rewrite <- !app_assoc.
Qed.

Lemma flags_struct t s rs : is_struct t -> to_tuple h t s = Ok rs -> length rs = length (children_of t) ->
  fmt_flags h F G t s = let* l := mapM (fun p => fmt_flags h F G (fst p) (snd p)) (combine (children_of t) rs) in Ok (flag_tuple G l).
Proof.
  intros Hs E Hl.
  destruct t as [| | | | | | | | | | | | |x|x|ts|k v]; cbn [is_struct] in Hs; try tauto; cbn [fmt_flags children_of] in *;
    rewrite E; cbn [bind].
  - f_equal. clear E Hl. revert rs. induction ts as [|t ts IH]; intros [|r rs]; cbn [combine mapM fst snd]; try reflexivity.
    destruct (fmt_flags h F G t r); [|reflexivity]. cbn [bind]. rewrite IH. reflexivity.
  - destruct rs as [|a [|b [|c l]]]; cbn [length] in Hl; try lia. cbn [combine mapM fst snd].
    destruct (fmt_flags h F G k a); [|reflexivity]. cbn [bind]. destruct (fmt_flags h F G v b); reflexivity.
Qed.
Lemma child_flags t c s r :
  (sp_tame t = true -> sp_tame c = true) -> readable c -> ref_ok c r -> placed h c s r -> slen s < 2 ^ 63 \/ is_fixed c = true ->
  (short c r -> same h c (slen r) (sp_flags F G 0 c) (read h c r) (fmt_flags h F G c r)) ->
  same h t (slen s) (sp_flags F G 0 c) (read h c r) (fmt_flags h F G c r).
Proof.
  intros Ht Hc Hr Hp Hl H. destruct (is_fixed c) eqn:Ef.
  - specialize (H (or_introl Ef)). destruct (fixed_read h c r Ef Hc Hr) as [v E]. rewrite E in *. exact H.
  - pose proof (placed_len h c s r Hp Hr Ef) as Hle. destruct Hl as [Hl|Hl]; [|congruence].
    specialize (H (or_intror (N.le_lt_trans _ _ _ Hle Hl))).
    unfold same in *. destruct (read h c r); [exact H|]. destruct H as (c' & E & Hb). exists c'. split; [exact E|].
    apply (bad_child h t c (slen s) (slen r)); auto. lia.
Qed.
Lemma flags_array_plain x s : readable (TA x) -> ref_ok (TA x) s -> short (TA x) s -> size_of x = None ->
  same h (TA x) (slen s) (sp_flags F G 0 (TA x)) (read h (TA x) s) (fmt_debug h F (TA x) s).
Proof.
  intros Hrd Hr Hsh En. pose proof (fmt_exact h F (TA x) Hrd s Hr Hsh) as H. unfold same in *.
  destruct (read h (TA x) s) as [v|c] eqn:E; [|exact H]. rewrite H. f_equal.
  cbn [read] in E. destruct (array_refs h x s) as [rs|]; [|discriminate]. cbn [bind] in E.
  destruct (mapM (read h x) rs) as [vs|]; [|discriminate]. cbn [bind] in E. injection E as <-.
  cbn [sp_flags]. now rewrite sp_size_of, En.
Qed.
Lemma flags_exact t : readable t -> forall s, ref_ok t s -> short t s ->
  same h t (slen s) (sp_flags F G 0 t) (read h t s) (fmt_flags h F G t s).
Proof.
  induction t as [t Hns IH|t Hs IH] using ty_struct_ind; intros Hrd s Hr Hsh.
  - destruct t as [| | | | | | | | | | | | |x|x|ts|k v]; cbn [is_struct] in Hns; try tauto; try reflexivity.
    + exact (fmt_exact h F TV Hrd s Hr Hsh).
    + (* array *) pose proof (readable_part _ x (or_introl eq_refl) Hrd) as Hx. pose proof Hx as [Hm _].
      cbn [fmt_flags]. destruct (size_of x) as [n|] eqn:En; [|now apply flags_array_plain].
      pose proof Hr as [Ha _]. change (align_of (TA x)) with (align_of x) in Ha.
      destruct Hsh as [Hf|Hsh]; [discriminate|]. cbn [read]. unfold array_refs. rewrite En.
      assert (Ht : sp_tame (TA x) = true -> sp_tame x = true)
        by (cbn [sp_tame]; intros H; apply andb_true_iff in H; tauto).
      rewrite (mem_layout_ok x n) by assumption. cbn [bind].
      eapply (same_bind h (TA x) (slen s) _ _ VArray (flag_list G)).
      2:{ apply (same_mapM h (TA x) (slen s) (fun _ => sp_flags F G 0 x)).
          destruct (slice_elems_ok x n s En Hr) as [_ HF]. eapply Forall_impl; [|exact HF].
          intros r [H1 H2]. apply (child_flags (TA x) x s r); auto. left. exact H2. }
      intros vs E. cbv beta. rewrite (combine_const (sp_flags F G 0 x)) by (apply mapM_length in E; auto).
      apply list_ok. exists n. now rewrite sp_size_of.
    + (* maybe *) pose proof (readable_part _ x (or_intror eq_refl) Hrd) as Hx.
      pose proof (access_safe h (TM x) s AcOption Hrd Hr Hsh I) as HA. cbn [run_access] in HA. cbn [read fmt_flags].
      destruct (to_option h x s) as [[r|]|c]; cbn [bind] in *.
      * destruct HA as (_ & H1 & H2 & _).
        apply (same_bind h (TM x) (slen s) (sp_flags F G 0 x) (sp_flags F G 0 (TM x)) (fun v => VMaybe (Some v)) (flag_some G)).
        -- intros v _. apply some_ok.
        -- apply (child_flags (TM x) x s r); auto.
           ++ cbn [sp_tame]. intros H; apply andb_true_iff in H; tauto.
           ++ left. destruct Hsh; [discriminate|assumption].
      * reflexivity.
      * cbn [same]. destruct HA as [HA|(i & HA & _)]; [eauto|discriminate].
  - destruct (to_tuple_short h t s Hs Hrd Hr Hsh) as [(rs & E & HF)|(E & Ho & Hl)].
    + pose proof (Forall2_length _ _ _ HF) as Hlen.
      rewrite (read_struct h t s rs), (flags_struct t s rs) by auto.
      eapply (same_bind h t (slen s) _ _ VTuple (flag_tuple G)).
      2:{ apply (same_mapM h t (slen s) (fun p => sp_flags F G 0 (fst p))). apply Forall_forall. intros [c r] Hin.
        assert (H2 : ref_ok c r /\ placed h c s r).
        { apply In_nth_error in Hin as [k Hk]. rewrite nth_error_combine in Hk.
          destruct (nth_error (children_of t) k) eqn:E1, (nth_error rs k) eqn:E2; try discriminate.
          injection Hk as -> ->. exact (Forall2_nth _ _ _ HF k c r E1 E2). }
        destruct H2 as [H1 H2]. pose proof (in_combine_l _ _ _ _ Hin) as Hc. cbn [fst snd].
        pose proof (readable_child t c Hs Hrd Hc) as Hcr.
        apply (child_flags t c s r); auto.
        * intros Ht. destruct t; try contradiction; cbn [children_of sp_tame] in *.
          -- rewrite forallb_forall in Ht. auto.
          -- apply andb_true_iff in Ht. destruct Hc as [<-|[<-|[]]]; tauto.
        * destruct Hsh as [Hf|Hsh]; [right|left; exact Hsh]. unfold is_fixed in Hf.
          destruct (size_of t) as [n|] eqn:En; [|discriminate]. pose proof (fixed_children t n Hs En) as HA.
          rewrite Forall_forall in HA. auto.
        * intros Hshc. rewrite Forall_forall in IH. apply IH; auto. }
      intros vs Ev. pose proof (mapM_length _ _ _ Ev) as Hv. rewrite combine_length, <- Hlen, Nat.min_id in Hv.
      rewrite <- (struct_ok t vs) by assumption. f_equal. unfold items.
      clear - Hlen Hv. revert rs vs Hlen Hv. generalize (children_of t) as ts.
      induction ts as [|c ts IHt]; intros [|r rs] [|w vs] Hlen Hv; cbn [length combine map fst snd] in *; try lia; try reflexivity.
      f_equal. apply IHt; lia.
    + assert (Hread : read h t s = Crash POverflow).
      { destruct t; try contradiction; cbn [read]; rewrite E; reflexivity. }
      assert (Hfmt : fmt_flags h F G t s = Crash POverflow).
      { destruct t; try contradiction; cbn [fmt_flags]; rewrite E; reflexivity. }
      rewrite Hread, Hfmt. exists POverflow. split; [reflexivity|]. right. auto.
Qed.
End Claims.

Lemma flags_claim h F G t r v : (g_alternate G = true -> one_lines F G) -> view h t r -> read h t r = Ok v ->
  fmt_flags h F G t r = Ok (sp_flags F G 0 t v).
Proof.
  intros HL Hv E. apply view_ok in Hv as (H1 & H2 & H3). pose proof (flags_exact h F G HL t H1 r H2 H3) as H. now rewrite E in H.
Qed.

(** Without flags, as before. *)
Lemma no_flags_claim h F t s : fmt_flags h F (no_flags F) t s = fmt_debug h F t s.
Proof.
  revert s. induction t using ty_ind'; intros s; cbn [fmt_flags fmt_debug]; try reflexivity.
  - destruct (size_of t); [|reflexivity]. destruct (array_refs h t s) as [rs|]; [|reflexivity]. cbn [bind].
    replace (mapM (fmt_flags h F (no_flags F) t) rs) with (mapM (fmt_debug h F t) rs); [reflexivity|].
    induction rs as [|r rs IH]; [reflexivity|]. cbn [mapM]. now rewrite IHt, IH.
  - destruct (to_option h t s) as [[r|]|]; try reflexivity. cbn [bind]. now rewrite IHt.
  - destruct (to_tuple h (TTuple ts) s) as [rs|]; [|reflexivity]. cbn [bind].
    assert (E : (fix go (ts : list ty) (rs : list slice) : res (list (list byte)) :=
        match ts, rs with t :: ts', r :: rs' => let* a := fmt_flags h F (no_flags F) t r in let* l := go ts' rs' in Ok (a :: l) | _, _ => Ok [] end) ts rs =
      (fix go (ts : list ty) (rs : list slice) : res (list (list byte)) :=
        match ts, rs with t :: ts', r :: rs' => let* a := fmt_debug h F t r in let* l := go ts' rs' in Ok (a :: l) | _, _ => Ok [] end) ts rs).
    { revert rs. induction H as [|c ts Hc Hts IH]; intros [|r rs]; auto. now rewrite Hc, IH. }
    rewrite E. match goal with |- bind ?m _ = _ => destruct m as [[|a l]|] end; reflexivity.
  - destruct (to_tuple h (TDict t1 t2) s) as [[|ra [|rb [|rc rs]]]|]; try reflexivity. cbn [bind]. rewrite IHt1, IHt2. reflexivity.
Qed.

Lemma flags_panic_claim h F G t r : (g_alternate G = true -> one_lines F G) -> view h t r ->
  ((exists c, fmt_flags h F G t r = Crash c) <-> (exists c, read h t r = Crash c)).
Proof.
  intros HL Hv. apply view_ok in Hv as (H1 & H2 & H3). pose proof (flags_exact h F G HL t H1 r H2 H3) as H.
  unfold same in H. destruct (read h t r) as [v|c].
  - rewrite H. split; intros [c E]; discriminate.
  - destruct H as (c' & E & _). split; eauto.
Qed.
Lemma owned_flags_claim h F G t d q a1 a2 v : (g_alternate G = true -> one_lines F G) ->
  usable t -> a1 + 8 < 2 ^ 64 -> a2 + 8 < 2 ^ 64 -> d <> [] -> len d < 2 ^ 63 ->
  aligned (sp_align t) q -> s_data q = d -> decode h t q = Ok v ->
  exists b, owned_from_bytes h d a1 a2 = Ok b /\ owned_flags h F G t b = Ok (sp_flags F G 0 t v).
Proof.
  intros HL Hu H1 H2 Hne Hl Hq Hqd Ev. unfold owned_from_bytes, buf_from_vec, owned_flags.
  assert (Hv : v_addr (to_vec d a1) + 8 < usize_lim) by (destruct d; cbn [to_vec vec_new v_addr]; unfold usize_lim; lia).
  assert (Hvd : v_data (to_vec d a1) = d) by (destruct d; reflexivity).
  destruct (vec_align_spec h (to_vec d a1) a2 H2 Hv) as (b & -> & Hh & Hg). rewrite Hvd in Hh.
  destruct (buf_deref_ok h b d Hh Hg) as (s & Es & Hd & Ha & _). specialize (Ha Hne).
  exists b. split; [reflexivity|]. unfold owned_deref. rewrite Es. cbn [bind]. rewrite as_aligned_8. cbn [bind].
  assert (Hsa : aligned (sp_align t) s) by (rewrite sp_align_of; now apply aligned_8).
  rewrite (position_claim h t q s (proj1 Hu)) in Ev by (congruence || assumption). unfold decode in Ev.
  change (from_aligned_slice h t s) with (cast h t s). destruct (cast h t s) as [r|] eqn:Ec; [|discriminate]. cbn [bind] in *.
  apply flags_claim; [exact HL| |exact Ev]. exists t, s. split; [exact Hu|]. split; [exact Hsa|]. split; [rewrite Hd; exact Hl|].
  now apply reach_cast.
Qed.

(** What core writes has no line breaks. *)
Lemma chars_bound n : forall s, (length s <= n)%nat -> Forall (fun c => c < 2097152) (chars s).
Proof.
  assert (Hl : forall b, low6 b < 64) by (intros b; unfold low6; apply N.mod_lt; discriminate).
  assert (H32 : forall b, b2n b mod 32 < 32) by (intros b; apply N.mod_lt; discriminate).
  assert (H8 : forall b, b2n b mod 8 < 8) by (intros b; apply N.mod_lt; discriminate).
  induction n as [|n IH]; intros s Hn; (destruct s as [|b0 r0]; [constructor|]); cbn [length] in Hn; [lia|].
  cbn [chars]. destruct (b2n b0 <? 128) eqn:E0; [constructor; [lia|apply IH; lia]|].
  destruct r0 as [|b1 r1]; [constructor|]. cbn [length] in Hn. pose proof (Hl b1). pose proof (H32 b0). pose proof (H8 b0).
  destruct (b2n b0 <? 224); [constructor; [lia|apply IH; lia]|].
  destruct r1 as [|b2 r2]; [constructor|]. cbn [length] in Hn. pose proof (Hl b2).
  destruct (b2n b0 <? 240); [constructor; [lia|apply IH; lia]|].
  destruct r2 as [|b3 r3]; [constructor|]. cbn [length] in Hn. pose proof (Hl b3).
  constructor; [lia|apply IH; lia].
Qed.
Lemma num_char_one c : num_char c -> c <> x0a.
Proof. intros H ->. unfold num_char in H. cbn in H. intuition discriminate. Qed.
Lemma core_int_one z : one_line (core_int z).
Proof.
  intros H. destruct (core_int_chars z) as [_ HF]. rewrite Forall_forall in HF. apply (num_char_one x0a); [apply HF; exact H|reflexivity].
Qed.
Lemma bt_one n : n < 256 -> n <> 10 -> bt n <> x0a.
Proof. intros Hn H E. apply H. rewrite <- (N.mod_small n 256) by lia. rewrite <- b2n_bt, E. reflexivity. Qed.
Lemma list_one l : Forall (fun c => c <> x0a) l -> one_line l.
Proof. intros H Hi. rewrite Forall_forall in H. now apply (H x0a). Qed.
Lemma utf8_one c : c < 2097152 -> c <> 10 -> one_line (utf8_of c).
Proof.
  intros Hc Hn. apply list_one. unfold utf8_of.
  pose proof (N.mod_lt c 64 ltac:(discriminate)). pose proof (N.mod_lt (c / 64) 64 ltac:(discriminate)). pose proof (N.mod_lt (c / 4096) 64 ltac:(discriminate)).
  destruct (c <? 128) eqn:E1; [repeat constructor; apply bt_one; lia|].
  destruct (c <? 2048) eqn:E2.
  { assert (c / 64 < 32) by (apply N.div_lt_upper_bound; lia). repeat constructor; apply bt_one; lia. }
  destruct (c <? 65536) eqn:E3.
  { assert (c / 4096 < 16) by (apply N.div_lt_upper_bound; lia). repeat constructor; apply bt_one; lia. }
  assert (c / 262144 < 8) by (apply N.div_lt_upper_bound; lia). repeat constructor; apply bt_one; lia.
Qed.
Lemma radix16_one c : one_line (radix 16 c).
Proof.
  intros H. pose proof (radix16_chars c) as HF. rewrite Forall_forall in HF. specialize (HF _ H). cbn in HF. intuition discriminate.
Qed.
Lemma escape_one shown c : c < 2097152 -> one_line (escape shown c).
Proof.
  intros Hc. unfold escape. destruct (c =? 0); [apply bs_one; reflexivity|]. destruct (c =? 9); [apply bs_one; reflexivity|].
  destruct (c =? 13); [apply bs_one; reflexivity|]. destruct (c =? 10) eqn:E; [apply bs_one; reflexivity|].
  destruct ((c =? 34) || (c =? 92)) eqn:E2.
  { assert (c = 34 \/ c = 92) as [-> | ->] by lia; apply bs_one; reflexivity. }
  destruct (shown c); [apply utf8_one; lia|].
  apply one_app; [apply bs_one; reflexivity|]. apply one_app; [apply radix16_one|apply bs_one; reflexivity].
Qed.
Lemma core_str_one shown s : one_line (core_str shown s).
Proof.
  unfold core_str. apply one_app; [apply bs_one; reflexivity|]. apply one_app; [|apply bs_one; reflexivity].
  apply concat_one, Forall_map. eapply Forall_impl; [|apply (chars_bound (length s)); lia]. intros c Hc. now apply escape_one.
Qed.
Lemma core_lines shown double : (forall n, one_line (double n)) -> one_lines (core_fmts shown double) (pretty shown double).
Proof.
  intros Hd. unfold one_lines. cbn [core_fmts pretty f_int f_double f_str g_int g_double g_str g_bool g_unit].
  assert (Hb : forall b, one_line (fmt_bool b)) by (intros []; apply bs_one; reflexivity).
  assert (Hu : one_line (bs "()")) by (apply bs_one; reflexivity).
  auto 10 using core_int_one, core_str_one.
Qed.
Lemma pretty_claim shown double h t r v : (forall n, one_line (double n)) -> view h t r -> read h t r = Ok v ->
  fmt_flags h (core_fmts shown double) (pretty shown double) t r = Ok (sp_pretty (core_fmts shown double) t v).
Proof. intros Hd. apply (flags_claim h (core_fmts shown double) (pretty shown double)). intros _. now apply core_lines. Qed.
