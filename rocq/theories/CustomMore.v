(** Values with parts of the program's own, any writer: where failures come from. *)
From Verif Require Import Base Types Layout AlignedBytes Strs Spec Deser Ser Histories SerSpec Custom CustomSpec
  BaseFacts TypesFacts LayoutFacts AlignedFacts Utf8Facts DeserFacts ArrayFacts StructFacts ReadFacts AccessFacts EncFacts RoundFacts SerFacts SerStruct SerMain
  LongSpec LongFacts WrapSpec WrapReadFacts EmptyFacts CustomFacts Writer WriterSpec WriterFacts.
From Coq Require Import Lia ZifyBool ZifyNat ZifyN.
Ltac Zify.zify_post_hook ::= idtac.

Lemma usable_elem x : usable (TA x) -> usable x.
Proof. unfold usable. intros [H1 H2]. split; [exact H1|]. rewrite type_len_show in *. rewrite (type_len_parts (TA x) x) in H2 by auto. lia. Qed.
Lemma usable_inner x : usable (TM x) -> usable x.
Proof. unfold usable. intros [H1 H2]. split; [exact H1|]. rewrite type_len_show in *. rewrite (type_len_parts (TM x) x) in H2 by auto. lia. Qed.

(** ** Numbers *)
Lemma uadd_any h a b : (exists c, uadd h a b = Ok c /\ c < usize_lim) \/ (uadd h a b = Crash POverflow /\ h_overflow_checks h = true).
Proof.
  unfold uadd. destruct (a + b <? usize_lim) eqn:E; [left; eexists; split; [reflexivity|lia]|].
  destruct (h_overflow_checks h); [now right|]. left. eexists. split; [reflexivity|]. apply N.mod_lt. discriminate.
Qed.
Lemma umul_any h a b : (exists c, umul h a b = Ok c) \/ (umul h a b = Crash POverflow /\ h_overflow_checks h = true).
Proof.
  unfold umul. destruct (a * b <? usize_lim); [left; eauto|]. destruct (h_overflow_checks h); [now right|left; eauto].
Qed.
Lemma padding_any h A b : is_alignment A -> b < usize_lim ->
  (exists a p, align_offset h A b = Ok a /\ usub h a b = Ok p /\ p < 8) \/
  (align_offset h A b = Crash POverflow /\ h_overflow_checks h = true).
Proof.
  intros HA Hb. pose proof (pad_to_lt A b HA) as Hlt. pose proof (pad_to_ge A b HA) as Hge.
  assert (H8 : A <= 8) by (destruct HA as [|[|[|]]]; lia).
  assert (HU : usize_lim = 2 ^ 64) by reflexivity.
  destruct (N.lt_ge_cases (b + A) usize_lim) as [Hs|Hs].
  - left. exists (pad_to A b), (pad_to A b - b). rewrite align_offset_ok by assumption. rewrite usub_ok by assumption.
    repeat split; auto. lia.
  - destruct (h_overflow_checks h) eqn:Ho.
    + right. split; [|reflexivity]. unfold align_offset, uadd. rewrite Ho. replace (b + A <? usize_lim) with false by lia. reflexivity.
    + left. exists (wrap (pad_to A b)). rewrite align_offset_wrap by assumption.
      destruct (N.lt_ge_cases (pad_to A b) usize_lim) as [Hp|Hp].
      * rewrite wrap_small by (rewrite <- HU; exact Hp). exists (pad_to A b - b). rewrite usub_ok by assumption. repeat split; auto. lia.
      * assert (Ew : wrap (pad_to A b) = pad_to A b - usize_lim).
        { rewrite wrap_lim. symmetry. apply (N.mod_unique _ _ 1); lia. }
        rewrite Ew. unfold usub. rewrite Ho. replace (b <=? pad_to A b - usize_lim) with false by lia.
        eexists. split; [reflexivity|]. split; [reflexivity|]. lia.
Qed.

(** ** Ending well, or in a way that [P] allows *)
Section Any.
Context {K : Type} {W : Write K}.
Variable P : serr + crash -> Prop.
Definition okm {A} (Q : A -> Prop) (m : M K A) : Prop := forall k,
  match snd (m k) with SOk a => Q a | SErr e => P (inl e) | SCrash c => P (inr c) end.
Definition tiny (n : N) : Prop := n < usize_lim.
Variable h : host.
Hypothesis HW : forall d, okm (fun _ => True) (write_all d).
Hypothesis HO : h_overflow_checks h = true -> P (inr POverflow).

Lemma okm_bind {A B} (Q : A -> Prop) (R : B -> Prop) m f : okm Q m -> (forall a, Q a -> okm R (f a)) -> okm R (sbind m f).
Proof.
  intros H1 H2 k. specialize (H1 k). unfold sbind. destruct (m k) as [k' [a|e|c]]; cbn [snd] in *; auto. now apply H2.
Qed.
Lemma okm_ret {A} (Q : A -> Prop) a : Q a -> okm Q (sret a). Proof. intros H k. exact H. Qed.
Lemma okm_weak {A} (Q Q' : A -> Prop) m : (forall a, Q a -> Q' a) -> okm Q m -> okm Q' m.
Proof. intros H1 H2 k. specialize (H2 k). destruct (snd (m k)); auto. Qed.
Lemma okm_uadd a b : okm tiny (lift (uadd h a b)).
Proof. intros k. destruct (uadd_any h a b) as [(c & -> & Hc)|[-> Ho]]; cbn; auto. Qed.
Lemma okm_umul a b : okm (fun _ => True) (lift (umul h a b)).
Proof. intros k. destruct (umul_any h a b) as [(c & ->)|[-> Ho]]; cbn; auto. Qed.
Lemma okm_all {B} (R : B -> Prop) d (f : unit -> M K B) : okm R (f tt) -> okm R (sbind (write_all d) f).
Proof. intros H. eapply okm_bind; [apply HW|]. intros [] _. exact H. Qed.
Lemma okm_pad {B} (R : B -> Prop) A b (f : N -> N -> list byte -> M K B) : is_alignment A -> b < usize_lim ->
  (forall a p z, p < 8 -> okm R (f a p z)) ->
  okm R (do a <- lift (align_offset h A b); do p <- lift (usub h a b); do z <- lift (bs_to seven_nuls p); f a p z).
Proof.
  intros HA Hb Hf k. unfold sbind, lift. destruct (padding_any h A b HA Hb) as [(a & p & -> & -> & Hp)|[-> Ho]]; cbn [snd]; auto.
  rewrite bs_to_pad by assumption. now apply Hf.
Qed.
Lemma okm_padding A b : is_alignment A -> b < usize_lim -> okm tiny (write_padding h A b).
Proof.
  intros HA Hb. unfold write_padding. apply (okm_pad tiny A b (fun _ len z => do _ <- write_all z; sret len)); auto.
  intros a p z Hp. apply okm_all. apply okm_ret. unfold tiny, usize_lim. lia.
Qed.
Lemma okm_each n l : okm (fun _ => True) (write_each n l).
Proof. induction l as [|o l IH]; cbn [write_each]; [now apply okm_ret|]. now apply okm_all. Qed.
Lemma okm_offsets b l : okm tiny (write_offsets h b l).
Proof.
  unfold write_offsets. eapply okm_bind; [apply okm_uadd|]. intros s1 H1. destruct (s1 <=? 255).
  { eapply okm_bind; [apply okm_each|]. intros _ _. now apply okm_ret. }
  eapply okm_bind; [apply okm_umul|]. intros n2 _. eapply okm_bind; [apply okm_uadd|]. intros s2 H2. destruct (s2 <=? 65535).
  { eapply okm_bind; [apply okm_each|]. intros _ _. now apply okm_ret. }
  eapply okm_bind; [apply okm_umul|]. intros n4 _. eapply okm_bind; [apply okm_uadd|]. intros s4 H4. destruct (s4 <=? 4294967295).
  { eapply okm_bind; [apply okm_each|]. intros _ _. now apply okm_ret. }
  eapply okm_bind; [apply okm_umul|]. intros n8 _. eapply okm_bind; [apply okm_uadd|]. intros s8 H8.
  eapply okm_bind; [apply okm_each|]. intros _ _. now apply okm_ret.
Qed.
Lemma okm_seq l : Forall (okm tiny) l -> forall b, tiny b -> okm tiny (ser_seq h l b).
Proof.
  intros H. induction H as [|m l Hm _ IH]; intros b Hb; cbn [ser_seq]; [now apply okm_ret|].
  eapply okm_bind; [exact Hm|]. intros n _. eapply okm_bind; [apply okm_uadd|]. auto.
Qed.
Lemma okm_nfwa A l : is_alignment A -> Forall (okm tiny) l -> forall b o, tiny b -> okm tiny (ser_nfwa h A l b o).
Proof.
  intros HA H. induction H as [|m l Hm _ IH]; intros b o Hb; cbn [ser_nfwa]; [apply okm_offsets|].
  eapply okm_bind; [exact Hm|]. intros n _. eapply okm_bind; [apply okm_uadd|]. intros c Hc. cbv zeta.
  apply (okm_pad tiny A c (fun _ p z => do _ <- write_all z; do b <- lift (uadd h c p); ser_nfwa h A l b (o ++ [c]))); auto.
  intros a p z Hp. apply okm_all. eapply okm_bind; [apply okm_uadd|]. auto.
Qed.

(** Structures *)
Definition fine (p : N * list N) : Prop := tiny (fst p).
Lemma okm_nonfixed ts : forall items pre fo base offset nth nfo off,
  Forall (okm tiny) items -> length ts = length items -> nfo = nth + sp_n_offsets (items_of ts) -> tiny off ->
  okm fine (run_cmds h (nonfixed_cmds (length pre) base offset nth nfo ts) (pre ++ items) off (repeat 0 (N.to_nat (nfo - nth)) ++ fo)).
Proof.
  induction ts as [|child ts IH]; intros items pre fo base offset nth nfo off HF Hlen Hn Ho.
  - cbn [nonfixed_cmds run_cmds]. now apply okm_ret.
  - destruct items as [|m items]; [discriminate|]. inversion HF as [|? ? Hm HF']; subst x l.
    change (items_of (child :: ts)) with ((align_of child, size_of child) :: items_of ts) in *.
    assert (Hpm : pre ++ m :: items = (pre ++ [m]) ++ items) by now rewrite <- app_assoc.
    assert (Hpl : S (length pre) = length (pre ++ [m])) by (rewrite app_length; cbn; lia).
    cbn [nonfixed_cmds].
    set (pads := if align_of child <=? base then _ else _).
    assert (Hpads : exists pre' base' offset', pads = (pre', base', offset') /\
      forall rest ch fo, (forall off, tiny off -> okm fine (run_cmds h rest ch off fo)) -> okm fine (run_cmds h (pre' ++ rest) ch off fo)).
    { unfold pads. destruct (align_of child <=? base); cbv zeta; (eexists _, _, _; split; [reflexivity|]); intros rest ch fo' Hr.
      - destruct (0 <? _); cbn [app run_cmds]; [|now apply Hr]. apply okm_all. eapply okm_bind; [apply okm_uadd|]. auto.
      - cbn [app run_cmds]. eapply okm_bind; [apply okm_padding; auto with al|]. intros p _. eapply okm_bind; [apply okm_uadd|]. auto. }
    destruct Hpads as (pre' & base' & offset' & -> & Hrun). destruct (size_of child) as [x|] eqn:Ex.
    + apply Hrun. intros off1 H1. cbn [app run_cmds]. rewrite nth_mid. eapply okm_bind; [exact Hm|]. intros _ _.
      eapply okm_bind; [apply okm_uadd|]. intros off2 H2. rewrite Hpm, Hpl.
      apply IH; [exact HF'|cbn in Hlen; lia|destruct (items_of ts); exact Hn|exact H2].
    + apply Hrun. intros off1 H1. cbn [app run_cmds]. rewrite nth_mid. eapply okm_bind; [exact Hm|]. intros n _.
      eapply okm_bind; [apply okm_uadd|]. intros off2 H2. destruct ts as [|c2 ts].
      * cbn [app nonfixed_cmds run_cmds]. now apply okm_ret.
      * assert (Hno : sp_n_offsets ((align_of child, None) :: items_of (c2 :: ts)) = 1 + sp_n_offsets (items_of (c2 :: ts))) by reflexivity.
        rewrite Hno in Hn. cbn [app run_cmds].
        replace (Z.of_N nfo - Z.of_N nth - 1 <? 0)%Z with false by (clear -Hn; lia).
        replace (N.to_nat (nfo - nth)) with (S (Z.to_nat (Z.of_N nfo - Z.of_N nth - 1))) by (clear -Hn; lia).
        rewrite set_last. replace (Z.to_nat (Z.of_N nfo - Z.of_N nth - 1)) with (N.to_nat (nfo - (nth + 1))) by (clear -Hn; lia).
        rewrite Hpm, Hpl. apply IH; [exact HF'|cbn in Hlen |- *; lia|clear -Hn; lia|exact H2].
Qed.
Lemma okm_packed pads : forall items pre final, Forall (okm tiny) items -> length pads = length items ->
  okm fine (run_cmds h (packed_cmds (length pre) pads final) (pre ++ items) 0 []).
Proof.
  induction pads as [|p pads IH]; intros items pre final HF Hlen; cbn [packed_cmds].
  - destruct (0 <? final); cbn [run_cmds]; [apply okm_all|]; now apply okm_ret.
  - destruct items as [|m items]; [discriminate|]. inversion HF as [|? ? Hm HF']; subst x l.
    assert (Hpm : pre ++ m :: items = (pre ++ [m]) ++ items) by now rewrite <- app_assoc.
    assert (Hpl : S (length pre) = length (pre ++ [m])) by (rewrite app_length; cbn; lia).
    assert (G : okm fine (run_cmds h ([CChild (length pre)] ++ packed_cmds (S (length pre)) pads final) (pre ++ m :: items) 0 [])).
    { cbn [app run_cmds]. rewrite nth_mid. eapply okm_bind; [exact Hm|]. intros _ _. rewrite Hpm, Hpl. apply IH; auto. }
    destruct (0 <? p); cbn [app run_cmds] in *; [apply okm_all|]; exact G.
Qed.
Lemma walk_pads_length its : forall off, length (walk_pads off its) = length its.
Proof. induction its as [|[a s] its IH]; intros off; cbn [walk_pads length]; auto. Qed.
Lemma okm_struct t items : is_struct t -> usable t -> Forall (okm tiny) items -> length (children_of t) = length items ->
  okm tiny (ser_struct h t items).
Proof.
  intros Hs [Hok Hsz] HF Hlen. unfold ser_struct. destruct (size_of t) as [n|] eqn:En.
  - rewrite (packed_struct_exact t n) by assumption.
    assert (Hx : struct_exact t = true).
    { rewrite macro_ok_struct in Hok by assumption. apply andb_true_iff in Hok as [_ Hm].
      rewrite struct_macro_ok_exact in Hm by assumption. unfold is_fixed in Hm. now rewrite En in Hm. }
    rewrite Hx, (mem_layout_ok t n) by assumption.
    eapply okm_bind.
    + apply (okm_packed _ items []); [exact HF|]. rewrite walk_pads_length. unfold fixed_items. now rewrite map_length.
    + intros _ _. apply okm_ret. pose proof (size_of_bound t n En). rewrite type_len_show in Hsz. unfold tiny, usize_lim. lia.
  - cbv zeta. rewrite n_frame_offsets_spec. eapply okm_bind.
    + pose proof (okm_nonfixed (children_of t) items [] [] 8 0 0 (sp_n_offsets (items_of (children_of t))) 0 HF Hlen) as H.
      rewrite N.sub_0_r, app_nil_r in H. cbn [app length] in H. apply H; [now rewrite N.add_0_l|reflexivity].
    + intros p _. apply okm_offsets.
Qed.
Lemma Forall_map_in {A} (f : A -> M K N) l : (forall a, In a l -> okm tiny (f a)) -> Forall (okm tiny) (map f l).
Proof. intros H. apply Forall_map. apply Forall_forall. exact H. Qed.

Lemma okm_ser r : forall t, usable t -> rtyped t r -> (~ no_nuls t r -> P (inl EInvalidInput)) -> okm tiny (ser h r t).
Proof.
  induction r as [z|b|b|b|s|dd|dd|u r IH|rs IH|o IH|rs IH] using rval_nest; intros t Hu Ht HP.
  - destruct t; cbn [rtyped] in Ht; try tauto; cbn [ser]; apply okm_all, okm_ret; reflexivity.
  - destruct t; cbn [rtyped] in Ht; try tauto; cbn [ser]; apply okm_all, okm_ret; reflexivity.
  - destruct t; cbn [rtyped] in Ht; try tauto; cbn [ser]; apply okm_all, okm_ret; reflexivity.
  - destruct t; cbn [rtyped] in Ht; try tauto; cbn [ser]; apply okm_all, okm_ret; reflexivity.
  - assert (Em : ser h (RStr s) t = if has_nul s then serror EInvalidInput else
              (do _ <- write_all s; do _ <- write_all [x00]; lift (uadd h (blen s) 1))) by (destruct t; cbn [rtyped] in Ht; try tauto; reflexivity).
    rewrite Em. destruct (has_nul s) eqn:E.
    + intros k. cbn. apply HP. intros Hn. apply (Hn s); [destruct t; left; reflexivity|now apply has_nul_in].
    + apply okm_all, okm_all, okm_uadd.
  - destruct t; cbn [rtyped] in Ht; try tauto; cbn [ser]; cbv zeta; apply okm_all, okm_all, okm_uadd.
  - destruct t; cbn [rtyped] in Ht; try tauto; cbn [ser].
    destruct (variant_split_ok h (Slice 0 dd)) as (ts & dat & -> & _); [reflexivity|].
    apply (okm_bind (fun _ => True)); [intros k; exact I|]. intros p _. cbv zeta. apply okm_all, okm_all, okm_all.
    eapply okm_bind; [apply okm_uadd|]. intros. apply okm_uadd.
  - destruct t; cbn [rtyped] in Ht; try tauto. destruct Ht as [Hu' Ht]. cbn [ser].
    eapply okm_bind; [apply IH; auto|]. intros n _. apply okm_all, okm_all. eapply okm_bind; [apply okm_uadd|]. intros. apply okm_uadd.
  - destruct t as [| | | | | | | | | | | | |x|x|ts|a b]; try (cbn [rtyped] in Ht; tauto).
    + rewrite rtyped_list in Ht. apply usable_elem in Hu. cbn [ser]. rewrite Forall_forall in *.
      assert (HF : Forall (okm tiny) (map (fun r => ser h r x) rs)).
      { apply Forall_map_in. intros r Hr. apply IH; auto. intros Hn. apply HP. intros G. apply Hn. eapply no_nuls_list; eauto. }
      destruct (is_fixed x); [apply okm_seq|rewrite trait_align_of; apply okm_nfwa; auto with al]; auto; reflexivity.
    + rewrite rtyped_mlist in Ht. destruct Ht as [Hf Ht]. apply usable_inner in Hu. cbn [ser]. rewrite sp_fixed_of in Hf. rewrite Hf.
      destruct rs as [|r rs]; [now apply okm_ret|]. inversion IH; inversion Ht; subst.
      eapply okm_bind; [auto|]. intros. apply okm_all, okm_uadd.
  - destruct t as [| | | | | | | | | | | | |x|x|ts|a b]; try (cbn [rtyped] in Ht; tauto).
    apply usable_inner in Hu. destruct o as [r|]; cbn [ser rtyped] in *; [|now apply okm_ret].
    destruct (is_fixed x); [apply (IH r); auto|]. eapply okm_bind; [apply (IH r); auto|]. intros. apply okm_all, okm_uadd.
  - assert (Hs : is_struct t) by (destruct t; cbn [rtyped] in Ht; try tauto; exact I).
    destruct (rtyped_struct t _ Hs Ht) as (rs' & E & HF). inversion E; subst rs'. clear E.
    pose proof (Forall2_length _ _ _ HF) as Hlen.
    assert (Em : ser h (RTuple rs) t = ser_struct h t (map (fun p => ser h (snd p) (fst p)) (combine (children_of t) rs))).
    { destruct t as [| | | | | | | | | | | | |x|x|ts|a b]; cbn [is_struct] in Hs; try tauto; cbn [ser children_of] in *;
        rewrite Hlen, Nat.eqb_refl; f_equal.
      - clear. revert ts. induction rs as [|r rs IH]; intros [|t ts]; try reflexivity. cbn [combine map fst snd]. now rewrite IH.
      - destruct rs as [|x [|y [|]]]; reflexivity. }
    rewrite Em. apply okm_struct; auto; [|rewrite map_length, combine_length; lia].
    apply Forall_map_in. intros [c r] Hin. cbn [fst snd]. rewrite Forall_forall in IH. apply IH.
    + eapply in_combine_r; eauto.
    + apply (usable_child t); auto. eapply in_combine_l; eauto.
    + pose proof (Forall2_combine _ _ _ HF) as G. rewrite Forall_forall in G. exact (G _ Hin).
    + intros Hn. apply HP. intros G. apply Hn. eapply no_nuls_struct; eauto.
Qed.

Lemma okm_cser own c : forall t, usable t -> ctyped t c ->
  (forall t' i, In (t', inl i) (cparts t c) -> okm tiny (own i)) ->
  (forall t' r, In (t', inr r) (cparts t c) -> ~ no_nuls t' r -> P (inl EInvalidInput)) ->
  okm tiny (cser h own c t).
Proof.
  induction c as [i|r|u c IH|cs IH|o IH|cs IH] using cval_nest; intros t Hu Ht Ho HP.
  - assert (E : cser h own (COwn i) t = own i) by (destruct t; reflexivity). rewrite E. apply (Ho t). destruct t; left; reflexivity.
  - assert (E : cser h own (CPlain r) t = ser h r t) by (destruct t; reflexivity). rewrite E. apply okm_ser; auto.
    + destruct t; exact Ht.
    + apply (HP t r). destruct t; left; reflexivity.
  - destruct t; cbn [ctyped] in Ht; try tauto. destruct Ht as [Hu' Ht]. cbn [cser cparts] in *.
    eapply okm_bind; [apply IH; auto|]. intros n _. apply okm_all, okm_all. eapply okm_bind; [apply okm_uadd|]. intros. apply okm_uadd.
  - destruct t as [| | | | | | | | | | | | |x|x|ts|a b]; try (cbn [ctyped] in Ht; tauto).
    + rewrite ctyped_list in Ht. apply usable_elem in Hu. cbn [cser cparts] in *. rewrite Forall_forall in *.
      assert (HF : Forall (okm tiny) (map (fun c => cser h own c x) cs)).
      { apply Forall_map_in. intros c Hc. apply IH; auto; intros t' i Hin; [apply (Ho t')|apply (HP t' i)]; apply in_flat_map; eauto. }
      destruct (is_fixed x); [apply okm_seq|rewrite trait_align_of; apply okm_nfwa; auto with al]; auto; reflexivity.
    + rewrite ctyped_mlist in Ht. destruct Ht as [Hf Ht]. apply usable_inner in Hu. cbn [cser cparts] in *. rewrite sp_fixed_of in Hf. rewrite Hf.
      destruct cs as [|c cs]; [now apply okm_ret|]. inversion IH; inversion Ht; subst.
      eapply okm_bind; [auto|]. intros. apply okm_all, okm_uadd.
  - destruct t as [| | | | | | | | | | | | |x|x|ts|a b]; try (cbn [ctyped] in Ht; tauto).
    apply usable_inner in Hu. destruct o as [c|]; cbn [cser ctyped cparts] in *; [|now apply okm_ret].
    destruct (is_fixed x); [apply (IH c); auto|]. eapply okm_bind; [apply (IH c); auto|]. intros. apply okm_all, okm_uadd.
  - assert (Hs : is_struct t) by (destruct t; cbn [ctyped] in Ht; try tauto; exact I).
    pose proof (ctyped_struct t _ Hs Ht) as HF. pose proof (Forall2_length _ _ _ HF) as Hlen.
    rewrite cser_struct_eq by auto. rewrite cparts_struct in * by assumption. apply okm_struct; auto; [|unfold csers; rewrite map_length, combine_length; lia].
    apply Forall_map_in. intros [c x] Hin. cbn [fst snd]. rewrite Forall_forall in IH. apply IH.
    + eapply in_combine_r; eauto.
    + apply (usable_child t); auto. eapply in_combine_l; eauto.
    + pose proof (Forall2_combine _ _ _ HF) as G. rewrite Forall_forall in G. exact (G _ Hin).
    + intros t' i Hin'. apply (Ho t'). apply in_flat_map. exists (c, x). auto.
    + intros t' r Hin'. apply (HP t' r). apply in_flat_map. exists (c, x). auto.
Qed.
End Any.

(** ** A part that fails *)
Section Never.
Context {K : Type} {W : Write K}.
Definition never {A} (m : M K A) : Prop := forall k a, snd (m k) <> SOk a.
Lemma never_first {A B} (m : M K A) (f : A -> M K B) : never m -> never (sbind m f).
Proof.
  intros H k b. specialize (H k). unfold sbind. destruct (m k) as [k' [a|e|c]]; cbn [snd] in *; try discriminate.
  exfalso. now apply (H a).
Qed.
Lemma never_then {A B} (m : M K A) (f : A -> M K B) : (forall a, never (f a)) -> never (sbind m f).
Proof. intros H k b. unfold sbind. destruct (m k) as [k' [a|e|c]]; cbn [snd] in *; try discriminate. apply H. Qed.
Lemma never_lift {A} c : never (lift (A := A) (Crash c)).
Proof. intros k a. discriminate. Qed.
Lemma never_seq h m l : In m l -> never m -> forall b, never (ser_seq h l b).
Proof.
  intros Hin Hm. induction l as [|x l IH]; intros b; [contradiction|]. cbn [ser_seq]. destruct Hin as [->|Hin].
  - now apply never_first.
  - apply never_then. intros. apply never_then. auto.
Qed.
Lemma never_nfwa h A m l : In m l -> never m -> forall b o, never (ser_nfwa h A l b o).
Proof.
  intros Hin Hm. induction l as [|x l IH]; intros b o; [contradiction|]. cbn [ser_nfwa]. destruct Hin as [->|Hin].
  - now apply never_first.
  - repeat (apply never_then; intros). auto.
Qed.
Lemma never_cmds h ch n m : nth_error ch n = Some m -> never m -> forall cmds off fo, In (CChild n) cmds \/ In (CChildAdd n) cmds ->
  never (run_cmds h cmds ch off fo).
Proof.
  intros Hn Hm. induction cmds as [|c cmds IH]; intros off fo [H|H]; try contradiction; cbn [run_cmds];
    (destruct H as [->|H]; [rewrite Hn; now apply never_first|]);
    (destruct c as [p|p|A|j|j|i];
     [apply never_then; intros; apply IH; auto
     |apply never_then; intros; apply IH; auto
     |apply never_then; intros; apply never_then; intros; apply IH; auto
     |destruct (nth_error ch j); [apply never_then; intros; apply IH; auto|apply never_lift]
     |destruct (nth_error ch j); [apply never_then; intros; apply never_then; intros; apply IH; auto|apply never_lift]
     |destruct (i <? 0)%Z; [apply never_lift|]; destruct (set_nth fo (Z.to_nat i) off); [apply IH; auto|apply never_lift]]).
Qed.
Lemma nonfixed_has ts : forall n base offset nth nfo j, (j < length ts)%nat ->
  In (CChild (n + j)) (nonfixed_cmds n base offset nth nfo ts) \/ In (CChildAdd (n + j)) (nonfixed_cmds n base offset nth nfo ts).
Proof.
  induction ts as [|t ts IH]; intros n base offset nth nfo j Hj; cbn [length] in Hj; [lia|]. cbn [nonfixed_cmds].
  destruct (if align_of t <=? base then _ else _) as [[pre base'] offset'].
  destruct (size_of t) as [x|].
  - destruct j as [|j].
    + left. rewrite Nat.add_0_r. apply in_or_app. right. now left.
    + replace (n + S j)%nat with (S n + j)%nat by lia.
      destruct (IH (S n) base' (offset' + x) nth nfo j) as [H|H]; [lia| |]; [left|right]; apply in_or_app; right; apply in_or_app; now right.
  - destruct j as [|j].
    + right. rewrite Nat.add_0_r. apply in_or_app. right. now left.
    + replace (n + S j)%nat with (S n + j)%nat by lia.
      destruct (IH (S n) 1 0 (if match ts with [] => true | _ => false end then nth else nth + 1) nfo j) as [H|H]; [lia| |];
        [left|right]; apply in_or_app; right; apply in_or_app; right; apply in_or_app; now right.
Qed.
Lemma packed_has pads : forall n final j, (j < length pads)%nat -> In (CChild (n + j)) (packed_cmds n pads final).
Proof.
  induction pads as [|p pads IH]; intros n final j Hj; cbn [length] in Hj; [lia|]. cbn [packed_cmds].
  apply in_or_app. right. destruct j as [|j].
  - rewrite Nat.add_0_r. now left.
  - right. replace (n + S j)%nat with (S n + j)%nat by lia. apply IH. lia.
Qed.
Lemma never_struct h t items j m : is_struct t -> macro_ok t = true -> length (children_of t) = length items ->
  nth_error items j = Some m -> never m -> never (ser_struct h t items).
Proof.
  intros Hs Hok Hlen Hj Hm. assert (Hlt : (j < length items)%nat) by (apply nth_error_Some; congruence).
  unfold ser_struct. destruct (size_of t) as [n|] eqn:En.
  - rewrite (packed_struct_exact t n) by assumption. destruct (struct_exact t); [|apply never_lift].
    destruct (mem_layout t) as [[size al]|]; [|apply never_lift]. apply never_first.
    apply (never_cmds h items j m Hj Hm). left. apply (packed_has _ 0). rewrite walk_pads_length. unfold fixed_items. rewrite map_length. lia.
  - cbv zeta. apply never_first. apply (never_cmds h items j m Hj Hm). apply (nonfixed_has _ 0). lia.
Qed.
Lemma never_cser h own c : forall t t' i, usable t -> ctyped t c -> In (t', inl i) (cparts t c) -> never (own i) -> never (cser h own c t).
Proof.
  induction c as [j|r|u c IH|cs IH|o IH|cs IH] using cval_nest; intros t t' i Hu Ht Hin Hm.
  - assert (E : cser h own (COwn j) t = own j) by (destruct t; reflexivity). rewrite E.
    assert (Hj : [(t, inl j)] = cparts t (COwn j)) by (destruct t; reflexivity). rewrite <- Hj in Hin.
    destruct Hin as [Hin|[]]. now inversion Hin; subst.
  - assert (Hj : [(t, inr r)] = cparts t (CPlain r)) by (destruct t; reflexivity). rewrite <- Hj in Hin.
    destruct Hin as [Hin|[]]. discriminate.
  - destruct t; cbn [ctyped] in Ht; try tauto. destruct Ht as [Hu' Ht]. cbn [cser cparts] in *. apply never_first. eapply IH; eauto.
  - destruct t as [| | | | | | | | | | | | |x|x|ts|a b]; try (cbn [ctyped] in Ht; tauto).
    + rewrite ctyped_list in Ht. apply usable_elem in Hu. cbn [cser cparts] in *. rewrite Forall_forall in *.
      apply in_flat_map in Hin as (c & Hc & Hin).
      assert (Hn : never (cser h own c x)) by (eapply IH; eauto).
      assert (Hi : In (cser h own c x) (map (fun c => cser h own c x) cs)) by (apply in_map_iff; eauto).
      destruct (is_fixed x); [eapply never_seq; eauto|eapply never_nfwa; eauto].
    + rewrite ctyped_mlist in Ht. destruct Ht as [Hf Ht]. apply usable_inner in Hu. cbn [cser cparts] in *.
      destruct (is_fixed x); [apply never_lift|]. destruct cs as [|c cs]; [contradiction|]. inversion IH; inversion Ht; subst.
      apply never_first. eauto.
  - destruct t as [| | | | | | | | | | | | |x|x|ts|a b]; try (cbn [ctyped] in Ht; tauto).
    apply usable_inner in Hu. destruct o as [c|]; cbn [cser ctyped cparts] in *; [|contradiction].
    assert (Hn : never (cser h own c x)) by (eapply (IH c); eauto). destruct (is_fixed x); [exact Hn|now apply never_first].
  - assert (Hs : is_struct t) by (destruct t; cbn [ctyped] in Ht; try tauto; exact I).
    pose proof (ctyped_struct t _ Hs Ht) as HF. pose proof (Forall2_length _ _ _ HF) as Hlen.
    rewrite cser_struct_eq by auto. rewrite cparts_struct in * by assumption.
    apply in_flat_map in Hin as ([c x] & Hc & Hin). cbn [fst snd] in Hin.
    pose proof (In_nth_error _ _ Hc) as (j & Hj).
    eapply (never_struct h t _ j (cser h own x c)); auto.
    + apply Hu.
    + unfold csers. rewrite map_length, combine_length. lia.
    + unfold csers. now rewrite (map_nth_error (fun p => cser h own (snd p) (fst p)) j _ Hj).
    + rewrite Forall_forall in IH. eapply IH; eauto.
      * eapply in_combine_r; eauto.
      * apply (usable_child t); auto. eapply in_combine_l; eauto.
      * pose proof (Forall2_combine _ _ _ HF) as G. rewrite Forall_forall in G. exact (G _ Hc).
Qed.
End Never.

(** ** The claims *)
Lemma passes_writes m d : passes m d <-> writes m d (SOk (len d)).
Proof.
  unfold passes, writes. split.
  - intros H [out budget]. rewrite H. unfold sp_deliver. cbn [k_out k_left]. destruct budget as [n|]; [|reflexivity].
    change @len with @blen. destruct (blen d <=? n); reflexivity.
  - intros H out budget. rewrite H. unfold sp_deliver. cbn [k_out k_left]. destruct budget as [n|]; [|reflexivity].
    change @len with @blen. destruct (blen d <=? n); reflexivity.
Qed.
Lemma custom_written h own say t c : usable t -> ctyped t c ->
  (forall t' i, In (t', inl i) (cparts t c) -> passes (own i) (say i) /\ forall n, sp_size t' = Some n -> len (say i) = n) ->
  (forall t' r, In (t', inr r) (cparts t c) -> no_nuls t' r) ->
  len (cbytes say (h_big_endian h) t c) < 2 ^ 63 ->
  passes (cser h own c t) (cbytes say (h_big_endian h) t c).
Proof.
  intros [Hm _] Ht Ho Hp Hl. apply passes_writes. apply (cser_exact h own say c t); auto.
  - intros t' i Hin. apply passes_writes. now apply (Ho t').
  - intros t' i n Hin. now apply (Ho t').
Qed.
Lemma custom_back big say t c : ctyped t c ->
  (forall t' i n, In (t', inl i) (cparts t c) -> sp_size t' = Some n -> len (say i) = n) ->
  (forall t' r, In (t', inr r) (cparts t c) -> no_nuls t' r) ->
  ctails say big t c -> len (cbytes say big t c) < 2 ^ 63 ->
  sp_decode big t (Some (cbytes say big t c)) = cvalue say big t c.
Proof. intros Ht Hz Hp HT Hl. apply cbytes_back; auto. lia. Qed.
Lemma custom_failures K (W : Write K) h own t c k : usable t -> ctyped t c ->
  (forall t' i k n, In (t', inl i) (cparts t c) -> snd (own i k) = SOk n -> n < 2 ^ 64) ->
  match snd (cser h own c t k) with
  | SOk n => n < 2 ^ 64
  | SErr e =>
      (exists t' i k', In (t', inl i) (cparts t c) /\ snd (own i k') = SErr e) \/
      (exists d k', snd (write_all d k') = SErr e) \/
      (e = EInvalidInput /\ exists t' r, In (t', inr r) (cparts t c) /\ ~ no_nuls t' r)
  | SCrash x =>
      (exists t' i k', In (t', inl i) (cparts t c) /\ snd (own i k') = SCrash x) \/
      (exists d k', snd (write_all d k') = SCrash x) \/
      (x = POverflow /\ h_overflow_checks h = true)
  end.
Proof.
  intros Hu Ht Hc.
  set (P := fun b : serr + crash => match b with
    | inl e => (exists t' i k', In (t', inl i) (cparts t c) /\ snd (own i k') = SErr e) \/
               (exists d k', snd (write_all d k') = SErr e) \/
               (e = EInvalidInput /\ exists t' r, In (t', inr r) (cparts t c) /\ ~ no_nuls t' r)
    | inr x => (exists t' i k', In (t', inl i) (cparts t c) /\ snd (own i k') = SCrash x) \/
               (exists d k', snd (write_all d k') = SCrash x) \/ (x = POverflow /\ h_overflow_checks h = true)
    end).
  assert (G : okm P tiny (cser h own c t)).
  { apply okm_cser; auto.
    - intros d k'. destruct (snd (write_all d k')) eqn:E; cbn; auto; right; left; eauto.
    - intros Ho. cbn. auto.
    - intros t' i Hin k'. destruct (snd (own i k')) eqn:E; cbn.
      + exact (Hc t' i k' a Hin E).
      + left. eauto.
      + left. eauto.
    - intros t' r Hin Hn. cbn. right. right. eauto. }
  specialize (G k). destruct (snd (cser h own c t k)); exact G.
Qed.
Lemma custom_calm K (W : Write K) h own t c k x : usable t -> ctyped t c -> h_overflow_checks h = false ->
  (forall t' i k n, In (t', inl i) (cparts t c) -> snd (own i k) = SOk n -> n < 2 ^ 64) ->
  (forall t' i k, In (t', inl i) (cparts t c) -> snd (own i k) <> SCrash x) ->
  (forall d k, snd (write_all d k) <> SCrash x) ->
  snd (cser h own c t k) <> SCrash x.
Proof.
  intros Hu Ht Ho Hc H1 H2 E. pose proof (custom_failures K W h own t c k Hu Ht Hc) as G. rewrite E in G.
  destruct G as [(t' & i & k' & Hin & G)|[(d & k' & G)|[_ G]]]; [eapply H1; eauto|eapply H2; eauto|congruence].
Qed.
Lemma custom_passed_on K (W : Write K) h own t c t' i : usable t -> ctyped t c -> In (t', inl i) (cparts t c) ->
  (forall k n, snd (own i k) <> SOk n) -> forall k n, snd (cser h own c t k) <> SOk n.
Proof. intros Hu Ht Hin H. exact (never_cser h own c t t' i Hu Ht Hin H). Qed.
Lemma custom_plain K (W : Write K) h own put t c :
  (forall t' i k, In (t', inl i) (cparts t c) -> own i k = ser h (put i) t' k) ->
  forall k, cser h own c t k = ser h (cplain put c) t k.
Proof. intros H k. apply cser_plain. intros t' i Hin k'. eauto. Qed.
Lemma custom_read h say t c a : usable t -> ctyped t c ->
  (forall t' i n, In (t', inl i) (cparts t c) -> sp_size t' = Some n -> len (say i) = n) ->
  (forall t' r, In (t', inr r) (cparts t c) -> no_nuls t' r) ->
  ctails say (h_big_endian h) t c -> a mod sp_align t = 0 ->
  let d := cbytes say (h_big_endian h) t c in
  len d < 2 ^ 63 -> sp_near t (Some d) = true ->
  decode h t (Slice a d) = if sp_reads t (Some d) then Ok (cvalue say (h_big_endian h) t c) else Crash PUnwrap.
Proof.
  intros Hu Ht Hz Hp HT Ha d Hl Hn. rewrite long_claim by assumption. cbn [s_data].
  unfold d at 2. now rewrite custom_back by assumption.
Qed.
Lemma custom_enum K (W : Write K) h es t c : (forall t' i, In (t', inl i) (cparts t c) -> t' = TV) ->
  forall k, cser h (fun i => my_enum_ser h (es i)) c t k = ser h (cplain (fun i => my_enum_value (es i)) c) t k.
Proof.
  intros H. apply custom_plain. intros t' i k Hin. apply H in Hin as ->. destruct (es i); reflexivity.
Qed.
Lemma ser_passes h t r d : usable t -> rtyped t r -> no_nuls t r ->
  sp_written (h_big_endian h) t (rvalue true (h_big_endian h) t r) = d -> len d < 2 ^ 63 -> passes (ser h r t) d.
Proof.
  intros [Hm _] Ht Hn <- Hl. apply passes_writes.
  pose proof (ser_exact anything h r t Hm Ht (fun _ _ => I) Hl) as G. cbv zeta in G.
  apply rgood_iff in Hn. rewrite Hn in G. exact G.
Qed.

(** ** Any writer, when they do not care which *)
#[local] Existing Instance log_write.
Section Log.
Context {K : Type} {W : Write K}.
Ltac go := repeat first [apply logs_ret | apply logs_error | apply logs_lift | apply logs_all | assumption
  | apply logs_bind; [|intros ?] | match goal with |- logs (if ?b then _ else _) _ => destruct b end].
Lemma logs_cser h (own0 : N -> M log N) (own : N -> M K N) c : (forall i, logs (own0 i) (own i)) ->
  forall t, logs (cser h own0 c t) (cser h own c t).
Proof.
  intros Ho. induction c as [i|r|u c IH|cs IH|o IH|cs IH] using cval_nest; intros t.
  - destruct t; apply Ho.
  - destruct t; apply logs_ser.
  - destruct t as [| | | | | | | | | | | | |x|x|ts|k v]; cbn [cser]; try solve [go].
    apply logs_bind; [apply IH|intros ?]. go.
  - destruct t as [| | | | | | | | | | | | |x|x|ts|k v]; cbn [cser]; try solve [go].
    + assert (H : Forall2 logs (map (fun c => cser h own0 c x) cs) (map (fun c => cser h own c x) cs)).
      { apply logs_map. eapply Forall_impl; [|exact IH]. intros r Hr. apply Hr. }
      destruct (is_fixed x); [now apply logs_seq|now apply logs_nfwa].
    + destruct (is_fixed x); [go|]. destruct cs as [|r rs]; [go|]. apply logs_bind; [|intros ?; go].
      inversion IH; subst. auto.
  - destruct t as [| | | | | | | | | | | | |x|x|ts|k v]; cbn [cser]; try solve [go].
    destruct o as [r|]; [|go]. destruct (is_fixed x); [now apply IH|]. apply logs_bind; [now apply IH|intros ?; go].
  - destruct t as [| | | | | | | | | | | | |x|x|ts|k v]; cbn [cser]; try solve [go].
    + destruct (Nat.eqb _ _); [|go]. apply logs_struct. cbn [children_of]. revert ts.
      induction IH as [|r rs Hr _ IHr]; intros [|t ts]; constructor; auto.
    + destruct (Nat.eqb _ _); [|go]. apply logs_struct. cbn [children_of]. generalize [k; v]. clear k v.
      induction IH as [|r rs Hr _ IHr]; intros [|t ts]; constructor; auto.
Qed.
Lemma offer_log ps (x : sres N) : forall l : log, offer ps x l = (l ++ ps, x).
Proof.
  induction ps as [|p ps IH]; intros l; cbn [offer]; [now rewrite app_nil_r|].
  change (write_all p l) with (l ++ [p], SOk tt). cbv iota beta. rewrite IH. now rewrite <- app_assoc.
Qed.
End Log.
Lemma offer_writes ps (x : sres N) : writes (offer ps x) (concat ps) x.
Proof.
  induction ps as [|p ps IH]; cbn [concat]; [now apply writes_nothing|].
  pose proof (writes_bind (write_all p) (fun _ => offer ps x) p tt (concat ps) x (writes_all p) IH) as H.
  intros k. rewrite <- H. unfold sbind. cbn [offer]. now destruct (write_all p k) as [k' [u|e|c]].
Qed.
Lemma writes_fun {A} (m : M sink A) d r d' r' : writes m d r -> writes m d' r' -> d = d' /\ r = r'.
Proof.
  intros H H'. specialize (H (Sink [] None)). specialize (H' (Sink [] None)). rewrite H in H'. cbn in H'. now inversion H'.
Qed.
Lemma custom_any_writer h (ps : N -> list (list byte)) (x : N -> sres N) t c : exists pieces res,
  (forall K (W : Write K) (own : N -> M K N), (forall i k, own i k = offer (ps i) (x i) k) ->
     forall k, cser h own c t k = offer pieces res k) /\
  (usable t -> ctyped t c ->
   (forall t' i, In (t', inl i) (cparts t c) -> x i = SOk (len (concat (ps i))) /\ forall n, sp_size t' = Some n -> len (concat (ps i)) = n) ->
   (forall t' r, In (t', inr r) (cparts t c) -> no_nuls t' r) ->
   let d := cbytes (fun i => concat (ps i)) (h_big_endian h) t c in
   len d < 2 ^ 63 -> concat pieces = d /\ res = SOk (len d)).
Proof.
  set (own0 := fun i : N => (fun l : log => (l ++ ps i, x i)) : M log N).
  exists (fst (cser h own0 c t [])), (snd (cser h own0 c t [])).
  assert (H : forall K (W : Write K) (own : N -> M K N), (forall i k, own i k = offer (ps i) (x i) k) ->
     forall k, cser h own c t k = offer (fst (cser h own0 c t [])) (snd (cser h own0 c t [])) k).
  { intros K W own Ho k. destruct (logs_cser h own0 own c) with (t := t) as (qs & y & H0 & H).
    - intros i. exists (ps i), (x i). split; [reflexivity|apply Ho].
    - rewrite H, !H0. reflexivity. }
  split; [exact H|]. intros Hu Ht Hp Hn d Hl.
  pose proof (custom_written h (fun i => offer (ps i) (x i)) (fun i => concat (ps i)) t c Hu Ht) as G.
  assert (Hw : passes (cser h (fun i => offer (ps i) (x i)) c t) d).
  { apply G; auto. intros t' i Hin. destruct (Hp t' i Hin) as [E Hs]. split; [|exact Hs]. apply passes_writes. rewrite E. apply offer_writes. }
  apply passes_writes in Hw.
  assert (Hw' : writes (cser h (fun i => offer (ps i) (x i)) c t) (concat (fst (cser h own0 c t []))) (snd (cser h own0 c t []))).
  { intros k. rewrite (H sink sink_write (fun i => offer (ps i) (x i)) (fun _ _ => eq_refl) k). apply offer_writes. }
  destruct (writes_fun _ _ _ _ _ Hw' Hw) as [E1 E2]. auto.
Qed.
