(** What the generated serialisers of structures write. *)
From Verif Require Import Base Types Layout AlignedBytes Strs Spec Deser Ser Histories SerSpec
  BaseFacts TypesFacts LayoutFacts AlignedFacts Utf8Facts DeserFacts ArrayFacts StructFacts ReadFacts AccessFacts EncFacts RoundFacts SerFacts.
From Coq Require Import Lia ZifyBool ZifyNat ZifyN.
Ltac Zify.zify_post_hook ::= Z.div_mod_to_equations.

Lemma pad_same al base off offset : is_alignment al -> is_alignment base -> al <= base ->
  off mod base = offset mod base -> pad_to al off - off = pad_to al offset - offset.
Proof.
  intros Ha Hb Hle H. rewrite !pad_to_round by assumption.
  destruct Ha as [|[|[|]]], Hb as [|[|[|]]]; subst; lia.
Qed.
Lemma mod_add_same base a b c : is_alignment base -> a mod base = b mod base -> (a + c) mod base = (b + c) mod base.
Proof. intros Hb H. destruct Hb as [|[|[|]]]; subst; lia. Qed.

Lemma run_pads P h child base offset off : is_alignment base -> off mod base = offset mod base ->
  pad_to (align_of child) off < 2 ^ 63 ->
  exists pre base' offset',
    (if align_of child <=? base then
       let offset' := align offset (align_of child) in
       let n_padding := offset' - offset in
       (if 0 <? n_padding then [CZeros n_padding; CAdd n_padding] else [], base, offset')
     else ([CPad (align_of child)], align_of child, 0)) = (pre, base', offset') /\
    is_alignment base' /\ pad_to (align_of child) off mod base' = offset' mod base' /\
    forall rest ch fo d r ok,
      fate P (run_cmds h rest ch (pad_to (align_of child) off) fo) d r ok ->
      fate P (run_cmds h (pre ++ rest) ch off fo) (nuls (pad_to (align_of child) off - off) ++ d) r ok.
Proof.
  intros Hb Hm Hlt. pose proof (align_of_alignment child) as Ha. set (al := align_of child) in *.
  pose proof (pad_to_ge al off Ha) as Hge. assert (HU : usize_lim = 2 * 2 ^ 63) by reflexivity.
  destruct (al <=? base) eqn:E.
  - cbv zeta. rewrite align_pad_to by assumption. pose proof (pad_to_ge al offset Ha) as Hge'.
    assert (Hs : pad_to al off - off = pad_to al offset - offset) by (apply (pad_same al base); auto; lia).
    eexists _, _, _. split; [reflexivity|]. split; [exact Hb|]. split.
    + replace (pad_to al off) with (off + (pad_to al off - off)) by lia. rewrite Hs.
      replace (pad_to al offset) with (offset + (pad_to al offset - offset)) at 2 by lia. now apply mod_add_same.
    + intros rest ch fo d r ok H. rewrite <- Hs. destruct (0 <? pad_to al off - off) eqn:Ez; cbn [app].
      * cbn [run_cmds]. eapply fate_first; [apply writes_all|]. eapply fate_lift; [apply uadd_ok; lia|].
        replace (off + (pad_to al off - off)) with (pad_to al off) by lia. exact H.
      * replace (pad_to al off) with off in H by lia. replace (pad_to al off - off) with 0 by lia. exact H.
  - eexists _, _, _. split; [reflexivity|]. split; [exact Ha|]. split.
    + rewrite pad_to_mod by assumption. rewrite N.mod_0_l; [reflexivity|]. destruct Ha as [|[|[|]]]; lia.
    + intros rest ch fo d r ok H. cbn [app run_cmds]. eapply fate_first; [apply writes_padding; auto; lia|].
      eapply fate_lift; [apply uadd_ok; lia|]. replace (off + (pad_to al off - off)) with (pad_to al off) by lia. exact H.
Qed.
Lemma set_last k x l : set_nth (repeat 0 (S k) ++ l) k x = Some (repeat 0 k ++ x :: l).
Proof. induction k as [|k IH]; [reflexivity|]. cbn [repeat app set_nth] in *. now rewrite IH. Qed.
Lemma nth_mid {A} (pre : list A) m post : nth_error (pre ++ m :: post) (length pre) = Some m.
Proof. rewrite nth_error_app2 by lia. now rewrite Nat.sub_diag. Qed.

Lemma nonfixed_fate P h ts : forall items ds oks pre fo base offset nth nfo off,
  fates P items ds oks -> length ts = length items -> Forall2 fits (items_of ts) ds ->
  is_alignment base -> off mod base = offset mod base ->
  nfo = nth + sp_n_offsets (items_of ts) ->
  let p := sp_lay_struct off (items_of ts) ds in
  off + len (fst p) < 2 ^ 63 ->
  fate P (run_cmds h (nonfixed_cmds (length pre) base offset nth nfo ts) (pre ++ items) off
            (repeat 0 (N.to_nat (nfo - nth)) ++ fo))
       (fst p) (off + len (fst p), rev (snd p) ++ fo) (forallb id oks).
Proof.
  induction ts as [|child ts IH]; intros items ds oks pre fo base offset nth nfo off HF Hlen Hfit Hb Hm Hn p Hl.
  - destruct items; [|discriminate]. apply fates_inv in HF as [-> ->]. subst p. cbn [items_of map sp_lay_struct fst snd forallb] in *.
    cbn [nonfixed_cmds run_cmds]. change (sp_n_offsets []) with 0 in Hn. replace (nfo - nth) with 0 by lia. cbn [N.to_nat repeat app rev].
    change (len (@nil byte)) with 0. rewrite N.add_0_r. apply fate_ok, writes_ret.
  - destruct items as [|m items]; [discriminate|]. apply fates_inv in HF as (d & ds' & ok & oks' & -> & -> & Hfm & HF).
    change (items_of (child :: ts)) with ((align_of child, size_of child) :: items_of ts) in *.
    inversion Hfit as [|? ? ? ? Hd Hfit']; subst x y l l'. cbn [forallb].
    set (start := pad_to (align_of child) off). set (stop := start + len d).
    set (p' := sp_lay_struct stop (items_of ts) ds').
    assert (Ep : p = (nuls (start - off) ++ d ++ fst p', match size_of child, items_of ts with None, _ :: _ => stop :: snd p' | _, _ => snd p' end)).
    { subst p. cbn [sp_lay_struct]. fold start stop. fold p'. destruct p'. reflexivity. }
    assert (Hge : off <= start) by (apply pad_to_ge; auto with al).
    assert (Hle : off + len (fst p) = stop + len (fst p')).
    { rewrite Ep. cbn [fst]. change @len with @blen in *. rewrite !blen_app. change nuls with zeros. rewrite blen_zeros. unfold stop. change @len with @blen. lia. }
    rewrite Hle in *. clearbody p. subst p. cbn [fst snd].
    destruct (run_pads P h child base offset off) as (pads & base' & offset' & Epads & Hb' & Hm' & Hrun); auto.
    { fold start. unfold stop in Hl. lia. }
    assert (Hu : start + len d < usize_lim) by (clear -Hl; change usize_lim with (2 * 2 ^ 63); fold stop; remember (2 ^ 63); lia).
    assert (Hpm : pre ++ m :: items = (pre ++ [m]) ++ items) by now rewrite <- app_assoc.
    assert (Hpl : S (length pre) = length (pre ++ [m])) by (rewrite app_length; cbn; lia).
    cbn [nonfixed_cmds]. cbv zeta in *. rewrite Epads. destruct (size_of child) as [x|] eqn:Ex.
    + assert (Hx : len d = x) by exact Hd. subst x.
      apply Hrun. cbn [app run_cmds]. rewrite nth_mid.
      eapply fate_bind; [exact Hfm|]. intros _. fold start.
      eapply fate_lift; [now apply uadd_ok|]. fold stop.
      rewrite Hpm, Hpl. apply (IH items ds' oks' (pre ++ [m]) fo base' (offset' + len d) nth nfo stop);
        [exact HF|clear -Hlen; cbn in Hlen; lia|exact Hfit'|exact Hb'|unfold stop; now apply mod_add_same|destruct (items_of ts); exact Hn|exact Hl].
    + apply Hrun. cbn [app run_cmds]. rewrite nth_mid.
      eapply fate_bind; [exact Hfm|]. intros _. fold start.
      eapply fate_lift; [now apply uadd_ok|]. fold stop.
      destruct ts as [|c2 ts].
      * cbn [items_of map] in *. inversion Hfit'; subst. destruct items; [|discriminate].
        apply fates_inv in HF as [_ ->]. unfold p'. cbn [sp_lay_struct fst snd app nonfixed_cmds run_cmds rev forallb].
        change (len (@nil byte)) with 0. change (sp_n_offsets [(align_of child, None)]) with 0.
        rewrite !N.add_0_r, N.sub_diag. cbn [N.to_nat repeat app]. apply fate_ok, writes_ret.
      * assert (Hno : sp_n_offsets ((align_of child, None) :: items_of (c2 :: ts)) = 1 + sp_n_offsets (items_of (c2 :: ts))) by reflexivity.
        rewrite Hno in Hn. change (items_of (c2 :: ts)) with ((align_of c2, size_of c2) :: items_of ts) at 1. cbv iota.
        cbn [app run_cmds].
        replace (Z.of_N nfo - Z.of_N nth - 1 <? 0)%Z with false by (clear -Hn; lia).
        replace (N.to_nat (nfo - nth)) with (S (Z.to_nat (Z.of_N nfo - Z.of_N nth - 1))) by (clear -Hn; lia).
        rewrite set_last. replace (Z.to_nat (Z.of_N nfo - Z.of_N nth - 1)) with (N.to_nat (nfo - (nth + 1))) by (clear -Hn; lia).
        cbn [rev]. rewrite <- app_assoc. cbn [app]. rewrite Hpm, Hpl. 
        apply (IH items ds' oks' (pre ++ [m]) (stop :: fo) 1 0 (nth + 1) nfo stop);
          [exact HF|clear -Hlen; cbn in Hlen |- *; lia|exact Hfit'|left; reflexivity|now rewrite !N.mod_1_r|clear -Hn; lia|exact Hl].
Qed.

Lemma packed_fate P h its : forall items ds oks pre off final,
  fates P items ds oks -> Forall2 (fun it b => len b = snd it) its ds ->
  Forall (fun it => is_alignment (fst it)) its -> length its = length items ->
  let p := sp_lay_struct off (map (fun it => (fst it, Some (snd it))) its) ds in
  fate P (run_cmds h (packed_cmds (length pre) (walk_pads off its) final) (pre ++ items) 0 [])
       (fst p ++ nuls final) (0, []) (forallb id oks).
Proof.
  induction its as [|[al s] its IH]; intros items ds oks pre off final HF Hfit HA Hlen p.
  - destruct items; [|discriminate]. apply fates_inv in HF as [-> ->]. subst p. cbn [map sp_lay_struct fst walk_pads packed_cmds forallb app].
    destruct (0 <? final) eqn:E; cbn [run_cmds].
    + apply fate_ok. eapply writes_end; [apply writes_all|apply writes_ret].
    + replace final with 0 by lia. apply fate_ok, writes_ret.
  - destruct items as [|m items]; [discriminate|]. apply fates_inv in HF as (d & ds' & ok & oks' & -> & -> & Hfm & HF).
    inversion Hfit as [|? ? ? ? Hd Hfit']; subst x y l l'. inversion HA as [|? ? Ha HA']; subst x l. cbn [fst snd] in *.
    cbn [forallb map walk_pads packed_cmds fst snd]. subst p. cbn [map sp_lay_struct fst snd].
    assert (Hpm : pre ++ m :: items = (pre ++ [m]) ++ items) by now rewrite <- app_assoc.
    assert (Hpl : S (length pre) = length (pre ++ [m])) by (rewrite app_length; cbn; lia).
    assert (Hrest : fate P (run_cmds h ([CChild (length pre)] ++ packed_cmds (S (length pre)) (walk_pads (pad_to al off + s) its) final)
                         (pre ++ m :: items) 0 [])
                     (d ++ fst (sp_lay_struct (pad_to al off + len d) (map (fun it => (fst it, Some (snd it))) its) ds') ++ nuls final)
                     (0, []) (id ok && forallb id oks')).
    { cbn [app run_cmds]. rewrite nth_mid. eapply fate_bind; [exact Hfm|]. intros _. rewrite Hpm, Hpl, Hd. apply (IH items ds' oks' (pre ++ [m])); [exact HF|exact Hfit'|exact HA'|cbn in Hlen; lia]. }
    destruct (sp_lay_struct _ (map _ its) ds') as [rest ends]. cbn [fst] in *. rewrite <- !app_assoc.
    destruct (0 <? pad_to al off - off) eqn:E.
    + cbn [app run_cmds]. eapply fate_first; [apply writes_all|]. exact Hrest.
    + replace (pad_to al off - off) with 0 by lia. exact Hrest.
Qed.

Lemma ser_struct_fate P h t items ds oks : is_struct t -> macro_ok t = true ->
  fates P items ds oks -> length (children_of t) = length items -> Forall2 fits (items_of (children_of t)) ds ->
  let d := sp_struct_bytes (size_of t) (items_of (children_of t)) ds in
  len d < 2 ^ 63 -> fate P (ser_struct h t items) d (len d) (forallb id oks).
Proof.
  intros Hs Hok HF Hlen Hfit d Hl. unfold ser_struct.
  destruct (size_of t) as [n|] eqn:En.
  - pose proof (fixed_children t n Hs En) as Hfix. pose proof (size_of_fixed_struct t n Hs En) as Hsz.
    assert (Ei : items_of (children_of t) = map (fun it => (fst it, Some (snd it))) (fixed_items (children_of t))).
    { unfold items_of, fixed_items. rewrite map_map. apply map_ext_in. intros c Hc. cbn [fst snd].
      rewrite Forall_forall in Hfix. specialize (Hfix c Hc). unfold is_fixed in Hfix. unfold size_or_0.
      destruct (size_of c); [reflexivity|discriminate]. }
    rewrite (packed_struct_exact t n) by assumption.
    assert (Hx : struct_exact t = true).
    { rewrite macro_ok_struct in Hok by assumption. apply andb_true_iff in Hok as [_ Hm].
      rewrite struct_macro_ok_exact in Hm by assumption. unfold is_fixed in Hm. now rewrite En in Hm. }
    rewrite Hx, (mem_layout_ok t n) by assumption.
    assert (Hfit2 : Forall2 (fun it b => len b = snd it) (fixed_items (children_of t)) ds).
    { rewrite Ei in Hfit. clear -Hfit. revert ds Hfit. induction (fixed_items (children_of t)) as [|[a s] l IH]; intros ds H; cbn [map] in H; inversion H; subst; constructor; auto. }
    assert (Hal : Forall (fun it : N * N => is_alignment (fst it)) (fixed_items (children_of t))).
    { unfold fixed_items. apply Forall_map. apply Forall_forall. intros. cbn. auto with al. }
    assert (Hend : walk_end 0 (fixed_items (children_of t)) <= n).
    { rewrite Hsz. destruct (children_of t) eqn:Ec; [cbn; lia|]. rewrite <- Ec. apply pad_to_ge. auto with al. }
    destruct (struct_bytes_fixed (fixed_items (children_of t)) ds n Hfit2 Hal Hend) as [_ Hdn].
    assert (Hdn' : len d = n) by (unfold d; rewrite Ei; exact Hdn).
    rewrite Hdn'.
    pose proof (packed_fate P h (fixed_items (children_of t)) items ds oks [] 0 (n - walk_end 0 (fixed_items (children_of t))) HF Hfit2 Hal) as HP.
    cbv zeta in HP. cbn [length app] in HP.
    assert (Ed : d = fst (sp_lay_struct 0 (map (fun it => (fst it, Some (snd it))) (fixed_items (children_of t))) ds)
                      ++ nuls (n - walk_end 0 (fixed_items (children_of t)))).
    { pose proof (lay_struct_fixed (fixed_items (children_of t)) ds 0 Hfit2 Hal) as HL. unfold d, sp_struct_bytes. rewrite Ei.
      destruct (sp_lay_struct _ _ _) as [body ends]. cbn [fst] in *. now rewrite <- HL. }
    rewrite Ed. rewrite <- (app_nil_r (_ ++ nuls _)). eapply fate_then; [|apply writes_ret].
    apply HP. unfold fixed_items. rewrite map_length. exact Hlen.
  - cbv zeta. unfold d, sp_struct_bytes in *. clear d.
    rewrite n_frame_offsets_spec.
    pose proof (nonfixed_fate P h (children_of t) items ds oks [] [] 8 0 0 (sp_n_offsets (items_of (children_of t))) 0 HF Hlen Hfit) as HN.
    cbv zeta in HN. rewrite N.sub_0_r, !app_nil_r in HN. cbn [app length] in HN.
    destruct (sp_lay_struct 0 (items_of (children_of t)) ds) as [body ends]. cbn [fst snd] in HN. rewrite N.add_0_l in HN.
    change @len with @blen in *. rewrite blen_app in *.
    eapply fate_then; [apply HN|].
    + right; right; right; reflexivity.
    + reflexivity.
    + lia.
    + lia.
    + cbn [fst snd]. apply writes_offsets. exact Hl.
Qed.
