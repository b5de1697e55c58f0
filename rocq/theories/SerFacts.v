(** What serialising writes. *)
From Verif Require Import Base Types Layout AlignedBytes Strs Spec Deser Ser Histories SerSpec
  BaseFacts TypesFacts LayoutFacts AlignedFacts Utf8Facts DeserFacts ArrayFacts StructFacts ReadFacts AccessFacts EncFacts RoundFacts.
From Coq Require Import Lia ZifyBool ZifyNat ZifyN.
Ltac Zify.zify_post_hook ::= Z.div_mod_to_equations.

(** ** Writing [d] and then ending with [r], whatever the sink *)
Definition writes {A} (m : M sink A) (d : list byte) (r : sres A) : Prop := forall k,
  m k = match k_left k with
        | None => (Sink (k_out k ++ d) None, r)
        | Some n =>
            if blen d <=? n then (Sink (k_out k ++ d) (Some (n - blen d)), r)
            else (Sink (k_out k ++ take n d) (Some 0), SErr EIo)
        end.
Lemma writes_all d : writes (write_all d) d (SOk tt).
Proof. intros k. reflexivity. Qed.
Lemma sink_eta k : Sink (k_out k) (k_left k) = k. Proof. now destruct k. Qed.
Lemma writes_nothing {A} (m : M sink A) r : (forall k, m k = (k, r)) -> writes m [] r.
Proof.
  intros H k. rewrite H, app_nil_r. destruct k as [o [n|]]; cbn [k_out k_left]; [|reflexivity].
  change (blen (@nil byte)) with 0. replace (0 <=? n) with true by lia. now rewrite N.sub_0_r.
Qed.
Lemma writes_ret {A} (a : A) : writes (sret a) [] (SOk a). Proof. now apply writes_nothing. Qed.
Lemma writes_lift {A} (m : res A) a : m = Ok a -> writes (lift m) [] (SOk a).
Proof. intros ->. now apply writes_nothing. Qed.
Lemma writes_error {A} e : writes (@serror sink A e) [] (SErr e). Proof. now apply writes_nothing. Qed.
Lemma writes_bind {A B} (m : M sink A) (f : A -> M sink B) d a d' r :
  writes m d (SOk a) -> writes (f a) d' r -> writes (sbind m f) (d ++ d') r.
Proof.
  intros H1 H2 k. unfold sbind. rewrite H1. destruct k as [o [n|]]; cbn [k_out k_left].
  - destruct (blen d <=? n) eqn:E.
    + rewrite H2. cbn [k_out k_left]. rewrite blen_app, app_assoc.
      destruct (blen d' <=? n - blen d) eqn:E'.
      * replace (blen d + blen d' <=? n) with true by lia. do 2 f_equal. f_equal. lia.
      * replace (blen d + blen d' <=? n) with false by lia. rewrite take_app_ge by lia. now rewrite app_assoc.
    + rewrite blen_app. replace (blen d + blen d' <=? n) with false by lia. now rewrite take_app_le by lia.
  - rewrite H2. cbn [k_out k_left]. now rewrite app_assoc.
Qed.
Lemma writes_end {A B} (m : M sink A) (f : A -> M sink B) d a r :
  writes m d (SOk a) -> writes (f a) [] r -> writes (sbind m f) d r.
Proof. intros H1 H2. rewrite <- (app_nil_r d). exact (writes_bind m f d a [] r H1 H2). Qed.
Lemma writes_bind_err {A B} (m : M sink A) (f : A -> M sink B) d e :
  writes m d (SErr e) -> writes (sbind m f) d (SErr e).
Proof.
  intros H k. unfold sbind. rewrite H. destruct (k_left k) as [n|]; [|reflexivity]. now destruct (blen d <=? n).
Qed.

(** ** Writing [d], or stopping just before a string with a NUL *)
Definition fate {A} (P : list byte -> Prop) (m : M sink A) (d : list byte) (a : A) (ok : bool) : Prop :=
  if ok then writes m d (SOk a)
  else exists d1 s d2, d = d1 ++ s ++ [x00] ++ d2 /\ P s /\ In x00 s /\ writes m d1 (SErr EInvalidInput).
Lemma fate_ok {A} P (m : M sink A) d a : writes m d (SOk a) -> fate P m d a true.
Proof. intros H. exact H. Qed.
Lemma fate_bind {A B} P (m : M sink A) (f : A -> M sink B) d a d' b ok ok' :
  fate P m d a ok -> (ok = true -> fate P (f a) d' b ok') -> fate P (sbind m f) (d ++ d') b (ok && ok').
Proof.
  intros H1 H2. destruct ok; cbn [andb].
  - specialize (H2 eq_refl). destruct ok'; [exact (writes_bind _ _ _ _ _ _ H1 H2)|].
    destruct H2 as (d1 & s & d2 & -> & HP & HN & HW). exists (d ++ d1), s, d2. rewrite <- app_assoc.
    repeat split; auto. exact (writes_bind _ _ _ _ _ _ H1 HW).
  - destruct H1 as (d1 & s & d2 & -> & HP & HN & HW). exists d1, s, (d2 ++ d'). repeat split; auto.
    + now rewrite <- !app_assoc.
    + now apply writes_bind_err.
Qed.
Lemma fate_then {A B} P (m : M sink A) (f : A -> M sink B) d a d' b ok :
  fate P m d a ok -> writes (f a) d' (SOk b) -> fate P (sbind m f) (d ++ d') b ok.
Proof.
  intros H1 H2. rewrite <- (andb_true_r ok). apply (fate_bind P m f d a); auto.
Qed.
Lemma fate_first {A B} P (m : M sink A) (f : A -> M sink B) d a d' b ok :
  writes m d (SOk a) -> fate P (f a) d' b ok -> fate P (sbind m f) (d ++ d') b ok.
Proof. intros H1 H2. change ok with (true && ok). apply (fate_bind P m f d a); auto. Qed.
Lemma fate_lift {A B} P (m : res A) (f : A -> M sink B) d a b ok :
  m = Ok a -> fate P (f a) d b ok -> fate P (sbind (lift m) f) d b ok.
Proof. intros H1 H2. change d with ([] ++ d). apply (fate_first P _ _ [] a); auto. now apply writes_lift. Qed.
Lemma writes_then_lift {A B} (m : res A) (f : A -> M sink B) d a r :
  m = Ok a -> writes (f a) d r -> writes (sbind (lift m) f) d r.
Proof. intros H1 H2. change d with ([] ++ d). apply (writes_bind _ _ [] a); auto. now apply writes_lift. Qed.

(** ** Padding and offsets *)
Lemma bs_to_pad n : n < 8 -> bs_to seven_nuls n = Ok (nuls n).
Proof.
  intros H. unfold bs_to. change (blen seven_nuls) with 7. replace (n <=? 7) with true by lia.
  f_equal. change seven_nuls with (zeros 7). rewrite take_zeros. change nuls with zeros. f_equal. lia.
Qed.
Lemma pad_small A p : is_alignment A -> pad_to A p - p < 8.
Proof. intros HA. pose proof (pad_to_lt A p HA). pose proof (pad_to_ge A p HA). destruct HA as [|[|[|]]]; lia. Qed.
Lemma writes_padding h A p : is_alignment A -> p + 8 < usize_lim ->
  writes (write_padding h A p) (nuls (pad_to A p - p)) (SOk (pad_to A p - p)).
Proof.
  intros HA Hp. unfold write_padding. pose proof (pad_to_ge A p HA). pose proof (pad_small A p HA).
  eapply writes_then_lift; [apply align_offset_ok; auto; destruct HA as [|[|[|]]]; lia|].
  eapply writes_then_lift; [apply usub_ok; lia|].
  eapply writes_then_lift; [now apply bs_to_pad|].
  eapply writes_end; [apply writes_all|apply writes_ret].
Qed.
Lemma writes_each k l : writes (write_each k l) (concat (map (num_le k) l)) (SOk tt).
Proof.
  induction l as [|x l IH]; cbn [write_each map concat]; [apply writes_ret|].
  eapply writes_bind; [apply (writes_all (to_le k x))|exact IH].
Qed.
Lemma writes_offsets h b l : b + len (sp_offsets b l) < 2 ^ 63 ->
  writes (write_offsets h b l) (sp_offsets b l) (SOk (b + len (sp_offsets b l))).
Proof.
  intros Hb. unfold write_offsets. unfold sp_offsets in *. rewrite nums_len in *. change @len with @blen in *.
  assert (HU : usize_lim = 2 * 2 ^ 63) by reflexivity.
  pose proof (fit_width_pos b (blen l)) as Hf. rewrite N2Nat.id in *.
  unfold sp_fit_width in *.
  destruct (b + blen l <? 2 ^ 8) eqn:E1; [|destruct (b + 2 * blen l <? 2 ^ 16) eqn:E2; [|destruct (b + 4 * blen l <? 2 ^ 32) eqn:E4]].
  - eapply writes_then_lift; [apply uadd_ok; lia|]. replace (b + blen l <=? 255) with true by lia.
    eapply writes_end; [apply writes_each|]. replace (b + 1 * blen l) with (b + blen l) by lia. apply writes_ret.
  - eapply writes_then_lift; [apply uadd_ok; lia|]. replace (b + blen l <=? 255) with false by lia.
    eapply writes_then_lift; [apply umul_ok; lia|]. eapply writes_then_lift; [apply uadd_ok; lia|].
    replace (b + blen l * 2 <=? 65535) with true by lia.
    eapply writes_end; [apply writes_each|]. replace (b + 2 * blen l) with (b + blen l * 2) by lia. apply writes_ret.
  - eapply writes_then_lift; [apply uadd_ok; lia|]. replace (b + blen l <=? 255) with false by lia.
    eapply writes_then_lift; [apply umul_ok; lia|]. eapply writes_then_lift; [apply uadd_ok; lia|].
    replace (b + blen l * 2 <=? 65535) with false by lia.
    eapply writes_then_lift; [apply umul_ok; lia|]. eapply writes_then_lift; [apply uadd_ok; lia|].
    replace (b + blen l * 4 <=? 4294967295) with true by lia.
    eapply writes_end; [apply writes_each|]. replace (b + 4 * blen l) with (b + blen l * 4) by lia. apply writes_ret.
  - eapply writes_then_lift; [apply uadd_ok; lia|]. replace (b + blen l <=? 255) with false by lia.
    eapply writes_then_lift; [apply umul_ok; lia|]. eapply writes_then_lift; [apply uadd_ok; lia|].
    replace (b + blen l * 2 <=? 65535) with false by lia.
    eapply writes_then_lift; [apply umul_ok; lia|]. eapply writes_then_lift; [apply uadd_ok; lia|].
    replace (b + blen l * 4 <=? 4294967295) with false by lia.
    eapply writes_then_lift; [apply umul_ok; lia|]. eapply writes_then_lift; [apply uadd_ok; lia|].
    eapply writes_end; [apply writes_each|]. replace (b + 8 * blen l) with (b + blen l * 8) by lia. apply writes_ret.
Qed.

(** ** Sequences *)
Definition fates (P : list byte -> Prop) (items : list (M sink N)) (ds : list (list byte)) (oks : list bool) : Prop :=
  Forall2 (fun m p => fate P m (fst p) (len (fst p)) (snd p)) items (combine ds oks) /\ length ds = length oks.
Lemma fates_cons P m items d ds ok oks : fate P m d (len d) ok -> fates P items ds oks ->
  fates P (m :: items) (d :: ds) (ok :: oks).
Proof. intros H [H1 H2]. split; [|cbn; lia]. cbn [combine]. now constructor. Qed.
Lemma fates_inv P items ds oks : fates P items ds oks ->
  match items with
  | [] => ds = [] /\ oks = []
  | m :: items => exists d ds' ok oks', ds = d :: ds' /\ oks = ok :: oks' /\ fate P m d (len d) ok /\ fates P items ds' oks'
  end.
Proof.
  intros [H1 H2]. destruct items as [|m items].
  - inversion H1 as [E|]. destruct ds, oks; try discriminate; auto.
  - destruct ds as [|d ds], oks as [|ok oks]; try discriminate; [inversion H1|]. cbn [combine] in H1.
    inversion H1 as [|? ? ? ? Hm Hr]; subst. exists d, ds, ok, oks. repeat split; auto.
Qed.
Lemma ser_seq_fate P h items : forall ds oks b, fates P items ds oks -> b + len (concat ds) < 2 ^ 63 ->
  fate P (ser_seq h items b) (concat ds) (b + len (concat ds)) (forallb id oks).
Proof.
  induction items as [|m items IH]; intros ds oks b HF Hl; apply fates_inv in HF; cbn [ser_seq].
  - destruct HF as [-> ->]. cbn [concat forallb]. change (len (@nil byte)) with 0. rewrite N.add_0_r. apply fate_ok, writes_ret.
  - destruct HF as (d & ds' & ok & oks' & -> & -> & Hm & HF). cbn [concat forallb] in *.
    change @len with @blen in *. rewrite blen_app in *. eapply fate_bind; [exact Hm|]. intros _.
    eapply fate_lift; [apply uadd_ok; unfold usize_lim; lia|]. rewrite N.add_assoc. apply IH; auto. lia.
Qed.
Lemma lay_start al pos b r : is_alignment al ->
  sp_lay al pos (b :: r) = (nuls (pad_to al pos - pos) ++ fst (sp_lay al (pad_to al pos) (b :: r)), snd (sp_lay al (pad_to al pos) (b :: r))).
Proof.
  intros Ha. cbn [sp_lay]. rewrite (pad_to_id al (pad_to al pos)) by (auto; now apply pad_to_mod).
  destruct (sp_lay al _ r) as [rest ends]. cbn [fst snd]. now rewrite N.sub_diag.
Qed.
Lemma ser_nfwa_fate P h al items : is_alignment al -> forall ds oks pos offs, fates P items ds oks -> pos mod al = 0 ->
  let p := sp_lay al pos ds in
  let e := pos + len (fst p) in
  let total := pad_to al e in
  let d := fst p ++ nuls (total - e) ++ sp_offsets total (offs ++ snd p) in
  pos + len d < 2 ^ 63 ->
  fate P (ser_nfwa h al items pos offs) d (pos + len d) (forallb id oks).
Proof.
  intros Ha. induction items as [|m items IH]; intros ds oks pos offs HF Hp p e total d Hl; apply fates_inv in HF; cbn [ser_nfwa].
  - destruct HF as [-> ->]. cbn [sp_lay] in p. subst p. cbn [fst snd] in *. cbn [forallb].
    assert (Et : total = pos) by (subst total e; change (len (@nil byte)) with 0; rewrite N.add_0_r; now apply pad_to_id).
    assert (Ee : e = pos) by (subst e; change (len (@nil byte)) with 0; lia).
    subst d. rewrite Et, Ee, N.sub_diag, app_nil_r in *. cbn [app] in *. change (nuls 0 ++ ?x) with x in *.
    now apply fate_ok, writes_offsets.
  - destruct HF as (b & ds' & ok & oks' & -> & -> & Hm & HF). cbn [forallb].
    set (stop := pos + len b). set (pos' := pad_to al stop).
    assert (Hstop : pos + len b <= pos + len d).
    { subst d p. cbn [sp_lay]. destruct (sp_lay al _ ds') as [rest ends]. cbn [fst]. change @len with @blen. rewrite !blen_app. lia. }
    set (p' := sp_lay al pos' ds'). set (e' := pos' + len (fst p')). set (total' := pad_to al e').
    set (d' := fst p' ++ nuls (total' - e') ++ sp_offsets total' ((offs ++ [stop]) ++ snd p')).
    assert (Hge : stop <= pos') by now apply pad_to_ge.
    assert (Hps : pos' - stop < 8) by now apply pad_small.
    assert (Ed : d = b ++ nuls (pos' - stop) ++ d' ).
    { subst d p. unfold d'. cbn [sp_lay]. rewrite (pad_to_id al pos) by auto. fold stop. rewrite N.sub_diag. change (nuls 0 ++ ?x) with x.
      destruct ds' as [|b' ds'].
      - subst p'. cbn [sp_lay fst snd] in *. rewrite app_nil_r in *. 
        assert (Ee : e = stop) by (subst e; cbn [sp_lay]; rewrite (pad_to_id al pos) by auto; cbn [fst]; rewrite N.sub_diag, app_nil_r; reflexivity).
        assert (Ee' : e' = pos') by (subst e'; change (len (@nil byte)) with 0; lia).
        subst total total'. rewrite Ee, Ee'. fold pos'. rewrite (pad_to_id al pos') by (auto; now apply pad_to_mod).
        rewrite N.sub_diag. cbn [app]. change (nuls 0 ++ ?x) with x. now rewrite app_nil_r.
      - assert (Es := lay_start al stop b' ds' Ha). fold pos' p' in Es. rewrite Es. cbn [fst snd].
        assert (Ee : e = e').
        { subst e e'. cbn [sp_lay]. rewrite (pad_to_id al pos) by auto. fold stop. cbn [sp_lay] in Es. rewrite Es. cbn [fst snd].
          rewrite N.sub_diag. change (nuls 0 ++ ?x) with x. change @len with @blen. change nuls with zeros. rewrite !blen_app, blen_zeros.
          unfold stop in *. change @len with @blen in *. lia. }
        subst total total'. rewrite Ee. rewrite <- !app_assoc. reflexivity. }
    assert (Hld : len d = len b + (pos' - stop) + len d').
    { rewrite Ed. change @len with @blen. rewrite !blen_app. change nuls with zeros. rewrite blen_zeros. lia. }
    rewrite Hld in *. rewrite Ed. eapply fate_bind; [exact Hm|]. intros _.
    assert (HU : usize_lim = 2 * 2 ^ 63) by reflexivity.
    eapply fate_lift; [apply uadd_ok; lia|]. fold stop. cbv zeta.
    assert (Hs63 : stop < 2 ^ 63) by (unfold stop; lia).
    eapply fate_lift; [apply align_offset_ok; auto; clear -Hs63 HU Ha; destruct Ha as [|[|[|]]]; subst; lia|].
    fold pos'. eapply fate_lift; [now apply usub_ok|]. eapply fate_lift; [now apply bs_to_pad|].
    eapply fate_first; [apply writes_all|].
    eapply fate_lift; [apply uadd_ok; lia|]. replace (stop + (pos' - stop)) with pos' by lia.
    replace (pos + (len b + (pos' - stop) + len d')) with (pos' + len d') by (unfold stop in *; lia).
    apply IH; auto; [now apply pad_to_mod|]. fold p' e' total' d'. unfold stop in *. lia.
Qed.
