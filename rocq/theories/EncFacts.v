(** The canonical encoding, cut and decoded again. *)
From Verif Require Import Base Types Layout AlignedBytes Strs Spec Deser Histories
  BaseFacts TypesFacts LayoutFacts AlignedFacts Utf8Facts DeserFacts ArrayFacts StructFacts ReadFacts AccessFacts.
From Coq Require Import Lia ZifyBool ZifyNat ZifyN.
Ltac Zify.zify_post_hook ::= Z.div_mod_to_equations.

(** ** Offsets *)
Lemma fit_width_pos b n : 1 <= sp_fit_width b n <= 8.
Proof. unfold sp_fit_width. destruct (_ <? _); [lia|]. destruct (_ <? _); [lia|]. destruct (_ <? _); lia. Qed.
(** The writer's width is the reader's. *)
Lemma fit_width_read b n : 0 < n -> sp_width (b + sp_fit_width b n * n) = sp_fit_width b n.
Proof.
  intros Hn. unfold sp_fit_width, sp_width.
  destruct (b + n <? 2 ^ 8) eqn:E1; [|destruct (b + 2 * n <? 2 ^ 16) eqn:E2; [|destruct (b + 4 * n <? 2 ^ 32) eqn:E4]].
  - replace (b + 1 * n =? 0) with false by lia. replace (b + 1 * n <? 2 ^ 8) with true by lia. reflexivity.
  - replace (b + 2 * n =? 0) with false by lia. replace (b + 2 * n <? 2 ^ 8) with false by lia.
    replace (b + 2 * n <? 2 ^ 16) with true by lia. reflexivity.
  - replace (b + 4 * n =? 0) with false by lia. replace (b + 4 * n <? 2 ^ 8) with false by lia.
    replace (b + 4 * n <? 2 ^ 16) with false by lia. replace (b + 4 * n <? 2 ^ 32) with true by lia. reflexivity.
  - replace (b + 8 * n =? 0) with false by lia. replace (b + 8 * n <? 2 ^ 8) with false by lia.
    replace (b + 8 * n <? 2 ^ 16) with false by lia. replace (b + 8 * n <? 2 ^ 32) with false by lia. reflexivity.
Qed.
Lemma fit_width_range b n : b < 2 ^ 64 -> b < 256 ^ sp_fit_width b n.
Proof.
  intros Hb. unfold sp_fit_width.
  destruct (b + n <? 2 ^ 8) eqn:E1; [change (256 ^ 1) with (2 ^ 8); lia|].
  destruct (b + 2 * n <? 2 ^ 16) eqn:E2; [change (256 ^ 2) with (2 ^ 16); lia|].
  destruct (b + 4 * n <? 2 ^ 32) eqn:E4; [change (256 ^ 4) with (2 ^ 32); lia|]. change (256 ^ 8) with (2 ^ 64). lia.
Qed.
Lemma nums_len w l : len (concat (map (num_le w) l)) = N.of_nat w * len l.
Proof.
  induction l as [|x l IH]; [cbn; lia|]. cbn [map concat]. change @len with @blen in *.
  rewrite blen_app, blen_cons, IH. change (num_le w x) with (to_le w x). rewrite blen_to_le. lia.
Qed.
Lemma nums_sub w l : forall i x, nth_error l i = Some x ->
  sub (concat (map (num_le w) l)) (N.of_nat i * N.of_nat w) (N.of_nat w) = num_le w x.
Proof.
  induction l as [|y l IH]; intros [|i] x H; try discriminate; cbn [map concat].
  - apply Some_inj in H as ->. rewrite sub_take_drop. change (N.of_nat 0 * N.of_nat w) with 0. rewrite drop_0.
    apply take_app_eq. symmetry. apply (blen_to_le w x).
  - rewrite sub_take_drop. rewrite drop_app_ge; change (num_le w y) with (to_le w y); rewrite blen_to_le; [|lia].
    replace (N.of_nat (S i) * N.of_nat w - N.of_nat w) with (N.of_nat i * N.of_nat w) by lia.
    rewrite <- sub_take_drop. now apply IH.
Qed.
Lemma sub_app_r a b p n : len a <= p -> sub (a ++ b) p n = sub b (p - len a) n.
Proof. intros H. rewrite !sub_take_drop. now rewrite drop_app_ge. Qed.
Lemma sub_mid a b c : sub (a ++ b ++ c) (len a) (len b) = b.
Proof. rewrite sub_take_drop, drop_app_eq by reflexivity. now apply take_app_eq. Qed.
Lemma sub_in pre z b rest post p n : p = len pre + len z -> n = len b ->
  sub (pre ++ (z ++ b ++ rest) ++ post) p n = b.
Proof.
  intros -> ->. rewrite !app_assoc. rewrite <- (app_assoc _ rest post). rewrite <- (app_assoc _ b (rest ++ post)).
  replace (len pre + len z) with (len (pre ++ z)) by apply (blen_app pre z). apply sub_mid.
Qed.
Lemma len_nuls n : len (nuls n) = n. Proof. apply blen_zeros. Qed.
Lemma num_le_back w x : x < 256 ^ N.of_nat w -> le_num (num_le w x) = x.
Proof. intros H. change (of_le (to_le w x) = x). rewrite of_le_to_le. now apply N.mod_small. Qed.

(** ** Arrays of variable-size elements *)
Lemma lay_ends al bodies : forall pos, length (snd (sp_lay al pos bodies)) = length bodies.
Proof.
  induction bodies as [|b r IH]; intros pos; cbn [sp_lay]; [reflexivity|].
  specialize (IH (pad_to al pos + len b)). destruct (sp_lay al _ r) as [rest ends]. cbn [snd length] in *. now f_equal.
Qed.
Lemma lay_last al bodies : is_alignment al -> forall pos, bodies <> [] ->
  last (snd (sp_lay al pos bodies)) 0 = pos + len (fst (sp_lay al pos bodies)).
Proof.
  intros Ha. induction bodies as [|b r IH]; intros pos Hne; [congruence|]. cbn [sp_lay].
  specialize (IH (pad_to al pos + len b)). pose proof (lay_ends al r (pad_to al pos + len b)) as Hl.
  destruct (sp_lay al _ r) as [rest ends] eqn:E. cbn [fst snd] in *. pose proof (pad_to_ge al pos Ha).
  change @len with @blen in *. rewrite !blen_app, blen_zeros.
  destruct ends as [|e ends].
  - destruct r; [|discriminate]. cbn in E. inversion E; subst. cbn [last]. rewrite blen_nil. lia.
  - destruct r; [discriminate|]. specialize (IH ltac:(discriminate)).
    change (last (pad_to al pos + blen b :: e :: ends) 0) with (last (e :: ends) 0). rewrite IH. lia.
Qed.
Lemma lay_bound_ends al bodies : is_alignment al -> forall pos,
  Forall (fun e => pos <= e <= pos + len (fst (sp_lay al pos bodies))) (snd (sp_lay al pos bodies)).
Proof.
  intros Ha. induction bodies as [|b r IH]; intros pos; cbn [sp_lay]; [constructor|].
  specialize (IH (pad_to al pos + len b)). destruct (sp_lay al _ r) as [rest ends]. cbn [fst snd] in *.
  pose proof (pad_to_ge al pos Ha). change @len with @blen in *. rewrite !blen_app, blen_zeros.
  constructor; [lia|]. eapply Forall_impl; [|exact IH]. cbn. intros. lia.
Qed.
Lemma lay_cut al bodies : is_alignment al -> forall pre post limit,
  let p := sp_lay al (len pre) bodies in
  len pre + len (fst p) <= limit ->
  sp_array_cut al (pre ++ fst p ++ post) limit (len pre) (snd p) = map Some bodies.
Proof.
  intros Ha. induction bodies as [|b r IH]; intros pre post limit; cbn [sp_lay]; [reflexivity|].
  specialize (IH (pre ++ nuls (pad_to al (len pre) - len pre) ++ b) post limit).
  pose proof (pad_to_ge al (len pre) Ha) as Hp.
  assert (El : len (pre ++ nuls (pad_to al (len pre) - len pre) ++ b) = pad_to al (len pre) + len b)
    by (change @len with @blen in *; change nuls with zeros; rewrite !blen_app, blen_zeros; lia).
  rewrite El in IH. destruct (sp_lay al (pad_to al (len pre) + len b) r) as [rest ends]. cbn [fst snd] in *.
  cbn zeta. intros Hl. cbn [sp_array_cut map].
  assert (Hl' : pad_to al (len pre) + len b + len rest <= limit).
  { revert Hl. change @len with @blen in *; change nuls with zeros; rewrite !blen_app, blen_zeros. lia. }
  specialize (IH Hl').
  replace ((pre ++ nuls (pad_to al (len pre) - len pre) ++ b) ++ rest ++ post)
    with (pre ++ (nuls (pad_to al (len pre) - len pre) ++ b ++ rest) ++ post) in IH by now rewrite <- !app_assoc.
  rewrite IH. f_equal. unfold cut. replace (_ && _) with true by lia. f_equal.
  apply sub_in; rewrite ?len_nuls; lia.
Qed.
Lemma nth_error_last (l : list N) : l <> [] -> nth_error l (length l - 1) = Some (last l 0).
Proof.
  intros H. destruct (exists_last H) as (l' & x & ->). rewrite last_last, app_length. cbn [length].
  rewrite nth_error_app2 by lia. replace (length l' + 1 - 1 - length l')%nat with O by lia. reflexivity.
Qed.
Lemma map_seq_nth (f : nat -> N) l : (forall i x, nth_error l i = Some x -> f i = x) -> map f (seq 0 (length l)) = l.
Proof.
  intros H. assert (G : forall k l', (forall i x, nth_error l' i = Some x -> f (k + i)%nat = x) -> map f (seq k (length l')) = l').
  { intros k l'. revert k. induction l' as [|y l' IH]; intros k G; [reflexivity|]. cbn [length seq map].
    f_equal; [specialize (G O y eq_refl); now rewrite Nat.add_0_r in G|]. apply IH. intros i x Hx.
    replace (S k + i)%nat with (k + S i)%nat by lia. now apply G. }
  apply G. exact H.
Qed.
(** The array with [P] bytes of padding between the elements and the offsets. *)
Lemma array_read al bodies P : is_alignment al -> bodies <> [] ->
  let p := sp_lay al 0 bodies in
  let body := fst p ++ nuls P in
  let d := body ++ sp_offsets (len body) (snd p) in
  len d < 2 ^ 64 ->
  (P = 0 -> sp_array_children al d = map Some bodies) /\
  (0 < P -> length (sp_array_children al d) <> length bodies).
Proof.
  intros Ha Hne p body d Hd.
  pose proof (lay_ends al bodies 0) as Hn. fold p in Hn.
  pose proof (lay_last al bodies Ha 0 Hne) as Hlast. fold p in Hlast. rewrite N.add_0_l in Hlast.
  pose proof (lay_bound_ends al bodies Ha 0) as Hb. fold p in Hb.
  pose proof (lay_cut al bodies Ha [] (nuls P ++ sp_offsets (len body) (snd p))) as Hcut.
  cbv zeta in Hcut. change (len (@nil byte)) with 0 in Hcut. fold p in Hcut.
  assert (Hm : 0 < len (snd p)) by (unfold len; rewrite Hn; destruct bodies; [congruence|cbn; lia]).
  remember (sp_fit_width (len body) (len (snd p))) as w.
  assert (Hw : 1 <= w <= 8) by (subst w; apply fit_width_pos).
  assert (Hdl : len d = len body + w * len (snd p)).
  { unfold d. change @len with @blen. rewrite blen_app. f_equal. change @blen with @len. unfold sp_offsets. rewrite nums_len.
    rewrite <- Heqw. lia. }
  assert (Hbl : len body = len (fst p) + P) by (unfold body; change @len with @blen; rewrite blen_app; f_equal; apply blen_zeros).
  assert (Hwd : sp_width (len d) = w) by (rewrite Hdl; subst w; now apply fit_width_read).
  assert (Hrange : len body < 256 ^ w) by (subst w; apply fit_width_range; lia).
  assert (Hoff : forall i x, nth_error (snd p) i = Some x -> le_num (sub d (len body + N.of_nat i * w) w) = x).
  { intros i x Hx. unfold d. rewrite sub_app_r by lia.
    replace (len body + N.of_nat i * w - len body) with (N.of_nat i * w) by lia. unfold sp_offsets.
    rewrite <- Heqw. pose proof (nums_sub (N.to_nat w) (snd p) i x Hx) as E. rewrite N2Nat.id in E. rewrite E.
    apply num_le_back. rewrite N2Nat.id. apply nth_error_In in Hx. rewrite Forall_forall in Hb. specialize (Hb x Hx). lia. }
  assert (Hlo : le_num (sub d (len d - w) w) = len (fst p)).
  { rewrite <- Hlast. rewrite <- (Hoff (length (snd p) - 1)%nat (last (snd p) 0)).
    - f_equal. f_equal. rewrite Hdl. unfold len in *. nia.
    - apply nth_error_last. intros E. rewrite E in Hm. cbn in Hm. lia. }
  unfold sp_array_children. rewrite Hwd, Hlo. replace (len d =? 0) with false by lia.
  replace (len (fst p) <=? len d) with true by lia. cbn [andb].
  split; intros HP.
  - assert (Ediff : len d - len (fst p) = len (snd p) * w) by lia. rewrite Ediff.
    rewrite N.mod_mul by lia. cbn [N.eqb]. rewrite N.div_mul by lia.
    replace (N.to_nat (len (snd p))) with (length (snd p)) by (unfold len; lia).
    rewrite (map_seq_nth _ (snd p)).
    + replace d with ([] ++ fst p ++ nuls P ++ sp_offsets (len body) (snd p)) by (unfold d, body; now rewrite <- app_assoc).
      apply Hcut. lia.
    + intros i x Hx. rewrite <- (Hoff i x Hx). now replace (len body) with (len (fst p)) by lia.
  - destruct ((len d - len (fst p)) mod w =? 0) eqn:E.
    + assert (Hal : forall l d lim prev, length (sp_array_cut al d lim prev l) = length l)
        by (induction l; intros; cbn [sp_array_cut length]; auto).
      rewrite Hal, map_length, seq_length. rewrite <- Hn.
      assert (Ediff : len d - len (fst p) = len (snd p) * w + P) by lia. rewrite Ediff in *.
      rewrite N.add_comm, N.div_add by lia. rewrite N.add_comm, N.mod_add in E by lia.
      assert (0 < P / w).
      { apply N.eqb_eq in E. pose proof (N.div_mod P w ltac:(lia)). destruct (P / w); nia. }
      unfold len. lia.
    + destruct bodies; [congruence|discriminate].
Qed.
Lemma lay_body_mod al bodies : is_alignment al -> bodies <> [] -> forall pos,
  (pos + len (fst (sp_lay al pos bodies))) mod al = len (last bodies []) mod al.
Proof.
  intros Ha. induction bodies as [|b r IH]; intros Hne pos; [congruence|]. cbn [sp_lay].
  destruct r as [|c r].
  - cbn [sp_lay fst last]. rewrite app_nil_r. pose proof (pad_to_ge al pos Ha). pose proof (pad_to_mod al pos Ha).
    change @len with @blen; change nuls with zeros; rewrite blen_app, blen_zeros.
    replace (pos + (pad_to al pos - pos + blen b)) with (blen b + pad_to al pos) by lia.
    pose proof (alignment_pos al Ha). rewrite N.add_mod, H0, N.add_0_r by lia. now rewrite N.mod_mod by lia.
  - specialize (IH ltac:(discriminate) (pad_to al pos + len b)).
    destruct (sp_lay al (pad_to al pos + len b) (c :: r)) as [rest ends] eqn:E. cbn [fst] in *.
    change (last (b :: c :: r) []) with (last (c :: r) []). rewrite <- IH. f_equal.
    pose proof (pad_to_ge al pos Ha).
    change @len with @blen; change nuls with zeros; rewrite !blen_app, blen_zeros. lia.
Qed.
Lemma array_bytes_cut tail al bodies : is_alignment al -> len (sp_array_bytes tail al bodies) < 2 ^ 64 ->
  (tail = false \/ len (last bodies []) mod al = 0 -> sp_array_children al (sp_array_bytes tail al bodies) = map Some bodies) /\
  (tail = true -> len (last bodies []) mod al <> 0 ->
     length (sp_array_children al (sp_array_bytes tail al bodies)) <> length bodies).
Proof.
  intros Ha Hl. destruct bodies as [|b r].
  - split; [|cbn [last]; intros _ H; exfalso; apply H; apply N.mod_0_l; pose proof (alignment_pos al Ha); lia].
    intros _. unfold sp_array_bytes. cbn [sp_lay].
    destruct tail; [|reflexivity]. change (len (@nil byte)) with 0. rewrite pad_to_0 by assumption. reflexivity.
  - remember (b :: r) as bodies. assert (Hne : bodies <> []) by (subst; discriminate).
    pose proof (lay_body_mod al bodies Ha Hne 0) as Hm. rewrite N.add_0_l in Hm.
    unfold sp_array_bytes in *.
    pose proof (array_read al bodies 0 Ha Hne) as H0.
    pose proof (array_read al bodies (pad_to al (len (fst (sp_lay al 0 bodies))) - len (fst (sp_lay al 0 bodies))) Ha Hne) as HP.
    cbv zeta in H0, HP.
    destruct (sp_lay al 0 bodies) as [body ends]. cbn [fst snd] in *.
    pose proof (pad_to_ge al (len body) Ha) as Hge.
    change (nuls 0) with (@nil byte) in H0. rewrite app_nil_r in H0.
    destruct tail.
    + destruct (HP Hl) as [H1 H2]. split.
      * intros [H|H]; [discriminate|]. apply H1. rewrite pad_to_id by (auto; congruence). lia.
      * intros _ H. apply H2. pose proof (pad_to_mod al (len body) Ha).
        destruct (N.eq_dec (pad_to al (len body)) (len body)) as [E|E]; [|lia]. rewrite E in *. congruence.
    + destruct (H0 Hl) as [H1 H2]. split; [auto|discriminate].
Qed.
Lemma array_bytes_tail al bodies : is_alignment al -> len (last bodies []) mod al = 0 ->
  sp_array_bytes true al bodies = sp_array_bytes false al bodies.
Proof.
  intros Ha Hm. unfold sp_array_bytes. destruct bodies as [|b r].
  - cbn [sp_lay]. change (len (@nil byte)) with 0. now rewrite pad_to_0.
  - pose proof (lay_body_mod al (b :: r) Ha ltac:(discriminate) 0) as H. rewrite N.add_0_l in H.
    destruct (sp_lay al 0 (b :: r)) as [body ends]. cbn [fst] in H.
    rewrite pad_to_id by (auto; congruence). rewrite N.sub_diag. change (nuls 0) with (@nil byte). now rewrite app_nil_r.
Qed.

(** ** Structures *)
Definition fits (it : N * option N) (b : list byte) : Prop := match snd it with Some s => len b = s | None => True end.
Lemma lay_struct_cut items : forall bodies, Forall2 fits items bodies -> Forall (fun it => is_alignment (fst it)) items ->
  forall pre post w limit k, let p := sp_lay_struct (len pre) items bodies in
  let d := pre ++ fst p ++ post in
  (limit = len pre + len (fst p) \/ (len pre + len (fst p) <= limit /\ Forall (fun it => snd it <> None) items)) ->
  (forall j e, nth_error (snd p) j = Some e -> le_num (sub d (len d - w * (k + N.of_nat j + 1)) w) = e) ->
  sp_struct_cut d w limit (len pre) k items = map Some bodies.
Proof.
  induction items as [|[al size] items IH]; intros bodies HF HA pre post w limit k; cbv zeta.
  - inversion HF; subst. reflexivity.
  - inversion HF as [|? b ? bodies' Hfit HF']; subst. inversion HA as [|? ? Hal HA']; subst. cbn [fst snd] in *.
    cbn [sp_lay_struct sp_struct_cut]. pose proof (pad_to_ge al (len pre) Hal) as Hp.
    specialize (IH bodies' HF' HA' (pre ++ nuls (pad_to al (len pre) - len pre) ++ b) post w limit).
    assert (El : len (pre ++ nuls (pad_to al (len pre) - len pre) ++ b) = pad_to al (len pre) + len b)
      by (change @len with @blen in *; change nuls with zeros; rewrite !blen_app, blen_zeros; lia).
    rewrite El in IH. cbv zeta in IH.
    remember (sp_lay_struct (pad_to al (len pre) + len b) items bodies') as q. destruct q as [rest ends]. cbn [fst snd] in *.
    replace ((pre ++ nuls (pad_to al (len pre) - len pre) ++ b) ++ rest ++ post)
      with (pre ++ (nuls (pad_to al (len pre) - len pre) ++ b ++ rest) ++ post) in IH by now rewrite <- !app_assoc.
    remember (pre ++ (nuls (pad_to al (len pre) - len pre) ++ b ++ rest) ++ post) as d eqn:Ed.
    intros Hlim Hoff.
    assert (Elen : len pre + len (nuls (pad_to al (len pre) - len pre) ++ b ++ rest) = pad_to al (len pre) + len b + len rest)
      by (change @len with @blen in *; change nuls with zeros; rewrite !blen_app, blen_zeros; lia).
    rewrite Elen in Hlim.
    assert (Ecut : cut d (pad_to al (len pre)) (pad_to al (len pre) + len b) limit = Some b).
    { unfold cut. replace (_ && _) with true by (destruct Hlim as [->|[Hlim _]]; lia). f_equal. subst d.
      apply sub_in; rewrite ?len_nuls; lia. }
    assert (Hlim' : limit = pad_to al (len pre) + len b + len rest \/
      pad_to al (len pre) + len b + len rest <= limit /\ Forall (fun it : N * option N => snd it <> None) items).
    { destruct Hlim as [H|[H1 H2]]; [now left|right]. split; [exact H1|]. now inversion H2. }
    destruct size as [s|]; cbn [fits snd] in Hfit.
    + unfold fits in Hfit. cbn [snd] in Hfit. subst s. cbn [map]. rewrite Ecut. f_equal. apply IH; auto.
    + destruct items as [|it items].
      * inversion HF'; subst. cbn [sp_lay_struct] in Heqq. inversion Heqq; subst rest ends. cbn [map]. f_equal.
        destruct Hlim as [->|[_ H]]; [|inversion H as [|? ? Hx]; now destruct Hx]. change (len (@nil byte)) with 0 in *. rewrite N.add_0_r in *. exact Ecut.
      * pose proof (Hoff O (pad_to al (len pre) + len b) eq_refl) as H0. change (N.of_nat 0) with 0 in H0.
        rewrite N.add_0_r in H0. rewrite N.add_comm in H0. rewrite (N.add_comm k 1). 
        replace (1 + k) with (k + 1) in * by lia. cbv zeta. rewrite H0. cbn [map]. rewrite Ecut. f_equal. apply IH; auto.
        intros j e Hj. rewrite <- (Hoff (S j) e Hj). f_equal. f_equal. lia.
Qed.

Lemma lay_struct_ends items : forall bodies pos, length items = length bodies ->
  len (snd (sp_lay_struct pos items bodies)) = sp_n_offsets items.
Proof.
  induction items as [|[al size] items IH]; intros [|b bodies] pos Hl; try discriminate; [reflexivity|].
  cbn [sp_lay_struct]. specialize (IH bodies (pad_to al pos + len b) ltac:(cbn in Hl; lia)).
  destruct (sp_lay_struct _ items bodies) as [rest ends] eqn:E. cbn [snd] in *.
  destruct items as [|it items].
  - cbn [sp_lay_struct] in E. inversion E; subst. destruct size; reflexivity.
  - destruct size; cbn [sp_n_offsets] in *; [exact IH|]. unfold len in *. cbn [length]. destruct it, items; lia.
Qed.
Lemma lay_struct_bound items : Forall (fun it => is_alignment (fst it)) items -> forall bodies pos,
  Forall (fun e => e <= pos + len (fst (sp_lay_struct pos items bodies))) (snd (sp_lay_struct pos items bodies)).
Proof.
  induction 1 as [|[al size] items Hal _ IH]; intros [|b bodies] pos; cbn [sp_lay_struct]; try constructor.
  specialize (IH bodies (pad_to al pos + len b)). destruct (sp_lay_struct _ items bodies) as [rest ends] eqn:E.
  cbn [fst snd] in *. pose proof (pad_to_ge al pos Hal).
  assert (El : pos + len (nuls (pad_to al pos - pos) ++ b ++ rest) = pad_to al pos + len b + len rest)
    by (change @len with @blen in *; change nuls with zeros; rewrite !blen_app, blen_zeros; lia).
  rewrite El. destruct size, items; auto. constructor; [lia|exact IH].
Qed.
Lemma nth_error_rev {A} (l : list A) j x : nth_error l j = Some x -> nth_error (rev l) (length l - 1 - j) = Some x.
Proof.
  revert j. induction l as [|y l IH]; intros [|j] H; try discriminate; cbn [rev length].
  - apply Some_inj in H as ->. rewrite nth_error_app2; rewrite rev_length; [|lia].
    replace (S (length l) - 1 - 0 - length l)%nat with O by lia. reflexivity.
  - cbn in H. assert (j < length l)%nat by (apply nth_error_Some; congruence).
    rewrite nth_error_app1 by (rewrite rev_length; lia).
    replace (S (length l) - 1 - S j)%nat with (length l - 1 - j)%nat by lia. now apply IH.
Qed.
Lemma struct_bytes_var items bodies : Forall2 fits items bodies -> Forall (fun it => is_alignment (fst it)) items ->
  len (sp_struct_bytes None items bodies) < 2 ^ 64 ->
  sp_struct_children items (sp_struct_bytes None items bodies) = map Some bodies.
Proof.
  intros HF HA Hl. pose proof (Forall2_length _ _ _ HF) as Hlen.
  pose proof (lay_struct_ends items bodies 0 Hlen) as He. pose proof (lay_struct_bound items HA bodies 0) as Hb.
  unfold sp_struct_bytes in *.
  pose proof (lay_struct_cut items bodies HF HA []) as Hcut. cbv zeta in Hcut. change (len (@nil byte)) with 0 in Hcut.
  destruct (sp_lay_struct 0 items bodies) as [body ends]. cbn [fst snd app] in *. rewrite N.add_0_l in *.
  specialize (Hcut (sp_offsets (len body) (rev ends))).
  remember (body ++ sp_offsets (len body) (rev ends)) as d.
  assert (Er : len (rev ends) = len ends) by apply (blen_rev ends).
  assert (Hd : len d = len body + sp_fit_width (len body) (len ends) * len ends).
  { subst d. change (blen (body ++ sp_offsets (len body) (rev ends)) = len body + sp_fit_width (len body) (len ends) * len ends).
    rewrite blen_app. f_equal. change @blen with @len. unfold sp_offsets. rewrite nums_len, Er. lia. }
  unfold sp_struct_children. rewrite <- He. destruct (N.eq_dec (len ends) 0) as [E0|E0].
  - rewrite E0 in *. rewrite N.mul_0_r in *. replace (0 <=? len d) with true by lia. apply Hcut; [left; lia|].
    intros [|j] e H; destruct ends; try discriminate.
  - assert (Hw : sp_width (len d) = sp_fit_width (len body) (len ends)) by (rewrite Hd; apply fit_width_read; lia).
    rewrite Hw. remember (sp_fit_width (len body) (len ends)) as w.
    assert (Hw1 : 1 <= w <= 8) by (subst w; apply fit_width_pos).
    replace (w * len ends <=? len d) with true by lia. apply Hcut; [left; lia|].
    intros j e Hj. assert (j < length ends)%nat by (apply nth_error_Some; congruence).
    pose proof (nth_error_rev ends j e Hj) as Hr.
    pose proof (nums_sub (N.to_nat w) (rev ends) _ e Hr) as Hn.
    rewrite Heqd at 1. rewrite sub_app_r by (rewrite Hd; unfold len in *; nia).
    unfold sp_offsets. rewrite Er, <- Heqw.
    replace (len d - w * (0 + N.of_nat j + 1) - len body) with (N.of_nat (length ends - 1 - j) * N.of_nat (N.to_nat w))
      by (rewrite Hd; unfold len in *; nia).
    rewrite N2Nat.id in *. rewrite Hn. apply num_le_back. rewrite N2Nat.id.
    rewrite Forall_forall in Hb. apply nth_error_In in Hj. specialize (Hb e Hj).
    assert (len body < 256 ^ w) by (subst w; apply fit_width_range; lia). lia.
Qed.
Lemma lay_struct_fixed its : forall bodies pos, Forall2 (fun it b => len b = snd it) its bodies ->
  Forall (fun it => is_alignment (fst it)) its ->
  pos + len (fst (sp_lay_struct pos (map (fun it => (fst it, Some (snd it))) its) bodies)) = walk_end pos its.
Proof.
  induction its as [|[al s] its IH]; intros bodies pos HF HA.
  - inversion HF; subst. cbn. lia.
  - inversion HF as [|? b ? bodies' Hb HF']; subst. inversion HA; subst. cbn [map sp_lay_struct walk_end fst snd] in *.
    specialize (IH bodies' (pad_to al pos + len b) HF' ltac:(assumption)). rewrite Hb in *.
    destruct (sp_lay_struct _ _ bodies') as [rest ends]. cbn [fst] in *. pose proof (pad_to_ge al pos ltac:(assumption)).
    change @len with @blen in *; change nuls with zeros. rewrite !blen_app, blen_zeros. lia.
Qed.
Lemma struct_bytes_fixed its bodies n : Forall2 (fun it b => len b = snd it) its bodies ->
  Forall (fun it => is_alignment (fst it)) its -> walk_end 0 its <= n ->
  let items := map (fun it => (fst it, Some (snd it))) its in
  sp_struct_cut (sp_struct_bytes (Some n) items bodies) 0 n 0 0 items = map Some bodies /\
  len (sp_struct_bytes (Some n) items bodies) = n.
Proof.
  intros HF HA Hn items. pose proof (lay_struct_fixed its bodies 0 HF HA) as Hl.
  assert (HF' : Forall2 fits items bodies).
  { subst items. clear -HF. induction HF; cbn [map]; constructor; auto. }
  assert (HA' : Forall (fun it : N * option N => is_alignment (fst it)) items).
  { subst items. apply Forall_map. exact HA. }
  pose proof (lay_struct_cut items bodies HF' HA' []) as Hcut. cbv zeta in Hcut. change (len (@nil byte)) with 0 in Hcut.
  assert (He : snd (sp_lay_struct 0 items bodies) = []).
  { assert (G : forall its' bodies' pos, snd (sp_lay_struct pos (map (fun it : N * N => (fst it, Some (snd it))) its') bodies') = []).
    { induction its' as [|[al s] its' IH]; intros [|b bodies'] pos; cbn [map sp_lay_struct fst snd]; auto.
      specialize (IH bodies' (pad_to al pos + len b)). destruct (sp_lay_struct _ _ bodies') as [rest ends]. exact IH. }
    apply G. }
  fold items in Hl. unfold sp_struct_bytes. destruct (sp_lay_struct 0 items bodies) as [body ends].
  cbn [fst snd app] in *. rewrite N.add_0_l in *. subst ends. split.
  - apply Hcut; [|intros [|j] e H; discriminate]. right. split; [lia|]. subst items. apply Forall_map.
    apply Forall_forall. intros; discriminate.
  - change @len with @blen in *; change nuls with zeros. rewrite !blen_app, blen_zeros. lia.
Qed.

(** ** Values *)
Lemma typed_array x vs : sp_typed (TA x) (VArray vs) <-> Forall (sp_typed x) vs.
Proof.
  cbn [sp_typed]. induction vs as [|v vs IH]; [split; auto|]. rewrite IH. split.
  - intros []; constructor; auto.
  - intros H; inversion H; auto.
Qed.
Lemma typed_struct t v : is_struct t -> sp_typed t v -> exists vs, v = VTuple vs /\ Forall2 sp_typed (children_of t) vs.
Proof.
  intros Hs H. destruct t as [| | | | | | | | | | | | |x|x|ts|a b]; cbn [is_struct] in Hs; try tauto; destruct v as [| | | | | | |vs]; cbn [sp_typed] in H; try tauto;
    exists vs; (split; [reflexivity|]); cbn [children_of].
  - revert vs H. induction ts as [|t ts IH]; intros [|v vs] H; try contradiction; constructor; try tauto. now apply IH.
  - destruct vs as [|x [|y [|]]]; try contradiction. destruct H. repeat constructor; assumption.
Qed.
Definition enc_all (tail big : bool) (ts : list ty) (vs : list value) : list (list byte) :=
  map (fun p => sp_bytes tail big (fst p) (snd p)) (combine ts vs).
Lemma bytes_struct tail big t vs : is_struct t -> length vs = length (children_of t) ->
  sp_bytes tail big t (VTuple vs) = sp_struct_bytes (size_of t) (items_of (children_of t)) (enc_all tail big (children_of t) vs).
Proof.
  intros Hs Hl. destruct t as [| | | | | | | | | | | | |x|x|ts|a b]; cbn [is_struct] in Hs; try tauto; cbn [sp_bytes children_of] in *.
  - rewrite sp_size_of, sp_items_of. f_equal. unfold enc_all. clear. revert vs.
    induction ts as [|t ts IH]; intros [|v vs]; cbn [combine map]; try reflexivity. cbn [fst snd]. f_equal. apply IH.
  - destruct vs as [|x [|y [|]]]; cbn in Hl; try lia. rewrite sp_size_of, sp_items_of. reflexivity.
Qed.
Definition tails_all (big : bool) (ts : list ty) (vs : list value) : bool :=
  forallb (fun p => sp_tails big (fst p) (snd p)) (combine ts vs).
Lemma tails_struct big t vs : is_struct t -> length vs = length (children_of t) ->
  sp_tails big t (VTuple vs) = tails_all big (children_of t) vs.
Proof.
  intros Hs Hl. unfold tails_all.
  destruct t as [| | | | | | | | | | | | |x|x|ts|a b]; cbn [is_struct] in Hs; try tauto; cbn [sp_tails children_of] in *.
  - clear. revert vs. induction ts as [|t ts IH]; intros [|v vs]; cbn [combine forallb]; try reflexivity.
    cbn [fst snd]. f_equal. apply IH.
  - destruct vs as [|x [|y [|]]]; cbn in Hl; try lia. cbn [combine forallb fst snd]. now rewrite andb_true_r.
Qed.
Lemma sp_int_len big k z : len (sp_int big k z) = N.of_nat k.
Proof.
  unfold sp_int. change @len with @blen. destruct big; rewrite ?blen_rev; apply (blen_to_le k).
Qed.
Lemma bytes_fixed tail big t : forall n v, size_of t = Some n -> sp_typed t v -> len (sp_bytes tail big t v) = n.
Proof.
  induction t as [t Hns _|t Hs IH] using ty_struct_ind; intros n v Hn Ht.
  - destruct t; cbn [is_struct] in Hns; try tauto; cbn [size_of] in Hn; try discriminate; apply Some_inj in Hn as <-;
      destruct v; cbn [sp_typed] in Ht; try tauto; cbn [sp_bytes]; try apply sp_int_len; reflexivity.
  - destruct (typed_struct t v Hs Ht) as (vs & -> & HF). rewrite bytes_struct by (auto; symmetry; eapply Forall2_length; eauto).
    rewrite Hn. pose proof (fixed_children t n Hs Hn) as Hfix. pose proof (size_of_fixed_struct t n Hs Hn) as Hsz.
    assert (Ei : items_of (children_of t) = map (fun it => (fst it, Some (snd it))) (fixed_items (children_of t))).
    { unfold items_of, fixed_items. rewrite map_map. apply map_ext_in. intros c Hc. cbn [fst snd].
      rewrite Forall_forall in Hfix. specialize (Hfix c Hc). unfold is_fixed, size_or_0 in *. now destruct (size_of c). }
    rewrite Ei. apply struct_bytes_fixed.
    + unfold fixed_items, enc_all. clear -HF IH Hfix. induction HF as [|c v cs vs Hcv _ IHF]; cbn [map combine]; constructor.
      * cbn [fst snd]. inversion IH; inversion Hfix; subst. unfold size_or_0, is_fixed in *. destruct (size_of c) eqn:E; [|discriminate]. auto.
      * inversion IH; inversion Hfix; subst. auto.
    + unfold fixed_items. apply Forall_map. apply Forall_forall. intros. cbn. auto with al.
    + destruct (children_of t); [cbn; lia|]. rewrite Hsz. apply pad_to_ge. auto with al.
Qed.
Lemma Forall2_combine {A B} (R : A -> B -> Prop) l l' : Forall2 R l l' -> Forall (fun p => R (fst p) (snd p)) (combine l l').
Proof. induction 1; cbn [combine]; constructor; auto. Qed.
Lemma enc_fits tail big ts vs : Forall2 sp_typed ts vs -> Forall2 fits (items_of ts) (enc_all tail big ts vs).
Proof.
  unfold items_of, enc_all. induction 1 as [|t v ts vs H _ IH]; cbn [map combine]; constructor; auto.
  unfold fits. cbn [fst snd]. destruct (size_of t) eqn:E; [|exact I]. now apply bytes_fixed.
Qed.
(** Cutting an encoded structure gives its encoded members. *)
Lemma struct_bytes_cuts tail big t vs : is_struct t -> Forall2 sp_typed (children_of t) vs ->
  len (sp_bytes tail big t (VTuple vs)) < 2 ^ 64 ->
  struct_cuts t (sp_bytes tail big t (VTuple vs)) = map Some (enc_all tail big (children_of t) vs) /\
  size_good t (len (sp_bytes tail big t (VTuple vs))).
Proof.
  intros Hs HF Hl. rewrite bytes_struct in * by (auto; symmetry; eapply Forall2_length; eauto).
  unfold struct_cuts. destruct (size_of t) as [n|] eqn:Hn.
  - pose proof (fixed_children t n Hs Hn) as Hfix. pose proof (size_of_fixed_struct t n Hs Hn) as Hsz.
    assert (Ei : items_of (children_of t) = map (fun it => (fst it, Some (snd it))) (fixed_items (children_of t))).
    { unfold items_of, fixed_items. rewrite map_map. apply map_ext_in. intros c Hc. cbn [fst snd].
      rewrite Forall_forall in Hfix. specialize (Hfix c Hc). unfold is_fixed, size_or_0 in *. now destruct (size_of c). }
    rewrite Ei. unfold size_good. rewrite Hn. apply struct_bytes_fixed.
    + unfold fixed_items, enc_all. clear -HF Hfix. induction HF as [|c v cs vs Hcv _ IHF]; cbn [map combine]; constructor.
      * cbn [fst snd]. inversion Hfix; subst. unfold size_or_0, is_fixed in *. destruct (size_of c) eqn:E; [|discriminate].
        now apply bytes_fixed.
      * inversion Hfix; subst. auto.
    + unfold fixed_items. apply Forall_map. apply Forall_forall. intros. cbn. auto with al.
    + destruct (children_of t); [cbn; lia|]. rewrite Hsz. apply pad_to_ge. auto with al.
  - split; [|unfold size_good; rewrite Hn; destruct t; cbn in Hs; tauto].
    apply struct_bytes_var; auto; [now apply enc_fits|]. apply items_of_alignment.
Qed.

(** A part of an encoding is no longer than the whole. *)
Lemma lay_len al bodies b : is_alignment al -> forall pos, In b bodies -> len b <= len (fst (sp_lay al pos bodies)).
Proof.
  intros Ha. induction bodies as [|c r IH]; intros pos H; [contradiction|]. cbn [sp_lay].
  specialize (IH (pad_to al pos + len c)). destruct (sp_lay al _ r) as [rest ends]. cbn [fst] in *.
  change @len with @blen in *; change nuls with zeros. rewrite !blen_app. destruct H as [->|H]; [lia|]. specialize (IH H). lia.
Qed.
Lemma array_bytes_len tail al bodies b : is_alignment al -> In b bodies -> len b <= len (sp_array_bytes tail al bodies).
Proof.
  intros Ha H. pose proof (lay_len al bodies b Ha 0 H) as Hl. unfold sp_array_bytes.
  destruct (sp_lay al 0 bodies) as [body ends]. cbn [fst] in Hl.
  change @len with @blen in *. destruct tail; rewrite !blen_app; lia.
Qed.
Lemma concat_len (bodies : list (list byte)) b : In b bodies -> len b <= len (concat bodies).
Proof.
  induction bodies as [|c r IH]; intros H; [contradiction|]. cbn [concat]. change @len with @blen in *. rewrite blen_app.
  destruct H as [->|H]; [lia|]. specialize (IH H). lia.
Qed.
Lemma lay_struct_len items b : forall bodies pos, length items = length bodies -> In b bodies ->
  len b <= len (fst (sp_lay_struct pos items bodies)).
Proof.
  induction items as [|[al size] items IH]; intros [|c bodies] pos Hl H; try discriminate; [contradiction|].
  cbn [sp_lay_struct]. specialize (IH bodies (pad_to al pos + len c) ltac:(cbn in Hl; lia)).
  destruct (sp_lay_struct _ items bodies) as [rest ends]. cbn [fst] in *.
  change @len with @blen in *; change nuls with zeros. rewrite !blen_app. destruct H as [->|H]; [lia|]. specialize (IH H). lia.
Qed.
Lemma struct_bytes_len own items bodies b : length items = length bodies -> In b bodies ->
  len b <= len (sp_struct_bytes own items bodies).
Proof.
  intros Hl H. pose proof (lay_struct_len items b bodies 0 Hl H) as Hb. unfold sp_struct_bytes.
  destruct (sp_lay_struct 0 items bodies) as [body ends]. cbn [fst] in Hb.
  change @len with @blen in *. destruct own; rewrite !blen_app; lia.
Qed.

(** ** Numbers and strings *)
Lemma int_back big k z : (0 <= z < 2 ^ (8 * Z.of_nat k))%Z -> sp_num big (sp_int big k z) = Z.to_N z.
Proof.
  intros Hz. unfold sp_int, sp_num. rewrite Z.mod_small by assumption.
  assert (E : le_num (num_le k (Z.to_N z)) = Z.to_N z).
  { apply num_le_back. rewrite <- (N2Z.id (256 ^ N.of_nat k)). apply Z2N.inj_lt; [lia|lia|].
    rewrite N2Z.inj_pow. rewrite nat_N_Z. change (Z.of_N 256) with (2 ^ 8)%Z. rewrite <- Z.pow_mul_r by lia. lia. }
  destruct big; rewrite ?rev_involutive; exact E.
Qed.
Lemma int_mod big k z : sp_int big k z = sp_int big k (z mod 2 ^ (8 * Z.of_nat k)).
Proof. unfold sp_int. now rewrite Z.mod_mod by (apply Z.pow_nonzero; lia). Qed.
Lemma int_signed big k z : (0 < k)%nat -> (- 2 ^ (8 * Z.of_nat k - 1) <= z < 2 ^ (8 * Z.of_nat k - 1))%Z ->
  sp_signed (8 * N.of_nat k) (sp_num big (sp_int big k z)) = z.
Proof.
  intros Hk Hz. rewrite int_mod.
  assert (E2 : (2 ^ (8 * Z.of_nat k) = 2 * 2 ^ (8 * Z.of_nat k - 1))%Z).
  { rewrite <- Z.pow_succ_r by lia. f_equal. lia. }
  assert (Hp : (0 < 2 ^ (8 * Z.of_nat k - 1))%Z) by (apply Z.pow_pos_nonneg; lia).
  rewrite int_back by (apply Z.mod_pos_bound; lia). unfold sp_signed.
  assert (E3 : Z.of_N (2 ^ (8 * N.of_nat k - 1)) = (2 ^ (8 * Z.of_nat k - 1))%Z) by (rewrite N2Z.inj_pow; f_equal; lia).
  assert (E4 : (2 ^ Z.of_N (8 * N.of_nat k))%Z = (2 ^ (8 * Z.of_nat k))%Z) by (f_equal; lia).
  rewrite E4. remember (2 ^ (8 * Z.of_nat k - 1))%Z as Q. rewrite E2.
  destruct (Z_lt_dec z 0).
  - rewrite <- (Z.mod_unique_pos z (2 * Q) (-1) (z + 2 * Q)) by lia.
    replace (Z.to_N (z + 2 * Q) <? 2 ^ (8 * N.of_nat k - 1)) with false by lia. lia.
  - rewrite Z.mod_small by lia. replace (Z.to_N z <? 2 ^ (8 * N.of_nat k - 1)) with true by lia. lia.
Qed.
Lemma string_back s : good_string s -> sp_string (s ++ [x00]) = s.
Proof.
  intros [H1 H2]. unfold sp_string. destruct (s ++ [x00]) eqn:E; [destruct s; discriminate|]. rewrite <- E.
  rewrite removelast_last, last_last. replace (Byte.eqb x00 x00) with true by reflexivity. cbn [andb].
  apply sp_utf8_ok in H1. rewrite H1. cbn [andb]. unfold sp_nul_free. destruct (in_dec _ _ s); [contradiction|reflexivity].
Qed.
Lemma split_back data ts : ~ In x00 ts -> sp_split_last (data ++ x00 :: ts) = Some (data, ts).
Proof.
  intros H. induction data as [|b data IH]; cbn [app sp_split_last].
  - pose proof (sp_split_last_spec ts) as G. destruct (sp_split_last ts) as [[a b]|]; [|reflexivity].
    destruct G as [-> _]. exfalso. apply H. apply in_or_app. right. now left.
  - now rewrite IH.
Qed.
