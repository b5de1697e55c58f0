(** C21 to C27, C52 to C56: serialising. *)
From Verif Require Import Base Types Layout AlignedBytes Strs Spec Deser Ser Histories SerSpec
  BaseFacts TypesFacts LayoutFacts AlignedFacts Utf8Facts DeserFacts ArrayFacts StructFacts ReadFacts AccessFacts ReadClaims EncFacts RoundFacts SerFacts SerStruct SerMain ViewFacts WrapFacts PadFacts LongSpec LongFacts.
From Coq Require Import Lia ZifyBool ZifyNat ZifyN.
Ltac Zify.zify_post_hook ::= Z.div_mod_to_equations.

Lemma writes_deliver {A} (m : M sink A) d r budget : writes m d r -> m (Sink [] budget) = sp_deliver budget d r.
Proof. intros H. rewrite H. cbn [k_out k_left app]. destruct budget; reflexivity. Qed.

Lemma ser_claim h t r budget : usable t -> rtyped t r -> no_nuls t r ->
  len (sp_written (h_big_endian h) t (rvalue true (h_big_endian h) t r)) < 2 ^ 63 ->
  serialize h t r budget =
    sp_deliver budget (sp_written (h_big_endian h) t (rvalue true (h_big_endian h) t r))
      (SOk (len (sp_written (h_big_endian h) t (rvalue true (h_big_endian h) t r)))).
Proof.
  intros [Hm _] Ht Hn Hl. apply writes_deliver.
  pose proof (ser_exact (fun _ => True) h r t Hm Ht (fun _ _ => I) Hl) as H. cbv zeta in H.
  apply rgood_iff in Hn. rewrite Hn in H. exact H.
Qed.
Lemma nul_claim h t r : usable t -> rtyped t r -> ~ no_nuls t r ->
  len (sp_written (h_big_endian h) t (rvalue true (h_big_endian h) t r)) < 2 ^ 63 ->
  exists s before after, In s (rstrings t r) /\ In x00 s /\
    sp_written (h_big_endian h) t (rvalue true (h_big_endian h) t r) = before ++ s ++ [x00] ++ after /\
    forall budget, serialize h t r budget = sp_deliver budget before (SErr EInvalidInput).
Proof.
  intros [Hm _] Ht Hn Hl.
  pose proof (ser_exact (fun s => In s (rstrings t r)) h r t Hm Ht (fun _ H => H) Hl) as H. cbv zeta in H.
  destruct (rgood t r) eqn:E; [exfalso; apply Hn; now apply rgood_iff|].
  destruct H as (d1 & s & d2 & H1 & H2 & H3 & H4). exists s, d1, d2. repeat split; auto.
  intros budget. now apply writes_deliver.
Qed.
Lemma deliver_full h t r : usable t -> rtyped t r ->
  len (sp_written (h_big_endian h) t (rvalue true (h_big_endian h) t r)) < 2 ^ 63 ->
  exists d e, (e = SOk (len d) \/ e = SErr EInvalidInput /\ ~ no_nuls t r) /\ forall budget, serialize h t r budget = sp_deliver budget d e.
Proof.
  intros Hu Ht Hl. destruct (rgood t r) eqn:E.
  - apply rgood_iff in E. do 2 eexists. split; [left; reflexivity|]. intros. now apply ser_claim.
  - assert (Hn : ~ no_nuls t r) by (intros H; apply rgood_iff in H; congruence).
    destruct (nul_claim h t r Hu Ht Hn Hl) as (s & d1 & d2 & _ & _ & _ & H). exists d1, (SErr EInvalidInput). auto.
Qed.
(** Counting, never panicking, and prefixes. *)
Lemma count_claim h t r budget n : usable t -> rtyped t r ->
  len (sp_written (h_big_endian h) t (rvalue true (h_big_endian h) t r)) < 2 ^ 63 ->
  snd (serialize h t r budget) = SOk n -> n = len (sp_output (serialize h t r budget)).
Proof.
  intros Hu Ht Hl. destruct (deliver_full h t r Hu Ht Hl) as (d & e & He & H). rewrite H. unfold sp_deliver, sp_output.
  destruct budget as [m|]; [destruct (len d <=? m)|]; cbn [fst snd k_out]; try discriminate;
    destruct He as [->|[-> _]]; congruence.
Qed.
Lemma prefix_claim h t r m : usable t -> rtyped t r ->
  len (sp_written (h_big_endian h) t (rvalue true (h_big_endian h) t r)) < 2 ^ 63 ->
  let full := serialize h t r None in
  let short := serialize h t r (Some m) in
  sp_output short = firstn (N.to_nat m) (sp_output full) /\
  snd short = if len (sp_output full) <=? m then snd full else SErr EIo.
Proof.
  intros Hu Ht Hl. destruct (deliver_full h t r Hu Ht Hl) as (d & e & He & H). cbv zeta. rewrite !H. unfold sp_deliver, sp_output.
  cbn [fst snd k_out]. destruct (len d <=? m) eqn:E; cbn [fst snd k_out]; [|auto].
  split; [|reflexivity]. rewrite firstn_all2; [reflexivity|]. unfold len in E. lia.
Qed.
Lemma no_crash_claim h t r budget c : usable t -> rtyped t r ->
  len (sp_written (h_big_endian h) t (rvalue true (h_big_endian h) t r)) < 2 ^ 63 ->
  snd (serialize h t r budget) <> SCrash c.
Proof.
  intros Hu Ht Hl. destruct (deliver_full h t r Hu Ht Hl) as (d & e & He & H). rewrite H. unfold sp_deliver.
  destruct budget as [m|]; [destruct (len d <=? m)|]; cbn [snd]; try discriminate; destruct He as [->|[-> _]]; discriminate.
Qed.

(** ** Normal form *)
Lemma normal_claim h t r : usable t -> rtyped t r -> no_nuls t r ->
  len (sp_written (h_big_endian h) t (rvalue true (h_big_endian h) t r)) < 2 ^ 63 ->
  (sp_output (serialize h t r None) = sp_encode (h_big_endian h) t (rvalue false (h_big_endian h) t r) <->
   rtails (h_big_endian h) t r).
Proof.
  intros Hu Ht Hn Hl. rewrite ser_claim by assumption. apply written_rtails; auto. lia.
Qed.
Lemma round_claim h t r a : usable t -> rtyped t r -> no_nuls t r -> a mod sp_align t = 0 ->
  len (sp_written (h_big_endian h) t (rvalue true (h_big_endian h) t r)) < 2 ^ 63 ->
  (decode h t (Slice a (sp_output (serialize h t r None))) = Ok (rvalue false (h_big_endian h) t r) <->
   rtails (h_big_endian h) t r).
Proof.
  intros Hu Ht Hn Ha Hl. rewrite ser_claim by (auto; lia). unfold sp_deliver, sp_output. cbn [fst k_out]. split.
  - intros E. apply decode_loosely in E; auto. apply loosely_rtails; auto. lia.
  - intros HT. rewrite (rtails_written _ t r) in * by assumption. apply encode_claim; auto. now apply rvalue_typed.
Qed.
Lemma same_bytes_claim big t v w : sp_typed t v -> sp_typed t w -> len (sp_encode big t v) < 2 ^ 64 ->
  sp_encode big t v = sp_encode big t w -> v = w.
Proof.
  intros Hv Hw Hl E. destruct (encode_back big t v Hv Hl) as (H1 & _). rewrite E in *.
  destruct (encode_back big t w Hw Hl) as (H2 & _). congruence.
Qed.

Lemma unpadded_claim h t r : usable t -> rtyped t r -> no_nuls t r -> sp_unpadded t = true ->
  (forall u, In u (rwrapped r) -> sp_unpadded u = true) ->
  let big := h_big_endian h in
  let d := sp_encode big t (rvalue false big t r) in
  (len d < 2 ^ 63 -> forall budget, serialize h t r budget = sp_deliver budget d (SOk (len d))) /\
  (len d < 2 ^ 63 -> forall a, a mod sp_align t = 0 -> decode h t (Slice a d) = Ok (rvalue false big t r)).
Proof.
  cbv zeta. intros Hu Ht Hn HU HW. pose proof (unpadded_rtails (h_big_endian h) r t Ht Hn HU HW) as HT. split.
  - intros Hl budget. rewrite <- (rtails_written _ t r) in * by assumption. now apply ser_claim.
  - intros Hl a Ha. apply encode_claim; auto. now apply rvalue_typed.
Qed.
(** ** Views *)
Lemma view_claim h t s v : usable t -> aligned (sp_align t) s -> len (s_data s) < 2 ^ 63 -> decode h t s = Ok v ->
  exists r, (let* q := cast h t s in view_rval h t q) = Ok r /\ rtyped t r /\ rstrings t r = [] /\
    forall tail, rvalue tail (h_big_endian h) t r = v.
Proof.
  intros Hu Ha Hl HD. unfold decode in HD.
  pose proof (proj1 (usable_readable t) Hu) as Hrd. rewrite sp_align_of in Ha.
  destruct (cast_ok h t s (proj1 Hrd) Ha) as (q & Ec & Hq & _ & Hwhere). rewrite Ec in *. cbn [bind] in *.
  assert (Hsh : short t q).
  { destruct Hwhere as [->|[_ Hd]].
    - right. unfold slen. change @len with @blen in *. lia.
    - unfold short. destruct (is_fixed t) eqn:Ef; [now left|]. right. unfold slen. rewrite Hd. unfold default_bytes.
      unfold is_fixed in Ef. destruct (size_of t); [discriminate|]. cbn. lia. }
  pose proof (view_means h t Hrd q Hq Hsh) as HM. rewrite HD in HM.
  destruct (view_rval h t q) as [r|c]; [|contradiction]. destruct HM as (H1 & H2 & H3). exists r. auto.
Qed.
Lemma reserialize_claim h t s v budget : usable t -> aligned (sp_align t) s -> len (s_data s) < 2 ^ 63 ->
  decode h t s = Ok v ->
  let d := sp_written (h_big_endian h) t v in
  len d < 2 ^ 63 -> reserialize h t s budget = sp_deliver budget d (SOk (len d)).
Proof.
  cbv zeta. intros Hu Ha Hl HD Hw. destruct (view_claim h t s v Hu Ha Hl HD) as (r & E & Ht & Hs & Hv).
  unfold reserialize. rewrite E. rewrite <- (Hv true) in *. apply ser_claim; auto. intros x Hx. rewrite Hs in Hx. contradiction.
Qed.
Lemma decode_typed h t s v : usable t -> aligned (sp_align t) s -> len (s_data s) < 2 ^ 63 -> decode h t s = Ok v ->
  sp_typed t v.
Proof.
  intros Hu Ha Hl HD. destruct (view_claim h t s v Hu Ha Hl HD) as (r & E & Ht & Hs & Hv). rewrite <- (Hv false).
  apply rvalue_typed; auto. intros x Hx. rewrite Hs in Hx. contradiction.
Qed.
Lemma unpadded_again_claim h t s v : usable t -> aligned (sp_align t) s -> len (s_data s) < 2 ^ 63 -> sp_unpadded t = true ->
  decode h t s = Ok v ->
  let d := sp_encode (h_big_endian h) t v in
  len d < 2 ^ 63 -> forall budget, reserialize h t s budget = sp_deliver budget d (SOk (len d)).
Proof.
  cbv zeta. intros Hu Ha Hl HU HD Hw budget. pose proof (decode_typed h t s v Hu Ha Hl HD) as HT.
  pose proof (tails_same (h_big_endian h) t _ HT (unpadded_tails _ t _ HT HU)) as E. rewrite <- E in *. now apply reserialize_claim.
Qed.
Lemma again_claim h t s v a : usable t -> aligned (sp_align t) s -> len (s_data s) < 2 ^ 63 -> a mod sp_align t = 0 ->
  decode h t s = Ok v ->
  let big := h_big_endian h in
  len (sp_written big t v) < 2 ^ 63 ->
  (decode h t (Slice a (sp_output (reserialize h t s None))) = Ok v <-> sp_tails big t v = true).
Proof.
  cbv zeta. intros Hu Ha Hl Ha' HD Hw. rewrite (reserialize_claim h t s v) by (auto; lia). unfold sp_deliver, sp_output. cbn [fst k_out].
  pose proof (decode_typed h t s v Hu Ha Hl HD) as HT. split.
  - intros E. apply decode_loosely in E; auto. apply (written_loosely _ t v HT); [lia|exact E].
  - intros Ht. rewrite (tails_same _ t v HT Ht) in *. now apply encode_claim.
Qed.
Lemma keep_claim h t v a : usable t -> sp_typed t v -> a mod sp_align t = 0 ->
  let big := h_big_endian h in
  len (sp_encode big t v) < 2 ^ 63 -> len (sp_written big t v) < 2 ^ 63 ->
  (sp_output (reserialize h t (Slice a (sp_encode big t v)) None) = sp_encode big t v <-> sp_tails big t v = true).
Proof.
  cbv zeta. intros Hu Hv Ha Hl Hw.
  rewrite (reserialize_claim h t _ v); cbn [s_data]; auto; try lia.
  - unfold sp_deliver, sp_output. cbn [fst k_out]. apply written_normal_iff; auto. lia.
  - now apply encode_claim.
Qed.

(** ** Strings *)
Definition stringy (t : ty) : Prop := t = TS \/ t = TO \/ t = TG.
Lemma nul_string_claim h t s budget : stringy t -> In x00 s ->
  serialize h t (RStr s) budget = (Sink [] budget, SErr EInvalidInput).
Proof.
  intros Hs H. apply has_nul_in in H. destruct Hs as [->|[->| ->]]; unfold serialize; cbn [ser]; rewrite H; reflexivity.
Qed.
Lemma string_claim h t s budget : stringy t -> is_utf8 s -> ~ In x00 s -> len s < 2 ^ 62 ->
  serialize h t (RStr s) budget = sp_deliver budget (s ++ [x00]) (SOk (len s + 1)).
Proof.
  intros Hs Hu Hn Hl.
  assert (E : sp_written (h_big_endian h) t (rvalue true (h_big_endian h) t (RStr s)) = s ++ [x00])
    by (destruct Hs as [->|[->| ->]]; reflexivity).
  assert (El : len (s ++ [x00]) = len s + 1) by (change @len with @blen; rewrite blen_app; reflexivity).
  rewrite ser_claim; rewrite ?E, ?El; auto; try lia.
  - destruct Hs as [->|[->| ->]]; split; reflexivity.
  - destruct Hs as [->|[->| ->]]; exact Hu.
  - intros x Hx. assert (Hx' : In x [s]) by (destruct Hs as [->|[->| ->]]; exact Hx). destruct Hx' as [<-|[]]. exact Hn.
Qed.
Lemma str_view_claim h t d budget : stringy t -> len d < 2 ^ 62 ->
  serialize h t (RStrView d) budget = sp_deliver budget (sp_string d ++ [x00]) (SOk (len (sp_string d) + 1)).
Proof.
  intros Hs Hl.
  assert (E : sp_written (h_big_endian h) t (rvalue true (h_big_endian h) t (RStrView d)) = sp_string d ++ [x00])
    by (destruct Hs as [->|[->| ->]]; reflexivity).
  assert (El : len (sp_string d ++ [x00]) = len (sp_string d) + 1) by (change @len with @blen; rewrite blen_app; reflexivity).
  assert (Hd : len (sp_string d) <= len d).
  { unfold sp_string. destruct d as [|b d]; [cbn; lia|]. cbv zeta. rewrite removelast_firstn_len.
    destruct (_ && _ && _); unfold len; rewrite ?firstn_length; cbn [length]; lia. }
  rewrite ser_claim; rewrite ?E, ?El; auto; try lia.
  - destruct Hs as [->|[->| ->]]; split; reflexivity.
  - destruct Hs as [->|[->| ->]]; exact I.
  - intros x Hx. assert (Hx' : In x []) by (destruct Hs as [->|[->| ->]]; exact Hx). destruct Hx'.
Qed.
Lemma string_back_claim h t s a : stringy t -> is_utf8 s -> ~ In x00 s ->
  decode h t (Slice a (s ++ [x00])) = Ok (VStr s).
Proof.
  intros Hs Hu Hn. assert (G : decode h t (Slice a (s ++ [x00])) = Ok (VStr (to_str (s ++ [x00]))))
    by (destruct Hs as [->|[->| ->]]; reflexivity).
  rewrite G, to_str_spec, string_back; [reflexivity|]. now split.
Qed.

(** ** Wrapped variants *)
Lemma wrap_claim h u r a : usable u -> rtyped u r -> no_nuls u r -> a mod 8 = 0 ->
  let big := h_big_endian h in
  let inner := sp_written big u (rvalue true big u r) in
  len inner + 1 + len (sp_show u) < 2 ^ 63 ->
  let s := Slice a (sp_output (serialize h TV (RWrap u r) None)) in
  s_data s = inner ++ [x00] ++ sp_show u /\
  exists ts dat, variant_split h s = Ok (ts, dat) /\ s_data ts = sp_show u /\ s_data dat = inner /\ aligned 8 dat.
Proof.
  cbv zeta. intros Hu Ht Hn Ha Hl. set (inner := sp_written _ u _) in *.
  assert (E : sp_written (h_big_endian h) TV (rvalue true (h_big_endian h) TV (RWrap u r)) = inner ++ [x00] ++ sp_show u) by reflexivity.
  rewrite ser_claim; auto; [|split; reflexivity|split; assumption|].
  2:{ rewrite E. change @len with @blen in *. rewrite !blen_app. change (blen [x00]) with 1. lia. }
  rewrite E. unfold sp_deliver, sp_output. cbn [fst k_out s_data]. split; [reflexivity|].
  destruct (variant_split_ok h (Slice a (inner ++ [x00] ++ sp_show u)) Ha) as (ts & dat & Es & Hda & Hv & _).
  exists ts, dat. split; [exact Es|]. cbn [s_data] in Hv. unfold sp_variant in Hv.
  change (inner ++ [x00] ++ sp_show u) with (inner ++ x00 :: sp_show u) in Hv.
  rewrite (split_back inner (sp_show u) (show_nul u)) in Hv. inversion Hv. auto.
Qed.
Lemma wrap_get_claim h u r a x : usable u -> usable x -> rtyped u r -> no_nuls u r -> a mod 8 = 0 ->
  let big := h_big_endian h in
  let inner := sp_written big u (rvalue true big u r) in
  len inner + 1 + len (sp_show u) < 2 ^ 63 ->
  let s := Slice a (sp_output (serialize h TV (RWrap u r) None)) in
  (x <> u -> variant_get h x s = Ok None) /\
  exists q, variant_get h u s = Ok (Some q) /\
    (read h u q = Ok (rvalue false big u r) <-> rtails big u r).
Proof.
  cbv zeta. intros Hu Hx Ht Hn Ha Hl. set (inner := sp_written _ u _) in *.
  destruct (wrap_claim h u r a Hu Ht Hn Ha) as (_ & ts & dat & Es & E1 & E2 & Hda).
  { exact Hl. }
  set (s := Slice a _) in *.
  split.
  - intros Hne. destruct (get_claim h x s Hx Ha) as (ts' & dat' & o & Es' & Eg & G1 & _).
    rewrite Es in Es'. inversion Es'; subst ts' dat'. rewrite Eg, G1; [reflexivity|].
    rewrite E1. rewrite <- !display_show. intros H. apply Hne. symmetry. now apply display_inj.
  - destruct (get_claim h u s Hu Ha) as (ts' & dat' & o & Es' & Eg & _ & G2).
    rewrite Es in Es'. inversion Es'; subst ts' dat'. destruct (G2 E1) as (q & -> & Ec).
    exists q. split; [exact Eg|].
    assert (HD : decode h u dat = read h u q) by (unfold decode; now rewrite Ec).
    rewrite <- HD. assert (Hal : aligned (sp_align u) dat).
    { rewrite sp_align_of. apply (aligned_le _ 8); auto with al; [right; right; right; reflexivity|].
      pose proof (align_of_alignment u) as HA; destruct HA as [->|[->|[->| ->]]]; lia. }
    split.
    + intros E. apply decode_loosely in E; [|assumption|assumption|rewrite E2; fold inner; lia]. rewrite E2 in E.
      apply loosely_rtails; auto. fold inner. lia.
    + intros HT. unfold inner in *. rewrite (rtails_written _ u r) in * by assumption.
      destruct dat as [da dd]. cbn [s_data] in E2. subst dd. apply encode_claim; auto; [now apply rvalue_typed|lia].
Qed.

Ltac rt := cbn [rtyped]; unfold usable; repeat split; first [exact I | apply sp_utf8_ok; reflexivity | discriminate | reflexivity].
(** ** The witness against normal form and round trips: one element of [a(si)] *)
Definition si_array : ty := TA (TTuple [TS; TI]).
Definition si_value : rval := RList [RTuple [RStr (bs "a"); RInt 1]].
Definition si_host : host := Host false true true 0 0.
Lemma si_good : usable si_array /\ rtyped si_array si_value /\ no_nuls si_array si_value /\
  len (sp_written false si_array (rvalue true false si_array si_value)) < 2 ^ 32.
Proof.
  split; [split; reflexivity|]. split; [|split; [|reflexivity]].
  - unfold si_array, si_value. rt.
  - intros s [<-|[]] [H|[]]. discriminate.
Qed.
Lemma normal_refuted : exists (h : host) (t : ty) (r : rval), usable t /\ rtyped t r /\ no_nuls t r /\
  snd (serialize h t r None) = SOk (len (sp_output (serialize h t r None))) /\
  sp_output (serialize h t r None) <> sp_encode (h_big_endian h) t (rvalue false (h_big_endian h) t r).
Proof.
  exists si_host, si_array, si_value. destruct si_good as (H1 & H2 & H3 & _). repeat (split; [assumption|]).
  split; [reflexivity|]. vm_compute. discriminate.
Qed.
Lemma round_refuted : exists (h : host) (t : ty) (r : rval), usable t /\ rtyped t r /\ no_nuls t r /\
  forall a, a mod sp_align t = 0 ->
    decode h t (Slice a (sp_output (serialize h t r None))) <> Ok (rvalue false (h_big_endian h) t r).
Proof.
  exists si_host, si_array, si_value. destruct si_good as (H1 & H2 & H3 & H4). repeat (split; [assumption|]).
  intros a Ha E. apply round_claim in E; auto. apply rtails_inner in E as [E _]. discriminate.
Qed.
Lemma again_refuted : exists (h : host) (t : ty) (s : slice) (v : value),
  usable t /\ aligned (sp_align t) s /\ decode h t s = Ok v /\
  s_data s = sp_encode (h_big_endian h) t v /\
  snd (reserialize h t s None) = SOk (len (sp_output (reserialize h t s None))) /\
  sp_output (reserialize h t s None) <> s_data s /\
  decode h t (Slice (s_addr s) (sp_output (reserialize h t s None))) <> Ok v.
Proof.
  exists si_host, si_array, (Slice 8 (sp_encode false si_array (rvalue false false si_array si_value))), (rvalue false false si_array si_value).
  split; [split; reflexivity|]. split; [reflexivity|]. split; [vm_compute; reflexivity|]. split; [reflexivity|].
  split; [reflexivity|]. split; vm_compute; discriminate.
Qed.
Lemma wrap_refuted : exists (h : host) (u : ty) (r : rval) (s q : slice), usable u /\ rtyped u r /\ no_nuls u r /\
  s = Slice 8 (sp_output (serialize h TV (RWrap u r) None)) /\
  variant_get h u s = Ok (Some q) /\ read h u q <> Ok (rvalue false (h_big_endian h) u r).
Proof.
  exists si_host, si_array, si_value. do 2 eexists. destruct si_good as (H1 & H2 & H3 & _). repeat (split; [assumption|]).
  split; [reflexivity|]. split; [vm_compute; reflexivity|]. vm_compute. discriminate.
Qed.
