(** No smaller alignment is enough for all values of a type: proofs. *)
From Verif Require Import Base Types Layout AlignedBytes Spec Deser Histories NeedSpec LooseSpec SizeSpec
  BaseFacts TypesFacts LayoutFacts ReadFacts AccessFacts EncFacts RoundFacts SizeFacts NeedFacts WrittenFacts.
From Coq Require Import Lia ZifyBool ZifyNat ZifyN.
Ltac Zify.zify_post_hook ::= idtac.
Local Open Scope N_scope.

(** The value with one element in every array and in every maybe. *)
Fixpoint full (t : ty) : value :=
  match t with
  | TB => VBool false
  | TD => VDouble 0
  | TS | TO | TG => VStr []
  | TV => VVariant [] []
  | TA x => VArray [full x]
  | TM x => VMaybe (Some (full x))
  | TTuple ts => VTuple (map full ts)
  | TDict k v => VTuple [full k; full v]
  | _ => VInt 0
  end.
Lemma full_struct t : is_struct t -> full t = VTuple (map full (children_of t)).
Proof. destruct t; cbn [is_struct]; tauto || reflexivity. Qed.
Lemma typed_of_struct t vs : is_struct t -> Forall2 sp_typed (children_of t) vs -> sp_typed t (VTuple vs).
Proof.
  destruct t as [| | | | | | | | | | | | |x|x|ts|a b]; cbn [is_struct]; try tauto; intros _ H; cbn [children_of sp_typed] in *.
  - induction H; auto.
  - inversion H as [|? x ? l H1 H2]; subst. inversion H2 as [|? y ? l' H3 H4]; subst. inversion H4; subst. auto.
Qed.
Lemma full_typed t : sp_typed t (full t).
Proof.
  induction t as [t Hns IH|t Hs IH] using ty_struct_ind.
  - destruct t as [| | | | | | | | | | | | |x|x|ts|a b]; cbn [is_struct] in Hns; try tauto; cbn [full sp_typed]; try lia;
      try (split; [apply Utf8Facts.sp_utf8_ok; reflexivity|intros []]); try (intros []); try exact I; auto.
  - rewrite full_struct by assumption. apply typed_of_struct; [assumption|]. induction IH; cbn [map]; constructor; auto.
Qed.
Lemma full_weight t : sp_weight (full t) <= type_len t.
Proof.
  induction t as [t Hns IH|t Hs IH] using ty_struct_ind.
  - pose proof (type_len_pos t). destruct t as [| | | | | | | | | | | | |x|x|ts|a b]; cbn [is_struct] in Hns; try tauto; cbn [full sp_weight fold_right]; try (cbn; lia).
    + rewrite (type_len_parts (TA x) x) by auto. specialize (IH x (or_introl eq_refl)). lia.
    + rewrite (type_len_parts (TM x) x) by auto. specialize (IH x (or_intror eq_refl)). lia.
  - rewrite full_struct by assumption. pose proof (children_len t Hs) as HL. cbn [sp_weight]. fold (wsum (map full (children_of t))).
    assert (H : wsum (map full (children_of t)) <= blen (concat (map display (children_of t)))); [|lia].
    clear HL. induction IH as [|c cs Hc _ IHc]; cbn [map concat]; [cbn; lia|]. rewrite blen_app. unfold type_len in Hc. cbn [wsum fold_right]. fold (wsum (map full cs)). lia.
Qed.
Lemma needs_fixed t n b : size_of t = Some n -> len b = n -> sp_needs t (Some b) = align_of t.
Proof.
  intros En Hb. replace (sp_needs t (Some b)) with (if len b =? n then sp_align t else 1) by (destruct t; cbn [sp_needs]; rewrite sp_size_of, En; reflexivity).
  rewrite Hb, N.eqb_refl. apply sp_align_of.
Qed.
Lemma could_pos t : 1 <= sp_could_need t.
Proof. pose proof (could_alignment t) as HA. destruct HA as [->|[->|[->| ->]]]; lia. Qed.
Lemma needs_full big t : len (sp_bytes false big t (full t)) < 2 ^ 63 -> sp_needs t (Some (sp_bytes false big t (full t))) = sp_could_need t.
Proof.
  induction t as [t Hns IH|t Hs IH] using ty_struct_ind; intros Hl;
    (destruct (size_of t) as [n|] eqn:En; [rewrite (could_fixed t n En); apply (needs_fixed t n); [exact En|]; apply (bytes_fixed false big t); [exact En|apply full_typed]|]).
  - destruct t as [| | | | | | | | | | | | |x|x|ts|a b]; cbn [is_struct] in Hns; try tauto; try discriminate En; try reflexivity.
    + specialize (IH x (or_introl eq_refl)). pose proof (full_typed x) as Hx. pose proof (could_pos x) as Hp.
      change (sp_needs (TA x) (Some (sp_bytes false big (TA x) (full (TA x))))) with
        (match sp_size x with
         | Some n => if len (sp_bytes false big (TA x) (full (TA x))) mod n =? 0 then sp_align x else 1
         | None => sp_most (map (sp_needs x) (sp_array_children (sp_align x) (sp_bytes false big (TA x) (full (TA x))))) end).
      change (sp_could_need (TA x)) with (sp_could_need x). cbn [full] in *.
      cbn [sp_bytes map] in *. rewrite sp_fixed_of, sp_size_of in *. unfold is_fixed in *.
      destruct (size_of x) as [n|] eqn:Ex.
      * rewrite (could_fixed x n Ex). cbn [concat]. rewrite app_nil_r, (bytes_fixed false big x n _ Ex Hx), N.mod_same by (apply size_of_props in Ex; lia). apply sp_align_of.
      * destruct (array_bytes_cut false (sp_align x) [sp_bytes false big x (full x)]) as [HC _];
          [rewrite sp_align_of; auto with al|lia|]. specialize (HC ltac:(now left)). rewrite HC. cbn [map sp_most fold_right].
        rewrite IH; [lia|].
        pose proof (array_bytes_len false (align_of x) [sp_bytes false big x (full x)] (sp_bytes false big x (full x))) as H.
        rewrite sp_align_of in Hl. specialize (H ltac:(auto with al) ltac:(now left)). lia.
    + specialize (IH x (or_intror eq_refl)). pose proof (full_typed x) as Hx.
      change (sp_needs (TM x) (Some (sp_bytes false big (TM x) (full (TM x))))) with
        (match sp_size x, sp_bytes false big (TM x) (full (TM x)) with
         | Some _, _ => sp_needs x (Some (sp_bytes false big (TM x) (full (TM x))))
         | None, [] => 1
         | None, _ => sp_needs x (Some (removelast (sp_bytes false big (TM x) (full (TM x))))) end).
      change (sp_could_need (TM x)) with (sp_could_need x). cbn [full] in *.
      cbn [sp_bytes] in *. rewrite sp_fixed_of, sp_size_of in *. unfold is_fixed in *.
      destruct (size_of x) as [n|] eqn:Ex; [apply IH; exact Hl|].
      destruct (sp_bytes false big x (full x) ++ [x00]) eqn:E; [destruct (sp_bytes false big x (full x)); discriminate|]. rewrite <- E in *.
      rewrite removelast_last. apply IH. change @len with @blen in *. rewrite blen_app in Hl. lia.
  - pose proof (full_typed t) as Ht. rewrite full_struct in * by assumption.
    destruct (typed_struct t _ Hs Ht) as (vs & Ev & HF). injection Ev as <-.
    pose proof (Forall2_length _ _ _ HF) as Hlen.
    destruct (struct_bytes_cuts false big t _ Hs HF) as [Hc _]; [lia|].
    rewrite needs_struct, Hc, could_struct by assumption. f_equal.
    assert (HB : forall b, In b (enc_all false big (children_of t) (map full (children_of t))) -> len b < 2 ^ 63).
    { intros b Hb. apply (enc_len false big t) in Hb; auto. lia. }
    clear -IH HB. unfold needs_all, enc_all in *. induction IH as [|c cs Hc _ IHc]; [reflexivity|].
    cbn [map combine fst snd] in *. f_equal; [apply Hc, HB; now left|]. apply IHc. intros b Hb. apply HB. now right.
Qed.

(** For every type there is data, however long the type allows, for which nothing less
    than the alignment told from the type will do. *)
Lemma full_short big t : len (sp_encode big t (full t)) < 24 * len (sp_show t).
Proof.
  pose proof (bytes_room false big t (full t) (full_typed t)) as H. pose proof (full_weight t) as Hw. rewrite type_len_show.
  unfold sp_encode. change (@len byte) with (@blen byte). lia.
Qed.
Lemma could_least t : usable t -> 24 * len (sp_show t) <= 2 ^ 32 ->
  exists d, len d < 24 * len (sp_show t) /\ sp_reads t (Some d) = true /\
    forall h a, h_debug h = false ->
      (decode h t (Slice a d) = Ok (sp_decode (h_big_endian h) t (Some d)) <-> a mod sp_could_need t = 0) /\
      (decode h t (Slice a d) = Crash UBMisaligned <-> a mod sp_could_need t <> 0).
Proof.
  intros Hu Hs. pose proof (full_short false t) as Hf. exists (sp_encode false t (full t)).
  destruct (encode_back false t (full t) (full_typed t)) as (_ & Hr & _); [lia|].
  split; [exact Hf|]. split; [exact Hr|]. intros h a Hd.
  rewrite (need_release h t (Slice a (sp_encode false t (full t)))); auto; [|unfold slen; cbn [s_data]; change (@blen byte) with (@len byte); lia].
  cbn [s_addr s_data]. assert (HN : sp_needs t (Some (sp_encode false t (full t))) = sp_could_need t) by (apply needs_full; fold (sp_encode false t (full t)); lia). rewrite HN.
  destruct (N.eqb_spec (a mod sp_could_need t) 0) as [E|E]; split; split; intros; congruence || auto.
Qed.
