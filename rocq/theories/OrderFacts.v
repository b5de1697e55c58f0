(** How many steps reading takes when every child is in range: proofs. *)
From Verif Require Import Base Types Layout AlignedBytes Strs Spec Deser Histories Cost CostSpec SizeSpec LongSpec
  BaseFacts TypesFacts LayoutFacts AlignedFacts DeserFacts ArrayFacts StructFacts ReadFacts AccessFacts EqFacts EncFacts RoundFacts LongFacts SizeFacts CostFacts.
From Coq Require Import Lia ZifyBool ZifyNat ZifyN.
Ltac Zify.zify_post_hook ::= idtac.
Local Open Scope N_scope.

Definition orderly_all (ts : list ty) (cs : list (option (list byte))) : bool := forallb (fun p => sp_orderly (fst p) (snd p)) (combine ts cs).
Lemma orderly_struct t b : is_struct t -> size_of t = None ->
  sp_orderly t (Some b) = orderly_all (children_of t) (struct_cuts t b).
Proof.
  intros Hs En. unfold struct_cuts. rewrite En.
  destruct t as [| | | | | | | | | | | | |x|x|ts|k v]; cbn [is_struct] in Hs; try tauto; cbn [sp_orderly children_of].
  - rewrite sp_size_of, En. unfold items_of.
    replace (map (fun t => (sp_align t, sp_size t)) ts) with (map (fun t => (align_of t, size_of t)) ts)
      by (apply map_ext; intros; now rewrite sp_align_of, sp_size_of).
    generalize (sp_struct_children (map (fun t => (align_of t, size_of t)) ts) b) as cs. clear.
    induction ts as [|t ts IH]; intros [|c cs]; try reflexivity. unfold orderly_all. cbn [combine forallb fst snd]. f_equal. apply IH.
  - rewrite sp_size_of, En. unfold items_of. cbn [map]. rewrite !sp_align_of, !sp_size_of.
    pose proof (sp_struct_children_length [(align_of k, size_of k); (align_of v, size_of v)] b) as Hl.
    destruct (sp_struct_children _ b) as [|ck [|cv [|]]]; cbn [length] in Hl; try lia.
    unfold orderly_all. cbn [combine forallb fst snd]. now rewrite andb_true_r.
Qed.
Lemma orderly_none t : sp_orderly t None = false.
Proof. now destruct t. Qed.
Lemma orderly_fixed t n b : size_of t = Some n -> sp_orderly t (Some b) = true.
Proof. intros En. destruct t; cbn [sp_orderly]; rewrite sp_size_of, En; reflexivity. Qed.

(** ** The elements of an array and their framing offsets *)
Definition sum_len (bs : list (list byte)) : N := fold_right (fun b n => blen b + n) 0 bs.
Lemma cut_sum al d lim : is_alignment al -> forall ends p bs, p <= lim -> sp_array_cut al d lim p ends = map Some bs -> p + sum_len bs <= lim.
Proof.
  intros Hal. induction ends as [|e ends IH]; intros p [|b bs] Hp E; cbn [sp_array_cut map] in E; try discriminate E.
  - cbn. lia.
  - injection E as E1 E2. unfold cut in E1. destruct (_ && _) eqn:Ec; [|discriminate E1]. injection E1 as <-.
    apply IH in E2; [|lia]. pose proof (pad_to_ge al p Hal). cbn [sum_len fold_right]. fold (sum_len bs).
    assert (Hb : blen (sub d (pad_to al p) (e - pad_to al p)) <= e - pad_to al p) by (rewrite sub_take_drop, blen_take; lia). lia.
Qed.
Lemma cut_count al d lim : forall ends p, blen (sp_array_cut al d lim p ends) = blen ends.
Proof. induction ends as [|e ends IH]; intros p; [reflexivity|]. cbn [sp_array_cut]. rewrite !blen_cons. now rewrite IH. Qed.
Lemma blen_map {A B} (f : A -> B) l : blen (map f l) = blen l.
Proof. unfold blen. now rewrite map_length. Qed.
Lemma children_sum al d bs : is_alignment al -> sp_array_children al d = map Some bs -> sum_len bs + blen bs <= blen d.
Proof.
  intros Hal E. assert (Hc : blen bs = blen (sp_array_children al d)) by (now rewrite E, blen_map).
  revert E Hc. unfold sp_array_children. change (@len byte) with (@blen byte).
  destruct (blen d =? 0); [intros E Hc; destruct bs; [cbn; lia|discriminate E]|].
  set (w := sp_width (blen d)). set (last := le_num _).
  destruct ((last <=? blen d) && _) eqn:Eg; [|intros E Hc; destruct bs; [cbn; lia|discriminate E]].
  intros E Hc. rewrite cut_count, blen_map in Hc. unfold blen in Hc at 2. rewrite seq_length, N2Nat.id in Hc.
  apply (cut_sum al d last Hal) in E; [|lia]. pose proof (div_le (blen d - last) w). lia.
Qed.
Lemma mapM_each {A B} (f : A -> res B) l : forall rs, mapM f l = Ok rs -> Forall2 (fun a r => f a = Ok r) l rs.
Proof.
  induction l as [|a l IH]; intros rs E; cbn [mapM] in E; [injection E as <-; constructor|].
  destruct (f a) as [r|] eqn:Ea; [|discriminate E]. cbn [bind] in E. destruct (mapM f l) as [rs'|]; [|discriminate E].
  injection E as <-. constructor; auto.
Qed.
Lemma items_orderly h x s rs : macro_ok x = true -> aligned (align_of x) s -> size_of x = None -> slen s < 2 ^ 63 ->
  forallb (sp_orderly x) (sp_array_children (align_of x) (s_data s)) = true -> nfwa_items h x s = Ok rs ->
  Forall (fun r => ref_ok x r /\ sp_orderly x (Some (s_data r)) = true) rs /\ sum_len (map s_data rs) + blen rs <= slen s.
Proof.
  intros Hm Ha Hn Hl Ho E. rewrite nfwa_items_ok in E by (auto; unfold usize_lim; lia). apply mapM_each in E.
  rewrite sp_array_children_map in Ho. rewrite forallb_forall in Ho.
  assert (Hin : ~ In None (sp_array_children (align_of x) (s_data s))).
  { rewrite sp_array_children_map. intros Hx. apply Ho in Hx. now rewrite orderly_none in Hx. }
  assert (Hprev : forall i, In i (indices 0 (N.to_nat (arr_n (s_data s)))) -> arr_prev (s_data s) i < 2 ^ 63).
  { intros i Hi. unfold arr_prev. destruct (i =? 0) eqn:E0; [lia|].
    assert (Hi' : In (i - 1) (indices 0 (N.to_nat (arr_n (s_data s))))) by (apply in_indices in Hi; apply in_indices; lia).
    rewrite sp_array_children_map in Hin. destruct (arr_cut (align_of x) (s_data s) (i - 1)) as [b|] eqn:Ec.
    - unfold arr_cut, cut in Ec. destruct (_ && _) eqn:Eb; [|discriminate Ec]. pose proof (arr_lfo_le (s_data s)). unfold slen in Hl. lia.
    - exfalso. apply Hin. apply in_map_iff. exists (i - 1). auto. }
  assert (HF : Forall2 (fun i r => ref_ok x r /\ arr_cut (align_of x) (s_data s) i = Some (s_data r)) (indices 0 (N.to_nat (arr_n (s_data s)))) rs).
  { revert E Hprev Ho. generalize (indices 0 (N.to_nat (arr_n (s_data s)))). intros l E Hprev Ho. induction E as [|i r l rs Er E IH]; constructor.
    - destruct (elem_at_long h x s i Hm Ha Hn (or_introl (Hprev i (or_introl eq_refl)))) as [Hv|[Hv _]]; [|congruence].
      specialize (Ho (arr_cut (align_of x) (s_data s) i) (or_introl eq_refl)).
      destruct (arr_cut (align_of x) (s_data s) i) as [b|]; [|now rewrite orderly_none in Ho]. unfold elem_view in Hv.
      destruct (size_good_dec x (blen b)); [|congruence]. destruct Hv as (q & Eq & Hq & Hd). assert (q = r) by congruence. subst q. now rewrite Hd.
    - apply IH; intros; [apply Hprev|apply Ho]; now right. }
  assert (HM : sp_array_children (align_of x) (s_data s) = map Some (map s_data rs)).
  { rewrite sp_array_children_map. clear -HF. induction HF as [|i r l rs [_ Hr] _ IH]; [reflexivity|]. cbn [map]. now rewrite Hr, IH. }
  split.
  - apply Forall_forall. intros r Hr. split.
    + clear -HF Hr. induction HF as [|i q l rs [Hq _] _ IH]; [destruct Hr|]. destruct Hr as [->|Hr]; auto.
    + apply Ho. rewrite <- sp_array_children_map, HM. apply in_map, in_map, Hr.
  - apply children_sum in HM; [|auto with al]. rewrite blen_map in HM. exact HM.
Qed.

(** ** Reading *)
Definition linear (t : ty) (n : N) : N := 66 * type_len t * (n + 1).
Lemma flat t n : sp_nest t = 0 -> total t n = linear t n.
Proof. unfold total, linear. intros ->. now rewrite N.pow_1_r. Qed.
Lemma w_reads_sum h x rs : Forall (fun r => takes (read_t h x r) (linear x (slen r) - 56)) rs ->
  takes ((fix go (rs : list slice) : timed (list value) :=
            match rs with
            | [] => now []
            | r :: rs => let+ v := read_t h x r in let+ vs := go rs in now (v :: vs)
            end) rs) (66 * type_len x * (sum_len (map s_data rs) + blen rs) - 56 * blen rs).
Proof.
  induction 1 as [|r rs Hr _ IH]; [eapply w_le; [apply w_now|lia]|].
  eapply w_le; [apply w_bind; [exact Hr|]; intros v; apply w_bind; [exact IH|]; intros vs; apply w_now|]. rewrite blen_cons.
  cbn [map sum_len fold_right]. fold (sum_len (map s_data rs)). unfold linear. fold (slen r). pose proof (type_len_pos x). nia.
Qed.
Lemma removelast_take {A} (l : list A) : removelast l = take (blen l - 1) l.
Proof. rewrite removelast_firstn_len. unfold take, blen. f_equal. lia. Qed.
Lemma w_orderly h t : forall s, readable t -> ref_ok t s -> slen s < 2 ^ 63 -> sp_orderly t (Some (s_data s)) = true ->
  takes (read_t h t s) (linear t (slen s) - 56).
Proof.
  induction t as [t Hns IH|t Hs IH] using ty_struct_ind; intros s Hr Hro Hl Ho; pose proof (type_len_pos t) as Hp;
    (destruct (size_of t) as [n|] eqn:En; [eapply w_le; [now apply (w_fixed h t n)|]; unfold linear; nia|]).
  - destruct (N.eq_dec (sp_nest t) 0) as [Hz|Hz]; [rewrite <- flat by assumption; apply w_read|].
    destruct t as [| | | | | | | | | | | | |x|x|ts|k v]; try discriminate En; cbn [is_struct] in Hns; try tauto;
      try (exfalso; apply Hz; reflexivity); cbn [read_t]; destruct Hro as [Ha _]; destruct (readable_part _ x ltac:(eauto) Hr) as [Hm Htl];
      cbn [sp_nest] in Hz; pose proof (type_len_pos x) as Hpx; set (m := slen s) in *.
    + specialize (IH x (or_introl eq_refl)). rewrite sp_size_of in Hz. unfold linear. rewrite (type_len_parts (TA x) x) by auto.
      destruct (size_of x) as [k|] eqn:Ex; [tauto|]. unfold array_refs_t. rewrite Ex.
      cbn [sp_orderly] in Ho. rewrite sp_size_of, En, sp_size_of, Ex, sp_align_of in Ho.
      change (align_of (TA x)) with (align_of x) in Ha.
      eapply w_le; [apply w_bind_ok; [apply w_items|]; intros rs E; rewrite er_items in E;
        instantiate (1 := 66 * type_len x * m)|].
      * pose proof (items_len h x s rs E) as [Hle _]. apply items_orderly in E as [E1 E2]; auto. fold m in E2.
        rewrite <- (N.add_0_r (_ * m)). apply w_bind; [|intros vs; apply w_now].
        eapply w_le; [apply w_reads_sum|].
        -- rewrite Forall_forall in *. intros r Hin. destruct (E1 r Hin) as [H1 H2]. specialize (Hle r Hin). apply IH; auto; [split; auto|lia].
        -- nia.
      * fold m. nia.
    + specialize (IH x (or_intror eq_refl)). unfold linear. rewrite (type_len_parts (TM x) x) by auto.
      change (align_of (TM x)) with (align_of x) in Ha. cbn [sp_orderly] in Ho. rewrite sp_size_of, En, sp_size_of in Ho.
      eapply w_le; [apply w_bind_ok; [apply w_option|]; intros o E; rewrite er_option in E;
        instantiate (1 := linear x m - 56)|unfold linear; nia].
      destruct o as [r|]; [|eapply w_le; [apply w_now|lia]]. rewrite <- (N.add_0_r (_ - _)). apply w_bind; [|intros v; apply w_now].
      destruct (size_of x) as [k|] eqn:Ex; [eapply w_le; [now apply (w_fixed h x k)|]; unfold linear; nia|].
      pose proof (option_len h x s r E) as Hle. rewrite to_option_var in E by assumption.
      destruct (slen s =? 0) eqn:E0; [discriminate E|]. destruct (size_good_dec x _) as [Hg|]; [|discriminate E]. injection E as <-.
      assert (Hsl : slen (part s 0 (slen s - 1)) = slen s - 1) by (rewrite slen_part; lia).
      eapply w_le; [apply IH|unfold linear; fold m in Hle; nia].
      * now split.
      * split; [|now rewrite Hsl]. rewrite part_0. exact Ha.
      * fold m in Hle. lia.
      * rewrite part_0. cbn [s_data]. unfold slen, blen in E0. destruct (s_data s) as [|b d] eqn:Ed; [cbn in E0; lia|].
        unfold slen. rewrite Ed. now rewrite <- removelast_take.
  - destruct (Hr) as [Hm Htl]. rewrite orderly_struct in Ho by assumption. unfold orderly_all in Ho. rewrite forallb_forall in Ho.
    set (m := slen s) in *. pose proof (children_len t Hs) as HL. unfold linear.
    assert (Hfar : ~ struct_far t (s_data s)).
    { intros Hf. apply struct_far_near in Hf. rewrite (struct_inside_near _ _ Hl) in Hf; [discriminate Hf|].
      intros Hin. assert (Hlen : length (struct_cuts t (s_data s)) = length (children_of t)) by (apply struct_cuts_length).
      unfold struct_cuts in Hlen, Ho. rewrite En in Hlen, Ho.
      destruct (In_nth _ _ None Hin) as (i & Hi & Ei). rewrite Hlen in Hi.
      assert (HH := Ho (nth i (children_of t) TY, None)).
      rewrite orderly_none in HH. discriminate HH. rewrite <- Ei. rewrite <- combine_nth by (now symmetry). apply nth_In.
      rewrite combine_length, Hlen. lia. }
    eapply w_le; [eapply (w_struct h t s _ (fun c => 66 * (m + 1) * type_len c - 56) Hs (w_tuple h t s))|].
    + intros rs E. pose proof E as E'. unfold to_tuple in E'. rewrite En in E'. apply nonfixed_len in E'.
      destruct (to_tuple_long h t s Hs Hm Htl Hro Hl) as [(rs' & Er & HF)|[Ec _]]; [tauto| |congruence].
      assert (rs' = rs) by congruence. subst rs'.
      rewrite Forall_forall in *. intros p Hin. specialize (E' p Hin).
      assert (HC : exists c, In (fst p, c) (combine (children_of t) (struct_cuts t (s_data s))) /\ child_view h s (fst p) c (snd p)).
      { clear -HF Hin Hs. assert (Hlen : length (struct_cuts t (s_data s)) = length (children_of t)) by (apply struct_cuts_length).
        revert rs HF Hin. generalize dependent (struct_cuts t (s_data s)). intros cs. revert cs. induction (children_of t) as [|c0 ts IH]; intros [|c cs] Hlen rs HF Hin; cbn [length] in Hlen; try lia;
          cbn [combine] in *; [destruct Hin|]. inversion HF as [|? r ? rs' Hv HF' E1 E2]; subst. cbn [combine] in Hin. destruct Hin as [<-|Hin].
        - exists c. split; [now left|exact Hv].
        - destruct (IH cs ltac:(lia) rs' HF' Hin) as (c' & H1 & H2). exists c'. split; [now right|exact H2]. }
      destruct HC as (c & Hc & (Hrc & _ & Hd)). specialize (Ho _ Hc). cbn [fst snd] in Ho. apply in_combine_fst in Hin.
      pose proof (type_len_pos (fst p)) as Hpc. destruct (size_of (fst p)) as [k|] eqn:Ek.
      * eapply w_le; [now apply (w_fixed h _ k)|]. nia.
      * specialize (E' eq_refl). fold m in E'. destruct c as [b|]; [|now rewrite orderly_none in Ho].
        assert (HX : takes (read_t h (fst p) (snd p)) (linear (fst p) (slen (snd p)) - 56)).
        { unfold seen_bytes in Hd. destruct (size_good_dec (fst p) (blen b)) as [Hg|Hg].
          - apply IH; auto; [eapply readable_child; eauto|lia|]. now rewrite Hd.
          - rewrite <- flat; [apply w_read|]. unfold size_good in Hg. rewrite Ek in Hg.
            destruct (fst p); try tauto. cbn [sp_nest]. rewrite sp_size_of. destruct (size_of t0); [reflexivity|tauto]. }
        eapply w_le; [exact HX|]. unfold linear. nia.
    + pose proof (sum_plus (fun c => 66 * (m + 1) * type_len c - 56) 56 (children_of t)) as HS. pose proof (sum_types (66 * (m + 1)) (children_of t)) as HT.
      assert (HE : fold_right (fun t n => (66 * (m + 1) * type_len t - 56 + 56) + n) 0 (children_of t) <= fold_right (fun t n => 66 * (m + 1) * type_len t + n) 0 (children_of t)).
      { apply (sum_le (fun t => 66 * (m + 1) * type_len t - 56 + 56) (fun t => 66 * (m + 1) * type_len t)). apply Forall_forall. intros c _. pose proof (type_len_pos c). nia. }
      cbv beta in HS. nia.
Qed.
Lemma w_decode_orderly h t s : readable t -> aligned (align_of t) s -> slen s < 2 ^ 63 -> sp_orderly t (Some (s_data s)) = true ->
  takes (decode_t h t s) (linear t (slen s)).
Proof.
  intros Hr Ha Hl Ho. pose proof (type_len_pos t) as Hp. unfold decode_t.
  eapply w_le; [apply w_bind_ok; [apply w_cast|]; intros r E; rewrite er_cast in E; instantiate (1 := linear t (slen s) - 56)|unfold linear; nia].
  destruct (size_of t) as [n|] eqn:En; [eapply w_le; [now apply (w_fixed h t n)|]; unfold linear; nia|].
  pose proof (cast_len h t s r En E) as Hle. destruct (cast_ok h t s (proj1 Hr) Ha) as (r' & Er & Hro & Hd & _).
  unfold cast in Er. assert (r' = r) by congruence. subst r'.
  assert (HX : takes (read_t h t r) (linear t (slen r) - 56)).
  { unfold seen_bytes in Hd. destruct (size_good_dec t (blen (s_data s))) as [Hg|Hg].
    - apply w_orderly; auto; [lia|]. now rewrite Hd.
    - rewrite <- flat; [apply w_read|]. unfold size_good in Hg. rewrite En in Hg.
      destruct t; try tauto. cbn [sp_nest]. rewrite sp_size_of. destruct (size_of t); [reflexivity|tauto]. }
  eapply w_le; [exact HX|]. unfold linear. nia.
Qed.

(** ** Normal forms *)
Lemma encode_orderly big t : forall v, sp_typed t v -> len (sp_encode big t v) < 2 ^ 63 ->
  sp_orderly t (Some (sp_encode big t v)) = true.
Proof.
  unfold sp_encode.
  induction t as [t Hns IH|t Hs IH] using ty_struct_ind; intros v Ht Hl.
  - destruct t as [| | | | | | | | | | | | |x|x|ts|a b]; cbn [is_struct] in Hns; try tauto; try reflexivity;
      destruct v as [z|bits|b|s|s d|vs|o|vs]; cbn [sp_typed] in Ht; try tauto.
    + change (sp_typed (TA x) (VArray vs)) in Ht. rewrite typed_array in Ht.
      change (sp_orderly (TA x) (Some (sp_bytes false big (TA x) (VArray vs)))) with
        (match sp_size x with Some _ => true | None => forallb (sp_orderly x) (sp_array_children (sp_align x) (sp_bytes false big (TA x) (VArray vs))) end).
      cbn [sp_bytes] in *. rewrite sp_fixed_of, sp_size_of in *. unfold is_fixed in *.
      destruct (size_of x) as [n|] eqn:En; [reflexivity|].
      destruct (array_bytes_cut false (sp_align x) (map (sp_bytes false big x) vs)) as [HC _];
        [rewrite sp_align_of; auto with al|lia|]. specialize (HC ltac:(now left)).
      rewrite HC. apply forallb_forall. intros c Hc. apply in_map_iff in Hc as (b & <- & Hb).
      apply in_map_iff in Hb as (v & <- & Hv). rewrite Forall_forall in Ht.
      apply (IH x (or_introl eq_refl)); auto.
      pose proof (array_bytes_len false (align_of x) (map (sp_bytes false big x) vs) (sp_bytes false big x v)) as H.
      rewrite sp_align_of in Hl. apply (in_map (sp_bytes false big x)) in Hv. specialize (H ltac:(auto with al) Hv). lia.
    + destruct o as [v|]; [|cbn [sp_bytes sp_orderly]; rewrite (sp_size_of (TM x)), sp_size_of; destruct (size_of x); reflexivity].
      change (sp_orderly (TM x) (Some (sp_bytes false big (TM x) (VMaybe (Some v))))) with
        (match sp_size x, sp_bytes false big (TM x) (VMaybe (Some v)) with None, _ :: _ => sp_orderly x (Some (removelast (sp_bytes false big (TM x) (VMaybe (Some v))))) | _, _ => true end).
      cbn [sp_bytes] in *. rewrite sp_fixed_of, sp_size_of in *. unfold is_fixed in *.
      destruct (size_of x) as [n|] eqn:En; [reflexivity|].
      destruct (sp_bytes false big x v ++ [x00]) eqn:E; [destruct (sp_bytes false big x v); discriminate|]. rewrite <- E in *.
      rewrite removelast_last. apply (IH x (or_intror eq_refl)); auto.
      change @len with @blen in *. rewrite blen_app in Hl. lia.
  - destruct (size_of t) as [n|] eqn:En; [now rewrite (orderly_fixed t n)|].
    destruct (typed_struct t v Hs Ht) as (vs & -> & HF).
    pose proof (Forall2_length _ _ _ HF) as Hlen.
    destruct (struct_bytes_cuts false big t vs Hs HF) as [Hc _]; [lia|].
    rewrite orderly_struct, Hc by assumption.
    unfold orderly_all, enc_all. apply forallb_forall. intros [c d] Hin. cbn [fst snd].
    assert (G : exists v, In (c, v) (combine (children_of t) vs) /\ d = Some (sp_bytes false big c v)).
    { clear -Hin. revert vs Hin. induction (children_of t) as [|c0 cs IH]; intros [|v vs] Hin; cbn [combine map] in *; try contradiction.
      destruct Hin as [Hin|Hin].
      - inversion Hin; subst. exists v. split; [now left|reflexivity].
      - destruct (IH vs Hin) as (w & Hw & ->). exists w. split; [now right|reflexivity]. }
    destruct G as (v & Hv & ->). rewrite Forall_forall in IH. apply IH.
    + eapply in_combine_l; eauto.
    + pose proof (Forall2_combine _ _ _ HF) as G. rewrite Forall_forall in G. exact (G _ Hv).
    + assert (Hle : len (sp_bytes false big c v) <= len (sp_bytes false big t (VTuple vs))).
      { apply enc_len; auto. unfold enc_all. apply in_map_iff. exists (c, v). auto. }
      lia.
Qed.

(** ** A value that takes long *)
Lemma tbind_inv {A B} (m : timed A) (f : A -> timed B) b : snd (tbind m f) = Ok b ->
  exists a, snd m = Ok a /\ snd (f a) = Ok b /\ fst (tbind m f) = fst m + fst (f a).
Proof. unfold tbind. destruct (snd m) as [a|c]; cbn [fst snd]; [eauto|discriminate]. Qed.
Lemma items_pos h x s rs : snd (nfwa_items_t h x s) = Ok rs -> 1 <= fst (nfwa_items_t h x s).
Proof.
  unfold nfwa_items_t. intros E. apply tbind_inv in E as (it & E & _ & ->).
  enough (1 <= fst (nfwa_into_iter_t h x s)) by lia. unfold nfwa_into_iter_t in *. apply tbind_inv in E as (p & E & _ & ->).
  enough (1 <= fst (read_last_frame_offset_t h (s_data s))) by lia. unfold read_last_frame_offset_t, tbind, costs. cbn [fst snd]. lia.
Qed.
Lemma arrays_slow h k : forall s v, snd (read_t h (Nat.iter k TA TS) s) = Ok v -> sp_weight v <= fst (read_t h (Nat.iter k TA TS) s).
Proof.
  induction k as [|k IH]; intros s v E.
  - cbn [Nat.iter nat_rect read_t] in *. apply tbind_inv in E as (b & E & Ev & ->). cbn [now costs snd] in Ev. injection Ev as <-.
    cbn [sp_weight]. change (@len byte) with (@blen byte). unfold to_str_t in *. apply tbind_inv in E as (c & E & Ev & ->).
    cbn [as_bytes_non_conformant_t costs snd] in E. injection E as <-. cbn [as_bytes_non_conformant_t costs fst].
    apply tbind_inv in Ev as (n & En & Ev & ->). cbn [costs snd] in En. injection En as <-. cbn [costs fst].
    destruct (has_nul _); [cbn [now costs snd] in Ev; injection Ev as <-; rewrite blen_nil; lia|].
    apply tbind_inv in Ev as (c & E & Ev & ->). cbn [as_bytes_non_conformant_t costs snd] in E. injection E as <-. cbn [as_bytes_non_conformant_t costs fst].
    apply tbind_inv in Ev as (c & E & Ev & ->). cbn [costs snd] in E. injection E as <-. cbn [costs fst].
    destruct (valid_utf8 _); cbn [now costs snd] in Ev; injection Ev as <-; [lia|]. rewrite blen_nil. lia.
  - cbn [Nat.iter nat_rect] in *. fold (Nat.iter k TA TS) in *. set (x := Nat.iter k TA TS) in *. cbn [read_t] in *.
    assert (Hx : size_of x = None) by (rewrite <- sp_size_of; apply arrays_size).
    unfold array_refs_t in *. rewrite Hx in *. apply tbind_inv in E as (rs & E & Ev & ->).
    apply items_pos in E as Hpos. clear E. apply tbind_inv in Ev as (vs & E & Ev & ->). cbn [now costs snd] in Ev. injection Ev as <-.
    cbn [sp_weight now costs fst]. enough (fold_right (fun v n => sp_weight v + n) 0 vs <= fst ((fix go (rs : list slice) : timed (list value) :=
            match rs with
            | [] => now []
            | r :: rs => let+ v := read_t h x r in let+ vs := go rs in now (v :: vs)
            end) rs)) by lia.
    revert vs E. induction rs as [|r rs IHr]; intros vs E; [cbn [now costs snd] in E; injection E as <-; cbn; lia|].
    apply tbind_inv in E as (v & E & Ev & ->). apply tbind_inv in Ev as (ws & Ew & Ev & ->). cbn [now costs snd] in Ev. injection Ev as <-.
    apply IH in E. apply IHr in Ew. cbn [fold_right now costs fst]. lia.
Qed.

(** ** Claims *)
Lemma cost_answers h x t s i it :
  result_of (nfwa_len_t h s) = nfwa_len h s /\ result_of (nfwa_is_empty_t h s) = nfwa_is_empty h s /\
  result_of (nfwa_index_t h x s i) = nfwa_index h x s i /\ result_of (nfwa_first_t h x s) = nfwa_first h x s /\
  result_of (nfwa_last_t h x s) = nfwa_last h x s /\ result_of (nfwa_into_iter_t h x s) = nfwa_into_iter h x s /\
  result_of (nfwa_next_t h x it) = nfwa_next h x it /\ result_of (nfwa_size_hint_t h it) = nfwa_size_hint h it /\
  result_of (to_option_t h x s) = to_option h x s /\ result_of (to_tuple_t h t s) = to_tuple h t s /\
  result_of (from_aligned_slice_t h t s) = cast h t s.
Proof.
  unfold result_of. rewrite er_len, er_is_empty, er_index, er_first, er_last, er_into_iter, er_next, er_hint, er_option, er_tuple, er_cast. repeat split.
Qed.
Lemma cost_constant h x t s i it :
  steps_of (from_aligned_slice_t h t s) <= 14 /\
  steps_of (nfwa_len_t h s) <= 17 /\ steps_of (nfwa_is_empty_t h s) <= 18 /\
  steps_of (nfwa_index_t h x s i) <= 48 /\ steps_of (nfwa_first_t h x s) <= 66 /\ steps_of (nfwa_last_t h x s) <= 84 /\
  steps_of (nfwa_into_iter_t h x s) <= 19 /\ steps_of (nfwa_next_t h x it) <= 28 /\ steps_of (nfwa_size_hint_t h it) <= 2 /\
  steps_of (to_option_t h x s) <= 10.
Proof.
  repeat split; [apply w_cast|apply w_len|apply w_is_empty|apply w_index|apply w_first|apply w_last|apply w_into_iter|apply w_next|apply w_hint|apply w_option].
Qed.
Lemma cost_members h t s : steps_of (to_tuple_t h t s) <= 56 * len (sp_components t).
Proof.
  eapply N.le_trans; [apply w_tuple|]. apply N.mul_le_mono_l. destruct t; try apply N.le_0_l; apply N.le_refl.
Qed.
Lemma cost_strings d : result_of (as_bytes_non_conformant_t d) = Ok (as_bytes_non_conformant d) /\ steps_of (as_bytes_non_conformant_t d) = 3 /\
  result_of (to_str_t d) = Ok (to_str d) /\ steps_of (to_str_t d) <= 8 + 2 * len d.
Proof. split; [reflexivity|]. split; [reflexivity|]. split; [apply er_to_str|apply w_to_str]. Qed.
Lemma cost_get h t s : result_of (variant_get_t h t s) = variant_get h t s /\
  steps_of (variant_get_t h t s) <= match sp_split_last (s_data s) with Some (_, ts) => 23 + 2 * len ts | None => 28 + len (s_data s) end.
Proof.
  split; [apply er_get|]. destruct (sp_split_last (s_data s)) as [[v ts]|] eqn:E; [now apply (w_get_found h t s v)|now apply w_get_none].
Qed.
Lemma cost_slow h k n a : 1 <= n -> 1 + k < 2 ^ 32 -> n * (16 * k + 1) < 2 ^ 63 ->
  exists d, len d <= n * (16 * k + 1) /\ n ^ (1 + k) <= steps_of (decode_t h (Nat.iter (N.to_nat k) TA TS) (Slice a d)).
Proof.
  intros H1 H2 H3. destruct (blow_claim h k n a H1 H2 H3) as (d & v & Hd & E & Hw). exists d. split; [exact Hd|].
  rewrite <- er_decode in E. unfold decode_t in *. apply tbind_inv in E as (r & _ & E & HE). unfold steps_of. rewrite HE. apply arrays_slow in E. lia.
Qed.
Lemma cost_all h t s : result_of (decode_t h t s) = decode h t s /\
  steps_of (decode_t h t s) <= 66 * len (sp_show t) * (len (s_data s) + 1) ^ (1 + sp_nest t).
Proof. split; [apply er_decode|]. rewrite type_len_show. apply w_decode. Qed.
Lemma cost_orderly h t s : usable t -> aligned (sp_align t) s -> len (s_data s) < 2 ^ 63 -> sp_orderly t (Some (s_data s)) = true ->
  steps_of (decode_t h t s) <= 66 * len (sp_show t) * (len (s_data s) + 1).
Proof. intros [Hm Hl] Ha Hs Ho. rewrite sp_align_of in Ha. rewrite type_len_show in *. apply w_decode_orderly; auto. now split. Qed.
Lemma cost_normal h big t v a : usable t -> sp_typed t v -> a mod sp_align t = 0 -> len (sp_encode big t v) < 2 ^ 63 ->
  steps_of (decode_t h t (Slice a (sp_encode big t v))) <= 66 * len (sp_show t) * (len (sp_encode big t v) + 1).
Proof. intros Hu Ht Ha Hl. apply cost_orderly; auto. now apply encode_orderly. Qed.

(** ** Comparing *)
Lemma cost_eq h t a b : result_of (gv_eq_t h t a b) = gv_eq h t a b /\
  steps_of (gv_eq_t h t a b) <= 185 * len (sp_show t) * (len (s_data a) + len (s_data b) + 1) ^ (1 + sp_nest t).
Proof.
  split; [apply er_eq|]. rewrite type_len_show. pose proof (w_eq h t a b) as H. unfold takes, eq_total, slen, blen in H. unfold steps_of, len. lia.
Qed.
Lemma tbind_ok {A B} (m : timed A) (f : A -> timed B) a : snd m = Ok a -> tbind m f = (fst m + fst (f a), snd (f a)).
Proof. unfold tbind. now intros ->. Qed.
Lemma cost_eq_lengths h x a b na nb : sp_size x = None -> nfwa_len h a = Ok na -> nfwa_len h b = Ok nb -> na <> nb ->
  result_of (gv_eq_t h (TA x) a b) = Ok false /\ steps_of (gv_eq_t h (TA x) a b) <= 35.
Proof.
  intros Hx Ea Eb Hn. rewrite sp_size_of in Hx. cbn [gv_eq_t]. rewrite Hx. unfold nfwa_eq_t.
  pose proof (w_len h a) as Ha. pose proof (w_len h b) as Hb. rewrite <- er_len in Ea, Eb. unfold takes, result_of in *.
  rewrite (tbind_ok _ _ na Ea). cbv beta. rewrite (tbind_ok _ _ nb Eb). cbv beta. rewrite (tbind_ok (costs 1 (Ok (na =? nb))) _ (na =? nb) eq_refl). cbv beta.
  rewrite (proj2 (N.eqb_neq _ _) Hn). unfold steps_of. cbn [now costs fst snd]. split; [reflexivity|lia].
Qed.
