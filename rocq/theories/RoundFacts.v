(** Encoding then decoding, at the level of the specification. *)
From Verif Require Import Base Types Layout AlignedBytes Strs Spec Deser Histories
  BaseFacts TypesFacts LayoutFacts AlignedFacts Utf8Facts DeserFacts ArrayFacts StructFacts ReadFacts AccessFacts EncFacts.
From Coq Require Import Lia ZifyBool ZifyNat ZifyN.
Ltac Zify.zify_post_hook ::= Z.div_mod_to_equations.

Lemma pieces_concat n bodies : (0 < n)%nat -> Forall (fun b => length b = n) bodies ->
  forall fuel, (length (concat bodies) <= fuel)%nat -> sp_pieces fuel n (concat bodies) = bodies.
Proof.
  intros Hn. induction 1 as [|b bodies Hb _ IH]; intros fuel Hf; cbn [concat] in *.
  - destruct fuel; reflexivity.
  - rewrite app_length in Hf. destruct fuel as [|fuel]; [lia|]. cbn [sp_pieces].
    destruct (b ++ concat bodies) eqn:E; [destruct b; [cbn in Hb; lia|discriminate]|]. rewrite <- E.
    rewrite firstn_app, skipn_app, Hb, Nat.sub_diag. rewrite firstn_all2, skipn_all2 by lia. cbn [firstn skipn app].
    rewrite app_nil_r. f_equal. apply IH. lia.
Qed.
Lemma concat_same_len n bodies : Forall (fun b : list byte => len b = n) bodies -> len (concat bodies) = n * len bodies.
Proof.
  induction 1 as [|b bodies Hb _ IH]; cbn [concat]; [cbn; lia|]. change @len with @blen in *. rewrite blen_app, blen_cons. lia.
Qed.
Lemma enc_len tail big t vs b : is_struct t -> length vs = length (children_of t) ->
  In b (enc_all tail big (children_of t) vs) -> len b <= len (sp_bytes tail big t (VTuple vs)).
Proof.
  intros Hs Hl Hb. rewrite bytes_struct by assumption. apply struct_bytes_len; [|exact Hb].
  unfold items_of, enc_all. rewrite !map_length, combine_length. lia.
Qed.
Lemma Forall_map_iff {A B} (f : A -> B) (P : B -> Prop) l : Forall P (map f l) <-> Forall (fun a => P (f a)) l.
Proof. apply Forall_map. Qed.

(** ** The normal form can be read back. *)
Definition back (big : bool) (t : ty) (v : value) : Prop :=
  len (sp_encode big t v) < 2 ^ 64 ->
  sp_decode big t (Some (sp_encode big t v)) = v /\ sp_reads t (Some (sp_encode big t v)) = true /\
  size_good t (len (sp_encode big t v)).
Lemma sized_same (n : N) (b : list byte) : len b = n -> (if len b =? n then b else nuls n) = b.
Proof. intros ->. now rewrite N.eqb_refl. Qed.
Lemma encode_back big t : forall v, sp_typed t v -> back big t v.
Proof.
  induction t as [t Hns IH|t Hs IH] using ty_struct_ind; intros v Ht; unfold back, sp_encode; intros Hl.
  - destruct t as [| | | | | | | | | | | | |x|x|ts|a b]; cbn [is_struct] in Hns; try tauto; destruct v as [z|bits|b|s|s d|vs|o|vs];
      cbn [sp_typed] in Ht; try tauto.
    + cbn [sp_bytes]. split; [|split; reflexivity]. destruct b, big; reflexivity.
    + cbn [sp_bytes]. split; [|split; [reflexivity|apply sp_int_len]]. cbn [sp_decode]. rewrite sized_same by apply sp_int_len.
      rewrite int_back by (change (8 * Z.of_nat 1)%Z with 8%Z; lia). f_equal. lia.
    + cbn [sp_bytes]. split; [|split; [reflexivity|apply sp_int_len]]. cbn [sp_decode]. rewrite sized_same by apply sp_int_len.
      f_equal. apply (int_signed big 2); [lia|]. exact Ht.
    + cbn [sp_bytes]. split; [|split; [reflexivity|apply sp_int_len]]. cbn [sp_decode]. rewrite sized_same by apply sp_int_len.
      rewrite int_back by (change (8 * Z.of_nat 2)%Z with 16%Z; lia). f_equal. lia.
    + cbn [sp_bytes]. split; [|split; [reflexivity|apply sp_int_len]]. cbn [sp_decode]. rewrite sized_same by apply sp_int_len.
      f_equal. apply (int_signed big 4); [lia|]. exact Ht.
    + cbn [sp_bytes]. split; [|split; [reflexivity|apply sp_int_len]]. cbn [sp_decode]. rewrite sized_same by apply sp_int_len.
      rewrite int_back by (change (8 * Z.of_nat 4)%Z with 32%Z; lia). f_equal. lia.
    + cbn [sp_bytes]. split; [|split; [reflexivity|apply sp_int_len]]. cbn [sp_decode]. rewrite sized_same by apply sp_int_len.
      f_equal. apply (int_signed big 8); [lia|]. exact Ht.
    + cbn [sp_bytes]. split; [|split; [reflexivity|apply sp_int_len]]. cbn [sp_decode]. rewrite sized_same by apply sp_int_len.
      rewrite int_back by (change (8 * Z.of_nat 8)%Z with 64%Z; lia). f_equal. lia.
    + cbn [sp_bytes]. split; [|split; [reflexivity|apply sp_int_len]]. cbn [sp_decode]. rewrite sized_same by apply sp_int_len.
      rewrite int_back by (change (8 * Z.of_nat 8)%Z with 64%Z; lia). f_equal. lia.
    + cbn [sp_bytes sp_decode]. split; [|split; [reflexivity|exact I]]. now rewrite string_back.
    + cbn [sp_bytes sp_decode]. split; [|split; [reflexivity|exact I]]. now rewrite string_back.
    + cbn [sp_bytes sp_decode]. split; [|split; [reflexivity|exact I]]. now rewrite string_back.
    + cbn [sp_bytes sp_decode]. split; [|split; [reflexivity|exact I]]. unfold sp_variant. cbn [app].
      now rewrite split_back.
    + (* array *) change (sp_typed (TA x) (VArray vs)) in Ht. rewrite typed_array in Ht.
      cbn [sp_bytes] in *. rewrite sp_fixed_of in *. unfold is_fixed in *.
      assert (Hall : forall v, In v vs -> len (sp_bytes false big x v) <= len (if match size_of x with Some _ => true | None => false end
          then concat (map (sp_bytes false big x) vs) else sp_array_bytes false (sp_align x) (map (sp_bytes false big x) vs))).
      { intros v Hv. apply (in_map (sp_bytes false big x)) in Hv. rewrite sp_align_of. destruct (size_of x).
        - now apply concat_len.
        - apply array_bytes_len; auto with al. }
      assert (HI : forall v, In v vs -> sp_decode big x (Some (sp_bytes false big x v)) = v /\
                 sp_reads x (Some (sp_bytes false big x v)) = true /\ size_good x (len (sp_bytes false big x v))).
      { intros v Hv. rewrite Forall_forall in Ht. apply IH; auto. unfold sp_encode. specialize (Hall v Hv). lia. }
      assert (Hmap : map (fun v => sp_decode big x (Some (sp_bytes false big x v))) vs = vs).
      { rewrite <- (map_id vs) at 2. apply map_ext_in. intros v Hv. now apply HI. }
      cbn [sp_decode sp_reads]. rewrite sp_size_of. unfold size_good. cbn [size_of].
      destruct (size_of x) as [n|] eqn:En.
      * pose proof (size_of_props x n En) as [Hp _].
        assert (Hlen : Forall (fun b => len b = n) (map (sp_bytes false big x) vs)).
        { apply Forall_map. eapply Forall_impl; [|exact Ht]. intros v Hv. now apply bytes_fixed. }
        rewrite (concat_same_len n) by assumption. rewrite N.mul_comm, N.mod_mul by lia. cbn [N.eqb].
        rewrite pieces_concat; [|lia| |lia].
        2:{ eapply Forall_impl; [|exact Hlen]. intros b Hb. unfold len in Hb. lia. }
        rewrite !map_map, Hmap. auto.
      * destruct (array_bytes_cut false (sp_align x) (map (sp_bytes false big x) vs)) as [HC _];
          [rewrite sp_align_of; auto with al|assumption|]. rewrite HC by now left.
        rewrite !map_map, Hmap. split; [reflexivity|]. split; [|exact I].
        apply forallb_forall. intros c Hc. apply in_map_iff in Hc as (v & <- & Hv).
        destruct (HI v Hv) as (_ & H2 & H3). rewrite H2, andb_true_r. rewrite sp_whole_fits by assumption.
        change (blen (sp_bytes false big x v)) with (len (sp_bytes false big x v)).
        destruct (size_good_dec x (len (sp_bytes false big x v))); [reflexivity|contradiction].
    + (* maybe *) destruct o as [v|]; [|cbn [sp_bytes sp_decode sp_reads]; rewrite sp_size_of; split; [|split; [destruct (size_of x)|]; reflexivity || exact I]].
      2:{ destruct (size_of x) as [n|] eqn:En; [|reflexivity]. pose proof (size_of_props x n En) as [Hp _].
          change (len (@nil byte)) with 0. replace (0 =? n) with false by lia. reflexivity. }
      cbn [sp_bytes] in *. rewrite sp_fixed_of in *. unfold is_fixed in *. cbn [sp_decode sp_reads]. rewrite sp_size_of.
      unfold size_good. cbn [size_of]. destruct (size_of x) as [n|] eqn:En.
      * rewrite (bytes_fixed false big x n v En Ht), N.eqb_refl. split; [|auto].
        destruct (IH x (or_intror eq_refl) v Ht Hl) as [E _]. unfold sp_encode in E. now rewrite E.
      * destruct (sp_bytes false big x v ++ [x00]) eqn:E; [destruct (sp_bytes false big x v); discriminate|]. rewrite <- E.
        rewrite removelast_last.
        assert (Hl2 : len (sp_encode big x v) < 2 ^ 64).
        { rewrite <- E in Hl. unfold sp_encode. change @len with @blen in *. rewrite blen_app in Hl. lia. }
        destruct (IH x (or_intror eq_refl) v Ht Hl2) as (E1 & E2 & E3). unfold sp_encode in *. rewrite E1. split; [reflexivity|]. split; [|exact I].
        rewrite E2, andb_true_r. rewrite sp_whole_fits by assumption.
        change (blen (sp_bytes false big x v)) with (len (sp_bytes false big x v)).
        destruct (size_good_dec x (len (sp_bytes false big x v))); [reflexivity|contradiction].
  - destruct (typed_struct t v Hs Ht) as (vs & -> & HF).
    pose proof (Forall2_length _ _ _ HF) as Hlen.
    destruct (struct_bytes_cuts false big t vs Hs HF Hl) as [Hc Hg].
    assert (HB : Forall (fun p => sp_decode big (fst p) (Some (sp_bytes false big (fst p) (snd p))) = snd p /\
                                  sp_reads (fst p) (Some (sp_bytes false big (fst p) (snd p))) = true) (combine (children_of t) vs)).
    { apply Forall_forall. intros [c v] Hin. cbn [fst snd]. rewrite Forall_forall in IH.
      pose proof (in_combine_l _ _ _ _ Hin) as Hcin.
      assert (Hct : sp_typed c v) by (pose proof (Forall2_combine _ _ _ HF) as G; rewrite Forall_forall in G; exact (G _ Hin)).
      assert (Hle : len (sp_bytes false big c v) <= len (sp_bytes false big t (VTuple vs))).
      { apply enc_len; auto. unfold enc_all. apply in_map_iff. exists (c, v). auto. }
      destruct (IH c Hcin v Hct) as (E1 & E2 & _); [unfold sp_encode; lia|]. auto. }
    split; [|split; [|exact Hg]].
    + rewrite sp_decode_struct by assumption. rewrite Hc. f_equal. unfold dec_all, enc_all.
      clear -HB Hlen. revert vs Hlen HB. induction (children_of t) as [|c cs IH]; intros [|v vs] Hlen HB; try discriminate; [reflexivity|].
      cbn [combine map] in *. inversion HB as [|? ? [H1 _] HB']; subst. cbn [fst snd] in *. rewrite H1. f_equal. apply IH; auto.
    + destruct (size_of t) eqn:En; [eapply sp_reads_fixed; eauto|]. rewrite sp_reads_struct by assumption. rewrite Hc.
      unfold reads_all, enc_all.
      clear -HB Hlen. revert vs Hlen HB. induction (children_of t) as [|c cs IH]; intros [|v vs] Hlen HB; try discriminate; [reflexivity|].
      cbn [combine map forallb] in *. inversion HB as [|? ? [_ H2] HB']; subst. cbn [fst snd] in *. rewrite H2. cbn [andb]. apply IH; auto.
Qed.

(** ** Padding after the last element *)
Lemma last_map_in {A} (f g : A -> list byte) l : (forall a, In a l -> f a = g a) -> last (map f l) [] = last (map g l) [].
Proof.
  induction l as [|a l IH]; intros H; [reflexivity|]. destruct l as [|b l].
  - cbn. apply H. now left.
  - change (last (map f (a :: b :: l)) []) with (last (map f (b :: l)) []).
    change (last (map g (a :: b :: l)) []) with (last (map g (b :: l)) []). apply IH. intros. apply H. now right.
Qed.
Lemma tails_same big t : forall v, sp_typed t v -> sp_tails big t v = true -> sp_written big t v = sp_encode big t v.
Proof.
  unfold sp_written, sp_encode.
  induction t as [t Hns IH|t Hs IH] using ty_struct_ind; intros v Ht HT.
  - destruct t as [| | | | | | | | | | | | |x|x|ts|a b]; cbn [is_struct] in Hns; try tauto; destruct v as [z|bits|b|s|s d|vs|o|vs];
      cbn [sp_typed] in Ht; try tauto; try reflexivity.
    + change (sp_typed (TA x) (VArray vs)) in Ht. rewrite typed_array in Ht. cbn [sp_tails sp_bytes] in *.
      apply andb_true_iff in HT as [H1 H2]. rewrite forallb_forall in H1. rewrite Forall_forall in Ht.
      assert (E : map (sp_bytes true big x) vs = map (sp_bytes false big x) vs) by (apply map_ext_in; auto).
      rewrite E. destruct (sp_fixed x); [reflexivity|]. cbn [orb] in H2. apply N.eqb_eq in H2.
      apply array_bytes_tail; [rewrite sp_align_of; auto with al|exact H2].
    + destruct o as [v|]; [|reflexivity]. cbn [sp_tails sp_bytes] in *. now rewrite (IH x (or_intror eq_refl) v).
  - destruct (typed_struct t v Hs Ht) as (vs & -> & HF). pose proof (Forall2_length _ _ _ HF) as Hlen.
    rewrite tails_struct in HT by auto. rewrite !bytes_struct by auto. f_equal. unfold enc_all. apply map_ext_in.
    intros [c v] Hin. cbn [fst snd]. unfold tails_all in HT. rewrite forallb_forall in HT. specialize (HT _ Hin).
    rewrite Forall_forall in IH. apply IH; auto; [eapply in_combine_l; eauto|].
    pose proof (Forall2_combine _ _ _ HF) as G. rewrite Forall_forall in G. exact (G _ Hin).
Qed.
Lemma forallb_false {A} (f : A -> bool) l : forallb f l = false -> exists a, In a l /\ f a = false.
Proof.
  induction l as [|a l IH]; [discriminate|]. cbn [forallb]. destruct (f a) eqn:E.
  - intros H. destruct (IH H) as (b & Hb & Hf). exists b. split; [now right|exact Hf].
  - intros _. exists a. split; [now left|exact E].
Qed.
Lemma map_id_in {A} (f : A -> A) l a : map f l = l -> In a l -> f a = a.
Proof.
  induction l as [|b l IH]; intros H Ha; [contradiction|]. cbn [map] in H. inversion H. destruct Ha as [->|Ha]; [congruence|].
  apply IH; [congruence|exact Ha].
Qed.
(** ** What reading gives, at the least
    Only where all children of a container are inside it does this say anything
    about them; that is all that is needed to tell padded values apart, and it
    also holds where reading wraps around. *)
Fixpoint loosely (big : bool) (t : ty) (d : list byte) (v : value) {struct t} : Prop :=
  let items (ts : list ty) := map (fun t => (sp_align t, sp_size t)) ts in
  match t with
  | TA x =>
      match sp_size x with
      | Some _ => sp_decode big t (Some d) = v
      | None => let cs := sp_array_children (sp_align x) d in
                exists vs, v = VArray vs /\ length vs = length cs /\
                  (~ In None cs -> Forall2 (fun c v => match c with Some b => loosely big x b v | None => True end) cs vs)
      end
  | TM x =>
      match sp_size x, d with
      | None, _ :: _ => exists w, v = VMaybe (Some w) /\ loosely big x (removelast d) w
      | _, _ => sp_decode big t (Some d) = v
      end
  | TTuple ts =>
      match sp_size t with
      | Some _ => sp_decode big t (Some d) = v
      | None => let cs := sp_struct_children (items ts) d in
                exists vs, v = VTuple vs /\
                (~ In None cs ->
                 (fix go (ts : list ty) (cs : list (option (list byte))) (vs : list value) : Prop :=
                    match ts, cs, vs with
                    | [], [], [] => True
                    | t :: ts, c :: cs, v :: vs => match c with Some b => loosely big t b v | None => True end /\ go ts cs vs
                    | _, _, _ => False
                    end) ts cs vs)
      end
  | TDict k v' =>
      match sp_size t with
      | Some _ => sp_decode big t (Some d) = v
      | None => exists vs, v = VTuple vs /\
                (~ In None (sp_struct_children (items [k; v']) d) ->
                 match sp_struct_children (items [k; v']) d, vs with
                 | [Some ck; Some cv], [a; b] => loosely big k ck a /\ loosely big v' cv b
                 | _, _ => False
                 end)
      end
  | _ => sp_decode big t (Some d) = v
  end.
Lemma loosely_fixed big t n d v : size_of t = Some n -> (loosely big t d v <-> sp_decode big t (Some d) = v).
Proof.
  intros Hn. destruct t; try discriminate; try reflexivity; cbn [loosely]; rewrite sp_size_of, Hn; reflexivity.
Qed.
Definition loosely_opt (big : bool) (t : ty) (c : option (list byte)) (v : value) : Prop :=
  match c with Some b => loosely big t b v | None => True end.
Lemma loosely_struct big t d v : is_struct t -> size_of t = None ->
  (loosely big t d v <-> exists vs, v = VTuple vs /\
    (~ In None (struct_cuts t d) ->
     length vs = length (children_of t) /\
     Forall (fun p => loosely_opt big (fst (fst p)) (snd (fst p)) (snd p)) (combine (combine (children_of t) (struct_cuts t d)) vs))).
Proof.
  intros Hs Hn. unfold struct_cuts. rewrite Hn.
  destruct t as [| | | | | | | | | | | | |x|x|ts|k v']; cbn [is_struct] in Hs; try tauto; cbn [loosely children_of];
    rewrite sp_size_of, Hn, sp_items_of.
  - assert (G : forall ts cs vs, length cs = length ts ->
      ((fix go (ts : list ty) (cs : list (option (list byte))) (vs : list value) : Prop :=
                    match ts, cs, vs with
                    | [], [], [] => True
                    | t :: ts, c :: cs, v :: vs => match c with Some b => loosely big t b v | None => True end /\ go ts cs vs
                    | _, _, _ => False
                    end) ts cs vs <->
       length vs = length ts /\ Forall (fun p => loosely_opt big (fst (fst p)) (snd (fst p)) (snd p)) (combine (combine ts cs) vs))).
    { clear. induction ts as [|t ts IH]; intros [|c cs] vs Hl; cbn [length] in Hl; try lia.
      - destruct vs; cbn [length combine]; split; auto; try tauto. intros [H _]. discriminate.
      - destruct vs as [|v vs]; cbn [combine length]; [split; [tauto|intros [H _]; discriminate]|].
        rewrite IH by lia. split.
        + intros [H1 [H2 H3]]. split; [lia|]. constructor; assumption.
        + intros [H1 H2]. inversion H2; subst. cbn [fst snd] in *. split; [assumption|]. split; [lia|assumption]. }
    split; intros (vs & -> & H); exists vs; (split; [reflexivity|]); intros HN; specialize (H HN); apply G in H || apply G;
      try assumption; rewrite sp_struct_children_length; unfold items_of; apply map_length.
  - pose proof (sp_struct_children_length (items_of [k; v']) d) as Hl.
    change (length (items_of [k; v'])) with 2%nat in Hl.
    destruct (sp_struct_children _ d) as [|a [|b [|c l]]]; cbn [length] in Hl; try lia.
    split; intros (vs & -> & H); exists vs; (split; [reflexivity|]); intros HN; specialize (H HN).
    + destruct a as [a|]; [|tauto]. destruct b as [b|]; [|tauto]. destruct vs as [|x [|y [|]]]; try tauto.
      destruct H. split; [reflexivity|]. repeat constructor; assumption.
    + destruct H as [H1 H2]. destruct vs as [|x [|y [|]]]; try discriminate. cbn [combine] in H2.
      destruct a as [a|]; [|exfalso; apply HN; now left]. destruct b as [b|]; [|exfalso; apply HN; right; now left].
      inversion H2 as [|? ? G1 G2]; subst. inversion G2 as [|? ? G3 G4]; subst. split; assumption.
Qed.
Lemma loosely_decode big t : forall d, loosely big t d (sp_decode big t (Some d)).
Proof.
  induction t as [t Hns IH|t Hs IH] using ty_struct_ind; intros d.
  - destruct t as [| | | | | | | | | | | | |x|x|ts|a b]; cbn [is_struct] in Hns; try tauto; try reflexivity.
    + specialize (IH x (or_introl eq_refl)). cbn [loosely sp_decode]. rewrite sp_size_of. destruct (size_of x); [reflexivity|].
      eexists. split; [reflexivity|]. split; [apply map_length|]. intros _.
      generalize (sp_array_children (sp_align x) d). intros cs. induction cs as [|[b|] cs IHc]; constructor; auto.
    + specialize (IH x (or_intror eq_refl)). cbn [loosely sp_decode]. rewrite sp_size_of. destruct (size_of x); [reflexivity|].
      destruct d as [|b d]; [reflexivity|]. eexists. split; [reflexivity|]. apply IH.
  - destruct (size_of t) as [n|] eqn:Hn; [now apply (loosely_fixed big t n)|]. apply loosely_struct; auto.
    assert (Hg : size_good t (blen d)) by (unfold size_good; rewrite Hn; destruct t; cbn [is_struct] in Hs; tauto).
    rewrite sp_decode_struct by assumption. eexists. split; [reflexivity|]. intros _.
    pose proof (struct_cuts_length t d) as Hl. unfold dec_all.
    split; [rewrite map_length, combine_length; lia|]. revert Hl. generalize (struct_cuts t d). clear -IH.
    induction IH as [|c cs Hc _ IHc]; intros [|x l] Hl; cbn [combine map length] in *; try lia; constructor; auto.
    cbn [fst snd]. destruct x; [apply Hc|exact I].
Qed.
Lemma Forall2_in_r {A B} (R : A -> B -> Prop) l (f : B -> A) l' : Forall2 R l l' -> l = map f l' -> forall b, In b l' -> R (f b) b.
Proof.
  intros H. induction H as [|a b l l' HR _ IH]; intros E b' Hb; [contradiction|]. cbn [map] in E. inversion E; subst.
  destruct Hb as [<-|Hb]; auto.
Qed.

Lemma not_loosely big t : forall v, sp_typed t v -> sp_tails big t v = false -> len (sp_written big t v) < 2 ^ 64 ->
  ~ loosely big t (sp_written big t v) v.
Proof.
  unfold sp_written.
  induction t as [t Hns IH|t Hs IH] using ty_struct_ind; intros v Ht HT Hl E.
  - destruct t as [| | | | | | | | | | | | |x|x|ts|a b]; cbn [is_struct] in Hns; try tauto; destruct v as [z|bits|b|s|s d|vs|o|vs];
      cbn [sp_typed] in Ht; try tauto; try discriminate.
    + change (sp_typed (TA x) (VArray vs)) in Ht. rewrite typed_array in Ht.
      cbn [sp_tails sp_bytes loosely sp_decode] in *. rewrite sp_fixed_of in *. unfold is_fixed in *. rewrite sp_size_of in E.
      rewrite Forall_forall in Ht.
      assert (Hno : forall v, In v vs -> len (sp_bytes true big x v) < 2 ^ 64 -> sp_tails big x v = false ->
                ~ loosely big x (sp_bytes true big x v) v) by auto.
      destruct (size_of x) as [n|] eqn:En.
      * cbn [orb] in HT. rewrite andb_true_r in HT. apply forallb_false in HT as (v & Hv & HT).
        assert (Hlen : Forall (fun b => len b = n) (map (sp_bytes true big x) vs)).
        { apply Forall_map. apply Forall_forall. intros w Hw. apply bytes_fixed; auto. }
        pose proof (size_of_props x n En) as [Hp _].
        rewrite (concat_same_len n) in E by assumption. rewrite N.mul_comm, N.mod_mul in E by lia. cbn [N.eqb] in E.
        rewrite pieces_concat in E; [|lia| |lia].
        2:{ eapply Forall_impl; [|exact Hlen]. intros b Hb. unfold len in Hb. lia. }
        rewrite !map_map in E. inversion E as [E'].
        apply (Hno v Hv); [|exact HT|].
        -- apply (in_map (sp_bytes true big x)) in Hv. apply concat_len in Hv. lia.
        -- apply (loosely_fixed big x n); [exact En|].
           exact (map_id_in (fun a => sp_decode big x (Some (sp_bytes true big x a))) vs v ltac:(congruence) Hv).
      * assert (Ha : is_alignment (sp_align x)) by (rewrite sp_align_of; auto with al).
        destruct (array_bytes_cut true (sp_align x) (map (sp_bytes true big x) vs) Ha Hl) as [H1 H2].
        destruct E as (vs' & E & Hlen & HF). inversion E; subst vs'. clear E.
        destruct (N.eq_dec (len (last (map (sp_bytes true big x) vs) []) mod sp_align x) 0) as [Hm|Hm].
        -- rewrite H1 in HF by now right.
           assert (HN : ~ In None (map Some (map (sp_bytes true big x) vs))).
           { intros H. apply in_map_iff in H as (? & ? & _). discriminate. }
           specialize (HF HN).
           assert (Hall : forall v, In v vs -> sp_tails big x v = true).
           { intros v Hv. destruct (sp_tails big x v) eqn:Ev; [reflexivity|]. exfalso. apply (Hno v Hv); [|exact Ev|].
             - apply (in_map (sp_bytes true big x)) in Hv. pose proof (array_bytes_len true (sp_align x) _ _ Ha Hv). lia.
             - rewrite map_map in HF. exact (Forall2_in_r _ _ _ _ HF eq_refl v Hv). }
           assert (HT2 : forallb (sp_tails big x) vs = true) by now apply forallb_forall.
           rewrite HT2 in HT. cbn [orb andb] in HT.
           rewrite (last_map_in (sp_bytes true big x) (sp_bytes false big x)) in Hm.
           ++ change (map (sp_encode big x) vs) with (map (sp_bytes false big x) vs) in HT. rewrite Hm in HT. discriminate.
           ++ intros v Hv. apply (tails_same big x v); auto.
        -- apply (H2 eq_refl Hm). rewrite map_length. congruence.
    + destruct o as [v|]; [|discriminate]. cbn [sp_tails sp_bytes loosely sp_decode] in *. rewrite sp_fixed_of in *. unfold is_fixed in *.
      rewrite sp_size_of in E. destruct (size_of x) as [n|] eqn:En.
      * rewrite (bytes_fixed true big x n v En Ht), N.eqb_refl in E. inversion E as [E']. apply (IH x (or_intror eq_refl) v); auto.
        apply (loosely_fixed big x n); assumption.
      * destruct (sp_bytes true big x v ++ [x00]) eqn:F; [destruct (sp_bytes true big x v); discriminate|]. rewrite <- F in *.
        rewrite removelast_last in E. destruct E as (w & E & EW). inversion E; subst w. apply (IH x (or_intror eq_refl) v); auto.
        change @len with @blen in *. rewrite blen_app in Hl. lia.
  - destruct (typed_struct t v Hs Ht) as (vs & -> & HF). pose proof (Forall2_length _ _ _ HF) as Hlen.
    rewrite tails_struct in HT by auto. destruct (struct_bytes_cuts true big t vs Hs HF Hl) as [Hc Hg].
    unfold tails_all in HT. apply forallb_false in HT as ([c v] & Hin & HT). cbn [fst snd] in HT.
    rewrite Forall_forall in IH. apply (IH c (in_combine_l _ _ _ _ Hin) v).
    + pose proof (Forall2_combine _ _ _ HF) as G. rewrite Forall_forall in G. exact (G _ Hin).
    + exact HT.
    + assert (len (sp_bytes true big c v) <= len (sp_bytes true big t (VTuple vs))); [|lia].
      apply enc_len; auto. unfold enc_all. apply in_map_iff. exists (c, v). auto.
    + destruct (size_of t) as [n|] eqn:En.
      * apply (loosely_fixed big t n) in E; [|exact En].
        pose proof (fixed_children t n Hs En) as Hfc. rewrite Forall_forall in Hfc.
        specialize (Hfc c (in_combine_l _ _ _ _ Hin)). unfold is_fixed in Hfc. destruct (size_of c) as [m|] eqn:Em; [|discriminate].
        apply (loosely_fixed big c m); [exact Em|].
        rewrite sp_decode_struct in E by assumption. rewrite Hc in E. inversion E as [E'].
        unfold dec_all, enc_all in E'. clear -E' Hin Hlen. revert vs Hlen E' Hin.
        induction (children_of t) as [|c' cs IH]; intros [|v' vs] Hlen E' Hin; try discriminate; [contradiction|].
        cbn [combine map fst snd] in *. injection E' as E1 E2. destruct Hin as [Hin|Hin].
        -- inversion Hin; subst. congruence.
        -- apply (IH vs); auto.
      * apply loosely_struct in E as (vs' & E & HE); auto. inversion E; subst vs'. clear E.
        rewrite Hc in HE. destruct HE as [_ HE].
        { intros H. apply in_map_iff in H as (? & ? & _). discriminate. }
        unfold enc_all in HE. clear -HE Hin. revert vs HE Hin.
        induction (children_of t) as [|c' cs IH]; intros [|v' vs] HE Hin; try contradiction.
        cbn [combine map fst snd] in *. inversion HE; subst. destruct Hin as [Hin|Hin].
        -- inversion Hin; subst. assumption.
        -- apply (IH vs); auto.
Qed.
Lemma not_back big t v : sp_typed t v -> sp_tails big t v = false -> len (sp_written big t v) < 2 ^ 64 ->
  sp_decode big t (Some (sp_written big t v)) <> v.
Proof.
  intros Ht HT Hl E. apply (not_loosely big t v Ht HT Hl). rewrite <- E at 2. apply loosely_decode.
Qed.
Lemma written_loosely big t v : sp_typed t v -> len (sp_written big t v) < 2 ^ 64 ->
  loosely big t (sp_written big t v) v -> sp_tails big t v = true.
Proof.
  intros Ht Hl E. destruct (sp_tails big t v) eqn:HT; [reflexivity|]. exfalso. now apply (not_loosely big t v Ht HT Hl).
Qed.
(** What the padding changes, exactly. *)
Lemma written_normal_iff big t v : sp_typed t v -> len (sp_written big t v) < 2 ^ 64 ->
  (sp_written big t v = sp_encode big t v <-> sp_tails big t v = true).
Proof.
  intros Ht Hl. split; [|now apply tails_same]. intros E. destruct (sp_tails big t v) eqn:HT; [reflexivity|].
  exfalso. apply (not_back big t v Ht HT Hl). rewrite E in *. now apply encode_back.
Qed.
Lemma written_back_iff big t v : sp_typed t v -> len (sp_written big t v) < 2 ^ 64 ->
  (sp_decode big t (Some (sp_written big t v)) = v <-> sp_tails big t v = true).
Proof.
  intros Ht Hl. split.
  - intros E. destruct (sp_tails big t v) eqn:HT; [reflexivity|]. exfalso. now apply (not_back big t v Ht HT Hl).
  - intros HT. rewrite (tails_same big t v Ht HT) in *. now apply encode_back.
Qed.
