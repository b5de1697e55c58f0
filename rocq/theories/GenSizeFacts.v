(** How much text the macros emit. *)
From Verif Require Import Base BaseFacts Types Layout AlignedBytes Spec CoreFmt Ser Marker Gen Histories TypesFacts LayoutFacts AccessFacts ReadFacts GenMain PiecesFacts.
From Coq Require Import Lia ZifyBool ZifyNat ZifyN.
Ltac Zify.zify_post_hook ::= idtac.

Lemma digits_len k : forall f n, n < 10 ^ (1 + k) -> blen (digits f 10 n) <= 1 + k.
Proof.
  induction k as [|k IH] using N.peano_ind; intros f n Hn.
  - destruct f as [|f]; cbn [digits]; [rewrite blen_nil; lia|]. change (10 ^ (1 + 0)) with 10 in Hn.
    rewrite (proj2 (N.ltb_lt _ _) Hn). rewrite blen_cons, blen_nil. lia.
  - destruct f as [|f]; cbn [digits]; [rewrite blen_nil; lia|]. destruct (n <? 10); [rewrite blen_cons, blen_nil; lia|].
    rewrite blen_app, blen_cons, blen_nil. assert (Hd : n / 10 < 10 ^ (1 + k)).
    { apply N.div_lt_upper_bound; [lia|]. replace (10 * 10 ^ (1 + k)) with (10 ^ (1 + N.succ k)); [exact Hn|].
      replace (1 + N.succ k) with (N.succ (1 + k)) by lia. apply N.pow_succ_r'. }
    specialize (IH f _ Hd). lia.
Qed.
Lemma dec_len n : n < 2 ^ 63 -> blen (dec n) <= 20.
Proof.
  intros H. unfold dec, core_int, radix. assert (Hn : n < 10 ^ (1 + 19)) by (eapply N.lt_trans; [exact H|reflexivity]).
  destruct (Z.of_N n) eqn:E; try lia; (replace (Z.to_N _) with n by lia); eapply N.le_trans; [apply (digits_len 19)| |apply (digits_len 19)|]; try exact Hn; lia.
Qed.
Lemma int_len z : (- 2 ^ 62 < z < 2 ^ 62)%Z -> blen (core_int z) <= 21.
Proof.
  intros H. destruct z as [|p|p].
  - vm_compute. discriminate.
  - change (Z.pos p) with (Z.of_N (N.pos p)). fold (dec (N.pos p)). pose proof (dec_len (N.pos p)). lia.
  - cbn [core_int]. rewrite blen_app. change (blen (bs "-")) with 1. pose proof (dec_len (N.pos p)) as Hd. unfold dec, core_int in Hd. cbn [Z.of_N Z.to_N] in Hd. lia.
Qed.
Lemma name_len t : blen (struct_name t) = type_len t.
Proof. unfold struct_name, Types.escape, type_len, blen. now rewrite map_length. Qed.
Lemma marker_len t : blen (marker_type t) <= 22 * type_len t.
Proof.
  induction t as [t Hns IH|t Hs IH] using ty_struct_ind; pose proof (type_len_pos t) as Hp.
  - destruct t as [| | | | | | | | | | | | |x|x|ts|k v]; cbn [is_struct] in Hns; try tauto; try (vm_compute; discriminate).
    + specialize (IH x (or_introl eq_refl)). rewrite (type_len_parts (TA x) x) by auto. cbn [marker_type].
      destruct (size_of x); rewrite !blen_app; change (blen (bs "NonFixedWidthArray::<")) with 21; change (blen (bs ">")) with 1;
        change (blen (bs "[")) with 1; change (blen (bs "]")) with 1; lia.
    + specialize (IH x (or_intror eq_refl)). rewrite (type_len_parts (TM x) x) by auto. cbn [marker_type].
      destruct (size_of x); rewrite !blen_app; change (blen (bs "MaybeNonFixedSize::<")) with 20; change (blen (bs ">")) with 1;
        change (blen (bs "MaybeFixedSize::<")) with 17; lia.
  - assert (E : marker_type t = bs "Structure" ++ struct_name t) by (destruct t; cbn [is_struct] in Hs; try tauto; reflexivity).
    rewrite E, blen_app, name_len. change (blen (bs "Structure")) with 9.
    pose proof (children_len t Hs). lia.
Qed.

(** ** Sums over children *)
Definition total (ts : list ty) : N := blen (concat (map display ts)).
Lemma total_cons t ts : total (t :: ts) = type_len t + total ts.
Proof. unfold total, type_len. cbn [map concat]. now rewrite blen_app. Qed.
Lemma total_count ts : blen ts <= total ts.
Proof.
  induction ts as [|t ts IH]; [cbn; lia|]. rewrite total_cons, blen_cons. pose proof (type_len_pos t). lia.
Qed.
Lemma total_in ts t : In t ts -> type_len t <= total ts.
Proof. induction ts as [|x ts IH]; intros H; [destruct H|]. rewrite total_cons. destruct H as [->|H]; [lia|]. specialize (IH H). lia. Qed.
Lemma cat_len {A} (f : A -> list byte) (w : A -> ty) K l : (forall x, In x l -> blen (f x) <= K * type_len (w x)) ->
  blen (concat (map f l)) <= K * total (map w l).
Proof.
  induction l as [|x l IH]; intros H; cbn [map concat]; [cbn; lia|]. rewrite blen_app, total_cons.
  pose proof (H x (or_introl eq_refl)). specialize (IH (fun y Hy => H y (or_intror Hy))). lia.
Qed.
Lemma join_len sep l : blen (join sep l) <= blen (concat l) + blen sep * blen l.
Proof.
  induction l as [|x l IH]; [cbn; lia|]. cbn [join concat]. destruct l as [|y l].
  - rewrite blen_app, blen_cons. lia.
  - rewrite !blen_app in *. rewrite (blen_cons x). cbn [concat] in *. rewrite ?blen_app in *. lia.
Qed.
Lemma number_snd {A} (l : list A) : map snd (number l) = l.
Proof. unfold number. generalize 0%nat. induction l as [|x l IH]; intros n; cbn [length seq combine map snd]; [reflexivity|]. now rewrite IH. Qed.
Lemma number_in {A} (l : list A) p : In p (number l) -> N.of_nat (fst p) < blen l.
Proof.
  unfold number. intros H. destruct p as [i x]. apply in_combine_l in H. apply in_seq in H. unfold blen. cbn [fst]. lia.
Qed.
Lemma number_blen {A} (l : list A) : blen (number l) = blen l.
Proof. unfold number, blen. rewrite combine_length, seq_length. lia. Qed.
Lemma num_cat_len (f : nat * ty -> list byte) K ts : (forall i t, N.of_nat i < blen ts -> blen (f (i, t)) <= K * type_len t) ->
  blen (concat (map f (number ts))) <= K * total ts.
Proof.
  intros H. eapply N.le_trans; [apply (cat_len f snd K)|now rewrite number_snd]. intros [i t] Hin. cbn [snd]. apply H. now apply number_in in Hin.
Qed.
Lemma num_join_len sep (f : nat * ty -> list byte) K ts : (forall i t, N.of_nat i < blen ts -> blen (f (i, t)) <= K * type_len t) ->
  blen (join sep (map f (number ts))) <= (K + blen sep) * total ts.
Proof.
  intros H. eapply N.le_trans; [apply join_len|]. pose proof (num_cat_len f K ts H). pose proof (total_count ts).
  replace (blen (map f (number ts))) with (blen ts) by (unfold blen; rewrite map_length; symmetry; apply number_blen). nia.
Qed.
Ltac lits := repeat rewrite blen_app;
  repeat match goal with
  | |- context [blen (bs ?x)] => let v := eval vm_compute in (blen (bs x)) in change (blen (bs x)) with v
  | |- context [blen nl] => change (blen nl) with 1
  end.

(** ** The pieces *)
Lemma lay_total ts : lay_bound ts <= 16 * total ts.
Proof.
  induction ts as [|t ts IH]; cbn [lay_bound]; [cbn; lia|]. rewrite total_cons. pose proof (type_len_pos t). unfold size_or_0.
  destruct (size_of t) as [n|] eqn:E; [apply size_of_bound in E|]; lia.
Qed.
Lemma option_len t : type_len t < 2 ^ 32 -> blen (option_text (size_of t)) <= 26.
Proof.
  intros H. unfold option_text. destruct (size_of t) as [n|] eqn:E; [|vm_compute; discriminate].
  apply size_of_bound in E. lits. pose proof (dec_len n). lia.
Qed.
Lemma bool_len b : blen (bool_text b) <= 5.
Proof. destruct b; vm_compute; discriminate. Qed.
Lemma align8 t : align_of t <= 8.
Proof. destruct (align_of_alignment t) as [->|[->|[->| ->]]]; lia. Qed.
Lemma child_text_len nfo t r b : type_len t < 2 ^ 32 -> nfo < 2 ^ 32 ->
  (let '(i, a, b, c) := r in (-2 <= i < 2 ^ 33)%Z /\ a < 2 ^ 40 /\ b <= 8 /\ c < 2 ^ 40) ->
  blen (child_text nfo t r b) <= 411 * type_len t.
Proof.
  intros Ht Hn. destruct r as [[[i a] b'] c]. intros (Hi & Ha & Hb & Hc). unfold child_text. lits.
  pose proof (marker_len t). pose proof (dec_len b'). pose proof (int_len i). pose proof (dec_len a). pose proof (dec_len c).
  pose proof (option_len t Ht). pose proof (bool_len b). pose proof (dec_len nfo). pose proof (type_len_pos t). fold (type_len t). lia.
Qed.
Lemma children_text_len nfo ts : nfo < 2 ^ 32 -> total ts < 2 ^ 32 -> forall rs,
  Forall (fun r : row => let '(i, a, b, c) := r in (-2 <= i < 2 ^ 33)%Z /\ a < 2 ^ 40 /\ b <= 8 /\ c < 2 ^ 40) rs ->
  blen (children_text nfo ts rs) <= 411 * total ts.
Proof.
  intros Hn. induction ts as [|t ts IH]; intros Ht rs Hr; [cbn; lia|]. rewrite total_cons in *. destruct rs as [|r rs]; [cbn; lia|].
  inversion Hr as [|? ? H1 H2]; subst. cbn [children_text]. rewrite blen_app.
  specialize (IH ltac:(lia) rs H2). pose proof (child_text_len nfo t r (match ts with [] => true | _ => false end) ltac:(lia) Hn H1). lia.
Qed.
Lemma table_small ts : forall i a b c, is_alignment b -> (-2 <= i)%Z -> 
  Forall (fun r : row => let '(i', _, b', _) := r in (i <= i' <= i + Z.of_nat (length ts))%Z /\ b' <= 8) (table_go i a b c ts).
Proof.
  induction ts as [|t ts IH]; intros i a b c Hb Hi; cbn [table_go]; [constructor|]. pose proof (align8 t) as H8.
  assert (Hb8 : b <= 8) by (destruct Hb as [->|[->|[->| ->]]]; lia).
  destruct (align_of t <=? b); (constructor; [cbn [length]; lia|]); destruct (size_of t);
    (eapply Forall_impl; [|apply IH; [first [assumption|apply align_of_alignment|left; reflexivity]|lia]]); intros [[[? ?] ?] ?]; cbn [length]; lia.
Qed.
Lemma table_numbers ts : total ts < 2 ^ 32 ->
  Forall (fun r : row => let '(i, a, b, c) := r in (-2 <= i < 2 ^ 33)%Z /\ a < 2 ^ 40 /\ b <= 8 /\ c < 2 ^ 40) (generate_table ts).
Proof.
  intros Ht. pose proof (table_bound ts) as H1. pose proof (table_small ts (-1) 0 1 0 (or_introl eq_refl) ltac:(lia)) as H2. fold (generate_table ts) in H2.
  pose proof (lay_total ts) as HL. pose proof (total_count ts) as HC. unfold blen in HC. rewrite Forall_forall in *. intros r Hr. specialize (H1 r Hr). specialize (H2 r Hr).
  destruct r as [[[i a] b] c]. lia.
Qed.
(** Statements: each is charged to a child, the last to the structure. *)
Lemma zeros_len n : blen (concat (repeat (bs "\0") n)) = 2 * N.of_nat n.
Proof. induction n as [|n IH]; [reflexivity|]. cbn [repeat concat]. rewrite blen_app, IH. change (blen (bs "\0")) with 2. lia. Qed.
Definition small (c : cmd) : Prop :=
  match c with
  | CZeros n => n <= 8
  | CAdd n | CPad n => n < 2 ^ 40
  | CChild n | CChildAdd n => N.of_nat n < 2 ^ 40
  | CFrame i => (- 2 ^ 40 < i < 2 ^ 40)%Z
  end.
Lemma cmd_len c : small c -> blen (cmd_text c) <= 60.
Proof.
  destruct c as [n|n|n|n|n|i]; cbn [small cmd_text]; intros H; lits.
  - rewrite zeros_len. lia.
  - pose proof (dec_len n). lia.
  - pose proof (dec_len n). lia.
  - pose proof (dec_len (N.of_nat n)). lia.
  - pose proof (dec_len (N.of_nat n)). lia.
  - pose proof (int_len i). lia.
Qed.
Lemma cmds_len cs : Forall small cs -> blen (join nl (map cmd_text cs)) <= 61 * blen cs.
Proof.
  intros H. eapply N.le_trans; [apply join_len|]. change (blen nl) with 1.
  assert (HS : blen (concat (map cmd_text cs)) <= 60 * blen cs).
  { induction H as [|c cs Hc _ IH]; cbn [map concat]; [cbn; lia|]. rewrite blen_app, blen_cons. apply cmd_len in Hc. lia. }
  assert (blen (map cmd_text cs) = blen cs) by (unfold blen; now rewrite map_length). lia.
Qed.
Lemma nonfixed_small nfo ts : nfo < 2 ^ 34 -> forall n base off k, total ts < 2 ^ 34 -> N.of_nat n + blen ts < 2 ^ 35 -> k + blen ts < 2 ^ 35 ->
  Forall small (nonfixed_cmds n base off k nfo ts) /\ blen (nonfixed_cmds n base off k nfo ts) <= 5 * blen ts.
Proof.
  intros Hf. induction ts as [|t ts IH]; intros n base off k Ht Hn Hk; cbn [nonfixed_cmds]; [split; [constructor|cbn; lia]|].
  rewrite total_cons in Ht. rewrite blen_cons in *. pose proof (align_of_alignment t) as Ha. pose proof (align8 t) as H8.
  assert (Hp : align off (align_of t) - off <= 8) by (rewrite align_pad_to by assumption; pose proof (pad_to_lt (align_of t) off Ha); lia).
  destruct (align_of t <=? base); [destruct (0 <? _)|]; (destruct (size_of t) as [z|] eqn:Ez; [pose proof (size_of_bound t z Ez)|destruct ts as [|t' ts]]);
    match goal with |- context [nonfixed_cmds (S n) ?b ?o ?k' ?f ?l] =>
      assert (HI : Forall small (nonfixed_cmds (S n) b o k' f l) /\ blen (nonfixed_cmds (S n) b o k' f l) <= 5 * blen l) by (apply IH; try lia);
      remember (nonfixed_cmds (S n) b o k' f l) as r eqn:Er; clear Er; destruct HI as [HI1 HI2] end;
    (split; [repeat (apply Forall_app; split); repeat constructor; cbn [small]; try assumption; try lia|rewrite !blen_app, ?blen_cons, ?blen_nil in *; lia]).
Qed.
Lemma frames_small ts : n_frame_offsets ts <= total ts.
Proof. pose proof (frames_len ts). pose proof (total_count ts). unfold len, blen in *. lia. Qed.
Lemma serialize_types_len ts : total ts < 2 ^ 32 -> blen (serialize_types ts) <= 80 * total ts.
Proof.
  intros Ht. pose proof (total_count ts) as HC. unfold serialize_types. eapply N.le_trans; [apply (num_join_len _ _ 78)|now vm_compute (blen (bs ", "))].
  intros i t Hi. cbn [fst snd]. lits. pose proof (dec_len (N.of_nat i)). pose proof (marker_len t). pose proof (type_len_pos t). lia.
Qed.
Lemma serialize_types2_len ts : total ts < 2 ^ 32 -> blen (serialize_types2 ts) <= 23 * total ts.
Proof.
  intros Ht. pose proof (total_count ts) as HC. unfold serialize_types2. eapply N.le_trans; [apply (num_join_len _ _ 22)|now vm_compute (blen (bs " "))].
  intros i t Hi. cbn [fst snd]. lits. pose proof (dec_len (N.of_nat i)). pose proof (type_len_pos t). lia.
Qed.
Lemma non_fixed_len t : is_struct t -> type_len t < 2 ^ 32 -> blen (non_fixed_text t) <= 3000 * type_len t.
Proof.
  intros Hs Ht. pose proof (children_len t Hs) as HL. fold (total (children_of t)) in HL. set (ts := children_of t) in *.
  pose proof (total_count ts) as HC. pose proof (frames_small ts) as HF. pose proof (align8 t) as H8.
  unfold non_fixed_text. cbv zeta. fold ts. lits. rewrite !name_len.
  pose proof (dec_len (align_of t) ltac:(lia)). pose proof (dec_len (n_frame_offsets ts) ltac:(lia)).
  pose proof (children_text_len (n_frame_offsets ts) ts ltac:(lia) ltac:(lia) _ (table_numbers ts ltac:(lia))).
  pose proof (serialize_types_len ts ltac:(lia)). pose proof (serialize_types2_len ts ltac:(lia)).
  assert (Hx1 : blen (concat (map (fun c => bs "                &'a " ++ marker_type c ++ bs ",") ts)) <= 43 * total ts).
  { eapply N.le_trans; [apply (cat_len _ (fun c => c) 43)|rewrite map_id; lia]. intros c _. lits. pose proof (marker_len c). pose proof (type_len_pos c). lia. }
  assert (Hx2 : blen (concat (map (fun c => bs "&'a " ++ marker_type c ++ bs ", ") ts)) <= 43 * total ts).
  { eapply N.le_trans; [apply (cat_len _ (fun c => c) 43)|rewrite map_id; lia]. intros c _. lits. pose proof (marker_len c). pose proof (type_len_pos c). lia. }
  destruct (nonfixed_small (n_frame_offsets ts) ts ltac:(lia) 0%nat 8 0 0 ltac:(lia) ltac:(lia) ltac:(lia)) as [Hx3 Hx4].
  pose proof (cmds_len _ Hx3) as Hx5. lia.
Qed.
(** ** Fixed-size structures *)
Lemma packed_total rows : forall x pads e, packed_go rows x = Some (pads, e) -> x + sum pads + sum (map snd rows) = e.
Proof.
  induction rows as [|[[[[i a] b] c] z] rows IH]; intros x pads e E; cbn [packed_go] in E; cbn [map sum fold_right snd].
  - injection E as <- <-. cbn. lia.
  - destruct (x <=? _) eqn:Ex; [|discriminate]. destruct (packed_go rows _) as [[ps e']|] eqn:Er; [|discriminate]. injection E as <- <-.
    apply IH in Er. cbn [sum fold_right]. fold (sum ps). fold (sum (map snd rows)). lia.
Qed.
Lemma table_length ts : forall i a b c, length (table_go i a b c ts) = length ts.
Proof. induction ts as [|t ts IH]; intros; cbn [table_go]; [reflexivity|]. destruct (_ <=? _); cbn [length]; destruct (size_of t); now rewrite IH. Qed.
Lemma map_snd_combine {A B} (a : list A) (b : list B) : length a = length b -> map snd (combine a b) = b.
Proof. revert b. induction a as [|x a IH]; intros [|y b] E; try discriminate E; cbn [combine map snd]; [reflexivity|]. f_equal. apply IH. now injection E. Qed.
Lemma packed_fits t pads final : packed_struct t = Some (pads, final) -> exists z, size_of t = Some z /\
  sum pads + sum (map size_or_0 (children_of t)) + final = z /\ length pads = length (children_of t).
Proof.
  unfold packed_struct. destruct (size_of t) as [z|]; [|discriminate]. destruct (packed_go _ _) as [[ps e]|] eqn:E; [|discriminate].
  destruct (e <=? z) eqn:Ez; [|discriminate]. intros H. injection H as -> <-. exists z. split; [reflexivity|].
  pose proof (packed_total _ _ _ _ E) as HT. pose proof (packed_len _ _ _ _ E) as HL. rewrite map_snd_combine in HT by (unfold generate_table; rewrite table_length, map_length; reflexivity).
  rewrite combine_length in HL. unfold generate_table in HL. rewrite table_length, map_length in HL. fold size_or_0 in HT.
  change (map (fun t => match size_of t with Some s => s | None => 0 end) (children_of t)) with (map size_or_0 (children_of t)) in HT. lia.
Qed.
Lemma fields_len final : final < 2 ^ 40 -> forall pads ts n k pos, N.of_nat n + blen ts < 2 ^ 40 -> N.of_nat k + blen ts < 2 ^ 40 ->
  pos + sum pads + sum (map size_or_0 ts) < 2 ^ 40 -> blen (fields_text n k pos pads final ts) <= 191 * total ts + 63.
Proof.
  intros Hf. pose proof (dec_len final ltac:(lia)) as Hfin.
  induction pads as [|p pads IH]; intros ts n k pos Hn Hk Hp; cbn [fields_text].
  - assert (HH : blen (if 0 <? final then bs "    _padding_" ++ dec (N.of_nat k) ++ bs " : [u8;" ++ dec final ++ bs "]," ++ nl else []) <= 63).
    { destruct (0 <? final); [|cbn; lia]. lits. pose proof (dec_len (N.of_nat k) ltac:(lia)). lia. } destruct ts; lia.
  - destruct ts as [|t ts].
    { destruct (0 <? final); [|cbn; lia]. lits. pose proof (dec_len (N.of_nat k) ltac:(lia)). lia. }
    rewrite total_cons. rewrite blen_cons in Hn, Hk. cbn [map sum fold_right] in Hp. fold (sum pads) in Hp. fold (sum (map size_or_0 ts)) in Hp.
    fold (size_or_0 t). cbv zeta.
    specialize (IH ts (S n) (if 0 <? p then S k else k) (pos + p + size_or_0 t) ltac:(lia) ltac:(destruct (0 <? p); lia) ltac:(lia)).
    remember (fields_text (S n) (if 0 <? p then S k else k) (pos + p + size_or_0 t) pads final ts) as r eqn:Er. clear Er.
    pose proof (dec_len (N.of_nat k) ltac:(lia)). pose proof (dec_len (N.of_nat n) ltac:(lia)). pose proof (dec_len p ltac:(lia)).
    pose proof (dec_len (pos + p) ltac:(lia)). pose proof (dec_len (pos + p + size_or_0 t) ltac:(lia)). pose proof (marker_len t). pose proof (type_len_pos t).
    destruct (0 <? p); lits; fold (type_len t); change (blen (@nil byte)) with 0; lia.
Qed.
Lemma set_fields_len final : final < 2 ^ 40 -> forall pads ts n k, N.of_nat n + blen ts < 2 ^ 40 -> N.of_nat k + blen ts < 2 ^ 40 ->
  sum pads < 2 ^ 40 -> blen (set_fields_text n k pads final ts) <= 118 * total ts + 61.
Proof.
  intros Hf. pose proof (dec_len final ltac:(lia)) as Hfin.
  induction pads as [|p pads IH]; intros ts n k Hn Hk Hp; cbn [set_fields_text].
  - assert (HH : blen (if 0 <? final then bs "_padding_" ++ dec (N.of_nat k) ++ bs " : [0u8;" ++ dec final ++ bs "]," ++ nl else []) <= 61).
    { destruct (0 <? final); [|cbn; lia]. lits. pose proof (dec_len (N.of_nat k) ltac:(lia)). lia. } destruct ts; lia.
  - destruct ts as [|t ts].
    { destruct (0 <? final); [|cbn; lia]. lits. pose proof (dec_len (N.of_nat k) ltac:(lia)). lia. }
    rewrite total_cons. rewrite blen_cons in Hn, Hk. cbn [sum fold_right] in Hp. fold (sum pads) in Hp.
    specialize (IH ts (S n) (if 0 <? p then S k else k) ltac:(lia) ltac:(destruct (0 <? p); lia) ltac:(lia)).
    remember (set_fields_text (S n) (if 0 <? p then S k else k) pads final ts) as r eqn:Er. clear Er.
    pose proof (dec_len (N.of_nat k) ltac:(lia)). pose proof (dec_len (N.of_nat n) ltac:(lia)). pose proof (dec_len p ltac:(lia)). pose proof (type_len_pos t).
    destruct (0 <? p); lits; change (blen (@nil byte)) with 0; lia.
Qed.
Lemma packed_cmds_len final : forall pads n, N.of_nat n + blen pads < 2 ^ 40 ->
  blen (concat (map cmd_text (packed_cmds n pads final))) <= 60 * blen pads + 2 * (sum pads + final) + 20 /\ blen (packed_cmds n pads final) <= 2 * blen pads + 1.
Proof.
  induction pads as [|p pads IH]; intros n Hn; cbn [packed_cmds].
  - destruct (0 <? final); cbn [map concat cmd_text]; [|cbn; lia]. lits. rewrite zeros_len. change (blen (@nil byte)) with 0. cbn [sum fold_right]. rewrite ?blen_cons, ?(@blen_nil cmd), ?(@blen_nil N). lia.
  - rewrite blen_cons in *. specialize (IH (S n) ltac:(lia)). remember (packed_cmds (S n) pads final) as r eqn:Er. clear Er. destruct IH as [IH1 IH2].
    pose proof (dec_len (N.of_nat n) ltac:(lia)). cbn [sum fold_right]. fold (sum pads).
    destruct (0 <? p); cbn [app map concat cmd_text]; lits; rewrite ?zeros_len, ?blen_cons; change (blen (@nil byte)) with 0; lia.
Qed.
Lemma packed_text_len t text : is_struct t -> type_len t < 2 ^ 32 -> packed_text t = Some text -> blen text <= 3000 * type_len t.
Proof.
  intros Hs Ht E. unfold packed_text in E. destruct (packed_struct t) as [[pads final]|] eqn:Ep; [|discriminate]. cbv zeta in E. apply Some_inj in E. subst text.
  destruct (packed_fits t pads final Ep) as (z & Ez & Hz & Hlen). apply size_of_bound in Ez.
  pose proof (children_len t Hs) as HL. fold (total (children_of t)) in HL. set (ts := children_of t) in *.
  pose proof (total_count ts) as HC. pose proof (align8 t) as H8. assert (Hpl : blen pads = blen ts) by (unfold blen; now rewrite Hlen).
  lits. rewrite !name_len. pose proof (dec_len (align_of t) ltac:(lia)).
  pose proof (fields_len final ltac:(lia) pads ts 0 0 0 ltac:(lia) ltac:(lia) ltac:(lia)).
  pose proof (set_fields_len final ltac:(lia) pads ts 0 0 ltac:(lia) ltac:(lia) ltac:(lia)).
  destruct (packed_cmds_len final pads 0 ltac:(lia)) as [Hc1 Hc2].
  pose proof (join_len nl (map cmd_text (packed_cmds 0 pads final))) as Hc3. change (blen nl) with 1 in Hc3.
  replace (blen (map cmd_text (packed_cmds 0 pads final))) with (blen (packed_cmds 0 pads final)) in Hc3 by (unfold blen; now rewrite map_length).
  pose proof (serialize_types_len ts ltac:(lia)). pose proof (serialize_types2_len ts ltac:(lia)).
  assert (Hnum : forall i, N.of_nat i < blen ts -> blen (dec (N.of_nat i)) <= 20) by (intros i Hi; apply dec_len; lia).
  assert (Hx1 : blen (join (bs " ") (map (fun p : nat * ty => bs "&self.field_" ++ dec (N.of_nat (fst p)) ++ bs ",") (number ts))) <= 34 * total ts).
  { eapply N.le_trans; [apply (num_join_len _ _ 33)|now vm_compute (blen (bs " "))]. intros i c Hi. cbn [fst]. lits. specialize (Hnum i Hi). pose proof (type_len_pos c). lia. }
  assert (Hx2 : blen (join (bs ", ") (map (fun p : nat * ty => bs "field_" ++ dec (N.of_nat (fst p)) ++ bs " : " ++ marker_type (snd p)) (number ts))) <= 53 * total ts).
  { eapply N.le_trans; [apply (num_join_len _ _ 51)|now vm_compute (blen (bs ", "))]. intros i c Hi. cbn [fst snd]. lits. specialize (Hnum i Hi). pose proof (type_len_pos c). pose proof (marker_len c). lia. }
  assert (Hx3 : blen (join (bs ", ") (map (fun _ : nat * ty => bs "0") (number ts))) <= 3 * total ts).
  { eapply N.le_trans; [apply (num_join_len _ _ 1)|now vm_compute (blen (bs ", "))]. intros i c Hi. lits. pose proof (type_len_pos c). lia. }
  assert (Hx4 : blen (join (bs " && ") (bs "true" :: map (fun p : nat * ty => bs "self.field_" ++ dec (N.of_nat (fst p)) ++ bs " == other.field_" ++ dec (N.of_nat (fst p))) (number ts))) <= 8 + 74 * total ts).
  { eapply N.le_trans; [apply join_len|]. cbn [concat]. rewrite blen_app, blen_cons. change (blen (bs "true")) with 4. change (blen (bs " && ")) with 4.
    match goal with |- context [concat (map ?f (number ts))] => pose proof (num_cat_len f 70 ts) as HH; replace (blen (map f (number ts))) with (blen ts) by (unfold blen; rewrite map_length; symmetry; apply number_blen) end.
    eassert _ as HH' by (apply HH; intros i c Hi; cbn [fst]; lits; specialize (Hnum i Hi); pose proof (type_len_pos c); lia). lia. }
  assert (Hx5 : blen (join (bs " ") (map (fun p : nat * ty => bs "&'a " ++ marker_type (snd p) ++ bs ",") (number ts))) <= 28 * total ts).
  { eapply N.le_trans; [apply (num_join_len _ _ 27)|now vm_compute (blen (bs " "))]. intros i c Hi. cbn [snd]. lits. pose proof (type_len_pos c). pose proof (marker_len c). lia. }
  lia.
Qed.
Lemma tuple_text_len t text : is_struct t -> type_len t < 2 ^ 32 -> tuple_text t = Some text -> blen text <= 3150 * type_len t.
Proof.
  intros Hs Ht E. unfold tuple_text in E. pose proof (children_len t Hs) as HL.
  destruct (if is_fixed t then packed_text t else Some (non_fixed_text t)) as [out|] eqn:Eo; [|discriminate]. apply Some_inj in E. subst text.
  assert (H : blen out <= 3000 * type_len t).
  { destruct (is_fixed t); [now apply packed_text_len|]. injection Eo as <-. now apply non_fixed_len. }
  lits. rewrite name_len. lia.
Qed.
Lemma types_text_len t : forall text, type_len t < 2 ^ 32 -> types_text t = Some text -> blen text <= 3150 * (type_len t * type_len t).
Proof.
  induction t as [t Hns IH|t Hs IH] using ty_struct_ind; intros text Ht E; pose proof (type_len_pos t) as Hp.
  - destruct t as [| | | | | | | | | | | | |x|x|ts|k v]; cbn [is_struct] in Hns; try tauto; cbn [types_text] in E; try (injection E as <-; cbn; lia).
    + specialize (IH x (or_introl eq_refl) text). rewrite (type_len_parts (TA x) x) in * by auto. specialize (IH ltac:(lia) E). nia.
    + specialize (IH x (or_intror eq_refl) text). rewrite (type_len_parts (TM x) x) in * by auto. specialize (IH ltac:(lia) E). nia.
  - pose proof (children_len t Hs) as HL. fold (total (children_of t)) in HL.
    assert (H : exists a b, text = a ++ b /\ tuple_text t = Some b /\ blen a <= 3150 * (total (children_of t) * total (children_of t))).
    { destruct t as [| | | | | | | | | | | | |x|x|ts|k v]; cbn [is_struct] in Hs; try tauto; cbn [types_text] in E; cbn [children_of] in *.
      - destruct ((fix all (l : list ty) : option (list byte) := match l with [] => Some [] | x :: r => match types_text x, all r with Some a, Some b => Some (a ++ b) | _, _ => None end end) ts) as [a|] eqn:Ea; [|discriminate].
        destruct (tuple_text (TTuple ts)) as [b|] eqn:Eb; [|discriminate]. injection E as <-. exists a, b. split; [reflexivity|]. split; [reflexivity|].
        assert (Hts : total ts < 2 ^ 32) by lia. clear -IH Ea Hts. revert a Ea. induction IH as [|x ts Hx _ IHl]; intros a Ea; [injection Ea as <-; cbn; lia|].
        rewrite total_cons in *. destruct (types_text x) as [ax|] eqn:Ex; [|discriminate].
        match type of Ea with match ?m with _ => _ end = _ => destruct m as [al|] eqn:El; [|discriminate] end. injection Ea as <-. rewrite blen_app.
        specialize (Hx ax ltac:(lia) eq_refl). specialize (IHl ltac:(lia) al eq_refl). nia.
      - inversion IH as [|? ? Hk H2]; subst. inversion H2 as [|? ? Hv _]; subst.
        destruct (types_text k) as [a|] eqn:Ek; [|discriminate]. destruct (types_text v) as [b|] eqn:Ev; [|discriminate].
        destruct (tuple_text (TDict k v)) as [c|] eqn:Ec; [|discriminate]. injection E as <-. exists (a ++ b), c. split; [now rewrite app_assoc|]. split; [reflexivity|].
        rewrite !total_cons in *. change (total []) with 0 in *. specialize (Hk a ltac:(lia) eq_refl). specialize (Hv b ltac:(lia) eq_refl). rewrite blen_app. nia. }
    destruct H as (a & b & -> & Hb & Ha). apply tuple_text_len in Hb; [|exact Hs|exact Ht]. rewrite blen_app. nia.
Qed.
(** ** C154 *)
Lemma emitted_at_most x text : define_gv x = Ok text -> len x < 2 ^ 32 -> len text <= 3150 * (len x * len x).
Proof.
  intros E Hx. apply define_gv_iff in E as (t & -> & _ & E). rewrite type_len_show in *. now apply types_text_len.
Qed.
Lemma type_at_most x text : gv_type x = Ok text -> len text <= 22 * len x.
Proof.
  unfold gv_type. destruct (one x) as [e|t] eqn:E; [discriminate|]. intros H. injection H as <-. apply one_show in E as <-. rewrite type_len_show. apply marker_len.
Qed.
Fixpoint deep (k : nat) : ty := match k with O => TS | S k => TTuple [deep k] end.
Lemma deep_show k : sp_show (deep k) = repeat "("%byte k ++ ["s"]%byte ++ repeat ")"%byte k.
Proof.
  induction k as [|k IH]; [reflexivity|]. cbn [deep sp_show flat_map]. rewrite IH, app_nil_r.
  replace (repeat ")"%byte (S k)) with (repeat ")"%byte k ++ [")"]%byte) by (rewrite <- repeat_cons; reflexivity). cbn [repeat app]. now rewrite <- !app_assoc.
Qed.
Lemma deep_len k : type_len (deep k) = 1 + 2 * N.of_nat k.
Proof. rewrite <- type_len_show, deep_show. unfold len. rewrite !app_length, !repeat_length. cbn [length]. lia. Qed.
Lemma deep_size k : size_of (deep k) = None.
Proof. induction k as [|k IH]; [reflexivity|]. cbn [deep]. rewrite size_of_tuple. cbn [map all_some]. now rewrite IH. Qed.
Lemma deep_macro k : macro_ok (deep k) = true.
Proof.
  induction k as [|k IH]; [reflexivity|]. change (deep (S k)) with (TTuple [deep k]). rewrite macro_ok_struct by exact I.
  cbn [children_of forallb]. rewrite IH. cbn [andb]. unfold struct_macro_ok, is_fixed. pose proof (deep_size (S k)) as E. cbn [deep] in E. now rewrite E.
Qed.
Lemma deep_text k : exists text, types_text (deep k) = Some text /\ N.of_nat k * N.of_nat k <= blen text.
Proof.
  induction k as [|k (a & Ea & Ha)]; [now exists []|]. cbn [deep types_text]. rewrite Ea.
  unfold tuple_text. pose proof (deep_size (S k)) as E. cbn [deep] in E. unfold is_fixed. rewrite E.
  eexists. split; [reflexivity|]. rewrite !blen_app, name_len. pose proof (deep_len (S k)) as HL. cbn [deep] in HL. rewrite HL. lia.
Qed.
Lemma emitted_reached k : exists text, define_gv (repeat "("%byte k ++ ["s"]%byte ++ repeat ")"%byte k) = Ok text /\ N.of_nat k * N.of_nat k <= len text.
Proof.
  destruct (deep_text k) as (text & E & H). exists text. split; [|exact H]. apply define_gv_iff. exists (deep k).
  split; [now rewrite deep_show|]. split; [apply deep_macro|exact E].
Qed.
