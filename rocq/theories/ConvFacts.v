(** Proofs for C113. *)
From Verif Require Import Base Types Layout AlignedBytes Spec Deser Histories LongSpec Ser SerSpec SwapSpec ConvSpec
  BaseFacts TypesFacts LayoutFacts DeserFacts ArrayFacts ReadFacts StructFacts EncFacts MutFacts SwapFacts LongFacts.
From Coq Require Import Lia ZifyBool ZifyNat ZifyN.

Lemma sub_len d p n : p + n <= len d -> len (sub d p n) = n.
Proof. intros H. unfold sub, len in *. rewrite firstn_length, skipn_length. lia. Qed.

(** The walk of [sp_turn] along the members [ts] from [pos]. *)
Fixpoint turn_all (d : list byte) (pos : N) (ts : list ty) : list byte :=
  match ts with
  | [] => sub d pos (len d - pos)
  | t :: ts =>
      let start := pad_to (align_of t) pos in
      sub d pos (start - pos) ++ sp_turn t (sub d start (size_or_0 t)) ++ turn_all d (start + size_or_0 t) ts
  end.
Lemma size_or_sp t : match sp_size t with Some n => n | None => 0 end = size_or_0 t.
Proof. rewrite sp_size_of. reflexivity. Qed.
Lemma turn_struct t n d : is_struct t -> size_of t = Some n -> len d = n -> sp_turn t d = turn_all d 0 (children_of t).
Proof.
  intros Hs Hn Hd. destruct t as [| | | | | | | | | | | | |x|x|ts|k v]; cbn [is_struct] in Hs; try tauto.
  - cbn [sp_turn children_of]. rewrite (sp_size_of (TTuple ts)), Hn, Hd, N.eqb_refl. rewrite <- Hd. clear.
    match goal with |- ?F 0 ts = _ => enough (G : forall pos, F pos ts = turn_all d pos ts) by apply G end.
    induction ts as [|t ts IH]; intros pos; [reflexivity|]. cbn [turn_all].
    rewrite size_or_sp, sp_align_of, IH. reflexivity.
  - cbn [sp_turn children_of]. rewrite (sp_size_of (TDict k v)), Hn, Hd, N.eqb_refl. cbn [turn_all].
    rewrite !size_or_sp, !sp_align_of, Hd. reflexivity.
Qed.
Lemma turn_wrong t n d : size_of t = Some n -> len d <> n -> sp_turn t d = d.
Proof.
  intros Hn Hd. assert (E : (len d =? n) = false) by lia.
  destruct t; cbn [sp_turn]; try reflexivity; rewrite ?(sp_size_of (TTuple _)), ?(sp_size_of (TDict _ _)), ?Hn, ?E; try reflexivity; try discriminate;
  cbn [size_of] in Hn; injection Hn as <-; cbn [sp_size]; rewrite E; reflexivity.
Qed.
Lemma walk_ge its : Forall (fun it : N * N => is_alignment (fst it)) its -> forall pos, pos <= walk_end pos its.
Proof.
  induction 1 as [|[a s] its Ha _ IH]; intros pos; cbn [walk_end]; [lia|].
  specialize (IH (pad_to a pos + s)). cbn [fst] in Ha. pose proof (pad_to_ge a pos Ha). lia.
Qed.
Lemma fixed_aligned ts : Forall (fun it : N * N => is_alignment (fst it)) (fixed_items ts).
Proof. unfold fixed_items. induction ts; cbn [map]; constructor; [apply align_of_alignment|assumption]. Qed.
Lemma len_app {A} (a b : list A) : len (a ++ b) = len a + len b.
Proof. apply blen_app. Qed.
Lemma turn_all_len d ts : (forall t e, In t ts -> len (sp_turn t e) = len e) ->
  forall pos, walk_end pos (fixed_items ts) <= len d -> len (turn_all d pos ts) = len d - pos.
Proof.
  induction ts as [|t ts IH]; intros Hl pos Hw.
  - cbn in Hw. cbn [turn_all]. apply sub_len. lia.
  - cbn [fixed_items map walk_end] in Hw. fold (fixed_items ts) in Hw.
    pose proof (walk_ge _ (fixed_aligned ts) (pad_to (align_of t) pos + size_or_0 t)).
    pose proof (pad_to_ge (align_of t) pos (align_of_alignment t)).
    cbn [turn_all]. rewrite !len_app, Hl by now left. rewrite IH by (auto; intros; apply Hl; now right).
    rewrite !sub_len by lia. lia.
Qed.
Lemma turn_len t : forall d, sp_fixed t = true -> len (sp_turn t d) = len d.
Proof.
  induction t as [t Hns IH|t Hs IH] using ty_struct_ind; intros d Hf.
  - destruct t; cbn [is_struct sp_fixed sp_size] in *; try tauto; try discriminate; cbn [sp_turn]; try reflexivity;
    cbn [sp_size]; destruct (_ =? _); unfold len; now rewrite ?rev_length.
  - unfold sp_fixed in Hf. rewrite sp_size_of in Hf. destruct (size_of t) as [n|] eqn:Hn; [|discriminate].
    destruct (N.eq_dec (len d) n) as [E|E]; [|now rewrite (turn_wrong t n)].
    rewrite (turn_struct t n) by assumption. rewrite turn_all_len; [lia| |].
    + intros c e Hc. rewrite Forall_forall in IH. apply IH; [exact Hc|].
      pose proof (fixed_children t n Hs Hn) as HF. rewrite Forall_forall in HF. specialize (HF c Hc).
      unfold sp_fixed. rewrite sp_size_of. unfold is_fixed in HF. exact HF.
    + rewrite E. pose proof (size_of_fixed_struct t n Hs Hn) as En. destruct (children_of t) as [|c cs]; [cbn; lia|].
      rewrite En. apply pad_to_ge. apply align_of_alignment.
Qed.
Definition fixed_some (ts : list ty) : list (N * option N) := map (fun it => (fst it, Some (snd it))) (fixed_items ts).
Lemma sub_middle pre x post p n : len pre = p -> len x = n -> sub (pre ++ x ++ post) p n = x.
Proof.
  intros <- <-. unfold sub, len. rewrite !Nat2N.id, skipn_app, skipn_all, Nat.sub_diag. cbn [skipn app].
  rewrite firstn_app, firstn_all, Nat.sub_diag. cbn [firstn]. apply app_nil_r.
Qed.
Lemma turn_cuts d n ts : (forall t e, In t ts -> len (sp_turn t e) = len e) -> len d = n -> forall pos pre,
  len pre = pos -> walk_end pos (fixed_items ts) <= n ->
  sp_struct_cut (pre ++ turn_all d pos ts) 0 n pos 0 (fixed_some ts) =
  map (fun p => option_map (sp_turn (fst p)) (snd p)) (combine ts (sp_struct_cut d 0 n pos 0 (fixed_some ts))).
Proof.
  intros Hl Hd. induction ts as [|t ts IH]; intros pos pre Hp Hw; [reflexivity|].
  cbn [fixed_items map walk_end] in Hw. fold (fixed_items ts) in Hw.
  pose proof (walk_ge _ (fixed_aligned ts) (pad_to (align_of t) pos + size_or_0 t)).
  pose proof (pad_to_ge (align_of t) pos (align_of_alignment t)).
  unfold fixed_some. cbn [fixed_items map fst snd sp_struct_cut turn_all combine]. fold (fixed_items ts). fold (fixed_some ts).
  set (start := pad_to (align_of t) pos) in *. set (sz := size_or_0 t) in *.
  assert (H1 : len (sub d pos (start - pos)) = start - pos) by (apply sub_len; lia).
  assert (H2 : len (sp_turn t (sub d start sz)) = sz) by (rewrite Hl by (now left); apply sub_len; lia).
  f_equal.
  - unfold cut. replace (_ && _) with true by lia. cbn [option_map]. f_equal.
    replace (start + sz - start) with sz by lia. rewrite app_assoc. apply sub_middle; [rewrite len_app; lia|exact H2].
  - rewrite <- IH with (pre := pre ++ sub d pos (start - pos) ++ sp_turn t (sub d start sz)).
    + now rewrite <- !app_assoc.
    + intros; apply Hl; now right.
    + rewrite !len_app. lia.
    + exact Hw.
Qed.
Lemma fixed_walk t n : is_struct t -> size_of t = Some n -> walk_end 0 (fixed_items (children_of t)) <= n.
Proof.
  intros Hs Hn. pose proof (size_of_fixed_struct t n Hs Hn) as En. destruct (children_of t) as [|c cs]; [cbn; lia|].
  rewrite En. apply pad_to_ge. apply align_of_alignment.
Qed.
Lemma child_fixed t n c : is_struct t -> size_of t = Some n -> In c (children_of t) -> exists m, size_of c = Some m.
Proof.
  intros Hs Hn Hc. pose proof (fixed_children t n Hs Hn) as HF. rewrite Forall_forall in HF. specialize (HF c Hc).
  unfold is_fixed in HF. destruct (size_of c); [eauto|discriminate].
Qed.
Lemma struct_cuts_fixed t n d : is_struct t -> size_of t = Some n -> struct_cuts t d = sp_struct_cut d 0 n 0 0 (fixed_some (children_of t)).
Proof. intros Hs Hn. unfold struct_cuts. now rewrite Hn, (fixed_items_of t n). Qed.
Lemma cut_some d n ts : len d = n -> forall pos, walk_end pos (fixed_items ts) <= n ->
  Forall2 (fun t x => exists e, x = Some e /\ len e = size_or_0 t) ts (sp_struct_cut d 0 n pos 0 (fixed_some ts)).
Proof.
  intros Hd. induction ts as [|t ts IH]; intros pos Hw; [constructor|].
  cbn [fixed_items map walk_end] in Hw. fold (fixed_items ts) in Hw.
  pose proof (walk_ge _ (fixed_aligned ts) (pad_to (align_of t) pos + size_or_0 t)).
  unfold fixed_some. cbn [fixed_items map fst snd sp_struct_cut]. fold (fixed_items ts). fold (fixed_some ts).
  constructor; [|now apply IH]. unfold cut. replace (_ && _) with true by lia. eexists. split; [reflexivity|].
  rewrite sub_len; lia.
Qed.
(** Zeros mean the same in both byte orders. *)
Lemma rev_nuls n : rev (nuls n) = nuls n.
Proof.
  unfold nuls. induction (N.to_nat n) as [|k IH]; [reflexivity|]. cbn [repeat rev]. rewrite IH. clear.
  induction k as [|k IH]; [reflexivity|]. cbn [repeat app]. now rewrite IH.
Qed.
Lemma num_nuls big n : sp_num (negb big) (nuls n) = sp_num big (nuls n).
Proof. unfold sp_num. now destruct big; cbn [negb]; rewrite rev_nuls. Qed.
Lemma sub_nuls n p k : p + k <= n -> sub (nuls n) p k = nuls k.
Proof.
  intros H. unfold sub, nuls. rewrite skipn_repeat || idtac.
  replace (N.to_nat n) with (N.to_nat p + (N.to_nat k + N.to_nat (n - p - k)))%nat by lia.
  rewrite repeat_app, skipn_app, skipn_all2, repeat_length, Nat.sub_diag by (rewrite repeat_length; lia). cbn [skipn app].
  rewrite repeat_app, firstn_app, repeat_length, Nat.sub_diag. cbn [firstn]. rewrite app_nil_r.
  apply firstn_all2. rewrite repeat_length. lia.
Qed.
Lemma len_nuls n : len (nuls n) = n.
Proof. unfold len, nuls. rewrite repeat_length. lia. Qed.
Lemma cut_nuls n ts : forall pos, walk_end pos (fixed_items ts) <= n ->
  sp_struct_cut (nuls n) 0 n pos 0 (fixed_some ts) = map (fun t => Some (nuls (size_or_0 t))) ts.
Proof.
  induction ts as [|t ts IH]; intros pos Hw; [reflexivity|].
  cbn [fixed_items map walk_end] in Hw. fold (fixed_items ts) in Hw.
  pose proof (walk_ge _ (fixed_aligned ts) (pad_to (align_of t) pos + size_or_0 t)).
  unfold fixed_some. cbn [fixed_items map fst snd sp_struct_cut]. fold (fixed_items ts). fold (fixed_some ts).
  f_equal; [|now apply IH]. unfold cut. replace (_ && _) with true by lia. f_equal. rewrite sub_nuls by lia. f_equal. lia.
Qed.
Lemma zero_same big t : forall n, size_of t = Some n -> sp_decode (negb big) t (Some (nuls n)) = sp_decode big t (Some (nuls n)).
Proof.
  induction t as [t Hns IH|t Hs IH] using ty_struct_ind; intros n Hn.
  - destruct t; cbn [is_struct size_of] in *; try tauto; try discriminate; injection Hn as <-; cbn [sp_decode];
    destruct (len _ =? _); now rewrite num_nuls.
  - assert (Hg : forall b, sp_decode b t (Some (nuls n)) = VTuple (dec_all b (children_of t) (map (fun t => Some (nuls (size_or_0 t))) (children_of t)))).
    { intros b. rewrite sp_decode_struct; [|assumption|].
      - f_equal. f_equal. rewrite (struct_cuts_fixed t n) by assumption. apply cut_nuls. now apply fixed_walk.
      - unfold size_good. rewrite Hn. apply len_nuls. }
    rewrite !Hg. f_equal. unfold dec_all. apply map_ext_in. intros [c x] Hin.
    assert (Hc : In c (children_of t)) by (eapply in_combine_l; exact Hin).
    destruct (child_fixed t n c Hs Hn Hc) as [m Hm].
    assert (x = Some (nuls m)) as ->.
    { assert (size_or_0 c = m) by (unfold size_or_0; now rewrite Hm).
      clear - Hin H. induction (children_of t) as [|a l IHl]; [destruct Hin|]. destruct Hin as [E|Hin]; [|now apply IHl].
      injection E as -> <-. now rewrite H. }
    cbn [fst snd]. rewrite Forall_forall in IH. now apply IH.
Qed.
Lemma num_rev big d : sp_num (negb big) (rev d) = sp_num big d.
Proof. unfold sp_num. destruct big; cbn [negb]; [reflexivity|now rewrite rev_involutive]. Qed.
Lemma num_one big d : len d = 1 -> sp_num (negb big) d = sp_num big d.
Proof. destruct d as [|b [|c d]]; unfold len; cbn [length]; intros; try lia. now destruct big. Qed.
Lemma sized_right d n : len d = n -> (if len d =? n then d else nuls n) = d.
Proof. intros ->. now rewrite N.eqb_refl. Qed.
Lemma turn_right big t : forall n d, size_of t = Some n -> len d = n ->
  sp_decode (negb big) t (Some (sp_turn t d)) = sp_decode big t (Some d).
Proof.
  induction t as [t Hns IH|t Hs IH] using ty_struct_ind; intros n d Hn Hd.
  - assert (Hl : len (rev d) = n) by (unfold len; rewrite rev_length; exact Hd).
    destruct t; cbn [is_struct size_of] in *; try tauto; try discriminate; injection Hn as <-; cbn [sp_decode sp_turn sp_size];
    rewrite ?Hd; cbn [N.eqb Pos.eqb]; rewrite ?Hl, ?Hd; cbn [N.eqb Pos.eqb]; rewrite ?num_rev; try reflexivity; now rewrite num_one.
  - rewrite (turn_struct t n) by assumption.
    assert (Hch : forall c e, In c (children_of t) -> len (sp_turn c e) = len e).
    { intros c e Hc. destruct (child_fixed t n c Hs Hn Hc) as [m Hm]. apply turn_len. unfold sp_fixed. now rewrite sp_size_of, Hm. }
    pose proof (fixed_walk t n Hs Hn) as Hw.
    assert (Hl : len (turn_all d 0 (children_of t)) = n) by (rewrite turn_all_len by (auto; lia); lia).
    rewrite !sp_decode_struct; try assumption; try (unfold size_good; now rewrite Hn).
    f_equal. rewrite !(struct_cuts_fixed t n) by assumption.
    change (turn_all d 0 (children_of t)) with ([] ++ turn_all d 0 (children_of t)).
    rewrite turn_cuts by (auto; reflexivity).
    assert (Hok : Forall (fun c => exists m, size_of c = Some m) (children_of t)).
    { apply Forall_forall. intros c Hc. now apply (child_fixed t n). }
    pose proof (cut_some d n (children_of t) Hd 0 Hw) as HC. revert IH Hok HC. clear.
    generalize (sp_struct_cut d 0 n 0 0 (fixed_some (children_of t))). generalize (children_of t). clear.
    unfold dec_all. induction l as [|c cs IHc]; intros xs IH Hok HC; inversion HC as [|? ? ? ? (e & -> & He) HC']; subst; [reflexivity|].
    inversion IH; subst. inversion Hok as [|? ? [m Hm] Hok']; subst. cbn [combine map fst snd option_map]. f_equal; [|now apply IHc].
    apply (H1 m); [exact Hm|]. rewrite He. unfold size_or_0. now rewrite Hm.
Qed.
Lemma turn_fixed big t n d : size_of t = Some n -> sp_decode (negb big) t (Some (sp_turn t d)) = sp_decode big t (Some d).
Proof.
  intros Hn. destruct (N.eq_dec (len d) n) as [E|E]; [now apply (turn_right big t n)|].
  rewrite (turn_wrong t n) by assumption. rewrite (sp_decode_norm (negb big)), (sp_decode_norm big).
  rewrite (norm_fixed t n) by assumption. replace (len d =? n) with false by lia. now apply zero_same.
Qed.
(** Pieces of the same size. *)
Lemma pieces_turn (f : list byte -> list byte) n : (0 < n)%nat -> (forall e, len (f e) = len e) ->
  forall k fuel d, length d = (k * n)%nat -> (k <= fuel)%nat ->
  let l := map f (sp_pieces fuel n d) in
  length (concat l) = length d /\ forall fuel', (k <= fuel')%nat -> sp_pieces fuel' n (concat l) = l.
Proof.
  intros Hn Hf. induction k as [|k IH]; intros fuel d Hd Hk l.
  - destruct d; [|discriminate]. unfold l. destruct fuel; cbn [sp_pieces map concat]; (split; [reflexivity|]); intros [|g] _; reflexivity.
  - destruct fuel as [|fuel]; [lia|].
    assert (E : sp_pieces (S fuel) n d = firstn n d :: sp_pieces fuel n (skipn n d)).
    { destruct d; [cbn [length] in Hd; lia|reflexivity]. }
    unfold l. rewrite E. cbn [map concat].
    destruct (IH fuel (skipn n d)) as [H1 H2]; [rewrite skipn_length; lia|lia|].
    assert (Hfl : length (f (firstn n d)) = n).
    { pose proof (Hf (firstn n d)) as H. unfold len in H. rewrite firstn_length in H. lia. }
    split.
    + rewrite app_length, H1, skipn_length, Hfl. lia.
    + intros [|g] Hg; [lia|].
      match goal with |- sp_pieces _ _ (?a ++ ?b) = _ => set (x := a) in *; set (y := b) in * end.
      assert (E' : sp_pieces (S g) n (x ++ y) = firstn n (x ++ y) :: sp_pieces g n (skipn n (x ++ y))).
      { destruct x; [cbn [length] in Hfl; lia|reflexivity]. }
      rewrite E'. rewrite firstn_app, skipn_app, firstn_all2, skipn_all2, Hfl, Nat.sub_diag by lia. cbn [firstn skipn app].
      rewrite app_nil_r. f_equal. apply H2. lia.
Qed.
Lemma unframed_claim big t d : sp_unframed t = true ->
  len (sp_turn t d) = len d /\ sp_decode (negb big) t (Some (sp_turn t d)) = sp_decode big t (Some d).
Proof.
  intros Hu. destruct (sp_fixed t) eqn:Hf.
  - split; [now apply turn_len|]. unfold sp_fixed in Hf. rewrite sp_size_of in Hf. destruct (size_of t) as [n|] eqn:Hn; [|discriminate].
    now apply (turn_fixed big t n).
  - destruct t; cbn [sp_unframed] in Hu; try congruence.
    + assert (Hx := Hu). unfold sp_fixed in Hx. rewrite sp_size_of in Hx. destruct (size_of t) as [n|] eqn:Hn; [|discriminate].
      pose proof (size_of_props t n Hn) as [Hp _].
      cbn [sp_turn]. rewrite sp_size_of, Hn. destruct (len d mod n =? 0) eqn:Em.
      2: { split; [reflexivity|]. cbn [sp_decode]. rewrite sp_size_of, Hn, Em. reflexivity. }
      apply N.eqb_eq in Em. assert (Hd : length d = (N.to_nat (len d / n) * N.to_nat n)%nat).
      { pose proof (N.div_mod (len d) n ltac:(lia)) as E. rewrite Em in E. unfold len in *. nia. }
      assert (Hk : (N.to_nat (len d / n) <= length d)%nat) by nia.
      destruct (pieces_turn (sp_turn t) (N.to_nat n) ltac:(lia) (fun e => turn_len t e Hu) (N.to_nat (len d / n)) (length d) d Hd Hk) as [H1 H2].
      assert (HL : len (concat (map (sp_turn t) (sp_pieces (length d) (N.to_nat n) d))) = len d) by (unfold len; now rewrite H1).
      split; [exact HL|].
      cbn [sp_decode]. rewrite sp_size_of, Hn, HL, Em. cbn [N.eqb]. rewrite H1, H2 by exact Hk.
      f_equal. rewrite !map_map. apply map_ext. intros e. now apply (turn_fixed big t n).
    + assert (Hx := Hu). unfold sp_fixed in Hx. rewrite sp_size_of in Hx. destruct (size_of t) as [n|] eqn:Hn; [|discriminate].
      cbn [sp_turn sp_decode]. rewrite sp_size_of, Hn. destruct (len d =? n) eqn:E.
      * split; [now apply turn_len|]. rewrite turn_len, E by assumption. do 2 f_equal. now apply (turn_fixed big t n).
      * split; [reflexivity|]. now rewrite E.
Qed.
Lemma unframed_calm t d : sp_unframed t = true -> sp_near t d = true /\ sp_reads t d = true.
Proof.
  unfold sp_unframed, sp_fixed. destruct t; cbn [sp_near sp_reads]; intros H; try (split; reflexivity);
  match type of H with match ?x with _ => _ end = _ => destruct x; [split; reflexivity|discriminate] end.
Qed.
Lemma convert_claim h t a d : usable t -> sp_unframed t = true -> aligned (sp_align t) (Slice a d) -> len d < 2 ^ 63 ->
  len (sp_turn t d) = len d /\ decode (other h) t (Slice a (sp_turn t d)) = decode h t (Slice a d).
Proof.
  intros Hu Hf Ha Hl. destruct (unframed_claim (h_big_endian h) t d Hf) as [H1 H2]. split; [exact H1|].
  assert (Hl' : len (sp_turn t d) < 2 ^ 63) by lia.
  destruct (unframed_calm t (Some d) Hf) as [N1 R1]. destruct (unframed_calm t (Some (sp_turn t d)) Hf) as [N2 R2].
  rewrite (long_claim h t (Slice a d)), (long_claim (other h) t (Slice a (sp_turn t d))) by (assumption || exact Ha).
  cbn [s_data other h_big_endian]. now rewrite R1, R2, H2.
Qed.

(** ** Normal forms *)
Lemma lay_same al bs : forall bs' pos, Forall2 (fun b b' => @len byte b = len b') bs bs' ->
  len (fst (sp_lay al pos bs)) = len (fst (sp_lay al pos bs')) /\ snd (sp_lay al pos bs) = snd (sp_lay al pos bs').
Proof.
  intros bs' pos H. revert pos. induction H as [|b b' l l' Hb _ IH]; intros pos; [split; reflexivity|].
  cbn [sp_lay]. rewrite Hb. specialize (IH (pad_to al pos + len b')).
  destruct (sp_lay al _ l) as [r e], (sp_lay al _ l') as [r' e']. cbn [fst snd] in *. destruct IH as [H1 H2].
  split; [rewrite !len_app; lia|now rewrite H2].
Qed.
Lemma lay_struct_same its : forall bs bs' pos, Forall2 (fun b b' => @len byte b = len b') bs bs' ->
  len (fst (sp_lay_struct pos its bs)) = len (fst (sp_lay_struct pos its bs')) /\
  snd (sp_lay_struct pos its bs) = snd (sp_lay_struct pos its bs').
Proof.
  induction its as [|[al sz] its IH]; intros bs bs' pos H; [split; reflexivity|].
  destruct H as [|b b' l l' Hb H]; [split; reflexivity|].
  cbn [sp_lay_struct]. rewrite Hb. specialize (IH l l' (pad_to al pos + len b') H).
  destruct (sp_lay_struct _ its l) as [r e], (sp_lay_struct _ its l') as [r' e']. cbn [fst snd] in *. destruct IH as [H1 H2].
  split; [rewrite !len_app; lia|now rewrite H2].
Qed.
Lemma concat_same l l' : Forall2 (fun b b' => @len byte b = len b') l l' -> @len byte (concat l) = @len byte (concat l').
Proof. induction 1; [reflexivity|]. cbn [concat]. rewrite !len_app. lia. Qed.
Lemma array_same al l l' : Forall2 (fun b b' => @len byte b = len b') l l' ->
  len (sp_array_bytes false al l) = len (sp_array_bytes false al l').
Proof.
  intros H. unfold sp_array_bytes. destruct (lay_same al l l' 0 H) as [H1 H2].
  destruct (sp_lay al 0 l) as [r e], (sp_lay al 0 l') as [r' e']. cbn [fst snd] in *. subst e'. rewrite !len_app, H1. reflexivity.
Qed.
Lemma struct_same own its l l' : Forall2 (fun b b' => @len byte b = len b') l l' ->
  len (sp_struct_bytes own its l) = len (sp_struct_bytes own its l').
Proof.
  intros H. unfold sp_struct_bytes. destruct (lay_struct_same its l l' 0 H) as [H1 H2].
  destruct (sp_lay_struct 0 its l) as [r e], (sp_lay_struct 0 its l') as [r' e']. cbn [fst snd] in *. subst e'.
  destruct own; rewrite !len_app, H1; reflexivity.
Qed.
Lemma int_same b b' k z : len (sp_int b k z) = len (sp_int b' k z).
Proof. unfold sp_int, len. destruct b, b'; now rewrite ?rev_length. Qed.
Lemma encode_same b b' t : forall v, sp_typed t v -> len (sp_encode b t v) = len (sp_encode b' t v).
Proof.
  unfold sp_encode. induction t as [t Hns IH|t Hs IH] using ty_struct_ind; intros v Ht.
  - destruct t as [| | | | | | | | | | | | |x|x|ts|k w]; cbn [is_struct] in Hns; try tauto;
      destruct v as [z|bits|c|s|s d|vs|o|vs]; cbn [sp_typed] in Ht; try tauto; cbn [sp_bytes]; try reflexivity; try apply int_same.
    + apply (typed_array x) in Ht.
      assert (F : Forall2 (fun b b' => @len byte b = len b') (map (sp_bytes false b x) vs) (map (sp_bytes false b' x) vs)).
      { clear - IH Ht. induction Ht; cbn [map]; constructor; [apply IH; auto|assumption]. }
      destruct (sp_fixed x); [now apply concat_same|now apply array_same].
    + destruct o as [w|]; [|reflexivity]. specialize (IH x (or_intror eq_refl) w Ht).
      destruct (sp_fixed x); [exact IH|]. rewrite !len_app. lia.
  - destruct (typed_struct t v Hs Ht) as (vs & -> & H). assert (Hl : length (children_of t) = length vs) by (eapply Forall2_length; exact H).
    rewrite !bytes_struct by (auto; lia). apply struct_same. unfold enc_all. clear Hs Ht Hl. revert IH.
    induction H as [|c v cs vs Hv _ IHc]; intros HF; cbn [combine map fst snd]; [constructor|].
    inversion HF; subst. constructor; auto.
Qed.
Lemma convert_normal h t a v : usable t -> sp_typed t v -> aligned (sp_align t) (Slice a []) ->
  len (sp_encode (h_big_endian h) t v) < 2 ^ 63 ->
  let d := sp_encode (h_big_endian h) t v in let d' := sp_encode (negb (h_big_endian h)) t v in
  len d' = len d /\ decode h t (Slice a d) = Ok v /\ decode (other h) t (Slice a d') = Ok v.
Proof.
  intros Hu Ht Ha Hl d d'. assert (E : len d' = len d) by now apply encode_same.
  split; [exact E|]. split; [now apply encode_claim|].
  apply (encode_claim (other h)); try assumption. cbn [other h_big_endian]. fold d'. fold d in Hl. lia.
Qed.

(** ** Data that cannot be converted *)
Definition ssn : ty := TTuple [TS; TS; TN].
Lemma ssn_usable : usable ssn.
Proof. split; reflexivity. Qed.
Lemma ssn_decode big b0 b1 b2 b3 : let d := [b0; b1; b2; b3] in
  sp_decode big ssn (Some d) =
  VTuple [sp_decode big TS (cut d 0 (le_num [b3]) 2);
          sp_decode big TS (cut d (pad_to 1 (le_num [b3])) (le_num [b2]) 2);
          sp_decode big TN (cut d (pad_to 2 (le_num [b2])) (pad_to 2 (le_num [b2]) + 2) 2)].
Proof. reflexivity. Qed.
Lemma x_string d : sp_string d = [x78] -> d = [x78; x00].
Proof.
  unfold sp_string. destruct d as [|a [|b [|c d]]]; try discriminate; destruct (_ && _) eqn:E; try discriminate; cbn [removelast].
  intros H. injection H as ->. apply andb_true_iff in E as [E _]. apply andb_true_iff in E as [E _]. cbn [last] in E.
  apply Byte.byte_dec_bl in E. now subst.
Qed.
Lemma ssn_other big b0 b1 b2 b3 :
  sp_decode (negb big) ssn (Some [b0; b1; b2; b3]) <> VTuple [VStr [x78]; VStr []; VInt (if big then 30720 else 120)].
Proof.
  rewrite ssn_decode. set (e3 := le_num [b3]). set (e2 := le_num [b2]). intros H. injection H as H1 _ H3.
  assert (Hd : b0 = x78 /\ b1 = x00).
  { unfold cut in H1. destruct ((0 <=? e3) && (e3 <=? 2)) eqn:E; [|discriminate].
    apply x_string in H1.
    rewrite N.sub_0_r in H1. assert (He : e3 = 0 \/ e3 = 1 \/ e3 = 2) by lia.
    destruct He as [He|[He|He]]; rewrite He in H1; cbv in H1; try discriminate. now injection H1. }
  destruct Hd as [-> ->]. unfold cut in H3. set (p := pad_to 2 e2) in *.
  destruct ((p <=? p + 2) && (p + 2 <=? 2)) eqn:E.
  - assert (Hp : p = 0) by lia. rewrite Hp in H3. destruct big; vm_compute in H3; discriminate.
  - destruct big; vm_compute in H3; discriminate.
Qed.
Lemma no_conversion h : exists t d v, usable t /\ decode h t (Slice 0 d) = Ok v /\
  forall d', len d' = len d -> decode (other h) t (Slice 0 d') <> Ok v.
Proof.
  exists ssn, [x78; x00; x00; x02], (VTuple [VStr [x78]; VStr []; VInt (if h_big_endian h then 30720 else 120)]).
  split; [exact ssn_usable|]. split.
  - destruct h as [be oc db s8 st]. cbn [h_big_endian]. rewrite long_claim; [|exact ssn_usable|reflexivity|reflexivity|reflexivity].
    destruct be; vm_compute; reflexivity.
  - intros d' Hl. destruct d' as [|b0 [|b1 [|b2 [|b3 [|b4 d']]]]]; unfold len in Hl; cbn [length] in Hl; try lia.
    rewrite long_claim; [|exact ssn_usable|reflexivity|reflexivity|now apply small_claim]. cbn [s_data other h_big_endian].
    destruct (sp_reads _ _); [|discriminate]. intros H. apply (ssn_other (h_big_endian h) b0 b1 b2 b3). congruence.
Qed.
