(** The words of generated code: proofs. *)
From Coq Require Import Lia.
From Verif Require Import Base Types Layout Spec MarkerSpec PrintSpec LexSpec TextSpec NameSpec BaseFacts AlignedBytes TypesFacts LayoutFacts CoreFmt PrintFacts Marker MarkerFacts Ser SerStruct Gen LexFacts GenFacts GenClaims GenMain.

Lemma spells_eq a : forall b, spells a b = true -> a = b.
Proof.
  induction a as [|x a IH]; intros [|y b]; cbn [spells]; try discriminate; [reflexivity|]. intros H. apply andb_prop in H as [H1 H2].
  apply Byte.byte_dec_bl in H1. now rewrite H1, (IH b H2).
Qed.
Lemma spells_refl a : spells a a = true.
Proof. induction a as [|x a IH]; [reflexivity|]. cbn [spells]. rewrite IH. now destruct x. Qed.
Section Words.
Variable own : list (list byte).
Definition may (t : token) : Prop := match t with Ident w => may_use own w | _ => True end.
(** All tokens of the text are fine. *)
Definition fine (st : lexing) (s : list byte) : Prop := forall ts, lex st s = Some ts -> Forall may ts.
Definition good (s : list byte) : Prop := forall R, fine Gap R -> fine Gap (s ++ R).
Definition goodr (s : list byte) : Prop := forall R, ready R = true -> fine Gap R -> fine Gap (s ++ R).

Lemma fine_nil : fine Gap [].
Proof. intros ts H. injection H as <-. constructor. Qed.
Lemma fine_assoc st s a R : fine st (s ++ a ++ R) -> fine st ((s ++ a) ++ R).
Proof. now rewrite <- app_assoc. Qed.
Lemma fine_lit st s R ts st' : run st s = Some (ts, st') -> Forall may ts -> fine st' R -> fine st (s ++ R).
Proof.
  intros E F H us Hu. rewrite (lex_lit _ _ _ _ _ E) in Hu. destruct (lex st' R) as [vs|] eqn:L; [|discriminate].
  injection Hu as <-. apply Forall_app. auto.
Qed.
Lemma fine_word w s R : forallb sp_word_char s = true -> fine (InWord (w ++ s)) R -> fine (InWord w) (s ++ R).
Proof. intros E H ts. rewrite lex_word by assumption. apply H. Qed.
Lemma fine_digits w s n R : number_text s n -> fine (InWord (w ++ s)) R -> fine (InWord w) (s ++ R).
Proof. intros E. apply fine_word. eapply text_word; eauto. Qed.
Lemma fine_num s n R : number_text s n -> fine (InNum s) R -> fine Gap (s ++ R).
Proof. intros E H ts. erewrite text_lex by eauto. apply H. Qed.
Lemma fine_line s R : forallb printable s = true -> fine InLine R -> fine InLine (s ++ R).
Proof. intros E H ts. rewrite lex_line by assumption. apply H. Qed.
Lemma fine_line_num s n R : number_text s n -> fine InLine R -> fine InLine (s ++ R).
Proof. intros E. apply fine_line. eapply text_line; eauto. Qed.
Lemma fine_line_word s R : forallb sp_word_char s = true -> fine InLine R -> fine InLine (s ++ R).
Proof. intros E. apply fine_line. now apply word_line. Qed.
Lemma fine_word_end w R : ready R = true -> may (Ident w) -> fine Gap R -> fine (InWord w) R.
Proof.
  intros HR Hw H ts. rewrite lex_word_end by assumption. destruct (lex Gap R) eqn:E; [|discriminate].
  intros X. injection X as <-. constructor; auto.
Qed.
Lemma fine_num_end w R : ready R = true -> fine Gap R -> fine (InNum w) R.
Proof.
  intros HR H ts. rewrite lex_num_end by assumption. destruct (lex Gap R) eqn:E; [|discriminate].
  intros X. injection X as <-. constructor; [exact I|auto].
Qed.
Lemma good_nil : good [].
Proof. intros R H. exact H. Qed.
Lemma good_app a b : good a -> good b -> good (a ++ b).
Proof. intros A B R H. apply fine_assoc. auto. Qed.
Lemma good_goodr a : good a -> goodr a.
Proof. intros H R _. apply H. Qed.
Lemma good_concat l : Forall good l -> good (concat l).
Proof. induction 1; cbn [concat]; [apply good_nil|now apply good_app]. Qed.
Lemma good_join sep l : good sep -> Forall good l -> good (join sep l).
Proof.
  intros Hs H. induction H as [|x l Hx H IH]; [apply good_nil|]. cbn [join]. destruct l; [exact Hx|].
  apply good_app; [assumption|]. now apply good_app.
Qed.
Lemma goodr_join sep l : (forall R, fine Gap R -> fine Gap (sep ++ R)) -> (forall R, ready (sep ++ R) = true) -> Forall goodr l -> goodr (join sep l).
Proof.
  intros Hs Hr H. induction H as [|x l Hx H IH]; [intros R _; apply good_nil|]. cbn [join]. destruct l as [|y l]; [exact Hx|].
  intros R HR F. apply fine_assoc. apply Hx; [rewrite <- app_assoc; apply Hr|]. apply fine_assoc. apply Hs. now apply IH.
Qed.
Lemma may_num p d n : In p [bs "T"; bs "field_"; bs "_padding_"] -> number_text d n -> may (Ident (p ++ d)).
Proof.
  intros Hp Hd. right. left. unfold numbered_word. apply existsb_exists. exists p. split; [assumption|].
  now rewrite after_prefix_app, (digits_text d n Hd).
Qed.
Lemma may_A a : is_alignment a -> may (Ident (bs "A" ++ dec a)).
Proof. intros [->|[->|[->| ->]]]; left; vm_compute; tauto. Qed.
Lemma may_word w : existsb (spells w) vocabulary = true -> may (Ident w).
Proof. intros H. apply existsb_exists in H as (x & Hx & E). left. apply spells_eq in E. now subst. Qed.
End Words.

Ltac may1 := first [exact I | assumption | apply may_word; vm_compute; reflexivity
                   | match goal with D : number_text ?d ?n |- may _ (Ident ?w) =>
                       first [exact (may_num _ (bs "T") d n (or_introl eq_refl) D) | exact (may_num _ (bs "field_") d n (or_intror (or_introl eq_refl)) D)
                             | exact (may_num _ (bs "_padding_") d n (or_intror (or_intror (or_introl eq_refl))) D)] end].
Ltac mays := repeat (apply Forall_cons; [may1|]); apply Forall_nil.
Ltac fine_lit1 st s :=
  let v := eval vm_compute in (run st s) in
  match v with Some (?ts, ?st') => refine (fine_lit _ st s _ ts st' _ _ _); [vm_compute; reflexivity|mays|] end.
Ltac fine1 :=
  match goal with
  | H : fine ?o Gap ?R |- fine ?o Gap ?R => exact H
  | |- fine _ _ ((_ ++ _) ++ _) => apply fine_assoc
  | |- fine _ ?st (bs ?s ++ ?R) => fine_lit1 st (bs s)
  | |- fine _ ?st (nl ++ ?R) => fine_lit1 st nl
  | H : forallb sp_word_char ?s = true |- fine _ (InWord ?w) (?s ++ ?R) => apply (fine_word _ w s R H)
  | H : forallb sp_word_char ?s = true |- fine _ InLine (?s ++ ?R) => apply (fine_line_word _ s R H)
  | H : number_text ?s ?n |- fine _ (InWord ?w) (?s ++ ?R) => apply (fine_digits _ w s n R H)
  | H : number_text ?s ?n |- fine _ Gap (?s ++ ?R) => apply (fine_num _ s n R H)
  | H : number_text ?s ?n |- fine _ InLine (?s ++ ?R) => apply (fine_line_num _ s n R H)
  | H : forallb printable ?s = true |- fine _ InLine (?s ++ ?R) => apply (fine_line _ s R H)
  | H : good _ ?s |- fine _ Gap (?s ++ ?R) => apply H
  | H : goodr _ ?s |- fine _ Gap (?s ++ ?R) => apply H; [first [assumption | reflexivity]|]
  | H : ready ?R = true |- fine _ (InWord ?w) ?R => apply fine_word_end; [exact H|may1|]
  end.
Ltac fined := repeat fine1.

(** ** The pieces of the templates *)
Lemma marker_good own t : (forall s, In s (generate_types t) -> In (names s) own) -> goodr own (marker_type t).
Proof.
  induction t as [| | | | | | | | | | | | |x IH|x IH|l IH|k v IHk IHv] using ty_ind'; intros Ho; try (intros R HR F; cbn [marker_type]; fined; fail).
  - specialize (IH Ho). intros R HR F. cbn [marker_type]. destruct (size_of x); fined.
  - specialize (IH Ho). intros R HR F. cbn [marker_type]. destruct (size_of x); fined.
  - assert (Hm : may own (Ident (names (TTuple l)))).
    { right. right. apply Ho. cbn [generate_types]. apply in_or_app. right. now left. }
    intros R HR F. change (marker_type (TTuple l)) with (bs "Structure" ++ struct_name (TTuple l)). unfold names in Hm.
    pose proof (name_word (TTuple l)) as Hw. revert Hw Hm. generalize (struct_name (TTuple l)) as nm. intros nm Hw Hm. fined.
  - assert (Hm : may own (Ident (names (TDict k v)))).
    { right. right. apply Ho. cbn [generate_types]. apply in_or_app. right. apply in_or_app. right. now left. }
    intros R HR F. change (marker_type (TDict k v)) with (bs "Structure" ++ struct_name (TDict k v)). unfold names in Hm.
    pose proof (name_word (TDict k v)) as Hw. revert Hw Hm. generalize (struct_name (TDict k v)) as nm. intros nm Hw Hm. fined.
Qed.
Ltac digits n := let D := fresh "D" in pose proof (dec_text n) as D; revert D; generalize (dec n); intros ? D.
Lemma option_good own o : goodr own (option_text o).
Proof. intros R HR F. destruct o as [n|]; cbn [option_text]; [digits n|]; fined. Qed.
Lemma bool_good own b : goodr own (bool_text b).
Proof. intros R HR F. destruct b; cbn [bool_text]; fined. Qed.
Lemma int_good own z : goodr own (core_int z).
Proof.
  intros R HR F. destruct z as [|p|p].
  - change (core_int 0) with (dec 0). digits 0. fined. now apply fine_num_end.
  - change (core_int (Z.pos p)) with (dec (N.pos p)). digits (N.pos p). fined. now apply fine_num_end.
  - change (core_int (Z.neg p)) with (bs "-" ++ dec (N.pos p)). digits (N.pos p). fined. now apply fine_num_end.
Qed.
Lemma dec_good own n : goodr own (dec n).
Proof. intros R HR F. digits n. fined. now apply fine_num_end. Qed.
Lemma child_good own nfo child r last : row_ok child r -> goodr own (marker_type child) -> good own (child_text nfo child r last).
Proof.
  destruct r as [[[i a] b] c]. intros (Hb & _) Hm R F. unfold child_text.
  pose proof (display_line child) as Hl. apply (may_A own) in Hb. pose proof (dec_text b) as Db.
  pose proof (int_good own i) as Gi. pose proof (option_good own (size_of child)) as Go. pose proof (bool_good own last) as Gb.
  pose proof (dec_good own a) as Ga. pose proof (dec_good own c) as Gc. pose proof (dec_good own nfo) as Gn.
  revert Hl Hb Db Gi Go Gb Ga Gc Gn Hm. generalize (display child) (dec b) (core_int i) (option_text (size_of child)) (bool_text last) (dec a) (dec c) (dec nfo) (marker_type child).
  intros x1 x2 x3 x4 x5 x6 x7 x8 x9 Hl Hb Db Gi Go Gb Ga Gc Gn Hm. fined.
Qed.
Lemma children_good own nfo children rows : Forall2 row_ok children rows -> Forall (fun c => goodr own (marker_type c)) children ->
  good own (children_text nfo children rows).
Proof.
  induction 1 as [|c r cs rs Hc H IH]; intros Hm; [apply good_nil|]. inversion Hm; subst. cbn [children_text]. apply good_app; [now apply child_good|auto].
Qed.
Lemma cmd_good own c : match c with CPad a => is_alignment a | _ => True end -> good own (cmd_text c).
Proof.
  intros Hc R F. destruct c as [n|n|al|n|n|i]; cbn [cmd_text].
  - fine1. fine1. fine1. intros ts. rewrite lex_zeros. cbn [app]. revert ts. change (fine own (InText (repeat x00 (N.to_nat n))) (bs """)?;" ++ R)).
    generalize (repeat x00 (N.to_nat n)) as z. intros z. fined.
  - digits n. fined.
  - apply (may_A own) in Hc. revert Hc. digits al. intros Hc. fined.
  - digits (N.of_nat n). fined.
  - digits (N.of_nat n). fined.
  - pose proof (int_good own i) as Gi. revert Gi. generalize (core_int i). intros x Gi. fined.
Qed.
Lemma cmds_good own l : (forall a, In (CPad a) l -> is_alignment a) -> good own (join nl (map cmd_text l)).
Proof.
  intros H. apply good_join; [intros R F; fined|]. apply Forall_map, Forall_forall. intros c Hc. apply cmd_good.
  destruct c; auto.
Qed.
Lemma nonfixed_pads children : forall n base offset nth nfo a, In (CPad a) (nonfixed_cmds n base offset nth nfo children) -> is_alignment a.
Proof.
  induction children as [|c cs IH]; intros n base offset nth nfo a H; cbn [nonfixed_cmds] in H; [contradiction|].
  assert (Hp : forall pre b o, (if align_of c <=? base then
      let offset' := align offset (align_of c) in let n_padding := offset' - offset in
      (if 0 <? n_padding then [CZeros n_padding; CAdd n_padding] else [], base, offset')
    else ([CPad (align_of c)], align_of c, 0)) = (pre, b, o) -> In (CPad a) pre -> is_alignment a).
  { intros pre b o E Hi. destruct (align_of c <=? base).
    - cbv zeta in E. destruct (0 <? _); injection E as <- _ _; cbn in Hi; intuition discriminate.
    - injection E as <- _ _. destruct Hi as [Hi|[]]. injection Hi as <-. apply align_of_alignment. }
  cbv zeta in *. destruct (if align_of c <=? base then _ else _) as [[pre b] o] eqn:E. specialize (Hp pre b o eq_refl).
  destruct (size_of c); [|destruct cs]; repeat (apply in_app_or in H as [H|H]; [try now apply Hp|]);
    cbn [In] in H; repeat (destruct H as [H|H]; [try discriminate|]); try contradiction; try (eapply IH; eassumption); auto.
Qed.
Lemma packed_pads pads : forall n final a, ~ In (CPad a) (packed_cmds n pads final).
Proof.
  induction pads as [|p pads IH]; intros n final a H; cbn [packed_cmds] in H.
  - destruct (0 <? final); cbn in H; intuition discriminate.
  - apply in_app_or in H as [H|H]; [destruct (0 <? p); cbn in H; intuition discriminate|].
    cbn [app In] in H. destruct H as [H|H]; [discriminate|]. eapply IH; eauto.
Qed.
Definition known_types (own : list (list byte)) (cs : list ty) : Prop := Forall (fun c => goodr own (marker_type c)) cs.
Lemma number_known own cs : known_types own cs -> Forall (fun p : nat * ty => goodr own (marker_type (snd p))) (number cs).
Proof.
  intros H. unfold number. generalize 0%nat. induction H as [|c cs Hc H IH]; intros n; [constructor|]. cbn [length seq combine]. constructor; [exact Hc|apply IH].
Qed.
Ltac known H := apply Forall_map; eapply Forall_impl; [|apply number_known; exact H]; intros [?n ?c] ?Hc; cbn [fst snd] in *.
Lemma serialize_types_good own cs : known_types own cs -> goodr own (serialize_types cs).
Proof.
  intros H. unfold serialize_types. apply goodr_join; [intros R F; fined|reflexivity|]. known H.
  intros R HR F. digits (N.of_nat n). revert Hc. generalize (marker_type c). intros m Hc. fined.
Qed.
Lemma serialize_types2_good own cs : known_types own cs -> good own (serialize_types2 cs).
Proof.
  intros H. unfold serialize_types2. apply good_join; [intros R F; fined|]. known H. intros R F. digits (N.of_nat n). fined.
Qed.
Lemma refs_good own a b cs : known_types own cs -> (forall R, fine own Gap R -> fine own Gap (a ++ R)) -> (forall R, fine own Gap R -> fine own Gap (b ++ R)) ->
  (forall R, ready (b ++ R) = true) -> good own (concat (map (fun c => a ++ marker_type c ++ b) cs)).
Proof.
  intros H Ha Hb Hr. apply good_concat, Forall_map. eapply Forall_impl; [|exact H]. cbn beta. intros c Hc R F.
  apply fine_assoc, Ha, fine_assoc. apply Hc; auto.
Qed.
Lemma fields_good own pads : forall children n k pos final, known_types own children -> good own (fields_text n k pos pads final children).
Proof.
  assert (P : forall k p, good own (bs "    _padding_" ++ dec k ++ bs " : [u8;" ++ dec p ++ bs "]," ++ nl)).
  { intros k p R F. digits k. digits p. fined. }
  induction pads as [|p pads IH]; intros children n k pos final H.
  - cbn [fields_text]. destruct (0 <? final); [apply P|apply good_nil].
  - destruct children as [|c cs]; cbn [fields_text]; [destruct (0 <? final); [apply P|apply good_nil]|]. inversion H as [|? ? Hc Hcs]; subst. cbv zeta.
    apply good_app; [destruct (0 <? p); [apply P|apply good_nil]|].
    match goal with |- good own (bs "    // " ++ display c ++ bs " bytes " ++ dec ?a ++ bs ".." ++ dec ?b ++ nl ++ bs "    pub field_" ++ dec ?n ++ bs " : " ++ marker_type c ++ bs "," ++ nl ++ ?r) =>
      assert (G : good own r) by (apply IH; assumption); revert G; generalize r; generalize a as x, b as y end.
    intros x y r G R F. pose proof (display_line c) as Hl. digits x. digits y. digits (N.of_nat n). revert Hl Hc. generalize (display c) (marker_type c).
    intros dc mc Hl Hc. fined.
Qed.
Lemma set_fields_good own pads : forall children n k final, good own (set_fields_text n k pads final children).
Proof.
  assert (P : forall k p, good own (bs "_padding_" ++ dec k ++ bs " : [0u8;" ++ dec p ++ bs "]," ++ nl)).
  { intros k p R F. digits k. digits p. fined. }
  induction pads as [|p pads IH]; intros children n k final.
  - cbn [set_fields_text]. destruct (0 <? final); [apply P|apply good_nil].
  - destruct children as [|c cs]; cbn [set_fields_text]; [destruct (0 <? final); [apply P|apply good_nil]|].
    apply good_app; [destruct (0 <? p); [apply P|apply good_nil]|].
    specialize (IH cs (S n) (if 0 <? p then S k else k) final). intros R F. digits (N.of_nat n). revert IH. generalize (set_fields_text (S n) (if 0 <? p then S k else k) pads final cs).
    intros r G. fined.
Qed.
Ltac part H := match type of H with
  | good _ ?s => revert H; generalize s; intros ? H
  | goodr _ ?s => revert H; generalize s; intros ? H end.
Lemma non_fixed_good own t : In (names t) own -> known_types own (children_of t) -> good own (non_fixed_text t ++ debug_text (struct_name t)).
Proof.
  intros Ho Hk. unfold non_fixed_text, debug_text. cbv zeta.
  assert (Hm : may own (Ident (bs "Structure" ++ struct_name t))) by (right; right; exact Ho).
  pose proof (name_word t) as Hw. pose proof (may_A own _ (align_of_alignment t)) as Ha. pose proof (dec_text (align_of t)) as Da.
  pose proof (dec_text (n_frame_offsets (children_of t))) as Dn.
  pose proof (serialize_types_good own _ Hk) as G1. pose proof (serialize_types2_good own _ Hk) as G2.
  assert (G3 : good own (concat (map (fun c => bs "                &'a " ++ marker_type c ++ bs ",") (children_of t)))).
  { apply refs_good; [exact Hk|intros R F; fined|intros R F; fined|reflexivity]. }
  assert (G4 : good own (concat (map (fun c => bs "&'a " ++ marker_type c ++ bs ", ") (children_of t)))).
  { apply refs_good; [exact Hk|intros R F; fined|intros R F; fined|reflexivity]. }
  pose proof (children_good own (n_frame_offsets (children_of t)) _ _ (table_ok (children_of t)) Hk) as G5.
  pose proof (cmds_good own _ (nonfixed_pads (children_of t) 0 8 0 0 (n_frame_offsets (children_of t)))) as G6.
  part G1. part G2. part G3. part G4. part G5. part G6. revert Dn. generalize (dec (n_frame_offsets (children_of t))). intros dn Dn.
  revert Hw Hm Ha Da. generalize (struct_name t) (dec (align_of t)). intros nm al Hw Hm Ha Da. clear Ho Hk. intros R F. fined.
Qed.
Lemma packed_good own t out : In (names t) own -> known_types own (children_of t) -> packed_text t = Some out -> good own (out ++ debug_text (struct_name t)).
Proof.
  intros Ho Hk E. unfold packed_text in E. destruct (packed_struct t) as [[pads final]|]; [|discriminate]. cbv zeta in E. apply Some_inj in E. subst out. unfold debug_text.
  assert (Hm : may own (Ident (bs "Structure" ++ struct_name t))) by (right; right; exact Ho).
  pose proof (name_word t) as Hw. pose proof (may_A own _ (align_of_alignment t)) as Ha. pose proof (dec_text (align_of t)) as Da.
  pose proof (serialize_types_good own _ Hk) as G1. pose proof (serialize_types2_good own _ Hk) as G2.
  assert (G3 : good own (join (bs " ") (map (fun p : nat * ty => bs "&'a " ++ marker_type (snd p) ++ bs ",") (number (children_of t))))).
  { apply good_join; [intros R F; fined|]. known Hk. intros R F. revert Hc. generalize (marker_type c). intros m Hc. fined. }
  assert (G4 : good own (join (bs " ") (map (fun p : nat * ty => bs "&self.field_" ++ dec (N.of_nat (fst p)) ++ bs ",") (number (children_of t))))).
  { apply good_join; [intros R F; fined|]. known Hk. intros R F. digits (N.of_nat n). fined. }
  assert (G5 : goodr own (join (bs ", ") (map (fun p : nat * ty => bs "field_" ++ dec (N.of_nat (fst p)) ++ bs " : " ++ marker_type (snd p)) (number (children_of t))))).
  { apply goodr_join; [intros R F; fined|reflexivity|]. known Hk. intros R HR F. digits (N.of_nat n). revert Hc. generalize (marker_type c). intros m Hc. fined. }
  assert (G6 : goodr own (join (bs ", ") (map (fun p : nat * ty => bs "0") (number (children_of t))))).
  { apply goodr_join; [intros R F; fined|reflexivity|]. known Hk. intros R HR F. fined. now apply fine_num_end. }
  assert (G7 : goodr own (join (bs " && ") (bs "true" :: map (fun p : nat * ty => bs "self.field_" ++ dec (N.of_nat (fst p)) ++ bs " == other.field_" ++ dec (N.of_nat (fst p))) (number (children_of t))))).
  { apply goodr_join; [intros R F; fined|reflexivity|]. constructor; [intros R HR F; fined|]. known Hk. intros R HR F. digits (N.of_nat n). fined. }
  pose proof (cmds_good own (packed_cmds 0 pads final) ltac:(intros a H; now apply packed_pads in H)) as G8.
  pose proof (fields_good own pads (children_of t) 0 0 0 final Hk) as G9. pose proof (set_fields_good own pads (children_of t) 0 0 final) as G10.
  part G1. part G2. part G3. part G4. part G5. part G6. part G7. part G8. part G9. part G10.
  revert Hw Hm Ha Da. generalize (struct_name t) (dec (align_of t)). intros nm al Hw Hm Ha Da. clear Ho Hk. intros R F. fined.
Qed.

(** ** All structures of a type *)
Lemma child_types s c : In c (children_of s) -> incl (generate_types c) (generate_types s).
Proof.
  destruct s; cbn [children_of]; try contradiction.
  - intros H x Hx. cbn [generate_types]. apply in_or_app. left. apply in_concat. exists (generate_types c). split; [now apply in_map|assumption].
  - intros [<-|[<-|[]]] x Hx; cbn [generate_types]; apply in_or_app; [now left|right; apply in_or_app; now left].
Qed.
Lemma inner_types t : forall s, In s (generate_types t) -> incl (generate_types s) (generate_types t) /\ In s (generate_types s).
Proof.
  induction t as [| | | | | | | | | | | | |x IH|x IH|l IH|k v IHk IHv] using ty_ind'; intros s Hs; try contradiction; try (now apply IH).
  - cbn [generate_types] in Hs. apply in_app_or in Hs as [Hs|[<-|[]]].
    + apply in_concat in Hs as (g & Hg & Hs). apply in_map_iff in Hg as (c & <- & Hc). rewrite Forall_forall in IH.
      destruct (IH c Hc s Hs) as [A B]. split; [|assumption]. intros y Hy. apply (child_types (TTuple l) c Hc), A, Hy.
    + split; [apply incl_refl|]. cbn [generate_types]. apply in_or_app. right. now left.
  - cbn [generate_types] in Hs. apply in_app_or in Hs as [Hs|Hs]; [|apply in_app_or in Hs as [Hs|[<-|[]]]].
    + destruct (IHk s Hs) as [A B]. split; [|assumption]. intros y Hy. apply (child_types (TDict k v) k (or_introl eq_refl)), A, Hy.
    + destruct (IHv s Hs) as [A B]. split; [|assumption]. intros y Hy. apply (child_types (TDict k v) v (or_intror (or_introl eq_refl))), A, Hy.
    + split; [apply incl_refl|]. cbn [generate_types]. apply in_or_app. right. apply in_or_app. right. now left.
Qed.
Lemma types_good t text : types_text t = Some text -> good (map names (generate_types t)) text.
Proof.
  intros E. rewrite types_text_all in E. destruct (all_some (map tuple_text (generate_types t))) as [texts|] eqn:A; [|discriminate].
  cbn [option_map] in E. apply Some_inj in E. subst text. apply all_some_Some in A. apply good_concat.
  assert (H : forall s x, In s (generate_types t) -> tuple_text s = Some x -> good (map names (generate_types t)) x).
  { intros s x Hs Hx. destruct (inner_types t s Hs) as [Hi Hm].
    assert (Ho : In (names s) (map names (generate_types t))) by now apply in_map.
    assert (Hk : known_types (map names (generate_types t)) (children_of s)).
    { apply Forall_forall. intros c Hc. apply marker_good. intros y Hy. apply in_map, Hi, (child_types s c Hc), Hy. }
    unfold tuple_text in Hx. destruct (is_fixed s) eqn:Ef.
    - destruct (packed_text s) as [out|] eqn:Ep; [|discriminate]. apply Some_inj in Hx. subst x. now apply packed_good.
    - apply Some_inj in Hx. subst x. now apply non_fixed_good. }
  apply Forall_forall. intros x Hx. assert (Hin : In (Some x) (map tuple_text (generate_types t))) by (rewrite A; now apply in_map).
  apply in_map_iff in Hin as (s & Es & Hs). now apply (H s).
Qed.
Lemma good_words own s ts w : good own s -> lex Gap s = Some ts -> In (Ident w) ts -> may_use own w.
Proof.
  intros G L H. specialize (G [] (fine_nil own)). rewrite app_nil_r in G. specialize (G ts L). rewrite Forall_forall in G. exact (G (Ident w) H).
Qed.
Lemma structs_names t text its : types_text t = Some text -> code text = Some its -> map fst (structs its) = map names (generate_types t).
Proof.
  intros E C. destruct (macro_ok t) eqn:M; [|now rewrite types_text_none in E].
  destruct (types_code t M) as (text' & its' & E1 & _ & E2 & E3). assert (text' = text) by congruence. subst text'.
  assert (its' = its) by congruence. now subst its'.
Qed.
Lemma text_words t text its ts w : types_text t = Some text -> code text = Some its -> lex Gap text = Some ts -> In (Ident w) ts ->
  may_use (map fst (structs its)) w.
Proof.
  intros E C L H. rewrite (structs_names t text its E C). eapply good_words; eauto. now apply types_good.
Qed.
Lemma type_words t text its ts w : types_text t = Some text -> code text = Some its -> lex Gap (marker_type t) = Some ts -> In (Ident w) ts ->
  may_use (map fst (structs its)) w.
Proof.
  intros E C L H. rewrite (structs_names t text its E C).
  assert (G : goodr (map names (generate_types t)) (marker_type t)) by (apply marker_good; intros s Hs; now apply in_map).
  specialize (G [] eq_refl (fine_nil _)). rewrite app_nil_r in G. specialize (G ts L). rewrite Forall_forall in G. exact (G (Ident w) H).
Qed.
Lemma declared_new t text its w : types_text t = Some text -> code text = Some its -> In w (map fst (structs its)) ->
  ~ In w vocabulary /\ numbered_word w = false.
Proof.
  intros E C H. rewrite (structs_names t text its E C) in H. apply in_map_iff in H as (s & <- & Hs).
  apply generate_types_iff in Hs as [Hs _]. unfold names.
  assert (X : exists c r, struct_name s = c :: r) by (destruct s; try discriminate; eexists _, _; reflexivity).
  destruct X as (c & r & ->). split; [|reflexivity].
  intros H. assert (F : existsb (spells (bs "Structure" ++ c :: r)) vocabulary = true).
  { apply existsb_exists. eexists. split; [exact H|]. apply spells_refl. }
  vm_compute in F. discriminate.
Qed.
