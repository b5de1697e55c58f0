(** The lexer of [LexSpec] taken piece by piece. *)
From Coq Require Import Lia.
From Verif Require Import Base Types Spec MarkerSpec PrintSpec LexSpec BaseFacts CoreFmt PrintFacts Gen.

Definition pre (ts : list token) (o : option (list token)) : option (list token) :=
  match o with Some us => Some (ts ++ us) | None => None end.
Lemma pre_app a b o : pre a (pre b o) = pre (a ++ b) o.
Proof. destruct o; cbn [pre]; now rewrite ?app_assoc. Qed.
Fixpoint run (st : lexing) (s : list byte) : option (list token * lexing) :=
  match s with
  | [] => Some ([], st)
  | c :: r => match lex_step st c with Some (ts, st') => after ts (run st' r) | None => None end
  end.
Lemma lex_lit st s R ts st' : run st s = Some (ts, st') -> lex st (s ++ R) = pre ts (lex st' R).
Proof.
  revert st ts. induction s as [|c s IH]; intros st ts E; cbn [run app] in *.
  - injection E as <- <-. unfold pre. now destruct lex.
  - cbn [lex]. destruct (lex_step st c) as [[us st1]|]; [|discriminate].
    destruct (run st1 s) as [[vs st2]|] eqn:E1; [|discriminate]. cbn [after] in E. injection E as <- ->.
    rewrite (IH _ _ E1). destruct (lex st' R); cbn [pre]; now rewrite ?app_assoc.
Qed.

(** ** What may follow a word or a number *)
Definition clean (c : byte) : bool :=
  negb (sp_word_char c || Byte.eqb c """" || Byte.eqb c "'" || Byte.eqb c "#" || Byte.eqb c ".").
Definition ready (r : list byte) : bool := match r with [] => true | c :: _ => clean c end.
Lemma ready_app a b : ready a = true -> ready b = true -> ready (a ++ b) = true.
Proof. destruct a; auto. Qed.
Lemma clean_parts c : clean c = true ->
  sp_word_char c = false /\ Byte.eqb c """" = false /\ Byte.eqb c "'" = false /\ Byte.eqb c "#" = false /\ Byte.eqb c "." = false.
Proof. unfold clean. now destruct (sp_word_char c), (Byte.eqb c """"), (Byte.eqb c "'"), (Byte.eqb c "#"), (Byte.eqb c "."). Qed.
Lemma lex_after ts c r : match after ts (fresh c) with
                         | Some (us, st) => match lex st r with Some vs => Some (us ++ vs) | None => None end
                         | None => None
                         end = pre ts (lex Gap (c :: r)).
Proof.
  cbn [lex lex_step]. destruct (fresh c) as [[us st]|]; cbn [after]; [|reflexivity].
  destruct (lex st r); cbn [pre]; now rewrite ?app_assoc.
Qed.
Lemma lex_word_end w r : ready r = true -> lex (InWord w) r = pre [Ident w] (lex Gap r).
Proof.
  destruct r as [|c r]; intros H; [reflexivity|]. cbn [ready] in H. apply clean_parts in H as (H1 & H2 & H3 & H4 & _).
  rewrite <- lex_after. cbn [lex lex_step]. now rewrite H1, H2, H3, H4.
Qed.
Lemma lex_num_end w r : ready r = true -> lex (InNum w) r = pre [Num w] (lex Gap r).
Proof.
  destruct r as [|c r]; intros H; [reflexivity|]. cbn [ready] in H. apply clean_parts in H as (H1 & _ & _ & _ & H5).
  rewrite <- lex_after. cbn [lex lex_step]. now rewrite H1, H5.
Qed.

(** Only ASCII is accepted. *)
Lemma fresh_ascii c x : fresh c = Some x -> b2n c < 128.
Proof. intros E. destruct c; try discriminate; reflexivity. Qed.
Lemma word_ascii c : sp_word_char c = true -> b2n c < 128.
Proof. intros E. destruct c; try discriminate; reflexivity. Qed.
Lemma printable_ascii c : printable c = true -> b2n c < 128.
Proof. intros E. destruct c; try discriminate; reflexivity. Qed.
Lemma eqb_ascii c x : Byte.eqb c x = true -> b2n x < 128 -> b2n c < 128.
Proof. intros E. apply Byte.byte_dec_bl in E. now subst. Qed.
Lemma after_ascii ts c x : after ts (fresh c) = Some x -> b2n c < 128.
Proof. destruct (fresh c) eqn:E; [|discriminate]. intros _. eapply fresh_ascii; eauto. Qed.
Lemma start_ascii c : word_start c = true -> b2n c < 128.
Proof. unfold word_start. intros H. apply andb_prop in H as [H _]. now apply word_ascii. Qed.
Lemma step_ascii st c x : lex_step st c = Some x -> b2n c < 128.
Proof.
  intros E. destruct st; cbn [lex_step] in E;
    repeat match type of E with
    | (if ?b then _ else _) = _ => destruct b eqn:?
    end; try discriminate;
    eauto using fresh_ascii, word_ascii, printable_ascii, after_ascii, start_ascii;
    try match goal with
    | H : Byte.eqb _ _ = true |- _ => apply (eqb_ascii _ _ H); reflexivity
    | H : (b2n _ =? 10) = true |- _ => apply N.eqb_eq in H; rewrite H; reflexivity
    end.
Qed.
Lemma lex_ascii s : forall st ts, lex st s = Some ts -> Forall (fun c => b2n c < 128) s.
Proof.
  induction s as [|c s IH]; intros st ts E; constructor; cbn [lex] in E;
    destruct (lex_step st c) as [[us st']|] eqn:Es; try discriminate.
  - eapply step_ascii; eauto.
  - destruct (lex st' s) eqn:El; [|discriminate]. eapply IH; eauto.
Qed.

(** ** Words, numbers, comments *)
Lemma lex_word w s R : forallb sp_word_char s = true -> lex (InWord w) (s ++ R) = lex (InWord (w ++ s)) R.
Proof.
  revert w. induction s as [|c s IH]; intros w H; cbn [app forallb] in *; [now rewrite app_nil_r|].
  apply andb_prop in H as [Hc H]. cbn [lex lex_step]. rewrite Hc, IH by assumption.
  rewrite <- app_assoc. cbn [app]. now destruct lex.
Qed.
Lemma lex_nums w s R : forallb sp_word_char s = true -> lex (InNum w) (s ++ R) = lex (InNum (w ++ s)) R.
Proof.
  revert w. induction s as [|c s IH]; intros w H; cbn [app forallb] in *; [now rewrite app_nil_r|].
  apply andb_prop in H as [Hc H]. cbn [lex lex_step]. rewrite Hc, IH by assumption.
  rewrite <- app_assoc. cbn [app]. now destruct lex.
Qed.
Lemma digit_word c : is_digit c = true -> sp_word_char c = true.
Proof. now destruct c. Qed.
Lemma digits_word s : forallb is_digit s = true -> forallb sp_word_char s = true.
Proof. rewrite !forallb_forall. intros H c Hc. apply digit_word. auto. Qed.
Lemma lex_number s R : s <> [] -> forallb is_digit s = true -> lex Gap (s ++ R) = lex (InNum s) R.
Proof.
  destruct s as [|c s]; intros Hn H; [congruence|]. cbn [app forallb] in *. apply andb_prop in H as [Hc H].
  change (c :: s) with ([c] ++ s). rewrite <- lex_nums by now apply digits_word.
  assert (E : fresh c = Some ([], InNum [c])) by now destruct c.
  cbn [lex lex_step]. rewrite E. now destruct lex.
Qed.
Lemma lex_line s R : forallb printable s = true -> lex InLine (s ++ R) = lex InLine R.
Proof.
  induction s as [|c s IH]; intros H; cbn [app forallb] in *; [reflexivity|].
  apply andb_prop in H as [Hc H]. cbn [lex lex_step].
  assert (b2n c =? 10 = false) as -> by (revert Hc; now destruct c). rewrite Hc, IH by assumption. now destruct (lex InLine R).
Qed.

(** ** Decimal numbers *)
Lemma decimal_digit c : decimal_char c -> is_digit c = true.
Proof. unfold decimal_char. cbn. intuition (subst; reflexivity). Qed.
Lemma radix_digits n : forallb is_digit (radix 10 n) = true.
Proof.
  apply forallb_forall. intros c Hc. apply decimal_digit.
  exact (proj1 (Forall_forall _ _) (radix10_chars n) c Hc).
Qed.
Lemma dec_radix n : dec n = radix 10 n.
Proof. unfold dec. destruct n; cbn [Z.of_N core_int]; reflexivity. Qed.
Lemma dec_digits n : forallb is_digit (dec n) = true.
Proof. rewrite dec_radix. apply radix_digits. Qed.
Lemma dec_word n : forallb sp_word_char (dec n) = true.
Proof. apply digits_word, dec_digits. Qed.
Lemma dec_nonempty n : dec n <> [].
Proof. rewrite dec_radix. apply radix_nonempty. Qed.
Lemma dec_val n : sp_number 10 (dec n) = n.
Proof.
  rewrite dec_radix. apply radix_val; lia.
Qed.

(** ** Pieces that can stand between clean neighbours *)
Definition tokens (s : list byte) (ts : list token) : Prop :=
  forall r, ready r = true -> lex Gap (s ++ r) = pre ts (lex Gap r).
Lemma tokens_nil : tokens [] [].
Proof. intros r _. cbn [app]. now destruct lex. Qed.
Lemma tokens_app a b ts us : tokens a ts -> tokens b us -> ready b = true -> tokens (a ++ b) (ts ++ us).
Proof.
  intros Ha Hb Rb r Hr. rewrite <- app_assoc, Ha by now apply ready_app. rewrite Hb by assumption. apply pre_app.
Qed.
Lemma tokens_word s c : forallb sp_word_char (c :: s) = true -> word_start c = true -> tokens (c :: s) [Ident (c :: s)].
Proof.
  intros Hs Hc r Hr. rewrite <- lex_word_end by assumption. cbn [forallb] in Hs. apply andb_prop in Hs as [_ Hs].
  change (c :: s) with ([c] ++ s). rewrite <- (lex_word [c] s) by assumption.
  rewrite <- app_assoc. cbn [app lex lex_step].
  assert (E : fresh c = Some ([], InWord [c])) by (revert Hc; now destruct c). rewrite E. now destruct lex.
Qed.
Lemma tokens_dec n : tokens (dec n) [Num (dec n)].
Proof. intros r Hr. rewrite lex_number by (apply dec_nonempty || apply dec_digits). now apply lex_num_end. Qed.
Definition int_tokens (z : Z) : list token :=
  match z with Zneg p => [Punct "-"; Num (dec (Npos p))] | _ => [Num (dec (Z.to_N z))] end.
Lemma tokens_int z : tokens (core_int z) (int_tokens z).
Proof.
  destruct z as [|p|p]; try exact (tokens_dec _).
  - exact (tokens_dec 0).
  - exact (tokens_dec (Npos p)).
  - intros r Hr. cbn [core_int int_tokens]. rewrite <- (dec_radix (N.pos p)), <- app_assoc.
    rewrite (lex_lit Gap (bs "-") _ [Punct "-"] Gap eq_refl), tokens_dec by assumption. apply pre_app.
Qed.
Lemma tokens_closed s ts : run Gap s = Some (ts, Gap) -> tokens s ts.
Proof. intros E r _. now apply lex_lit. Qed.
Lemma tokens_closes s ts w : run Gap s = Some (ts, InWord w) -> tokens s (ts ++ [Ident w]).
Proof. intros E r Hr. rewrite (lex_lit _ _ _ _ _ E), lex_word_end by assumption. apply pre_app. Qed.
Lemma tokens_whole s ts : tokens s ts -> lex Gap s = Some ts.
Proof. intros H. specialize (H [] eq_refl). rewrite app_nil_r in H. rewrite H. cbn. now rewrite app_nil_r. Qed.

(** Pieces that can stand before anything. *)
Definition closed (s : list byte) (ts : list token) : Prop := forall r, lex Gap (s ++ r) = pre ts (lex Gap r).
Lemma closed_tokens s ts : closed s ts -> tokens s ts.
Proof. intros H r _. apply H. Qed.
Lemma closed_lit s ts : run Gap s = Some (ts, Gap) -> closed s ts.
Proof. intros E r. now apply lex_lit. Qed.
Lemma closed_nil : closed [] [].
Proof. intros r. cbn [app]. now destruct lex. Qed.
Lemma closed_app a b ts us : closed a ts -> closed b us -> closed (a ++ b) (ts ++ us).
Proof. intros Ha Hb r. rewrite <- app_assoc, Ha, Hb. apply pre_app. Qed.
Lemma closed_before a b ts us : closed a ts -> tokens b us -> tokens (a ++ b) (ts ++ us).
Proof. intros Ha Hb r Hr. rewrite <- app_assoc, Ha, Hb by assumption. apply pre_app. Qed.
Lemma tokens_close a b ts us : tokens a ts -> closed b us -> ready b = true -> b <> [] -> closed (a ++ b) (ts ++ us).
Proof.
  intros Ha Hb R Hn r. rewrite <- app_assoc, Ha, Hb by (destruct b; [congruence|exact R]). apply pre_app.
Qed.

(** ** Trees *)
Fixpoint flat1 (t : tree) : list token :=
  match t with
  | Leaf t => [t]
  | Group d ts => Open d :: (fix all (l : list tree) := match l with [] => [] | x :: r => flat1 x ++ all r end) ts ++ [Close d]
  end.
Fixpoint flat (l : list tree) : list token := match l with [] => [] | x :: r => flat1 x ++ flat r end.
Lemma flat_group d ts : flat1 (Group d ts) = Open d :: flat ts ++ [Close d].
Proof. reflexivity. Qed.
Lemma flat_app a b : flat (a ++ b) = flat a ++ flat b.
Proof. induction a; cbn [app flat]; [reflexivity|]. now rewrite IHa, app_assoc. Qed.
(** Leaves hold no delimiters. *)
Fixpoint proper1 (t : tree) : bool :=
  match t with
  | Leaf (Open _) | Leaf (Close _) => false
  | Leaf _ => true
  | Group _ ts => (fix all (l : list tree) := match l with [] => true | x :: r => proper1 x && all r end) ts
  end.
Fixpoint proper (l : list tree) : bool := match l with [] => true | x :: r => proper1 x && proper r end.
Lemma proper_group d ts : proper1 (Group d ts) = proper ts.
Proof. reflexivity. Qed.
Lemma proper_app a b : proper (a ++ b) = proper a && proper b.
Proof. induction a; cbn [app proper]; [reflexivity|]. now rewrite IHa, andb_assoc. Qed.
Lemma tree_ind' (P : tree -> Prop) : (forall t, P (Leaf t)) -> (forall d ts, Forall P ts -> P (Group d ts)) -> forall t, P t.
Proof.
  intros HL HG. fix IH 1. destruct t as [t|d ts]; [apply HL|]. apply HG.
  induction ts; constructor; [apply IH|assumption].
Qed.
Lemma grow_tree t : forall up cur r, proper1 t = true -> grow up cur (flat1 t ++ r) = grow up (cur ++ [t]) r.
Proof.
  induction t as [t|d ts IH] using tree_ind'; intros up cur r Hp.
  - cbn [flat1 app]. destruct t; try discriminate; reflexivity.
  - rewrite flat_group. rewrite proper_group in Hp. cbn [app grow]. rewrite <- app_assoc.
    assert (E : forall c q, grow ((d, cur) :: up) c (flat ts ++ q) = grow ((d, cur) :: up) (c ++ ts) q).
    { clear r. induction IH as [|x l Hx _ IHl]; intros c q; cbn [flat app proper] in *; [now rewrite app_nil_r|].
      apply andb_prop in Hp as [Hp1 Hp2]. rewrite <- app_assoc, Hx, IHl by assumption. now rewrite <- app_assoc. }
    rewrite E. cbn [app grow]. assert (same_delim d d = true) as -> by now destruct d. reflexivity.
Qed.
Lemma grow_flat T : forall up cur r, proper T = true -> grow up cur (flat T ++ r) = grow up (cur ++ T) r.
Proof.
  induction T as [|t T IH]; intros up cur r H; cbn [flat app proper] in *; [now rewrite app_nil_r|].
  apply andb_prop in H as [H1 H2]. rewrite <- app_assoc, grow_tree, IH by assumption. now rewrite <- app_assoc.
Qed.
Fixpoint flat_up (up : list (delim * list tree)) : list token :=
  match up with [] => [] | (d, b) :: up => flat_up up ++ flat b ++ [Open d] end.
Lemma grow_sound ts : forall up cur T, grow up cur ts = Some T -> flat_up up ++ flat cur ++ ts = flat T.
Proof.
  induction ts as [|t ts IH]; intros up cur T E; cbn [grow] in E.
  - destruct up; [|discriminate]. injection E as <-. cbn [flat_up app]. now rewrite app_nil_r.
  - assert (L : forall x, grow up (cur ++ [Leaf x]) ts = Some T -> flat_up up ++ flat cur ++ x :: ts = flat T).
    { intros x Ex. apply IH in Ex. rewrite flat_app in Ex. cbn [flat flat1 app] in Ex. rewrite <- app_assoc in Ex. exact Ex. }
    destruct t; try now apply L.
    + apply IH in E. cbn [flat_up flat app] in E. rewrite <- !app_assoc in E. exact E.
    + destruct up as [|[d' b] up]; [discriminate|]. destruct (same_delim d d') eqn:Ed; [|discriminate].
      assert (d = d') as <- by (revert Ed; now destruct d, d'). apply IH in E.
      rewrite flat_app in E. cbn [flat] in E. rewrite flat_group, app_nil_r in E. cbn [flat_up].
      rewrite <- E, <- !app_assoc. cbn [app]. now rewrite <- !app_assoc.
Qed.
Fixpoint proper_up (up : list (delim * list tree)) : bool :=
  match up with [] => true | (_, b) :: up => proper b && proper_up up end.
Lemma grow_proper ts : forall up cur T, grow up cur ts = Some T -> proper_up up = true -> proper cur = true -> proper T = true.
Proof.
  induction ts as [|t ts IH]; intros up cur T E Hu Hc; cbn [grow] in E.
  - destruct up; [|discriminate]. now injection E as <-.
  - destruct t; try (eapply IH; [exact E|assumption|rewrite proper_app, Hc; reflexivity]).
    + eapply IH; [exact E| |reflexivity]. cbn [proper_up]. now rewrite Hc.
    + destruct up as [|[d' b] up]; [discriminate|]. destruct (same_delim d d'); [|discriminate].
      cbn [proper_up] in Hu. apply andb_prop in Hu as [Hb Hu].
      eapply IH; [exact E|assumption|]. rewrite proper_app, Hb. cbn [proper]. rewrite proper_group, Hc. reflexivity.
Qed.

(** A text that is token trees wherever it stands between clean neighbours. *)
Definition trees (s : list byte) (T : list tree) : Prop := tokens s (flat T) /\ proper T = true.
Lemma trees_whole s T : trees s T -> token_trees s = Some T.
Proof.
  intros [H P]. unfold token_trees. rewrite (tokens_whole _ _ H).
  pose proof (grow_flat T [] [] [] P) as G. rewrite app_nil_r in G. rewrite G. reflexivity.
Qed.
Lemma trees_grow s ts T : tokens s ts -> grow [] [] ts = Some T -> trees s T.
Proof.
  intros H E. split; [|eapply grow_proper; eauto]. pose proof (grow_sound _ _ _ _ E) as F.
  cbn [flat_up flat app] in F. now rewrite <- F.
Qed.
Definition ctrees (s : list byte) (T : list tree) : Prop := closed s (flat T) /\ proper T = true.
Lemma ctrees_trees s T : ctrees s T -> trees s T.
Proof. intros [H P]. split; [now apply closed_tokens|assumption]. Qed.
Lemma ctrees_grow s ts T : closed s ts -> grow [] [] ts = Some T -> ctrees s T.
Proof.
  intros H E. split; [|eapply grow_proper; eauto]. pose proof (grow_sound _ _ _ _ E) as F.
  cbn [flat_up flat app] in F. now rewrite <- F.
Qed.
Lemma ctrees_nil : ctrees [] [].
Proof. split; [apply closed_nil|reflexivity]. Qed.
Lemma ctrees_app a b A B : ctrees a A -> ctrees b B -> ctrees (a ++ b) (A ++ B).
Proof.
  intros [Ha Pa] [Hb Pb]. split; [rewrite flat_app; now apply closed_app|]. now rewrite proper_app, Pa, Pb.
Qed.
Lemma ctrees_before a b A B : ctrees a A -> trees b B -> trees (a ++ b) (A ++ B).
Proof.
  intros [Ha Pa] [Hb Pb]. split; [rewrite flat_app; now apply closed_before|]. now rewrite proper_app, Pa, Pb.
Qed.
Lemma trees_close a b A B : trees a A -> ctrees b B -> ready b = true -> b <> [] -> ctrees (a ++ b) (A ++ B).
Proof.
  intros [Ha Pa] [Hb Pb] R Hn. split; [rewrite flat_app; now apply tokens_close|]. now rewrite proper_app, Pa, Pb.
Qed.
Lemma ctrees_concat {X} (f : X -> list byte) (g : X -> list tree) l :
  (forall x, In x l -> ctrees (f x) (g x)) -> ctrees (concat (map f l)) (concat (map g l)).
Proof.
  induction l as [|x l IH]; intros H; cbn [map concat]; [apply ctrees_nil|].
  apply ctrees_app; [apply H; now left|]. apply IH. intros y Hy. apply H. now right.
Qed.
Lemma trees_nil : trees [] [].
Proof. split; [apply tokens_nil|reflexivity]. Qed.
Lemma trees_app a b A B : trees a A -> trees b B -> ready b = true -> trees (a ++ b) (A ++ B).
Proof.
  intros [Ha Pa] [Hb Pb] R. split; [rewrite flat_app; now apply tokens_app|]. now rewrite proper_app, Pa, Pb.
Qed.
