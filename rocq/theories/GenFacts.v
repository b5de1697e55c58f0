(** The generated text read back: pieces of the templates. *)
From Coq Require Import Lia.
From Verif Require Import Base Types Layout Spec MarkerSpec PrintSpec LexSpec TextSpec BaseFacts TypesFacts LayoutFacts CoreFmt PrintFacts Marker MarkerFacts Ser Gen LexFacts.

(** ** Reading a template with holes *)
Definition number_text (d : list byte) (n : N) : Prop := d <> [] /\ forallb is_digit d = true /\ sp_number 10 d = n.
Lemma dec_text n : number_text (dec n) n.
Proof. split; [apply dec_nonempty|]. split; [apply dec_digits|apply dec_val]. Qed.
Lemma digits_text d n : number_text d n -> decimal d = Some n.
Proof. intros (Hn & Hd & <-). unfold decimal. destruct d; [congruence|]. now rewrite Hd. Qed.
Lemma text_word d n : number_text d n -> forallb sp_word_char d = true.
Proof. intros (_ & Hd & _). now apply digits_word. Qed.
Lemma text_line d n : number_text d n -> forallb printable d = true.
Proof.
  intros (_ & Hd & _). rewrite forallb_forall in *. intros c Hc. specialize (Hd c Hc). revert Hd. now destruct c.
Qed.
Lemma text_lex d n R : number_text d n -> lex Gap (d ++ R) = lex (InNum d) R.
Proof. intros (Hn & Hd & _). now apply lex_number. Qed.
Lemma tree_lex s T R : trees s T -> ready R = true -> lex Gap (s ++ R) = pre (flat T) (lex Gap R).
Proof. intros [H _] HR. now apply H. Qed.
Lemma ctree_lex s T R : ctrees s T -> lex Gap (s ++ R) = pre (flat T) (lex Gap R).
Proof. intros [H _]. apply H. Qed.
(** One hole or literal after another: [lex st (s ++ R) = pre ?ts X]. *)
Lemma step_assoc st s a R Y : lex st (s ++ a ++ R) = Y -> lex st ((s ++ a) ++ R) = Y.
Proof. now rewrite <- app_assoc. Qed.
Lemma step_lit st s R ts st' us X : run st s = Some (ts, st') -> lex st' R = pre us X -> lex st (s ++ R) = pre (ts ++ us) X.
Proof. intros E H. now rewrite (lex_lit _ _ _ _ _ E), H, pre_app. Qed.
Lemma step_word w s R us X : forallb sp_word_char s = true -> lex (InWord (w ++ s)) R = pre us X -> lex (InWord w) (s ++ R) = pre us X.
Proof. intros E H. now rewrite lex_word. Qed.
Lemma step_digits w s n R us X : number_text s n -> lex (InWord (w ++ s)) R = pre us X -> lex (InWord w) (s ++ R) = pre us X.
Proof. intros E H. rewrite lex_word; [assumption|]. eapply text_word; eauto. Qed.
Lemma step_num s n R us X : number_text s n -> lex (InNum s) R = pre us X -> lex Gap (s ++ R) = pre us X.
Proof. intros E H. erewrite text_lex; eauto. Qed.
Lemma step_line s R us X : forallb printable s = true -> lex InLine R = pre us X -> lex InLine (s ++ R) = pre us X.
Proof. intros E H. now rewrite lex_line. Qed.
Lemma step_line_num s n R us X : number_text s n -> lex InLine R = pre us X -> lex InLine (s ++ R) = pre us X.
Proof. intros E H. rewrite lex_line; [assumption|]. eapply text_line; eauto. Qed.
Lemma word_line s : forallb sp_word_char s = true -> forallb printable s = true.
Proof. rewrite !forallb_forall. intros H c Hc. specialize (H c Hc). revert H. now destruct c. Qed.
Lemma step_line_word s R us X : forallb sp_word_char s = true -> lex InLine R = pre us X -> lex InLine (s ++ R) = pre us X.
Proof. intros E H. rewrite lex_line; [assumption|]. now apply word_line. Qed.
Lemma step_trees s T R us X : trees s T -> ready R = true -> lex Gap R = pre us X -> lex Gap (s ++ R) = pre (flat T ++ us) X.
Proof. intros E HR H. now rewrite (tree_lex s T R E HR), H, pre_app. Qed.
Lemma step_ctrees s T R us X : ctrees s T -> lex Gap R = pre us X -> lex Gap (s ++ R) = pre (flat T ++ us) X.
Proof. intros E H. now rewrite (ctree_lex s T R E), H, pre_app. Qed.
Lemma step_end r : lex Gap r = pre [] (lex Gap r).
Proof. now destruct lex. Qed.
Lemma step_word_end w r : ready r = true -> lex (InWord w) r = pre [Ident w] (lex Gap r).
Proof. apply lex_word_end. Qed.
Ltac lex_lit1 st s :=
  let v := eval vm_compute in (run st s) in
  match v with Some (?ts, ?st') => refine (step_lit st s _ ts st' _ _ _ _); [vm_compute; reflexivity|] end.
Ltac lex1 :=
  match goal with
  | |- lex Gap ?r = pre ?us (lex Gap ?r) => exact (step_end r)
  | |- lex _ ((_ ++ _) ++ _) = _ => apply step_assoc
  | |- lex ?st (bs ?s ++ ?R) = _ => lex_lit1 st (bs s)
  | |- lex ?st (nl ++ ?R) = _ => lex_lit1 st nl
  | H : forallb sp_word_char ?s = true |- lex (InWord ?w) (?s ++ ?R) = _ => apply (step_word w s R _ _ H)
  | H : forallb sp_word_char ?s = true |- lex InLine (?s ++ ?R) = _ => apply (step_line_word s R _ _ H)
  | H : number_text ?s ?n |- lex (InWord ?w) (?s ++ ?R) = _ => apply (step_digits w s n R _ _ H)
  | H : number_text ?s ?n |- lex Gap (?s ++ ?R) = _ => apply (step_num s n R _ _ H)
  | H : number_text ?s ?n |- lex InLine (?s ++ ?R) = _ => apply (step_line_num s n R _ _ H)
  | H : forallb printable ?s = true |- lex InLine (?s ++ ?R) = _ => apply (step_line s R _ _ H)
  | H : trees ?s ?T |- lex Gap (?s ++ ?R) = _ => refine (step_trees s T R _ _ H eq_refl _)
  | H : ctrees ?s ?T |- lex Gap (?s ++ ?R) = _ => refine (step_ctrees s T R _ _ H _)
  | H : ready ?r = true |- lex (InWord ?w) ?r = pre _ (lex Gap ?r) => exact (step_word_end w r H)
  end.
Ltac lexed := repeat lex1.
Ltac growth :=
  rewrite <- ?app_assoc;
  repeat (cbn [app flat flat1];
          match goal with
          | |- Some _ = _ => first [reflexivity | cbn [map app]; repeat (rewrite <- app_assoc; cbn [app]); reflexivity]
          | H : proper ?T = true |- grow ?up ?cur (flat ?T ++ ?r) = _ => rewrite (grow_flat T up cur r H)
          | |- _ => cbn [grow same_delim]
          end).
(** Literals and readers. *)
Lemma num_read d n R : number_text d n -> num (Leaf (Num d) :: R) = Some (n, R).
Proof. intros H. cbn [num]. now rewrite (digits_text _ _ H). Qed.
Lemma after_prefix_app p d : after_prefix p (p ++ d) = Some d.
Proof. induction p as [|c p IH]; cbn [app after_prefix]; [reflexivity|]. assert (Byte.eqb c c = true) as -> by now destruct c. exact IH. Qed.
Lemma numbered_read p d n R : number_text d n -> numbered p (Leaf (Ident (p ++ d)) :: R) = Some (n, R).
Proof. intros H. cbn [numbered]. now rewrite after_prefix_app, (digits_text _ _ H). Qed.
Definition to_comma (M : list tree) : Prop := forall R, upto "," (M ++ Leaf (Punct ",") :: R) = Some (M, Leaf (Punct ",") :: R).
Ltac read1 :=
  match goal with
  | |- context [lit (bs ?s) ?X] =>
      let v := eval vm_compute in (token_trees (bs s)) in
      match v with Some ?p => change (lit (bs s) X) with (strip p X) end
  | |- context [strip [] ?X] => change (strip [] X) with (Some (tt, X))
  | |- context [strip (?p :: ?q) []] => change (strip (p :: q) []) with (@None (unit * list tree))
  | |- context [strip (?p :: ?q) (?t :: ?X)] =>
      let v := eval vm_compute in (tree_eqb p t) in
      match v with
      | true => change (strip (p :: q) (t :: X)) with (strip q X)
      | false => change (strip (p :: q) (t :: X)) with (@None (unit * list tree))
      end
  | H : to_comma ?M |- context [upto "," (?M ++ Leaf (Punct ",") :: ?R)] => rewrite (H R)
  | H : number_text ?d ?n |- context [num (Leaf (Num ?d) :: ?X)] => rewrite (num_read d n X H)
  | |- context [num (Leaf (Ident ?w) :: ?X)] => change (num (Leaf (Ident w) :: X)) with (@None (N * list tree))
  | |- context [numbered ?p (Leaf (Ident ?w) :: ?X)] =>
      let v := eval vm_compute in (after_prefix p w) in
      match v with None => change (numbered p (Leaf (Ident w) :: X)) with (@None (N * list tree)) end
  | H : number_text ?d ?n |- context [numbered ?p (Leaf (Ident ?w) :: ?X)] =>
      change (numbered p (Leaf (Ident w) :: X)) with (numbered p (Leaf (Ident (p ++ d)) :: X)); rewrite (numbered_read p d n X H)
  | |- context [group ?d (Group ?e ?b :: ?X)] => change (group d (Group e b :: X)) with (Some (b, X))
  | H : forall R, ?f (?V ++ R) = _ |- context [?f (?V ++ ?X)] => rewrite (H X)
  end; cbv beta iota.
Ltac flatten := cbn [app]; repeat (rewrite <- app_assoc; cbn [app]).
Ltac reading := flatten; repeat read1; try reflexivity.

Fixpoint mt (t : ty) : list tree :=
  match t with
  | TA x => match size_of x with
            | None => Leaf (Ident (bs "NonFixedWidthArray")) :: Leaf (Punct ":") :: Leaf (Punct ":") :: Leaf (Punct "<") :: mt x ++ [Leaf (Punct ">")]
            | Some _ => [Group Brack (mt x)]
            end
  | TM x => Leaf (Ident (match size_of x with None => bs "MaybeNonFixedSize" | Some _ => bs "MaybeFixedSize" end))
            :: Leaf (Punct ":") :: Leaf (Punct ":") :: Leaf (Punct "<") :: mt x ++ [Leaf (Punct ">")]
  | _ => [Leaf (Ident (marker_type t))]
  end.
Lemma name_word t : forallb sp_word_char (struct_name t) = true.
Proof. apply ident_word, struct_name_ident. Qed.
Lemma trees_word c s : forallb sp_word_char (c :: s) = true -> word_start c = true -> trees (c :: s) [Leaf (Ident (c :: s))].
Proof. intros H1 H2. split; [now apply tokens_word|reflexivity]. Qed.
Lemma trees_angle p m P M : (forall r, lex Gap (p ++ r) = pre (flat P) (lex Gap r)) -> proper P = true ->
  trees m M -> trees (p ++ m ++ bs ">") (P ++ M ++ [Leaf (Punct ">")]).
Proof.
  intros Hp PP Hm. apply ctrees_before; [split; assumption|]. apply ctrees_trees, trees_close; [assumption| |reflexivity|discriminate].
  split; [|reflexivity]. apply closed_lit. reflexivity.
Qed.
Lemma marker_trees t : trees (marker_type t) (mt t).
Proof.
  induction t as [| | | | | | | | | | | | |x IH|x IH|l|k IHk v IHv]; try (now apply trees_word).
  - cbn [marker_type mt]. destruct (size_of x) eqn:E.
    + eapply trees_grow with (ts := Open Brack :: flat (mt x) ++ [Close Brack]).
      * intros r Hr. lexed.
      * destruct IH as [_ P]. growth.
    + apply (trees_angle (bs "NonFixedWidthArray::<") _ [Leaf (Ident (bs "NonFixedWidthArray")); Leaf (Punct ":"); Leaf (Punct ":"); Leaf (Punct "<")]); try assumption; [|reflexivity].
      intros r. now apply lex_lit.
  - cbn [marker_type mt]. destruct (size_of x) eqn:E.
    + apply (trees_angle (bs "MaybeFixedSize::<") _ [Leaf (Ident (bs "MaybeFixedSize")); Leaf (Punct ":"); Leaf (Punct ":"); Leaf (Punct "<")]); try assumption; [|reflexivity].
      intros r. now apply lex_lit.
    + apply (trees_angle (bs "MaybeNonFixedSize::<") _ [Leaf (Ident (bs "MaybeNonFixedSize")); Leaf (Punct ":"); Leaf (Punct ":"); Leaf (Punct "<")]); try assumption; [|reflexivity].
      intros r. now apply lex_lit.
  - apply trees_word; [|reflexivity]. apply (struct_word (TTuple l)).
  - apply trees_word; [|reflexivity]. apply (struct_word (TDict k v)).
Qed.
Lemma to_comma_nil : to_comma [].
Proof. intros R. reflexivity. Qed.
Lemma to_comma_cons t M : (match t with Leaf (Punct ",") => False | _ => True end) -> to_comma M -> to_comma (t :: M).
Proof.
  intros H HM R. cbn [app upto]. destruct t as [[]|]; rewrite ?HM; try reflexivity.
  destruct (Byte.eqb "," c) eqn:E; [|reflexivity]. exfalso. revert H E. destruct c; try discriminate. tauto.
Qed.
Lemma to_comma_app a b : to_comma a -> to_comma b -> to_comma (a ++ b).
Proof.
  intros Ha Hb R. rewrite <- app_assoc. revert R. revert Ha. unfold to_comma.
  induction a as [|t a IH]; intros Ha R; [apply Hb|]. cbn [app] in *. specialize (Ha R) as HR. cbn [upto] in *.
  assert (Ha' : forall R, upto "," (a ++ Leaf (Punct ",") :: R) = Some (a, Leaf (Punct ",") :: R)).
  { intros Q. specialize (Ha Q). cbn [upto] in Ha. destruct t as [[]|]; try (destruct (upto "," (a ++ _)) as [[u v]|]; congruence).
    destruct (Byte.eqb "," c); [congruence|]. destruct (upto "," (a ++ _)) as [[u v]|]; congruence. }
  destruct t as [[]|]; try (now rewrite IH). destruct (Byte.eqb "," c); [congruence|]. now rewrite IH.
Qed.
Lemma mt_comma t : to_comma (mt t).
Proof.
  induction t as [| | | | | | | | | | | | |x IH|x IH|l|k IHk v IHv]; cbn [mt];
    try (apply to_comma_cons; [exact I|apply to_comma_nil]).
  - destruct (size_of x); repeat (apply to_comma_cons; [exact I|]); [apply to_comma_nil|].
    apply to_comma_app; [assumption|]. apply to_comma_cons; [exact I|apply to_comma_nil].
  - repeat (apply to_comma_cons; [exact I|]).
    apply to_comma_app; [assumption|]. apply to_comma_cons; [exact I|apply to_comma_nil].
Qed.
Lemma display_line t : forallb printable (display t) = true.
Proof.
  induction t as [| | | | | | | | | | | | |x IH|x IH|l IH|k v IHk IHv] using ty_ind'; try reflexivity; cbn [display forallb]; try (rewrite IH; reflexivity).
  - rewrite forallb_app. cbn. rewrite andb_true_r. apply forallb_forall. intros c Hc.
    apply in_concat in Hc as (s & Hs & Hc). apply in_map_iff in Hs as (x & <- & Hx).
    rewrite Forall_forall in IH. specialize (IH x Hx). rewrite forallb_forall in IH. auto.
  - rewrite !forallb_app, IHk, IHv. reflexivity.
Qed.
(** ** Calls *)
Lemma call_piece disp m M b bn i I z a an c cn sz SZ size la LA last n nn :
  forallb printable disp = true -> trees m M -> to_comma M -> number_text b bn ->
  trees i I -> (forall R, int (I ++ R) = Some (z, R)) -> number_text a an -> number_text c cn ->
  trees sz SZ -> (forall R, read_size (SZ ++ R) = Some (size, R)) ->
  trees la LA -> (forall R, read_bool (LA ++ R) = Some (last, R)) -> number_text n nn ->
  exists T, ctrees (bs "
            // " ++ disp ++ bs "
            get_child_elem::<" ++ m ++ bs ", aligned_bytes::A" ++ b ++ bs ">(
                self.data.as_aligned(),
                " ++ i ++ bs ",
                " ++ a ++ bs ",
                " ++ c ++ bs ",
                " ++ sz ++ bs ",
                " ++ la ++ bs ",
                " ++ n ++ bs ")," ++ nl) T /\
    forall R, read_call (T ++ R) = Some (Call M bn z an cn size last nn, R).
Proof.
  intros Hd Hm HM Hb Hi Ii Ha Hc Hs Is Hl Il Hn. eexists. split.
  - eapply ctrees_grow; [intros r; lexed|]. destruct Hm as [_ Pm], Hi as [_ Pi], Hs as [_ Ps], Hl as [_ Pl]. growth.
  - intros R. unfold read_call. reading.
Qed.

(** ** Sequences *)
Inductive seq_reads {A} (p : reader A) : list tree -> list A -> Prop :=
| sr_nil : seq_reads p [] []
| sr_cons T v Ts vs : T <> [] -> (forall R, p (T ++ R) = Some (v, R)) -> seq_reads p Ts vs -> seq_reads p (T ++ Ts) (v :: vs).
Lemma many_seq {A} (p : reader A) T vs : seq_reads p T vs -> forall fuel, (length T <= fuel)%nat -> many fuel p T = Some vs.
Proof.
  induction 1 as [|T v Ts vs Hn Hp Hs IH]; intros fuel Hf; [now destruct fuel|].
  rewrite app_length in Hf. destruct T as [|t T]; [congruence|]. cbn [length] in Hf. destruct fuel as [|fuel]; [lia|].
  cbn [app many]. change (t :: T ++ Ts) with ((t :: T) ++ Ts). rewrite Hp, IH by lia. reflexivity.
Qed.
Lemma every_seq {A} (p : reader A) T vs : seq_reads p T vs -> every p T = Some vs.
Proof. intros H. now apply many_seq. Qed.
Lemma stmts_seq T vs R : seq_reads read_stmt T vs -> read_stmt R = None ->
  forall fuel, (length T <= fuel)%nat -> stmts fuel (T ++ R) = (vs, R).
Proof.
  induction 1 as [|T v Ts vs Hn Hp Hs IH]; intros HR fuel Hf.
  - destruct fuel; cbn [app stmts]; [reflexivity|]. now rewrite HR.
  - rewrite app_length in Hf. destruct T as [|t T]; [congruence|]. cbn [length] in Hf. destruct fuel as [|fuel]; [lia|].
    rewrite <- app_assoc. cbn [stmts]. rewrite Hp, IH by (assumption || lia). reflexivity.
Qed.
Definition piece {A} (p : reader A) (s : list byte) (v : A) : Prop :=
  exists T, ctrees s T /\ T <> [] /\ forall R, p (T ++ R) = Some (v, R).
Definition pieces {A} (p : reader A) (s : list byte) (vs : list A) : Prop :=
  exists T, ctrees s T /\ seq_reads p T vs.
Lemma pieces_nil {A} (p : reader A) : pieces p [] [].
Proof. exists []. split; [apply ctrees_nil|constructor]. Qed.
Lemma pieces_cons {A} (p : reader A) a b v vs : piece p a v -> pieces p b vs -> pieces p (a ++ b) (v :: vs).
Proof.
  intros (T & HT & Hn & Hr) (Ts & Hs & Hv). exists (T ++ Ts). split; [now apply ctrees_app|now constructor].
Qed.
Lemma pieces_space {A} (p : reader A) a b vs : ctrees a [] -> pieces p b vs -> pieces p (a ++ b) vs.
Proof. intros Ha (T & HT & Hv). exists T. split; [apply (ctrees_app a b [] T); assumption|assumption]. Qed.
Lemma pieces_join {X A} (p : reader A) (f : X -> list byte) (g : X -> A) sep l : ctrees sep [] ->
  (forall x, In x l -> piece p (f x) (g x)) -> pieces p (join sep (map f l)) (map g l).
Proof.
  intros Hs. induction l as [|x l IH]; intros H; [apply pieces_nil|].
  cbn [map join]. destruct l as [|y l].
  - cbn [map]. rewrite <- (app_nil_r (f x)). apply pieces_cons; [apply H; now left|apply pieces_nil].
  - change (f y :: map f l) with (map f (y :: l)). change (map g (y :: l)) with (map g (y :: l)).
    cbn [map]. apply pieces_cons; [apply H; now left|]. apply pieces_space; [assumption|].
    apply IH. intros z Hz. apply H. now right.
Qed.
Lemma space_trees s : run Gap s = Some ([], Gap) -> ctrees s [].
Proof. intros E. split; [now apply closed_lit|reflexivity]. Qed.
Lemma piece_intro {A} (p : reader A) s v T : p [] = None -> ctrees s T -> (forall R, p (T ++ R) = Some (v, R)) -> piece p s v.
Proof.
  intros Hp HT Hr. exists T. split; [assumption|]. split; [|assumption].
  intros ->. specialize (Hr []). cbn [app] in Hr. congruence.
Qed.

(** ** The elements of [to_tuple] *)
Lemma int_read z R : int (map Leaf (int_tokens z) ++ R) = Some (z, R).
Proof.
  pose proof dec_text as D. destruct z as [|q|q]; cbn [int_tokens map app].
  - unfold int. specialize (D (Z.to_N 0)). reading.
  - unfold int. specialize (D (Z.to_N (Z.pos q))). reading.
  - unfold int. specialize (D (N.pos q)). reading.
Qed.
Lemma int_trees z : trees (core_int z) (map Leaf (int_tokens z)).
Proof.
  split; [|now destruct z].
  assert (E : flat (map Leaf (int_tokens z)) = int_tokens z) by now destruct z. rewrite E. apply tokens_int.
Qed.
Definition size_trees (o : option N) : list tree :=
  match o with
  | Some n => [Leaf (Ident (bs "Some")); Group Paren [Leaf (Num (dec n))]]
  | None => [Leaf (Ident (bs "None"))]
  end.
Lemma size_piece o : trees (option_text o) (size_trees o) /\ forall R, read_size (size_trees o ++ R) = Some (o, R).
Proof.
  destruct o as [n|]; cbn [option_text size_trees].
  - split.
    + pose proof (dec_text n) as D. revert D. generalize (dec n) as d. intros d D.
      eapply trees_grow; [intros r Hr; lexed|growth].
    + intros R. unfold read_size. pose proof (dec_text n) as D. reading.
  - split; [now apply trees_word|]. intros R. unfold read_size. reading.
Qed.
Definition bool_trees (b : bool) : list tree := [Leaf (Ident (bool_text b))].
Lemma bool_piece b : trees (bool_text b) (bool_trees b) /\ forall R, read_bool (bool_trees b ++ R) = Some (b, R).
Proof.
  split; [destruct b; now apply trees_word|]. intros R. unfold read_bool, bool_trees. destruct b; cbn [bool_text]; reading.
Qed.
Fixpoint the_calls (nfo : N) (children : list ty) (rows : list row) : list call :=
  match children, rows with
  | child :: cs, (i, a, b, c) :: rs =>
      Call (mt child) b i a c (size_of child) (match cs with [] => true | _ => false end) nfo :: the_calls nfo cs rs
  | _, _ => []
  end.
Lemma child_piece nfo child r last : piece read_call (child_text nfo child r last)
  (let '(i, a, b, c) := r in Call (mt child) b i a c (size_of child) last nfo).
Proof.
  destruct r as [[[i a] b] c]. unfold child_text.
  destruct (size_piece (size_of child)) as [S1 S2], (bool_piece last) as [B1 B2].
  destruct (call_piece (display child) (marker_type child) (mt child) (dec b) b (core_int i) (map Leaf (int_tokens i)) i
    (dec a) a (dec c) c (option_text (size_of child)) (size_trees (size_of child)) (size_of child) (bool_text last) (bool_trees last) last (dec nfo) nfo
    (display_line child) (marker_trees child) (mt_comma child) (dec_text b) (int_trees i) (int_read i) (dec_text a) (dec_text c) S1 S2 B1 B2 (dec_text nfo)) as (T & HT & Hr).
  eapply piece_intro; [reflexivity|exact HT|exact Hr].
Qed.
Lemma children_pieces nfo children : forall rows, pieces read_call (children_text nfo children rows) (the_calls nfo children rows).
Proof.
  induction children as [|c cs IH]; intros rows; [apply pieces_nil|].
  destruct rows as [|[[[i a] b] k] rs]; [apply pieces_nil|]. cbn [children_text the_calls].
  apply pieces_cons; [|apply IH]. apply (child_piece nfo c (i, a, b, k)).
Qed.

(** ** Statements *)
Definition stmt_of (c : cmd) : stmt :=
  match c with
  | CZeros n => WriteZeros n
  | CAdd n => Advance n
  | CPad al => WritePad al
  | CChild n => Child (N.of_nat n)
  | CChildAdd n => ChildAdvance (N.of_nat n)
  | CFrame i => Frame (Z.to_N i)
  end.
Lemma lex_zeros k : forall w R, lex (InText w) (concat (repeat (bs "\0") k) ++ R) = lex (InText (w ++ repeat x00 k)) R.
Proof.
  induction k as [|k IH]; intros w R; [cbn; now rewrite app_nil_r|]. cbn [repeat concat]. rewrite <- app_assoc.
  rewrite (lex_lit (InText w) (bs "\0") _ [] (InText (w ++ [x00])) eq_refl), IH, <- app_assoc. cbn [app]. now destruct lex.
Qed.
Lemma zeros_all k : forallb (Byte.eqb x00) (repeat x00 k) = true.
Proof. induction k; [reflexivity|]. cbn [repeat forallb]. now rewrite IHk. Qed.
Lemma cmd_piece c : (forall i, c = CFrame i -> (0 <= i)%Z) -> piece read_stmt (cmd_text c) (stmt_of c).
Proof.
  intros Hc. destruct c as [n|n|al|n|n|i]; cbn [cmd_text stmt_of].
  - eapply piece_intro; [reflexivity| |].
    + apply (ctrees_grow _ ([Ident (bs "f"); Punct "."; Ident (bs "write_all"); Open Paren] ++ [ByteStr (repeat x00 (N.to_nat n)); Close Paren; Punct "?"; Punct ";"])); [|reflexivity].
      intros r. apply step_assoc. lex1. apply step_assoc. rewrite lex_zeros. generalize (repeat x00 (N.to_nat n)) as z. intros z. cbn [app]. lexed.
    + intros R. unfold read_stmt, read_child. reading. rewrite zeros_all. reading.
      do 2 f_equal. f_equal. unfold len. rewrite repeat_length. lia.
  - pose proof (dec_text n) as D. revert D. generalize (dec n) as d. intros d D.
    eapply piece_intro; [reflexivity|eapply ctrees_grow; [intros r; lexed|growth]|]. intros R. unfold read_stmt, read_child. reading.
  - pose proof (dec_text al) as D. revert D. generalize (dec al) as d. intros d D.
    eapply piece_intro; [reflexivity|eapply ctrees_grow; [intros r; lexed|growth]|]. intros R. unfold read_stmt, read_child. reading.
  - pose proof (dec_text (N.of_nat n)) as D. revert D. generalize (dec (N.of_nat n)) as d. intros d D.
    eapply piece_intro; [reflexivity|eapply ctrees_grow; [intros r; lexed|growth]|]. intros R. unfold read_stmt, read_child. reading.
  - pose proof (dec_text (N.of_nat n)) as D. revert D. generalize (dec (N.of_nat n)) as d. intros d D.
    eapply piece_intro; [reflexivity|eapply ctrees_grow; [intros r; lexed|growth]|]. intros R. unfold read_stmt, read_child. reading.
  - specialize (Hc i eq_refl). assert (core_int i = dec (Z.to_N i)) as -> by (unfold dec; now rewrite Z2N.id).
    pose proof (dec_text (Z.to_N i)) as D. revert D. generalize (dec (Z.to_N i)) as d. intros d D.
    eapply piece_intro; [reflexivity|eapply ctrees_grow; [intros r; lexed|growth]|]. intros R. unfold read_stmt, read_child. reading.
Qed.
Lemma cmds_pieces l : (forall i, In (CFrame i) l -> (0 <= i)%Z) -> pieces read_stmt (join nl (map cmd_text l)) (map stmt_of l).
Proof.
  intros H. apply pieces_join; [now apply space_trees|]. intros c Hc. apply cmd_piece. intros i ->. auto.
Qed.
(** ** Types of references, type parameters *)
Definition ref_trees (c : ty) : list tree := Leaf (Punct "&") :: Leaf (Life (bs "a")) :: mt c ++ [Leaf (Punct ",")].
Definition braceless (X : list tree) : bool := forallb (fun t => match t with Group Brace _ => false | _ => true end) X.
Lemma mt_braceless t : braceless (mt t) = true.
Proof.
  unfold braceless. induction t as [| | | | | | | | | | | | |x IH|x IH|l|k IHk v IHv]; try reflexivity; cbn [mt].
  - destruct (size_of x); [reflexivity|]. cbn [forallb]. rewrite forallb_app, IH. reflexivity.
  - cbn [forallb]. rewrite forallb_app, IH. reflexivity.
Qed.
Lemma ref_long c : ctrees (bs "                &'a " ++ marker_type c ++ bs ",") (ref_trees c).
Proof.
  pose proof (marker_trees c) as H. unfold ref_trees. revert H. generalize (marker_type c) as m, (mt c) as M. intros m M H.
  eapply ctrees_grow; [intros r; lexed|]. destruct H as [_ P]. growth.
Qed.
Lemma ref_spaced c : ctrees (bs "&'a " ++ marker_type c ++ bs ", ") (ref_trees c).
Proof.
  pose proof (marker_trees c) as H. unfold ref_trees. revert H. generalize (marker_type c) as m, (mt c) as M. intros m M H.
  eapply ctrees_grow; [intros r; lexed|]. destruct H as [_ P]. growth.
Qed.
Lemma ref_short c : ctrees (bs "&'a " ++ marker_type c ++ bs ",") (ref_trees c).
Proof.
  pose proof (marker_trees c) as H. unfold ref_trees. revert H. generalize (marker_type c) as m, (mt c) as M. intros m M H.
  eapply ctrees_grow; [intros r; lexed|]. destruct H as [_ P]. growth.
Qed.
Lemma ctrees_join {X} (f : X -> list byte) (g : X -> list tree) sep l : ctrees sep [] ->
  (forall x, In x l -> ctrees (f x) (g x)) -> ctrees (join sep (map f l)) (concat (map g l)).
Proof.
  intros Hs. induction l as [|x l IH]; intros H; [apply ctrees_nil|]. cbn [map join concat]. destruct l as [|y l].
  - cbn [map concat]. rewrite app_nil_r. apply H. now left.
  - change (f y :: map f l) with (map f (y :: l)). apply ctrees_app; [apply H; now left|].
    change (concat (map g (y :: l))) with ([] ++ concat (map g (y :: l))).
    apply ctrees_app; [assumption|]. apply IH. intros z Hz. apply H. now right.
Qed.
Lemma items_braceless X : forall hd r, braceless X = true -> items_from hd (X ++ r) = items_from (hd ++ X) r.
Proof.
  induction X as [|t X IH]; intros hd r H; [now rewrite app_nil_r|]. unfold braceless in *. cbn [forallb] in H.
  apply andb_prop in H as [Ht H]. specialize (IH (hd ++ [t]) r H). rewrite <- app_assoc in IH. cbn [app] in *.
  rewrite <- IH. destruct t as [t|[] b]; try reflexivity. discriminate.
Qed.

Ltac hole H := match type of H with ctrees ?s _ => revert H; generalize s; intros ? H | trees ?s _ => revert H; generalize s; intros ? H
                | forallb _ ?s = _ => revert H; generalize s; intros ? H | number_text ?s _ => revert H; generalize s; intros ? H end.
(** ** Structures of fixed size *)
Fixpoint the_fields (n k : nat) (pads : list N) (final : N) (children : list ty) : list field :=
  match pads, children with
  | p :: pads', c :: rest =>
      (if 0 <? p then [Padding (N.of_nat k) p] else []) ++
      Data (N.of_nat n) (mt c) :: the_fields (S n) (if 0 <? p then S k else k) pads' final rest
  | _, _ => if 0 <? final then [Padding (N.of_nat k) final] else []
  end.
Lemma padding_piece k p : piece read_field (bs "    _padding_" ++ dec k ++ bs " : [u8;" ++ dec p ++ bs "]," ++ nl) (Padding k p).
Proof.
  pose proof (dec_text k) as Dk. pose proof (dec_text p) as Dp. hole Dk. hole Dp.
  eapply piece_intro; [reflexivity|eapply ctrees_grow; [intros r; lexed|growth]|]. intros R. unfold read_field. reading.
Qed.
Lemma data_piece n c a b : piece read_field (bs "    // " ++ display c ++ bs " bytes " ++ dec a ++ bs ".." ++ dec b ++ nl ++
      bs "    pub field_" ++ dec n ++ bs " : " ++ marker_type c ++ bs "," ++ nl) (Data n (mt c)).
Proof.
  pose proof (dec_text n) as Dn. pose proof (dec_text a) as Da. pose proof (dec_text b) as Db. pose proof (marker_trees c) as Hm.
  pose proof (mt_comma c) as Hc. pose proof (display_line c) as Hd. revert Hc.
  hole Dn. hole Da. hole Db. hole Hm. hole Hd. generalize dependent (mt c). intros M HM HC.
  eapply piece_intro; [reflexivity|eapply ctrees_grow; [intros r; lexed|destruct HM as [_ P]; growth]|].
  intros R. unfold read_field. reading.
Qed.
Lemma pieces_app {A} (p : reader A) a b vs ws : pieces p a vs -> pieces p b ws -> pieces p (a ++ b) (vs ++ ws).
Proof.
  intros (T & HT & Hv) (U & HU & Hw). exists (T ++ U). split; [now apply ctrees_app|].
  clear HT HU. induction Hv as [|T v Ts vs Hn Hp Hs IH]; [exact Hw|]. rewrite <- app_assoc. cbn [app]. now constructor.
Qed.
Lemma pieces_one {A} (p : reader A) a v : piece p a v -> pieces p a [v].
Proof. intros H. rewrite <- (app_nil_r a). apply pieces_cons; [assumption|apply pieces_nil]. Qed.
Lemma pieces_opt {A} (p : reader A) (b : bool) a v : piece p a v -> pieces p (if b then a else []) (if b then [v] else []).
Proof. intros H. destruct b; [now apply pieces_one|apply pieces_nil]. Qed.
Lemma fields_pieces pads : forall children n k pos final,
  pieces read_field (fields_text n k pos pads final children) (the_fields n k pads final children).
Proof.
  induction pads as [|p pads IH]; intros [|c rest] n k pos final; cbn [fields_text the_fields]; try apply pieces_opt, padding_piece.
  cbv zeta. apply pieces_app; [apply pieces_opt, padding_piece|].
  set (st := dec (pos + p)). set (en := pos + p + match size_of c with Some s => s | None => 0 end).
  replace (bs "    // " ++ display c ++ bs " bytes " ++ st ++ bs ".." ++ dec en ++ nl ++
      bs "    pub field_" ++ dec (N.of_nat n) ++ bs " : " ++ marker_type c ++ bs "," ++ nl ++
      fields_text (S n) (if 0 <? p then S k else k) en pads final rest) with
   ((bs "    // " ++ display c ++ bs " bytes " ++ st ++ bs ".." ++ dec en ++ nl ++
      bs "    pub field_" ++ dec (N.of_nat n) ++ bs " : " ++ marker_type c ++ bs "," ++ nl) ++
      fields_text (S n) (if 0 <? p then S k else k) en pads final rest) by now rewrite <- !app_assoc.
  apply pieces_cons; [apply data_piece|apply IH].
Qed.
Lemma set_padding_piece k p : piece read_init (bs "_padding_" ++ dec k ++ bs " : [0u8;" ++ dec p ++ bs "]," ++ nl) (SetPadding k p).
Proof.
  pose proof (dec_text k) as Dk. pose proof (dec_text p) as Dp. hole Dk. hole Dp.
  eapply piece_intro; [reflexivity|eapply ctrees_grow; [intros r; lexed|growth]|]. intros R. unfold read_init. reading.
Qed.
Lemma set_data_piece n : piece read_init (bs "field_" ++ dec n ++ bs " : field_" ++ dec n ++ bs "," ++ nl) (SetData n n).
Proof.
  pose proof (dec_text n) as Dn. hole Dn.
  eapply piece_intro; [reflexivity|eapply ctrees_grow; [intros r; lexed|growth]|]. intros R. unfold read_init. reading.
Qed.
Lemma set_fields_pieces pads : forall children n k final,
  pieces read_init (set_fields_text n k pads final children) (map init_of (the_fields n k pads final children)).
Proof.
  induction pads as [|p pads IH]; intros [|c rest] n k final; cbn [set_fields_text the_fields];
    try (destruct (0 <? final); [apply pieces_one, set_padding_piece|apply pieces_nil]).
  rewrite map_app. apply pieces_app; [destruct (0 <? p); [apply pieces_one, set_padding_piece|apply pieces_nil]|].
  cbn [map init_of].
  replace (bs "field_" ++ dec (N.of_nat n) ++ bs " : field_" ++ dec (N.of_nat n) ++ bs "," ++ nl ++ set_fields_text (S n) (if 0 <? p then S k else k) pads final rest)
   with ((bs "field_" ++ dec (N.of_nat n) ++ bs " : field_" ++ dec (N.of_nat n) ++ bs "," ++ nl) ++ set_fields_text (S n) (if 0 <? p then S k else k) pads final rest) by now rewrite <- !app_assoc.
  apply pieces_cons; [apply set_data_piece|apply IH].
Qed.
Lemma ref_piece n : piece read_ref (bs "&self.field_" ++ dec n ++ bs ",") n.
Proof.
  pose proof (dec_text n) as Dn. hole Dn.
  eapply piece_intro; [reflexivity|eapply ctrees_grow; [intros r; lexed|growth]|]. intros R. unfold read_ref. reading.
Qed.
(** Arguments, with commas between. *)
Lemma mt_no_comma c : upto "," (mt c) = None.
Proof.
  destruct (upto "," (mt c)) as [[a b]|] eqn:E; [|reflexivity]. exfalso.
  assert (H : forall M a b R, upto "," M = Some (a, b) -> upto "," (M ++ R) = Some (a, b ++ R)).
  { clear. induction M as [|t M IH]; intros a b R E; [discriminate|]. cbn [app upto] in *.
    destruct t as [[]|]; try (destruct (upto "," M) as [[x y]|]; [|discriminate]; injection E as <- <-; now rewrite (IH x y R eq_refl)).
    destruct (Byte.eqb "," c); [now injection E as <- <-|].
    destruct (upto "," M) as [[x y]|]; [|discriminate]. injection E as <- <-. now rewrite (IH x y R eq_refl). }
  assert (L : forall M a b, upto "," M = Some (a, b) -> (length a < length M)%nat).
  { clear. induction M as [|t M IH]; intros a b E; [discriminate|]. cbn [upto] in E.
    destruct t as [[]|]; try (destruct (upto "," M) as [[x y]|]; [|discriminate]; injection E as <- <-; cbn [length]; specialize (IH x y eq_refl); lia).
    destruct (Byte.eqb "," c); [injection E as <- <-; cbn [length]; lia|].
    destruct (upto "," M) as [[x y]|]; [|discriminate]. injection E as <- <-. cbn [length]. specialize (IH x y eq_refl). lia. }
  specialize (H _ _ _ [Leaf (Punct ",")] E). rewrite (mt_comma c []) in H. injection H as Ha _. subst a.
  specialize (L _ _ _ E). lia.
Qed.
Definition arg_text (n : N) (c : ty) := bs "field_" ++ dec n ++ bs " : " ++ marker_type c.
Lemma args_trees (l : list (nat * ty)) : exists T, trees (join (bs ", ") (map (fun p => arg_text (N.of_nat (fst p)) (snd p)) l)) T /\
  forall fuel, (length T <= fuel)%nat -> many fuel read_arg T = Some (map (fun p => (N.of_nat (fst p), mt (snd p))) l).
Proof.
  assert (Hone : forall n c, exists T, trees (arg_text n c) T /\ T <> [] /\ read_arg T = Some ((n, mt c), []) /\
    forall R, read_arg (T ++ Leaf (Punct ",") :: R) = Some ((n, mt c), R)).
  { intros n c. unfold arg_text. pose proof (dec_text n) as Dn. pose proof (marker_trees c) as Hm.
    pose proof (mt_comma c) as Hc. pose proof (mt_no_comma c) as Hn. revert Hc Hn.
    hole Dn. hole Hm. generalize dependent (mt c). intros M HM HC HN.
    exists (Leaf (Ident (bs "field_" ++ l0)) :: Leaf (Punct ":") :: M). split; [|split; [discriminate|split]].
    - eapply trees_grow; [intros r Hr; repeat lex1; rewrite (tree_lex _ _ _ HM Hr); reflexivity|].
      destruct HM as [_ P]. pose proof (grow_flat M [] [Leaf (Ident (bs "field_" ++ l0)); Leaf (Punct ":")] [] P) as G.
      rewrite app_nil_r in G. cbn [app grow]. rewrite ?app_nil_r. exact G.
    - unfold read_arg. repeat read1. rewrite HN. reflexivity.
    - intros R. unfold read_arg. reading. }
  induction l as [|[n c] l IH]; [exists []; split; [apply trees_nil|intros [|?] _; reflexivity]|].
  destruct (Hone (N.of_nat n) c) as (T1 & H1 & Hn1 & R1 & R1'). cbn [map join fst snd]. destruct l as [|[m d] l].
  - exists T1. split; [exact H1|]. intros fuel Hf. destruct T1 as [|t T1]; [congruence|]. destruct fuel as [|fuel]; [cbn in Hf; lia|].
    cbn [many map]. rewrite R1. destruct fuel; reflexivity.
  - destruct IH as (T & HT & RT). exists ((T1 ++ [Leaf (Punct ",")]) ++ T). split.
    + cbn [map fst snd] in *. rewrite app_assoc. apply ctrees_before; [|assumption].
      apply trees_close; [assumption| |reflexivity|discriminate]. split; [now apply closed_lit|reflexivity].
    + intros fuel Hf. rewrite !app_length in Hf. cbn [length] in Hf. destruct fuel as [|fuel]; [lia|].
      rewrite <- app_assoc. cbn [app]. destruct T1 as [|t T1]; [congruence|]. cbn [app many].
      change (t :: T1 ++ Leaf (Punct ",") :: T) with ((t :: T1) ++ Leaf (Punct ",") :: T). rewrite R1'.
      cbn [length] in Hf. rewrite RT by lia. reflexivity.
Qed.
(** [join] with something in front. *)
Lemma join_front sep x l : join sep (x :: l) = x ++ concat (map (fun y => sep ++ y) l).
Proof.
  revert x. induction l as [|y l IH]; intros x; [cbn; now rewrite app_nil_r|].
  change (join sep (x :: y :: l)) with (x ++ sep ++ join sep (y :: l)). rewrite IH. cbn [map concat]. now rewrite <- !app_assoc.
Qed.
Lemma trees_seq {X A} (p : reader A) (f : X -> list byte) (g : X -> A) l :
  (forall x, In x l -> exists T, trees (f x) T /\ ready (f x) = true /\ T <> [] /\ forall R, p (T ++ R) = Some (g x, R)) ->
  exists T, trees (concat (map f l)) T /\ ready (concat (map f l)) = true /\ seq_reads p T (map g l).
Proof.
  induction l as [|x l IH]; intros H; [exists []; split; [apply trees_nil|split; [reflexivity|constructor]]|].
  destruct (H x (or_introl eq_refl)) as (T & HT & HR & Hn & Hp). destruct IH as (U & HU & HRU & HS); [intros; apply H; now right|].
  exists (T ++ U). cbn [map concat]. split; [now apply trees_app|]. split; [now apply ready_app|now constructor].
Qed.
Lemma defaults_trees k : exists T, trees (join (bs ", ") (repeat (bs "0") k)) T /\
  match T with [] => k = O | _ => exists T', strip [Leaf (Num (bs "0"))] T = Some (tt, T') /\ every (lit (bs ", 0")) T' = Some (repeat tt (pred k)) /\ k <> O end.
Proof.
  destruct k as [|k]; [exists []; split; [apply trees_nil|reflexivity]|].
  cbn [repeat]. rewrite join_front.
  assert (E : map (fun y => bs ", " ++ y) (repeat (bs "0") k) = map (fun _ : unit => bs ", 0") (repeat tt k)).
  { clear. induction k as [|k IH]; [reflexivity|]. cbn [repeat map]. now rewrite IH. }
  rewrite E. destruct (trees_seq (lit (bs ", 0")) (fun _ : unit => bs ", 0") (fun _ => tt) (repeat tt k)) as (T & HT & HR & HS).
  - intros [] _. exists [Leaf (Punct ","); Leaf (Num (bs "0"))]. split; [|split; [reflexivity|split; [discriminate|intros R; reflexivity]]].
    split; [|reflexivity]. intros r Hr. rewrite (lex_lit Gap (bs ", 0") r [Punct ","] (InNum (bs "0")) eq_refl), lex_num_end by assumption. apply pre_app.
  - exists (Leaf (Num (bs "0")) :: T). split.
    + apply (trees_app (bs "0") _ [Leaf (Num (bs "0"))]); [|assumption|assumption].
      split; [exact (tokens_dec 0)|reflexivity].
    + exists T. split; [reflexivity|]. split; [|discriminate]. cbn [pred]. rewrite (every_seq _ _ _ HS). f_equal.
      clear. induction k; [reflexivity|]. cbn [repeat map]. now f_equal.
Qed.
Lemma eqs_trees {X} (num : X -> N) (l : list X) :
  exists T, trees (join (bs " && ") (bs "true" :: map (fun x => bs "self.field_" ++ dec (num x) ++ bs " == other.field_" ++ dec (num x)) l)) (Leaf (Ident (bs "true")) :: T) /\
    every read_equal T = Some (map num l).
Proof.
  rewrite join_front, map_map.
  destruct (trees_seq read_equal (fun x => bs " && " ++ bs "self.field_" ++ dec (num x) ++ bs " == other.field_" ++ dec (num x)) num l) as (T & HT & HR & HS).
  - intros x _. pose proof (dec_text (num x)) as Dn. revert Dn. generalize (dec (num x)) as d. generalize (num x) as n. intros n d Dn.
    exists (map Leaf [Punct "&"; Punct "&"; Ident (bs "self"); Punct "."; Ident (bs "field_" ++ d); Punct "="; Punct "="; Ident (bs "other"); Punct "."; Ident (bs "field_" ++ d)]).
    split; [|split; [reflexivity|split; [discriminate|]]].
    + eapply trees_grow; [intros r Hr; lexed|growth].
    + intros R. unfold read_equal. cbn [map]. reading. rewrite N.eqb_refl. reflexivity.
  - exists T. split; [|now apply every_seq].
    apply (trees_app (bs "true") _ [Leaf (Ident (bs "true"))]); [now apply trees_word|assumption|assumption].
Qed.

(** ** Types of tuples and type parameters *)
Lemma refs_seq cs : seq_reads read_ref_type (concat (map ref_trees cs)) (map mt cs).
Proof.
  induction cs as [|c cs IH]; cbn [map concat]; constructor; [discriminate| |exact IH].
  intros R. unfold ref_trees, read_ref_type. pose proof (mt_comma c) as Hc. revert Hc. generalize (mt c). intros M HM. cbn [app]. reading.
Qed.
Lemma upto_free c M R : forallb (fun t => negb (is_mark c t)) M = true -> upto c (M ++ Leaf (Punct c) :: R) = Some (M, Leaf (Punct c) :: R).
Proof.
  induction M as [|t M IH]; intros H.
  - cbn [app upto]. assert (Byte.eqb c c = true) as -> by now destruct c. reflexivity.
  - cbn [forallb] in H. apply andb_prop in H as [Ht H]. specialize (IH H). cbn [app upto].
    destruct t as [[]|]; try (now rewrite IH). unfold is_mark in Ht. cbn [tree_eqb token_eqb] in Ht.
    destruct (Byte.eqb c c0); [discriminate|]. now rewrite IH.
Qed.
Lemma mt_plus t : forallb (fun x => negb (is_mark "+" x)) (mt t) = true.
Proof.
  induction t as [| | | | | | | | | | | | |x IH|x IH|l|k IHk v IHv]; try reflexivity; cbn [mt].
  - destruct (size_of x); [reflexivity|]. cbn [forallb]. rewrite forallb_app, IH. reflexivity.
  - cbn [forallb]. rewrite forallb_app, IH. reflexivity.
Qed.
Definition param_trees (d : list byte) (M : list tree) : list tree :=
  Leaf (Ident (bs "T" ++ d)) :: map Leaf [Punct ":"; Punct ":"; Punct ":"; Ident (bs "gvariant"); Punct ":"; Punct ":"; Ident (bs "SerializeTo"); Punct "<"] ++ M ++ map Leaf [Punct ">"; Punct "+"; Ident (bs "Copy")].
Lemma param_read n c R : read_param (param_trees (dec n) (mt c) ++ R) = Some ((n, mt c), R).
Proof.
  pose proof (dec_text n) as D. pose proof (mt_plus c) as P. revert D P. unfold param_trees. generalize (dec n) as d, (mt c) as M. intros d M D P.
  unfold read_param. cbn [map]. flatten. repeat read1.
  assert (E : upto "+" (M ++ Leaf (Punct ">") :: Leaf (Punct "+") :: Leaf (Ident (bs "Copy")) :: R) =
              Some (M ++ [Leaf (Punct ">")], Leaf (Punct "+") :: Leaf (Ident (bs "Copy")) :: R)).
  { change (M ++ Leaf (Punct ">") :: ?x) with (M ++ [Leaf (Punct ">")] ++ x). rewrite app_assoc. apply upto_free.
    rewrite forallb_app, P. reflexivity. }
  change (["C"%byte; "o"%byte; "p"%byte; "y"%byte]) with (bs "Copy"). rewrite E. cbv beta iota. repeat read1.
  rewrite rev_app_distr. cbn [rev app]. change (is_mark ">" (Leaf (Punct ">"))) with true. cbv iota. now rewrite rev_involutive.
Qed.
Lemma trees_app_comma a b A B : trees a A -> trees b B -> trees (a ++ bs ", " ++ b) (A ++ Leaf (Punct ",") :: B).
Proof.
  intros Ha Hb. change (A ++ Leaf (Punct ",") :: B) with (A ++ [Leaf (Punct ",")] ++ B). rewrite !app_assoc.
  apply ctrees_before; [|assumption]. apply trees_close; [assumption| |reflexivity|discriminate]. split; [now apply closed_lit|reflexivity].
Qed.
Lemma serialize_types_trees cs : exists T, trees (serialize_types cs) T /\ braceless T = true /\
  forall R fuel, (length T <= fuel)%nat -> params fuel (T ++ Leaf (Punct ">") :: R) = Some (map (fun p => (N.of_nat (fst p), mt (snd p))) (number cs), R).
Proof.
  unfold serialize_types. generalize (number cs) as l. clear cs. intros l.
  assert (H1 : forall p : nat * ty, trees (bs "T" ++ dec (N.of_nat (fst p)) ++ bs ": ::gvariant::SerializeTo<" ++ marker_type (snd p) ++ bs "> + Copy")
     (param_trees (dec (N.of_nat (fst p))) (mt (snd p)))).
  { intros [n c]. cbn [fst snd]. pose proof (marker_trees c) as H. pose proof (dec_text (N.of_nat n)) as D. revert H D.
    unfold param_trees. generalize (marker_type c) as m, (mt c) as M, (dec (N.of_nat n)) as d. intros m M d H D.
    eapply trees_grow; [intros r Hr; lexed|]. destruct H as [_ P]. growth. }
  assert (B1 : forall d c, braceless (param_trees d (mt c)) = true).
  { intros d c. unfold braceless, param_trees. cbn [map app forallb]. rewrite forallb_app. fold (braceless (mt c)). rewrite mt_braceless. reflexivity. }
  induction l as [|p l IH].
  - exists []. split; [apply trees_nil|]. split; [reflexivity|]. intros R [|fuel] _; reflexivity.
  - cbn [map join]. specialize (H1 p). pose proof (B1 (dec (N.of_nat (fst p))) (snd p)) as Bp.
    assert (Hr : forall R, read_param (param_trees (dec (N.of_nat (fst p))) (mt (snd p)) ++ R) = Some ((N.of_nat (fst p), mt (snd p)), R)) by (intros; apply param_read).
    assert (Hl : forall R, lit (bs ">") (param_trees (dec (N.of_nat (fst p))) (mt (snd p)) ++ R) = None) by reflexivity.
    assert (Hn : param_trees (dec (N.of_nat (fst p))) (mt (snd p)) <> []) by discriminate.
    revert H1 Bp Hr Hl Hn. generalize (param_trees (dec (N.of_nat (fst p))) (mt (snd p))) as P. intros P H1 Bp Hr Hl Hn.
    destruct l as [|q l].
    + exists P. split; [exact H1|]. split; [exact Bp|]. intros R fuel Hf. destruct fuel as [|fuel]; [destruct P; [congruence|cbn in Hf; lia]|].
      cbn [params]. rewrite Hl, Hr. reflexivity.
    + destruct IH as (T & HT & BT & RT). exists (P ++ Leaf (Punct ",") :: T). split.
      * cbn [map] in *. eapply trees_app_comma; eassumption.
      * split.
        -- unfold braceless in *. rewrite forallb_app, Bp. exact BT.
        -- intros R fuel Hf. rewrite app_length in Hf. cbn [length] in Hf. destruct fuel as [|fuel]; [lia|].
           rewrite <- app_assoc. cbn [params app]. rewrite Hl, Hr.
           change (lit (bs ",") (Leaf (Punct ",") :: T ++ Leaf (Punct ">") :: R)) with (Some (tt, T ++ Leaf (Punct ">") :: R)). cbv iota.
           rewrite RT by lia. reflexivity.
Qed.
Lemma serialize_types2_trees cs : exists T, ctrees (serialize_types2 cs) T /\ every read_T T = Some (map (fun p => N.of_nat (fst p)) (number cs)).
Proof.
  unfold serialize_types2.
  destruct (pieces_join read_T (fun p : nat * ty => bs "T" ++ dec (N.of_nat (fst p)) ++ bs ",") (fun p => N.of_nat (fst p)) (bs " ") (number cs)) as (T & HT & RT).
  - now apply space_trees.
  - intros [n c] _. cbn [fst]. pose proof (dec_text (N.of_nat n)) as D. hole D.
    eapply piece_intro; [reflexivity|eapply ctrees_grow; [intros r; lexed|growth]|]. intros R. unfold read_T. reading.
  - exists T. split; [exact HT|]. now apply every_seq.
Qed.
