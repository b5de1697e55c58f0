(** Facts about the type-string parser and generated names (C01, C06). *)
From Verif Require Import Base Types Layout Spec BaseFacts.
Local Open Scope nat_scope.

Lemma basic_letter_display c t : basic_letter c = Some t -> display t = [c].
Proof. destruct c; cbn; intros H; inversion H; reflexivity. Qed.
Lemma display_cons t : exists c s, display t = c :: s /\ c <> ")"%byte.
Proof. destruct t; cbn; eexists _, _; split; reflexivity || discriminate. Qed.
Lemma display_length t : 1 <= length (display t).
Proof. destruct (display_cons t) as (c & s & -> & _). cbn. lia. Qed.

Lemma parse_items_display ts :
  Forall (fun t => forall fuel c it rest, display t = c :: it -> 2 * length (display t) <= fuel ->
            parse_one fuel c (it ++ rest) = inr (t, rest)) ts ->
  forall fuel acc rest, 2 * length (concat (map display ts)) + 1 <= fuel ->
    parse_items fuel (concat (map display ts) ++ ")"%byte :: rest) acc = inr (acc ++ ts, rest).
Proof.
  induction 1 as [|t ts Ht _ IH]; intros fuel acc rest Hf; destruct fuel as [|fuel]; try lia.
  - cbn. now rewrite app_nil_r.
  - cbn [map concat] in *. rewrite app_length in Hf.
    destruct (display_cons t) as (c & s & E & Hc). pose proof (display_length t).
    rewrite E. cbn [app parse_items].
    destruct (byte_eqb c ")") eqn:Ec; [apply byte_eqb_eq in Ec; congruence|].
    rewrite <- app_assoc. rewrite (Ht fuel c s) by (auto; lia).
    rewrite IH by lia. now rewrite <- app_assoc.
Qed.

Lemma parse_one_display t :
  forall fuel c it rest, display t = c :: it -> 2 * length (display t) <= fuel ->
    parse_one fuel c (it ++ rest) = inr (t, rest).
Proof.
  induction t using ty_ind'; intros fuel c it rest E Hf;
    (destruct fuel as [|fuel]; [pose proof (display_length (TA TB)); rewrite E in Hf; cbn in Hf; lia|]);
    cbn [display] in *; injection E as <- <-; cbn [parse_one basic_letter byte_eqb Byte.eqb];
    try reflexivity.
  - (* A *) destruct (display_cons t) as (c & s & E & _). rewrite E in *. cbn [app].
    cbn [length] in Hf. rewrite (IHt fuel c s) by (auto; cbn [length]; lia). reflexivity.
  - (* M *) destruct (display_cons t) as (c & s & E & _). rewrite E in *. cbn [app].
    cbn [length] in Hf. rewrite (IHt fuel c s) by (auto; cbn [length]; lia). reflexivity.
  - (* tuple *) cbn [length] in Hf. rewrite app_length in Hf. cbn [length] in Hf.
    change (byte_eqb "(" "a") with false. change (byte_eqb "(" "m") with false.
    change (byte_eqb "(" "(") with true. cbv iota.
    rewrite <- app_assoc. cbn [app]. rewrite parse_items_display by (auto; lia). reflexivity.
  - (* dict *)
    cbn [length] in Hf. rewrite !app_length in Hf. cbn [length] in Hf.
    change (byte_eqb "{" "a") with false. change (byte_eqb "{" "m") with false.
    change (byte_eqb "{" "(") with false. change (byte_eqb "{" "{") with true. cbv iota.
    destruct (display_cons t1) as (c1 & s1 & E1 & _). destruct (display_cons t2) as (c2 & s2 & E2 & _).
    pose proof (display_length t1). pose proof (display_length t2).
    rewrite <- !app_assoc. rewrite E1. cbn [app].
    rewrite (IHt1 fuel c1 s1) by (auto; lia).
    rewrite E2. cbn [app].
    rewrite (IHt2 fuel c2 s2) by (auto; lia). cbn [app]. reflexivity.
Qed.

Theorem one_display t : one (display t) = inr t.
Proof.
  destruct (display_cons t) as (c & s & E & _). unfold one. rewrite E.
  pose proof (parse_one_display t (2 * length (c :: s) + 2) c s [] E) as H.
  rewrite app_nil_r in H. rewrite H by (rewrite E; lia). reflexivity.
Qed.

(** What the parser returns prints back to what it consumed. *)
Lemma parse_sound fuel :
  (forall c it t rest, parse_one fuel c it = inr (t, rest) -> c :: it = display t ++ rest) /\
  (forall it acc ts rest, parse_items fuel it acc = inr (ts, rest) ->
     exists ts', ts = acc ++ ts' /\ it = concat (map display ts') ++ ")"%byte :: rest).
Proof.
  induction fuel as [|fuel [IH1 IH2]]; [split; intros; discriminate|].
  split.
  - intros c it t rest H. cbn [parse_one] in H.
    destruct (basic_letter c) as [b|] eqn:Eb.
    { injection H as <- <-. rewrite (basic_letter_display _ _ Eb). reflexivity. }
    destruct (byte_eqb c "a") eqn:Ea.
    { apply byte_eqb_eq in Ea. subst c. destruct it as [|c' it']; [discriminate|].
      destruct (parse_one fuel c' it') as [|[x it'']] eqn:E; [discriminate|].
      injection H as <- <-. apply IH1 in E. cbn [display app]. now rewrite E. }
    destruct (byte_eqb c "m") eqn:Em.
    { apply byte_eqb_eq in Em. subst c. destruct it as [|c' it']; [discriminate|].
      destruct (parse_one fuel c' it') as [|[x it'']] eqn:E; [discriminate|].
      injection H as <- <-. apply IH1 in E. cbn [display app]. now rewrite E. }
    destruct (byte_eqb c "(") eqn:Ep.
    { apply byte_eqb_eq in Ep. subst c.
      destruct (parse_items fuel it []) as [|[ts it']] eqn:E; [discriminate|].
      injection H as <- <-. apply IH2 in E as (ts' & -> & ->).
      cbn [display app]. now rewrite <- app_assoc. }
    destruct (byte_eqb c "{") eqn:Eq; [|discriminate].
    apply byte_eqb_eq in Eq. subst c. destruct it as [|c1 it1]; [discriminate|].
    destruct (parse_one fuel c1 it1) as [|[a [|c2 it2]]] eqn:E1; try discriminate.
    destruct (parse_one fuel c2 it2) as [|[b [|c3 it3]]] eqn:E2; try discriminate.
    destruct (byte_eqb c3 "}") eqn:Ec; [|discriminate].
    apply byte_eqb_eq in Ec. subst c3. injection H as <- <-.
    apply IH1 in E1. apply IH1 in E2. cbn [display app].
    rewrite E1, E2. now rewrite <- !app_assoc.
  - intros it acc ts rest H. cbn [parse_items] in H.
    destruct it as [|c it']; [discriminate|].
    destruct (byte_eqb c ")") eqn:Ec.
    { apply byte_eqb_eq in Ec. subst c. injection H as <- <-. exists []. now rewrite app_nil_r. }
    destruct (parse_one fuel c it') as [|[t it'']] eqn:E; [discriminate|].
    apply IH1 in E. apply IH2 in H as (ts' & -> & ->).
    exists (t :: ts'). cbn [map concat]. rewrite E, <- !app_assoc. auto.
Qed.

Lemma parse_no_fuel fuel :
  (forall c it, 2 * length it + 2 <= fuel -> parse_one fuel c it <> inl EFuel) /\
  (forall it acc, 2 * length it + 1 <= fuel -> parse_items fuel it acc <> inl EFuel).
Proof.
  induction fuel as [|fuel [IH1 IH2]]; [split; intros; lia|].
  assert (Hs : forall c it t rest, parse_one fuel c it = inr (t, rest) -> length rest <= length it).
  { intros c it t rest H. apply (proj1 (parse_sound fuel)) in H.
    apply (f_equal (@length byte)) in H. rewrite app_length in H.
    pose proof (display_length t). cbn [length] in H. lia. }
  split.
  - intros c it Hf. cbn [parse_one].
    destruct (basic_letter c); [discriminate|].
    destruct (byte_eqb c "a").
    { destruct it as [|c' it']; [discriminate|]. cbn [length] in Hf.
      specialize (IH1 c' it' ltac:(lia)). destruct (parse_one fuel c' it') as [|[]]; congruence. }
    destruct (byte_eqb c "m").
    { destruct it as [|c' it']; [discriminate|]. cbn [length] in Hf.
      specialize (IH1 c' it' ltac:(lia)). destruct (parse_one fuel c' it') as [|[]]; congruence. }
    destruct (byte_eqb c "(").
    { specialize (IH2 it [] ltac:(lia)). destruct (parse_items fuel it []) as [|[]]; congruence. }
    destruct (byte_eqb c "{"); [|discriminate].
    destruct it as [|c1 it1]; [discriminate|]. cbn [length] in Hf.
    pose proof (IH1 c1 it1 ltac:(lia)) as P1.
    destruct (parse_one fuel c1 it1) as [|[a [|c2 it2]]] eqn:E1; try congruence.
    apply Hs in E1. cbn [length] in E1.
    pose proof (IH1 c2 it2 ltac:(lia)) as P2.
    destruct (parse_one fuel c2 it2) as [|[b [|c3 it3]]]; try congruence.
    destruct (byte_eqb c3 "}"); congruence.
  - intros it acc Hf. cbn [parse_items]. destruct it as [|c it']; [discriminate|]. cbn [length] in Hf.
    destruct (byte_eqb c ")"); [discriminate|].
    pose proof (IH1 c it' ltac:(lia)) as P1.
    destruct (parse_one fuel c it') as [|[t it'']] eqn:E; [congruence|].
    apply Hs in E. apply IH2. lia.
Qed.

Theorem one_no_fuel s : one s <> inl EFuel.
Proof.
  destruct s as [|c it]; [discriminate|]. unfold one.
  pose proof (proj1 (parse_no_fuel (2 * length (c :: it) + 2)) c it) as H.
  specialize (H ltac:(cbn [length]; lia)).
  destruct (parse_one _ c it) as [|[t [|]]]; congruence.
Qed.

Theorem one_sound s t : one s = inr t -> display t = s.
Proof.
  destruct s as [|c it]; [discriminate|]. unfold one.
  destruct (parse_one _ c it) as [|[u [|]]] eqn:E; try discriminate.
  intros H; injection H as <-. apply (proj1 (parse_sound _)) in E.
  rewrite app_nil_r in E. auto.
Qed.

Theorem one_iff s t : one s = inr t <-> display t = s.
Proof. split; [apply one_sound|]. intros <-. apply one_display. Qed.

Lemma display_inj a b : display a = display b -> a = b.
Proof.
  intros H. pose proof (one_display a) as E. rewrite H, one_display in E. congruence.
Qed.

(** The grammar generates exactly the printed types. *)
Fixpoint type_string_ind' (P : list byte -> Prop)
  (Hb : forall c, In c ["b";"y";"n";"q";"i";"u";"x";"t";"d";"s";"o";"g";"v"]%byte -> P [c])
  (Ha : forall s, P s -> P ("a"%byte :: s))
  (Hm : forall s, P s -> P ("m"%byte :: s))
  (Ht : forall ss, Forall P ss -> P (["("%byte] ++ concat ss ++ [")"%byte]))
  (He : forall k v, P k -> P v -> P (["{"%byte] ++ k ++ v ++ ["}"%byte]))
  s (H : type_string s) {struct H} : P s :=
  match H in type_string s return P s with
  | ts_basic c Hc => Hb c Hc
  | ts_array s H => Ha s (type_string_ind' P Hb Ha Hm Ht He s H)
  | ts_maybe s H => Hm s (type_string_ind' P Hb Ha Hm Ht He s H)
  | ts_tuple ss Hs => Ht ss
      ((fix go ss (Hs : Forall type_string ss) : Forall P ss :=
          match Hs in Forall _ ss return Forall P ss with
          | Forall_nil _ => Forall_nil _
          | @Forall_cons _ _ x l H H' =>
              Forall_cons x (type_string_ind' P Hb Ha Hm Ht He x H) (go l H')
          end) ss Hs)
  | ts_entry k v Hk Hv => He k v (type_string_ind' P Hb Ha Hm Ht He k Hk)
                              (type_string_ind' P Hb Ha Hm Ht He v Hv)
  end.

Lemma display_type_string t : type_string (display t).
Proof.
  induction t using ty_ind'; cbn [display];
    try (apply ts_basic; cbn; tauto); try (constructor; assumption).
  apply (ts_tuple (map display ts)). apply Forall_map. assumption.
Qed.
Lemma type_string_display s : type_string s -> exists t, display t = s.
Proof.
  induction 1 as [c Hc|s [t <-]|s [t <-]|ss Hs|k v [a <-] [b <-]] using type_string_ind'.
  - cbn in Hc. decompose [or] Hc; try tauto; subst;
      [exists TB|exists TY|exists TN|exists TQ|exists TI|exists TU|exists TX|exists TT|exists TD
      |exists TS|exists TO|exists TG|exists TV]; reflexivity.
  - exists (TA t). reflexivity.
  - exists (TM t). reflexivity.
  - assert (exists ts, map display ts = ss) as [ts <-].
    { induction Hs as [|s ss [t <-] _ [ts <-]]; [exists []; reflexivity|].
      exists (t :: ts). reflexivity. }
    exists (TTuple ts). reflexivity.
  - exists (TDict a b). reflexivity.
Qed.
Theorem one_accepts s : (exists t, one s = inr t) <-> type_string s.
Proof.
  split.
  - intros [t H]. apply one_sound in H. subst. apply display_type_string.
  - intros H. apply type_string_display in H as [t <-]. exists t. apply one_display.
Qed.

(** ** Names (C06) *)
Definition plain (c : byte) : Prop :=
  c <> "C"%byte /\ c <> "F"%byte /\ c <> "7"%byte /\ c <> "3"%byte.
Lemma display_plain t : Forall plain (display t).
Proof.
  assert (Hp : forall c, In c ["b";"y";"n";"q";"i";"u";"x";"t";"d";"s";"o";"g";"v";"a";"m";"(";")";"{";"}"]%byte -> plain c).
  { intros c Hc. cbn in Hc. decompose [or] Hc; try tauto; subst; repeat split; discriminate. }
  induction t using ty_ind'; cbn [display];
    repeat (apply Forall_cons; [apply Hp; cbn; tauto|]); auto.
  - apply Forall_app. split; [|apply Forall_cons; [apply Hp; cbn; tauto|auto]].
    apply Forall_concat. apply Forall_map. assumption.
  - rewrite !Forall_app. repeat split; auto. apply Forall_cons; [apply Hp; cbn; tauto|auto].
Qed.
Definition unescape_byte (c : byte) : byte :=
  match c with
  | "C" => "(" | "F" => "{" | "7" => ")" | "3" => "}"
  | _ => c
  end%byte.
Lemma unescape_escape a : Forall plain a -> map unescape_byte (escape a) = a.
Proof.
  unfold escape. induction 1 as [|x a Hx _ IH]; cbn [map]; [reflexivity|]. rewrite IH. f_equal.
  destruct Hx as (Hx1 & Hx2 & Hx3 & Hx4).
  destruct x; cbn; reflexivity || congruence.
Qed.
Lemma escape_inj a b : Forall plain a -> Forall plain b -> escape a = escape b -> a = b.
Proof.
  intros Ha Hb H. rewrite <- (unescape_escape a Ha), <- (unescape_escape b Hb). now rewrite H.
Qed.
Theorem struct_name_inj a b : struct_name a = struct_name b -> a = b.
Proof.
  intros H. apply display_inj. apply escape_inj; auto using display_plain.
Qed.

Lemma display_show t : display t = sp_show t.
Proof.
  induction t using ty_ind'; cbn [display sp_show app]; try congruence.
  f_equal. f_equal. rewrite flat_map_concat_map.
  induction H as [|t ts Ht _ IH]; [reflexivity|]. cbn [map concat]. now rewrite Ht, IH.
Qed.
Lemma one_show s t : one s = inr t <-> sp_show t = s.
Proof. rewrite <- display_show. apply one_iff. Qed.

Lemma escape_ident s : Forall (fun c => In c ["b";"y";"n";"q";"i";"u";"x";"t";"d";"s";"o";"g";"v";"a";"m";"(";")";"{";"}"]%byte) s ->
  Forall ident_char (escape s).
Proof.
  unfold escape. rewrite Forall_map. apply Forall_impl. intros c Hc. cbn in Hc.
  decompose [or] Hc; try tauto; subst; unfold ident_char; cbn; lia.
Qed.
Lemma display_chars t : Forall (fun c => In c ["b";"y";"n";"q";"i";"u";"x";"t";"d";"s";"o";"g";"v";"a";"m";"(";")";"{";"}"]%byte) (display t).
Proof.
  induction t using ty_ind'; cbn [display];
    repeat (apply Forall_cons; [cbn; tauto|]); auto.
  - apply Forall_app. split; [|apply Forall_cons; [cbn; tauto|auto]].
    apply Forall_concat. apply Forall_map. assumption.
  - rewrite !Forall_app. repeat split; auto. apply Forall_cons; [cbn; tauto|auto].
Qed.
Lemma struct_name_ident t : Forall ident_char (struct_name t).
Proof. apply escape_ident, display_chars. Qed.

Lemma generate_types_iff s t :
  In s (generate_types t) <-> sp_is_struct s = true /\ sp_occurs s t.
Proof.
  split.
  - revert s. induction t using ty_ind'; intros s0 Hin; cbn [generate_types] in Hin;
      try (cbn in Hin; tauto).
    + destruct (IHt s0 Hin). split; auto. apply (occ_in _ _ t); cbn; auto.
    + destruct (IHt s0 Hin). split; auto. apply (occ_in _ _ t); cbn; auto.
    + apply in_app_or in Hin as [Hin|[<-|[]]]; [|split; [reflexivity|constructor]].
      apply in_concat in Hin as (l & Hl & Hin). apply in_map_iff in Hl as (c & <- & Hc).
      rewrite Forall_forall in H. destruct (H c Hc s0 Hin). split; auto. now apply (occ_in _ _ c).
    + apply in_app_or in Hin as [Hin|Hin]; [|apply in_app_or in Hin as [Hin|[<-|[]]]].
      * destruct (IHt1 s0 Hin). split; auto. apply (occ_in _ _ t1); cbn; auto.
      * destruct (IHt2 s0 Hin). split; auto. apply (occ_in _ _ t2); cbn; auto.
      * split; [reflexivity|constructor].
  - intros [Hs Ho]. induction Ho as [|t c Hc _ IH].
    + destruct s; try discriminate; cbn [generate_types]; rewrite ?in_app_iff; cbn; auto.
    + destruct t; cbn [sp_components] in Hc; try (destruct Hc; fail); cbn [generate_types].
      * destruct Hc as [->|[]]. assumption.
      * destruct Hc as [->|[]]. assumption.
      * apply in_or_app. left. apply in_concat. exists (generate_types c). split; [now apply in_map|assumption].
      * rewrite !in_app_iff. destruct Hc as [->|[->|[]]]; auto.
Qed.

Lemma NoDup_map_inj {A B} (f : A -> B) (l : list A) :
  (forall a b, f a = f b -> a = b) -> NoDup (map f l) <-> NoDup l.
Proof.
  intros Hf. induction l as [|x l IH]; cbn; [split; constructor|].
  rewrite !NoDup_cons_iff, IH. split; intros [Hn Hd]; split; auto.
  - intros Hi. apply Hn. now apply in_map.
  - intros Hi. apply Hn. apply in_map_iff in Hi as (y & E & Hy). apply Hf in E. now subst.
Qed.
Lemma names_nodup t : NoDup (map struct_name (generate_types t)) <-> NoDup (generate_types t).
Proof. apply NoDup_map_inj. apply struct_name_inj. Qed.
Lemma existsb_bytes n l : existsb (bytes_eqb n) l = true <-> In n l.
Proof.
  rewrite existsb_exists. split.
  - intros (x & Hx & E). apply bytes_eqb_eq in E. now subst.
  - intros H. exists n. split; auto. apply bytes_eqb_refl.
Qed.
Lemma names_once_nodup l : names_once l = true <-> NoDup l.
Proof.
  induction l as [|n l IH]; cbn [names_once]; [split; constructor|].
  rewrite andb_true_iff, negb_true_iff, NoDup_cons_iff, IH.
  rewrite <- existsb_bytes. destruct (existsb (bytes_eqb n) l); intuition congruence.
Qed.

Lemma defined_twice : exists t : ty,
  one (bs "((s)(s))") = inr t /\ ~ NoDup (map struct_name (generate_types t)).
Proof.
  exists (TTuple [TTuple [TS]; TTuple [TS]]). split; [reflexivity|].
  cbn. intros H. inversion H as [|? ? Hn _]; subst. apply Hn. cbn. auto.
Qed.
