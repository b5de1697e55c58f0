(** How long the text of a value is: proofs. *)
From Verif Require Import Base Types Layout AlignedBytes Strs Spec Deser Histories Fmt FmtSpec Flags FlagSpec CoreFmt SizeSpec
  BaseFacts TypesFacts LayoutFacts DeserFacts ReadFacts AccessFacts EncFacts LongFacts FmtFacts FlagFacts WrapMore.
From Coq Require Import Lia ZifyBool ZifyNat ZifyN.
Ltac Zify.zify_post_hook ::= idtac.
Local Open Scope N_scope.

(** ** Numbers *)
Lemma digits_short base k : 2 <= base -> forall f n, n < base ^ (1 + k) -> blen (digits f base n) <= 1 + k.
Proof.
  intros Hb. induction k as [|k IH] using N.peano_ind; intros f n Hn.
  - destruct f as [|f]; cbn [digits]; [rewrite blen_nil; lia|]. rewrite N.pow_1_r in Hn.
    rewrite (proj2 (N.ltb_lt _ _) Hn). rewrite blen_cons, blen_nil. lia.
  - destruct f as [|f]; cbn [digits]; [rewrite blen_nil; lia|]. destruct (n <? base); [rewrite blen_cons, blen_nil; lia|].
    rewrite blen_app, blen_cons, blen_nil. assert (Hd : n / base < base ^ (1 + k)).
    { apply N.div_lt_upper_bound; [lia|]. replace (base * base ^ (1 + k)) with (base ^ (1 + N.succ k)); [exact Hn|].
      replace (1 + N.succ k) with (N.succ (1 + k)) by lia. apply N.pow_succ_r'. }
    specialize (IH f _ Hd). lia.
Qed.
Lemma radix_short base k n : 2 <= base -> n < base ^ (1 + k) -> blen (radix base n) <= 1 + k.
Proof. intros. unfold radix. now apply digits_short. Qed.
Lemma int_short z : (- 2 ^ 63 <= z < 2 ^ 64)%Z -> blen (core_int z) <= 20.
Proof.
  intros H. destruct z as [|p|p]; unfold core_int.
  - cbv. discriminate.
  - apply (radix_short 10 19); [lia|]. change (10 ^ (1 + 19)) with 100000000000000000000. lia.
  - rewrite blen_app. change (blen (bs "-")) with 1. enough (blen (radix 10 (N.pos p)) <= 1 + 18) by lia.
    apply radix_short; [lia|]. change (10 ^ (1 + 18)) with 10000000000000000000. lia.
Qed.
Lemma byte_short b : blen (core_int (Z.of_N (b2n b))) <= 3.
Proof.
  pose proof (b2n_lt b) as Hb. unfold core_int. destruct (Z.of_N (b2n b)) eqn:E; try lia; rewrite <- E;
    (apply (radix_short 10 2); [lia|]; change (10 ^ (1 + 2)) with 1000; lia).
Qed.

(** ** Strings *)
Lemma escape_short shown c : blen (CoreFmt.escape shown c) <= (if c <? 128 then 6 else 10) \/ 2 ^ 24 <= c.
Proof.
  destruct (2 ^ 24 <=? c) eqn:Eb; [right; lia|left]. unfold CoreFmt.escape.
  destruct (c =? 0); [destruct (c <? 128); cbv; discriminate|]. destruct (c =? 9); [destruct (c <? 128); cbv; discriminate|].
  destruct (c =? 13); [destruct (c <? 128); cbv; discriminate|]. destruct (c =? 10); [destruct (c <? 128); cbv; discriminate|].
  destruct (_ || _); [rewrite !blen_cons, blen_nil; destruct (c <? 128); lia|].
  destruct (shown c).
  - enough (blen (utf8_of c) <= 4) by (destruct (c <? 128); lia). unfold utf8_of.
    repeat (destruct (_ <? _); [rewrite ?blen_cons, blen_nil; lia|]). rewrite ?blen_cons, ?blen_nil; lia.
  - rewrite !blen_app. change (blen (bs "\u{")) with 3. change (blen (bs "}")) with 1. destruct (c <? 128) eqn:Ec.
    + enough (blen (radix 16 c) <= 1 + 1) by lia. apply radix_short; [lia|]. change (16 ^ (1 + 1)) with 256. lia.
    + enough (blen (radix 16 c) <= 1 + 5) by lia. apply radix_short; [lia|]. change (16 ^ (1 + 5)) with (2 ^ 24). lia.
Qed.
Lemma chars_short shown n : forall s, (length s <= n)%nat -> blen (concat (map (CoreFmt.escape shown) (chars s))) <= 6 * blen s.
Proof.
  assert (HL : forall b : byte, low6 b < 64) by (intros b; unfold low6; apply N.mod_lt; lia).
  assert (HM : forall (b : byte) m, 0 < m -> b2n b mod m < m) by (intros b m Hm; apply N.mod_lt; lia).
  assert (HC : forall c s (r : N), c < 2 ^ 24 -> blen (concat (map (CoreFmt.escape shown) s)) <= r ->
    blen (concat (map (CoreFmt.escape shown) (c :: s))) <= (if c <? 128 then 6 else 10) + r).
  { intros c s r Hc Hr. cbn [map concat]. rewrite blen_app. destruct (escape_short shown c) as [He|He]; lia. }
  induction n as [|n IH]; intros s Hs; (destruct s as [|b0 r0]; [cbn [chars map concat]; rewrite blen_nil; lia|]); cbn [length] in Hs; [lia|].
  cbn [chars]. destruct (b2n b0 <? 128) eqn:E0.
  { eapply N.le_trans; [apply HC; [lia|apply IH; lia]|]. rewrite E0, blen_cons. lia. }
  destruct r0 as [|b1 r1]; [cbn [map concat]; rewrite blen_nil; lia|]. cbn [length] in Hs. destruct (b2n b0 <? 224).
  { eapply N.le_trans; [apply HC; [|apply IH; lia]|].
    - specialize (HM b0 32 ltac:(lia)). specialize (HL b1). lia.
    - rewrite !blen_cons. match goal with |- context [if ?b then _ else _] => destruct b end; lia. }
  destruct r1 as [|b2 r2]; [cbn [map concat]; rewrite blen_nil; lia|]. cbn [length] in Hs. destruct (b2n b0 <? 240).
  { eapply N.le_trans; [apply HC; [|apply IH; lia]|].
    - specialize (HM b0 32 ltac:(lia)). pose proof (HL b1). pose proof (HL b2). lia.
    - rewrite !blen_cons. match goal with |- context [if ?b then _ else _] => destruct b end; lia. }
  destruct r2 as [|b3 r3]; [cbn [map concat]; rewrite blen_nil; lia|]. cbn [length] in Hs.
  eapply N.le_trans; [apply HC; [|apply IH; lia]|].
  - specialize (HM b0 8 ltac:(lia)). pose proof (HL b1). pose proof (HL b2). pose proof (HL b3). lia.
  - rewrite !blen_cons. match goal with |- context [if ?b then _ else _] => destruct b end; lia.
Qed.
Lemma str_short shown s : blen (core_str shown s) <= 2 + 6 * blen s.
Proof. unfold core_str. rewrite !blen_app, !blen_cons, !blen_nil. pose proof (chars_short shown (length s) s (le_n _)). lia. Qed.
Lemma lossy_step b0 r0 : core_lossy (b0 :: r0) =
      if in_rng 0 127 b0 then b0 :: core_lossy r0
      else if in_rng 194 223 b0 then
        match r0 with
        | b1 :: r1 => if cont b1 then b0 :: b1 :: core_lossy r1 else replacement ++ core_lossy r0
        | [] => replacement
        end
      else if in_rng 224 239 b0 then
        match r0 with
        | b1 :: r1 =>
            if (if b2n b0 =? 224 then in_rng 160 191 b1
                else if b2n b0 =? 237 then in_rng 128 159 b1 else cont b1)
            then match r1 with
                 | b2 :: r2 => if cont b2 then b0 :: b1 :: b2 :: core_lossy r2
                               else replacement ++ core_lossy r1
                 | [] => replacement
                 end
            else replacement ++ core_lossy r0
        | [] => replacement
        end
      else if in_rng 240 244 b0 then
        match r0 with
        | b1 :: r1 =>
            if (if b2n b0 =? 240 then in_rng 144 191 b1
                else if b2n b0 =? 244 then in_rng 128 143 b1 else cont b1)
            then match r1 with
                 | b2 :: r2 =>
                     if cont b2
                     then match r2 with
                          | b3 :: r3 => if cont b3 then b0 :: b1 :: b2 :: b3 :: core_lossy r3
                                        else replacement ++ core_lossy r2
                          | [] => replacement
                          end
                     else replacement ++ core_lossy r1
                 | [] => replacement
                 end
            else replacement ++ core_lossy r0
        | [] => replacement
        end
      else replacement ++ core_lossy r0.
Proof. reflexivity. Qed.
Lemma lossy_short n : forall s, (length s <= n)%nat -> blen (core_lossy s) <= 3 * blen s.
Proof.
  assert (HR : blen replacement = 3) by reflexivity.
  induction n as [|n IH]; intros s Hs; (destruct s as [|b0 r0]; [cbn [core_lossy]; rewrite blen_nil; lia|]); [cbn [length] in Hs; lia|].
  rewrite lossy_step.
  repeat match goal with
  | |- context [if ?b then _ else _] => destruct b
  | |- context [match ?r with [] => _ | _ :: _ => _ end] => destruct r
  end; cbn [length] in Hs; rewrite ?blen_app, ?blen_cons, ?blen_nil, ?HR;
  repeat match goal with |- context [blen (core_lossy ?r)] => let H := fresh in pose proof (IH r ltac:(cbn [length]; lia)) as H; rewrite ?blen_cons in H; revert H; generalize (blen (core_lossy r)); intros ? H end; lia.
Qed.

(** ** [{:?}] *)
Definition room (k : N) (l : list (list byte)) : N := fold_right (fun y n => blen y + k + n) 0 l.
Lemma sep_room sep l : blen (sp_sep sep l) <= room (blen sep) l.
Proof.
  destruct l as [|x l]; cbn [sp_sep room fold_right]; [rewrite blen_nil; lia|]. rewrite blen_app. fold (room (blen sep) l).
  enough (blen (concat (map (fun y => sep ++ y) l)) <= room (blen sep) l) by lia.
  induction l as [|y l IH]; cbn [map concat room fold_right]; [rewrite blen_nil; lia|]. fold (room (blen sep) l). rewrite !blen_app. lia.
Qed.
Lemma trail_room sep l : blen (sp_trail sep l) <= room (blen sep) l.
Proof.
  unfold sp_trail. induction l as [|y l IH]; cbn [map concat room fold_right]; [rewrite blen_nil; lia|]. fold (room (blen sep) l). rewrite !blen_app. lia.
Qed.
Lemma room_fold {A} (f : A -> list byte) (w : A -> N) (k m : N) l : Forall (fun a => blen (f a) + k <= m * w a) l ->
  room k (map f l) <= m * fold_right (fun a n => w a + n) 0 l.
Proof.
  induction 1 as [|a l Ha _ IH]; cbn [map room fold_right]; [lia|]. fold (room k (map f l)). lia.
Qed.
Lemma weight_pos v : 1 <= sp_weight v.
Proof. destruct v; cbn [sp_weight]; lia. Qed.
Lemma line_len d : blen (sp_line d) = 1 + 4 * N.of_nat d.
Proof.
  unfold sp_line. rewrite blen_cons. f_equal. induction d as [|d IH]; [reflexivity|]. cbn [repeat concat]. rewrite blen_app, IH. change (blen (bs "    ")) with 4. lia.
Qed.
Lemma block_room d l : blen (sp_block d l) = room (6 + 4 * N.of_nat d) l + (1 + 4 * N.of_nat d).
Proof.
  unfold sp_block. rewrite blen_app, line_len. f_equal. induction l as [|y l IH]; cbn [map concat room fold_right]; [apply blen_nil|].
  fold (room (6 + 4 * N.of_nat d) l). rewrite !blen_app, line_len, IH. change (blen (bs ",")) with 1. lia.
Qed.
Section Print.
Context (shown : N -> bool) (double : N -> list byte) (D : N) (HD : forall b, blen (double b) <= D).
Let F := core_fmts shown double.
Lemma variant_short ts d : blen (sp_print F TV (VVariant ts d)) + 2 <= 32 * sp_weight (VVariant ts d).
Proof.
  cbn [sp_print sp_weight F core_fmts f_str f_lossy f_int]. change (@len byte) with (@blen byte). rewrite !blen_app.
  change (blen (bs "Variant { type: ")) with 16. change (blen (bs ", data: [")) with 9. change (blen (bs "] }")) with 3.
  pose proof (str_short shown (core_lossy ts)). pose proof (lossy_short (length ts) ts (le_n _)).
  pose proof (sep_room (bs ", ") (map (fun b => core_int (Z.of_N (b2n b))) d)) as HS.
  change (blen (bs ", ")) with 2 in HS.
  pose proof (room_fold (fun b => core_int (Z.of_N (b2n b))) (fun _ => 1) 2 5 d) as HR. specialize (HR ltac:(apply Forall_forall; intros b _; pose proof (byte_short b); lia)).
  assert (HW : fold_right (fun (_ : byte) n => 1 + n) 0 d = blen d) by (clear; induction d as [|x d IH]; [reflexivity|]; cbn [fold_right]; rewrite IH, blen_cons; lia).
  cbv beta in HR. lia.
Qed.
Lemma struct_items ts vs : Forall2 sp_typed ts vs -> forall (f : ty -> value -> list byte) k m, Forall (fun t => forall v, sp_typed t v -> blen (f t v) + k <= m * sp_weight v) ts ->
  room k ((fix go (ts : list ty) (vs : list value) : list (list byte) :=
                  match ts, vs with
                  | t :: ts', v :: vs' => f t v :: go ts' vs'
                  | _, _ => []
                  end) ts vs) <= m * fold_right (fun v n => sp_weight v + n) 0 vs.
Proof.
  intros HT f k m HF. induction HT as [|t v ts vs Hv _ IH]; cbn [room fold_right]; [lia|]. inversion HF as [|? ? H1 H2]; subst.
  specialize (IH H2). specialize (H1 v Hv). unfold room in IH. lia.
Qed.
Lemma array_typed x v : sp_typed (TA x) v -> exists vs, v = VArray vs /\ Forall (sp_typed x) vs.
Proof.
  destruct v as [| | | | | |vs|]; cbn [sp_typed]; try tauto. intros H. exists vs. split; [reflexivity|]. induction vs as [|v vs IH]; constructor; tauto.
Qed.
Lemma print_short t : forall v, sp_typed t v -> blen (sp_print F t v) + 2 <= (32 + D) * sp_weight v.
Proof.
  induction t as [t Hns IH|t Hs IH] using ty_struct_ind; intros v Hv.
  - destruct t as [| | | | | | | | | | | | |x|x|ts|k x]; cbn [is_struct] in Hns; try tauto.
    1-13: destruct v as [z|b|b|s|ts d|vs|o|vs]; cbn [sp_typed] in Hv; try contradiction.
    1: destruct b; [change (blen (sp_print F TB (VBool true))) with 4|change (blen (sp_print F TB (VBool false))) with 5]; cbn [sp_weight]; lia.
    1-7: cbn [sp_print F core_fmts f_int sp_weight]; pose proof (int_short z ltac:(lia)); lia.
    1: cbn [sp_print F core_fmts f_double sp_weight]; specialize (HD b); lia.
    1-3: cbn [sp_print F core_fmts f_str sp_weight]; change (@len byte) with (@blen byte); pose proof (str_short shown s); nia.
    + pose proof (variant_short ts d). pose proof (weight_pos (VVariant ts d)). nia.
    + specialize (IH x (or_introl eq_refl)). apply array_typed in Hv as (vs & -> & Hv). cbn [sp_print sp_weight]. rewrite !blen_app.
      change (blen (bs "[")) with 1. change (blen (bs "]")) with 1.
      pose proof (room_fold (sp_print F x) sp_weight 2 (32 + D) vs) as HR. specialize (HR ltac:(eapply Forall_impl; [|exact Hv]; exact IH)).
      pose proof (sep_room (bs ", ") (map (sp_print F x) vs)) as H1. pose proof (trail_room (bs ", ") (map (sp_print F x) vs)) as H2.
      change (blen (bs ", ")) with 2 in H1, H2. destruct (sp_size x); lia.
    + specialize (IH x (or_intror eq_refl)). destruct v as [| | | | | |[w|]|]; cbn [sp_typed] in Hv; try contradiction.
      * specialize (IH w Hv). cbn [sp_print sp_weight]. rewrite !blen_app. change (blen (bs "Some(")) with 5. change (blen (bs ")")) with 1. lia.
      * change (blen (sp_print F (TM x) (VMaybe None))) with 4. cbn [sp_weight]. lia.
  - apply typed_struct in Hv as (vs & -> & Hv); [|exact Hs].
    destruct t as [| | | | | | | | | | | | |x|x|ts|k x]; cbn [is_struct] in Hs; try tauto; cbn [children_of] in *.
    + pose proof (struct_items ts vs Hv (sp_print F) 2 (32 + D) IH) as HR. cbn [sp_print sp_weight]. rewrite !blen_app.
      set (l := (fix go (ts : list ty) (vs : list value) : list (list byte) := match ts, vs with t :: ts', v :: vs' => sp_print F t v :: go ts' vs' | _, _ => [] end) ts vs) in *.
      change (blen (bs "(")) with 1. change (blen (bs ")")) with 1. pose proof (sep_room (bs ", ") l) as H1. change (blen (bs ", ")) with 2 in H1.
      destruct (len l =? 1); [change (blen (bs ",")) with 1|rewrite blen_nil]; lia.
    + inversion Hv as [|? a ? ws Ha Hw]; subst. inversion Hw as [|? b ? ws' Hb Hw']; subst. inversion Hw'; subst.
      inversion IH as [|? ? IHa IHr]; subst. inversion IHr as [|? ? IHb _]; subst. specialize (IHa a Ha). specialize (IHb b Hb).
      cbn [sp_print sp_weight fold_right]. rewrite !blen_app. change (blen (bs "(")) with 1. change (blen (bs ")")) with 1. change (blen (bs ", ")) with 2. lia.
Qed.

(** ** [{:#?}] *)
Let G := Flags true (f_int F) (f_double F) (fun b : bool => if b then bs "true" else bs "false") (f_str F) (bs "()").
Definition deep (d : nat) (t : ty) : N := 40 + D + 8 * (N.of_nat d + type_len t).
Lemma deeper d t x : 1 + type_len x <= type_len t -> deep (S d) x <= deep d t.
Proof. unfold deep. lia. Qed.
Lemma child_shorter t c : is_struct t -> In c (children_of t) -> 1 + type_len c <= type_len t.
Proof.
  intros Hs Hc. pose proof (children_len t Hs) as HL. apply in_split in Hc as (l1 & l2 & E). rewrite E in HL.
  rewrite map_app, concat_app in HL. cbn [map concat] in HL. rewrite !blen_app in HL. fold (type_len c) in HL. lia.
Qed.
Lemma pretty_short t : forall d v, sp_typed t v -> blen (sp_flags F G d t v) + (6 + 4 * N.of_nat d) <= deep d t * sp_weight v.
Proof.
  induction t as [t Hns IH|t Hs IH] using ty_struct_ind; intros d v Hv; pose proof (weight_pos v) as Hw; pose proof (type_len_pos t) as Hp.
  - assert (HX : blen (sp_flags F G d t v) <= (32 + D) * sp_weight v -> blen (sp_flags F G d t v) + (6 + 4 * N.of_nat d) <= deep d t * sp_weight v)
      by (unfold deep; nia).
    pose proof (print_short t v Hv) as HP.
    destruct t as [| | | | | | | | | | | | |x|x|ts|k x]; cbn [is_struct] in Hns; try tauto.
    1-13: destruct v as [z|b|b|s|ts dd|vs|o|vs]; cbn [sp_typed] in Hv; try contradiction; apply HX; eapply N.le_trans; [|etransitivity; [|exact HP]; apply N.le_add_r]; apply N.le_refl.
    + clear HX. specialize (IH x (or_introl eq_refl) (S d)). destruct (array_typed _ _ Hv) as (vs & -> & Hvs). cbn [sp_flags].
      assert (HL : deep (S d) x <= deep d (TA x)) by (apply deeper; rewrite (type_len_parts (TA x) x) by auto; lia).
      destruct (sp_size x); [|unfold deep; nia].
      cbn [G g_alternate]. rewrite !blen_app. change (blen (bs "[")) with 1. change (blen (bs "]")) with 1.
      destruct vs as [|v0 vs]; [rewrite blen_nil; unfold deep; nia|]. rewrite block_room.
      pose proof (room_fold (sp_flags F G (S d) x) sp_weight (6 + 4 * N.of_nat d) (deep d (TA x)) (v0 :: vs)) as HR.
      specialize (HR ltac:(eapply Forall_impl; [|exact Hvs]; intros w Hww; cbv beta; specialize (IH w Hww); nia)).
      cbn [sp_weight]. set (W := fold_right (fun v n => sp_weight v + n) 0 (v0 :: vs)) in *. unfold deep in *. nia.
    + clear HX. specialize (IH x (or_intror eq_refl) (S d)).
      assert (HL : deep (S d) x <= deep d (TM x)) by (apply deeper; rewrite (type_len_parts (TM x) x) by auto; lia).
      destruct v as [| | | | | |[w|]|]; cbn [sp_typed] in Hv; try contradiction.
      * specialize (IH w Hv). cbn [sp_flags sp_weight G g_alternate]. rewrite !blen_app, block_room. cbn [room fold_right].
        change (blen (bs "Some(")) with 5. change (blen (bs ")")) with 1. pose proof (weight_pos w). unfold deep in *. nia.
      * change (blen (sp_flags F G d (TM x) (VMaybe None))) with 4. cbn [sp_weight] in *. unfold deep. nia.
  - apply typed_struct in Hv as (vs & -> & Hv); [|exact Hs].
    assert (IH' : Forall (fun c => forall w, sp_typed c w -> blen (sp_flags F G (S d) c w) + (6 + 4 * N.of_nat d) <= deep d t * sp_weight w) (children_of t)).
    { rewrite Forall_forall in *. intros c Hc w Hww. specialize (IH c Hc (S d) w Hww). pose proof (deeper d t c (child_shorter t c Hs Hc)). nia. }
    destruct t as [| | | | | | | | | | | | |x|x|ts|k x]; cbn [is_struct] in Hs; try tauto; cbn [children_of] in *.
    + destruct ts as [|t0 ts].
      { inversion Hv; subst. change (blen (sp_flags F G d (TTuple []) (VTuple []))) with 2. cbn [sp_weight fold_right]. unfold deep. lia. }
      pose proof (struct_items (t0 :: ts) vs Hv (sp_flags F G (S d)) (6 + 4 * N.of_nat d) _ IH') as HR.
      destruct vs as [|v0 vs]; [inversion Hv|].
      cbn [sp_weight]. set (W := fold_right (fun v n => sp_weight v + n) 0 (v0 :: vs)) in *.
      match type of HR with room _ ?l <= _ => change (sp_flags F G d (TTuple (t0 :: ts)) (VTuple (v0 :: vs))) with (bs "(" ++ sp_block d l ++ bs ")") end.
      rewrite !blen_app, block_room. change (blen (bs "(")) with 1. change (blen (bs ")")) with 1. unfold deep in *. nia.
    + inversion Hv as [|? a ? ws Ha Hw']; subst. inversion Hw' as [|? b ? ws' Hb Hw'']; subst. inversion Hw''; subst.
      inversion IH' as [|? ? IHa IHr]; subst. inversion IHr as [|? ? IHb _]; subst. specialize (IHa a Ha). specialize (IHb b Hb).
      cbn [sp_flags sp_weight fold_right G g_alternate]. rewrite !blen_app, block_room. cbn [room fold_right]. change (blen (bs "(")) with 1. change (blen (bs ")")) with 1. unfold deep in *. nia.
Qed.
End Print.

(** ** Claims *)
Lemma cast_view h t s r : usable t -> aligned (sp_align t) s -> len (s_data s) < 2 ^ 63 -> cast h t s = Ok r -> view h t r.
Proof. intros Hu Ha Hl Hc. exists t, s. repeat split; auto; try apply Hu. now apply reach_cast. Qed.
Lemma cast_typed h t s r v : usable t -> aligned (sp_align t) s -> len (s_data s) < 2 ^ 63 -> cast h t s = Ok r -> read h t r = Ok v -> sp_typed t v.
Proof. intros Hu Ha Hl Hc Hr. apply (typed_all_claim h t s v Hu Ha Hl). unfold decode. now rewrite Hc. Qed.
Lemma text_length shown double D h t s r v : (forall b, len (double b) <= D) -> usable t -> aligned (sp_align t) s -> len (s_data s) < 2 ^ 63 ->
  cast h t s = Ok r -> read h t r = Ok v ->
  exists text, fmt_debug h (core_fmts shown double) t r = Ok text /\ len text <= (32 + D) * sp_weight v.
Proof.
  intros HD Hu Ha Hl Hc Hr. eexists. split; [apply fmt_claim; [now apply (cast_view h t s)|exact Hr]|].
  pose proof (print_short shown double D HD t v (cast_typed h t s r v Hu Ha Hl Hc Hr)) as H. change (@len byte) with (@blen byte). lia.
Qed.
Lemma text_bytes shown double D h t s r v : (forall b, len (double b) <= D) -> usable t -> aligned (sp_align t) s -> len (s_data s) < 2 ^ 63 ->
  cast h t s = Ok r -> read h t r = Ok v ->
  exists text, fmt_debug h (core_fmts shown double) t r = Ok text /\ len text <= (32 + D) * (3 * len (sp_show t) * (len (s_data s) + 1) ^ (1 + sp_nest t)).
Proof.
  intros HD Hu Ha Hl Hc Hr. destruct (text_length shown double D h t s r v HD Hu Ha Hl Hc Hr) as (text & E & H). exists text. split; [exact E|].
  eapply N.le_trans; [exact H|]. apply N.mul_le_mono_l. apply (weight_all_claim h t s v Hu Ha Hl). unfold decode. now rewrite Hc.
Qed.
Lemma pretty_length shown double D h t s r v : (forall b, len (double b) <= D /\ one_line (double b)) -> usable t -> aligned (sp_align t) s -> len (s_data s) < 2 ^ 63 ->
  cast h t s = Ok r -> read h t r = Ok v ->
  exists text, fmt_flags h (core_fmts shown double) (pretty shown double) t r = Ok text /\ len text <= (40 + D + 8 * len (sp_show t)) * sp_weight v.
Proof.
  intros HD Hu Ha Hl Hc Hr. eexists. split; [apply pretty_claim; [intros n; apply HD|now apply (cast_view h t s)|exact Hr]|].
  pose proof (pretty_short shown double D (fun b => proj1 (HD b)) t 0 v (cast_typed h t s r v Hu Ha Hl Hc Hr)) as H.
  rewrite type_len_show. unfold deep in H. change (N.of_nat 0) with 0 in H. rewrite N.add_0_l in H. unfold sp_pretty. change (@len byte) with (@blen byte). lia.
Qed.
(** Maybes inside each other. *)
Definition nested (k : nat) : ty := Nat.iter k TM TY.
Definition filled (k : nat) : value := Nat.iter k (fun v => VMaybe (Some v)) (VInt 5).
Lemma nested_plain k : sp_align (nested k) = 1 /\ macro_ok (nested k) = true /\ len (sp_show (nested k)) = 1 + N.of_nat k /\
  sp_typed (nested k) (filled k) /\ sp_weight (filled k) = 1 + N.of_nat k.
Proof.
  induction k as [|k (H1 & H2 & H3 & H4 & H5)]; [repeat split; reflexivity || lia|]. change (nested (S k)) with (TM (nested k)). change (filled (S k)) with (VMaybe (Some (filled k))).
  cbn [sp_align sp_show sp_typed sp_weight]. rewrite macro_ok_may. split; [exact H1|]. split; [exact H2|]. split; [|split; [exact H4|rewrite H5; lia]].
  unfold len in *. rewrite app_length. cbn [length]. lia.
Qed.
Lemma nested_bytes big k : len (sp_encode big (nested k) (filled k)) <= 1 + N.of_nat k.
Proof.
  unfold sp_encode. induction k as [|k IH]; [destruct big; vm_compute; discriminate|]. change (nested (S k)) with (TM (nested k)). change (filled (S k)) with (VMaybe (Some (filled k))).
  cbn [sp_bytes]. unfold len in *. destruct (sp_fixed (nested k)); rewrite ?app_length; cbn [length]; lia.
Qed.
Lemma nested_pretty F k : forall d,
  4 * N.of_nat k * N.of_nat k + 8 * N.of_nat k * N.of_nat d <=
  blen (sp_flags F (Flags true (f_int F) (f_double F) (fun b : bool => if b then bs "true" else bs "false") (f_str F) (bs "()")) d (nested k) (filled k)).
Proof.
  induction k as [|k IH]; intros d; [lia|]. change (nested (S k)) with (TM (nested k)). change (filled (S k)) with (VMaybe (Some (filled k))). cbn [sp_flags g_alternate].
  rewrite !blen_app, block_room. cbn [room fold_right]. specialize (IH (S d)). lia.
Qed.
Lemma pretty_reached shown double h k a : (forall b, one_line (double b)) -> 1 + k < 2 ^ 32 ->
  exists d r v text, len d <= 1 + k /\ cast h (Nat.iter (N.to_nat k) TM TY) (Slice a d) = Ok r /\ read h (Nat.iter (N.to_nat k) TM TY) r = Ok v /\
    sp_weight v = 1 + k /\ fmt_flags h (core_fmts shown double) (pretty shown double) (Nat.iter (N.to_nat k) TM TY) r = Ok text /\ 4 * k * k <= len text.
Proof.
  intros HD Hk. fold (nested (N.to_nat k)). set (t := nested (N.to_nat k)). set (v := filled (N.to_nat k)).
  destruct (nested_plain (N.to_nat k)) as (H1 & H2 & H3 & H4 & H5). fold t in H1, H2, H3, H4. fold v in H4, H5.
  assert (Hu : usable t) by (split; [exact H2|rewrite H3; lia]). pose proof (nested_bytes (h_big_endian h) (N.to_nat k)) as HB. fold t v in HB.
  set (d := sp_encode (h_big_endian h) t v) in *. assert (Hl : len d < 2 ^ 63) by lia. assert (Ha : aligned (sp_align t) (Slice a d)) by (rewrite H1; unfold aligned; apply N.mod_1_r).
  pose proof (encode_claim h t v a Hu H4) as E. rewrite H1, N.mod_1_r in E. specialize (E eq_refl Hl). fold d in E. unfold decode in E.
  destruct (cast h t (Slice a d)) as [r|] eqn:Ec; [|discriminate E]. cbn [bind] in E.
  exists d, r, v. eexists. split; [lia|]. split; [exact Ec|]. split; [exact E|]. split; [lia|].
  split; [apply pretty_claim; [exact HD|now apply (cast_view h t (Slice a d))|exact E]|].
  pose proof (nested_pretty (core_fmts shown double) (N.to_nat k) 0) as HP. fold t v in HP. unfold sp_pretty. change (@len byte) with (@blen byte). lia.
Qed.
