(** How long printing takes. *)
From Verif Require Import Base Types Layout AlignedBytes Strs Spec Deser Buf Fmt CoreFmt Cost FmtCost Histories SizeSpec CostSpec FmtCostSpec
  BaseFacts TypesFacts LayoutFacts DeserFacts ReadFacts CostFacts SizeFacts WrapMore OrderFacts PrintSizeFacts OrderSizeFacts.
From Coq Require Import Lia ZifyBool ZifyNat ZifyN.
Ltac Zify.zify_post_hook ::= idtac.
Local Open Scope N_scope.

(** ** Without the counts *)
Lemma er_each {A B} (f : A -> timed B) (g : A -> res B) (H : forall a, snd (f a) = g a) l : snd (each_t f l) = mapM g l.
Proof.
  induction l as [|x l IH]; [reflexivity|]. cbn [each_t mapM]. apply er_bind; [apply H|]. intros y. apply er_bind; [exact IH|]. reflexivity.
Qed.
Lemma er_fmt_go h x f g (H : forall a, snd (f a) = g a) : forall n it, snd (nfwa_fmt_go_t h x f n it) = nfwa_fmt_go h x g n it.
Proof.
  induction n as [|n IH]; intros it; [reflexivity|]. cbn [nfwa_fmt_go_t nfwa_fmt_go]. apply er_bind; [apply er_next|]. intros p.
  destruct (fst p) as [r|]; [|reflexivity]. apply er_bind; [apply H|]. intros a. unfold says. rewrite er_ok.
  apply er_bind; [apply IH|]. reflexivity.
Qed.
Lemma er_fmt h F t : forall s, snd (fmt_debug_t h F t s) = fmt_debug h F t s.
Proof.
  induction t as [t Hns IH|t Hs IH] using ty_struct_ind; intros s.
  - destruct t as [| | | | | | | | | | | | |x|x|ts|k v]; cbn [is_struct] in Hns; try tauto; cbn [fmt_debug_t fmt_debug]; try reflexivity;
      try (rewrite (er_bind _ _ _ _ (er_to_str (s_data s)) (fun a => eq_refl)); reflexivity).
    + apply er_bind; [apply er_split|]. intros p. rewrite er_ok. reflexivity.
    + specialize (IH x (or_introl eq_refl)). destruct (size_of x).
      * apply er_bind; [apply er_refs|]. intros rs. apply er_bind; [now apply er_each|]. reflexivity.
      * apply er_bind; [apply er_into_iter|]. intros it. apply er_bind; [now apply er_fmt_go|]. reflexivity.
    + specialize (IH x (or_intror eq_refl)). apply er_bind; [apply er_option|]. intros [r|]; [|reflexivity].
      apply er_bind; [apply IH|]. reflexivity.
  - destruct t as [| | | | | | | | | | | | |x|x|ts|k v]; cbn [is_struct] in Hs; try tauto; cbn [fmt_debug_t fmt_debug children_of] in *.
    + apply er_bind; [apply er_tuple|]. intros rs. apply er_bind; [|reflexivity].
      revert rs. clear Hs. induction ts as [|t ts IHt]; intros [|r rs]; try reflexivity. inversion IH; subst.
      apply er_bind; [auto|]. intros a. apply er_bind; [auto|]. reflexivity.
    + inversion IH as [|? ? Hk IH']; subst. inversion IH' as [|? ? Hv _]; subst. apply er_bind; [apply er_tuple|].
      intros rs. destruct rs as [|ra [|rb [|]]]; try reflexivity. apply er_bind; [auto|]. intros x. apply er_bind; [auto|]. reflexivity.
Qed.
Lemma er_print h F t s : snd (print_t h F t s) = let* r := cast h t s in fmt_debug h F t r.
Proof. unfold print_t. apply er_bind; [apply er_cast|]. intros r. apply er_fmt. Qed.

(** ** The counts *)
Lemma tb_inv {A B} (m : timed A) (f : A -> timed B) n b : tbind m f = (n, Ok b) ->
  exists n1 a n2, m = (n1, Ok a) /\ f a = (n2, Ok b) /\ n = n1 + n2.
Proof.
  destruct m as [n1 [a|c]]; unfold tbind; cbn [fst snd]; [|discriminate]. destruct (f a) as [n2 r] eqn:E. cbn [fst snd].
  intros H. injection H as <- ->. exists n1, a, n2. auto.
Qed.
Lemma tb_ok {A B} (m : timed A) (f : A -> timed B) n1 a n2 b : m = (n1, Ok a) -> f a = (n2, Ok b) -> tbind m f = (n1 + n2, Ok b).
Proof. intros -> E. unfold tbind. cbn [fst snd]. now rewrite E. Qed.
Definition text_sum (l : list (list byte)) : N := fold_right (fun p n => blen p + n) 0 l.
Definition label_sum (vs : list value) : N := fold_right (fun v n => sp_labels v + n) 0 vs.
Lemma join_sum l : text_sum l <= blen (fmt_join l).
Proof.
  induction l as [|x l IH]; [reflexivity|]. cbn [text_sum fold_right] in *. fold (text_sum l) in *. cbn [fmt_join].
  destruct l as [|y l]; [cbn [text_sum fold_right]; lia|]. rewrite !blen_app. lia.
Qed.
Lemma list_sum l : text_sum l <= blen (fmt_list l).
Proof. unfold fmt_list. rewrite !blen_app. pose proof (join_sum l). lia. Qed.
Lemma tuple_sum l : text_sum l <= blen (fmt_tuple l).
Proof.
  pose proof (join_sum l) as H. unfold fmt_tuple. destruct l as [|x [|y l]]; rewrite !blen_app; cbn [text_sum fold_right] in *; lia.
Qed.
Lemma around_inv w l n a : around w l = (n, Ok a) -> a = w /\ n = blen w - text_sum l.
Proof. unfold around, costs. intros H. injection H as <- <-. split; reflexivity. Qed.
Lemma says_inv w n a : says w = (n, Ok a) -> a = w /\ n = blen w.
Proof. unfold says, costs. intros H. injection H as <- <-. split; reflexivity. Qed.
Lemma costs_inv {A} k (a : A) n b : costs k (Ok a) = (n, Ok b) -> b = a /\ n = k.
Proof. unfold costs. intros H. injection H as <- <-. split; reflexivity. Qed.

Definition told (h : host) (F : fmts) (t : ty) : Prop := forall s n a, fmt_debug_t h F t s = (n, Ok a) ->
  exists m v, read_t h t s = (m, Ok v) /\ n = m + blen a + sp_labels v.
Lemma told_each h F x : told h F x -> forall rs n l, each_t (fmt_debug_t h F x) rs = (n, Ok l) ->
  exists m vs, (fix go (rs : list slice) : timed (list value) :=
     match rs with [] => now [] | r :: rs => let+ v := read_t h x r in let+ vs := go rs in now (v :: vs) end) rs = (m, Ok vs) /\
   n = m + text_sum l + label_sum vs.
Proof.
  intros Hx. induction rs as [|r rs IH]; intros n l E; cbn [each_t] in E.
  - apply costs_inv in E as [-> ->]. exists 0, []. split; reflexivity.
  - apply tb_inv in E as (n1 & a & n2 & E1 & E2 & ->). apply tb_inv in E2 as (n3 & l' & n4 & E3 & E4 & ->).
    apply costs_inv in E4 as [-> ->]. apply Hx in E1 as (m1 & v & R1 & ->). apply IH in E3 as (m2 & vs & R2 & ->).
    exists (m1 + (m2 + 0)), (v :: vs). split; [|cbn [text_sum label_sum fold_right]; fold (text_sum l'); fold (label_sum vs); lia].
    eapply tb_ok; [exact R1|]. eapply tb_ok; [exact R2|]. reflexivity.
Qed.
Lemma told_go h F x : told h F x -> forall f it n l, nfwa_fmt_go_t h x (fmt_debug_t h F x) f it = (n, Ok l) ->
  exists m1 rs m2 vs, nfwa_collect_t h x f it = (m1, Ok rs) /\ (fix go (rs : list slice) : timed (list value) :=
     match rs with [] => now [] | r :: rs => let+ v := read_t h x r in let+ vs := go rs in now (v :: vs) end) rs = (m2, Ok vs) /\
   n = m1 + m2 + blen l + label_sum vs.
Proof.
  intros Hx. induction f as [|f IH]; intros it n l E; cbn [nfwa_fmt_go_t] in E; [discriminate E|].
  apply tb_inv in E as (n1 & p & n2 & E1 & E2 & ->). destruct (fst p) as [r|] eqn:Ep.
  - apply tb_inv in E2 as (n3 & a & n4 & E3 & E4 & ->). apply tb_inv in E4 as (n5 & sep & n6 & E5 & E6 & ->).
    apply says_inv in E5 as [-> ->]. apply tb_inv in E6 as (n7 & rest & n8 & E7 & E8 & ->). apply costs_inv in E8 as [-> ->].
    apply Hx in E3 as (m1 & v & R1 & ->). apply IH in E7 as (m2 & rs & m3 & vs & R2 & R3 & ->).
    exists (n1 + (m2 + 0)), (r :: rs), (m1 + (m3 + 0)), (v :: vs). split; [|split].
    + cbn [nfwa_collect_t]. eapply tb_ok; [exact E1|]. rewrite Ep. eapply tb_ok; [exact R2|]. reflexivity.
    + eapply tb_ok; [exact R1|]. eapply tb_ok; [exact R3|]. reflexivity.
    + rewrite !blen_app. cbn [label_sum fold_right]. fold (label_sum vs). lia.
  - apply costs_inv in E2 as [-> ->]. exists (n1 + 0), [], 0, []. split; [|split].
    + cbn [nfwa_collect_t]. eapply tb_ok; [exact E1|]. rewrite Ep. reflexivity.
    + reflexivity.
    + cbn [label_sum fold_right]. change (blen (@nil byte)) with 0. lia.
Qed.
Lemma told_all h F t : told h F t.
Proof.
  induction t as [t Hns IH|t Hs IH] using ty_struct_ind; intros s n txt E.
  - destruct t as [| | | | | | | | | | | | |x|x|ts|k v]; cbn [is_struct] in Hns; try tauto; cbn [fmt_debug_t] in E;
      try (apply tb_inv in E as (n1 & a1 & n2 & E1 & E2 & ->); apply says_inv in E2 as [-> ->]).
    all: try (cbn [fmt_debug] in E1; apply costs_inv in E1 as [-> ->]; cbn [read_t read]; eexists; eexists; split; [reflexivity|];
      cbn [sp_labels]; lia).
    all: try (exists (n1 + 0), (VStr a1); split; [cbn [read_t]; eapply tb_ok; [exact E1|reflexivity]|cbn [sp_labels]; lia]).
    + apply tb_inv in E as (n1 & a1 & n2 & E1 & E2 & ->). apply tb_inv in E2 as (n3 & tx & n4 & E3 & E4 & ->). apply costs_inv in E3 as [-> ->]. apply says_inv in E4 as [-> ->].
      exists (n1 + 0), (VVariant (s_data (fst a1)) (s_data (snd a1))). split; [cbn [read_t]; eapply tb_ok; [exact E1|reflexivity]|].
      cbn [sp_labels]. change (len (s_data (fst a1))) with (slen (fst a1)). lia.
    + specialize (IH x (or_introl eq_refl)). destruct (size_of x) as [z|] eqn:Ez.
      * apply tb_inv in E as (n1 & rs & n2 & E1 & E2 & ->). apply tb_inv in E2 as (n3 & l & n4 & E3 & E4 & ->).
        apply around_inv in E4 as [-> ->]. apply told_each in E3 as (m & vs & R & ->); [|exact IH].
        exists (n1 + (m + 0)), (VArray vs). split.
        -- cbn [read_t]. eapply tb_ok; [exact E1|]. eapply tb_ok; [exact R|]. reflexivity.
        -- cbn [sp_labels]. fold (label_sum vs). pose proof (list_sum l). lia.
      * apply tb_inv in E as (n1 & it & n2 & E1 & E2 & ->). apply tb_inv in E2 as (n3 & l & n4 & E3 & E4 & ->).
        apply around_inv in E4 as [-> ->]. apply told_go in E3 as (m1 & rs & m2 & vs & R1 & R2 & ->); [|exact IH].
        exists (n1 + m1 + (m2 + 0)), (VArray vs). split.
        -- cbn [read_t]. eapply tb_ok; [|eapply tb_ok; [exact R2|reflexivity]].
           unfold array_refs_t, nfwa_items_t. rewrite Ez. eapply tb_ok; [exact E1|exact R1].
        -- cbn [sp_labels]. fold (label_sum vs). rewrite !blen_app. cbn [text_sum fold_right]. lia.
    + specialize (IH x (or_intror eq_refl)). apply tb_inv in E as (n1 & o & n2 & E1 & E2 & ->). destruct o as [r|].
      * apply tb_inv in E2 as (n3 & a & n4 & E3 & E4 & ->). apply around_inv in E4 as [-> ->]. apply IH in E3 as (m & v & R & ->).
        exists (n1 + (m + 0)), (VMaybe (Some v)). split.
        -- cbn [read_t]. eapply tb_ok; [exact E1|]. eapply tb_ok; [exact R|]. reflexivity.
        -- cbn [sp_labels]. rewrite !blen_app. cbn [text_sum fold_right]. lia.
      * apply says_inv in E2 as [-> ->]. exists (n1 + 0), (VMaybe None). split.
        -- cbn [read_t]. eapply tb_ok; [exact E1|]. reflexivity.
        -- cbn [sp_labels]. lia.
  - destruct t as [| | | | | | | | | | | | |x|x|ts|k v]; cbn [is_struct] in Hs; try tauto; cbn [fmt_debug_t children_of] in *.
    + apply tb_inv in E as (n1 & rs & n2 & E1 & E2 & ->). apply tb_inv in E2 as (n3 & l & n4 & E3 & E4 & ->).
      apply around_inv in E4 as [-> ->].
      assert (H : exists m vs, (fix go (ts : list ty) (rs : list slice) : timed (list value) :=
          match ts, rs with
          | t :: ts', r :: rs' => let+ v := read_t h t r in let+ vs := go ts' rs' in now (v :: vs)
          | _, _ => now [] end) ts rs = (m, Ok vs) /\ n3 = m + text_sum l + label_sum vs).
      { clear E1 Hs. revert rs n3 l E3. induction ts as [|t ts IHt]; intros rs n3 l E3.
        - apply costs_inv in E3 as [-> ->]. exists 0, []. split; reflexivity.
        - destruct rs as [|r rs]; [apply costs_inv in E3 as [-> ->]; exists 0, []; split; reflexivity|].
          inversion IH as [|? ? Ht IH']; subst. apply tb_inv in E3 as (k1 & a & k2 & F1 & F2 & ->).
          apply tb_inv in F2 as (k3 & l' & k4 & F3 & F4 & ->). apply costs_inv in F4 as [-> ->].
          apply Ht in F1 as (m1 & v & R1 & ->). apply (IHt IH') in F3 as (m2 & vs & R2 & ->).
          exists (m1 + (m2 + 0)), (v :: vs). split; [|cbn [text_sum label_sum fold_right]; fold (text_sum l'); fold (label_sum vs); lia].
          eapply tb_ok; [exact R1|]. eapply tb_ok; [exact R2|]. reflexivity. }
      destruct H as (m & vs & R & ->). exists (n1 + (m + 0)), (VTuple vs). split.
      * cbn [read_t]. eapply tb_ok; [exact E1|]. eapply tb_ok; [exact R|]. reflexivity.
      * cbn [sp_labels]. fold (label_sum vs). pose proof (tuple_sum l). lia.
    + inversion IH as [|? ? Hk IH']; subst. inversion IH' as [|? ? Hv _]; subst.
      apply tb_inv in E as (n1 & rs & n2 & E1 & E2 & ->).
      destruct rs as [|ra [|rb [|rc rs]]];
        try (apply says_inv in E2 as [-> ->]; exists (n1 + 0), (VTuple []); split; [cbn [read_t]; eapply tb_ok; [exact E1|]; reflexivity|];
             cbn [sp_labels fold_right]; lia).
      apply tb_inv in E2 as (n3 & a & n4 & E3 & E4 & ->). apply tb_inv in E4 as (n5 & b & n6 & E5 & E6 & ->).
      apply around_inv in E6 as [-> ->]. apply Hk in E3 as (m1 & va & R1 & ->). apply Hv in E5 as (m2 & vb & R2 & ->).
      exists (n1 + (m1 + (m2 + 0))), (VTuple [va; vb]). split.
      * cbn [read_t]. eapply tb_ok; [exact E1|]. eapply tb_ok; [exact R1|]. eapply tb_ok; [exact R2|]. reflexivity.
      * cbn [sp_labels fold_right]. pose proof (tuple_sum [a; b]) as H. cbn [text_sum fold_right] in *. lia.
Qed.
Lemma print_steps h F t s text : result_of (print_t h F t s) = Ok text ->
  exists v, decode h t s = Ok v /\ steps_of (print_t h F t s) = steps_of (decode_t h t s) + len text + sp_labels v.
Proof.
  unfold result_of, steps_of, print_t, decode_t. intros E. destruct (from_aligned_slice_t h t s) as [n [r|c]] eqn:Ec; [|discriminate E].
  unfold tbind in *. cbn [fst snd] in *. destruct (fmt_debug_t h F t r) as [m [a|]] eqn:Ef; cbn [fst snd] in *; [|discriminate E].
  injection E as ->. destruct (told_all h F t r m text Ef) as (k & v & R & ->). rewrite R. cbn [fst snd]. exists v.
  split; [|change (len text) with (blen text); lia]. rewrite <- er_decode. unfold decode_t. rewrite Ec. unfold tbind. cbn [fst snd]. now rewrite R.
Qed.
Lemma labels_weight : forall v, sp_labels v <= sp_weight v.
Proof.
  fix IH 1. intros [z|b|b|s|ts d|vs|o|vs]; cbn [sp_labels sp_weight]; try lia.
  - assert (H : fold_right (fun v n => sp_labels v + n) 0 vs <= fold_right (fun v n => sp_weight v + n) 0 vs); [|lia].
    induction vs as [|v vs IHv]; cbn [fold_right]; [lia|]. specialize (IH v). lia.
  - destruct o as [v|]; [|lia]. specialize (IH v). lia.
  - assert (H : fold_right (fun v n => sp_labels v + n) 0 vs <= fold_right (fun v n => sp_weight v + n) 0 vs); [|lia].
    induction vs as [|v vs IHv]; cbn [fold_right]; [lia|]. specialize (IH v). lia.
Qed.
Lemma print_within shown double D h t s v W : (forall b, len (double b) <= D) -> usable t -> aligned (sp_align t) s -> len (s_data s) < 2 ^ 63 ->
  decode h t s = Ok v -> sp_weight v <= 3 * W -> steps_of (decode_t h t s) <= 66 * W ->
  exists text, result_of (print_t h (core_fmts shown double) t s) = Ok text /\
    steps_of (print_t h (core_fmts shown double) t s) <= (165 + 3 * D) * W.
Proof.
  intros HD Hu Ha Hl Hv Hw Hs. pose proof Hv as Hc. unfold decode in Hc. destruct (cast h t s) as [r|] eqn:Ec; [|discriminate Hc]. cbn [bind] in Hc.
  destruct (text_length shown double D h t s r v HD Hu Ha Hl Ec Hc) as (text & E & H). exists text.
  assert (Er : result_of (print_t h (core_fmts shown double) t s) = Ok text) by (unfold result_of; rewrite er_print, Ec; exact E).
  split; [exact Er|]. destruct (print_steps h _ t s text Er) as (v' & Hv' & ->). rewrite Hv in Hv'. injection Hv' as <-.
  pose proof (labels_weight v). nia.
Qed.
Lemma print_bounded shown double D h t s v : (forall b, len (double b) <= D) -> usable t -> aligned (sp_align t) s -> len (s_data s) < 2 ^ 63 ->
  decode h t s = Ok v ->
  exists text, result_of (print_t h (core_fmts shown double) t s) = Ok text /\
    steps_of (print_t h (core_fmts shown double) t s) <= (165 + 3 * D) * (len (sp_show t) * (len (s_data s) + 1) ^ (1 + sp_nest t)).
Proof.
  intros HD Hu Ha Hl Hv. apply (print_within shown double D h t s v); auto.
  - pose proof (weight_all_claim h t s v Hu Ha Hl Hv). nia.
  - pose proof (proj2 (cost_all h t s)). nia.
Qed.
Lemma print_in_range shown double D h t s v : (forall b, len (double b) <= D) -> usable t -> aligned (sp_align t) s -> len (s_data s) < 2 ^ 63 ->
  sp_orderly t (Some (s_data s)) = true -> decode h t s = Ok v ->
  exists text, result_of (print_t h (core_fmts shown double) t s) = Ok text /\
    steps_of (print_t h (core_fmts shown double) t s) <= (165 + 3 * D) * (len (sp_show t) * (len (s_data s) + 1)).
Proof.
  intros HD Hu Ha Hl Ho Hv. apply (print_within shown double D h t s v); auto.
  - pose proof (weight_in_range h t s v Hu Ha Hl Ho Hv). nia.
  - pose proof (cost_orderly h t s Hu Ha Hl Ho). nia.
Qed.
