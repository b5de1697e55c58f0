(** How long parsing takes: proofs. *)
From Verif Require Import Base BaseFacts Types Spec TypesFacts ParseCost ParseCostSpec.
From Coq Require Import Lia ZifyBool ZifyNat ZifyN.
Ltac Zify.zify_post_hook ::= idtac.
Local Open Scope N_scope.

Lemma er_parse fuel : (forall c it, c_result (parse_one_t fuel c it) = parse_one fuel c it) /\
  (forall it acc, c_result (parse_items_t fuel it acc) = parse_items fuel it acc).
Proof.
  assert (HB : forall A B (m : counted A) (f : A -> counted B), c_result (cbind m f) = match c_result m with inl e => inl e | inr a => c_result (f a) end).
  { intros A B m f. unfold cbind. now destruct (c_result m). }
  induction fuel as [|fuel [IH1 IH2]]; [split; reflexivity|]. split.
  - intros c it. cbn [parse_one_t parse_one]. unfold calls_t. cbn [c_result]. rewrite HB. cbn [gives c_result].
    destruct (basic_letter c); [reflexivity|]. destruct (byte_eqb c "a"); [|destruct (byte_eqb c "m"); [|destruct (byte_eqb c "("); [|destruct (byte_eqb c "{"); [|reflexivity]]]].
    + destruct it as [|c' it']; [reflexivity|]. cbn [next_t]. rewrite HB. cbn [gives c_result]. rewrite HB, IH1. now destruct (parse_one fuel c' it') as [|[x it'']].
    + destruct it as [|c' it']; [reflexivity|]. cbn [next_t]. rewrite HB. cbn [gives c_result]. rewrite HB, IH1. now destruct (parse_one fuel c' it') as [|[x it'']].
    + rewrite HB, IH2. now destruct (parse_items fuel it []) as [|[ts it']].
    + destruct it as [|c1 it1]; [reflexivity|]. cbn [next_t]. rewrite HB. cbn [gives c_result]. rewrite HB, IH1. destruct (parse_one fuel c1 it1) as [|[a [|c2 it2]]]; [reflexivity|reflexivity|].
      cbn [next_t]. rewrite HB. cbn [gives c_result]. rewrite HB, IH1. destruct (parse_one fuel c2 it2) as [|[b [|c3 it3]]]; [reflexivity|reflexivity|].
      cbn [next_t]. rewrite HB. cbn [gives c_result]. rewrite HB. cbn [gives c_result]. now destruct (byte_eqb c3 "}").
  - intros it acc. cbn [parse_items_t parse_items]. destruct it as [|c it']; [reflexivity|]. cbn [next_t]. rewrite HB. cbn [gives c_result]. rewrite HB. cbn [gives c_result].
    destruct (byte_eqb c ")"); [reflexivity|]. rewrite HB, IH1. destruct (parse_one fuel c it') as [|[t it'']]; [reflexivity|]. rewrite HB. cbn [gives c_result]. apply IH2.
Qed.
Lemma er_one s : c_result (one_t s) = one s.
Proof.
  unfold one_t, one. destruct s as [|c it]; [reflexivity|]. unfold cbind at 1. cbn [next_t gives c_result]. unfold cbind at 1. rewrite (proj1 (er_parse _)).
  destruct (parse_one _ c it) as [|[out [|b r]]]; reflexivity.
Qed.

Definition depths (ts : list ty) : N := fold_right (fun t n => N.max (sp_depth t) n) 0 ts.
Lemma depths_app a b : depths (a ++ b) = N.max (depths a) (depths b).
Proof. unfold depths. induction a as [|t a IH]; cbn [app fold_right]; lia. Qed.
Notation size l := (N.of_nat (length l)).
Definition one_fine fuel := forall c it,
  match c_result (parse_one_t fuel c it) with
  | inr (t, rest) => size rest <= size it /\ size it - size rest <= c_steps (parse_one_t fuel c it) /\
      c_steps (parse_one_t fuel c it) + 4 * size rest <= 4 * size it + 1 /\ c_depth (parse_one_t fuel c it) = sp_depth t /\ sp_depth t <= 1 + size it - size rest
  | inl _ => c_steps (parse_one_t fuel c it) <= 4 * size it + 2 /\ c_depth (parse_one_t fuel c it) <= 1 + size it
  end.
Definition items_fine fuel := forall it acc,
  match c_result (parse_items_t fuel it acc) with
  | inr (ts, rest) => size rest + 1 <= size it /\ size it - size rest <= c_steps (parse_items_t fuel it acc) /\
      c_steps (parse_items_t fuel it acc) + 4 * size rest + 2 <= 4 * size it /\
      exists new, ts = acc ++ new /\ c_depth (parse_items_t fuel it acc) = depths new /\ depths new + size rest <= size it
  | inl _ => c_steps (parse_items_t fuel it acc) <= 4 * size it + 1 /\ c_depth (parse_items_t fuel it acc) <= size it
  end.
Lemma cbind_gives {A B} n (a : A) (f : A -> counted B) : cbind (gives n a) f = Counted (n + c_steps (f a)) (c_depth (f a)) (c_result (f a)).
Proof. unfold cbind, gives. cbn [c_result c_steps c_depth]. now rewrite N.max_0_l. Qed.
Lemma basic_depth c t : basic_letter c = Some t -> sp_depth t = 1.
Proof. unfold basic_letter. destruct c; intros [= <-]; reflexivity. Qed.
Ltac sq := cbn [gives fails c_steps c_depth c_result length] in *.
Lemma parse_fine fuel : one_fine fuel /\ items_fine fuel.
Proof.
  induction fuel as [|fuel [IH1 IH2]]; [split; intros ? ?; cbn; lia|]. split.
  - intros c it. cbn [parse_one_t]. unfold calls_t. cbn [c_result c_steps c_depth]. rewrite cbind_gives. cbn [c_result c_steps c_depth].
    destruct (basic_letter c) as [t|] eqn:Eb; [apply basic_depth in Eb; cbn [gives c_result c_steps c_depth]; lia|].
    destruct (byte_eqb c "a"); [|destruct (byte_eqb c "m"); [|destruct (byte_eqb c "("); [|destruct (byte_eqb c "{"); [|cbn [fails c_result c_steps c_depth]; lia]]]].
    + destruct it as [|c' it']; [cbn; lia|]. specialize (IH1 c' it'). unfold cbind. cbn [next_t gives c_result c_steps c_depth].
      destruct (parse_one_t fuel c' it') as [st dp [e|[x it'']]]; sq; cbn [sp_depth]; lia.
    + destruct it as [|c' it']; [cbn; lia|]. specialize (IH1 c' it'). unfold cbind. cbn [next_t gives c_result c_steps c_depth].
      destruct (parse_one_t fuel c' it') as [st dp [e|[x it'']]]; sq; cbn [sp_depth]; lia.
    + specialize (IH2 it []). unfold cbind. destruct (parse_items_t fuel it []) as [st dp [e|[ts it']]]; cbn [gives c_steps c_depth c_result] in *; [lia|].
      destruct IH2 as (H1 & H2 & H3 & new & -> & H4 & H5). cbn [app]. change (sp_depth (TTuple new)) with (1 + depths new). lia.
    + destruct it as [|c1 it1]; [cbn; lia|]. pose proof (IH1 c1 it1) as Ha. unfold cbind. cbn [next_t gives c_result c_steps c_depth].
      destruct (parse_one_t fuel c1 it1) as [st dp [e|[a it2]]]; sq; [lia|]. destruct it2 as [|c2 it3]; [cbn [next_t c_result c_steps c_depth length] in *; lia|].
      pose proof (IH1 c2 it3) as Hb. cbn [next_t gives c_result c_steps c_depth]. destruct (parse_one_t fuel c2 it3) as [st' dp' [e|[b it4]]]; sq; [lia|].
      destruct it4 as [|c3 it5]; [cbn [next_t c_result c_steps c_depth length] in *; lia|]. cbn [next_t gives c_result c_steps c_depth].
      destruct (byte_eqb c3 "}"); cbn [gives fails c_result c_steps c_depth sp_depth length] in *; lia.
  - intros it acc. cbn [parse_items_t]. destruct it as [|c it']; [cbn; lia|]. unfold cbind. cbn [next_t gives c_result c_steps c_depth].
    destruct (byte_eqb c ")").
    { cbn [gives c_result c_steps c_depth length]. repeat split; try lia. exists []. rewrite app_nil_r. cbn. repeat split; lia. }
    specialize (IH1 c it'). destruct (parse_one_t fuel c it') as [st dp [e|[t it'']]]; sq; [lia|].
    specialize (IH2 it'' (acc ++ [t])). destruct (parse_items_t fuel it'' (acc ++ [t])) as [st' dp' [e|[ts rest]]]; sq; [lia|].
    destruct IH2 as (H1 & H2 & H3 & new & -> & H4 & H5). repeat split; try lia. exists (t :: new). rewrite <- app_assoc. cbn [app].
    change (depths (t :: new)) with (N.max (sp_depth t) (depths new)). repeat split; lia.
Qed.
Lemma one_fine_claim s : c_steps (one_t s) <= 4 * size s + 1 /\ c_depth (one_t s) <= size s /\
  forall t, c_result (one_t s) = inr t -> size s + 1 <= c_steps (one_t s) /\ c_depth (one_t s) = sp_depth t.
Proof.
  unfold one_t. destruct s as [|c it]; [cbn; repeat split; try lia; discriminate|]. unfold cbind. cbn [next_t gives c_result c_steps c_depth].
  pose proof (proj1 (parse_fine (2 * length (c :: it) + 2)) c it) as H. destruct (parse_one_t _ c it) as [st dp [e|[t rest]]]; sq; [repeat split; try lia; discriminate|].
  destruct rest; cbn [gives fails c_result c_steps c_depth length] in *; (split; [lia|]; split; [lia|]); intros u E; [injection E as <-; lia|discriminate].
Qed.
Lemma claim_answers s : c_result (one_t s) = one s.
Proof. exact (er_one s). Qed.
Lemma claim_steps s : c_steps (one_t s) <= 4 * len s + 1.
Proof. exact (proj1 (one_fine_claim s)). Qed.
Lemma claim_depth s : c_depth (one_t s) <= len s.
Proof. exact (proj1 (proj2 (one_fine_claim s))). Qed.
Lemma claim_depth_type t : c_depth (one_t (sp_show t)) = sp_depth t.
Proof. pose proof (proj2 (proj2 (one_fine_claim (sp_show t))) t) as H. apply H. rewrite er_one. now apply one_show. Qed.
Lemma arrays m : len (sp_show (Nat.iter m TA TY)) = N.of_nat m + 1 /\ sp_depth (Nat.iter m TA TY) = N.of_nat m + 1.
Proof.
  induction m as [|m [IH1 IH2]]; [split; reflexivity|].
  change (Nat.iter (S m) TA TY) with (TA (Nat.iter m TA TY)). generalize dependent (Nat.iter m TA TY). intros x IH1 IH2.
  change (sp_depth (TA x)) with (1 + sp_depth x). change (sp_show (TA x)) with ("a"%byte :: sp_show x). unfold len in *. cbn [length]. lia.
Qed.
Lemma claim_reached n : exists s t, len s = n + 1 /\ one s = inr t /\ c_depth (one_t s) = n + 1.
Proof.
  exists (sp_show (Nat.iter (N.to_nat n) TA TY)), (Nat.iter (N.to_nat n) TA TY). rewrite claim_depth_type.
  destruct (arrays (N.to_nat n)) as [H1 H2]. rewrite N2Nat.id in H1, H2. repeat split; [exact H1|now apply one_show|exact H2].
Qed.
Definition works (ts : list ty) : N := fold_right (fun t n => 2 + sp_work t + n) 0 ts.
Lemma basic_work c t : basic_letter c = Some t -> sp_work t = 1.
Proof. unfold basic_letter. destruct c; intros [= <-]; reflexivity. Qed.
Lemma parse_exact fuel :
  (forall c it t rest, c_result (parse_one_t fuel c it) = inr (t, rest) -> size rest <= size it /\ c_steps (parse_one_t fuel c it) + size rest = size it + sp_work t) /\
  (forall it acc ts rest, c_result (parse_items_t fuel it acc) = inr (ts, rest) -> size rest <= size it /\
     exists new, ts = acc ++ new /\ c_steps (parse_items_t fuel it acc) + size rest = size it + 1 + works new).
Proof.
  induction fuel as [|fuel [IH1 IH2]]; [split; intros; discriminate|]. split.
  - intros c it u rest. cbn [parse_one_t]. unfold calls_t. cbn [c_result c_steps c_depth]. rewrite cbind_gives. cbn [c_result c_steps c_depth].
    destruct (basic_letter c) as [t|] eqn:Eb; [apply basic_work in Eb; cbn [gives c_result c_steps c_depth]; intros [= <- <-]; lia|].
    destruct (byte_eqb c "a"); [|destruct (byte_eqb c "m"); [|destruct (byte_eqb c "("); [|destruct (byte_eqb c "{"); [|discriminate]]]].
    + destruct it as [|c' it']; [discriminate|]. specialize (IH1 c' it'). unfold cbind. cbn [next_t gives c_result c_steps c_depth].
      destruct (parse_one_t fuel c' it') as [st dp [e|[x it'']]]; sq; [discriminate|]. specialize (IH1 x it'' eq_refl). intros [= <- <-]. cbn [sp_work]. lia.
    + destruct it as [|c' it']; [discriminate|]. specialize (IH1 c' it'). unfold cbind. cbn [next_t gives c_result c_steps c_depth].
      destruct (parse_one_t fuel c' it') as [st dp [e|[x it'']]]; sq; [discriminate|]. specialize (IH1 x it'' eq_refl). intros [= <- <-]. cbn [sp_work]. lia.
    + specialize (IH2 it []). unfold cbind. destruct (parse_items_t fuel it []) as [st dp [e|[ts it']]]; cbn [gives c_steps c_depth c_result] in *; [discriminate|].
      destruct (IH2 ts it' eq_refl) as (H1 & new & -> & H2). intros [= <- <-]. cbn [app]. change (sp_work (TTuple new)) with (2 + works new). lia.
    + destruct it as [|c1 it1]; [discriminate|]. pose proof (IH1 c1 it1) as Ha. unfold cbind. cbn [next_t gives c_result c_steps c_depth].
      destruct (parse_one_t fuel c1 it1) as [st dp [e|[a it2]]]; sq; [discriminate|]. destruct it2 as [|c2 it3]; [discriminate|]. specialize (Ha a _ eq_refl).
      pose proof (IH1 c2 it3) as Hb. cbn [next_t gives c_result c_steps c_depth]. destruct (parse_one_t fuel c2 it3) as [st' dp' [e|[b it4]]]; sq; [discriminate|].
      destruct it4 as [|c3 it5]; [discriminate|]. specialize (Hb b _ eq_refl). cbn [next_t gives c_result c_steps c_depth].
      destruct (byte_eqb c3 "}"); cbn [gives fails c_result c_steps c_depth length] in *; [|discriminate]. intros [= <- <-]. cbn [sp_work]. lia.
  - intros it acc us rest. cbn [parse_items_t]. destruct it as [|c it']; [discriminate|]. unfold cbind. cbn [next_t gives c_result c_steps c_depth].
    destruct (byte_eqb c ")").
    { cbn [gives c_result c_steps c_depth length]. intros [= <- <-]. split; [lia|]. exists []. rewrite app_nil_r. cbn [works fold_right]. split; [reflexivity|lia]. }
    specialize (IH1 c it'). destruct (parse_one_t fuel c it') as [st dp [e|[t it'']]]; sq; [discriminate|]. specialize (IH1 t it'' eq_refl).
    specialize (IH2 it'' (acc ++ [t])). destruct (parse_items_t fuel it'' (acc ++ [t])) as [st' dp' [e|[ts r']]]; sq; [discriminate|].
    destruct (IH2 ts r' eq_refl) as (H1 & new & -> & H2). intros [= <- <-]. split; [lia|]. exists (t :: new). rewrite <- app_assoc. split; [reflexivity|].
    change (works (t :: new)) with (2 + sp_work t + works new). lia.
Qed.
Lemma claim_exact t : c_steps (one_t (sp_show t)) = len (sp_show t) + 1 + sp_work t.
Proof.
  pose proof (claim_answers (sp_show t)) as E. rewrite (proj2 (one_show (sp_show t) t) eq_refl) in E. unfold one_t in *. destruct (sp_show t) as [|c it]; [discriminate|].
  unfold cbind in *. cbn [next_t gives c_result c_steps c_depth] in *. pose proof (proj1 (parse_exact (2 * length (c :: it) + 2)) c it) as H.
  destruct (parse_one_t _ c it) as [st dp [e|[u rest]]]; sq; [discriminate|]. specialize (H u rest eq_refl).
  destruct rest; sq; [injection E as <-; unfold len; cbn [length]; lia|discriminate].
Qed.
