(** Comparing two views of the same type compiles: proofs. *)
From Verif Require Import Base Types Spec Deser Histories Programs ProgSpec TypesFacts EqFacts ProgFacts.

Lemma ty_eqb_refl t : ty_eqb t t = true.
Proof.
  induction t using ty_ind'; try reflexivity; cbn [ty_eqb]; [exact IHt|exact IHt| |now rewrite IHt1, IHt2].
  induction H as [|x xs Hx _ IH]; [reflexivity|]. now rewrite Hx, IH.
Qed.
Theorem eq_compiles h env i j t r q : Forall (promised h) env -> nth_error env i = Some (ObView t r) -> nth_error env j = Some (ObView t q) ->
  snd (step h env (PEq i j)) <> Some NoCompile.
Proof.
  intros HF Ei Ej. cbn [step]. rewrite Ei, Ej, ty_eqb_refl. rewrite Forall_forall in HF.
  pose proof (HF _ (nth_error_In _ _ Ei)) as Hi. pose proof (HF _ (nth_error_In _ _ Ej)) as Hj. cbn [promised] in Hi, Hj.
  apply ref_good_iff in Hi as (R1 & R2 & R3). apply ref_good_iff in Hj as (_ & Q2 & Q3).
  pose proof (eq_safe h t R1 r q R2 Q2 R3 Q3) as G. destruct (gv_eq h t r q) as [b|c]; cbn [unit_ bind made snd]; [discriminate|].
  cbn in G. intros [= ->]. destruct G as [[G _]|[G _]]; discriminate G.
Qed.
Theorem eq_types h env i j t u r q : Forall (promised h) env -> nth_error env i = Some (ObView t r) -> nth_error env j = Some (ObView u q) ->
  (snd (step h env (PEq i j)) = Some NoCompile <-> t <> u).
Proof.
  intros HF Ei Ej. split.
  - intros H <-. now apply (eq_compiles h env i j t r q HF Ei Ej).
  - intros Hn. cbn [step]. rewrite Ei, Ej. destruct (ty_eqb t u) eqn:E; [|reflexivity]. apply ty_eqb_eq in E. contradiction.
Qed.
