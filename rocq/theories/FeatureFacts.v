(** Facts about features (C103, C104). *)
From Verif Require Import Base Features.

Lemma std_missing f : std_on f = false ->
  exists u, In u uses /\ enabled f (u_guard u) = true /\ available f (u_name u) = false.
Proof.
  intros H. exists (Use AlignedBytesRs 90 Always StdCrate). split; [|split; [reflexivity|exact H]].
  unfold uses. repeat (try (left; reflexivity); right).
Qed.
Lemma missing_uses f u : selectable f ->
  (enabled f (u_guard u) = true /\ available f (u_name u) = false <->
   std_on f = false /\ u_guard u <> IfStd /\ (u_guard u = IfAlloc -> alloc_on f = true) /\
   (alloc_on f = true -> u_name u = StdCrate \/ u_name u = WriteTrait)).
Proof.
  intros Hs. destruct f as [[] []], u as [s l [] []]; unfold selectable in Hs; cbn in *;
    try (specialize (Hs eq_refl); discriminate); intuition congruence.
Qed.
Lemma missing_each n : n <> AllocCrate -> exists u, In u uses /\ u_name u = n /\ u_guard u = Always.
Proof.
  intros H. destruct n; try (now elim H).
  - exists (Use AlignedBytesRs 90 Always StdCrate). split; [|now split]. unfold uses. repeat (try (left; reflexivity); right).
  - exists (Use LibRs 458 Always WriteTrait). split; [|now split]. unfold uses. repeat (try (left; reflexivity); right).
  - exists (Use LibRs 825 Always StringType). split; [|now split]. unfold uses. repeat (try (left; reflexivity); right).
  - exists (Use LibRs 471 Always BufModule). split; [|now split]. unfold uses. repeat (try (left; reflexivity); right).
Qed.
Lemma names_there f : selectable f ->
  ((forall u, In u uses -> enabled f (u_guard u) = true -> available f (u_name u) = true) <-> std_on f = true).
Proof.
  intros Hs. split.
  - intros H. destruct (std_on f) eqn:E; [reflexivity|]. destruct (std_missing f E) as (u & Hu & Hg & Ha).
    rewrite (H u Hu Hg) in Ha. discriminate.
  - intros H u _ _. specialize (Hs H). destruct u as [s l g []]; cbn; rewrite ?H, ?Hs; reflexivity.
Qed.
