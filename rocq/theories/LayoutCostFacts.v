(** How many calls finding alignments and sizes takes: proofs. *)
From Verif Require Import Base Types Layout LayoutFacts Spec ParseCostSpec LayoutCost LayoutCostSpec.
From Coq Require Import Lia ZifyBool ZifyNat ZifyN.
Ltac Zify.zify_post_hook ::= idtac.
Local Open Scope N_scope.

Lemma align_calls t : align_of_t t = (sp_nodes t, align_of t).
Proof.
  induction t using ty_ind'; try reflexivity; cbn [align_of_t sp_nodes align_of].
  - now rewrite IHt.
  - now rewrite IHt.
  - f_equal.
    + f_equal. induction H as [|x xs Hx _ IH]; [reflexivity|]. cbn [map fold_right]. rewrite Hx. cbn [fst]. now rewrite IH.
    + induction H as [|x xs Hx _ IH]; [reflexivity|]. cbn [map fold_right]. rewrite Hx. cbn [snd]. now rewrite IH.
  - now rewrite IHt1, IHt2.
Qed.
Definition nodes (ts : list ty) : N := fold_right (fun t n => sp_nodes t + n) 0 ts.
Definition depths (ts : list ty) : N := fold_right (fun t n => N.max (sp_depth t) n) 0 ts.
Lemma size_calls t : snd (size_of_t t) = size_of t /\ fst (size_of_t t) <= 2 * sp_nodes t * sp_depth t.
Proof.
  induction t using ty_ind'; try (split; [reflexivity|cbn [size_of_t fst sp_nodes sp_depth]; lia]).
  - destruct ts as [|t0 ts0]; [split; [reflexivity|cbn; lia]|]. remember (t0 :: ts0) as ts eqn:Ets.
    change (sp_nodes (TTuple ts)) with (1 + nodes ts). change (sp_depth (TTuple ts)) with (1 + depths ts).
    set (walk := fix walk (pos : N) (ts : list ty) : N * option N :=
               match ts with
               | [] => (0, Some pos)
               | t :: ts =>
                   let '(n1, al) := align_of_t t in
                   let pos := align pos al in
                   let '(n2, sz) := size_of_t t in
                   match sz with
                   | Some s => let '(n3, r) := walk (pos + s) ts in (n1 + n2 + n3, r)
                   | None => (n1 + n2, None)
                   end
               end).
    assert (HW : forall pos, snd (walk pos ts) = size_walk pos (map (fun t => (align_of t, size_of t)) ts) /\ fst (walk pos ts) <= nodes ts * (1 + 2 * depths ts)).
    { clear Ets t0 ts0. induction H as [|x xs [Hx1 Hx2] _ IH]; intros pos; [split; [reflexivity|cbn; lia]|]. cbn [walk map size_walk]. rewrite align_calls.
      destruct (size_of_t x) as [n2 sz]. cbn [fst snd] in Hx1, Hx2. rewrite <- Hx1.
      change (nodes (x :: xs)) with (sp_nodes x + nodes xs). change (depths (x :: xs)) with (N.max (sp_depth x) (depths xs)).
      destruct sz as [s|].
      - destruct (IH (align pos (align_of x) + s)) as [I1 I2]. destruct (walk _ xs) as [n3 r]. cbn [fst snd] in *. split; [exact I1|]. nia.
      - cbn [fst snd]. split; [reflexivity|]. nia. }
    assert (E1 : size_of_t (TTuple ts) = let '(n, r) := walk 0 ts in match r with Some pos => let '(m, al) := align_of_t (TTuple ts) in (1 + n + m, Some (align pos al)) | None => (1 + n, None) end)
      by (rewrite Ets; reflexivity).
    assert (E2 : size_of (TTuple ts) = match size_walk 0 (map (fun t => (align_of t, size_of t)) ts) with Some pos => Some (align pos (align_of (TTuple ts))) | None => None end)
      by (rewrite Ets; reflexivity).
    rewrite E1, E2, align_calls. change (sp_nodes (TTuple ts)) with (1 + nodes ts). destruct (HW 0) as [W1 W2]. rewrite <- W1. destruct (walk 0 ts) as [n [pos|]]; cbn [fst snd] in *.
    + split; [reflexivity|]. nia.
    + split; [reflexivity|]. nia.
  - destruct IHt1 as [A1 A2], IHt2 as [B1 B2]. cbn [size_of_t size_of]. rewrite !align_calls. change (align_of_t (TDict t1 t2)) with (let '(n, a) := align_of_t t1 in let '(m, b) := align_of_t t2 in (1 + n + m, N.max a b)).
    destruct (size_of_t t1) as [n1 a], (size_of_t t2) as [n2 b]. cbn [fst snd] in *. rewrite <- A1, <- B1. cbn [sp_nodes sp_depth].
    destruct a as [a|]; [destruct b as [b|]|]; cbn [fst snd]; (split; [reflexivity|]); nia.
Qed.
Lemma claim_size t : snd (size_of_t t) = size_of t.
Proof. exact (proj1 (size_calls t)). Qed.
Lemma claim_calls t : fst (size_of_t t) <= 2 * sp_nodes t * sp_depth t.
Proof. exact (proj2 (size_calls t)). Qed.
Lemma nested k : sp_nodes (Nat.iter k (fun t => TTuple [t]) TY) = N.of_nat k + 1 /\
  exists z, size_of_t (Nat.iter k (fun t => TTuple [t]) TY) = (N.of_nat k * N.of_nat k + 3 * N.of_nat k + 1, Some z).
Proof.
  induction k as [|k [IH1 [z IH2]]]; [split; [reflexivity|now exists 1]|].
  change (Nat.iter (S k) (fun t => TTuple [t]) TY) with (TTuple [Nat.iter k (fun t => TTuple [t]) TY]).
  generalize dependent (Nat.iter k (fun t => TTuple [t]) TY). intros x IH1 IH2. split.
  - change (sp_nodes (TTuple [x])) with (1 + (sp_nodes x + 0)). lia.
  - exists (align (align 0 (align_of x) + z) (align_of (TTuple [x]))).
    assert (E : size_of_t (TTuple [x]) = (1 + (sp_nodes x + fst (size_of_t x) + 0) + sp_nodes (TTuple [x]), Some (align (align 0 (align_of x) + z) (align_of (TTuple [x]))))).
    { cbn [size_of_t]. rewrite !align_calls, IH2. reflexivity. }
    rewrite E, IH2. cbn [fst]. change (sp_nodes (TTuple [x])) with (1 + (sp_nodes x + 0)). f_equal. nia.
Qed.
Lemma claim_reached k : exists t, sp_nodes t = k + 1 /\ fst (size_of_t t) = k * k + 3 * k + 1.
Proof.
  exists (Nat.iter (N.to_nat k) (fun t => TTuple [t]) TY). destruct (nested (N.to_nat k)) as [H1 [z H2]]. rewrite H2. cbn [fst]. rewrite N2Nat.id in *. split; [exact H1|reflexivity].
Qed.
Definition walk_t := fix walk (pos : N) (ts : list ty) : N * option N :=
               match ts with
               | [] => (0, Some pos)
               | t :: ts =>
                   let '(n1, al) := align_of_t t in
                   let pos := align pos al in
                   let '(n2, sz) := size_of_t t in
                   match sz with
                   | Some s => let '(n3, r) := walk (pos + s) ts in (n1 + n2 + n3, r)
                   | None => (n1 + n2, None)
                   end
               end.
Definition askeds (w : N) (ts : list ty) : N := fold_right (fun t n => sp_asked w t + n) 0 ts.
Lemma asked_exact t : forall w n z, size_of_t t = (n, Some z) -> sp_asked w t = w * sp_nodes t + n.
Proof.
  induction t using ty_ind'; intros w n z E; try (cbn [size_of_t] in E; injection E as <- <-; cbn [sp_asked sp_nodes]; lia); try discriminate.
  - destruct ts as [|t0 ts0]; [cbn [size_of_t] in E; injection E as <- <-; cbn [sp_asked sp_nodes fold_right]; lia|]. remember (t0 :: ts0) as ts eqn:Ets.
    assert (HW : forall pos n pos', walk_t pos ts = (n, Some pos') -> askeds (w + 2) ts = (w + 1) * nodes ts + n).
    { clear Ets t0 ts0 E. induction H as [|x xs Hx _ IH]; intros pos m pos' E; cbn [walk_t] in E; [injection E as <- <-; cbn [askeds nodes fold_right]; lia|].
      rewrite align_calls in E. destruct (size_of_t x) as [n2 [s|]]; [|discriminate]. specialize (Hx (w + 2) n2 s eq_refl). specialize (IH (align pos (align_of x) + s)).
      destruct (walk_t _ xs) as [n3 r]. pose proof (f_equal snd E) as Er; apply (f_equal fst) in E; cbn [fst snd] in E, Er; subst m r. specialize (IH n3 pos' eq_refl).
      change (askeds (w + 2) (x :: xs)) with (sp_asked (w + 2) x + askeds (w + 2) xs). change (nodes (x :: xs)) with (sp_nodes x + nodes xs). nia. }
    assert (E1 : size_of_t (TTuple ts) = let '(n, r) := walk_t 0 ts in match r with Some pos => let '(m, al) := align_of_t (TTuple ts) in (1 + n + m, Some (align pos al)) | None => (1 + n, None) end)
      by (rewrite Ets; reflexivity).
    assert (E2 : sp_asked w (TTuple ts) = w + 2 + askeds (w + 2) ts) by (rewrite Ets; reflexivity).
    rewrite E1, align_calls in E. specialize (HW 0). destruct (walk_t 0 ts) as [m [pos|]]; [|discriminate]. apply (f_equal fst) in E; cbn [fst] in E; subst n. specialize (HW m pos eq_refl).
    rewrite E2. change (sp_nodes (TTuple ts)) with (1 + nodes ts). nia.
  - cbn [size_of_t] in E. rewrite align_calls in E. destruct (size_of_t t1) as [n1 [a|]]; [|destruct (size_of_t t2); discriminate].
    destruct (size_of_t t2) as [n2 [b|]]; [|discriminate]. specialize (IHt1 (w + 1) n1 a eq_refl). specialize (IHt2 (w + 2) n2 b eq_refl).
    rewrite (align_calls (TDict t1 t2)) in E. apply (f_equal fst) in E; cbn [fst] in E; subst n. cbn [sp_asked sp_nodes]. nia.
Qed.
Lemma claim_fixed t n : sp_size t = Some n -> fst (size_of_t t) = sp_asked 0 t.
Proof. rewrite sp_size_of, <- claim_size. intros E. destruct (size_of_t t) as [m z] eqn:Et. cbn [fst snd] in *. subst z. rewrite (asked_exact t 0 m n Et). lia. Qed.
Lemma walk_stops y zs : size_of y = None -> forall xs pos, Forall (fun x => size_of x <> None) xs ->
  walk_t pos (xs ++ y :: zs) = (askeds 1 xs + sp_nodes y + fst (size_of_t y), None).
Proof.
  intros Hy. induction xs as [|x xs IH]; intros pos Hx; cbn [app walk_t]; rewrite align_calls.
  - rewrite <- claim_size in Hy. destruct (size_of_t y) as [n z]. cbn [snd] in Hy. subst z. reflexivity.
  - inversion Hx as [|? ? Ha Hb]; subst. rewrite <- claim_size in Ha. pose proof (asked_exact x 1) as Hn. destruct (size_of_t x) as [n [s|]]; [|now destruct Ha].
    rewrite (IH _ Hb). specialize (Hn n s eq_refl). change (askeds 1 (x :: xs)) with (sp_asked 1 x + askeds 1 xs). f_equal. lia.
Qed.
Lemma claim_member xs zs y : Forall (fun x => sp_size x <> None) xs -> sp_size y = None ->
  size_of_t (TTuple (xs ++ y :: zs)) = (1 + fold_right (fun x n => sp_asked 1 x + n) 0 xs + sp_nodes y + fst (size_of_t y), None).
Proof.
  intros Hx Hy. rewrite sp_size_of in Hy. pose proof (walk_stops y zs Hy xs 0) as H. rewrite Forall_forall in Hx.
  assert (E : size_of_t (TTuple (xs ++ y :: zs)) = let '(n, r) := walk_t 0 (xs ++ y :: zs) in match r with Some pos => let '(m, al) := align_of_t (TTuple (xs ++ y :: zs)) in (1 + n + m, Some (align pos al)) | None => (1 + n, None) end)
    by (destruct xs; reflexivity).
  rewrite E, H; [|apply Forall_forall; intros x Hi; rewrite <- sp_size_of; now apply Hx]. f_equal. fold (askeds 1 xs). lia.
Qed.
Lemma claim_entry k v : sp_size (TDict k v) = None -> fst (size_of_t (TDict k v)) = 1 + fst (size_of_t k) + fst (size_of_t v).
Proof.
  rewrite sp_size_of, <- claim_size. cbn [size_of_t]. destruct (size_of_t k) as [n1 [a|]], (size_of_t v) as [n2 [b|]]; try reflexivity.
  rewrite align_calls, (align_calls (TDict k v)). discriminate.
Qed.
Lemma claim_plain t : sp_size t = None -> (forall ts, t <> TTuple ts) -> (forall k v, t <> TDict k v) -> size_of_t t = (1, None).
Proof. destruct t; intros H H1 H2; try discriminate; try reflexivity; [now edestruct H1|now edestruct H2]. Qed.
