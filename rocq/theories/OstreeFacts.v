(** The example program prints the tree. *)
From Verif Require Import Base Types Layout AlignedBytes Strs Spec Deser Buf Histories OwnSpec
  BaseFacts TypesFacts LayoutFacts AlignedFacts Utf8Facts DeserFacts ArrayFacts StructFacts ReadFacts AccessFacts MoveFacts ReadClaims OwnClaims LongSpec LongFacts OstreeLs OstreeSpec.
From Coq Require Import Lia ZifyBool ZifyNat ZifyN.
Ltac Zify.zify_post_hook ::= Z.div_mod_to_equations.

Lemma one_piece d : forall k, (length d <= k)%nat -> sp_pieces k 1 d = map (fun b => [b]) d.
Proof.
  induction d as [|b d IH]; intros k Hk; destruct k; try reflexivity; cbn [length] in Hk; [lia|].
  cbn [sp_pieces firstn skipn map]. now rewrite IH by lia.
Qed.
Lemma one_num h b : of_ne h [b] = b2n b.
Proof. unfold of_ne. destruct (h_big_endian h); cbn [rev app of_le]; lia. Qed.
Lemma hex_digits b :
  [sp_hex_digit (b2n b / 16); sp_hex_digit (b2n b mod 16)] = [hex_digit (b2n b / 16); hex_digit (b2n b mod 16)].
Proof. destruct b; reflexivity. Qed.
Lemma read_bytes_value h r v : read h (TA TY) r = Ok v -> sp_hex v = hex_encode (s_data r).
Proof.
  cbn [read]. unfold array_refs. cbn [size_of mem_layout]. intros E.
  change ((let* vs := mapM (read h TY) (slice_elems 1 r) in Ok (VArray vs)) = Ok v) in E.
  destruct (slice_elems_ok TY 1 r eq_refl) as [Hm _].
  { split; [|red; cbn [size_of]; apply N.mod_1_r]. apply N.mod_1_r. }
  change (N.to_nat 1) with 1%nat in Hm. rewrite one_piece in Hm by lia.
  rewrite (mapM_ok_map _ (fun s => VInt (Z.of_N (of_ne h (s_data s))))) in E by reflexivity.
  cbn [bind] in E. injection E as <-. cbn [sp_hex].
  transitivity (flat_map (fun d => [sp_hex_digit (of_ne h d / 16); sp_hex_digit (of_ne h d mod 16)]) (map s_data (slice_elems 1 r))).
  { generalize (slice_elems 1 r). induction l as [|s l IH]; cbn [map flat_map]; [reflexivity|]. now rewrite IH, N2Z.id. }
  rewrite Hm. unfold hex_encode. generalize (s_data r). induction l as [|b l IH]; cbn [map flat_map]; [reflexivity|].
  now rewrite IH, one_num, hex_digits.
Qed.

Lemma read_tuple_inv h ts r v : macro_ok (TTuple ts) = true -> read h (TTuple ts) r = Ok v ->
  exists rs vs, to_tuple h (TTuple ts) r = Ok rs /\ length rs = length ts /\ v = VTuple vs /\
  mapM (fun p => read h (fst p) (snd p)) (combine ts rs) = Ok vs.
Proof.
  intros Hm E. pose proof E as E0. cbn [read] in E0. apply bind_ok in E0 as (rs & Er & _).
  pose proof (to_tuple_length h (TTuple ts) r rs I Hm Er) as Hl.
  rewrite (read_struct h (TTuple ts) r rs I Er Hl) in E. cbn [children_of] in *.
  apply bind_ok in E as (vs & Ev & E). injection E as <-. exists rs, vs. auto.
Qed.
Lemma mapM_cons {A B} (f : A -> res B) x l ys : mapM f (x :: l) = Ok ys ->
  exists y ys', f x = Ok y /\ mapM f l = Ok ys' /\ ys = y :: ys'.
Proof.
  cbn [mapM]. intros E. apply bind_ok in E as (y & Ey & E). apply bind_ok in E as (ys' & Es & E).
  injection E as <-. eauto.
Qed.
Lemma mapM_lift {A B C} (f : A -> res B) (g : A -> res C) (k : B -> C) : (forall a b, f a = Ok b -> g a = Ok (k b)) ->
  forall l bs, mapM f l = Ok bs -> mapM g l = Ok (map k bs).
Proof.
  intros H. induction l as [|a l IH]; intros bs E; [injection E as <-; reflexivity|].
  apply mapM_cons in E as (y & ys & Ey & Es & ->). cbn [mapM map]. now rewrite (H _ _ Ey), (IH _ Es).
Qed.

Lemma ls_dir_value h r v : read h (TTuple [TS; TA TY; TA TY]) r = Ok v -> ls_dir h r = Ok (sp_ls_entry v).
Proof.
  intros E. apply read_tuple_inv in E as (rs & vs & Er & Hl & -> & E); [|reflexivity].
  unfold ls_dir. rewrite Er. cbn [bind].
  destruct rs as [|name [|tree [|meta [|? ?]]]]; cbn [length] in Hl; try lia. cbn [combine] in E.
  apply mapM_cons in E as (v1 & vs1 & E1 & E & ->). apply mapM_cons in E as (v2 & vs2 & E2 & E & ->).
  apply mapM_cons in E as (v3 & vs3 & E3 & E & ->). cbn [mapM] in E. injection E as <-. cbn [fst snd] in *.
  apply read_bytes_value in E2. apply read_bytes_value in E3. cbn [read] in E1. injection E1 as <-.
  cbn [sp_ls_entry]. now rewrite E2, E3.
Qed.
Lemma ls_file_value h r v : read h (TTuple [TS; TA TY]) r = Ok v -> ls_file h r = Ok (sp_ls_entry v).
Proof.
  intros E. apply read_tuple_inv in E as (rs & vs & Er & Hl & -> & E); [|reflexivity].
  unfold ls_file. rewrite Er. cbn [bind].
  destruct rs as [|name [|sum [|? ?]]]; cbn [length] in Hl; try lia. cbn [combine] in E.
  apply mapM_cons in E as (v1 & vs1 & E1 & E & ->). apply mapM_cons in E as (v2 & vs2 & E2 & E & ->).
  cbn [mapM] in E. injection E as <-. cbn [fst snd] in *.
  apply read_bytes_value in E2. cbn [read] in E1. injection E1 as <-. cbn [sp_ls_entry]. now rewrite E2.
Qed.
Lemma ls_array h x f r v : size_of x = None -> (forall r v, read h x r = Ok v -> f r = Ok (sp_ls_entry v)) ->
  read h (TA x) r = Ok v -> exists rs vs, nfwa_items h x r = Ok rs /\ v = VArray vs /\ mapM f rs = Ok (map sp_ls_entry vs).
Proof.
  intros Hn Hf E. cbn [read] in E. unfold array_refs in E. rewrite Hn in E.
  apply bind_ok in E as (rs & Er & E). apply bind_ok in E as (vs & Ev & E). injection E as <-.
  exists rs, vs. repeat split; auto. eapply mapM_lift; [|exact Ev]. exact Hf.
Qed.
Lemma ls_of_read h v a2 a3 a4 w : own_read h ostree_ty (deserialize h ostree_ty v a2 a3 a4) = Ok w ->
  ostree_ls h v a2 a3 a4 = Ok (sp_ls w).
Proof.
  unfold own_read, ostree_ls, ostree_ty. intros E. apply bind_ok in E as (o & -> & E). apply bind_ok in E as (r & Er & E).
  cbn [bind]. rewrite Er. cbn [bind]. apply read_tuple_inv in E as (rs & vs & -> & Hl & -> & E); [|reflexivity]. cbn [bind].
  destruct rs as [|files [|dirs [|? ?]]]; cbn [length] in Hl; try lia. cbn [combine] in E.
  apply mapM_cons in E as (v1 & vs1 & E1 & E & ->). apply mapM_cons in E as (v2 & vs2 & E2 & E & ->).
  cbn [mapM] in E. injection E as <-. cbn [fst snd] in *.
  apply (ls_array h (TTuple [TS; TA TY]) _ _ _ eq_refl (ls_file_value h)) in E1 as (fs & fv & Ef & -> & Ef').
  apply (ls_array h (TTuple [TS; TA TY; TA TY]) _ _ _ eq_refl (ls_dir_value h)) in E2 as (ds & dv & Ed & -> & Ed').
  rewrite Ed. cbn [bind]. rewrite Ed'. cbn [bind]. rewrite Ef. cbn [bind]. rewrite Ef'. cbn [bind sp_ls].
  now rewrite !flat_map_concat_map.
Qed.
Lemma ostree_usable : usable ostree_ty.
Proof. split; reflexivity. Qed.
Lemma ostree_tame d : sp_reads ostree_ty d = true.
Proof. apply ReadFacts.tame_reads; reflexivity. Qed.
Lemma ostree_long h v a2 a3 a4 :
  v_addr v + 8 < 2 ^ 64 -> a2 + 8 < 2 ^ 64 -> a3 + 8 < 2 ^ 64 -> a4 + 8 < 2 ^ 64 ->
  len (v_data v) < 2 ^ 63 -> sp_near ostree_ty (Some (v_data v)) = true ->
  ostree_ls h v a2 a3 a4 = Ok (sp_ls (sp_decode (h_big_endian h) ostree_ty (Some (v_data v)))).
Proof.
  intros H1 H2 H3 H4 Hl Hn. apply ls_of_read. destruct v as [va d]. cbn [v_addr v_data] in *. destruct d as [|b d].
  - rewrite deserialize_empty_claim by (auto; apply ostree_usable). destruct (h_big_endian h); reflexivity.
  - rewrite (deserialize_claim h ostree_ty (Vec va (b :: d)) (Slice 0 (b :: d))); try assumption; try reflexivity; [|apply ostree_usable|discriminate].
    rewrite long_claim; [|apply ostree_usable|reflexivity|exact Hl|exact Hn].
    now rewrite ostree_tame.
Qed.
Lemma ostree_claim h v a2 a3 a4 :
  v_addr v + 8 < 2 ^ 64 -> a2 + 8 < 2 ^ 64 -> a3 + 8 < 2 ^ 64 -> a4 + 8 < 2 ^ 64 -> len (v_data v) < 2 ^ 32 ->
  ostree_ls h v a2 a3 a4 = Ok (sp_ls (sp_decode (h_big_endian h) ostree_ty (Some (v_data v)))).
Proof. intros. apply ostree_long; auto; [lia|now apply small_claim]. Qed.
