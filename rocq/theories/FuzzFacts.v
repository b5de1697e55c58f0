(** [serialize_to_vec] and the fuzz target's assertions. *)
From Verif Require Import Base Types Layout AlignedBytes Strs Spec Deser Ser Buf Histories SerSpec OwnSpec
  BaseFacts TypesFacts LayoutFacts AlignedFacts Utf8Facts DeserFacts ArrayFacts StructFacts ReadFacts AccessFacts ReadClaims
  EncFacts EqFacts SerFacts RoundFacts PadFacts SerClaims ViewFacts OwnClaims Fuzz FuzzSpec LongFacts.
From Coq Require Import Lia ZifyBool ZifyNat ZifyN.
Ltac Zify.zify_post_hook ::= Z.div_mod_to_equations.

(** ** [serialize_to_vec] *)
Lemma to_vec_claim h t r : usable t -> rtyped t r -> no_nuls t r ->
  len (sp_written (h_big_endian h) t (rvalue true (h_big_endian h) t r)) < 2 ^ 63 ->
  serialize_to_vec h t r = Ok (sp_written (h_big_endian h) t (rvalue true (h_big_endian h) t r)).
Proof. intros. unfold serialize_to_vec. rewrite ser_claim by assumption. reflexivity. Qed.
Lemma to_vec_nul_claim h t r : usable t -> rtyped t r -> ~ no_nuls t r ->
  len (sp_written (h_big_endian h) t (rvalue true (h_big_endian h) t r)) < 2 ^ 63 ->
  serialize_to_vec h t r = Crash PUnwrap.
Proof.
  intros Hu Ht Hn Hl. destruct (nul_claim h t r Hu Ht Hn Hl) as (s & b & a & _ & _ & _ & E).
  unfold serialize_to_vec. rewrite E. reflexivity.
Qed.

(** ** The fuzz target *)
Lemma bytes_eqb_refl d : bytes_eqb d d = true.
Proof. apply bytes_eqb_eq. reflexivity. Qed.

(** Up to the comparison. *)
Lemma fuzz_write h t s : usable t -> aligned (sp_align t) s -> len (s_data s) < 2 ^ 32 ->
  sp_tame t = true -> sp_unpadded t = true ->
  let d := sp_encode (h_big_endian h) t (sp_decode (h_big_endian h) t (Some (s_data s))) in
  len d < 2 ^ 63 ->
  exists v r, cast h t s = Ok v /\ view_rval h t v = Ok r /\ serialize_to_vec h t r = Ok d /\ view h t v /\
    read h t v = Ok (sp_decode (h_big_endian h) t (Some (s_data s))) /\
    forall a, a mod sp_align t = 0 -> exists q, cast h t (Slice a d) = Ok q /\ view h t q /\
      read h t q = Ok (sp_decode (h_big_endian h) t (Some (s_data s))).
Proof.
  cbv zeta. intros Hu Ha Hl Ht HU Hd. pose proof (tame_reads t Ht (Some (s_data s))) as HR.
  pose proof (decode_claim h t s Hu Ha Hl) as HD. rewrite HR in HD. pose proof HD as HD0. unfold decode in HD.
  destruct (cast h t s) as [v|] eqn:Ec; [|discriminate]. cbn [bind] in HD.
  pose proof (unpadded_again_claim h t s _ Hu Ha ltac:(lia) HU HD0 Hd None) as HA.
  unfold reserialize in HA. rewrite Ec in HA. cbn [bind] in HA.
  destruct (view_rval h t v) as [r|] eqn:Er; [|discriminate].
  exists v, r. split; [reflexivity|]. split; [exact Er|]. split; [unfold serialize_to_vec; now rewrite HA|]. split.
  { exists t, s. split; [exact Hu|]. split; [exact Ha|]. split; [lia|]. now apply reach_cast. }
  split; [exact HD|]. intros a Ha'.
  pose proof (decode_typed h t s _ Hu Ha ltac:(lia) HD0) as HT. set (w := sp_decode (h_big_endian h) t (Some (s_data s))) in *.
  pose proof (encode_claim h t w a Hu HT Ha' Hd) as HD'. unfold decode in HD'.
  destruct (cast h t (Slice a _)) as [q|] eqn:Eq; [|discriminate]. cbn [bind] in HD'.
  exists q. split; [reflexivity|]. split; [|exact HD'].
  exists t, (Slice a (sp_encode (h_big_endian h) t w)). split; [exact Hu|]. split; [exact Ha'|]. split; [cbn [s_data]; lia|].
  now apply reach_cast.
Qed.
(** Where the copy of the output ends up. *)
Lemma fuzz_copy h t d va a1 a2 : a1 + 8 < 2 ^ 64 -> a2 + 8 < 2 ^ 64 ->
  exists c rs, copy_to_align h (trait_align t) (vec_slice va d) a1 a2 = Ok c /\ cow_as_ref h (trait_align t) c = Ok rs /\
    s_data rs = d /\ (d <> [] -> s_addr rs mod sp_align t = 0) /\ (d = [] -> rs = Slice 1 []).
Proof.
  intros H1 H2. rewrite trait_align_of, sp_align_of.
  destruct (copy_to_align_ok h (align_of t) (vec_slice va d) a1 a2 (align_of_alignment t) H1 H2) as (c & s & E & Ec & Hd & Ha & Hb & Hc).
  assert (Ed : s_data (vec_slice va d) = d) by (destruct d; reflexivity). rewrite Ed in *.
  exists c, s. repeat split; auto. intros ->. cbn [vec_slice s_addr] in *.
  destruct (N.eq_dec (1 mod align_of t) 0) as [e|n]; [now destruct (Hb e)|].
  destruct (Hc n) as [b ->]. revert E Ec. unfold copy_to_align, is_aligned. cbn [s_addr vec_slice s_data to_vec].
  replace (1 mod align_of t =? 0) with false by lia.
  change (buf_from_vec h vec_new a2) with (@Ok vec vec_new). cbn [bind]. intros Eb. injection Eb as <-.
  unfold vec_new. cbn [cow_as_ref]. rewrite buf_deref_empty. cbn [bind]. rewrite <- trait_align_of, as_aligned_8. congruence.
Qed.
(** The final check. *)
Lemma fuzz_normal (normal : bool) t d s : (normal = true -> d = s_data s \/ excused t (s_data s)) ->
  (if normal then
    if (256 <=? slen s) && (slen s <? 512) && bytes_eqb (display t) ["a"; "a"; "y"]%byte then Ok tt
    else assert_that (bytes_eqb d (s_data s))
  else Ok tt) = Ok tt.
Proof.
  destruct normal; [|reflexivity]. intros H. destruct (H eq_refl) as [<-|[-> He]].
  - rewrite bytes_eqb_refl. now destruct (_ && _).
  - unfold slen. change @len with @blen in He. replace (256 <=? blen (s_data s)) with true by lia.
    replace (blen (s_data s) <? 512) with true by lia. reflexivity.
Qed.

Lemma fuzz_pass h normal va a1 a2 t s : usable t -> aligned (sp_align t) s -> len (s_data s) < 2 ^ 32 ->
  sp_tame t = true -> sp_unpadded t = true -> (t = TD \/ sp_no_double t = true) ->
  let d := sp_encode (h_big_endian h) t (sp_decode (h_big_endian h) t (Some (s_data s))) in
  len d < 2 ^ 63 -> a1 + 8 < 2 ^ 64 -> a2 + 8 < 2 ^ 64 ->
  d <> [] \/ sp_align t = 1 -> (normal = true -> d = s_data s \/ excused t (s_data s)) ->
  fuzz_cmp h normal va a1 a2 t s = Ok tt.
Proof.
  cbv zeta. intros Hu Ha Hl Ht HU Hnd Hd H1 H2 Hne Hn.
  destruct (fuzz_write h t s Hu Ha Hl Ht HU Hd) as (v & r & Ec & Er & Es & Hv & Hrd & Hback).
  remember (sp_encode (h_big_endian h) t (sp_decode (h_big_endian h) t (Some (s_data s)))) as d eqn:Ed.
  destruct (fuzz_copy h t d va a1 a2 H1 H2) as (c & rs & E1 & E2 & Hrs & Hal & _).
  assert (Hra : s_addr rs mod sp_align t = 0).
  { destruct Hne as [Hne|Hne]; [auto|]. rewrite Hne. apply N.mod_1_r. }
  destruct (Hback (s_addr rs) Hra) as (q & Eq & Hq & Hqr).
  replace (Slice (s_addr rs) d) with rs in Eq by (rewrite <- Hrs; now destruct rs).
  unfold fuzz_cmp. rewrite Ec. cbn [bind]. rewrite Er. cbn [bind]. rewrite Es. cbn [bind]. rewrite E1. cbn [bind]. rewrite E2. cbn [bind].
  rewrite fuzz_normal by assumption.
  destruct Hnd as [->|Hnd]; [reflexivity|].
  assert (Ee : gv_eq h t q v = Ok true) by (apply (eq_plain_claim h t q v _ _ Hnd Hq Hv Hqr Hrd); reflexivity).
  destruct t; try discriminate; rewrite Eq; cbn [bind]; rewrite Ee; reflexivity.
Qed.

(** An empty maybe is written as nothing, and the copy of nothing is not aligned. *)
Lemma fuzz_maybe_empty h normal va a1 a2 s : aligned 4 s -> len (s_data s) < 2 ^ 32 ->
  a1 + 8 < 2 ^ 64 -> a2 + 8 < 2 ^ 64 -> (normal = true -> [] = s_data s) -> len (s_data s) <> 4 ->
  fuzz_cmp h normal va a1 a2 (TM TI) s = Ok tt.
Proof.
  intros Ha Hl H1 H2 Hn H4.
  assert (Hnone : sp_decode (h_big_endian h) (TM TI) (Some (s_data s)) = VMaybe None).
  { cbn [sp_decode sp_size]. destruct (len (s_data s) =? 4) eqn:E; [lia|reflexivity]. }
  destruct (fuzz_write h (TM TI) s) as (v & r & Ec & Er & Es & Hv & Hrd & _); auto; [split; reflexivity|rewrite Hnone; reflexivity|].
  rewrite Hnone in Es, Hrd. change (sp_encode (h_big_endian h) (TM TI) (VMaybe None)) with (@nil byte) in Es.
  destruct (fuzz_copy h (TM TI) [] va a1 a2 H1 H2) as (c & rs & E1 & E2 & _ & _ & Hrs). specialize (Hrs eq_refl). subst rs.
  unfold fuzz_cmp. rewrite Ec. cbn [bind]. rewrite Er. cbn [bind]. rewrite Es. cbn [bind]. rewrite E1. cbn [bind]. rewrite E2. cbn [bind].
  rewrite fuzz_normal by (intros E; left; auto). cbn [read] in Hrd.
  rewrite cast_var by reflexivity. cbn [bind gv_eq].
  change (to_option h TI (Slice 1 [])) with (@Ok (option slice) None). cbn [bind].
  destruct (to_option h TI v) as [[o|]|]; [| |discriminate]; cbn [bind] in *; [|reflexivity].
  destruct (read h TI o); discriminate.
Qed.
(** So is an empty array, with worse consequences. *)
Lemma cast_empty_array h : cast h (TA TI) (Slice 1 []) = Crash (sp_misaligned h).
Proof. unfold sp_misaligned. destruct h as [b o [|] s p]; reflexivity. Qed.
Lemma fuzz_array_empty h normal va a1 a2 s : aligned 4 s -> len (s_data s) < 2 ^ 32 ->
  a1 + 8 < 2 ^ 64 -> a2 + 8 < 2 ^ 64 -> s_data s = [] \/ len (s_data s) mod 4 <> 0 ->
  fuzz_cmp h normal va a1 a2 (TA TI) s = Crash (sp_misaligned h).
Proof.
  intros Ha Hl H1 H2 H4.
  assert (Hnone : sp_decode (h_big_endian h) (TA TI) (Some (s_data s)) = VArray []).
  { cbn [sp_decode sp_size]. destruct H4 as [->|H4]; [reflexivity|]. destruct (len (s_data s) mod 4 =? 0) eqn:E; [lia|reflexivity]. }
  destruct (fuzz_write h (TA TI) s) as (v & r & Ec & Er & Es & Hv & Hrd & _); auto; [split; reflexivity|rewrite Hnone; reflexivity|].
  rewrite Hnone in Es. change (sp_encode (h_big_endian h) (TA TI) (VArray [])) with (@nil byte) in Es.
  destruct (fuzz_copy h (TA TI) [] va a1 a2 H1 H2) as (c & rs & E1 & E2 & _ & _ & Hrs). specialize (Hrs eq_refl). subst rs.
  unfold fuzz_cmp. rewrite Ec. cbn [bind]. rewrite Er. cbn [bind]. rewrite Es. cbn [bind]. rewrite E1. cbn [bind]. rewrite E2. cbn [bind].
  rewrite cast_empty_array. reflexivity.
Qed.

(** Everything else passes. *)
Lemma fuzz_each h normal va a1 a2 t s : In t fuzz_types -> aligned 8 s -> len (s_data s) < 2 ^ 32 ->
  let d := sp_encode (h_big_endian h) t (sp_decode (h_big_endian h) t (Some (s_data s))) in
  len d < 2 ^ 63 -> a1 + 8 < 2 ^ 64 -> a2 + 8 < 2 ^ 64 -> (normal = true -> d = s_data s \/ excused t (s_data s)) ->
  (t = TA TI -> s_data s <> [] /\ len (s_data s) mod 4 = 0) ->
  fuzz_cmp h normal va a1 a2 t s = Ok tt.
Proof.
  cbv zeta. intros Hin Ha Hl Hd H1 H2 Hn Hai.
  assert (Hal : aligned (sp_align t) s) by (rewrite sp_align_of; now apply aligned_8).
  destruct (N.eq_dec (len (s_data s)) 4) as [H4|H4].
  2: assert (Hmi : t = TM TI \/ t <> TM TI)
       by (clear - Hin; cbn [In fuzz_types] in Hin; repeat (destruct Hin as [<-|Hin]; [try (left; reflexivity); right; discriminate|]); contradiction).
  2: destruct Hmi as [->|Hmi].
  2: { apply fuzz_maybe_empty; auto. intros E. destruct (Hn E) as [<-|[He _]]; [|discriminate].
       cbn [sp_decode sp_size]. destruct (len (s_data s) =? 4) eqn:E4; [lia|reflexivity]. }
  all: assert (HP : usable t /\ sp_tame t = true /\ sp_unpadded t = true /\ (t = TD \/ sp_no_double t = true))
         by (clear - Hin; cbn [In fuzz_types] in Hin; repeat (destruct Hin as [<-|Hin]; [repeat split; auto|]); contradiction);
       destruct HP as (HP1 & HP2 & HP3 & HP4); apply fuzz_pass; auto; clear Hn Hd H1 H2 HP1 HP2 HP3 HP4;
       cbn [In fuzz_types] in Hin; repeat (destruct Hin as [<-|Hin]; [try (right; reflexivity); left|]); try contradiction.
  all: try (unfold sp_encode; cbn [sp_decode sp_bytes]; intros E; apply (f_equal len) in E; rewrite sp_int_len in E; discriminate E).
  all: try (cbn [sp_decode]; unfold sp_variant; destruct (sp_split_last _) as [[? ?]|]; unfold sp_encode; cbn [sp_bytes];
            intros E; apply app_eq_nil in E as [_ E]; discriminate E).
  all: try (destruct (Hmi eq_refl)).
  all: try (destruct (Hai eq_refl) as [Hne Hm]; unfold sp_encode; cbn [sp_decode sp_size]; rewrite Hm;
       destruct (s_data s) as [|b l]; [contradiction|]; cbn [length sp_pieces map sp_bytes]; change (sp_fixed TI) with true; cbv iota;
       cbn [concat sp_decode]; intros E; apply app_eq_nil in E as [E _]; cbn [sp_bytes] in E; apply (f_equal len) in E; rewrite sp_int_len in E; discriminate E).
  all: unfold sp_encode; cbn [sp_decode sp_size]; rewrite H4; cbn [N.eqb Pos.eqb sp_bytes]; change (sp_fixed TI) with true; cbv iota;
    cbn [sp_decode sp_bytes]; intros E; apply (f_equal len) in E; rewrite sp_int_len in E; discriminate E.
Qed.

Lemma lay_head al sz items b bodies body ends : sp_lay_struct 0 ((al, sz) :: items) (b :: bodies) = (body, ends) -> body = [] -> b = [].
Proof.
  cbn [sp_lay_struct]. destruct (sp_lay_struct _ items bodies) as [rest e]. intros E ->. injection E as E _.
  apply app_eq_nil in E as [_ E]. now apply app_eq_nil in E.
Qed.
Lemma fuzz_struct_ok h va a1 a2 s : aligned 8 s -> len (s_data s) < 2 ^ 32 ->
  len (sp_encode (h_big_endian h) fuzz_struct_ty (sp_decode (h_big_endian h) fuzz_struct_ty (Some (s_data s)))) < 2 ^ 63 ->
  a1 + 8 < 2 ^ 64 -> a2 + 8 < 2 ^ 64 -> fuzz_struct h va a1 a2 s = Ok tt.
Proof.
  intros Ha Hl Hd H1 H2.
  pose proof (fuzz_pass h false va a1 a2 fuzz_struct_ty s) as HP. cbv zeta in HP.
  assert (HF : fuzz_cmp h false va a1 a2 fuzz_struct_ty s = fuzz_struct h va a1 a2 s).
  { unfold fuzz_cmp, fuzz_struct. cbv zeta. remember fuzz_struct_ty as t eqn:Et.
    destruct (cast h t s) as [v|]; [|reflexivity]. cbn [bind]. destruct (view_rval h t v) as [r|]; [|reflexivity]. cbn [bind].
    destruct (serialize_to_vec h t r) as [o|]; [|reflexivity]. cbn [bind]. destruct (copy_to_align _ _ _ _ _) as [c|]; [|reflexivity]. cbn [bind].
    destruct (cow_as_ref _ _ c) as [rs|]; [|reflexivity]. cbn [bind]. rewrite Et at 1. unfold fuzz_struct_ty at 1.
    destruct (cast h t rs) as [q|]; [|reflexivity]. cbn [bind]. destruct (gv_eq h t q v) as [[|]|]; reflexivity. }
  rewrite <- HF. apply HP; auto; try (split; reflexivity); try reflexivity; [|discriminate].
  left. unfold sp_encode. change (sp_decode (h_big_endian h) fuzz_struct_ty (Some (s_data s))) with
    (sp_decode (h_big_endian h) (TTuple [TS; TU; TT; TU; TT; TY; TS; TI; TS]) (Some (s_data s))).
  cbn [sp_decode]. change (sp_size (TTuple [TS; TU; TT; TU; TT; TY; TS; TI; TS])) with (@None N). cbv iota zeta.
  destruct (sp_struct_children _ _) as [|c cs] eqn:Ec.
  { apply (f_equal (@length _)) in Ec. rewrite sp_struct_children_length in Ec. discriminate Ec. }
  cbn [sp_bytes fuzz_struct_ty]. unfold sp_struct_bytes. destruct (sp_lay_struct _ _ _) as [body ends] eqn:EL.
  change (sp_size _) with (@None N). cbv iota. intros E. apply app_eq_nil in E as [E _].
  cbn [map] in EL. apply lay_head in EL; [|exact E]. apply app_eq_nil in EL as [_ EL]. discriminate EL.
Qed.

(** ** All of it *)
Lemma fuzz_all_ok h normal mem ts s : mem_ok mem ->
  (forall t va a1 a2, In t ts -> a1 + 8 < 2 ^ 64 -> a2 + 8 < 2 ^ 64 -> fuzz_cmp h (normal t) va a1 a2 t s = Ok tt) ->
  fuzz_all h normal mem ts s = Ok tt.
Proof.
  intros Hm. induction ts as [|t ts IH]; intros H; [reflexivity|]. cbn [fuzz_all].
  pose proof (Hm t) as [M1 M2]. destruct (mem t) as [[va a1] a2]. cbn [fst snd] in *. rewrite as_aligned_8. cbn [bind].
  rewrite H by (auto; now left). cbn [bind]. apply IH. intros. apply H; auto. now right.
Qed.
Lemma fuzz_all_crash h normal mem ts t ts' s c : mem_ok mem ->
  (forall t va a1 a2, In t ts -> a1 + 8 < 2 ^ 64 -> a2 + 8 < 2 ^ 64 -> fuzz_cmp h (normal t) va a1 a2 t s = Ok tt) ->
  (forall va a1 a2, a1 + 8 < 2 ^ 64 -> a2 + 8 < 2 ^ 64 -> fuzz_cmp h (normal t) va a1 a2 t s = Crash c) ->
  fuzz_all h normal mem (ts ++ t :: ts') s = Crash c.
Proof.
  intros Hm H Hc. induction ts as [|u ts IH]; cbn [app fuzz_all].
  - pose proof (Hm t) as [M1 M2]. destruct (mem t) as [[va a1] a2]. cbn [fst snd] in *. rewrite as_aligned_8. cbn [bind].
    now rewrite Hc.
  - pose proof (Hm u) as [M1 M2]. destruct (mem u) as [[va a1] a2]. cbn [fst snd] in *. rewrite as_aligned_8. cbn [bind].
    rewrite H by (auto; now left). cbn [bind]. apply IH. intros. apply H; auto. now right.
Qed.

Lemma fuzz_pass_claim h normal mem b1 b2 data : mem_ok mem -> b1 + 8 < 2 ^ 64 -> b2 + 8 < 2 ^ 64 -> fuzz_run h normal (s_data data) ->
  s_data data <> [] -> len (s_data data) mod 4 = 0 -> fuzz_target h normal mem b1 b2 data = Ok tt.
Proof.
  intros Hm H1 H2 [Hl Hr] Hne H4. unfold fuzz_target.
  destruct (copy_to_align_ok h 8 data b1 b2) as (c & s & E & Ec & Hd & Ha & _); auto; [right; right; right; reflexivity|].
  rewrite E. cbn [bind]. rewrite Ec. cbn [bind]. specialize (Ha Hne). rewrite <- Hd in *.
  rewrite fuzz_all_ok; auto.
  - cbn [bind]. pose proof (Hm fuzz_struct_ty) as [M1 M2]. destruct (mem fuzz_struct_ty) as [[va a1] a2]. cbn [fst snd] in *.
    apply fuzz_struct_ok; auto. apply Hr. now left.
  - intros t va a1 a2 Hin A1 A2. destruct (Hr t (or_intror Hin)) as [R1 R2]. apply fuzz_each; auto.
Qed.

Definition fuzz_early : list ty := [TB; TY; TN; TQ; TI; TU; TX; TT; TD; TS; TO; TG; TV; TA TY].
Lemma fuzz_types_split : fuzz_types = fuzz_early ++ TA TI :: [TA TS; TA (TA TY); TM TY; TM TI; TM TS; TM (TA TY)].
Proof. reflexivity. Qed.
(** Empty input at address 1 is like empty input at address 8, before the array of
    numbers. *)
Lemma fuzz_moved h normal va a1 a2 t : In t fuzz_early -> t <> TA TY ->
  fuzz_cmp h normal va a1 a2 t (Slice 1 []) = fuzz_cmp h normal va a1 a2 t (Slice 8 []).
Proof. intros H Hn. cbn [In fuzz_early] in H. repeat (destruct H as [<-|H]; [first [reflexivity|now destruct Hn]|]). contradiction. Qed.

Lemma fuzz_crash_claim h normal mem b1 b2 data : mem_ok mem -> b1 + 8 < 2 ^ 64 -> b2 + 8 < 2 ^ 64 -> fuzz_run h normal (s_data data) ->
  s_data data = [] \/ len (s_data data) mod 4 <> 0 -> fuzz_target h normal mem b1 b2 data = Crash (sp_misaligned h).
Proof.
  intros Hm H1 H2 [Hl Hr] H4. unfold fuzz_target.
  destruct (copy_to_align_ok h 8 data b1 b2) as (c & s & E & Ec & Hd & Ha & Hb & Hc); auto; [right; right; right; reflexivity|].
  rewrite E. cbn [bind]. rewrite Ec. cbn [bind]. rewrite <- Hd in *.
  assert (HE : forall t q va a1 a2, In t fuzz_early -> s_data q = s_data s -> aligned 8 q -> a1 + 8 < 2 ^ 64 -> a2 + 8 < 2 ^ 64 -> fuzz_cmp h (normal t) va a1 a2 t q = Ok tt).
  { intros t q va a1 a2 Hin Hq Haq A1 A2.
    assert (Hin' : In t fuzz_types) by (rewrite fuzz_types_split; apply in_or_app; now left).
    destruct (Hr t (or_intror Hin')) as [R1 R2]. apply fuzz_each; rewrite ?Hq; auto. intros ->.
    cbn [In fuzz_early] in Hin. repeat (destruct Hin as [Hin|Hin]; [discriminate|]). contradiction. }
  rewrite fuzz_types_split.
  assert (Hcase : aligned 8 s \/ s = Slice 1 []).
  { assert (Hdec : s_data s = [] \/ s_data s <> []) by (destruct (s_data s); [now left|right; discriminate]).
    destruct Hdec as [e|n]; [|left; exact (Ha n)].
    destruct (N.eq_dec (s_addr data mod 8) 0) as [e8|n8]; [left; destruct (Hb e8) as [_ ->]; exact e8|right].
    destruct (Hc n8) as [b ->]. revert E Ec. unfold copy_to_align, is_aligned. rewrite <- Hd, e.
    replace (s_addr data mod 8 =? 0) with false by lia. cbn [to_vec].
    change (buf_from_vec h vec_new b2) with (@Ok vec vec_new). cbn [bind]. intros Eb. injection Eb as <-.
    unfold vec_new. cbn [cow_as_ref]. rewrite buf_deref_empty. cbn [bind]. change (as_aligned 8 8 (Slice 1 [])) with (@Ok slice (Slice 1 [])). congruence. }
  destruct Hcase as [Hal| ->].
  - rewrite (fuzz_all_crash h normal mem fuzz_early (TA TI) _ s (sp_misaligned h)); auto.
    intros va a1 a2 A1 A2. apply fuzz_array_empty; auto. apply (aligned_8 TI). exact Hal.
  - rewrite (fuzz_all_crash h normal mem fuzz_early (TA TI) _ (Slice 1 []) (sp_misaligned h)); auto.
    + intros t va a1 a2 Hin A1 A2. destruct (Hr t) as [R1 R2].
      { right. rewrite fuzz_types_split. apply in_or_app. now left. }
      assert (Hay : t = TA TY \/ t <> TA TY).
      { clear - Hin. cbn [In fuzz_early] in Hin. repeat (destruct Hin as [<-|Hin]; [try (left; reflexivity); right; discriminate|]). contradiction. }
      destruct Hay as [->|Hay].
      * apply fuzz_pass; auto; try (split; reflexivity); try reflexivity.
      * rewrite fuzz_moved by assumption. apply HE; auto. reflexivity.
    + intros va a1 a2 A1 A2. unfold fuzz_cmp. rewrite cast_empty_array. reflexivity.
Qed.
Lemma to_vec_refuted : exists (h : host) (t : ty) (r : rval), usable t /\ rtyped t r /\ serialize_to_vec h t r = Crash PUnwrap.
Proof.
  exists (Host false true true 0 0), TS, (RStr [x00]). split; [split; reflexivity|]. split; [|reflexivity].
  cbn [rtyped]. apply sp_utf8_ok. reflexivity.
Qed.
