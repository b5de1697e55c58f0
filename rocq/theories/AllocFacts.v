(** What reading asks of the allocator. *)
From Verif Require Import Base Types Layout AlignedBytes Strs Spec Deser Ser Buf Alloc Histories OwnSpec AllocSpec
  BaseFacts TypesFacts LayoutFacts AlignedFacts Utf8Facts DeserFacts ReadFacts ReadClaims EmptyFacts OwnClaims.
From Coq Require Import Lia ZifyBool ZifyNat ZifyN.
Ltac Zify.zify_post_hook ::= Z.div_mod_to_equations.

Lemma snd_after {A B} (m : asked A) (f : A -> asked B) : snd (after m f) = let* a := snd m in snd (f a).
Proof. destruct m as [w [a|c]]; [|reflexivity]. cbn [after]. destruct (f a) as [w' r] eqn:E. cbn [snd bind]. now rewrite E. Qed.
Lemma fst_after {A B} (m : asked A) (f : A -> asked B) :
  fst (after m f) = fst m ++ match snd m with Ok a => fst (f a) | Crash _ => [] end.
Proof. destruct m as [w [a|c]]; cbn [after fst snd]; [|now rewrite app_nil_r]. destruct (f a); reflexivity. Qed.

(** ** Without the sizes *)
Lemma snd_reserve v n a : exists c, snd (reserve_a v n a) = Ok (CVec (Vec a (v_data (c_vec v))) c).
Proof. unfold reserve_a. destruct (_ <? _); cbn [after request quiet fst snd]; eauto. Qed.
Lemma snd_align h v a : (let* b := snd (buf_from_vec_a h v a) in Ok (c_vec b)) = buf_from_vec h (c_vec v) a.
Proof.
  unfold buf_from_vec_a, buf_from_vec, vec_align. destruct (vec_is_aligned _); [reflexivity|].
  unfold align_cold_a, align_cold. rewrite snd_after. destruct (snd_reserve v 7 a) as [c ->]. cbn [bind c_vec].
  rewrite snd_after. cbn [quiet snd]. destruct (offset_to_align h _) as [off|]; [|reflexivity]. cbn [bind].
  rewrite snd_after. destruct (snd_reserve (CVec (Vec a (v_data (c_vec v))) c) off a) as [c' ->]. cbn [bind c_vec v_data].
  rewrite snd_after. cbn [quiet snd]. destruct (rotate_right off _); reflexivity.
Qed.
Lemma snd_align_then {B} h v a (f : vec -> res B) :
  (let* b := snd (buf_from_vec_a h v a) in f (c_vec b)) = let* b := buf_from_vec h (c_vec v) a in f b.
Proof. rewrite <- snd_align. destruct (snd (buf_from_vec_a h v a)); reflexivity. Qed.
Lemma snd_to_vec d a : snd (to_vec_a d a) = Ok (CVec (to_vec d a) (blen d)).
Proof. reflexivity. Qed.
Lemma snd_copy h A data a1 a2 : snd (copy_to_align_a h A data a1 a2) = copy_to_align h A data a1 a2.
Proof.
  unfold copy_to_align_a, copy_to_align. destruct (is_aligned data A).
  - destruct (try_as_aligned 1 A data); reflexivity.
  - rewrite snd_after, snd_to_vec. cbn [bind]. rewrite snd_after. cbn [quiet snd].
    now rewrite (snd_align_then h _ a2 (fun b => Ok (OwnedBuf b))).
Qed.
Lemma snd_str s a : snd (from_str_unchecked_a s a) = Ok (s ++ [x00]).
Proof.
  unfold from_str_unchecked_a. rewrite snd_after. cbn [request snd bind]. rewrite snd_after.
  destruct (snd_reserve (CVec (Vec a []) (blen s + 1)) (blen s) a) as [c ->]. cbn [bind c_vec c_cap v_data app].
  rewrite snd_after. destruct (snd_reserve (CVec (Vec a s) c) 1 a) as [c' ->]. reflexivity.
Qed.
Lemma snd_to_owned h t r a1 a2 : snd (to_owned_a h t r a1 a2) = to_owned h t r a1 a2.
Proof.
  assert (E : snd (let? b := owned_from_bytes_a h (s_data r) a1 a2 in quiet (Ok (OBuf (c_vec b)))) =
    let* b := owned_from_bytes h (s_data r) a1 a2 in Ok (OBuf b)).
  { rewrite snd_after. unfold owned_from_bytes_a. rewrite snd_after, snd_to_vec. cbn [bind quiet snd].
    now rewrite (snd_align_then h _ a2 (fun b => Ok (OBuf b))). }
  unfold to_owned_a, to_owned. destruct (size_of t); [reflexivity|].
  destruct t; try exact E; try (rewrite snd_after, snd_str; reflexivity).
  destruct (is_fixed _); [reflexivity|exact E].
Qed.
Lemma from_bytes_same h t data a1 a2 a3 a4 :
  snd (from_bytes_a h t data a1 a2 a3 a4) = from_bytes h t data a1 a2 a3 a4.
Proof.
  unfold from_bytes_a, from_bytes. rewrite snd_after, snd_copy. destruct (copy_to_align _ _ _ _ _) as [c|]; [|reflexivity].
  cbn [bind]. rewrite snd_after. cbn [quiet snd]. destruct (cow_as_ref _ _ c); [|reflexivity]. cbn [bind].
  rewrite snd_after. cbn [quiet snd]. destruct (cast h t _); [|reflexivity]. cbn [bind]. apply snd_to_owned.
Qed.
Lemma deserialize_same h t v a2 a3 a4 :
  snd (deserialize_a h t v a2 a3 a4) = deserialize h t (c_vec v) a2 a3 a4.
Proof.
  unfold deserialize_a, deserialize. rewrite snd_after, <- snd_align.
  destruct (snd (buf_from_vec_a h v a2)) as [b|]; [|reflexivity]. cbn [bind]. rewrite snd_after. cbn [quiet snd].
  destruct (buf_deref _ _); [|reflexivity]. cbn [bind]. rewrite snd_after. cbn [quiet snd].
  destruct (as_aligned _ _ _); [|reflexivity]. cbn [bind]. rewrite snd_after. cbn [quiet snd].
  destruct (cast h t _); [|reflexivity]. cbn [bind]. apply snd_to_owned.
Qed.

(** ** The sizes *)
Lemma offset_small h v off : offset_to_align h v = Ok off -> off <= 7.
Proof.
  unfold offset_to_align. assert (H : uand (wrapping_neg (v_addr v)) 7 <= 7).
  { unfold uand. rewrite (land_mask 8) by (right; right; right; reflexivity). lia. }
  destruct (vlen v =? 0); [intros E; injection E as <-; lia|].
  destruct (h_debug h); [|intros E; injection E as <-; exact H].
  destruct (uadd h _ _) as [q|]; [|discriminate]. cbn [bind]. destruct (uand q 7 =? 0); [|discriminate].
  intros E. injection E as <-. exact H.
Qed.
Lemma reserve_enough v n a : n <= c_cap v - vlen (c_vec v) -> fst (reserve_a v n a) = [].
Proof. intros H. unfold reserve_a. replace (_ <? _) with false by lia. reflexivity. Qed.
Lemma reserve_cap v n a c : snd (reserve_a v n a) = Ok c -> v_data (c_vec c) = v_data (c_vec v) /\
  n <= c_cap c - vlen (c_vec c).
Proof.
  unfold reserve_a. destruct (_ <? n) eqn:E; cbn [after request quiet fst snd]; intros H; injection H as <-;
    cbn [c_vec c_cap v_data vlen]; (split; [reflexivity|]); unfold vlen in *; cbn [v_data]; lia.
Qed.
Lemma room_asks h v a : fst (buf_from_vec_a h v a) = sp_room (vlen (c_vec v)) (c_cap v) (v_addr (c_vec v)).
Proof.
  unfold buf_from_vec_a, vec_is_aligned, sp_room. unfold uand. rewrite (land_mask 8) by (right; right; right; reflexivity).
  destruct (vlen (c_vec v) =? 0) eqn:E0; [reflexivity|]. cbn [orb].
  destruct (v_addr (c_vec v) mod 8 =? 0) eqn:E1; [reflexivity|]. cbn [orb].
  assert (E2 : fst (reserve_a v 7 a) = if vlen (c_vec v) + 7 <=? c_cap v then [] else [N.max (2 * c_cap v) (vlen (c_vec v) + 7)]).
  { unfold reserve_a. destruct (c_cap v - vlen (c_vec v) <? 7) eqn:E.
    - replace (_ <=? _) with false by lia. cbn [after request quiet fst snd].
      replace (N.max (N.max (2 * c_cap v) (vlen (c_vec v) + 7)) 8) with (N.max (2 * c_cap v) (vlen (c_vec v) + 7)) by lia.
      replace (_ =? 0) with false by lia. reflexivity.
    - replace (_ <=? _) with true by lia. reflexivity. }
  unfold align_cold_a. rewrite fst_after, E2, <- app_nil_r. f_equal.
  destruct (snd (reserve_a v 7 a)) as [c|] eqn:Ec; [|reflexivity]. apply reserve_cap in Ec as [_ Hc].
  rewrite fst_after. cbn [quiet fst snd app]. destruct (offset_to_align h (c_vec c)) as [off|] eqn:Eo; [|reflexivity].
  apply offset_small in Eo. rewrite fst_after, reserve_enough by lia. cbn [app].
  destruct (snd (reserve_a c off a)) as [c'|]; [|reflexivity]. rewrite fst_after. cbn [quiet fst snd app].
  destruct (rotate_right _ _); reflexivity.
Qed.
Lemma copy_asks h d a1 a2 : fst (owned_from_bytes_a h d a1 a2) = sp_copy (len d) a1.
Proof.
  change (len d) with (blen d). unfold owned_from_bytes_a, sp_copy. rewrite fst_after, snd_to_vec, room_asks. cbn [c_vec c_cap].
  destruct d as [|b d]; [reflexivity|]. remember (b :: d) as l eqn:El.
  assert (Hl : blen l <> 0) by (subst; unfold blen; cbn; lia).
  assert (Ev : to_vec l a1 = Vec a1 l) by (subst; reflexivity). rewrite Ev. unfold vlen. cbn [v_data v_addr].
  unfold to_vec_a. rewrite fst_after. cbn [request quiet fst snd]. unfold sp_room.
  replace (blen l =? 0) with false by lia. cbn [orb app]. destruct (a1 mod 8 =? 0); [reflexivity|].
  cbn [orb]. replace (blen l + 7 <=? blen l) with false by lia. reflexivity.
Qed.
Lemma str_asks s a : fst (from_str_unchecked_a s a) = [blen s + 1].
Proof.
  unfold from_str_unchecked_a. rewrite fst_after. cbn [request fst snd]. replace (blen s + 1 =? 0) with false by lia.
  rewrite fst_after, reserve_enough by (unfold vlen; cbn [c_cap c_vec v_data]; change (blen []) with 0; lia). cbn [app].
  destruct (snd (reserve_a _ _ _)) as [c|] eqn:E; [|reflexivity]. unfold reserve_a in E.
  cbn [c_cap c_vec] in E. unfold vlen in E. cbn [v_data] in E. change (blen []) with 0 in E.
  replace (blen s + 1 - 0 <? blen s) with false in E by lia. cbn [quiet snd] in E. injection E as <-.
  rewrite fst_after, reserve_enough by (unfold vlen; cbn [c_cap c_vec v_data app]; lia). cbn [app].
  destruct (snd (reserve_a _ _ _)); reflexivity.
Qed.
Lemma own_asks h t s a3 a4 : usable t -> (s_data s <> [] -> aligned (align_of t) s) ->
  fst (let? r := quiet (cast h t s) in to_owned_a h t r a3 a4) = sp_owning t (s_data s) a3.
Proof.
  intros Hu Ha. rewrite fst_after. cbn [quiet fst snd app]. unfold sp_owning. rewrite sp_size_of.
  destruct (size_of t) as [n|] eqn:En.
  { destruct (cast h t s); [|reflexivity]. unfold to_owned_a. now rewrite En. }
  destruct (sp_fixed_array t) eqn:Ef.
  - destruct (fixed_array_size t Ef) as (x & n & -> & Ex). rewrite sp_size_of, Ex.
    assert (Eo : forall r, fst (to_owned_a h (TA x) r a3 a4) = if slen r =? 0 then [] else [slen r]).
    { intros r. unfold to_owned_a. cbn [size_of]. unfold is_fixed. rewrite Ex. rewrite fst_after. cbn [request quiet fst snd].
      now rewrite app_nil_r. }
    change (len (s_data s)) with (slen s). destruct (slen s =? 0) eqn:E0.
    + cbn [orb]. destruct (cast h (TA x) s) as [r|] eqn:Ec; [|reflexivity]. rewrite Eo.
      assert (slen r = 0); [|now replace (slen r =? 0) with true by lia].
      unfold cast, from_aligned_slice, try_from_aligned_slice in Ec. cbn [size_of] in Ec. rewrite Ex in Ec.
      pose proof (usable_part _ x (or_introl eq_refl) Hu) as Hx.
      rewrite (mem_layout_ok x n) in Ec by (auto; apply Hx). unfold cast_slice in Ec.
      pose proof (proj1 (size_of_props _ _ Ex)) as Hn.
      replace (slen s mod n =? 0) with true in Ec by (replace (slen s) with 0 by lia; rewrite N.mod_0_l by lia; reflexivity).
      repeat match type of Ec with context [if ?c then _ else _] => destruct c end; cbn [bind] in Ec; try discriminate;
        injection Ec as <-; lia.
    + cbn [orb]. assert (Hal : aligned (align_of (TA x)) s) by (apply Ha; intros E; unfold slen in E0; rewrite E in E0; discriminate E0).
      destruct (cast_ok h (TA x) s (proj1 Hu) Hal) as (r & -> & _ & Hd & _). rewrite Eo. unfold slen at 1 2. rewrite Hd.
      unfold seen_bytes. fold (slen s). destruct (size_good_dec (TA x) (slen s)) as [Hg|Hg]; unfold size_good in Hg; cbn [size_of] in Hg; rewrite Ex in Hg.
      * fold (slen s). rewrite E0. replace (slen s mod n =? 0) with true by lia. reflexivity.
      * replace (slen s mod n =? 0) with false by lia. cbn [negb]. reflexivity.
  - rewrite cast_var by assumption. unfold to_owned_a. rewrite En.
    assert (Eo : fst (let? b := owned_from_bytes_a h (s_data s) a3 a4 in quiet (Ok (OBuf (c_vec b)))) = sp_copy (len (s_data s)) a3).
    { rewrite fst_after, copy_asks. destruct (snd _); apply app_nil_r. }
    destruct t as [| | | | | | | | | | | | |x|x|ts|k v]; try discriminate; try exact Eo;
      try (rewrite fst_after, str_asks, snd_str, to_str_spec; reflexivity).
    cbn [sp_fixed_array] in Ef. rewrite sp_size_of in *. unfold is_fixed. destruct (size_of x); [discriminate|exact Eo].
Qed.
Lemma from_bytes_asks h t data a1 a2 a3 a4 : usable t -> a1 + 8 < 2 ^ 64 -> a2 + 8 < 2 ^ 64 ->
  fst (from_bytes_a h t data a1 a2 a3 a4) =
  (if s_addr data mod sp_align t =? 0 then [] else sp_copy (len (s_data data)) a1) ++ sp_owning t (s_data data) a3.
Proof.
  intros Hu H1 H2. unfold from_bytes_a. rewrite fst_after, snd_copy, trait_align_of, sp_align_of.
  destruct (copy_to_align_ok h (align_of t) data a1 a2 (align_of_alignment t) H1 H2) as (c & s & -> & Ec & Hd & Ha & _).
  rewrite fst_after. cbn [quiet fst snd app]. rewrite Ec. rewrite own_asks by (auto; intros H; apply Ha; congruence). rewrite Hd. f_equal.
  unfold copy_to_align_a, is_aligned. destruct (s_addr data mod align_of t =? 0); [destruct (try_as_aligned _ _ _); reflexivity|].
  rewrite <- (copy_asks h (s_data data) a1 a2). unfold owned_from_bytes_a. rewrite !fst_after, snd_to_vec. f_equal.
  rewrite fst_after. destruct (snd _); apply app_nil_r.
Qed.
Lemma deserialize_asks h t v a2 a3 a4 : usable t -> v_addr (c_vec v) + 8 < 2 ^ 64 -> a2 + 8 < 2 ^ 64 ->
  fst (deserialize_a h t v a2 a3 a4) =
  sp_room (len (v_data (c_vec v))) (c_cap v) (v_addr (c_vec v)) ++ sp_owning t (v_data (c_vec v)) a3.
Proof.
  intros Hu H1 H2. unfold deserialize_a. rewrite fst_after, room_asks. change (len (v_data (c_vec v))) with (vlen (c_vec v)). f_equal.
  pose proof (snd_align h v a2) as Es. destruct (vec_align_spec h (c_vec v) a2 H2 H1) as (b & Eb & Hh & Hg).
  unfold buf_from_vec in Es. rewrite Eb in Es. destruct (snd (buf_from_vec_a h v a2)) as [b'|]; [|discriminate].
  cbn [bind] in Es. injection Es as ->. destruct (buf_deref_ok h b (v_data (c_vec v)) Hh Hg) as (s & E & Hd & Ha & _).
  rewrite fst_after. cbn [quiet fst snd app]. rewrite E, fst_after. cbn [quiet fst snd app]. rewrite as_aligned_8.
  rewrite own_asks; auto; [now rewrite Hd|]. intros H. apply aligned_8, Ha. congruence.
Qed.

(** ** Bounds *)
Lemma total_app a b : sp_total (a ++ b) = sp_total a + sp_total b.
Proof. induction a as [|x a IH]; [reflexivity|]. cbn [app]. unfold sp_total in *. cbn [fold_right]. rewrite IH. lia. Qed.
Lemma copy_total n a : sp_total (sp_copy n a) <= 3 * n + 7 /\
  (a mod 8 = 0 -> sp_total (sp_copy n a) = n /\ (length (sp_copy n a) <= 1)%nat).
Proof.
  unfold sp_copy, sp_total. destruct (n =? 0) eqn:E; [cbn [fold_right length]; lia|].
  destruct (a mod 8 =? 0) eqn:E2; cbn [fold_right length]; lia.
Qed.
Lemma string_small d : len (sp_string d) + 1 <= N.max 1 (len d).
Proof.
  unfold sp_string. destruct d as [|x d]; [cbn; lia|]. destruct (_ && _); [|unfold len; cbn [length]; lia].
  pose proof (app_removelast_last x00 (l := x :: d)) as E. specialize (E ltac:(discriminate)).
  apply (f_equal (@length byte)) in E. rewrite app_length in E. cbn [length] in E. unfold len. cbn [length]. lia.
Qed.
Lemma owning_total t d a : sp_total (sp_owning t d a) <= 3 * N.max 1 (len d) + 7 /\
  (a mod 8 = 0 -> sp_total (sp_owning t d a) <= N.max 1 (len d) /\ (length (sp_owning t d a) <= 1)%nat).
Proof.
  pose proof (copy_total (len d) a) as [H1 H2]. pose proof (string_small d) as H3. unfold sp_owning.
  assert (H0 : sp_total [] = 0) by reflexivity.
  assert (Hc : forall n, sp_total [n] = n) by (intros; unfold sp_total; cbn [fold_right]; lia).
  destruct (sp_size t); [rewrite H0; cbn [length]; lia|].
  destruct t as [| | | | | | | | | | | | |x|x|ts|k v]; try (rewrite Hc; cbn [length]; lia);
    try (split; [lia|]; intros Ha; specialize (H2 Ha); lia).
  destruct (sp_size x); [|split; [lia|]; intros Ha; specialize (H2 Ha); lia].
  destruct (_ || _); [rewrite H0|rewrite Hc]; cbn [length]; lia.
Qed.
Lemma from_bytes_bound h t data a1 a2 a3 a4 : usable t -> a1 + 8 < 2 ^ 64 -> a2 + 8 < 2 ^ 64 ->
  let n := N.max 1 (len (s_data data)) in
  let asked := fst (from_bytes_a h t data a1 a2 a3 a4) in
  sp_total asked <= 6 * n + 14 /\
  (a1 mod 8 = 0 -> a3 mod 8 = 0 -> sp_total asked <= 2 * n /\ (length asked <= 2)%nat) /\
  (a3 mod 8 = 0 -> s_addr data mod sp_align t = 0 -> sp_total asked <= n /\ (length asked <= 1)%nat).
Proof.
  intros Hu H1 H2 n asked. subst asked. rewrite from_bytes_asks by assumption. rewrite total_app, app_length.
  destruct (copy_total (len (s_data data)) a1) as [C1 C2]. destruct (owning_total t (s_data data) a3) as [O1 O2]. subst n.
  assert (H0 : sp_total [] = 0) by reflexivity.
  destruct (s_addr data mod sp_align t =? 0) eqn:E.
  - rewrite H0. cbn [length Nat.add]. split; [lia|]. split; [intros _ Ha|intros Ha _]; specialize (O2 Ha); lia.
  - split; [lia|]. split; [intros Ha Hb; specialize (C2 Ha); specialize (O2 Hb); lia|]. intros _ Hc. apply N.eqb_neq in E. contradiction.
Qed.
Lemma deserialize_bound h t v a2 a3 a4 : usable t -> v_addr (c_vec v) + 8 < 2 ^ 64 -> a2 + 8 < 2 ^ 64 ->
  let n := N.max 1 (len (v_data (c_vec v))) in
  let asked := fst (deserialize_a h t v a2 a3 a4) in
  sp_total asked <= 4 * n + 2 * c_cap v + 14 /\
  (v_addr (c_vec v) mod 8 = 0 -> a3 mod 8 = 0 -> sp_total asked <= n /\ (length asked <= 1)%nat).
Proof.
  intros Hu H1 H2 n asked. subst asked. rewrite deserialize_asks by assumption. rewrite total_app, app_length.
  destruct (owning_total t (v_data (c_vec v)) a3) as [O1 O2]. subst n.
  assert (H0 : sp_total [] = 0) by reflexivity.
  assert (Hc : forall n, sp_total [n] = n) by (intros; unfold sp_total; cbn [fold_right]; lia).
  unfold sp_room. split.
  - destruct (_ || _); [rewrite H0|rewrite Hc]; lia.
  - intros Ha Hb. specialize (O2 Hb). rewrite Ha. cbn [N.eqb]. rewrite orb_true_r. cbn [orb]. rewrite H0. cbn [length Nat.add]. lia.
Qed.
