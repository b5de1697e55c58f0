(** Indexing arrays of variable-size elements without overflow checks: C51. *)
From Verif Require Import Base Types Layout AlignedBytes Strs Spec Deser Histories BaseFacts LayoutFacts AlignedFacts DeserFacts ArrayFacts ReadClaims.
From Coq Require Import Lia ZifyBool ZifyNat ZifyN.
Ltac Zify.zify_post_hook ::= idtac.

Section NoChecks.
  Variable h : host.
  Hypothesis H0 : h_overflow_checks h = false.

  Lemma nowrap_uadd a b : exists c, uadd h a b = Ok c.
  Proof. unfold uadd. rewrite H0. destruct (_ <? _); eauto. Qed.
  Lemma read_uint_crash d o i c : read_uint h d o i = Crash c -> c = PIndex.
  Proof.
    unfold read_uint, umul. rewrite H0.
    destruct (if i * osz_n o <? usize_lim then Ok (i * osz_n o) else Ok ((i * osz_n o) mod usize_lim)) as [m|e] eqn:E;
      [|destruct (_ <? _); discriminate].
    cbn [bind]. clear E. assert (R : forall k, (let* e := uadd h m k in let* b := bs_range d m e in Ok (of_le b)) = Crash c -> c = PIndex).
    { intros k. destruct (nowrap_uadd m k) as (e & ->). cbn [bind]. unfold bs_range. destruct (_ && _); cbn [bind]; congruence. }
    destruct o; [discriminate| |apply R|apply R|apply R]. unfold bs_at. destruct (_ <? _); [destruct (nth_error _ _)|]; cbn [bind]; congruence.
  Qed.
  Lemma read_uint_beyond d o i : o <> U0 -> blen d < i * osz_n o + osz_n o -> i * osz_n o < usize_lim ->
    read_uint h d o i = Crash PIndex.
  Proof.
    intros Ho H1 H2. destruct (read_uint_oob h d o i Ho H1 H2) as (c & E & _). rewrite E. f_equal. now apply read_uint_crash in E.
  Qed.
  (** The product wraps around. *)
  Lemma read_uint_wraps d o m i : o <> U0 -> m * osz_n o = usize_lim -> read_uint h d o i = read_uint h d o (i mod m).
  Proof.
    intros Ho Hm. unfold read_uint. replace (umul h i (osz_n o)) with (umul h (i mod m) (osz_n o)); [reflexivity|].
    assert (Hp : 0 < osz_n o) by (destruct o; cbn; try lia; congruence).
    assert (Hm0 : m <> 0) by (intros ->; discriminate Hm).
    assert (E : i mod m * osz_n o = (i * osz_n o) mod usize_lim).
    { rewrite <- Hm. symmetry. apply N.mul_mod_distr_r; lia. }
    assert (Hl : i mod m * osz_n o < usize_lim) by (rewrite E; apply N.mod_lt; discriminate).
    unfold umul. replace (i mod m * osz_n o <? usize_lim) with true by (symmetry; now apply N.ltb_lt).
    destruct (i * osz_n o <? usize_lim) eqn:L.
    - f_equal. rewrite E. apply N.mod_small. now apply N.ltb_lt.
    - rewrite H0, E. reflexivity.
  Qed.

  Lemma index_exactly x s i n : aligned (sp_align x) s -> len (s_data s) < 2 ^ 63 ->
    nfwa_len h s = Ok n -> n <= i -> i < 2 ^ 64 ->
    let j := i mod (2 ^ 64 / sp_width (len (s_data s))) in
    nfwa_index h x s i = if (0 <? j) && (j <? n) then nfwa_index h x s j else Crash PIndex.
  Proof.
    intros Ha Hl Hn Hni Hi j. change (len (s_data s)) with (blen (s_data s)) in *.
    assert (Hl' : slen s < usize_lim) by (unfold slen, usize_lim; lia). rewrite nfwa_len_ok in Hn by assumption.
    injection Hn as Hn. change (slen s) with (blen (s_data s)) in *.
    pose proof (arr_osz_pos (s_data s)) as Hp. pose proof (arr_lfo_mod (s_data s)) as Hm. pose proof (arr_lfo_le (s_data s)) as Hle.
    set (o := arr_osz (s_data s)) in *. set (d := drop (arr_lfo (s_data s)) (s_data s)).
    assert (Ho : o <> U0) by apply arr_osz_U0.
    assert (H4 : osz_n o = 1 \/ osz_n o = 2 \/ osz_n o = 4 \/ osz_n o = 8) by (destruct o; cbn; auto; congruence).
    assert (Hd : blen d = n * osz_n o) by (unfold d; rewrite blen_drop, Hm, <- Hn; reflexivity).
    assert (Hun : forall k, nfwa_index h x s k =
      let* end_ := read_uint h d o k in
      let* prev := (if k =? 0 then Ok 0 else let* i := usub h k 1 in read_uint h d o i) in
      let* start := align_offset h (trait_align x) prev in
      if (start <? slen s) && (end_ <=? arr_lfo (s_data s)) && (start <=? end_) then
        let* a := ix_to h (trait_align x) s end_ in
        let* b := ix_from_al h (trait_align x) a start in
        cast_unwrap h x b
      else let* e := empty_aligned h (trait_align x) in cast_unwrap h x e).
    { intros k. unfold nfwa_index. rewrite read_lfo_ok by assumption. cbn [bind fst snd].
      rewrite bs_from_ok by assumption. cbn [bind]. reflexivity. }
    destruct (N.eq_dec (blen (s_data s)) 0) as [Hz|Hz].
    { assert (Hn0 : n = 0).
      { assert (blen d = 0) by (unfold d; rewrite blen_drop; lia). destruct H4 as [E|[E|[E|E]]]; rewrite E in *; lia. }
      replace (j <? n) with false by (symmetry; apply N.ltb_ge; lia). rewrite andb_false_r.
      assert (Ho1 : o = U1) by (unfold o, arr_osz; rewrite Hz; reflexivity).
      rewrite Hun, read_uint_beyond; [reflexivity|assumption|rewrite Ho1; cbn [osz_n]; lia|rewrite Ho1; unfold usize_lim; cbn [osz_n]; lia]. }
    assert (Hw : osz_n o = sp_width (blen (s_data s))) by (unfold o; rewrite arr_osz_width by lia; reflexivity).
    set (m := 2 ^ 64 / sp_width (blen (s_data s))) in *.
    assert (Hmw : m * osz_n o = usize_lim).
    { unfold m. rewrite <- Hw. destruct o; try congruence; reflexivity. }
    assert (Hm0 : m <> 0) by (intros E; rewrite E in Hmw; discriminate Hmw).
    assert (Hj : j < m) by (now apply N.mod_lt).
    assert (Hdl : blen d <= blen (s_data s)) by (unfold d; rewrite blen_drop; lia).
    assert (Hnm : n + 1 < m) by (clearbody d m o j; unfold usize_lim in *; destruct H4 as [E|[E|[E|E]]]; rewrite E in *; lia).
    destruct (N.eq_dec j 0) as [Hj0|Hj0].
    { rewrite Hj0. cbn [N.ltb andb]. change (0 <? 0) with false. cbn [andb]. rewrite Hun.
      destruct (read_uint h d o i) as [e|c] eqn:E; [|apply read_uint_crash in E; subst c; reflexivity]. cbn [bind].
      destruct (N.eq_dec i 0) as [Hi0|Hi0].
      - exfalso. rewrite Hi0 in E. rewrite read_uint_beyond in E; [discriminate|assumption|destruct H4 as [E4|[E4|[E4|E4]]]; rewrite E4 in *; lia|unfold usize_lim; lia].
      - replace (i =? 0) with false by (symmetry; now apply N.eqb_neq). unfold usub.
        replace (1 <=? i) with true by (symmetry; apply N.leb_le; lia). cbn [bind].
        rewrite (read_uint_wraps d o m) by assumption.
        replace ((i - 1) mod m) with (m - 1).
        + rewrite read_uint_beyond; [reflexivity|assumption| |]; clearbody d m o j; unfold usize_lim in *; destruct H4 as [E4|[E4|[E4|E4]]]; rewrite E4 in *; lia.
        + unfold j in Hj0. apply N.mod_divide in Hj0; [|assumption]. destruct Hj0 as (q & Hq).
          apply (N.mod_unique _ _ (q - 1)); [lia|]. assert (Hq1 : q = N.succ (q - 1)) by (destruct q; lia).
          rewrite Hq, Hq1 at 1. rewrite N.mul_succ_l. lia. }
    replace (0 <? j) with true by (symmetry; apply N.ltb_lt; lia). cbn [andb].
    destruct (j <? n) eqn:Ejn.
    - rewrite (Hun i), (Hun j). rewrite (read_uint_wraps d o m i) by assumption. fold j.
      assert (Hi0 : i <> 0) by (intros ->; unfold j in Hj0; rewrite N.mod_0_l in Hj0 by assumption; lia).
      replace (i =? 0) with false by (symmetry; now apply N.eqb_neq).
      replace (j =? 0) with false by (symmetry; now apply N.eqb_neq). unfold usub.
      replace (1 <=? i) with true by (symmetry; apply N.leb_le; lia).
      replace (1 <=? j) with true by (symmetry; apply N.leb_le; lia). cbn [bind].
      rewrite (read_uint_wraps d o m (i - 1)) by assumption.
      replace ((i - 1) mod m) with (j - 1); [reflexivity|].
      pose proof (N.div_mod i m Hm0) as Hdm. fold j in Hdm. apply (N.mod_unique _ _ (i / m)); lia.
    - apply N.ltb_ge in Ejn. rewrite Hun, (read_uint_wraps d o m i) by assumption. fold j.
      rewrite read_uint_beyond; [reflexivity|assumption| |]; clearbody d m o j; unfold usize_lim in *; destruct H4 as [E4|[E4|[E4|E4]]]; rewrite E4 in *; lia.
  Qed.
End NoChecks.
