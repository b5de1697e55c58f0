(** Running the emitted accessors: proofs. *)
From Coq Require Import Lia.
From Verif Require Import Base Types Layout Spec MarkerSpec TableSpec LexSpec TextSpec BaseFacts AlignedBytes TypesFacts LayoutFacts StructFacts Deser DeserFacts Histories ReadFacts AccessFacts MoveFacts ReadClaims Ser Marker Gen GenFacts GenClaims GenMain SerSpec SerClaims Run EqFacts Mut MutFacts EmptyFacts EncFacts.

Lemma run_the_calls h al x nfo : forall children rows, length rows = length children ->
  run_calls h al x children (the_calls nfo children rows) = nonfixed_refs h al nfo x children rows.
Proof.
  induction children as [|c cs IH]; intros [|[[[i a] b] k] rows] Hl; try discriminate; [reflexivity|].
  cbn [the_calls run_calls nonfixed_refs]. unfold run_call. cbn [c_b c_i c_a c_c c_size c_last c_offsets].
  destruct (as_aligned al (trait_align c) x); [|reflexivity]. cbn [bind].
  rewrite IH by (cbn in Hl; lia). reflexivity.
Qed.
Lemma read_each_mapM h : forall ts rs, read_each h ts rs = mapM (fun p => read h (fst p) (snd p)) (combine ts rs).
Proof.
  induction ts as [|t ts IH]; intros [|r rs]; try reflexivity. cbn [read_each combine mapM fst snd]. now rewrite IH.
Qed.
Lemma run_variable h s text its x : sp_is_struct s = true -> sp_size s = None -> tuple_text s = Some text -> code text = Some its ->
  exists nm al calls, fields_of its = Some (nm, [Bytes al]) /\ calls_of its = Some calls /\
    run_calls h al x (sp_components s) calls = to_tuple h s x.
Proof.
  intros Hst Hn Ht Hc. destruct (var_claim s text its Hn Ht Hc) as (Ef & _ & _ & Ec & _).
  eexists _, _, _. split; [exact Ef|]. split; [exact Ec|]. rewrite comps_children by assumption.
  rewrite run_the_calls by apply table_length. rewrite sp_size_of in Hn. unfold to_tuple. rewrite Hn, sp_align_of. reflexivity.
Qed.
Lemma run_refs_from x : forall ps sizes pp zz, length pp = length zz -> length ps = length sizes ->
  run_refs x (pp ++ ps) (zz ++ sizes) (map N.of_nat (seq (length pp) (length ps))) =
  Some (map (fun q => Slice (s_addr x + fst q) (take (snd q) (drop (fst q) (s_data x)))) (combine ps sizes)).
Proof.
  induction ps as [|p ps IH]; intros [|z sizes] pp zz Hl Hl2; try discriminate; [reflexivity|].
  cbn [length seq map run_refs]. unfold run_ref. rewrite Nnat.Nat2N.id.
  rewrite !nth_error_app2 by lia. rewrite <- Hl, Nat.sub_diag. cbn [nth_error].
  specialize (IH sizes (pp ++ [p]) (zz ++ [z])). rewrite <- !app_assoc in IH. cbn [app] in IH.
  rewrite app_length in IH. cbn [length] in IH. rewrite Nat.add_1_r in IH. cbn [length] in Hl2.
  rewrite IH by (rewrite ?app_length; cbn [length]; lia). reflexivity.
Qed.
Lemma field_refs_spec x : forall offs lays, length offs = length lays ->
  field_refs x offs lays = Crash UBMisaligned \/
  field_refs x offs lays = Ok (map (fun q => Slice (s_addr x + fst q) (take (snd q) (drop (fst q) (s_data x)))) (combine offs (map fst lays))).
Proof.
  induction offs as [|o offs IH]; intros [|[z a] lays] Hl; try discriminate; [now right|].
  cbn [field_refs field_ref map fst combine snd]. destruct (_ =? 0); [|now left]. cbn [bind].
  destruct (IH lays ltac:(cbn in Hl; lia)) as [-> | ->]; [now left|now right].
Qed.
Lemma sp_field_offsets_length its : forall pos, length (sp_field_offsets pos its) = length its.
Proof. induction its as [|[a z] its IH]; intros pos; cbn [sp_field_offsets length]; [reflexivity|]. now rewrite IH. Qed.
Lemma run_fixed h s n szs text its x : usable s -> sp_is_struct s = true -> sp_size s = Some n ->
  map sp_size (sp_components s) = map Some szs -> tuple_text s = Some text -> code text = Some its ->
  aligned (sp_align s) x -> len (s_data x) = n ->
  exists nm fields ns ps rs, fields_of its = Some (nm, fields) /\ refs_of its = Some ns /\ positions 0 szs fields = Some (ps, n) /\
    run_refs x ps szs ns = Some rs /\ to_tuple h s x = Ok rs.
Proof.
  intros Hu Hst Hn Hz Ht Hc Ha Hl. destruct (fields_claim s n szs text its Hst Hn Hz Ht Hc) as (fields & types & F1 & _ & _ & _ & F2 & _).
  destruct (fixed_claim s n text its Hst Hn Ht Hc) as (_ & _ & _ & _ & _ & F3 & _).
  pose proof Hu as [Hm Hlen]. rewrite type_len_show in Hlen. rewrite sp_align_of in Ha.
  assert (Hs : is_struct s) by (destruct s; try discriminate; exact I).
  pose proof (fixed_items_sp _ _ Hz) as Hi. rewrite Hi in F2. rewrite comps_children in * by assumption. rewrite sp_size_of in Hn.
  assert (Hlz : length szs = length (children_of s)) by (rewrite <- (map_length Some), <- Hz; apply map_length).
  assert (Hsz : map fst (declared (children_of s)) = szs).
  { clear -Hz. revert szs Hz. unfold declared. induction (children_of s) as [|c cs IH]; intros [|z szs] Hz; try discriminate; [reflexivity|].
    cbn [map] in *. injection Hz as Hz1 Hz2. rewrite (IH szs Hz2). cbn [fst]. unfold size_or_0. rewrite sp_size_of in Hz1. now rewrite Hz1. }
  assert (Hlp : length (sp_field_offsets 0 (fixed_items (children_of s))) = length (children_of s)).
  { rewrite sp_field_offsets_length. unfold fixed_items. apply map_length. }
  assert (Hr : read h s x = outcome (h_big_endian h) s (s_data x)).
  { apply read_exact; auto; [|left; unfold is_fixed; now rewrite Hn]. split; [assumption|]. unfold size_good, slen. rewrite Hn. exact Hl. }
  assert (Ht2 : to_tuple h s x = field_refs x (sp_field_offsets 0 (fixed_items (children_of s))) (declared (children_of s))).
  { unfold to_tuple. now rewrite Hn, (field_offsets_ok s n), (fixed_layouts s n) by assumption. }
  destruct (field_refs_spec x (sp_field_offsets 0 (fixed_items (children_of s))) (declared (children_of s))) as [E|E].
  - unfold declared. now rewrite map_length.
  - exfalso. rewrite read_struct_any, Ht2, E in Hr by assumption. unfold outcome in Hr. cbn [bind] in Hr. destruct (sp_reads _ _); discriminate.
  - exists (bs "Structure" ++ struct_name s), fields, (map N.of_nat (seq 0 (length (children_of s)))), (sp_field_offsets 0 (fixed_items (children_of s))).
    eexists. split; [exact F1|]. split; [exact F3|]. split; [exact F2|].
    rewrite Ht2, E, Hsz. split; [|reflexivity].
    pose proof (run_refs_from x (sp_field_offsets 0 (fixed_items (children_of s))) szs [] [] eq_refl ltac:(lia)) as R. cbn [app length] in R.
    rewrite <- R. do 3 f_equal. now symmetry.
Qed.

(** ** The claims *)
Lemma variable_run h s text its x : sp_is_struct s = true -> sp_size s = None -> tuple_text s = Some text -> code text = Some its ->
  usable s -> aligned (sp_align s) x -> len (s_data x) < 2 ^ 32 ->
  exists nm al calls, fields_of its = Some (nm, [Bytes al]) /\ calls_of its = Some calls /\
    (let* rs := run_calls h al x (sp_components s) calls in let* vs := read_each h (sp_components s) rs in Ok (VTuple vs)) =
    if sp_reads s (Some (s_data x)) then Ok (sp_decode (h_big_endian h) s (Some (s_data x))) else Crash PUnwrap.
Proof.
  intros Hst Hn Ht Hc Hu Ha Hl. destruct (run_variable h s text its x Hst Hn Ht Hc) as (nm & al & calls & E1 & E2 & E3).
  exists nm, al, calls. split; [exact E1|]. split; [exact E2|]. rewrite E3.
  assert (Hs : is_struct s) by (destruct s; try discriminate; exact I). pose proof Hu as [Hm Hlen].
  pose proof (decode_claim h s x Hu Ha Hl) as D. unfold decode, cast, from_aligned_slice, try_from_aligned_slice in D.
  rewrite sp_size_of in Hn. rewrite Hn in D.
  assert (D' : read h s x = if sp_reads s (Some (s_data x)) then Ok (sp_decode (h_big_endian h) s (Some (s_data x))) else Crash PUnwrap).
  { destruct s; try discriminate; exact D. }
  rewrite <- D', read_struct_any by assumption. rewrite comps_children by assumption.
  destruct (to_tuple h s x) as [rs|]; [|reflexivity]. cbn [bind]. now rewrite read_each_mapM.
Qed.
Lemma fixed_run h s n szs text its x : sp_is_struct s = true -> sp_size s = Some n -> map sp_size (sp_components s) = map Some szs ->
  tuple_text s = Some text -> code text = Some its -> usable s -> aligned (sp_align s) x -> len (s_data x) = n ->
  exists nm fields ns ps rs vs, fields_of its = Some (nm, fields) /\ refs_of its = Some ns /\ positions 0 szs fields = Some (ps, n) /\
    run_refs x ps szs ns = Some rs /\ to_tuple h s x = Ok rs /\ read_each h (sp_components s) rs = Ok vs /\
    VTuple vs = sp_decode (h_big_endian h) s (Some (s_data x)).
Proof.
  intros Hst Hn Hz Ht Hc Hu Ha Hl. destruct (run_fixed h s n szs text its x Hu Hst Hn Hz Ht Hc Ha Hl) as (nm & fields & ns & ps & rs & E1 & E2 & E3 & E4 & E5).
  exists nm, fields, ns, ps, rs. assert (Hs : is_struct s) by (destruct s; try discriminate; exact I). pose proof Hu as [Hm Hlen].
  rewrite type_len_show in Hlen.
  assert (Hr : read h s x = outcome (h_big_endian h) s (s_data x)).
  { rewrite sp_align_of in Ha. rewrite sp_size_of in Hn. apply read_exact; auto; [|left; unfold is_fixed; now rewrite Hn].
    split; [assumption|]. unfold size_good, slen. rewrite Hn. exact Hl. }
  rewrite read_struct_any, E5 in Hr by assumption. cbn [bind] in Hr. rewrite <- read_each_mapM, <- comps_children in Hr by assumption.
  unfold outcome in Hr. destruct (read_each h (sp_components s) rs) as [vs|] eqn:E; cbn [bind] in Hr.
  - exists vs. destruct (sp_reads s _); [|discriminate]. injection Hr as Hr. repeat split; assumption.
  - exfalso. revert Hr. rewrite (sp_reads_fixed s n) by (rewrite <- sp_size_of; assumption). discriminate.
Qed.

(** ** Writing *)
Lemma sbind_ext {K A B} (m : M K A) (f g : A -> M K B) k : (forall a k', f a k' = g a k') -> (do a <- m; f a) k = (do a <- m; g a) k.
Proof. intros H. unfold sbind. destruct (m k) as [k' [a| |]]; auto. Qed.
Lemma put_at_set l : forall i (x : N), put_at l i x = set_nth l i x.
Proof. induction l as [|y l IH]; intros [|i] x; try reflexivity. cbn [put_at set_nth]. rewrite IH. now destruct set_nth. Qed.
Lemma run_stmts_cmds {K} {W : Write K} h ms : forall cmds, (forall i, In (CFrame i) cmds -> (0 <= i)%Z) ->
  forall off frames k, run_stmts h (map stmt_of cmds) ms off frames k = run_cmds h cmds ms off frames k.
Proof.
  induction cmds as [|c cmds IH]; intros Hf off frames k; [reflexivity|].
  assert (IH' : forall off frames k, run_stmts h (map stmt_of cmds) ms off frames k = run_cmds h cmds ms off frames k)
    by (intros; apply IH; intros i Hi; apply Hf; now right).
  destruct c as [n|n|al|n|n|i]; cbn [map stmt_of run_stmts run_cmds]; rewrite ?Nnat.Nat2N.id.
  - apply sbind_ext. auto.
  - apply sbind_ext. auto.
  - apply sbind_ext. intros p k'. apply sbind_ext. auto.
  - destruct (nth_error ms n); [|reflexivity]. apply sbind_ext. auto.
  - destruct (nth_error ms n); [|reflexivity]. apply sbind_ext. intros p k'. apply sbind_ext. auto.
  - assert (Hi : (0 <= i)%Z) by (apply Hf; now left). destruct (i <? 0)%Z eqn:E; [lia|].
    rewrite put_at_set. replace (N.to_nat (Z.to_N i)) with (Z.to_nat i) by lia. now destruct set_nth.
Qed.
Lemma variable_serialize {K} {W : Write K} h s text its ms k :
  sp_is_struct s = true -> sp_size s = None -> tuple_text s = Some text -> code text = Some its ->
  exists n l, statements_of its = Some (n, l) /\ run_serialize h n l ms k = ser_struct h s ms k.
Proof.
  intros Hst Hn Ht Hc. destruct (var_claim s text its Hn Ht Hc) as (_ & _ & _ & _ & Es).
  eexists _, _. split; [exact Es|]. rewrite sp_size_of in Hn. unfold ser_struct, run_serialize. rewrite Hn. unfold sbind at 1 2.
  rewrite run_stmts_cmds; [reflexivity|]. intros i Hi. eapply frames_pos; [exact Hi|]. rewrite n_frame_offsets_spec. lia.
Qed.
Lemma packed_frames pads : forall n final i, ~ In (CFrame i) (packed_cmds n pads final).
Proof.
  induction pads as [|p pads IH]; intros n final i; cbn [packed_cmds].
  - destruct (0 <? final); cbn; intuition discriminate.
  - intros H. apply in_app_or in H as [H|[H|H]]; [destruct (0 <? p); cbn in H; intuition discriminate|discriminate|eapply IH; exact H].
Qed.
Lemma fixed_serialize {K} {W : Write K} h s n text its ms k : macro_ok s = true ->
  sp_is_struct s = true -> sp_size s = Some n -> tuple_text s = Some text -> code text = Some its ->
  exists l, fixed_statements_of its = Some (l, [Leaf (Ident (bs "Structure" ++ struct_name s))]) /\
    run_serialize_fixed h n l ms k = ser_struct h s ms k.
Proof.
  intros Hm Hst Hn Ht Hc. destruct (fixed_claim s n text its Hst Hn Ht Hc) as (_ & _ & _ & _ & _ & _ & _ & _ & Es).
  eexists. split; [exact Es|]. pose proof (mem_layout_ok s n) as El. rewrite sp_size_of in Hn.
  assert (Hs : is_struct s) by (destruct s; try discriminate; exact I).
  unfold ser_struct, run_serialize_fixed. rewrite Hn, El by assumption.
  assert (Ep : packed_struct s = Some (walk_pads 0 (fixed_items (children_of s)), n - walk_end 0 (fixed_items (children_of s)))).
  { pose proof (packed_struct_exact s n Hs Hn) as E. destruct (struct_exact s) eqn:Ex; [exact E|].
    rewrite macro_ok_struct in Hm by assumption. apply andb_true_iff in Hm as [_ Hm].
    rewrite struct_macro_ok_exact in Hm by assumption. unfold is_fixed in Hm. rewrite Hn, Ex in Hm. discriminate. }
  rewrite Ep. unfold sbind. rewrite run_stmts_cmds; [reflexivity|]. intros i Hi. now apply packed_frames in Hi.
Qed.

Lemma ser_tuple {K} {W : Write K} h t rs k : sp_is_struct t = true -> length (sp_components t) = length rs ->
  ser h (RTuple rs) t k = ser_struct h t (map (fun p => ser h (fst p) (snd p)) (combine rs (sp_components t))) k.
Proof.
  intros Hst Hl. rewrite comps_children in * by assumption.
  assert (E : (fix go (rs : list rval) (ts : list ty) : list (M K N) :=
              match rs, ts with
              | r :: rs', t :: ts' => ser h r t :: go rs' ts'
              | _, _ => []
              end) rs (children_of t) = map (fun p => ser h (fst p) (snd p)) (combine rs (children_of t))).
  { clear Hl. generalize (children_of t). clear t Hst. induction rs as [|r rs IH]; intros [|t ts]; try reflexivity.
    cbn [combine map fst snd]. now rewrite <- IH. }
  rewrite <- E. apply Nat.eqb_eq in Hl.
  destruct t; try discriminate; cbn [ser]; cbv zeta; rewrite Hl; reflexivity.
Qed.
Lemma struct_typed t rs : sp_is_struct t = true -> rtyped t (RTuple rs) -> length (sp_components t) = length rs.
Proof.
  destruct t; try discriminate; intros _ H; cbn [sp_components]; cbn [rtyped] in H.
  - revert rs H. induction ts as [|t ts IH]; intros [|r rs] H; try contradiction; [reflexivity|]. cbn [length]. f_equal. apply IH, H.
  - destruct rs as [|a [|b [|c rs]]]; try contradiction. reflexivity.
Qed.
Lemma variable_written h s text its rs budget :
  sp_is_struct s = true -> sp_size s = None -> tuple_text s = Some text -> code text = Some its ->
  usable s -> rtyped s (RTuple rs) -> no_nuls s (RTuple rs) ->
  let bytes := sp_written (h_big_endian h) s (rvalue true (h_big_endian h) s (RTuple rs)) in len bytes < 2 ^ 63 ->
  exists n l, statements_of its = Some (n, l) /\
    run_serialize h n l (map (fun p => ser h (fst p) (snd p)) (combine rs (sp_components s))) (Sink [] budget) =
    sp_deliver budget bytes (SOk (len bytes)).
Proof.
  intros Hst Hn Ht Hc Hu Hr Hz bytes Hl.
  destruct (variable_serialize h s text its (map (fun p => ser h (fst p) (snd p)) (combine rs (sp_components s))) (Sink [] budget) Hst Hn Ht Hc) as (n & l & E1 & E2).
  exists n, l. split; [exact E1|]. rewrite E2, <- ser_tuple by auto using struct_typed. exact (ser_claim h s (RTuple rs) budget Hu Hr Hz Hl).
Qed.
Lemma fixed_written h s n text its rs budget :
  sp_is_struct s = true -> sp_size s = Some n -> tuple_text s = Some text -> code text = Some its ->
  usable s -> rtyped s (RTuple rs) -> no_nuls s (RTuple rs) ->
  let bytes := sp_written (h_big_endian h) s (rvalue true (h_big_endian h) s (RTuple rs)) in len bytes < 2 ^ 63 ->
  exists l nm, fixed_statements_of its = Some (l, nm) /\
    run_serialize_fixed h n l (map (fun p => ser h (fst p) (snd p)) (combine rs (sp_components s))) (Sink [] budget) =
    sp_deliver budget bytes (SOk (len bytes)).
Proof.
  intros Hst Hn Ht Hc Hu Hr Hz bytes Hl.
  destruct (fixed_serialize h s n text its (map (fun p => ser h (fst p) (snd p)) (combine rs (sp_components s))) (Sink [] budget) (proj1 Hu) Hst Hn Ht Hc) as (l & E1 & E2).
  exists l. eexists. split; [exact E1|]. rewrite E2, <- ser_tuple by auto using struct_typed. exact (ser_claim h s (RTuple rs) budget Hu Hr Hz Hl).
Qed.

(** ** Comparing *)
Fixpoint eq_members (h : host) (ts : list ty) (xs ys : list slice) : res bool :=
  match ts, xs, ys with
  | t :: ts, x :: xs, y :: ys => let* e := gv_eq h t x y in if e then eq_members h ts xs ys else Ok false
  | _, _, _ => Ok true
  end.
Lemma gv_eq_members h s a b ra rb : sp_is_struct s = true -> to_tuple h s a = Ok ra -> to_tuple h s b = Ok rb ->
  length ra = length (sp_components s) -> length rb = length (sp_components s) ->
  gv_eq h s a b = eq_members h (sp_components s) ra rb.
Proof.
  intros Hst Ea Eb Hla Hlb. destruct s as [ | | | | | | | | | | | | | | |ts|k v]; try discriminate; cbn [gv_eq sp_components] in *; rewrite Ea, Eb; cbn [bind].
  - clear. revert ra rb. induction ts as [|t ts IH]; intros [|x ra] [|y rb]; try reflexivity. cbn [eq_members].
    destruct (gv_eq h t x y) as [[|]|]; cbn [bind]; auto.
  - destruct ra as [|ka [|va [|]]]; try discriminate. destruct rb as [|kb [|vb [|]]]; try discriminate. cbn [eq_members].
    destruct (gv_eq h k ka kb) as [[|]|]; cbn [bind]; auto. destruct (gv_eq h v va vb) as [[|]|]; reflexivity.
Qed.
Lemma run_refs_length x ps sizes : forall ns rs, run_refs x ps sizes ns = Some rs -> length rs = length ns.
Proof.
  induction ns as [|n ns IH]; intros rs E; cbn [run_refs] in E; [now injection E as <-|].
  destruct (run_ref x ps sizes n); [|discriminate]. destruct (run_refs x ps sizes ns); [|discriminate]. injection E as <-.
  cbn [length]. now rewrite (IH _ eq_refl).
Qed.
Lemma run_eq_members h x y ps sizes : forall ts pre ra rb,
  run_refs x ps sizes (map N.of_nat (seq (length pre) (length ts))) = Some ra ->
  run_refs y ps sizes (map N.of_nat (seq (length pre) (length ts))) = Some rb ->
  run_eq h (pre ++ ts) x y ps sizes (map N.of_nat (seq (length pre) (length ts))) = eq_members h ts ra rb.
Proof.
  induction ts as [|t ts IH]; intros pre ra rb Ea Eb; cbn [length seq map run_refs run_eq] in *.
  - injection Ea as <-. reflexivity.
  - destruct (run_ref x ps sizes _) as [a|]; [|discriminate]. destruct (run_ref y ps sizes _) as [b|]; [|discriminate].
    destruct (run_refs x ps sizes _) as [ra'|] eqn:Ea2; [|discriminate]. destruct (run_refs y ps sizes _) as [rb'|] eqn:Eb2; [|discriminate].
    injection Ea as <-. injection Eb as <-. rewrite Nnat.Nat2N.id, nth_error_app2, Nat.sub_diag by lia. cbn [nth_error eq_members].
    destruct (gv_eq h t a b) as [[|]|]; cbn [bind]; try reflexivity.
    specialize (IH (pre ++ [t]) ra' rb'). rewrite <- app_assoc, app_length in IH. cbn [app length] in IH. rewrite Nat.add_1_r in IH. auto.
Qed.
Lemma fixed_eq h s n szs text its x y : sp_is_struct s = true -> sp_size s = Some n -> map sp_size (sp_components s) = map Some szs ->
  tuple_text s = Some text -> code text = Some its -> usable s ->
  aligned (sp_align s) x -> len (s_data x) = n -> aligned (sp_align s) y -> len (s_data y) = n ->
  exists nm fields ns ps, fields_of its = Some (nm, fields) /\ equality_of its = Some ns /\ positions 0 szs fields = Some (ps, n) /\
    run_eq h (sp_components s) x y ps szs ns = gv_eq h s x y /\
    gv_eq h s x y = Ok (sp_veq (sp_decode (h_big_endian h) s (Some (s_data x))) (sp_decode (h_big_endian h) s (Some (s_data y)))).
Proof.
  intros Hst Hn Hz Ht Hc Hu Hx Hlx Hy Hly.
  destruct (run_fixed h s n szs text its x Hu Hst Hn Hz Ht Hc Hx Hlx) as (nm & fields & ns & ps & ra & E1 & E2 & E3 & E4 & E5).
  destruct (run_fixed h s n szs text its y Hu Hst Hn Hz Ht Hc Hy Hly) as (nm' & fields' & ns' & ps' & rb & E1' & E2' & E3' & E4' & E5').
  rewrite E1 in E1'. injection E1' as <- <-. rewrite E2 in E2'. injection E2' as <-. rewrite E3 in E3'. injection E3' as <-.
  destruct (fixed_members s n text its Hst Hn Ht Hc) as (F1 & F2 & _). rewrite E2 in F1. injection F1 as ->.
  exists nm, fields. eexists _, ps. split; [exact E1|]. split; [exact F2|]. split; [exact E3|]. split.
  - rewrite (gv_eq_members h s x y ra rb); auto.
    + exact (run_eq_members h x y ps szs (sp_components s) [] ra rb E4 E4').
    + rewrite (run_refs_length _ _ _ _ _ E4). now rewrite map_length, seq_length.
    + rewrite (run_refs_length _ _ _ _ _ E4'). now rewrite map_length, seq_length.
  - pose proof Hu as [Hm Hlen]. rewrite type_len_show in Hlen. rewrite sp_align_of in *. pose proof Hn as Hn'. rewrite sp_size_of in Hn.
    assert (R : forall z, aligned (align_of s) z -> len (s_data z) = n -> ref_ok s z /\ read h s z = Ok (sp_decode (h_big_endian h) s (Some (s_data z)))).
    { intros z Hz1 Hz2. assert (Hr : ref_ok s z) by (split; [assumption|]; unfold size_good, slen; rewrite Hn; exact Hz2). split; [assumption|].
      rewrite read_exact by (auto; left; unfold is_fixed; now rewrite Hn). unfold outcome. now rewrite (sp_reads_fixed s n). }
    destruct (R x Hx Hlx) as [R1 R2]. destruct (R y Hy Hly) as [R3 R4].
    refine (eq_exact h s _ x y R1 R3 _ _ _ _ R2 R4); [split; assumption| |]; left; unfold is_fixed; now rewrite Hn.
Qed.

(** ** Constructing *)
Lemma argument_nth (vals : list (list byte)) : forall k i, argument (N.of_nat (k + i)) (map N.of_nat (seq k (length vals))) vals = nth_error vals i.
Proof.
  induction vals as [|v vals IH]; intros k i; [now destruct i|]. cbn [length seq map argument].
  destruct i as [|i].
  - rewrite Nat.add_0_r, N.eqb_refl. reflexivity.
  - replace (N.of_nat k =? N.of_nat (k + S i)) with false by (symmetry; apply N.eqb_neq; lia).
    replace (k + S i)%nat with (S k + i)%nat by lia. apply IH.
Qed.
Lemma set_data_fields n T fields : In (Data n T) fields -> set_data n (map init_of fields) = Some n.
Proof.
  induction fields as [|f fields IH]; [intros []|intros [E|H]].
  - subst f. cbn [map init_of set_data]. now rewrite N.eqb_refl.
  - destruct f as [k t|k z|a]; cbn [map init_of set_data]; auto. destruct (k =? n) eqn:E; [|auto]. apply N.eqb_eq in E. now subst.
Qed.
Lemma pick_in {A B} (f : A -> option B) l a b : In a l -> f a = Some b -> In b (pick f l).
Proof.
  induction l as [|c l IH]; [intros []|intros [->|H] E]; cbn [pick].
  - rewrite E. now left.
  - destruct (f c); [right|]; auto.
Qed.
Lemma set_padding_fields n z fields : (forall a, ~ In (Bytes a) fields) -> NoDup (pick padding_of fields) -> In (Padding n z) fields ->
  set_padding n (map init_of fields) = Some z.
Proof.
  induction fields as [|f fields IH]; [intros _ _ []|intros Hb Hd [E|H]].
  - subst f. cbn [map init_of set_padding]. now rewrite N.eqb_refl.
  - assert (Hb' : forall a, ~ In (Bytes a) fields) by (intros a Ha; apply (Hb a); now right).
    destruct f as [k t|k y|a]; cbn [map init_of set_padding pick padding_of] in *.
    + auto.
    + inversion Hd as [|? ? Hn Hd']; subst. destruct (k =? n) eqn:E; [|auto]. apply N.eqb_eq in E. subst k.
      destruct Hn. eapply pick_in; [exact H|reflexivity].
    + destruct (Hb a). now left.
Qed.
Lemma run_new_pad params vals inits n z fs d : set_padding n inits = Some z -> run_new params vals inits fs = Some d ->
  run_new params vals inits (Padding n z :: fs) = Some (zeros z ++ d).
Proof. intros E1 E2. cbn [run_new]. now rewrite E1, N.eqb_refl, E2. Qed.
Lemma run_new_fields vals inits (all : list field) : forall pads children rest n k final,
  length pads = length children -> length rest = length children ->
  (exists pre, vals = pre ++ rest /\ length pre = n) ->
  (forall f, In f (the_fields n k pads final children) -> In f all) ->
  inits = map init_of all -> (forall a, ~ In (Bytes a) all) -> NoDup (pick padding_of all) ->
  run_new (map N.of_nat (seq 0 (length vals))) vals inits (the_fields n k pads final children) = Some (concat (field_values pads rest final)).
Proof.
  intros pads. induction pads as [|p pads IH]; intros [|c children] rest n k final Hl Hr Hv Hin Hi Hb Hd; try discriminate.
  - destruct rest; [|discriminate]. cbn [the_fields field_values] in *. destruct (0 <? final) eqn:E; [|reflexivity].
    cbn [run_new concat]. rewrite Hi, (set_padding_fields _ final all Hb Hd) by (apply Hin; now left). now rewrite N.eqb_refl.
  - destruct rest as [|v rest]; [discriminate|]. destruct Hv as (pre & -> & Hn). cbn [the_fields field_values] in *.
    assert (G : run_new (map N.of_nat (seq 0 (length (pre ++ v :: rest)))) (pre ++ v :: rest) inits
                  (Data (N.of_nat n) (mt c) :: the_fields (S n) (if 0 <? p then S k else k) pads final children) =
                Some (v ++ concat (field_values pads rest final))).
    { cbn [run_new]. rewrite Hi, (set_data_fields _ (mt c) all) by (apply Hin, in_or_app; right; now left).
      pose proof (argument_nth (pre ++ v :: rest) 0 n) as A. rewrite Nat.add_0_l in A. rewrite A.
      rewrite nth_error_app2, <- Hn, Nat.sub_diag by lia. cbn [nth_error]. rewrite Hn, <- Hi.
      rewrite (IH children rest (S n)); auto; try (cbn in *; lia).
      - exists (pre ++ [v]). rewrite <- app_assoc, app_length. cbn. split; [reflexivity|lia].
      - intros f Hf. apply Hin, in_or_app. right. now right. }
    destruct (0 <? p); cbn [app].
    + cbn [concat]. apply run_new_pad; [|exact G]. rewrite Hi. apply set_padding_fields; auto. apply Hin. now left.
    + exact G.
Qed.
Lemma the_fields_no_bytes a : forall pads children n k final, ~ In (Bytes a) (the_fields n k pads final children).
Proof.
  induction pads as [|p pads IH]; intros [|c children] n k final H; cbn [the_fields] in H;
    try (destruct (0 <? final); [destruct H as [H|[]]; discriminate|destruct H]).
  apply in_app_or in H as [H|[H|H]]; [destruct (0 <? p); [destruct H as [H|[]]; discriminate|destruct H]|discriminate|].
  eapply IH; exact H.
Qed.
Lemma number_fst {A} (l : list A) : forall k, map fst (combine (seq k (length l)) l) = seq k (length l).
Proof. induction l as [|x l IH]; intros k; cbn [length seq combine map fst]; [reflexivity|]. now rewrite IH. Qed.
Lemma walk_pads_length its : forall pos, length (walk_pads pos its) = length its.
Proof. induction its as [|[a z] its IH]; intros pos; cbn [walk_pads length]; [reflexivity|]. now rewrite IH. Qed.
Lemma fixed_new junk s n szs text its vals : sp_is_struct s = true -> sp_size s = Some n -> map sp_size (sp_components s) = map Some szs ->
  tuple_text s = Some text -> code text = Some its -> usable s -> map len vals = szs ->
  exists nm fields params inits d, fields_of its = Some (nm, fields) /\ parameters_of its = Some (nm, params) /\ inits_of its = Some (nm, inits) /\
    run_new (map fst params) vals inits fields = Some d /\ struct_new junk s vals = Ok d /\
    d = sp_struct_bytes (Some n) (map (fun c => (sp_align c, sp_size c)) (sp_components s)) vals.
Proof.
  intros Hst Hn Hz Ht Hc [Hm _] Hv. destruct (fixed_claim s n text its Hst Hn Ht Hc) as (F1 & _ & _ & F2 & F3 & _).
  destruct (fields_claim s n szs text its Hst Hn Hz Ht Hc) as (fields & types & G1 & _ & _ & G2 & _).
  assert (Hs : is_struct s) by (destruct s; try discriminate; exact I).
  rewrite F1 in G1. injection G1 as <-. rewrite comps_children in * by assumption. rewrite sp_size_of in Hn.
  assert (Hlv : length vals = length (children_of s)).
  { rewrite <- (map_length len vals), Hv, <- (map_length Some szs), <- Hz. apply map_length. }
  assert (Hf : Forall2 (fun c b => blen b = size_or_0 c) (children_of s) vals).
  { clear -Hz Hv. revert szs vals Hz Hv. induction (children_of s) as [|c cs IH]; intros [|z szs] [|v vals] Hz Hv; try discriminate; constructor.
    - cbn [map] in *. injection Hz as Hz _. injection Hv as Hv _. rewrite sp_size_of in Hz. unfold size_or_0. now rewrite Hz.
    - cbn [map] in *. injection Hz as _ Hz. injection Hv as _ Hv. eauto. }
  eexists _, _, _, _, _. split; [exact F1|]. split; [exact F2|]. split; [exact F3|].
  rewrite (struct_new_bytes junk s n vals Hs Hn Hm Hf), <- items_spec. split; [|split; reflexivity].
  rewrite map_map. cbn [fst]. rewrite <- (map_map fst N.of_nat). unfold number. rewrite number_fst, <- Hlv.
  rewrite (run_new_fields vals _ (the_fields 0 0 (walk_pads 0 (fixed_items (children_of s))) (n - walk_end 0 (fixed_items (children_of s))) (children_of s))) with (rest := vals); auto.
  - assert (Hf2 : Forall2 (fun it b => blen b = snd it) (fixed_items (children_of s)) vals).
    { clear -Hf. unfold fixed_items. induction Hf; cbn [map]; constructor; auto. }
    rewrite field_values_concat by exact Hf2. unfold sp_struct_bytes. rewrite (fixed_items_of s n Hs Hn).
    pose proof (lay_struct_fixed (fixed_items (children_of s)) vals 0 Hf2 (fixed_items_al _)) as HL. rewrite N.add_0_l in HL.
    destruct (sp_lay_struct _ _ _) as [body ends]. cbn [fst] in *. now rewrite <- HL.
  - rewrite walk_pads_length. unfold fixed_items. apply map_length.
  - exists []. auto.
  - intros a. apply the_fields_no_bytes.
Qed.
Lemma nuls_app a b : nuls a ++ nuls b = nuls (a + b).
Proof. unfold nuls. rewrite N2Nat.inj_add. now rewrite repeat_app. Qed.
Lemma len_nuls n : len (nuls n) = n.
Proof. unfold len, nuls. rewrite repeat_length. lia. Qed.
Lemma lay_struct_nuls its : forall szs pos, length szs = length its -> exists m, fst (sp_lay_struct pos its (map nuls szs)) = nuls m.
Proof.
  induction its as [|[a z] its IH]; intros [|y szs] pos Hl; try discriminate; [now exists 0|]. cbn [map sp_lay_struct].
  destruct (IH szs (pad_to a pos + len (nuls y)) ltac:(cbn in Hl; lia)) as (m & E). destruct (sp_lay_struct _ its _) as [rest ends].
  cbn [fst] in *. rewrite E, !nuls_app. eauto.
Qed.
Lemma fixed_default h s n szs text its : sp_is_struct s = true -> sp_size s = Some n -> map sp_size (sp_components s) = map Some szs ->
  tuple_text s = Some text -> code text = Some its -> usable s ->
  exists nm fields params inits k r, fields_of its = Some (nm, fields) /\ parameters_of its = Some (nm, params) /\ inits_of its = Some (nm, inits) /\
    default_of its = Some (nm, nm, k) /\ run_default (map fst params) szs k inits fields = Some (nuls n) /\
    default_ref h s = Ok r /\ s_data r = nuls n /\ read h s r = Ok (sp_decode (h_big_endian h) s None).
Proof.
  intros Hst Hn Hz Ht Hc Hu. destruct (fixed_claim s n text its Hst Hn Ht Hc) as (F1 & _ & _ & F2 & F3 & _ & F4 & _).
  assert (Hv : map len (map nuls szs) = szs) by (rewrite map_map; rewrite <- (map_id szs) at 2; apply map_ext; intros; apply len_nuls).
  destruct (fixed_new (fun _ => x00) s n szs text its (map nuls szs) Hst Hn Hz Ht Hc Hu Hv) as (nm & fields & params & inits & d & G1 & G2 & G3 & G4 & G5 & G6).
  rewrite F1 in G1. injection G1 as <- <-. rewrite F2 in G2. injection G2 as <-. rewrite F3 in G3. injection G3 as <-.
  assert (Hlz : length szs = length (children_of s)).
  { rewrite comps_children in Hz by assumption. rewrite <- (map_length Some szs), <- Hz. apply map_length. }
  destruct (default_ref_ok h s (proj1 Hu)) as (r & R1 & R2 & R3 & R4).
  assert (Hd : default_bytes s = nuls n) by (unfold default_bytes; rewrite sp_size_of in Hn; now rewrite Hn).
  eexists _, _, _, _, _, r. split; [exact F1|]. split; [exact F2|]. split; [exact F3|]. split; [exact F4|]. split; [|split; [exact R1|split]].
  - unfold run_default. rewrite Hlz, Nat.eqb_refl. change zeros with nuls. rewrite G4. f_equal. rewrite G6.
    assert (Hs : is_struct s) by (destruct s; try discriminate; exact I). rewrite sp_size_of in Hn. rewrite comps_children in * by assumption.
    destruct (lay_struct_nuls (map (fun c => (sp_align c, sp_size c)) (children_of s)) szs 0) as (m & E); [now rewrite map_length|].
    assert (Hf2 : Forall2 (fun it b => len b = snd it) (fixed_items (children_of s)) (map nuls szs)).
    { clear -Hz. unfold fixed_items. revert szs Hz. induction (children_of s) as [|c cs IH]; intros [|z szs] Hz; try discriminate; cbn [map]; constructor.
      - cbn [map snd] in *. rewrite len_nuls. injection Hz as Hz _. rewrite sp_size_of in Hz. unfold size_or_0. now rewrite Hz.
      - cbn [map] in Hz. injection Hz as _ Hz. auto. }
    pose proof (lay_struct_fixed _ _ 0 Hf2 (fixed_items_al _)) as HL. rewrite <- (fixed_items_of s n Hs Hn), items_spec, E, len_nuls in HL.
    pose proof (fixed_end s n Hs Hn) as Hend. unfold sp_struct_bytes. destruct (sp_lay_struct _ _ _) as [body ends]. cbn [fst] in E. subst body.
    rewrite len_nuls, nuls_app. f_equal. lia.
  - congruence.
  - now apply read_default.
Qed.

(** ** Layout *)
Lemma layouts_the_fields final : forall pads cs lays n k, length pads = length cs -> length lays = length cs ->
  layouts_of lays (the_fields n k pads final cs) = Some (map snd (interleave pads lays final)).
Proof.
  induction pads as [|p pads IH]; intros [|c cs] [|l lays] n k H1 H2; try discriminate.
  - cbn [the_fields interleave]. now destruct (0 <? final).
  - cbn [the_fields interleave length] in *.
    specialize (IH cs lays (S n) (if 0 <? p then S k else k) ltac:(lia) ltac:(lia)).
    destruct (0 <? p); cbn [app layouts_of map snd]; now rewrite IH.
Qed.
Lemma fixed_no_gaps s n text its : sp_is_struct s = true -> sp_size s = Some n -> tuple_text s = Some text -> code text = Some its -> usable s ->
  exists nm fields lays fl os, fields_of its = Some (nm, fields) /\ map mem_layout (sp_components s) = map Some lays /\
    layouts_of lays fields = Some fl /\ repr_c fl = (os, n, sp_align s) /\ fold_right N.add 0 (map fst fl) = n.
Proof.
  intros Hst Hn Ht Hc [Hm _]. destruct (fixed_claim s n text its Hst Hn Ht Hc) as (F1 & _).
  assert (Hs : is_struct s) by (destruct s; try discriminate; exact I).
  rewrite comps_children by assumption. rewrite sp_size_of in Hn. rewrite sp_align_of.
  destruct (struct_layout s n Hs Hn) as (os & E1 & _ & E2).
  eexists _, _, (declared (children_of s)), _, os. split; [exact F1|].
  split. { pose proof Hm as Hm'. rewrite macro_ok_struct in Hm' by assumption. apply andb_true_iff in Hm' as [Hc' _].
    pose proof (fixed_children s n Hs Hn) as Hfix. rewrite forallb_forall in Hc'. rewrite Forall_forall in Hfix.
    unfold declared. rewrite map_map. apply map_ext_in. intros c Hin. specialize (Hfix c Hin). specialize (Hc' c Hin). unfold is_fixed in Hfix. unfold size_or_0.
    destruct (size_of c) eqn:Ex; [|discriminate]. now apply mem_layout_ok. }
  split. { apply layouts_the_fields; [|unfold declared; now rewrite map_length]. rewrite walk_pads_length. unfold fixed_items. apply map_length. }
  unfold decl_fields in E1, E2. split; [exact E1|]. rewrite map_map. exact E2.
Qed.

(** ** What [new] has to set *)
Lemma set_padding_in n z l : set_padding n l = Some z -> In (SetPadding n z) l.
Proof.
  induction l as [|[k m|k y] l IH]; cbn [set_padding]; intros E; [discriminate|right; auto|].
  destruct (k =? n) eqn:Ek; [|right; auto]. apply N.eqb_eq in Ek. injection E as ->. subst k. now left.
Qed.
Lemma set_data_in n m l : set_data n l = Some m -> In (SetData n m) l.
Proof.
  induction l as [|[k y|k y] l IH]; cbn [set_data]; intros E; [discriminate| |right; auto].
  destruct (k =? n) eqn:Ek; [|right; auto]. apply N.eqb_eq in Ek. injection E as ->. subst k. now left.
Qed.
Lemma argument_in m v : forall params vals, argument m params vals = Some v -> In (m, v) (combine params vals).
Proof.
  induction params as [|p params IH]; intros [|w vals] E; try discriminate. cbn [argument combine] in *.
  destruct (p =? m) eqn:Ep; [|right; auto]. apply N.eqb_eq in Ep. injection E as ->. subst p. now left.
Qed.
Lemma new_sets params vals inits : forall fields d, run_new params vals inits fields = Some d ->
  forall f, In f fields -> match f with
    | Data n _ => exists m v, In (SetData n m) inits /\ In (m, v) (combine params vals)
    | Padding n z => In (SetPadding n z) inits
    | Bytes _ => False
    end.
Proof.
  induction fields as [|g fields IH]; intros d E f Hf; [destruct Hf|].
  destruct g as [n t|n z|a]; cbn [run_new] in E; [| |discriminate].
  - destruct (set_data n inits) as [m|] eqn:E1; [|discriminate]. destruct (argument m params vals) as [v|] eqn:E2; [|discriminate].
    destruct (run_new params vals inits fields) as [d'|] eqn:E3; [|discriminate].
    destruct Hf as [<-|Hf]; [|exact (IH d' eq_refl f Hf)].
    exists m, v. split; [now apply set_data_in|now apply argument_in].
  - destruct (set_padding n inits) as [y|] eqn:E1; [|discriminate]. destruct (y =? z) eqn:Ey; [|discriminate].
    destruct (run_new params vals inits fields) as [d'|] eqn:E3; [|discriminate].
    destruct Hf as [<-|Hf]; [|exact (IH d' eq_refl f Hf)].
    apply N.eqb_eq in Ey. subst y. now apply set_padding_in.
Qed.
