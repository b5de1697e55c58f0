(** Serialising to any writer. *)
From Verif Require Import Base BaseFacts Types Layout AlignedBytes Strs Spec Deser Ser Histories SerSpec Writer WriterSpec SerFacts SerMain SerClaims.
From Coq Require Import Lia ZifyBool ZifyNat ZifyN.

(** A writer that takes everything and keeps the pieces apart. *)
Definition log := list (list byte).
#[local] Instance log_write : Write log := fun bs k => (k ++ [bs], SOk tt).

Section Any.
Context {K : Type} {W : Write K}.
Definition logs {A} (m0 : M log A) (m : M K A) : Prop :=
  exists ps x, (forall l, m0 l = (l ++ ps, x)) /\ (forall k, m k = offer ps x k).
Lemma logs_ret {A} (a : A) : logs (sret a) (sret a).
Proof. exists [], (SOk a). split; intros; [now rewrite app_nil_r|reflexivity]. Qed.
Lemma logs_error {A} e : logs (@serror log A e) (serror e).
Proof. exists [], (SErr e). split; intros; [now rewrite app_nil_r|reflexivity]. Qed.
Lemma logs_lift {A} (m : res A) : logs (lift m) (lift m).
Proof.
  exists [], (match m with Ok a => SOk a | Crash c => SCrash c end).
  split; intros; destruct m; cbn; now rewrite ?app_nil_r.
Qed.
Lemma logs_all d : logs (write_all d) (write_all d).
Proof.
  exists [d], (SOk tt). split; intros; [reflexivity|]. cbn [offer].
  destruct (write_all d k) as [k' [[]| |]]; reflexivity.
Qed.
Lemma offer_bind {A B} ps (a : A) qs (y : sres B) (f : A -> M K B) :
  (forall k, f a k = offer qs y k) -> forall k, sbind (offer ps (SOk a)) f k = offer (ps ++ qs) y k.
Proof.
  intros H. unfold sbind. induction ps as [|p ps IH]; intros k; cbn [offer app]; [apply H|].
  destruct (write_all p k) as [k' [u|e|c]]; [apply IH|reflexivity|reflexivity].
Qed.
Lemma offer_bind_end {A B} ps (x : sres A) (y : sres B) (f : A -> M K B) :
  (forall k, sbind (fun k => (k, x)) f k = (k, y)) -> (match x with SOk _ => False | _ => True end) ->
  forall k, sbind (offer ps x) f k = offer ps y k.
Proof.
  intros H Hx. unfold sbind in *. induction ps as [|p ps IH]; intros k; cbn [offer]; [apply H|].
  destruct (write_all p k) as [k' [u|e|c]]; [apply IH|reflexivity|reflexivity].
Qed.
Lemma logs_bind {A B} (m0 : M log A) m (f0 : A -> M log B) f :
  logs m0 m -> (forall a, logs (f0 a) (f a)) -> logs (sbind m0 f0) (sbind m f).
Proof.
  intros (ps & x & H0 & H) Hf. destruct x as [a|e|c].
  - destruct (Hf a) as (qs & y & G0 & G). exists (ps ++ qs), y. split.
    + intros l. unfold sbind. rewrite H0, G0. now rewrite app_assoc.
    + intros k. rewrite <- (offer_bind ps a qs y f G k). unfold sbind. now rewrite H.
  - exists ps, (SErr e). split; [intros l; unfold sbind; now rewrite H0|].
    intros k. rewrite <- (offer_bind_end ps (SErr e) (SErr e) f (fun _ => eq_refl) I k). unfold sbind. now rewrite H.
  - exists ps, (SCrash c). split; [intros l; unfold sbind; now rewrite H0|].
    intros k. rewrite <- (offer_bind_end ps (SCrash c) (SCrash c) f (fun _ => eq_refl) I k). unfold sbind. now rewrite H.
Qed.
Ltac go := repeat first [apply logs_ret | apply logs_error | apply logs_lift | apply logs_all | assumption
  | apply logs_bind; [|intros ?] | match goal with |- logs (if ?b then _ else _) _ => destruct b end].

Lemma logs_padding h A p : logs (write_padding h A p) (write_padding h A p).
Proof. unfold write_padding. go. Qed.
Lemma logs_each n l : logs (write_each n l) (write_each n l).
Proof. induction l; cbn [write_each]; go. Qed.
Lemma logs_offsets h b l : logs (write_offsets h b l) (write_offsets h b l).
Proof. unfold write_offsets. go; apply logs_each. Qed.
Lemma logs_seq h l0 l : Forall2 logs l0 l -> forall b, logs (ser_seq h l0 b) (ser_seq h l b).
Proof. induction 1; intros b; cbn [ser_seq]; go. apply IHForall2. Qed.
Lemma logs_nfwa h al l0 l : Forall2 logs l0 l -> forall b o, logs (ser_nfwa h al l0 b o) (ser_nfwa h al l b o).
Proof. induction 1; intros b o; cbn [ser_nfwa]; [apply logs_offsets|]. go. apply IHForall2. Qed.
Lemma logs_nth (cs0 : list (M log N)) (cs : list (M K N)) n : Forall2 logs cs0 cs ->
  match nth_error cs0 n, nth_error cs n with
  | Some m0, Some m => logs m0 m
  | None, None => True
  | _, _ => False
  end.
Proof. intros H. revert n. induction H; intros [|n]; cbn [nth_error]; auto. apply IHForall2. Qed.
Lemma logs_cmds h cs0 cs : Forall2 logs cs0 cs -> forall cmds off fo,
  logs (run_cmds h cmds cs0 off fo) (run_cmds h cmds cs off fo).
Proof.
  intros H. induction cmds as [|c cmds IH]; intros off fo; cbn [run_cmds]; [go|].
  destruct c as [n|n|A|n|n|i].
  - go. apply IH.
  - go. apply IH.
  - apply logs_bind; [apply logs_padding|intros ?]. go. apply IH.
  - pose proof (logs_nth cs0 cs n H) as Hn. destruct (nth_error cs0 n), (nth_error cs n); try contradiction; go. apply IH.
  - pose proof (logs_nth cs0 cs n H) as Hn. destruct (nth_error cs0 n), (nth_error cs n); try contradiction; go. apply IH.
  - destruct (i <? 0)%Z; [go|]. destruct (set_nth fo (Z.to_nat i) off); [apply IH|go].
Qed.
Lemma logs_struct h t cs0 cs : Forall2 logs cs0 cs -> logs (ser_struct h t cs0) (ser_struct h t cs).
Proof.
  intros H. unfold ser_struct. destruct (size_of t).
  - destruct (packed_struct t) as [[pads final]|]; [|go]. destruct (mem_layout t) as [[size al]|]; [|go].
    apply logs_bind; [now apply logs_cmds|]. intros ?. go.
  - apply logs_bind; [now apply logs_cmds|]. intros ?. apply logs_offsets.
Qed.
Lemma logs_map {A} (f0 : A -> M log N) (f : A -> M K N) l : Forall (fun r => logs (f0 r) (f r)) l -> Forall2 logs (map f0 l) (map f l).
Proof. induction 1; cbn [map]; constructor; auto. Qed.
Lemma logs_ser h r : forall t, logs (ser h r t) (ser h r t).
Proof.
  induction r as [z|bits|b|b|s|d|d|u r IH|rs IH|o IH|rs IH] using rval_nest; intros t;
    destruct t as [| | | | | | | | | | | | |x|x|ts|k v]; cbn [ser]; try solve [go].
  - apply logs_bind; [apply IH|intros ?]. go.
  - assert (H : Forall2 logs (map (fun r => ser h r x) rs) (map (fun r => ser h r x) rs)).
    { apply logs_map. eapply Forall_impl; [|exact IH]. intros r Hr. apply Hr. }
    destruct (is_fixed x); [now apply logs_seq|now apply logs_nfwa].
  - destruct (is_fixed x); [go|]. destruct rs as [|r rs]; [go|]. apply logs_bind; [|intros ?; go].
    inversion IH; subst. auto.
  - destruct o as [r|]; [|go]. destruct (is_fixed x); [now apply IH|]. apply logs_bind; [now apply IH|intros ?; go].
  - destruct (Nat.eqb _ _); [|go]. apply logs_struct. cbn [children_of]. revert ts.
    induction IH as [|r rs Hr _ IHr]; intros [|t ts]; constructor; auto.
  - destruct (Nat.eqb _ _); [|go]. apply logs_struct. cbn [children_of]. generalize [k; v]. clear k v.
    induction IH as [|r rs Hr _ IHr]; intros [|t ts]; constructor; auto.
Qed.
End Any.

(** ** C98 *)
Lemma any_writer h t r : exists pieces, 
  concat pieces = sp_output (serialize h t r None) /\
  forall K (W : Write K) (k : K), ser h r t k = offer pieces (snd (serialize h t r None)) k.
Proof.
  exists (fst (@ser log log_write h r t [])).
  assert (H : forall K (W : Write K) (k : K), ser h r t k = offer (fst (@ser log log_write h r t [])) (snd (@ser log log_write h r t [])) k).
  { intros K W k. destruct (logs_ser (K := K) h r t) as (ps & x & H0 & H). rewrite H, !H0. reflexivity. }
  assert (Ho : forall ps (x : sres N) o, offer ps x (Sink o None) = (Sink (o ++ concat ps) None, x)).
  { induction ps as [|p ps IH]; intros x o; cbn [offer concat]; [now rewrite app_nil_r|].
    cbn. rewrite IH. now rewrite app_assoc. }
  unfold serialize, sp_output. destruct (@ser log log_write h r t []) as [ps x]. cbn [fst snd] in *. rewrite H, Ho. cbn [fst snd k_out app]. split; [reflexivity|exact H].
Qed.

Lemma loop_cases answers : forall buf out, exists used rest,
  answers = used ++ rest /\
  ((Forall continues used /\ write_loop answers buf out = (Writer (out ++ buf) rest, SOk tt)) \/
   (exists u bad e now later, used = u ++ [bad] /\ Forall continues u /\ stops bad e /\ buf = now ++ later /\ later <> [] /\
      write_loop answers buf out = (Writer (out ++ now) rest, SErr e))).
Proof.
  induction answers as [|a answers IH]; intros buf out.
  - exists [], []. split; [reflexivity|]. left. split; [constructor|]. destruct buf; cbn; now rewrite ?app_nil_r.
  - destruct buf as [|b buf].
    { exists [], (a :: answers). split; [reflexivity|]. left. split; [constructor|]. cbn. now rewrite app_nil_r. }
    remember (b :: buf) as d eqn:Ed. assert (Hd : d <> []) by (subst; discriminate).
    assert (El : write_loop (a :: answers) d out = match a with
      | Accepts n => if n =? 0 then (Writer out answers, SErr EWriteZero) else write_loop answers (drop n d) (out ++ take n d)
      | Again => write_loop answers d out
      | Refuses e => (Writer out answers, SErr (EOther e)) end) by (subst d; reflexivity).
    rewrite El. clear El b buf Ed. destruct a as [n| |e].
    + destruct (n =? 0) eqn:E0.
      * exists [Accepts n], answers. split; [reflexivity|]. right. exists [], (Accepts n), EWriteZero, [], d.
        repeat split; auto; [lia|now rewrite app_nil_r].
      * destruct (IH (drop n d) (out ++ take n d)) as (used & rest & -> & [[H1 H2]|(u & bad & e & now & later & -> & H1 & H2 & H3 & H4 & H5)]).
        -- exists (Accepts n :: used), rest. split; [reflexivity|]. left. split; [constructor; [cbn; lia|exact H1]|].
           rewrite H2. now rewrite <- app_assoc, take_drop.
        -- exists (Accepts n :: u ++ [bad]), rest. split; [reflexivity|]. right.
           exists (Accepts n :: u), bad, e, (take n d ++ now), later. split; [reflexivity|]. split; [constructor; [cbn; lia|exact H1]|].
           split; [exact H2|]. split; [rewrite <- app_assoc, <- H3; now rewrite take_drop|]. split; [exact H4|].
           rewrite H5. now rewrite <- app_assoc.
    + destruct (IH d out) as (used & rest & -> & [[H1 H2]|(u & bad & e & now & later & -> & H1 & H2 & H3 & H4 & H5)]).
      * exists (Again :: used), rest. split; [reflexivity|]. left. split; [constructor; [exact I|exact H1]|exact H2].
      * exists (Again :: u ++ [bad]), rest. split; [reflexivity|]. right.
        exists (Again :: u), bad, e, now, later. repeat (split; [first [reflexivity|assumption|constructor; [exact I|assumption]]|]). exact H5.
    + exists [Refuses e], answers. split; [reflexivity|]. right. exists [], (Refuses e), (EOther e), [], d.
      repeat split; auto. now rewrite app_nil_r.
Qed.
Lemma offer_cases {A} (x : sres A) ps : forall answers out, exists used rest,
  answers = used ++ rest /\
  ((Forall continues used /\ offer ps x (Writer out answers) = (Writer (out ++ concat ps) rest, x)) \/
   (exists u bad e now later, used = u ++ [bad] /\ Forall continues u /\ stops bad e /\ concat ps = now ++ later /\ later <> [] /\
      offer ps x (Writer out answers) = (Writer (out ++ now) rest, SErr e))).
Proof.
  induction ps as [|p ps IH]; intros answers out; cbn [offer concat].
  - exists [], answers. split; [reflexivity|]. left. split; [constructor|now rewrite app_nil_r].
  - change (write_all p (Writer out answers)) with (write_loop answers p out).
    destruct (loop_cases answers p out) as (used & rest & -> & [[H1 H2]|(u & bad & e & now & later & -> & H1 & H2 & H3 & H4 & H5)]).
    + rewrite H2. destruct (IH rest (out ++ p)) as (used' & rest' & -> & [[G1 G2]|(u & bad & e & now & later & -> & G1 & G2 & G3 & G4 & G5)]).
      * exists (used ++ used'), rest'. split; [now rewrite app_assoc|]. left. split; [now apply Forall_app|]. rewrite G2. now rewrite app_assoc.
      * exists (used ++ u ++ [bad]), rest'. split; [now rewrite <- !app_assoc|]. right.
        exists (used ++ u), bad, e, (p ++ now), later. split; [now rewrite app_assoc|]. split; [now apply Forall_app|].
        split; [exact G2|]. split; [now rewrite G3, app_assoc|]. split; [exact G4|]. rewrite G5. now rewrite app_assoc.
    + exists (u ++ [bad]), rest. split; [reflexivity|]. right. exists u, bad, e, now, (later ++ concat ps).
      split; [reflexivity|]. split; [exact H1|]. split; [exact H2|]. split; [now rewrite H3, app_assoc|].
      split; [destruct later; [contradiction|discriminate]|]. rewrite H5. reflexivity.
Qed.
Lemma writer_claim h t r answers : let full := serialize h t r None in
  exists used rest, answers = used ++ rest /\
  ((Forall continues used /\ serialize_to h t r answers = (Writer (sp_output full) rest, snd full)) \/
   (exists u bad e now later, used = u ++ [bad] /\ Forall continues u /\ stops bad e /\
      sp_output full = now ++ later /\ later <> [] /\
      serialize_to h t r answers = (Writer now rest, SErr e))).
Proof.
  intros full. destruct (any_writer h t r) as (ps & E & H). unfold serialize_to. fold full in E, H. rewrite H, <- E.
  exact (offer_cases (snd full) ps answers []).
Qed.
Lemma writer_typed h t r answers : usable t -> rtyped t r -> no_nuls t r ->
  let d := sp_written (h_big_endian h) t (rvalue true (h_big_endian h) t r) in
  len d < 2 ^ 63 ->
  exists used rest, answers = used ++ rest /\
  ((Forall continues used /\ serialize_to h t r answers = (Writer d rest, SOk (len d))) \/
   (exists u bad e now later, used = u ++ [bad] /\ Forall continues u /\ stops bad e /\ d = now ++ later /\ later <> [] /\
      serialize_to h t r answers = (Writer now rest, SErr e))).
Proof.
  intros Hu Ht Hn d Hl. pose proof (writer_claim h t r answers) as H. cbv zeta in H.
  rewrite ser_claim in H by assumption. exact H.
Qed.
Lemma writer_patient h t r answers : usable t -> rtyped t r -> no_nuls t r ->
  let d := sp_written (h_big_endian h) t (rvalue true (h_big_endian h) t r) in
  len d < 2 ^ 63 -> Forall continues answers ->
  exists rest, serialize_to h t r answers = (Writer d rest, SOk (len d)).
Proof.
  intros Hu Ht Hn d Hl Hc. destruct (writer_typed h t r answers Hu Ht Hn Hl) as (used & rest & -> & [[_ H]|(u & bad & e & _ & _ & -> & _ & H & _)]).
  - eauto.
  - exfalso. rewrite <- app_assoc in Hc. apply Forall_app in Hc as [_ Hc]. inversion Hc as [|? ? Hb _]; subst.
    destruct bad; cbn in *; tauto.
Qed.
