(** Programs' own implementations of [SerializeTo] (lib.rs:446-459): C140. *)
From Verif Require Import Base Types Spec Histories Deser Ser SerSpec LongSpec Writer WriterSpec Custom CustomSpec CustomMore.

(** C140: implementations that write some bytes (of the right size, for a type of
    fixed size) and return their number can be used wherever something of that type
    can: what is written is these bytes framed by the rules, and the number of bytes
    is returned.  [passes] covers sinks that fail on the way. *)
Theorem C140_written : forall (h : host) (own : N -> M sink N) (say : N -> list byte) (t : ty) (c : cval),
  usable t -> ctyped t c ->
  (forall t' i, In (t', inl i) (cparts t c) -> passes (own i) (say i) /\ forall n, sp_size t' = Some n -> len (say i) = n) ->
  (forall t' r, In (t', inr r) (cparts t c) -> no_nuls t' r) ->
  len (cbytes say (h_big_endian h) t c) < 2 ^ 63 ->
  passes (cser h own c t) (cbytes say (h_big_endian h) t c).
Proof. exact custom_written. Qed.
Print Assumptions C140_written.
(** Reading that gives each part back: for the program's own, what its bytes say. *)
Theorem C140_read : forall (h : host) (say : N -> list byte) (t : ty) (c : cval) (a : N),
  usable t -> ctyped t c ->
  (forall t' i n, In (t', inl i) (cparts t c) -> sp_size t' = Some n -> len (say i) = n) ->
  (forall t' r, In (t', inr r) (cparts t c) -> no_nuls t' r) ->
  ctails say (h_big_endian h) t c -> a mod sp_align t = 0 ->
  let d := cbytes say (h_big_endian h) t c in
  len d < 2 ^ 63 -> sp_near t (Some d) = true ->
  decode h t (Slice a d) = if sp_reads t (Some d) then Ok (cvalue say (h_big_endian h) t c) else Crash PUnwrap.
Proof. exact custom_read. Qed.
Print Assumptions C140_read.
(** Whatever the implementations do and return, and whatever the writer: the library
    adds no failure of its own but that for a string with a NUL, and no panic but
    that on overflow, with overflow checks.  In particular the padding that it
    computes from the numbers returned never goes beyond its seven NULs. *)
Theorem C140_failures : forall (K : Type) (W : Write K) (h : host) (own : N -> M K N) (t : ty) (c : cval) (k : K),
  usable t -> ctyped t c ->
  (forall t' i k n, In (t', inl i) (cparts t c) -> snd (own i k) = SOk n -> n < 2 ^ 64) ->
  match snd (cser h own c t k) with
  | SOk n => n < 2 ^ 64
  | SErr e =>
      (exists t' i k', In (t', inl i) (cparts t c) /\ snd (own i k') = SErr e) \/
      (exists d k', snd (write_all d k') = SErr e) \/
      (e = EInvalidInput /\ exists t' r, In (t', inr r) (cparts t c) /\ ~ no_nuls t' r)
  | SCrash x =>
      (exists t' i k', In (t', inl i) (cparts t c) /\ snd (own i k') = SCrash x) \/
      (exists d k', snd (write_all d k') = SCrash x) \/
      (x = POverflow /\ h_overflow_checks h = true)
  end.
Proof. exact custom_failures. Qed.
Print Assumptions C140_failures.
Theorem C140_no_new_panic : forall (K : Type) (W : Write K) (h : host) (own : N -> M K N) (t : ty) (c : cval) (k : K) (x : crash),
  usable t -> ctyped t c -> h_overflow_checks h = false ->
  (forall t' i k n, In (t', inl i) (cparts t c) -> snd (own i k) = SOk n -> n < 2 ^ 64) ->
  (forall t' i k, In (t', inl i) (cparts t c) -> snd (own i k) <> SCrash x) ->
  (forall d k, snd (write_all d k) <> SCrash x) ->
  snd (cser h own c t k) <> SCrash x.
Proof. exact custom_calm. Qed.
Print Assumptions C140_no_new_panic.
(** If one of them fails, so does the whole. *)
Theorem C140_passed_on : forall (K : Type) (W : Write K) (h : host) (own : N -> M K N) (t : ty) (c : cval) (t' : ty) (i : N),
  usable t -> ctyped t c -> In (t', inl i) (cparts t c) ->
  (forall k n, snd (own i k) <> SOk n) -> forall k n, snd (cser h own c t k) <> SOk n.
Proof. exact custom_passed_on. Qed.
Print Assumptions C140_passed_on.
(** Implementations that serialise something else in their place are as good as that,
    for every writer. *)
Theorem C140_delegating : forall (K : Type) (W : Write K) (h : host) (own : N -> M K N) (put : N -> rval) (t : ty) (c : cval),
  (forall t' i k, In (t', inl i) (cparts t c) -> own i k = ser h (put i) t' k) ->
  forall k, cser h own c t k = ser h (cplain put c) t k.
Proof. exact custom_plain. Qed.
Print Assumptions C140_delegating.
(** So does the documented enum. *)
Theorem C140_documented : forall (K : Type) (W : Write K) (h : host) (es : N -> my_enum) (t : ty) (c : cval),
  (forall t' i, In (t', inl i) (cparts t c) -> t' = TV) ->
  forall k, cser h (fun i => my_enum_ser h (es i)) c t k = ser h (cplain (fun i => my_enum_value (es i)) c) t k.
Proof. exact custom_enum. Qed.
Print Assumptions C140_documented.

(** Implementations that offer pieces to the writer, whichever it is, up to the first
    that it does not take: so does the whole, the same pieces to every writer. *)
Theorem C140_any_writer : forall (h : host) (ps : N -> list (list byte)) (x : N -> sres N) (t : ty) (c : cval),
  exists (pieces : list (list byte)) (res : sres N),
  (forall (K : Type) (W : Write K) (own : N -> M K N), (forall i k, own i k = offer (ps i) (x i) k) ->
     forall k, cser h own c t k = offer pieces res k) /\
  (usable t -> ctyped t c ->
   (forall t' i, In (t', inl i) (cparts t c) ->
      x i = SOk (len (concat (ps i))) /\ forall n, sp_size t' = Some n -> len (concat (ps i)) = n) ->
   (forall t' r, In (t', inr r) (cparts t c) -> no_nuls t' r) ->
   let d := cbytes (fun i => concat (ps i)) (h_big_endian h) t c in
   len d < 2 ^ 63 -> concat pieces = d /\ res = SOk (len d)).
Proof. exact custom_any_writer. Qed.
Print Assumptions C140_any_writer.

(** A bag of properties, with two values of the enum. *)
Example C140_case : let h := Host false true true 0 0 in
  let t := TA (TDict TS TV) in
  let es i := if i =? 0 then MyBool true else MyString (bs "yes!") in
  let own i := my_enum_ser h (es i) in
  let say i := if i =? 0 then [x01; x00; x62] else bs "yes!" ++ [x00; x00; x73] in
  let c := CList [CTuple [CPlain (RStr (bs "a")); COwn 0]; CTuple [CPlain (RStr (bs "b")); COwn 1]] in
  let d := bs "a" ++ [x00; x00; x00; x00; x00; x00; x00; x01; x00; x62; x02; x00; x00; x00; x00] ++
           bs "b" ++ [x00; x00; x00; x00; x00; x00; x00] ++ bs "yes!" ++ [x00; x00; x73; x02; x0c; x20] in
  usable t /\ ctyped t c /\
  cparts t c = [(TS, inr (RStr (bs "a"))); (TV, inl 0); (TS, inr (RStr (bs "b"))); (TV, inl 1)] /\
  no_nuls TS (RStr (bs "a")) /\ no_nuls TS (RStr (bs "b")) /\
  passes (own 0) (say 0) /\ passes (own 1) (say 1) /\ ctails say false t c /\
  cbytes say false t c = d /\ cser h own c t (Sink [] None) = (Sink d None, SOk 34) /\
  decode h t (Slice 64 d) = Ok (cvalue say false t c) /\
  cvalue say false t c = VArray [VTuple [VStr (bs "a"); VVariant (bs "b") [x01]];
                                 VTuple [VStr (bs "b"); VVariant (bs "s") (bs "yes!" ++ [x00])]].
Proof.
  intros h t es own say c d.
  assert (Hs : forall s, sp_utf8 s = true -> is_utf8 s) by (intros; now apply Utf8Facts.sp_utf8_ok).
  split; [split; reflexivity|]. split; [cbn; repeat split; now apply Hs|]. split; [reflexivity|].
  assert (Hn : forall s, ~ In x00 s -> no_nuls TS (RStr s)) by (intros s H s' [<-|[]]; exact H).
  split; [apply Hn; intros [H|[]]; discriminate|]. split; [apply Hn; intros [H|[]]; discriminate|].
  split; [|split].
  - apply (ser_passes h TV (RWrap TB (RBool true))); try reflexivity; [split; reflexivity|cbn; repeat split|intros s []].
  - apply (ser_passes h TV (RWrap TS (RStr (bs "yes!")))); try reflexivity; [split; reflexivity|cbn; repeat split; now apply Hs|].
    intros s [<-|[]]. cbn. intros H. decompose [or] H; try discriminate; assumption.
  - split; [cbn; repeat split; reflexivity|]. repeat split; reflexivity.
Qed.
(** An implementation that returns far too much, and one that fails. *)
Example C140_case_wrong : let h := Host false false true 0 0 in
  let t := TTuple [TV; TA TV] in
  let own i : M sink N := if i =? 0 then sret (2 ^ 64 - 3) else serror (EOther 7) in
  let c j := CTuple [CWrap TY (COwn 0); CList [COwn 0; COwn j]] in
  usable t /\ ctyped t (c 0) /\ ctyped t (c 1) /\
  cparts t (c 1) = [(TY, inl 0); (TV, inl 0); (TV, inl 1)] /\
  (forall k n, snd (own 0 k) = SOk n -> n < 2 ^ 64) /\ (forall k x, snd (own 0 k) <> SCrash x) /\
  cser h own (c 0) t (Sink [] None) =
    (Sink [x00; x79; x00; x00; x00; x00; x00; x00; x00; xfd; xfd; xff] None, SOk 3) /\
  snd (cser h own (c 1) t (Sink [] None)) = SErr (EOther 7) /\
  snd (cser (Host false true true 0 0) own (c 0) t (Sink [] None)) = SCrash POverflow.
Proof.
  intros h t own c. split; [split; reflexivity|]. split; [cbn; repeat split|]. split; [cbn; repeat split|]. split; [reflexivity|].
  split; [intros k n H; cbn in H; inversion H; reflexivity|]. split; [intros k x; discriminate|].
  vm_compute. repeat split.
Qed.
(** A writer that is interrupted, and refuses at last. *)
Example C140_case_writer : let h := Host false true true 0 0 in
  let t := TTuple [TY; TS] in let c := CTuple [CPlain (RInt 5); COwn 0] in
  let ps i := if i =? 0 then [bs "he"; bs "llo"; [x00]] else [] in
  let own i : M writer N := offer (ps i) (SOk 6) in
  usable t /\ ctyped t c /\ len (concat (ps 0)) = 6 /\
  cser h own c t (Writer [] [Accepts 1; Again; Accepts 1; Accepts 9; Accepts 2; Accepts 9; Accepts 9]) =
    (Writer ([x05] ++ bs "hello" ++ [x00]) [], SOk 7) /\
  cser h own c t (Writer [] [Accepts 1; Again; Accepts 1; Accepts 9; Accepts 2; Refuses 4; Accepts 9]) =
    (Writer ([x05] ++ bs "hell") [Accepts 9], SErr (EOther 4)).
Proof.
  intros h t c ps own. split; [split; reflexivity|]. split; [cbn; repeat split; discriminate|]. repeat split; vm_compute; reflexivity.
Qed.
