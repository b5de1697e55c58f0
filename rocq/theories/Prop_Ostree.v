(** The example program: C69, C133. *)
From Verif Require Import Base Types Strs Spec Deser Buf LongSpec SumSpec Reader ReaderSpec OstreeLs OstreeSpec OstreeFacts OstreeMain OstreeMainFacts SumClaims.

(** C69: ostree-ls prints, for every file under 4 GiB, well-formed or not, one line
    per directory and then one per file of the tree the file denotes; it never
    panics once the file has been read. *)
Theorem C69_ostree_ls : forall (h : host) (v : vec) (a2 a3 a4 : N),
  v_addr v + 8 < 2 ^ 64 -> a2 + 8 < 2 ^ 64 -> a3 + 8 < 2 ^ 64 -> a4 + 8 < 2 ^ 64 -> len (v_data v) < 2 ^ 32 ->
  ostree_ls h v a2 a3 a4 = Ok (sp_ls (sp_decode (h_big_endian h) sp_dirtree (Some (v_data v)))).
Proof. exact ostree_claim. Qed.
Print Assumptions C69_ostree_ls.
(** Longer files as well, if their framing offsets are near (C73). *)
Theorem C69_long_files : forall (h : host) (v : vec) (a2 a3 a4 : N),
  v_addr v + 8 < 2 ^ 64 -> a2 + 8 < 2 ^ 64 -> a3 + 8 < 2 ^ 64 -> a4 + 8 < 2 ^ 64 ->
  len (v_data v) < 2 ^ 63 -> sp_near sp_dirtree (Some (v_data v)) = true ->
  ostree_ls h v a2 a3 a4 = Ok (sp_ls (sp_decode (h_big_endian h) sp_dirtree (Some (v_data v)))).
Proof. exact ostree_long. Qed.
Print Assumptions C69_long_files.
(** The tree of tests/test.rs:131-133. *)
Example C69_case : let h := Host false true true 0 0 in
  let d := bs "hello" ++ [x00; x01; x02; x03; x04; x06] ++ bs "world" ++ [x00; x04; x03; x02; x01; x06; x0b; x16] ++
           bs "my-dir" ++ [x00; x03; x14; x15; x92; x65; x35; x0b; x07; x0f; x18] in
  sp_near sp_dirtree (Some d) = true /\
  ostree_ls h (Vec 4099 d) 8192 12288 16384 =
  Ok (bs "03141592 6535 my-dir/" ++ [x0a] ++ bs "01020304 hello" ++ [x0a] ++ bs "04030201 world" ++ [x0a]).
Proof. split; vm_compute; reflexivity. Qed.

(** C133: the whole program.  Whatever the file holds, of any length, and however it
    comes in, what is printed is the listing of the tree or, if an overflow check
    fails, the beginning of it; that happens only if a framing offset is not near, so
    not below 4 GiB (C73). *)
Theorem C133_prints : forall (h : host) (pre rest : list outcome) (a1 a2 a3 a4 : N),
  a1 + 8 < 2 ^ 64 -> a2 + 8 < 2 ^ 64 -> a3 + 8 < 2 ^ 64 -> a4 + 8 < 2 ^ 64 ->
  Forall goes_on pre -> at_end rest -> len (concat (map brings pre)) < 2 ^ 63 ->
  let d := concat (map brings pre) in
  let listing := sp_ls (sp_decode (h_big_endian h) sp_dirtree (Some d)) in
  let done := ls_main h (inr (pre ++ rest)) a1 a2 a3 a4 in
  done = (listing, Returned) \/
  (exists out more, done = (out, Panicked POverflow) /\ listing = out ++ more) /\
  h_overflow_checks h = true /\ sp_near sp_dirtree (Some d) = false.
Proof. exact main_claim. Qed.
Print Assumptions C133_prints.
(** With overflow checks it panics exactly if a sum made in reading the tree reaches
    [2^64] (C139). *)
Theorem C133_panics : forall (h : host) (pre rest : list outcome) (a1 a2 a3 a4 : N), h_overflow_checks h = true ->
  a1 + 8 < 2 ^ 64 -> a2 + 8 < 2 ^ 64 -> a3 + 8 < 2 ^ 64 -> a4 + 8 < 2 ^ 64 ->
  Forall goes_on pre -> at_end rest -> len (concat (map brings pre)) < 2 ^ 63 ->
  (snd (ls_main h (inr (pre ++ rest)) a1 a2 a3 a4) = Panicked POverflow <->
   sp_sums sp_dirtree (Some (concat (map brings pre))) = false).
Proof. exact main_sums. Qed.
Print Assumptions C133_panics.
(** [n] zeros and the framing offset [2^64 - 1]. *)
Example C133_panics_case : forall n, 2 ^ 32 <= n -> n + 8 < 2 ^ 63 ->
  sp_sums sp_dirtree (Some (bad_tree n)) = false /\ len (bad_tree n) = n + 8 /\
  snd (ls_main (Host false true false 0 0) (inr [Bytes (bad_tree n); Bytes []]) 16 8 8 8) = Panicked POverflow.
Proof. intros n H1 H2. split; [now apply bad_tree_sums|]. split; [apply bad_tree_len|]. now apply bad_tree_panics. Qed.
(** If the file cannot be opened or read to its end, the function returns the error
    and [main] panics, nothing having been printed. *)
Theorem C133_errors : forall (h : host) (file : N + list outcome) (e : N),
  file = inl e \/ (exists pre rest, file = inr (pre ++ Fails e :: rest) /\ Forall goes_on pre) ->
  forall a1 a2 a3 a4, ls_function h file a1 a2 a3 a4 = ([], Errored e) /\ ls_main h file a1 a2 a3 a4 = ([], Panicked PUnwrap).
Proof. exact main_fails. Qed.
Print Assumptions C133_errors.
(** The same tree in three reads; and a read error after the first. *)
Example C133_case : let h := Host false true true 0 0 in
  let d1 := bs "hello" ++ [x00; x01; x02; x03; x04; x06] in
  let d2 := bs "world" ++ [x00; x04; x03; x02; x01; x06; x0b; x16] ++
            bs "my-dir" ++ [x00; x03; x14; x15; x92; x65; x35; x0b; x07; x0f; x18] in
  let calls := [Bytes d1; Interrupted; Bytes d2] in
  Forall goes_on calls /\ at_end [Bytes []] /\
  ls_main h (inr (calls ++ [Bytes []])) 4099 8192 12288 16384 =
  (bs "03141592 6535 my-dir/" ++ [x0a] ++ bs "01020304 hello" ++ [x0a] ++ bs "04030201 world" ++ [x0a], Returned) /\
  ls_main h (inr [Bytes d1; Fails 5]) 4099 8192 12288 16384 = ([], Panicked PUnwrap).
Proof. repeat split; try (vm_compute; reflexivity). repeat constructor; discriminate. Qed.
