(** Reading and the text of the GVariant Specification: C95.  The Specification's
    decoder and the data to which no documented deviation applies are in
    PaperSpec.v. *)
From Verif Require Import Base Types Spec Deser Histories LongSpec PaperSpec PaperFacts.

(** C95: data to which none of the documented deviations applies reads as the
    Specification says (or panics, where C48 says so). *)
Theorem C95_follows_the_specification : forall (nm : names) (h : host) (t : ty) (s : slice),
  usable t -> aligned (sp_align t) s -> len (s_data s) < 2 ^ 63 ->
  sp_near t (Some (s_data s)) = true -> pa_plain nm t (s_data s) = true ->
  decode h t s = if sp_reads t (Some (s_data s)) then Ok (pa_decode nm (h_big_endian h) t (s_data s)) else Crash PUnwrap.
Proof. exact paper_claim. Qed.
Print Assumptions C95_follows_the_specification.
Definition any_names : names :=
  Names (fun p => match p with "/"%byte :: _ => true | _ => false end) (fun _ => true)
        (fun t => match t with [_] => true | _ => false end).
(** Not in normal form: the integer is preceded by bytes that are not zero, the
    second string has no NUL at its end. *)
Example C95_case : let t := TTuple [TO; TI; TA TS; TV] in let h := Host false true true 0 0 in
  let s := Slice 16 [x2f; x00; xff; xff; x05; x00; x00; x00; x61; x00; x62; x02; x03; x00; x00; x00; x07; x00; x79; x0d; x02] in
  usable t /\ aligned (sp_align t) s /\ sp_near t (Some (s_data s)) = true /\ pa_plain any_names t (s_data s) = true /\
  decode h t s = Ok (VTuple [VStr (bs "/"); VInt 5; VArray [VStr (bs "a"); VStr []]; VVariant (bs "y") [x07]]).
Proof. intros t h s. split; [split; reflexivity|]. repeat split; vm_compute; reflexivity. Qed.
(** Normal forms of values whose object paths, signatures and type strings are
    valid are such data, and the Specification reads them back. *)
Theorem C95_normal_forms : forall (nm : names) (big : bool) (t : ty) (v : value),
  sp_typed t v -> pa_named nm t v = true -> len (sp_encode big t v) < 2 ^ 63 ->
  pa_plain nm t (sp_encode big t v) = true /\ pa_decode nm big t (sp_encode big t v) = v.
Proof. exact paper_normal. Qed.
Print Assumptions C95_normal_forms.
Example C95_normal_case : let t := TTuple [TO; TA TS; TV] in
  let v := VTuple [VStr (bs "/a"); VArray [VStr []; VStr (bs "x")]; VVariant (bs "y") [x00]] in
  sp_typed t v /\ pa_named any_names t v = true /\ len (sp_encode false t v) = 13.
Proof.
  intros t v. split; [|split; reflexivity]. cbn. unfold good_string.
  repeat split; try (intros H; cbn in H; intuition discriminate); apply Utf8Facts.sp_utf8_ok; reflexivity.
Qed.

(** The deviations.  Strings with a NUL inside or that are not UTF-8 are empty: *)
Theorem C95_strings : forall (nm : names) (h : host) (s : slice),
  len (s_data s) < 2 ^ 63 -> terminated (s_data s) = true -> pa_text (s_data s) = false ->
  decode h TS s = Ok (VStr []) /\ pa_decode nm (h_big_endian h) TS (s_data s) = VStr (to_nul (s_data s)).
Proof. exact string_deviates. Qed.
Print Assumptions C95_strings.
Example C95_strings_case : terminated [x61; x00; x62; x00] = true /\ pa_text [x61; x00; x62; x00] = false /\
  to_nul [x61; x00; x62; x00] = bs "a" /\
  terminated [xff; x00] = true /\ pa_text [xff; x00] = false /\ to_nul [xff; x00] = [xff].
Proof. repeat split; reflexivity. Qed.
(** object paths and signatures are not checked: *)
Theorem C95_object_paths : forall (nm : names) (h : host) (a : N) (x : list byte),
  good_string x -> len x + 1 < 2 ^ 63 -> ok_path nm x = false ->
  decode h TO (Slice a (x ++ [x00])) = Ok (VStr x) /\ pa_decode nm (h_big_endian h) TO (x ++ [x00]) = VStr ["/"%byte].
Proof. exact path_deviates. Qed.
Print Assumptions C95_object_paths.
Theorem C95_signatures : forall (nm : names) (h : host) (a : N) (x : list byte),
  good_string x -> len x + 1 < 2 ^ 63 -> ok_sig nm x = false ->
  decode h TG (Slice a (x ++ [x00])) = Ok (VStr x) /\ pa_decode nm (h_big_endian h) TG (x ++ [x00]) = VStr [].
Proof. exact sig_deviates. Qed.
Print Assumptions C95_signatures.
(** nor are the type strings of variants: *)
Theorem C95_variants : forall (nm : names) (h : host) (a : N) (data ts : list byte),
  a mod 8 = 0 -> ~ In x00 ts -> len data + len ts + 1 < 2 ^ 63 -> ok_type nm ts = false ->
  decode h TV (Slice a (data ++ x00 :: ts)) = Ok (VVariant ts data) /\
  pa_decode nm (h_big_endian h) TV (data ++ x00 :: ts) = VVariant ["("; ")"]%byte [].
Proof. exact variant_deviates. Qed.
Print Assumptions C95_variants.
(** children that overlap the framing offsets take the default value: *)
Theorem C95_overlap : forall (nm : names) (h : host) (a : N),
  (decode h (TA TS) (Slice a [x61; x03; x00; x01]) = Ok (VArray [VStr []; VStr []; VStr []]) /\
   pa_decode nm (h_big_endian h) (TA TS) [x61; x03; x00; x01] = VArray [VStr [x61; x03]; VStr []; VStr []]) /\
  (decode h (TTuple [TS; TS; TS]) (Slice a [x61; x00; x02]) = Ok (VTuple [VStr []; VStr []; VStr []]) /\
   pa_decode nm (h_big_endian h) (TTuple [TS; TS; TS]) [x61; x00; x02] = VTuple [VStr (bs "a"); VStr []; VStr []]).
Proof. exact overlap_deviates. Qed.
Print Assumptions C95_overlap.
Example C95_names_case : good_string (bs "a") /\ ok_path any_names (bs "a") = false /\
  (let nm := Names (fun _ => true) (fun _ => false) (fun _ => true) in ok_sig nm (bs "a") = false) /\
  ok_type any_names (bs "zz") = false /\ ~ In x00 (bs "zz").
Proof. repeat split; try (intros H; cbn in H; intuition discriminate); try reflexivity. apply Utf8Facts.sp_utf8_ok; reflexivity. Qed.
