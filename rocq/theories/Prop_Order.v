(** Byte order and validity of what is read: C99, C100.  [sp_swap] turns round the
    bytes of every number in a value (SwapSpec.v). *)
From Verif Require Import Base Types Spec Deser Histories Ser SerSpec SwapSpec SwapFacts WrapMore.

(** C99: the same data read on a machine of the other byte order is the same value
    with the bytes of every number turned round; in particular framing offsets are
    read alike, and reading panics on both or on neither. *)
Theorem C99_reading : forall (h : host) (t : ty) (s : slice),
  usable t -> aligned (sp_align t) s -> len (s_data s) < 2 ^ 63 ->
  decode (other h) t s = match decode h t s with Ok v => Ok (sp_swap t v) | Crash c => Crash c end.
Proof. exact swap_all_claim. Qed.
Print Assumptions C99_reading.
Example C99_reading_case : let h := Host false true true 0 0 in let t := TTuple [TA TS; TN; TD] in
  let s := Slice 8 [x61; x00; x02; x00; xfe; xff; x00; x00; x00; x00; x00; x00; x00; x00; x00; x40; x03] in
  usable t /\ aligned (sp_align t) s /\
  decode h t s = Ok (VTuple [VArray [VStr (bs "a")]; VInt (-2); VDouble (2 ^ 62)]) /\
  decode (other h) t s = Ok (VTuple [VArray [VStr (bs "a")]; VInt (-257); VDouble 64]).
Proof. intros h t s. split; [split; reflexivity|]. repeat split; vm_compute; reflexivity. Qed.
(** Turning round twice gives the value back. *)
Theorem C99_twice : forall (t : ty) (v : value), sp_typed t v -> sp_typed t (sp_swap t v) /\ sp_swap t (sp_swap t v) = v.
Proof. exact swap_typed. Qed.
Print Assumptions C99_twice.
(** What a machine of the other byte order writes for a value is what this one
    would write for the value turned round.  ([rvalue] is the value it means: the
    contents of a [VariantWrap] are in its own byte order.) *)
Theorem C99_writing : forall (h : host) (t : ty) (r : rval) (v : value),
  usable t -> rtyped t r -> no_nuls t r ->
  rvalue true (negb (h_big_endian h)) t r = v ->
  len (sp_written (negb (h_big_endian h)) t v) < 2 ^ 63 ->
  sp_output (serialize (other h) t r None) = sp_written (h_big_endian h) t (sp_swap t v).
Proof. exact write_swap_claim. Qed.
Print Assumptions C99_writing.
Example C99_writing_case : let h := Host false true true 0 0 in let t := TTuple [TS; TQ] in
  let r := RTuple [RStr (bs "a"); RInt 258] in
  rtyped t r /\ rvalue true true t r = VTuple [VStr (bs "a"); VInt 258] /\
  sp_swap t (VTuple [VStr (bs "a"); VInt 258]) = VTuple [VStr (bs "a"); VInt 513] /\
  sp_output (serialize (other h) t r None) = [x61; x00; x01; x02; x02] /\
  sp_written false t (VTuple [VStr (bs "a"); VInt 513]) = [x61; x00; x01; x02; x02].
Proof.
  intros h t r. split; [|repeat split; reflexivity]. cbn. repeat split; try discriminate.
  apply Utf8Facts.sp_utf8_ok; reflexivity.
Qed.
(** Exactly the types without numbers of several bytes are portable. *)
Theorem C99_portable : forall (h : host) (t : ty) (s : slice),
  usable t -> sp_portable t = true -> aligned (sp_align t) s -> len (s_data s) < 2 ^ 63 ->
  decode (other h) t s = decode h t s.
Proof. exact portable_all_claim. Qed.
Print Assumptions C99_portable.
Theorem C99_not_portable : forall (h : host) (t : ty), usable t -> sp_portable t = false ->
  exists d v, decode h t (Slice 0 d) = Ok v /\ decode (other h) t (Slice 0 d) = Ok (sp_swap t v) /\ sp_swap t v <> v.
Proof. exact not_portable_claim. Qed.
Print Assumptions C99_not_portable.
Example C99_portable_case : let t := TA (TDict TS TV) in let u := TM (TTuple [TY; TN]) in
  usable t /\ sp_portable t = true /\ usable u /\ sp_portable u = false.
Proof. repeat split; reflexivity. Qed.

(** C100: whatever the bytes, what is read is a value of the type: numbers in
    range, strings UTF-8 and without NUL, type strings of variants without NUL,
    structures with as many members as the type has. *)
Theorem C100_valid_values : forall (h : host) (t : ty) (s : slice) (v : value),
  usable t -> aligned (sp_align t) s -> len (s_data s) < 2 ^ 63 ->
  decode h t s = Ok v -> sp_typed t v.
Proof. exact typed_all_claim. Qed.
Print Assumptions C100_valid_values.
Example C100_case : let h := Host false true true 0 0 in let t := TTuple [TS; TV; TY] in
  let s := Slice 8 [xff; x00; x00; x00; x00; x00; x00; x00; x00; x00; x00; x0a; x02] in
  usable t /\ aligned (sp_align t) s /\
  decode h t s = Ok (VTuple [VStr []; VVariant [] [x00]; VInt 0]).
Proof. intros h t s. split; [split; reflexivity|]. repeat split; vm_compute; reflexivity. Qed.
