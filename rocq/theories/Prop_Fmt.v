(** Printing with [{:?}]: C64, C65. *)
From Verif Require Import Base Types Layout AlignedBytes Strs Spec Deser Buf Histories Fmt FmtSpec FmtFacts.

(** C64: what is printed is a function of the value alone. *)
Theorem C64_debug_prints_the_value : forall (h : host) (F : fmts) (t : ty) (r : slice) (v : value),
  view h t r -> read h t r = Ok v -> fmt_debug h F t r = Ok (sp_print F t v).
Proof. exact fmt_claim. Qed.
Print Assumptions C64_debug_prints_the_value.
(** An owned copy prints the same, with [{:?}] and with [{}]. *)
Theorem C64_owned_prints_the_value : forall (h : host) (F : fmts) (t : ty) (d : list byte) (q : slice) (a1 a2 : N) (v : value),
  usable t -> a1 + 8 < 2 ^ 64 -> a2 + 8 < 2 ^ 64 -> d <> [] -> len d < 2 ^ 63 ->
  aligned (sp_align t) q -> s_data q = d -> decode h t q = Ok v ->
  exists b, owned_from_bytes h d a1 a2 = Ok b /\ owned_fmt h F t b = Ok (sp_print F t v).
Proof. exact owned_fmt_claim. Qed.
Print Assumptions C64_owned_prints_the_value.
(** C65: printing panics exactly when reading does, and never does worse. *)
Theorem C65_debug_panics_with_reading : forall (h : host) (F : fmts) (t : ty) (r : slice), view h t r ->
  ((exists c, fmt_debug h F t r = Crash c) <-> (exists c, read h t r = Crash c)).
Proof. exact fmt_panic_claim. Qed.
Print Assumptions C65_debug_panics_with_reading.
Theorem C65_debug_only_panics : forall (h : host) (F : fmts) (t : ty) (r : slice) (c : crash),
  view h t r -> fmt_debug h F t r = Crash c ->
  (c = PUnwrap /\ sp_tame t = false) \/
  (c = POverflow /\ h_overflow_checks h = true /\ 2 ^ 32 <= len (s_data r)).
Proof. exact fmt_safe_claim. Qed.
Print Assumptions C65_debug_only_panics.

(** Arrays of variable-size elements have a comma after the last element,
    slices have not. *)
Definition c64_fmts : fmts :=
  Fmts (fun z => match z with Z0 => bs "0" | Zpos _ => bs "+" | Zneg _ => bs "-" end)
       (fun _ => bs "d") (fun s => bs "'" ++ s ++ bs "'") (fun s => s).
Example C64_case : let h := Host false true true 0 0 in
  let t := TTuple [TA TS; TA TY; TM TI] in
  let s := Slice 16 [x68; x69; x00; x03; x00; x07; x00; x00; xff; xff; xff; xff; x06; x04] in
  view h t s /\ usable t /\ aligned (sp_align t) s /\
  read h t s = Ok (VTuple [VArray [VStr [x68; x69]]; VArray [VInt 0; VInt 7]; VMaybe (Some (VInt (-1)))]) /\
  fmt_debug h c64_fmts t s = Ok (bs "(['hi', ], [0, +], Some(-))") /\
  (let* b := owned_from_bytes h (s_data s) 3 11 in owned_fmt h c64_fmts t b) = Ok (bs "(['hi', ], [0, +], Some(-))").
Proof.
  intros h t s. split.
  { exists t, s. split; [split; reflexivity|]. split; [reflexivity|]. split; [reflexivity|].
    apply reach_cast. reflexivity. }
  repeat split; vm_compute; reflexivity.
Qed.
(** A maybe whose content is not a whole number of elements. *)
Example C65_case : let h := Host false true true 0 0 in
  let s := Slice 16 [x01; x02; x00] in
  view h (TM (TA TI)) s /\ read h (TM (TA TI)) s = Crash PUnwrap /\
  fmt_debug h c64_fmts (TM (TA TI)) s = Crash PUnwrap /\ sp_tame (TM (TA TI)) = false.
Proof.
  intros h s. split; [|repeat split].
  exists (TM (TA TI)), s. split; [split; reflexivity|]. split; [reflexivity|]. split; [reflexivity|].
  apply reach_cast. reflexivity.
Qed.
