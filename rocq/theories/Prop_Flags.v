(** Format flags: C117. *)
From Verif Require Import Base Types Layout AlignedBytes Strs Spec Deser Buf Histories Fmt FmtSpec CoreFmt Flags FlagSpec FlagFacts.

(** C117: under any flags, what is printed depends on the value and the flags alone;
    with [#], slices, maybes and structures are broken into lines. *)
Theorem C117_flags : forall (h : host) (F : fmts) (G : flags) (t : ty) (r : slice) (v : value),
  (g_alternate G = true -> one_lines F G) -> view h t r -> read h t r = Ok v ->
  fmt_flags h F G t r = Ok (sp_flags F G 0 t v).
Proof. exact flags_claim. Qed.
Print Assumptions C117_flags.
(** For what core writes with [{:#?}] the condition holds, if doubles have no line breaks. *)
Theorem C117_pretty : forall (shown : N -> bool) (double : N -> list byte) (h : host) (t : ty) (r : slice) (v : value),
  (forall n, one_line (double n)) -> view h t r -> read h t r = Ok v ->
  fmt_flags h (core_fmts shown double) (pretty shown double) t r = Ok (sp_pretty (core_fmts shown double) t v).
Proof. exact pretty_claim. Qed.
Print Assumptions C117_pretty.
(** Owned values, with [Debug] and [Display]. *)
Theorem C117_owned : forall (h : host) (F : fmts) (G : flags) (t : ty) (d : list byte) (q : slice) (a1 a2 : N) (v : value),
  (g_alternate G = true -> one_lines F G) ->
  usable t -> a1 + 8 < 2 ^ 64 -> a2 + 8 < 2 ^ 64 -> d <> [] -> len d < 2 ^ 63 ->
  aligned (sp_align t) q -> s_data q = d -> decode h t q = Ok v ->
  exists b, owned_from_bytes h d a1 a2 = Ok b /\ owned_flags h F G t b = Ok (sp_flags F G 0 t v).
Proof. exact owned_flags_claim. Qed.
Print Assumptions C117_owned.
(** Printing panics exactly when reading does. *)
Theorem C117_panics : forall (h : host) (F : fmts) (G : flags) (t : ty) (r : slice),
  (g_alternate G = true -> one_lines F G) -> view h t r ->
  ((exists c, fmt_flags h F G t r = Crash c) <-> (exists c, read h t r = Crash c)).
Proof. exact flags_panic_claim. Qed.
Print Assumptions C117_panics.
(** Without flags this is C64's [{:?}]. *)
Theorem C117_without_flags : forall (h : host) (F : fmts) (t : ty) (s : slice),
  fmt_flags h F (no_flags F) t s = fmt_debug h F t s.
Proof. exact no_flags_claim. Qed.
Print Assumptions C117_without_flags.

(** An array of strings stays on one line, inside a structure that does not. *)
Example C117_case : let h := Host false true true 0 0 in
  let t := TTuple [TA TS; TA (TTuple [TY; TY]); TM TI; TA TI] in
  let s := Slice 16 [x68; x69; x00; x03; x00; x07; x00; x00; xff; xff; xff; xff; x0c; x06; x04] in
  let double := fun n => core_int (Z.of_N n) in
  (forall n, one_line (double n)) /\ view h t s /\
  read h t s = Ok (VTuple [VArray [VStr [x68; x69]]; VArray [VTuple [VInt 0; VInt 7]]; VMaybe (Some (VInt (-1))); VArray []]) /\
  fmt_flags h (core_fmts (fun c => 31 <? c) double) (pretty (fun c => 31 <? c) double) t s = Ok (bs "(
    [""hi"", ],
    [
        (
            0,
            7,
        ),
    ],
    Some(
        -1,
    ),
    [],
)").
Proof.
  intros h t s double. split; [intros n; apply core_int_one|]. split.
  { exists t, s. split; [split; reflexivity|]. split; [reflexivity|]. split; [reflexivity|]. apply reach_cast. reflexivity. }
  split; vm_compute; reflexivity.
Qed.
(** A maybe whose content is not a whole number of elements. *)
Example C117_panics_case : let h := Host false true true 0 0 in
  let s := Slice 16 [x01; x02; x00] in
  view h (TM (TA TI)) s /\ read h (TM (TA TI)) s = Crash PUnwrap.
Proof.
  intros h s. split; [|reflexivity].
  exists (TM (TA TI)), s. split; [split; reflexivity|]. split; [reflexivity|]. split; [reflexivity|].
  apply reach_cast. reflexivity.
Qed.
