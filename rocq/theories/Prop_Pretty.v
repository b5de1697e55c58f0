(** What the text of [{:#?}] tells about the value: C118. *)
From Verif Require Import Base Types Layout AlignedBytes Strs Spec Deser Buf Histories Fmt FmtSpec CoreFmt PrintSpec PrintFacts Flags FlagSpec FlagFacts PrettyFacts.

(** C118: views of one type, anywhere and on any machines, that print alike with
    [{:#?}] show the same value, if it has no NaNs and its type strings are UTF-8. *)
Theorem C118_text_tells_the_value : forall (shown : N -> bool) (double : N -> list byte), writes_doubles double ->
  forall (h h' : host) (t : ty) (r r' : slice) (v v' : value) (s : list byte),
  view h t r -> view h' t r' -> read h t r = Ok v -> read h' t r' = Ok v' -> legible v -> legible v' ->
  fmt_flags h (core_fmts shown double) (pretty shown double) t r = Ok s ->
  fmt_flags h' (core_fmts shown double) (pretty shown double) t r' = Ok s -> v = v'.
Proof. exact pretty_tells. Qed.
Print Assumptions C118_text_tells_the_value.

Example C118_case : let h := Host false true true 0 0 in
  let t := TTuple [TA TS; TM TN; TV] in
  let d := [x22; x09; x61; x00; x04; x00; xfe; xff; x07; x00; x79; x08; x05] in
  let v := VTuple [VArray [VStr [x22; x09; x61]]; VMaybe (Some (VInt (-2))); VVariant [x79] [x07]] in
  let double := fun n => core_int (Z.of_N n) in
  writes_doubles double /\ view h t (Slice 16 d) /\ read h t (Slice 16 d) = Ok v /\ legible v /\
  fmt_flags h (core_fmts (fun c => 31 <? c) double) (pretty (fun c => 31 <? c) double) t (Slice 16 d) = Ok (bs "(
    [""\""\ta"", ],
    Some(
        -2,
    ),
    Variant { type: ""y"", data: [7] },
)").
Proof.
  intros h t d v double. split; [|split; [|split; [|split]]].
  - split.
    + intros b. exact (core_int_chars (Z.of_N b)).
    + intros a b _ _ E. apply core_int_inj in E. apply N2Z.inj. exact E.
  - exists t, (Slice 16 d). split; [split; reflexivity|]. split; [reflexivity|].
    split; [reflexivity|]. apply reach_cast. reflexivity.
  - vm_compute. reflexivity.
  - repeat split. exists [121]. split; [|reflexivity]. constructor; [left; reflexivity|constructor].
  - vm_compute. reflexivity.
Qed.
