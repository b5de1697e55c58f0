(** Exactly what the texts of [{:?}] and [{:#?}] tell about the value: C120. *)
From Verif Require Import Base Types Layout AlignedBytes Strs Spec Deser Buf Histories Fmt FmtSpec CoreFmt PrintSpec PrintFacts LossyFacts TellFacts
  Flags FlagSpec FlagFacts PrettyFacts.

(** C120: views of one type, anywhere and on any machines, have one text just if
    their values differ only in doubles written alike and type strings mended alike ... *)
Theorem C120_debug : forall (shown : N -> bool) (double : N -> list byte), numeric double ->
  forall (h h' : host) (t : ty) (r r' : slice) (v v' : value),
  view h t r -> view h' t r' -> read h t r = Ok v -> read h' t r' = Ok v' ->
  ((exists s, fmt_debug h (core_fmts shown double) t r = Ok s /\ fmt_debug h' (core_fmts shown double) t r' = Ok s) <->
   alike double v v').
Proof. exact alike_claim. Qed.
Print Assumptions C120_debug.
(** ... with [{:#?}] as with [{:?}]. *)
Theorem C120_pretty : forall (shown : N -> bool) (double : N -> list byte), numeric double ->
  forall (h h' : host) (t : ty) (r r' : slice) (v v' : value),
  view h t r -> view h' t r' -> read h t r = Ok v -> read h' t r' = Ok v' ->
  ((exists s, fmt_flags h (core_fmts shown double) (pretty shown double) t r = Ok s /\
              fmt_flags h' (core_fmts shown double) (pretty shown double) t r' = Ok s) <->
   alike double v v').
Proof. exact pretty_alike_claim. Qed.
Print Assumptions C120_pretty.

(** NaNs with different bits, and variants with different bad type strings, on
    machines of both byte orders. *)
Definition c120_type : ty := TTuple [TD; TV].
Definition c120_double (b : N) : list byte := if sp_nan b then bs "NaN" else core_int (Z.of_N b).
Definition c120_bytes (n c : byte) : list byte := [n; x00; x00; x00; x00; x00; xf8; x7f; x05; x00; c].
Definition c120_bytes_be (n c : byte) : list byte := [x7f; xf8; x00; x00; x00; x00; x00; n; x05; x00; c].
Definition c120_value (n : N) (c : byte) : value := VTuple [VDouble (0x7ff8000000000000 + n); VVariant [c] [x05]].
Example C120_case : let h := Host false true true 0 0 in let h' := Host true false false 1 8 in
  let F := core_fmts (fun c => 31 <? c) c120_double in let G := pretty (fun c => 31 <? c) c120_double in
  let r := Slice 16 (c120_bytes x01 xff) in let r' := Slice 64 (c120_bytes_be x02 xfe) in
  numeric c120_double /\ view h c120_type r /\ view h' c120_type r' /\
  read h c120_type r = Ok (c120_value 1 xff) /\ read h' c120_type r' = Ok (c120_value 2 xfe) /\
  alike c120_double (c120_value 1 xff) (c120_value 2 xfe) /\ c120_value 1 xff <> c120_value 2 xfe /\
  fmt_debug h F c120_type r = Ok (bs "(NaN, Variant { type: """ ++ [xef; xbf; xbd] ++ bs """, data: [5] })") /\
  fmt_flags h' F G c120_type r' = Ok (bs "(
    NaN,
    Variant { type: """ ++ [xef; xbf; xbd] ++ bs """, data: [5] },
)") /\
  ~ alike c120_double (c120_value 1 xff) (VTuple [VDouble 0; VVariant [xff] [x05]]).
Proof.
  intros h h' F G r r'. split; [|split; [|split; [|split; [|split; [|split; [|split; [|split; [|split]]]]]]]].
  - intros b. unfold c120_double. destruct (sp_nan b); [|exact (core_int_chars (Z.of_N b))].
    split; [discriminate|]. repeat constructor; cbn; tauto.
  - exists c120_type, r. split; [split; reflexivity|]. split; [reflexivity|]. split; [reflexivity|]. apply reach_cast. reflexivity.
  - exists c120_type, r'. split; [split; reflexivity|]. split; [reflexivity|]. split; [reflexivity|]. apply reach_cast. reflexivity.
  - vm_compute. reflexivity.
  - vm_compute. reflexivity.
  - apply al_tuple. repeat constructor; try (vm_compute; reflexivity).
    apply (al_variant _ _ _ (utf8_of 65533)); apply lossy_claim; vm_compute; reflexivity.
  - vm_compute. discriminate.
  - vm_compute. reflexivity.
  - vm_compute. reflexivity.
  - intros H. inversion H as [| | | | | | | |? ? H1]; subst. inversion H1 as [|? ? ? ? H2]; subst. inversion H2 as [| |? ? H3| | | | | |]; subst.
    vm_compute in H3. discriminate.
Qed.
