(** Programs that compute with values of fixed-size types (generate_impl.rs:402-477): C141. *)
From Verif Require Import Base Types Spec Histories Deser Ser SerSpec MutSpec Copies CopiesSpec CopiesMore.

(** C141: a copy of a value has all its bytes, the paddings too: whatever is in
    memory where no field is, there are no such bytes. *)
Theorem C141_copies : forall (junk : nat -> byte) (t : ty) (n : N) (d : list byte),
  usable t -> sp_size t = Some n -> len d = n -> copied junk t d = Ok d.
Proof. exact copy_claim. Qed.
Print Assumptions C141_copies.
(** The default is all zeros, which are the bytes in normal form of the value that
    the rules give data of a wrong size. *)
Theorem C141_default : forall (junk : nat -> byte) (h : host) (t : ty) (n : N),
  usable t -> sp_size t = Some n -> has_default t = true ->
  defaulted junk t = Ok (nuls n) /\
  sp_encode (h_big_endian h) t (sp_default (h_big_endian h) t) = nuls n.
Proof. exact default_claim. Qed.
Print Assumptions C141_default.
(** Programs of copies, constructions, defaults, assignments and swaps do what the
    same programs do with records: nothing panics, every variable keeps its type and
    size, and has the value of the record wherever it is put and read. *)
Theorem C141_records : forall (h : host) (m : memory) (ss : list ((nat -> byte) * stmt)),
  let big := h_big_endian h in
  holds_values m -> stmts_ok big (the_values big m) (map snd ss) ->
  exists m', execs h m ss = Ok m' /\ holds_values m' /\
    Forall2 (fun b v => fst b = fst v /\
               forall a, a mod sp_align (fst b) = 0 -> decode h (fst b) (Slice a (snd b)) = Ok (snd v))
      m' (sp_execs big (the_values big m) (map snd ss)).
Proof. exact records_claim. Qed.
Print Assumptions C141_records.
(** From values in normal form they make only values in normal form. *)
Theorem C141_normal : forall (h : host) (m : memory) (ss : list ((nat -> byte) * stmt)),
  let big := h_big_endian h in
  holds_values m -> stmts_ok big (the_values big m) (map snd ss) -> all_normal big m ->
  exists m', execs h m ss = Ok m' /\ all_normal big m'.
Proof. exact normal_claim. Qed.
Print Assumptions C141_normal.

Example C141_case :
  let t := TTuple [TY; TU] in
  let h := Host false true true 0 0 in
  let j := fun _ : nat => xff in
  let m := [(t, [x05; x09; x09; x09; x01; x00; x00; x00])] in
  let ss := [(j, SLet t (ECopy 0 [])); (j, SAssign 1 [1]%nat (EInt 258)); (j, SSwap 0 [1]%nat 1 [1]%nat);
             (j, SLet (TTuple [TY; TU]) (ENew [EInt 7; ECopy 0 [1]%nat])); (j, SAssign 0 [] EDefault);
             (j, SSwap 0 [0]%nat 2 [0]%nat)] in
  usable t /\ sp_size t = Some 8 /\ has_default t = true /\
  holds_values m /\ stmts_ok false (the_values false m) (map snd ss) /\
  sp_execs false (the_values false m) (map snd ss) =
    [(t, VTuple [VInt 7; VInt 0]); (t, VTuple [VInt 5; VInt 1]); (t, VTuple [VInt 0; VInt 258])] /\
  execs h m ss = Ok [(t, [x07; x00; x00; x00; x00; x00; x00; x00]); (t, [x05; x09; x09; x09; x01; x00; x00; x00]);
                     (t, [x00; x00; x00; x00; x02; x01; x00; x00])] /\
  all_normal false [(t, [x05; x00; x00; x00; x01; x00; x00; x00])].
Proof.
  cbv zeta. repeat match goal with |- _ /\ _ => split end;
    try (lazymatch goal with |- _ = _ => reflexivity end).
  - split; reflexivity.
  - constructor; [|constructor]. split; [split; reflexivity|reflexivity].
  - cbn. repeat split; try reflexivity; try discriminate.
    + exists TU. repeat split; try reflexivity; discriminate.
    + exists TU. split; reflexivity.
    + exists (TTuple [TY; TU]). split; reflexivity.
    + exists TY. split; reflexivity.
  - constructor; [reflexivity|constructor].
Qed.
