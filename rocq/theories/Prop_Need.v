(** Which addresses a value can be read at: C147. *)
From Coq Require Import List NArith Init.Byte.
From Verif Require Import Base Types Layout AlignedBytes Strs Spec Deser Buf Histories LooseSpec NeedSpec NeedFacts NeedLeastFacts.
Import ListNotations.
Open Scope N_scope.

(** C147.  A release build that takes a slice to be aligned ([try_as_aligned] does not
    check) reads all of the value there just if the address is a multiple of the alignment of
    everything of fixed size lying in the bytes; else it is undefined behaviour. *)
Theorem C147_release : forall (h : host) (t : ty) (s : slice),
  h_debug h = false -> usable t -> slen s < 2 ^ 32 -> sp_reads t (Some (s_data s)) = true ->
  decode h t s =
    if s_addr s mod sp_needs t (Some (s_data s)) =? 0 then Ok (sp_decode (h_big_endian h) t (Some (s_data s)))
    else Crash UBMisaligned.
Proof. exact need_release. Qed.
Print Assumptions C147_release.
(** No build reads a value anywhere else, nor anything but the value. *)
Theorem C147_any_build : forall (h : host) (t : ty) (s : slice) (v : value),
  usable t -> slen s < 2 ^ 32 -> decode h t s = Ok v ->
  s_addr s mod sp_needs t (Some (s_data s)) = 0 /\ v = sp_decode (h_big_endian h) t (Some (s_data s)).
Proof. exact need_any. Qed.
Print Assumptions C147_any_build.
(** Wherever the bytes are, the outcome is the aligned one or that of a misaligned
    reference. *)
Theorem C147_any_address : forall (h : host) (t : ty) (s : slice),
  usable t -> slen s < 2 ^ 32 ->
  (exists c, decode h t s = Crash c /\ misaligned_crash h c) \/
  decode h t s = if sp_reads t (Some (s_data s)) then Ok (sp_decode (h_big_endian h) t (Some (s_data s))) else Crash PUnwrap.
Proof. exact at_any_address. Qed.
Print Assumptions C147_any_address.
(** From the type alone: a multiple of the greatest alignment of anything of fixed
    size in it is enough for a release build, whatever the bytes. *)
Theorem C147_by_type : forall (h : host) (t : ty) (s : slice),
  h_debug h = false -> usable t -> slen s < 2 ^ 32 -> sp_reads t (Some (s_data s)) = true ->
  s_addr s mod sp_could_need t = 0 -> decode h t s = Ok (sp_decode (h_big_endian h) t (Some (s_data s))).
Proof. exact could_release. Qed.
Print Assumptions C147_by_type.
(** Nothing less is enough: every type has data, which can be read and is not long, that
    is read just where the address is a multiple of that. *)
Theorem C147_least : forall (t : ty), usable t -> 24 * len (sp_show t) <= 2 ^ 32 ->
  exists d, len d < 24 * len (sp_show t) /\ sp_reads t (Some d) = true /\
    forall h a, h_debug h = false ->
      (decode h t (Slice a d) = Ok (sp_decode (h_big_endian h) t (Some d)) <-> a mod sp_could_need t = 0) /\
      (decode h t (Slice a d) = Crash UBMisaligned <-> a mod sp_could_need t <> 0).
Proof. exact could_least. Qed.
Print Assumptions C147_least.

(** [(st)], a string and a number: with its number at 8 the address has to be a
    multiple of 8, cut short any address will do.  An array of strings is read
    anywhere, and so is one of variants, whose alignment is 8; the debug build checks
    what the release build does not need. *)
Definition c147_d : list byte := [x61; x00; x00; x00; x00; x00; x00; x00; x05; x00; x00; x00; x00; x00; x00; x00; x02].
Definition c147_av : list byte := [x07; x00; x79; x03].
Example C147_case : let h := Host false false false 0 0 in let d := Host false true true 0 0 in let t := TTuple [TS; TT] in
  (usable t /\ slen (Slice 12 c147_d) < 2 ^ 32 /\ sp_reads t (Some c147_d) = true /\ sp_reads t (Some (firstn 7 c147_d)) = true) /\
  sp_needs t (Some c147_d) = 8 /\ sp_needs t (Some (firstn 7 c147_d)) = 1 /\ sp_could_need t = 8 /\
  decode h t (Slice 16 c147_d) = Ok (VTuple [VStr [x61]; VInt 5]) /\
  decode h t (Slice 12 c147_d) = Crash UBMisaligned /\ decode d t (Slice 12 c147_d) = Crash PAssert /\
  decode h t (Slice 13 (firstn 7 c147_d)) = Ok (VTuple [VStr []; VInt 0]) /\
  (usable (TA TV) /\ sp_reads (TA TV) (Some c147_av) = true) /\
  sp_align (TA TV) = 8 /\ sp_could_need (TA TV) = 1 /\ sp_could_need (TA (TTuple [TS; TN])) = 2 /\
  decode h (TA TV) (Slice 3 c147_av) = Ok (VArray [VVariant [x79] [x07]]) /\
  decode d (TA TV) (Slice 3 c147_av) = Crash PAssert.
Proof. vm_compute. repeat split. Qed.
(** [a(sn)], which needs 2: a string and a number, with an element. *)
Example C147_least_case : let h := Host false false false 0 0 in let t := TA (TTuple [TS; TN]) in
  (usable t /\ 24 * len (sp_show t) <= 2 ^ 32) /\ sp_could_need t = 2 /\
  let d := [x00; x00; x05; x00; x01; x05] in
  decode h t (Slice 6 d) = Ok (VArray [VTuple [VStr []; VInt 5]]) /\ decode h t (Slice 7 d) = Crash UBMisaligned.
Proof. split; [split; [vm_compute; repeat split|vm_compute; discriminate]|]. vm_compute. repeat split. Qed.
