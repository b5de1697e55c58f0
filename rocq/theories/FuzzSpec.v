(** What is assumed of a run of the fuzz target. *)
From Verif Require Import Base Types Spec Fuzz.

(** The allocator stays below the top of the address space. *)
Definition mem_ok (mem : ty -> N * N * N) : Prop :=
  forall t, snd (fst (mem t)) + 8 < 2 ^ 64 /\ snd (mem t) + 8 < 2 ^ 64.
(** The assertion on arrays of byte arrays of these sizes is weaker, as GLib's
    verdict on them cannot be relied on. *)
Definition excused (t : ty) (d : list byte) : Prop := t = TA (TA TY) /\ 256 <= len d < 512.
(** The input is shorter than 4 GiB, its normal forms fit into memory, and GLib
    calls only normal forms normal. *)
Definition fuzz_run (h : host) (normal : ty -> bool) (d : list byte) : Prop :=
  len d < 2 ^ 32 /\
  forall t, In t (fuzz_struct_ty :: fuzz_types) ->
    let e := sp_encode (h_big_endian h) t (sp_decode (h_big_endian h) t (Some d)) in
    len e < 2 ^ 63 /\ (normal t = true -> e = d \/ excused t d).

