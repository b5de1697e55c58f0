(** The iterator of [NonFixedWidthArray] as a caller sees it who catches panics
    (gvariant/src/lib.rs:1553-1573). *)
From Verif Require Import Base Types Layout AlignedBytes Deser.

(** [Iterator::next] (lib.rs:1555-1573): the iterator afterwards and what the call
    did.  The fields are assigned at 1561 and 1562, so a panic before that (1559,
    1560) leaves the iterator as it was, one after that (1568, 1570) does not. *)
Definition nfwa_step (h : host) (x : ty) (it : nfwa_iter) : nfwa_iter * res (option slice) :=
  if blen (it_offsets it) <=? it_offset_idx it then (it, Ok None)
  else
    match (let* start := align_offset h (trait_align x) (it_next_start it) in
           let* tail := bs_from (it_offsets it) (it_offset_idx it) in
           let* end_ := read_uint h tail (it_osz it) 0 in
           let* idx := uadd h (it_offset_idx it) (osz_n (it_osz it)) in
           Ok (start, end_, idx)) with
    | Crash c => (it, Crash c)
    | Ok (start, end_, idx) =>
        (NfwaIter (it_data it) (it_offsets it) end_ idx (it_osz it),
         if (end_ <? start) || (slen (it_data it) <? end_) then
           let* e := empty_aligned h (trait_align x) in
           let* r := cast_unwrap h x e in
           Ok (Some r)
         else
           let* a := ix_to h (trait_align x) (it_data it) end_ in
           let* b := ix_from_al h (trait_align x) a start in
           let* r := cast_unwrap h x b in
           Ok (Some r))
    end.
(** So many calls of [next] one after another (lib.rs:1555), whatever they do. *)
Fixpoint nfwa_calls (h : host) (x : ty) (n : nat) (it : nfwa_iter) : list (res (option slice)) :=
  match n with
  | O => []
  | S n => let p := nfwa_step h x it in snd p :: nfwa_calls h x n (fst p)
  end.
