(** What calling [next] again and again, panics or not, is to do. *)
From Verif Require Import Base Types Spec Deser.

(** The calls numbered 0 to k-1. *)
Definition sp_upto (k : nat) : list N := map N.of_nat (seq 0 k).
(** Call i gives a[i], or its panic; after the last element there is nothing. *)
Definition sp_call (h : host) (x : ty) (s : slice) (n i : N) : res (option slice) :=
  if i <? n then let* r := nfwa_index h x s i in Ok (Some r) else Ok None.
(** But once computing a[j] overflows, every further call does the same. *)
Definition overflows (r : res slice) : bool := match r with Crash POverflow => true | _ => false end.
Definition sp_stuck_call (h : host) (x : ty) (s : slice) (n i : N) : res (option slice) :=
  if existsb (fun j => overflows (nfwa_index h x s j)) (sp_upto (N.to_nat (N.min n (i + 1))))
  then Crash POverflow else sp_call h x s n i.
