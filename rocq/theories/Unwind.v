(** Operations during which the program may panic and go on afterwards
    ([catch_unwind], another thread): the operations on [GString] (lib.rs:908-1090)
    and [AlignedBuf::with_vec] (buf.rs:54-70), step by step, with what is left
    behind when one of the steps panics.

    [String::reserve] (and with it [push] and [push_str], when the capacity does
    not suffice) panics with "capacity overflow" if the new size would exceed
    [isize::MAX].  If the allocator has no memory the program is aborted, or, with
    an allocation error hook, panics; here it may panic as well. *)
From Verif Require Import Base Types Layout AlignedBytes Deser Strs Buf.

(** How a call ended. *)
Inductive ending (A : Type) := Returned (x : A) | Panicked.
Arguments Returned {A}. Arguments Panicked {A}.
(** The allocator's answer to a request for memory: a capacity to aim at, or
    none. *)
Inductive grant := Grant (n : N) | Refuse.

(** ** [String] (std): a step leaves a string behind in any case. *)
Definition step (A : Type) := gstring -> gstring * ending A.
Definition done {A} (x : A) : step A := fun g => (g, Returned x).
Definition andthen {A B} (m : step A) (f : A -> step B) : step B :=
  fun g => match m g with
           | (g', Returned x) => f x g'
           | (g', Panicked) => (g', Panicked)
           end.
Notation "m >>> f" := (andthen m (fun _ => f)) (at level 60, right associativity).

(** [String::reserve]. *)
Definition st_reserve (additional : N) (a : grant) : step unit := fun g =>
  let needed := blen (g_data g) + additional in
  if needed <=? g_cap g then (g, Returned tt)
  else if 2 ^ 63 <=? needed then (g, Panicked)
  else match a with
       | Grant n => (GS (g_data g) (N.max needed n), Returned tt)
       | Refuse => (g, Panicked)
       end.
(** [String::push_str], [+=], [push]: make room, then append. *)
Definition st_push (s : list byte) (a : grant) : step unit :=
  st_reserve (blen s) a >>> fun g => (GS (g_data g ++ s) (g_cap g), Returned tt).
(** [String::pop], [String::clear] keep the allocation. *)
Definition st_pop : step unit := fun g => (GS (pop (g_data g)) (g_cap g), Returned tt).
Definition st_clear : step unit := fun g => (GS [] (g_cap g), Returned tt).

(** ** [GString] *)
(** [try_push_str] (1003-1013) and [write_str] (1045-1049); the result tells
    whether the string was appended. *)
Definition un_try_push_str (s : list byte) (a1 a2 a3 : grant) : step bool :=
  if has_nul s then done false
  else st_reserve (blen s) a1 >>> st_pop >>> st_push s a2 >>> st_push [x00] a3 >>> done true.
(** [clear] (970-973). *)
Definition un_clear (a : grant) : step bool := st_clear >>> st_push [x00] a >>> done true.
(** [reserve] (964-966). *)
Definition un_reserve (additional : N) (a : grant) : step bool :=
  st_reserve additional a >>> done true.

(** ** [AlignedBuf::with_vec] (buf.rs:54-70) *)
(** The callback leaves a vector behind and returns or panics; the guard's [drop]
    aligns the vector again in both cases (buf.rs:92-104), and then the call ends
    the way the callback did.  Aligning starts with [reserve(7)], which gives the
    vector an address ([Some]) or panics and leaves it as it is ([None]); a panic
    there while the callback's is under way ends the program (here [None] as the
    result).  Simplified: also a vector with seven bytes of unused capacity may be
    refused.  A panic of [unalign] comes from [rotate_left] (buf.rs:115), before
    anything is changed. *)
Definition un_with_vec {T : Type} (h : host) (b : vec) (f : vec -> vec * ending T) (memory : option N)
  : res (option (vec * ending T)) :=
  match vec_unalign h b with
  | Crash _ => Ok (Some (b, Panicked))
  | Ok v =>
      let '(v, e) := f v in
      if vec_is_aligned v then Ok (Some (v, e))
      else match memory with
           | Some new_addr => let* b := align_cold h v new_addr in Ok (Some (b, e))
           | None => match e with
                     | Returned _ => Ok (Some (v, Panicked))
                     | Panicked => Ok None
                     end
           end
  end.
