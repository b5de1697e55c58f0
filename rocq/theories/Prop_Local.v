(** Which bytes matter for a child: C94.  Terms in LocalSpec.v. *)
From Verif Require Import Base Types Spec Deser Histories LocalSpec LocalFacts.

(** C94: an element of an array depends only on its own bytes, the last framing
    offset, its own and the one before: if another array, at the same address and
    of the same length, agrees on these, it has as many elements and this element
    is the same. *)
Theorem C94_array_elements : forall (h : host) (x : ty) (s s' : slice) (i : N) (r : slice) (k : N),
  usable x -> sp_size x = None -> aligned (sp_align x) s -> len (s_data s) < 2 ^ 63 ->
  s_addr s' = s_addr s -> len (s_data s') = len (s_data s) ->
  nfwa_len h s = Ok k -> i < k ->
  let n := len (s_data s) in let w := sp_width n in let last := le_num (sub (s_data s) (n - w) w) in
  same_at (s_data s) (s_data s') (n - w) w ->
  same_at (s_data s) (s_data s') (last + i * w) w ->
  (0 < i -> same_at (s_data s) (s_data s') (last + (i - 1) * w) w) ->
  nfwa_index h x s i = Ok r -> (within s r -> within s' r) ->
  nfwa_len h s' = Ok k /\ nfwa_index h x s' i = Ok r.
Proof. exact local_elem. Qed.
Print Assumptions C94_array_elements.
Example C94_array_case : let h := Host false true false 0 0 in
  let s := Slice 8 ([x61; x00; x62; x00; x63; x00] ++ [x02; x04; x06]) in
  let s' := Slice 8 ([x64; x00; x65; x00; x63; x00] ++ [xff; x04; x06]) in
  usable TS /\ nfwa_len h s = Ok 3 /\ same_at (s_data s) (s_data s') 8 1 /\
  same_at (s_data s) (s_data s') (6 + (2 - 1) * 1) 1 /\
  nfwa_index h TS s 2 = Ok (part s 4 6) /\ within s' (part s 4 6) /\ nfwa_index h TS s' 2 = Ok (part s 4 6) /\
  nfwa_index h TS s 0 <> nfwa_index h TS s' 0.
Proof.
  intros h s s'. split; [split; reflexivity|]. do 4 (split; [reflexivity|]).
  split; [exists 4, 6; repeat split; discriminate|]. split; [reflexivity|]. vm_compute. discriminate.
Qed.

(** The same for members of structures and dictionary entries.  What counts is
    the framing offset of the last variable-size member before, and that of the
    member itself if it has one. *)
Theorem C94_structure_members : forall (h : host) (t : ty) (s s' : slice) (rs rs' : list slice) (i : nat) (c : ty) (r : slice),
  usable t -> sp_is_struct t = true -> aligned (sp_align t) s -> len (s_data s) < 2 ^ 63 ->
  (forall n, sp_size t = Some n -> len (s_data s) = n) ->
  s_addr s' = s_addr s -> len (s_data s') = len (s_data s) ->
  to_tuple h t s = Ok rs -> to_tuple h t s' = Ok rs' ->
  nth_error (sp_components t) i = Some c -> nth_error rs i = Some r ->
  let m := var_before (sp_components t) i in
  (sp_size t = None -> 0 < m -> same_offset (s_data s) (s_data s') (m - 1)) ->
  (sp_size c = None -> (S i < length (sp_components t))%nat -> same_offset (s_data s) (s_data s') m) ->
  (within s r -> within s' r) ->
  nth_error rs' i = Some r.
Proof. exact local_member. Qed.
Print Assumptions C94_structure_members.
Example C94_structure_case : let h := Host false true false 0 0 in let t := TTuple [TS; TI; TS; TY; TS] in
  let s := Slice 16 [x61; x00; x00; x00; x01; x02; x03; x04; x62; x00; x05; x63; x00; x0a; x02] in
  let s' := Slice 16 [x61; x00; xff; xff; x06; x07; x08; x09; xff; x00; x05; x00; x00; xff; x02] in
  usable t /\ var_before (sp_components t) 1 = 1 /\ same_offset (s_data s) (s_data s') 0 /\
  to_tuple h t s = Ok [part s 0 2; part s 4 8; part s 8 10; part s 10 11; part s 11 13] /\
  to_tuple h t s' = Ok [part s 0 2; part s' 4 8; Slice 0 []; Slice 0 [x00]; Slice 0 []] /\
  within s' (part s 0 2).
Proof.
  intros h t s s'. split; [split; reflexivity|]. split; [reflexivity|]. split; [unfold same_offset; intros; reflexivity|].
  do 2 (split; [vm_compute; reflexivity|]). exists 0, 2. repeat split; discriminate.
Qed.
