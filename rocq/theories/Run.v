(** Running the accessors read back from the emitted text. *)
From Verif Require Import Base Types Layout AlignedBytes Spec Deser Ser TextSpec.

(** One element of the tuple [to_tuple] returns for a variable-size structure
    (generate_impl.rs:156-175), [get_child_elem::<C, B>(self.data.as_aligned(), i, a, c,
    size, last, offsets)], with what is written there as [k]; [child] is the type [C]
    of it and [al] the alignment of [data], [AlignedSlice<A..>] (generate_impl.rs:87).
    [as_aligned] is inferred to give what [get_child_elem] (lib.rs:2105-2129) takes. *)
Definition run_call (h : host) (al : N) (x : slice) (child : ty) (k : call) : res slice :=
  let* d := as_aligned al (trait_align child) x in
  get_child_elem h child (c_b k) d (c_i k) (c_a k) (c_c k) (c_size k) (c_last k) (c_offsets k).
Fixpoint run_calls (h : host) (al : N) (x : slice) (children : list ty) (calls : list call) : res (list slice) :=
  match children, calls with
  | c :: cs, k :: ks => let* r := run_call h al x c k in let* rs := run_calls h al x cs ks in Ok (r :: rs)
  | _, _ => Ok []
  end.

(** [&self.field_n] of a fixed-size structure (generate_impl.rs:443, 478-483) whose
    data fields lie at [ps] and are [sizes] long. *)
Definition run_ref (x : slice) (ps sizes : list N) (n : N) : option slice :=
  get p <- nth_error ps (N.to_nat n); get z <- nth_error sizes (N.to_nat n);
  Some (Slice (s_addr x + p) (take z (drop p (s_data x)))).
Fixpoint run_refs (x : slice) (ps sizes : list N) (ns : list N) : option (list slice) :=
  match ns with
  | [] => Some []
  | n :: ns => get r <- run_ref x ps sizes n; get rs <- run_refs x ps sizes ns; Some (r :: rs)
  end.

(** Reads what each reference refers to. *)
Fixpoint read_each (h : host) (ts : list ty) (rs : list slice) : res (list Spec.value) :=
  match ts, rs with
  | t :: ts, r :: rs => let* v := read h t r in let* vs := read_each h ts rs in Ok (v :: vs)
  | _, _ => Ok []
  end.

(** Running the statements of [serialize] as they stand in the text
    (generate_impl.rs:180-209, 436-464): [ms] are the [serialize] of the components,
    [off] and [frames] the local variables.  An index out of range is rejected by
    rustc. *)
Fixpoint run_stmts {K} {W : Write K} (h : host) (l : list stmt) (ms : list (M K N)) (off : N) (frames : list N) : M K (N * list N) :=
  match l with
  | [] => sret (off, frames)
  | WriteZeros n :: l => do _ <- write_all (repeat x00 (N.to_nat n)); run_stmts h l ms off frames
  | Advance n :: l => do off <- lift (uadd h off n); run_stmts h l ms off frames
  | WritePad al :: l => do p <- write_padding h al off; do off <- lift (uadd h off p); run_stmts h l ms off frames
  | Child n :: l =>
      match nth_error ms (N.to_nat n) with
      | Some m => do _ <- m; run_stmts h l ms off frames
      | None => lift (Crash NoCompile)
      end
  | ChildAdvance n :: l =>
      match nth_error ms (N.to_nat n) with
      | Some m => do k <- m; do off <- lift (uadd h off k); run_stmts h l ms off frames
      | None => lift (Crash NoCompile)
      end
  | Frame i :: l =>
      match put_at frames (N.to_nat i) off with
      | Some frames => run_stmts h l ms off frames
      | None => lift (Crash NoCompile)
      end
  end.
(** [serialize] of a variable-size structure (generate_impl.rs:233-239) ... *)
Definition run_serialize {K} {W : Write K} (h : host) (n : N) (l : list stmt) (ms : list (M K N)) : M K N :=
  do p <- run_stmts h l ms 0 (repeat 0 (N.to_nat n)); write_offsets h (fst p) (snd p).
(** ... and of a fixed-size one of [size] bytes (507-511). *)
Definition run_serialize_fixed {K} {W : Write K} (h : host) (size : N) (l : list stmt) (ms : list (M K N)) : M K N :=
  do _ <- run_stmts h l ms 0 []; sret size.

(** [eq] of a fixed-size structure (generate_impl.rs:454, 496-500): [true && self.field_0
    == other.field_0 && ...], where [==] is that of the fields' types [ts]. *)
Fixpoint run_eq (h : host) (ts : list ty) (x y : slice) (ps sizes ns : list N) : res bool :=
  match ns with
  | [] => Ok true
  | n :: ns =>
      match nth_error ts (N.to_nat n), run_ref x ps sizes n, run_ref y ps sizes n with
      | Some t, Some a, Some b => let* e := gv_eq h t a b in if e then run_eq h ts x y ps sizes ns else Ok false
      | _, _, _ => Crash NoCompile
      end
  end.

(** Size and alignment of each declared field (generate_impl.rs:431, 459: [[u8; n]];
    441), [lays] being those of the components. *)
Fixpoint layouts_of (lays : list (N * N)) (fields : list field) : option (list (N * N)) :=
  match fields with
  | [] => match lays with [] => Some [] | _ => None end
  | Data _ _ :: fields => match lays with l :: lays => get r <- layouts_of lays fields; Some (l :: r) | [] => None end
  | Padding _ n :: fields => get r <- layouts_of lays fields; Some ((n, 1) :: r)
  | Bytes _ :: _ => None
  end.

(** [new] (generate_impl.rs:473-477): the parameter called [field_m] ... *)
Fixpoint argument (m : N) (params : list N) (vals : list (list byte)) : option (list byte) :=
  match params, vals with
  | p :: params, v :: vals => if p =? m then Some v else argument m params vals
  | _, _ => None
  end.
(** ... what the structure expression sets [field_n] to, and the length of the zeros
    it sets [_padding_n] to ... *)
Fixpoint set_data (n : N) (l : list init) : option N :=
  match l with
  | [] => None
  | SetData k m :: l => if k =? n then Some m else set_data n l
  | SetPadding _ _ :: l => set_data n l
  end.
Fixpoint set_padding (n : N) (l : list init) : option N :=
  match l with
  | [] => None
  | SetPadding k size :: l => if k =? n then Some size else set_padding n l
  | SetData _ _ :: l => set_padding n l
  end.
(** ... and the memory of the structure, its fields lying in the order of their
    declaration (generate_impl.rs:403: [repr(C)]), without gaps (C131_no_gaps).
    Arrays of the wrong length are rejected by rustc. *)
Fixpoint run_new (params : list N) (vals : list (list byte)) (inits : list init) (fields : list field) : option (list byte) :=
  match fields with
  | [] => Some []
  | Data n _ :: fields =>
      get m <- set_data n inits; get v <- argument m params vals; get d <- run_new params vals inits fields; Some (v ++ d)
  | Padding n size :: fields =>
      get z <- set_padding n inits;
      if z =? size then get d <- run_new params vals inits fields; Some (zeros z ++ d) else None
  | Bytes _ :: _ => None
  end.
(** The static of [default_ref] (generate_impl.rs:453, 485-488): [new] of [k] zeros,
    each as long as the parameter (that [0] has the type of the parameter is C40). *)
Definition run_default (params sizes : list N) (k : nat) (inits : list init) (fields : list field) : option (list byte) :=
  if Nat.eqb k (length sizes) then run_new params (map zeros sizes) inits fields else None.
