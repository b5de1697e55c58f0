(** Programs using the stateful parts of the API, as data: which values such a
    program can obtain, and the plain objects its behaviour is compared with. *)
From Verif Require Import Base Types Layout AlignedBytes Strs Spec Deser Buf.

(** ** Aligned offsets *)
(** Everything a program can make with the API: [aoffset h A v] says that [v] is
    the number inside some [AlignedOffset<A>] it can obtain. *)
Inductive aoffset (h : host) : N -> N -> Prop :=
| ao_try A x v : is_alignment A -> x < usize_lim -> try_new A x = Some v -> aoffset h A v
| ao_align A x v : is_alignment A -> x < usize_lim -> align_offset h A x = Ok v -> aoffset h A v
| ao_or A B a b : aoffset h A a -> aoffset h B b -> aoffset h (N.min A B) (ao_bitor a b)
| ao_plus A a b v : aoffset h A a -> aoffset h A b -> ao_add h a b = Ok v -> aoffset h A v
| ao_from A B a v : is_alignment B -> aoffset h A a -> ao_into A B a = Ok v -> aoffset h B v.

(** Rounding up, independently of how it is computed. *)
Definition least_multiple (A x y : N) : Prop :=
  y mod A = 0 /\ x <= y /\ forall z, z mod A = 0 -> x <= z -> y <= z.

(** ** Aligned slices *)
(** The bytes [b..e] of a slice. *)
Definition part (s : slice) (b e : N) : slice :=
  Slice (s_addr s + b) (take (e - b) (drop b (s_data s))).
Definition aligned (A : N) (s : slice) : Prop := s_addr s mod A = 0.

(** One slicing step on an [&AlignedSlice<A>]; the result is an
    [&AlignedSlice<B>]. *)
Inductive slice_op :=
| OpTo (e : N)                 (* s[..e] *)
| OpToIncl (e : N)             (* s[..=e] *)
| OpRange (b e : N)            (* s[b..e] *)
| OpRangeIncl (b e : N)        (* s[b..=e] *)
| OpFrom (b : N)               (* s[b..] *)
| OpFull                       (* s[..] *)
| OpRangeAl (b e : N)          (* s[b..e], b an AlignedOffset<A> *)
| OpRangeInclAl (b e : N)
| OpFromAl (b : N)
| OpSplitFst (mid : N)         (* s.split_at(mid).0 *)
| OpSplitSnd (mid : N)         (* s.split_at(mid).1, a plain [u8] *)
| OpAs (B : N).                (* s.as_aligned(): &AlignedSlice<B> *)

(** Alignment promised by the result type. *)
Definition op_align (A : N) (o : slice_op) : N :=
  match o with
  | OpTo _ | OpToIncl _ | OpFull | OpRangeAl _ _ | OpRangeInclAl _ _ | OpFromAl _ | OpSplitFst _ => A
  | OpRange _ _ | OpRangeIncl _ _ | OpFrom _ | OpSplitSnd _ => 1
  | OpAs B => B
  end.
Definition run_op (h : host) (A : N) (s : slice) (o : slice_op) : res slice :=
  match o with
  | OpTo e => ix_to h A s e
  | OpToIncl e => ix_to_incl h A s e
  | OpRange b e => ix_range h s b e
  | OpRangeIncl b e => ix_range_incl h s b e
  | OpFrom b => ix_from h s b
  | OpFull => ix_full s
  | OpRangeAl b e => ix_range_al h A s b e
  | OpRangeInclAl b e => ix_range_incl_al h A s b e
  | OpFromAl b => ix_from_al h A s b
  | OpSplitFst mid => let* p := split_at h A s mid in Ok (fst p)
  | OpSplitSnd mid => let* p := split_at h A s mid in Ok (snd p)
  | OpAs B => as_aligned A B s
  end.
(** The arguments the type system lets through. *)
Definition op_wf (A : N) (o : slice_op) : Prop :=
  match o with
  | OpTo e | OpToIncl e => e < usize_lim
  | OpRange b e | OpRangeIncl b e => b < usize_lim /\ e < usize_lim
  | OpRangeAl b e | OpRangeInclAl b e => b < usize_lim /\ e < usize_lim /\ b mod A = 0
  | OpFrom b | OpSplitFst b | OpSplitSnd b => b < usize_lim
  | OpFromAl b => b < usize_lim /\ b mod A = 0
  | OpFull => True
  | OpAs B => is_alignment B /\ B <= A
  end.
(** The requested range. *)
Definition op_range (s : slice) (o : slice_op) : N * N :=
  match o with
  | OpTo e => (0, e)
  | OpToIncl e => (0, e + 1)
  | OpRange b e | OpRangeAl b e => (b, e)
  | OpRangeIncl b e | OpRangeInclAl b e => (b, e + 1)
  | OpFrom b | OpFromAl b | OpSplitSnd b => (b, slen s)
  | OpFull | OpAs _ => (0, slen s)
  | OpSplitFst mid => (0, mid)
  end.
(** Chains of slicing operations. *)
Inductive sliced (h : host) (A0 : N) (s0 : slice) : N -> slice -> Prop :=
| sliced_start : sliced h A0 s0 A0 s0
| sliced_step A s o s' : sliced h A0 s0 A s -> op_wf A o -> run_op h A s o = Ok s' ->
    sliced h A0 s0 (op_align A o) s'.

(** ** Aligned buffers *)
(** Histories of a buffer.  A step of the program: *)
Inductive buf_op :=
| BSet (i : N) (x : byte)                               (* b[i] = x *)
| BWith (f : list byte -> list byte) (a1 a2 : N)        (* with_vec: contents become [f old]; the
                                                           callback leaves the vector at address a1,
                                                           re-aligning may move it to a2 *)
| BRebuild (a2 : N).                                    (* into Vec and back *)
Definition run_buf_op (h : host) (b : vec) (o : buf_op) : res vec :=
  match o with
  | BSet i x => buf_set h b i x
  | BWith f a1 a2 => buf_with_vec h b (fun v => Vec a1 (f (v_data v))) a2
  | BRebuild a2 => let* v := buf_into_vec h b in buf_from_vec h v a2
  end.
(** What the same step does to a plain byte vector. *)
Definition plain_op (d : list byte) (o : buf_op) : option (list byte) :=
  match o with
  | BSet i x => if i <? len d then Some (sub d 0 i ++ [x] ++ sub d (i + 1) (len d)) else None
  | BWith f _ _ => Some (f d)
  | BRebuild _ => Some d
  end.
Definition op_addrs_ok (o : buf_op) : Prop :=
  match o with
  | BSet _ _ => True
  | BWith _ a1 a2 => a1 + 8 < usize_lim /\ a2 + 8 < usize_lim
  | BRebuild a2 => a2 + 8 < usize_lim
  end.
Fixpoint run_buf (h : host) (b : vec) (os : list buf_op) : res vec :=
  match os with
  | [] => Ok b
  | o :: os => let* b := run_buf_op h b o in run_buf h b os
  end.
Fixpoint run_plain (d : list byte) (os : list buf_op) : option (list byte) :=
  match os with
  | [] => Some d
  | o :: os => match plain_op d o with Some d => run_plain d os | None => None end
  end.

(** ** GString *)
Inductive gs_op :=
| GPush (s : list byte) (c1 c2 c3 : N)      (* try_push_str or write_str; c*: allocator's choices *)
| GClear (c : N)
| GReserve (additional c : N).
(** The flag tells whether the operation succeeded. *)
Definition run_gs_op (g : gstring) (o : gs_op) : gstring * bool :=
  match o with
  | GPush s c1 c2 c3 =>
      match gs_try_push_str g s c1 c2 c3 with
      | Some g' => (g', true)
      | None => (g, false)
      end
  | GClear c => (gs_clear g c, true)
  | GReserve n c => (gs_reserve g n c, true)
  end.
(** The same on a plain string. *)
Definition plain_gs_op (s : list byte) (o : gs_op) : list byte * bool :=
  match o with
  | GPush t _ _ _ => if sp_nul_free t then (s ++ t, true) else (s, false)
  | GClear _ => ([], true)
  | GReserve _ _ => (s, true)
  end.
Fixpoint run_gs (g : gstring) (os : list gs_op) : gstring * list bool :=
  match os with
  | [] => (g, [])
  | o :: os => let '(g, r) := run_gs_op g o in let '(g, rs) := run_gs g os in (g, r :: rs)
  end.
Fixpoint plain_gs (s : list byte) (os : list gs_op) : list byte * list bool :=
  match os with
  | [] => (s, [])
  | o :: os => let '(s, r) := plain_gs_op s o in let '(s, rs) := plain_gs s os in (s, r :: rs)
  end.
(** Arguments of type [&str] are UTF-8. *)
Definition gs_op_wf (o : gs_op) : Prop :=
  match o with GPush s _ _ _ => is_utf8 s | _ => True end.
(** The ways to create a GString, and the string each should hold. *)
Inductive gs_init : list byte -> gstring -> Prop :=
| gi_new c : gs_init [] (gs_new c)
| gi_cap n c1 c2 : gs_init [] (gs_with_capacity n c1 c2)
| gi_from s cap c g : is_utf8 s -> blen s <= cap -> gs_try_from s cap c = Some g -> gs_init s g
| gi_owned d c : gs_init (sp_string d) (str_to_owned d c).
(** Lexicographic order on byte strings. *)
Inductive sp_lt : list byte -> list byte -> Prop :=
| lt_nil b s : sp_lt [] (b :: s)
| lt_head a b s t : Byte.to_N a < Byte.to_N b -> sp_lt (a :: s) (b :: t)
| lt_tail a s t : sp_lt s t -> sp_lt (a :: s) (a :: t).

(** ** References obtained from a buffer *)
(** A contiguous part of a slice. *)
Definition within (s r : slice) : Prop := exists b e, b <= e /\ e <= slen s /\ r = part s b e.
(** A reference into a static: zero bytes, or an empty part of the 8-byte string. *)
Definition in_static (h : host) (s : slice) : Prop :=
  (exists n b e, b <= e /\ e <= n /\ s = part (Slice (8 * h_statics h) (zeros n)) b e) \/
  (exists b, b <= 8 /\ s = Slice (h_str8 h + b) []).
(** Where a reference to a value of type [t] obtained from the buffer [s] may
    point: into the buffer, or to a static holding the default value. *)
Definition placed (h : host) (t : ty) (s r : slice) : Prop :=
  within s r \/
  (in_static h r /\ s_data r = match sp_size t with Some n => nuls n | None => [] end).

(** Accessor calls. *)
Inductive access :=
| AcIndex (i : N)        (* array[i] *)
| AcNth (k : nat)        (* what the (k+1)-th call of the iterator's next() gives *)
| AcFirst | AcLast       (* array.first(), array.last() *)
| AcOption               (* maybe.to_option() *)
| AcItem (k : nat)       (* structure.to_tuple().k *)
| AcGet (t : ty)         (* variant.get(gv!(t)) *)
| AcSplit (t : ty).      (* gv!(t).cast(variant.split().1.as_aligned()) *)

(** The slice iterator and [slice::get] of fixed-width arrays never panic; the
    index operator does. *)
Definition fixed_elem (n : N) (s : slice) (i : N) : option slice :=
  if i <? slen s / n then Some (slice_elem n s i) else None.
Fixpoint nfwa_nth (h : host) (x : ty) (it : nfwa_iter) (k : nat) : res (option slice) :=
  let* p := nfwa_next h x it in
  match k with
  | O => Ok (fst p)
  | S k => nfwa_nth h x (snd p) k
  end.
Definition run_access (h : host) (t : ty) (s : slice) (a : access) : res (option (ty * slice)) :=
  let some (x : ty) (o : option slice) := match o with Some r => Some (x, r) | None => None end in
  match t, a with
  | TA x, AcIndex i =>
      match size_of x with
      | Some n => match fixed_elem n s i with Some r => Ok (Some (x, r)) | None => Crash PIndex end
      | None => let* r := nfwa_index h x s i in Ok (Some (x, r))
      end
  | TA x, AcNth k =>
      match size_of x with
      | Some n => Ok (some x (fixed_elem n s (N.of_nat k)))
      | None => let* it := nfwa_into_iter h x s in let* o := nfwa_nth h x it k in Ok (some x o)
      end
  | TA x, AcFirst =>
      match size_of x with
      | Some n => Ok (some x (fixed_elem n s 0))
      | None => let* o := nfwa_first h x s in Ok (some x o)
      end
  | TA x, AcLast =>
      match size_of x with
      | Some n => Ok (some x (if slen s / n =? 0 then None else fixed_elem n s (slen s / n - 1)))
      | None => let* o := nfwa_last h x s in Ok (some x o)
      end
  | TM x, AcOption => let* o := to_option h x s in Ok (some x o)
  | (TTuple _ | TDict _ _), AcItem k =>
      let* rs := to_tuple h t s in
      Ok (match nth_error (children_of t) k, nth_error rs k with
          | Some x, Some r => Some (x, r)
          | _, _ => None
          end)
  | TV, AcGet x => let* o := variant_get h x s in Ok (some x o)
  | TV, AcSplit x =>
      let* p := variant_split h s in
      let* d := as_aligned 8 (trait_align x) (snd p) in
      let* r := cast h x d in
      Ok (Some (x, r))
  | _, _ => Ok None
  end.
(** The marker of a [get] or cast must exist: the macro accepts the type.  An
    index is a [usize]. *)
Definition access_wf (a : access) : Prop :=
  match a with
  | AcGet x | AcSplit x => macro_ok x = true /\ len (sp_show x) < 2 ^ 32
  | AcIndex i => i < 2 ^ 64
  | _ => True
  end.
(** References of type [t'] to [r] that a program can obtain from a buffer [s]
    cast to type [t]. *)
Inductive reach (h : host) (t : ty) (s : slice) : ty -> slice -> Prop :=
| reach_cast r : cast h t s = Ok r -> reach h t s t r
| reach_step t1 r1 a t2 r2 :
    reach h t s t1 r1 -> access_wf a -> run_access h t1 r1 a = Ok (Some (t2, r2)) ->
    reach h t s t2 r2.
(** The sizes a reference to a value of type [t] may have. *)
Definition sp_ref_size (t : ty) (n : N) : Prop :=
  match sp_size t with
  | Some m => n = m
  | None => match t with
            | TA x => match sp_size x with Some m => n mod m = 0 | None => True end
            | _ => True
            end
  end.

(** The macro returns code for the type rather than panic (C05 says when it
    does), and the type string is below 4 GiB.  Some of that code does not compile
    (C43 says which does); what is proved for usable types covers it as well. *)
Definition usable (t : ty) : Prop := macro_ok t = true /\ len (sp_show t) < 2 ^ 32.
(** [n] calls of [next], forgetting what they return. *)
Fixpoint nfwa_skip (h : host) (x : ty) (it : nfwa_iter) (n : nat) : res nfwa_iter :=
  match n with
  | O => Ok it
  | S n => let* p := nfwa_next h x it in nfwa_skip h x (snd p) n
  end.

(** [view h t r]: a reference to a [t] that a program can have got from some
    buffer. *)
Definition view (h : host) (t : ty) (r : slice) : Prop :=
  exists t0 s, usable t0 /\ aligned (sp_align t0) s /\ len (s_data s) < 2 ^ 63 /\ reach h t0 s t r.
