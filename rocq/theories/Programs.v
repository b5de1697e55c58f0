(** Programs that use the whole reading and writing side of the API, as data: a
    program is a list of calls, each of which takes objects made by earlier ones
    (by number) and makes new ones.  It may catch panics and carry on.

    Objects are values here and nothing is shared between them: a reference keeps
    the bytes it was made from.  The borrow checker, which forbids changing or
    dropping what is borrowed, only takes programs away. *)
From Verif Require Import Base Types Layout AlignedBytes Strs Spec Deser Buf Histories Ser SerSpec Cmp Fmt Mut MutSpec Iter CoreFmt Offsets.

(** What a program can hold. *)
Inductive obj :=
| ObSlice (A : N) (s : slice)      (* &AlignedSlice<A> (aligned_bytes.rs:213-218); for A = 1 also &[u8] *)
| ObVec (v : vec)                  (* Vec<u8> *)
| ObBuf (b : vec)                  (* AlignedBuf (buf.rs:22-24) *)
| ObCow (A : N) (c : cow)          (* Cow<AlignedSlice<A>> (aligned_bytes.rs:240) *)
| ObView (t : ty) (r : slice)      (* &T, T the type the macro makes for t *)
| ObOwned (t : ty) (o : owned)     (* T::Owned or Owned<T> (lib.rs:470-474) *)
| ObIter (x : ty) (it : nfwa_iter) (* NonFixedWidthArrayIterator (lib.rs:1527-1534) *)
| ObGString (g : gstring)          (* GString (lib.rs:940-944) *)
| ObStr (s : list byte).           (* &str or String handed out by the crate *)

(** What a view can be compared with: another view, a [bool], a [&str] from elsewhere
    or from the crate, a slice of such, an [Option] of a view. *)
Inductive rhs :=
| RhView (j : nat)
| RhBool (b : bool)
| RhStr (d : list byte)
| RhText (j : nat)
| RhSeq (l : list rhs)
| RhOption (o : option nat).
(** Calls that only answer. *)
Inductive query :=
| QByte (i : nat) (k : N)       (* slice[k], aligned_bytes.rs:381-386 *)
| QSame (i j : nat)             (* slice == slice, aligned_bytes.rs:220-224 *)
| QHint (i : nat)               (* iter.size_hint(), lib.rs:1574-1580 *)
| QNative (i : nat) (n : rhs)   (* view == n, lib.rs:836-845, 1535-1552, 1761-1770, 2013-2022 *)
| QGEq (i j : nat)              (* gstring == gstring, lib.rs:939 *)
| QGCmp (i j : nat)             (* gstring.cmp(gstring), lib.rs:939 *)
| QGLen (i : nat).              (* gstring.len(), lib.rs:979-981 *)

(** The calls.  [i], [j] are numbers of objects, [a]... addresses the allocator chooses. *)
Inductive call :=
| PVec (v : vec)                                        (* a vector from elsewhere *)
| PBytes (i : nat)                                      (* &vec[..] *)
| PFromVec (i : nat) (a : N)                            (* AlignedBuf::from(vec), buf.rs:118-123 *)
| PIntoVec (i : nat)                                    (* Vec::from(buf), buf.rs:124-129 *)
| PMut (i : nat) (m : mut_op)                           (* change a buffer: with_vec, buf[..][k] = x, fields of a &mut T *)
| PDeref (i : nat)                                      (* &*buf, buf.rs:131-142 *)
| PSlice (i : nat) (o : slice_op)                       (* slicing and as_aligned, aligned_bytes.rs *)
| PTry (i : nat) (B : N)                                (* slice.try_as_aligned::<B>(), aligned_bytes.rs:336-361 *)
| PCopyAlign (i : nat) (A a1 a2 : N)                    (* copy_to_align(slice), aligned_bytes.rs:240-246 *)
| PCowRef (i : nat)                                     (* cow.as_ref() *)
| PCast (i : nat) (t : ty)                              (* gv!(t).cast(slice), lib.rs:351-353 *)
| PTryInto (i : nat) (t : ty)                           (* slice.try_into(): &[T], casting.rs:131-155 *)
| PAccess (i : nat) (a : access)                        (* fields, elements, contents of maybes and variants *)
| PSplit (i : nat)                                      (* variant.split(), lib.rs:1208-1219 *)
| PLen (i : nat)                                        (* array.len(), lib.rs:1469-1479 *)
| PIter (i : nat)                                       (* array.iter(), lib.rs:1585-1599 *)
| PNext (i : nat)                                       (* iter.next(), lib.rs:1555-1573 *)
| PRead (i : nat)                                       (* look at everything *)
| PDebug (i : nat) (F : fmts)                           (* format!("{:?}", view) *)
| PEq (i j : nat)                                       (* view == view *)
| PCmp (i j : nat)                                      (* maybe.partial_cmp(maybe), lib.rs:1771-1775 *)
| PHash (i : nat)                                       (* maybe.hash(..), lib.rs:1776-1780 *)
| PToStr (i : nat)                                      (* str.to_str(), lib.rs:758-768 *)
| PToOwned (i : nat) (a1 a2 : N)                        (* view.to_owned() *)
| POwnBytes (i : nat) (t : ty) (a1 a2 : N)              (* Owned::<T>::from_bytes(slice), lib.rs:489-494 *)
| POwnVec (i : nat) (t : ty) (a : N)                    (* Owned::<T>::from_vec(vec), lib.rs:495-500 *)
| PBorrow (i : nat)                                     (* &*owned, lib.rs:509-515 *)
| PFromBytes (i : nat) (t : ty) (a1 a2 a3 a4 : N)       (* gv!(t).from_bytes(slice), lib.rs:404-407 *)
| PDeser (i : nat) (t : ty) (a2 a3 a4 : N)              (* gv!(t).deserialize(reader of vec), lib.rs:378-386 *)
| PWrite (t : ty) (r : rval) (a : N)                    (* gv!(t).serialize_to_vec(r), lib.rs:438-443 *)
| PRewrite (i : nat) (a : N)                            (* the same with what a view shows *)
| PGNew (c : N)                                         (* GString::new(), lib.rs:985-989 *)
| PGTry (s : list byte) (cap c : N)                     (* GString::try_from(string), lib.rs:1056-1063 *)
| PGs (i : nat) (o : gs_op)                             (* try_push_str, clear, reserve *)
| PGStr (i : nat)                                       (* gstring.as_str(), lib.rs:953-955 *)
| PGCStr (i : nat)                                      (* CString::from(gstring), lib.rs:1073-1077 *)
| PGDeref (i : nat) (a : N)                             (* &*gstring, a &Str, lib.rs:1038-1044 *)
| PGClone (i : nat) (c : N)                             (* gstring.clone(), lib.rs:939 *)
| PGString (i : nat)                                    (* String::from(gstring), lib.rs:1065-1071 *)
| PStrBytes (i : nat) (a : N)                           (* s.as_bytes(); a is where s is *)
| PBufNew                                               (* AlignedBuf::new(), buf.rs:34-38 *)
| PAsk (q : query).
(** Not listed, for they are made up of these: [AsRef<[u8]>] and [Deref] of a slice
    (aligned_bytes.rs:257-262, 584-588: [OpAs 1]), formatting of [Owned] (lib.rs:475-485:
    [PBorrow], then [PDebug]) and of [GString] (lib.rs:1021-1032: [PGStr], then core),
    [write_str] (lib.rs:1045-1049: [try_push_str]). *)

(** What a call gives: the objects made, or a panic, after which the program has
    what it had before.  Arguments of the wrong kind do not compile. *)
Definition made (env : list obj) (m : res (list obj)) : list obj * option crash :=
  match m with Ok os => (env ++ os, None) | Crash c => (env, Some c) end.
Definition one {A : Type} (f : A -> obj) (m : res A) : res (list obj) := let* x := m in Ok [f x].
Definition opt {A : Type} (f : A -> obj) (m : res (option A)) : res (list obj) :=
  let* x := m in Ok (match x with Some x => [f x] | None => [] end).
Definition unit_ {A : Type} (m : res A) : res (list obj) := let* _ := m in Ok [].
Fixpoint put {A : Type} (env : list A) (i : nat) (o : A) : list A :=
  match env, i with
  | [], _ => []
  | _ :: env, O => o :: env
  | x :: env, S i => x :: put env i o
  end.
(** Writing a value to a fresh [Vec] at address [a] (lib.rs:438-443); [expect]
    panics on an error. *)
Definition written (h : host) (t : ty) (r : rval) (a : N) : res (list obj) :=
  match serialize h t r None with
  | (k, SOk _) => Ok [ObVec (Vec a (k_out k))]
  | (_, SCrash c) => Crash c
  | (_, SErr _) => Crash PUnwrap
  end.

(** Both sides of [==] have the same type, which rustc checks. *)
Fixpoint ty_eqb (a b : ty) {struct a} : bool :=
  match a, b with
  | TB, TB | TY, TY | TN, TN | TQ, TQ | TI, TI | TU, TU | TX, TX | TT, TT | TD, TD
  | TS, TS | TO, TO | TG, TG | TV, TV => true
  | TA x, TA y | TM x, TM y => ty_eqb x y
  | TTuple xs, TTuple ys =>
      (fix go (xs ys : list ty) : bool :=
         match xs, ys with
         | [], [] => true
         | x :: xs, y :: ys => ty_eqb x y && go xs ys
         | _, _ => false
         end) xs ys
  | TDict k v, TDict k' v' => ty_eqb k k' && ty_eqb v v'
  | _, _ => false
  end.
(** What the program gets to see.  The contents of plain memory and of [&str]; of
    anything else only that it is there. *)
Inductive answer :=
| SayBytes (d : list byte)
| SayMade
| SayCount (n : N)
| SayValue (v : value)
| SayText (d : list byte)
| SayBool (b : bool)
| SayOrder (o : option comparison)
| SayHash (l : list (Z + list byte)).  (* what a hasher is fed *)

(** The right-hand side of a comparison with a view of type [t]; [None] if rustc
    does not find an impl (the rules of Cmp.v). *)
Fixpoint rhs_native (env : list obj) (t : ty) (n : rhs) {struct n} : option native :=
  match n with
  | RhView j =>
      match nth_error env j with Some (ObView t' q) => if ty_eqb t t' then Some (NView q) else None | _ => None end
  | RhBool b => match t with TB => Some (NBool b) | _ => None end
  | RhStr d => match t with TS | TO | TG => Some (NStr d) | _ => None end
  | RhText j =>
      match t, nth_error env j with TS, Some (ObStr d) | TO, Some (ObStr d) | TG, Some (ObStr d) => Some (NStr d) | _, _ => None end
  | RhSeq l =>
      match t with
      | TA x =>
          match (fix go (l : list rhs) : option (list native) :=
                   match l with
                   | [] => Some []
                   | n :: l => match rhs_native env x n, go l with Some m, Some ms => Some (m :: ms) | _, _ => None end
                   end) l with
          | Some ms => Some (NSeq ms)
          | None => None
          end
      | _ => None
      end
  | RhOption o =>
      match t with
      | TM x =>
          if is_fixed x
          then match o with
               | None => Some (NOption None)
               | Some j => match nth_error env j with Some (ObView t' q) => if ty_eqb x t' then Some (NOption (Some q)) else None | _ => None end
               end
          else None
      | _ => None
      end
  end.
(** The answers. *)
Definition ask (h : host) (env : list obj) (q : query) : res answer :=
  let get := nth_error env in
  let bad := Crash NoCompile in
  match q with
  | QByte i k =>
      match get i with
      | Some (ObSlice _ s) => match nth_error (s_data s) (N.to_nat k) with Some x => Ok (SayBytes [x]) | None => Crash PIndex end
      | _ => bad
      end
  | QSame i j =>
      match get i, get j with
      | Some (ObSlice A a), Some (ObSlice B b) => if A =? B then Ok (SayBool (as_eq a b)) else bad
      | _, _ => bad
      end
  | QHint i => match get i with Some (ObIter x it) => let* n := nfwa_size_hint h it in Ok (SayCount n) | _ => bad end
  | QNative i n =>
      match get i with
      | Some (ObView t r) => match rhs_native env t n with Some m => let* b := eq_native h t r m in Ok (SayBool b) | None => bad end
      | _ => bad
      end
  | QGEq i j => match get i, get j with Some (ObGString a), Some (ObGString b) => Ok (SayBool (gs_eq a b)) | _, _ => bad end
  | QGCmp i j => match get i, get j with Some (ObGString a), Some (ObGString b) => Ok (SayOrder (Some (gs_cmp a b))) | _, _ => bad end
  | QGLen i => match get i with Some (ObGString g) => let* n := gs_len h g in Ok (SayCount n) | _ => bad end
  end.
(** One call. *)
Definition step (h : host) (env : list obj) (p : call) : list obj * option crash :=
  let get := nth_error env in
  let bad := (env, Some NoCompile) in
  match p with
  | PVec v => made env (Ok [ObVec v])
  | PBytes i => match get i with Some (ObVec v) => made env (Ok [ObSlice 1 (Slice (v_addr v) (v_data v))]) | _ => bad end
  | PFromVec i a => match get i with Some (ObVec v) => made env (one ObBuf (buf_from_vec h v a)) | _ => bad end
  | PIntoVec i => match get i with Some (ObBuf b) => made env (one ObVec (buf_into_vec h b)) | _ => bad end
  | PMut i m =>
      match get i with
      | Some (ObBuf b) => match run_mut_op h b m with Ok b' => (put env i (ObBuf b'), None) | Crash c => (env, Some c) end
      | _ => bad
      end
  | PDeref i => match get i with Some (ObBuf b) => made env (one (ObSlice 8) (buf_deref h b)) | _ => bad end
  | PSlice i o => match get i with Some (ObSlice A s) => made env (one (ObSlice (op_align A o)) (run_op h A s o)) | _ => bad end
  | PTry i B => match get i with Some (ObSlice A s) => made env (opt (ObSlice B) (Ok (try_as_aligned A B s))) | _ => bad end
  | PCopyAlign i A a1 a2 =>
      match get i with
      | Some (ObSlice A0 s) => if A0 =? 1 then made env (one (ObCow A) (copy_to_align h A s a1 a2)) else bad
      | _ => bad
      end
  | PCowRef i => match get i with Some (ObCow A c) => made env (one (ObSlice A) (cow_as_ref h A c)) | _ => bad end
  | PCast i t =>
      match get i with
      | Some (ObSlice A s) => if A =? trait_align t then made env (one (ObView t) (cast h t s)) else bad
      | _ => bad
      end
  | PTryInto i t =>
      match get i with
      | Some (ObSlice A s) => if A =? trait_align t then made env (opt (ObView (TA t)) (slice_try_into h t s)) else bad
      | _ => bad
      end
  | PAccess i a =>
      match get i with
      | Some (ObView t r) => made env (opt (fun p => ObView (fst p) (snd p)) (run_access h t r a))
      | _ => bad
      end
  | PSplit i =>
      match get i with
      | Some (ObView TV r) => made env (let* p := variant_split h r in Ok [ObSlice 1 (fst p); ObSlice 8 (snd p)])
      | _ => bad
      end
  | PLen i =>
      match get i with
      | Some (ObView (TA x) r) => if is_fixed x then made env (Ok []) else made env (unit_ (nfwa_len h r))
      | _ => bad
      end
  | PIter i =>
      match get i with
      | Some (ObView (TA x) r) => if is_fixed x then bad else made env (one (ObIter x) (nfwa_into_iter h x r))
      | _ => bad
      end
  | PNext i =>
      match get i with
      | Some (ObIter x it) =>
          let '(it', m) := nfwa_step h x it in made (put env i (ObIter x it')) (opt (ObView x) m)
      | _ => bad
      end
  | PRead i => match get i with Some (ObView t r) => made env (unit_ (read h t r)) | _ => bad end
  | PDebug i F => match get i with Some (ObView t r) => made env (unit_ (fmt_debug h F t r)) | _ => bad end
  | PEq i j =>
      match get i, get j with
      | Some (ObView t r), Some (ObView t' q) => if ty_eqb t t' then made env (unit_ (gv_eq h t r q)) else bad
      | _, _ => bad
      end
  | PCmp i j =>
      match get i, get j with
      | Some (ObView (TM x) r), Some (ObView (TM x') q) => if ty_eqb x x' then made env (unit_ (maybe_cmp h x r q)) else bad
      | _, _ => bad
      end
  | PHash i => match get i with Some (ObView (TM x) r) => made env (unit_ (maybe_hash h x r)) | _ => bad end
  | PToStr i =>
      match get i with
      | Some (ObView (TS | TO | TG) r) => made env (Ok [ObStr (to_str (s_data r))])
      | _ => bad
      end
  | PToOwned i a1 a2 => match get i with Some (ObView t r) => made env (one (ObOwned t) (to_owned h t r a1 a2)) | _ => bad end
  | POwnBytes i t a1 a2 =>
      match get i with
      | Some (ObSlice _ s) => made env (one (fun b => ObOwned t (OBuf b)) (owned_from_bytes h (s_data s) a1 a2))
      | _ => bad
      end
  | POwnVec i t a =>
      match get i with
      | Some (ObVec v) => made env (one (fun b => ObOwned t (OBuf b)) (buf_from_vec h v a))
      | _ => bad
      end
  | PBorrow i => match get i with Some (ObOwned t o) => made env (one (ObView t) (owned_borrow h t o)) | _ => bad end
  | PFromBytes i t a1 a2 a3 a4 =>
      match get i with
      | Some (ObSlice _ s) => made env (one (ObOwned t) (from_bytes h t s a1 a2 a3 a4))
      | _ => bad
      end
  | PDeser i t a2 a3 a4 =>
      match get i with
      | Some (ObVec v) => made env (one (ObOwned t) (deserialize h t v a2 a3 a4))
      | _ => bad
      end
  | PWrite t r a => made env (written h t r a)
  | PRewrite i a =>
      match get i with
      | Some (ObView t r) => made env (let* v := view_rval h t r in written h t v a)
      | _ => bad
      end
  | PGNew c => made env (Ok [ObGString (gs_new c)])
  | PGTry s cap c => made env (opt ObGString (Ok (gs_try_from s cap c)))
  | PGs i o => match get i with Some (ObGString g) => (put env i (ObGString (fst (run_gs_op g o))), None) | _ => bad end
  | PGStr i => match get i with Some (ObGString g) => made env (one ObStr (gs_as_str h g)) | _ => bad end
  | PGCStr i => match get i with Some (ObGString g) => made env (one ObStr (gs_into_cstring g)) | _ => bad end
  | PGDeref i a => match get i with Some (ObGString g) => made env (Ok [ObView TS (Slice a (gs_deref g))]) | _ => bad end
  | PGClone i c => match get i with Some (ObGString g) => made env (Ok [ObGString (GS (g_data g) (with_cap (blen (g_data g)) c))]) | _ => bad end
  | PGString i => match get i with Some (ObGString g) => made env (Ok [ObStr (gs_into_string g)]) | _ => bad end
  | PStrBytes i a => match get i with Some (ObStr s) => made env (Ok [ObSlice 1 (Slice a s)]) | _ => bad end
  | PBufNew => made env (Ok [ObBuf buf_new])
  | PAsk q => made env (unit_ (ask h env q))
  end.

(** A whole program: [None] when it has run into undefined behaviour, otherwise
    what it ends up with.  After a panic it carries on. *)
Fixpoint exec (h : host) (env : list obj) (ps : list call) : option (list obj) :=
  match ps with
  | [] => Some env
  | p :: ps =>
      match step h env p with
      | (_, Some UBMisaligned) => None
      | (env, _) => exec h env ps
      end
  end.

Definition face (o : obj) : answer :=
  match o with
  | ObSlice _ s => SayBytes (s_data s)
  | ObVec v => SayBytes (v_data v)
  | ObStr s => SayBytes s
  | _ => SayMade
  end.
(** What a call says: its answer, or the new objects. *)
Definition reply (h : host) (env : list obj) (p : call) : res (list answer) :=
  let get := nth_error env in
  let bad := Crash NoCompile in
  match p with
  | PLen i =>
      match get i with
      | Some (ObView (TA x) r) =>
          let* n := match size_of x with Some k => Ok (slen r / k) | None => nfwa_len h r end in Ok [SayCount n]
      | _ => bad
      end
  | PRead i => match get i with Some (ObView t r) => let* v := read h t r in Ok [SayValue v] | _ => bad end
  | PDebug i F => match get i with Some (ObView t r) => let* d := fmt_debug h F t r in Ok [SayText d] | _ => bad end
  | PEq i j =>
      match get i, get j with
      | Some (ObView t r), Some (ObView t' q) => if ty_eqb t t' then let* b := gv_eq h t r q in Ok [SayBool b] else bad
      | _, _ => bad
      end
  | PCmp i j =>
      match get i, get j with
      | Some (ObView (TM x) r), Some (ObView (TM x') q) =>
          if ty_eqb x x' then let* o := maybe_cmp h x r q in Ok [SayOrder o] else bad
      | _, _ => bad
      end
  | PHash i => match get i with Some (ObView (TM x) r) => let* l := maybe_hash h x r in Ok [SayHash l] | _ => bad end
  | PGs i o => match get i with Some (ObGString g) => Ok [SayBool (snd (run_gs_op g o))] | _ => bad end
  | PAsk q => let* a := ask h env q in Ok [a]
  | _ => match step h env p with
         | (env', None) => Ok (map face (skipn (length env) env'))
         | (_, Some c) => Crash c
         end
  end.
(** The whole conversation, up to undefined behaviour if there is any. *)
Fixpoint replies (h : host) (env : list obj) (ps : list call) : list (res (list answer)) :=
  match ps with
  | [] => []
  | p :: ps =>
      match step h env p with
      | (_, Some UBMisaligned) => [Crash UBMisaligned]
      | (env', _) => reply h env p :: replies h env' ps
      end
  end.
