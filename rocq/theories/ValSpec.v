(** A machine that computes with values instead of bytes in memory: no addresses,
    no alignment, no padding. *)
From Verif Require Import Base Types AlignedBytes Strs Spec Fmt FmtSpec CmpSpec Buf Histories Ser SerSpec MutSpec Iter Programs.

(** What it holds for each kind of object. *)
Inductive thing :=
| ThSlice (A : N) (d : list byte)   (* &AlignedSlice<A> *)
| ThVec (d : list byte)             (* Vec<u8> *)
| ThBuf (d : list byte)             (* AlignedBuf *)
| ThCow (A : N) (d : list byte)     (* Cow<AlignedSlice<A>> *)
| ThView (t : ty) (v : value)       (* &T *)
| ThOwned (t : ty) (v : value)      (* Owned<T> and the like *)
| ThIter (x : ty) (vs : list value) (* an iterator: the elements to come *)
| ThGString (s : list byte)
| ThStr (s : list byte).
Definition vface (th : thing) : answer :=
  match th with ThSlice _ d | ThVec d | ThStr d => SayBytes d | _ => SayMade end.

(** Parts of a value. *)
Definition of_type (x : ty) (o : option value) : option (ty * value) :=
  match o with Some v => Some (x, v) | None => None end.
Definition vaccess (big : bool) (t : ty) (v : value) (a : access) : res (option (ty * value)) :=
  match t, v, a with
  | TA x, VArray vs, AcIndex i =>
      match nth_error vs (N.to_nat i) with Some w => Ok (Some (x, w)) | None => Crash PIndex end
  | TA x, VArray vs, AcNth k => Ok (of_type x (nth_error vs k))
  | TA x, VArray vs, AcFirst => Ok (of_type x (hd_error vs))
  | TA x, VArray vs, AcLast => Ok (of_type x (hd_error (rev vs)))
  | TM x, VMaybe o, AcOption => Ok (of_type x o)
  | (TTuple _ | TDict _ _), VTuple vs, AcItem k =>
      Ok (match nth_error (sp_components t) k with Some x => of_type x (nth_error vs k) | None => None end)
  | TV, VVariant ts d, AcGet x => Ok (if sp_beq ts (sp_show x) then Some (x, sp_decode big x (Some d)) else None)
  | TV, VVariant ts d, AcSplit x => Ok (Some (x, sp_decode big x (Some d)))
  | _, _, _ => Ok None
  end.
(** What the hasher is fed for a maybe of an integer. *)
Definition sp_hashed (big : bool) (x : ty) (o : option value) : list (Z + list byte) :=
  match o with None => [inl 0%Z] | Some v => [inl 1%Z; inr (sp_encode big x v)] end.

(** What a right-hand side of type [t] stands for, if it is one. *)
Fixpoint vrhs (env : list thing) (t : ty) (n : rhs) {struct n} : option value :=
  match n, t with
  | RhView j, _ => match nth_error env j with Some (ThView t' v) => if ty_eqb t t' then Some v else None | _ => None end
  | RhBool b, TB => Some (VBool b)
  | RhStr d, (TS | TO | TG) => Some (VStr d)
  | RhText j, (TS | TO | TG) => match nth_error env j with Some (ThStr d) => Some (VStr d) | _ => None end
  | RhSeq l, TA x =>
      match (fix go (l : list rhs) : option (list value) :=
               match l with
               | [] => Some []
               | n :: l => match vrhs env x n, go l with Some v, Some vs => Some (v :: vs) | _, _ => None end
               end) l with
      | Some vs => Some (VArray vs)
      | None => None
      end
  | RhOption None, TM x => if sp_fixed x then Some (VMaybe None) else None
  | RhOption (Some j), TM x =>
      match nth_error env j with Some (ThView t' v) => if sp_fixed x && ty_eqb x t' then Some (VMaybe (Some v)) else None | _ => None end
  | _, _ => None
  end.
(** Strings in the order of their bytes. *)
Fixpoint sp_before (a b : list byte) : bool :=
  match a, b with
  | [], _ :: _ => true
  | x :: a, y :: b => (Byte.to_N x <? Byte.to_N y) || ((Byte.to_N x =? Byte.to_N y) && sp_before a b)
  | _, [] => false
  end.
Definition sp_order (a b : list byte) : comparison := if sp_before a b then Lt else if sp_before b a then Gt else Eq.
Definition vask (env : list thing) (q : query) : res answer :=
  let get := nth_error env in
  let bad := Crash NoCompile in
  match q with
  | QByte i k =>
      match get i with
      | Some (ThSlice _ d) => if k <? len d then Ok (SayBytes (sub d k 1)) else Crash PIndex
      | _ => bad
      end
  | QSame i j =>
      match get i, get j with
      | Some (ThSlice A a), Some (ThSlice B b) => if A =? B then Ok (SayBool (sp_beq a b)) else bad
      | _, _ => bad
      end
  | QHint i => match get i with Some (ThIter _ vs) => Ok (SayCount (len vs)) | _ => bad end
  | QNative i n =>
      match get i with
      | Some (ThView t v) => match vrhs env t n with Some w => Ok (SayBool (sp_veq v w)) | None => bad end
      | _ => bad
      end
  | QGEq i j => match get i, get j with Some (ThGString a), Some (ThGString b) => Ok (SayBool (sp_beq a b)) | _, _ => bad end
  | QGCmp i j => match get i, get j with Some (ThGString a), Some (ThGString b) => Ok (SayOrder (Some (sp_order a b))) | _, _ => bad end
  | QGLen i => match get i with Some (ThGString s) => Ok (SayCount (len s)) | _ => bad end
  end.

(** One call: the things held afterwards and the answer. *)
Definition vnew (env : list thing) (ths : list thing) : list thing * res (list answer) :=
  (env ++ ths, Ok (map vface ths)).
Definition vstep (big : bool) (env : list thing) (p : call) : list thing * res (list answer) :=
  let get := nth_error env in
  let bad := (env, Crash NoCompile) in
  let say a := (env, Ok [a]) in
  match p with
  | PVec v => vnew env [ThVec (v_data v)]
  | PBytes i => match get i with Some (ThVec d) => vnew env [ThSlice 1 d] | _ => bad end
  | PFromVec i _ => match get i with Some (ThVec d) => vnew env [ThBuf d] | _ => bad end
  | PIntoVec i => match get i with Some (ThBuf d) => vnew env [ThVec d] | _ => bad end
  | PMut i m =>
      match get i with
      | Some (ThBuf d) =>
          match plain_mut_op big d m with Some d' => (put env i (ThBuf d'), Ok []) | None => (env, Crash PIndex) end
      | _ => bad
      end
  | PDeref i => match get i with Some (ThBuf d) => vnew env [ThSlice 8 d] | _ => bad end
  | PSlice i o =>
      match get i with
      | Some (ThSlice A d) =>
          let '(b, e) := sp_range (len d) o in
          if (b <=? e) && (e <=? len d) then vnew env [ThSlice (op_align A o) (sub d b (e - b))]
          else (env, Crash PIndex)
      | _ => bad
      end
  | PTry i B => match get i with Some (ThSlice _ d) => vnew env [ThSlice B d] | _ => bad end
  | PCopyAlign i A _ _ =>
      match get i with Some (ThSlice A0 d) => if A0 =? 1 then vnew env [ThCow A d] else bad | _ => bad end
  | PCowRef i => match get i with Some (ThCow A d) => vnew env [ThSlice A d] | _ => bad end
  | PCast i t =>
      match get i with
      | Some (ThSlice A d) => if A =? sp_align t then vnew env [ThView t (sp_decode big t (Some d))] else bad
      | _ => bad
      end
  | PTryInto i t =>
      match get i, sp_size t with
      | Some (ThSlice A d), Some n =>
          if A =? sp_align t
          then vnew env (if len d mod n =? 0 then [ThView (TA t) (sp_decode big (TA t) (Some d))] else [])
          else bad
      | _, _ => bad
      end
  | PAccess i a =>
      match get i with
      | Some (ThView t v) =>
          match vaccess big t v a with
          | Ok (Some (x, w)) => vnew env [ThView x w]
          | Ok None => vnew env []
          | Crash c => (env, Crash c)
          end
      | _ => bad
      end
  | PSplit i => match get i with Some (ThView TV (VVariant ts d)) => vnew env [ThSlice 1 ts; ThSlice 8 d] | _ => bad end
  | PLen i => match get i with Some (ThView (TA _) (VArray vs)) => say (SayCount (len vs)) | _ => bad end
  | PIter i =>
      match get i with
      | Some (ThView (TA x) (VArray vs)) => if sp_fixed x then bad else vnew env [ThIter x vs]
      | _ => bad
      end
  | PNext i =>
      match get i with
      | Some (ThIter x []) => vnew env []
      | Some (ThIter x (v :: vs)) => vnew (put env i (ThIter x vs)) [ThView x v]
      | _ => bad
      end
  | PRead i => match get i with Some (ThView _ v) => say (SayValue v) | _ => bad end
  | PDebug i F => match get i with Some (ThView t v) => say (SayText (sp_print F t v)) | _ => bad end
  | PEq i j =>
      match get i, get j with
      | Some (ThView t v), Some (ThView t' w) => if ty_eqb t t' then say (SayBool (sp_veq v w)) else bad
      | _, _ => bad
      end
  | PCmp i j =>
      match get i, get j with
      | Some (ThView (TM x) v), Some (ThView (TM x') w) => if ty_eqb x x' then say (SayOrder (sp_vcmp v w)) else bad
      | _, _ => bad
      end
  | PHash i =>
      match get i with
      | Some (ThView (TM x) (VMaybe o)) => if sp_integer x then say (SayHash (sp_hashed big x o)) else bad
      | _ => bad
      end
  | PToStr i => match get i with Some (ThView (TS | TO | TG) (VStr s)) => vnew env [ThStr s] | _ => bad end
  | PToOwned i _ _ => match get i with Some (ThView t v) => vnew env [ThOwned t v] | _ => bad end
  | POwnBytes i t _ _ | PFromBytes i t _ _ _ _ =>
      match get i with Some (ThSlice _ d) => vnew env [ThOwned t (sp_decode big t (Some d))] | _ => bad end
  | POwnVec i t _ | PDeser i t _ _ _ =>
      match get i with Some (ThVec d) => vnew env [ThOwned t (sp_decode big t (Some d))] | _ => bad end
  | PBorrow i => match get i with Some (ThOwned t v) => vnew env [ThView t v] | _ => bad end
  | PWrite t r _ => vnew env [ThVec (sp_written big t (rvalue true big t r))]
  | PRewrite i _ => match get i with Some (ThView t v) => vnew env [ThVec (sp_written big t v)] | _ => bad end
  | PGNew _ => vnew env [ThGString []]
  | PGTry s _ _ => vnew env (if sp_nul_free s then [ThGString s] else [])
  | PGs i o =>
      match get i with
      | Some (ThGString s) => let '(s', b) := plain_gs_op s o in (put env i (ThGString s'), Ok [SayBool b])
      | _ => bad
      end
  | PGStr i | PGCStr i => match get i with Some (ThGString s) => vnew env [ThStr s] | _ => bad end
  | PGDeref i _ => match get i with Some (ThGString s) => vnew env [ThView TS (VStr s)] | _ => bad end
  | PGClone i _ => match get i with Some (ThGString s) => vnew env [ThGString s] | _ => bad end
  | PGString i => match get i with Some (ThGString s) => vnew env [ThStr s] | _ => bad end
  | PStrBytes i _ => match get i with Some (ThStr s) => vnew env [ThSlice 1 s] | _ => bad end
  | PBufNew => vnew env [ThBuf []]
  | PAsk q => (env, let* a := vask env q in Ok [a])
  end.
Fixpoint vreplies (big : bool) (env : list thing) (ps : list call) : list (res (list answer)) :=
  match ps with
  | [] => []
  | p :: ps => snd (vstep big env p) :: vreplies big (fst (vstep big env p)) ps
  end.

(** ** Mild programs *)
(** The data of a [T] is below 4 GiB and reading it does not panic (C48: no array
    of multi-byte elements in an array or maybe has a wrong length). *)
Definition reads_well (t : ty) (d : list byte) : Prop := len d < 2 ^ 32 /\ sp_reads t (Some d) = true.
(** Such data only is read, indices are below 2^60, only maybes of numbers are
    ordered, and no Rust string with a NUL inside is serialised (C26). *)
Definition mild (env : list thing) (p : call) : Prop :=
  match p with
  | PCast i t | POwnBytes i t _ _ | PFromBytes i t _ _ _ _ => forall A d, nth_error env i = Some (ThSlice A d) -> reads_well t d
  | POwnVec i t _ | PDeser i t _ _ _ => forall d, nth_error env i = Some (ThVec d) -> reads_well t d
  | PTryInto i t => forall A d, nth_error env i = Some (ThSlice A d) -> len d < 2 ^ 32
  | PAccess i (AcIndex k) => k < 2 ^ 60
  | PAccess i (AcGet x) => forall t d, nth_error env i = Some (ThView t (VVariant (sp_show x) d)) -> sp_reads x (Some d) = true
  | PAccess i (AcSplit x) => forall t ts d, nth_error env i = Some (ThView t (VVariant ts d)) -> sp_reads x (Some d) = true
  | PCmp i _ => forall x v, nth_error env i = Some (ThView (TM x) v) -> sp_number x = true
  | PWrite t r _ => no_nuls t r
  | PGDeref i _ => forall s, nth_error env i = Some (ThGString s) -> len s < 2 ^ 32 - 1
  | _ => True
  end.
Fixpoint all_mild (big : bool) (env : list thing) (ps : list call) : Prop :=
  match ps with
  | [] => True
  | p :: ps => mild env p /\ all_mild big (fst (vstep big env p)) ps
  end.

(** ** Addresses forgotten *)
Definition forget_buf (o : buf_op) : buf_op :=
  match o with BSet i x => BSet i x | BWith f _ _ => BWith f 0 0 | BRebuild _ => BRebuild 0 end.
Definition forget_mut (m : mut_op) : mut_op := match m with MOp o => MOp (forget_buf o) | _ => m end.
Definition forget_gs (o : gs_op) : gs_op :=
  match o with GPush s _ _ _ => GPush s 0 0 0 | GClear _ => GClear 0 | GReserve n _ => GReserve n 0 end.
Definition forget (p : call) : call :=
  match p with
  | PVec v => PVec (Vec 0 (v_data v))
  | PFromVec i _ => PFromVec i 0
  | PMut i m => PMut i (forget_mut m)
  | PCopyAlign i A _ _ => PCopyAlign i A 0 0
  | PToOwned i _ _ => PToOwned i 0 0
  | POwnBytes i t _ _ => POwnBytes i t 0 0
  | POwnVec i t _ => POwnVec i t 0
  | PFromBytes i t _ _ _ _ => PFromBytes i t 0 0 0 0
  | PDeser i t _ _ _ => PDeser i t 0 0 0
  | PWrite t r _ => PWrite t r 0
  | PRewrite i _ => PRewrite i 0
  | PGNew _ => PGNew 0
  | PGTry s _ _ => PGTry s 0 0
  | PGs i o => PGs i (forget_gs o)
  | PGDeref i _ => PGDeref i 0
  | PGClone i _ => PGClone i 0
  | PStrBytes i _ => PStrBytes i 0
  | p => p
  end.
