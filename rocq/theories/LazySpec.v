(** The machine over values again, for data whose reading may panic: values of
    which some parts panic when they are touched. *)
From Verif Require Import Base Types AlignedBytes Strs Spec Fmt FmtSpec CmpSpec Buf Histories Ser SerSpec MutSpec Iter Programs ValSpec.

(** ** Lazy values *)
Inductive lval :=
| LPanic                       (* touching it panics *)
| LLeaf (v : value)            (* a boolean, number, string or variant *)
| LArray (ls : list lval)
| LMaybe (o : option lval)
| LTuple (ls : list lval).

(** What bytes denote ([sp_decode]), but for the elements of arrays and maybes that
    are arrays of a wrong length. *)
Fixpoint ldecode (big : bool) (t : ty) (d : option (list byte)) {struct t} : lval :=
  let sized (n : N) : list byte :=
    match d with
    | Some b => if len b =? n then b else nuls n
    | None => nuls n
    end in
  let bytes : list byte := match d with Some b => b | None => [] end in
  let items (ts : list ty) := map (fun t => (sp_align t, sp_size t)) ts in
  let cuts (ts : list ty) :=
    match sp_size t with
    | Some n => sp_struct_cut (sized n) 0 n 0 0 (items ts)
    | None => sp_struct_children (items ts) bytes
    end in
  match t with
  | TA x =>
      LArray (map (fun c => if sp_whole x c then ldecode big x c else LPanic)
        match sp_size x with
        | Some n => if len bytes mod n =? 0
                    then map Some (sp_pieces (length bytes) (N.to_nat n) bytes)
                    else []
        | None => sp_array_children (sp_align x) bytes
        end)
  | TM x =>
      LMaybe (match sp_size x with
              | Some n => if len bytes =? n then Some (ldecode big x (Some bytes)) else None
              | None => match bytes with
                        | [] => None
                        | _ => let c := Some (removelast bytes) in
                               Some (if sp_whole x c then ldecode big x c else LPanic)
                        end
              end)
  | TTuple ts =>
      LTuple ((fix go (ts : list ty) (cs : list (option (list byte))) : list lval :=
                 match ts, cs with
                 | t :: ts, c :: cs => ldecode big t c :: go ts cs
                 | _, _ => []
                 end) ts (cuts ts))
  | TDict k v =>
      match cuts [k; v] with
      | [ck; cv] => LTuple [ldecode big k ck; ldecode big v cv]
      | _ => LTuple []
      end
  | _ => LLeaf (sp_decode big t d)
  end.

(** Touching everything; [None]: it panics. *)
Fixpoint lforce (l : lval) : option value :=
  let all := fix all (ls : list lval) : option (list value) :=
    match ls with
    | [] => Some []
    | l :: ls => match lforce l, all ls with Some v, Some vs => Some (v :: vs) | _, _ => None end
    end in
  match l with
  | LPanic => None
  | LLeaf v => Some v
  | LArray ls => match all ls with Some vs => Some (VArray vs) | None => None end
  | LMaybe None => Some (VMaybe None)
  | LMaybe (Some l) => match lforce l with Some v => Some (VMaybe (Some v)) | None => None end
  | LTuple ls => match all ls with Some vs => Some (VTuple vs) | None => None end
  end.
(** Comparing: lengths first, then from left to right up to the first difference.
    Both sides of a maybe are touched, even if the other is Nothing. *)
Definition lpanics (o : option lval) : bool := match o with Some LPanic => true | _ => false end.
Fixpoint leq (a b : lval) {struct a} : option bool :=
  let all := fix all (xs ys : list lval) : option bool :=
    match xs, ys with
    | [], [] => Some true
    | x :: xs, y :: ys => match leq x y with Some true => all xs ys | r => r end
    | _, _ => Some false
    end in
  match a, b with
  | LPanic, _ | _, LPanic => None
  | LLeaf v, LLeaf w => Some (sp_veq v w)
  | LArray xs, LArray ys => if len xs =? len ys then all xs ys else Some false
  | LTuple xs, LTuple ys => all xs ys
  | LMaybe (Some x), LMaybe (Some y) => leq x y
  | LMaybe None, LMaybe None => Some true
  | LMaybe o, LMaybe o' => if lpanics o || lpanics o' then None else Some false
  | _, _ => Some false
  end.
(** A panic is one of [unwrap] on [None] or [Err]. *)
Definition lsays {A} (o : option A) : res A := match o with Some a => Ok a | None => Crash PUnwrap end.
Definition ltouch (x : ty) (l : lval) : res (option (ty * lval)) :=
  match l with LPanic => Crash PUnwrap | _ => Ok (Some (x, l)) end.
Definition lopt (x : ty) (o : option lval) : res (option (ty * lval)) :=
  match o with Some l => ltouch x l | None => Ok None end.
(** [iter().nth(k)] makes all elements up to the one asked for. *)
Fixpoint lnth (x : ty) (ls : list lval) (k : nat) : res (option (ty * lval)) :=
  match ls, k with
  | [], _ => Ok None
  | LPanic :: _, _ => Crash PUnwrap
  | l :: _, O => Ok (Some (x, l))
  | _ :: ls, S k => lnth x ls k
  end.
Definition laccess (big : bool) (t : ty) (l : lval) (a : access) : res (option (ty * lval)) :=
  match t, l, a with
  | TA x, LArray ls, AcIndex i =>
      match nth_error ls (N.to_nat i) with Some w => ltouch x w | None => Crash PIndex end
  | TA x, LArray ls, AcNth k => lnth x ls k
  | TA x, LArray ls, AcFirst => lopt x (hd_error ls)
  | TA x, LArray ls, AcLast => lopt x (hd_error (rev ls))
  | TM x, LMaybe o, AcOption => lopt x o
  | (TTuple _ | TDict _ _), LTuple ls, AcItem k =>
      match nth_error (sp_components t) k with Some x => lopt x (nth_error ls k) | None => Ok None end
  | TV, LLeaf (VVariant ts d), AcGet x => Ok (if sp_beq ts (sp_show x) then Some (x, ldecode big x (Some d)) else None)
  | TV, LLeaf (VVariant ts d), AcSplit x => Ok (Some (x, ldecode big x (Some d)))
  | _, _, _ => Ok None
  end.

(** ** The machine *)
Inductive lthing :=
| LtSlice (A : N) (d : list byte)
| LtVec (d : list byte)
| LtBuf (d : list byte)
| LtCow (A : N) (d : list byte)
| LtView (t : ty) (l : lval)
| LtOwned (t : ty) (l : lval)
| LtIter (x : ty) (ls : list lval)
| LtGString (s : list byte)
| LtStr (s : list byte).
Definition lface (th : lthing) : answer :=
  match th with LtSlice _ d | LtVec d | LtStr d => SayBytes d | _ => SayMade end.

(** What a right-hand side of type [t] stands for, if it is one. *)
Fixpoint lrhs (env : list lthing) (t : ty) (n : rhs) {struct n} : option lval :=
  match n, t with
  | RhView j, _ => match nth_error env j with Some (LtView t' l) => if ty_eqb t t' then Some l else None | _ => None end
  | RhBool b, TB => Some (LLeaf (VBool b))
  | RhStr d, (TS | TO | TG) => Some (LLeaf (VStr d))
  | RhText j, (TS | TO | TG) => match nth_error env j with Some (LtStr d) => Some (LLeaf (VStr d)) | _ => None end
  | RhSeq l, TA x =>
      match (fix go (l : list rhs) : option (list lval) :=
               match l with
               | [] => Some []
               | n :: l => match lrhs env x n, go l with Some v, Some vs => Some (v :: vs) | _, _ => None end
               end) l with
      | Some vs => Some (LArray vs)
      | None => None
      end
  | RhOption None, TM x => if sp_fixed x then Some (LMaybe None) else None
  | RhOption (Some j), TM x =>
      match nth_error env j with Some (LtView t' l) => if sp_fixed x && ty_eqb x t' then Some (LMaybe (Some l)) else None | _ => None end
  | _, _ => None
  end.
Definition lask (env : list lthing) (q : query) : res answer :=
  let get := nth_error env in
  let bad := Crash NoCompile in
  match q with
  | QByte i k =>
      match get i with
      | Some (LtSlice _ d) => if k <? len d then Ok (SayBytes (sub d k 1)) else Crash PIndex
      | _ => bad
      end
  | QSame i j =>
      match get i, get j with
      | Some (LtSlice A a), Some (LtSlice B b) => if A =? B then Ok (SayBool (sp_beq a b)) else bad
      | _, _ => bad
      end
  | QHint i => match get i with Some (LtIter _ vs) => Ok (SayCount (len vs)) | _ => bad end
  | QNative i n =>
      match get i with
      | Some (LtView t v) => match lrhs env t n with Some w => let* b := lsays (leq v w) in Ok (SayBool b) | None => bad end
      | _ => bad
      end
  | QGEq i j => match get i, get j with Some (LtGString a), Some (LtGString b) => Ok (SayBool (sp_beq a b)) | _, _ => bad end
  | QGCmp i j => match get i, get j with Some (LtGString a), Some (LtGString b) => Ok (SayOrder (Some (sp_order a b))) | _, _ => bad end
  | QGLen i => match get i with Some (LtGString s) => Ok (SayCount (len s)) | _ => bad end
  end.

(** One call: the things held afterwards and the answer. *)
Definition lnew (env : list lthing) (ths : list lthing) : list lthing * res (list answer) :=
  (env ++ ths, Ok (map lface ths)).
Definition lstep (big : bool) (env : list lthing) (p : call) : list lthing * res (list answer) :=
  let get := nth_error env in
  let bad := (env, Crash NoCompile) in
  let say a := (env, Ok [a]) in
  let may {A} (m : res A) (f : A -> answer) := (env, let* a := m in Ok [f a]) in
  match p with
  | PVec v => lnew env [LtVec (v_data v)]
  | PBytes i => match get i with Some (LtVec d) => lnew env [LtSlice 1 d] | _ => bad end
  | PFromVec i _ => match get i with Some (LtVec d) => lnew env [LtBuf d] | _ => bad end
  | PIntoVec i => match get i with Some (LtBuf d) => lnew env [LtVec d] | _ => bad end
  | PMut i m =>
      match get i with
      | Some (LtBuf d) =>
          match plain_mut_op big d m with Some d' => (put env i (LtBuf d'), Ok []) | None => (env, Crash PIndex) end
      | _ => bad
      end
  | PDeref i => match get i with Some (LtBuf d) => lnew env [LtSlice 8 d] | _ => bad end
  | PSlice i o =>
      match get i with
      | Some (LtSlice A d) =>
          let '(b, e) := sp_range (len d) o in
          if (b <=? e) && (e <=? len d) then lnew env [LtSlice (op_align A o) (sub d b (e - b))]
          else (env, Crash PIndex)
      | _ => bad
      end
  | PTry i B => match get i with Some (LtSlice _ d) => lnew env [LtSlice B d] | _ => bad end
  | PCopyAlign i A _ _ =>
      match get i with Some (LtSlice A0 d) => if A0 =? 1 then lnew env [LtCow A d] else bad | _ => bad end
  | PCowRef i => match get i with Some (LtCow A d) => lnew env [LtSlice A d] | _ => bad end
  | PCast i t =>
      match get i with
      | Some (LtSlice A d) => if A =? sp_align t then lnew env [LtView t (ldecode big t (Some d))] else bad
      | _ => bad
      end
  | PTryInto i t =>
      match get i, sp_size t with
      | Some (LtSlice A d), Some n =>
          if A =? sp_align t
          then lnew env (if len d mod n =? 0 then [LtView (TA t) (ldecode big (TA t) (Some d))] else [])
          else bad
      | _, _ => bad
      end
  | PAccess i a =>
      match get i with
      | Some (LtView t v) =>
          match laccess big t v a with
          | Ok (Some (x, w)) => lnew env [LtView x w]
          | Ok None => lnew env []
          | Crash c => (env, Crash c)
          end
      | _ => bad
      end
  | PSplit i => match get i with Some (LtView TV (LLeaf (VVariant ts d))) => lnew env [LtSlice 1 ts; LtSlice 8 d] | _ => bad end
  | PLen i => match get i with Some (LtView (TA _) (LArray vs)) => say (SayCount (len vs)) | _ => bad end
  | PIter i =>
      match get i with
      | Some (LtView (TA x) (LArray vs)) => if sp_fixed x then bad else lnew env [LtIter x vs]
      | _ => bad
      end
  | PNext i =>
      match get i with
      | Some (LtIter x []) => lnew env []
      | Some (LtIter x (LPanic :: vs)) => (put env i (LtIter x vs), Crash PUnwrap)
      | Some (LtIter x (v :: vs)) => lnew (put env i (LtIter x vs)) [LtView x v]
      | _ => bad
      end
  | PRead i => match get i with Some (LtView _ v) => may (lsays (lforce v)) SayValue | _ => bad end
  | PDebug i F => match get i with Some (LtView t v) => may (lsays (lforce v)) (fun v => SayText (sp_print F t v)) | _ => bad end
  | PEq i j =>
      match get i, get j with
      | Some (LtView t v), Some (LtView t' w) => if ty_eqb t t' then may (lsays (leq v w)) SayBool else bad
      | _, _ => bad
      end
  | PCmp i j =>
      match get i, get j with
      | Some (LtView (TM x) v), Some (LtView (TM x') w) => if ty_eqb x x' then match lforce v, lforce w with Some v, Some w => say (SayOrder (sp_vcmp v w)) | _, _ => bad end else bad
      | _, _ => bad
      end
  | PHash i =>
      match get i with
      | Some (LtView (TM x) v) =>
          if sp_integer x then match lforce v with Some (VMaybe o) => say (SayHash (sp_hashed big x o)) | _ => bad end else bad
      | _ => bad
      end
  | PToStr i => match get i with Some (LtView (TS | TO | TG) (LLeaf (VStr s))) => lnew env [LtStr s] | _ => bad end
  | PToOwned i _ _ => match get i with Some (LtView t v) => lnew env [LtOwned t v] | _ => bad end
  | POwnBytes i t _ _ | PFromBytes i t _ _ _ _ =>
      match get i with Some (LtSlice _ d) => lnew env [LtOwned t (ldecode big t (Some d))] | _ => bad end
  | POwnVec i t _ | PDeser i t _ _ _ =>
      match get i with Some (LtVec d) => lnew env [LtOwned t (ldecode big t (Some d))] | _ => bad end
  | PBorrow i => match get i with Some (LtOwned t v) => lnew env [LtView t v] | _ => bad end
  | PWrite t r _ => if existsb (fun s => negb (sp_nul_free s)) (rstrings t r) then (env, Crash PUnwrap)
                   else lnew env [LtVec (sp_written big t (rvalue true big t r))]
  | PRewrite i _ => match get i with Some (LtView t v) =>
      match lforce v with Some v => lnew env [LtVec (sp_written big t v)] | None => (env, Crash PUnwrap) end | _ => bad end
  | PGNew _ => lnew env [LtGString []]
  | PGTry s _ _ => lnew env (if sp_nul_free s then [LtGString s] else [])
  | PGs i o =>
      match get i with
      | Some (LtGString s) => let '(s', b) := plain_gs_op s o in (put env i (LtGString s'), Ok [SayBool b])
      | _ => bad
      end
  | PGStr i | PGCStr i => match get i with Some (LtGString s) => lnew env [LtStr s] | _ => bad end
  | PGDeref i _ => match get i with Some (LtGString s) => lnew env [LtView TS (LLeaf (VStr s))] | _ => bad end
  | PGClone i _ => match get i with Some (LtGString s) => lnew env [LtGString s] | _ => bad end
  | PGString i => match get i with Some (LtGString s) => lnew env [LtStr s] | _ => bad end
  | PStrBytes i _ => match get i with Some (LtStr s) => lnew env [LtSlice 1 s] | _ => bad end
  | PBufNew => lnew env [LtBuf []]
  | PAsk q => (env, let* a := lask env q in Ok [a])
  end.
Fixpoint lreplies (big : bool) (env : list lthing) (ps : list call) : list (res (list answer)) :=
  match ps with
  | [] => []
  | p :: ps => snd (lstep big env p) :: lreplies big (fst (lstep big env p)) ps
  end.

(** ** Ordinary programs *)
(** Data below 4 GiB is read, indices are below 2^60, and only maybes of numbers are
    ordered (others cannot be).  What the data is does not matter. *)
Definition modest (env : list lthing) (p : call) : Prop :=
  match p with
  | PCast i _ | PTryInto i _ | POwnBytes i _ _ _ | PFromBytes i _ _ _ _ _ =>
      forall A d, nth_error env i = Some (LtSlice A d) -> len d < 2 ^ 32
  | POwnVec i _ _ | PDeser i _ _ _ _ => forall d, nth_error env i = Some (LtVec d) -> len d < 2 ^ 32
  | PAccess i (AcIndex k) => k < 2 ^ 60
  | PCmp i _ => forall x v, nth_error env i = Some (LtView (TM x) v) -> sp_number x = true
  | PGDeref i _ => forall s, nth_error env i = Some (LtGString s) -> len s < 2 ^ 32 - 1
  | _ => True
  end.
Fixpoint all_modest (big : bool) (env : list lthing) (ps : list call) : Prop :=
  match ps with
  | [] => True
  | p :: ps => modest env p /\ all_modest big (fst (lstep big env p)) ps
  end.
