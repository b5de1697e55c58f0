(** What every object of a safe program is promised to be, and the calls that can
    break a promise. *)
From Verif Require Import Base Types AlignedBytes Strs Spec Deser Buf Histories Ser SerSpec MutSpec OwnSpec Iter Programs.

(** ** Promises *)
(** An [&AlignedSlice<A>] points to a multiple of A unless it is empty.  (That an
    empty one does is not kept: C58.) *)
Definition slice_ok (A : N) (s : slice) : Prop :=
  is_alignment A /\ (s_data s <> [] -> s_addr s mod A = 0) /\ len (s_data s) < 2 ^ 63.
(** Inside an [AlignedBuf]: fewer than 8 bytes of padding, then the contents, which
    start at a multiple of 8.  No contents, no padding. *)
Definition buf_ok (b : vec) : Prop :=
  v_addr b + 8 < 2 ^ 64 /\
  exists pad d, v_data b = pad ++ d /\ len d < 2 ^ 63 /\
    (d = [] -> pad = []) /\ (d <> [] -> len pad < 8 /\ (v_addr b + len pad) mod 8 = 0).
(** An [&T] points to a multiple of the alignment of T and has a size T can have. *)
Definition ref_good (t : ty) (r : slice) : Prop :=
  usable t /\ aligned (sp_align t) r /\ sp_ref_size t (len (s_data r)) /\
  (sp_fixed t = true \/ len (s_data r) < 2 ^ 63).
(** The iterator of an array after some calls of [next]. *)
Fixpoint after (h : host) (x : ty) (n : nat) (it : nfwa_iter) : nfwa_iter :=
  match n with O => it | S n => after h x n (fst (nfwa_step h x it)) end.

Definition promised (h : host) (o : obj) : Prop :=
  match o with
  | ObSlice A s => slice_ok A s
  | ObVec v => v_addr v + 8 < 2 ^ 64 /\ len (v_data v) < 2 ^ 63
  | ObBuf b => buf_ok b
  | ObCow A (Borrowed s) => slice_ok A s
  | ObCow A (OwnedBuf b) => is_alignment A /\ buf_ok b
  | ObView t r => ref_good t r
  | ObOwned t (OCopy r) => ref_good t r
  | ObOwned t (OStr d) => In t [TS; TO; TG] /\ len d < 2 ^ 63 /\ exists s, good_string s /\ d = s ++ [x00]
  | ObOwned t (OBuf b) => usable t /\ buf_ok b
  | ObIter x it => sp_fixed x = false /\
      exists s it0 n, ref_good (TA x) s /\ nfwa_into_iter h x s = Ok it0 /\ it = after h x n it0
  | ObGString g => exists s, good_string s /\ g_data g = s ++ [x00] /\ len (g_data g) <= g_cap g
  | ObStr s => good_string s
  end.

(** ** What the environment of a program guarantees *)
(** Addresses are not at the very end of memory, nothing is longer than 2^63
    bytes, types can be named, indices are [usize], and [&str] is UTF-8. *)
Definition near (a : N) : Prop := a + 8 < 2 ^ 64.
Definition possible (h : host) (env : list obj) (p : call) : Prop :=
  match p with
  | PVec v => near (v_addr v) /\ len (v_data v) < 2 ^ 63
  | PFromVec _ a => near a
  | PMut _ m => mut_op_wf m /\
      match m with MOp (BWith f _ _) => forall d, len d < 2 ^ 63 -> len (f d) < 2 ^ 63 | _ => True end
  | PSlice i o => forall A s, nth_error env i = Some (ObSlice A s) -> op_wf A o
  | PTry _ B => is_alignment B
  | PCopyAlign _ A a1 a2 => is_alignment A /\ near a1 /\ near a2
  | PCast _ t => usable t
  | PTryInto _ t => In t [TY; TN; TQ; TI; TU; TX; TT; TD]
  | PAccess _ a => access_wf a
  | PToOwned _ a1 a2 => near a1 /\ near a2
  | POwnBytes _ t a1 a2 => usable t /\ near a1 /\ near a2
  | POwnVec _ t a => usable t /\ near a
  | PFromBytes _ t a1 a2 a3 a4 => usable t /\ near a1 /\ near a2 /\ near a3 /\ near a4
  | PDeser _ t a2 a3 a4 => usable t /\ near a2 /\ near a3 /\ near a4
  | PWrite t r a => usable t /\ rtyped t r /\ near a /\
      len (sp_written (h_big_endian h) t (rvalue true (h_big_endian h) t r)) < 2 ^ 63
  | PRewrite i a => near a /\ forall t r v, nth_error env i = Some (ObView t r) -> read h t r = Ok v ->
      len (sp_written (h_big_endian h) t v) < 2 ^ 63
  | PGTry s cap _ => is_utf8 s /\ len s <= cap
  | PGs _ o => gs_op_wf o
  | PGDeref i _ => forall g, nth_error env i = Some (ObGString g) -> len (g_data g) < 2 ^ 63
  | PStrBytes i a => near a /\ forall s, nth_error env i = Some (ObStr s) -> len s < 2 ^ 63
  | _ => True
  end.

(** ** The doors *)
(** [try_as_aligned] on bytes that are not aligned (it never refuses: C46), and
    making an [&T], T of variable size, from no bytes at an address that is not a
    multiple of the alignment of T: by casting, by dereferencing an [Owned<T>], or,
    when T is a slice, on the way through [from_bytes] and [deserialize]. *)
Definition door (env : list obj) (p : call) : Prop :=
  match p with
  | PTry i B => exists A s, nth_error env i = Some (ObSlice A s) /\ s_data s <> [] /\ s_addr s mod B <> 0
  | PCast i t => exists s, nth_error env i = Some (ObSlice (sp_align t) s) /\
      s_data s = [] /\ sp_fixed t = false /\ s_addr s mod sp_align t <> 0
  | PTryInto i t => exists s, nth_error env i = Some (ObSlice (sp_align t) s) /\
      s_data s = [] /\ s_addr s mod sp_align t <> 0
  | PBorrow i => exists t b, nth_error env i = Some (ObOwned t (OBuf b)) /\
      v_data b = [] /\ sp_fixed t = false /\ v_addr b mod sp_align t <> 0
  | PFromBytes i t _ _ _ _ => exists A s, nth_error env i = Some (ObSlice A s) /\
      s_data s = [] /\ sp_fixed_array t = true /\ s_addr s mod sp_align t <> 0
  | PDeser i t _ _ _ => exists v, nth_error env i = Some (ObVec v) /\
      v_data v = [] /\ sp_fixed_array t = true /\ v_addr v mod sp_align t <> 0
  | _ => False
  end.

(** Every call of the program is possible where it is made. *)
Fixpoint realistic (h : host) (env : list obj) (ps : list call) : Prop :=
  match ps with
  | [] => True
  | p :: ps => possible h env p /\ realistic h (fst (step h env p)) ps
  end.
(** No call goes through a door. *)
Fixpoint careful (h : host) (env : list obj) (ps : list call) : Prop :=
  match ps with
  | [] => True
  | p :: ps => ~ door env p /\ careful h (fst (step h env p)) ps
  end.
