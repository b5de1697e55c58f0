(** Comparisons between a GVariant view and a native Rust value, and the
    ordering and hashing of maybes.  Model of lib.rs:836-845, 1535-1552,
    1761-1780, 2013-2022. *)
From Verif Require Import Base Types Layout AlignedBytes Strs Deser.

(** ** The right-hand sides [==] accepts *)
(** What can stand on the other side of [==]: another view of the same type, a
    [bool] (lib.rs:2013-2022), a [str] (836-845), a slice of such things
    (1535-1552: [[&T]]; core: [[T]]), or an [Option<&T>] (1761-1770).  The
    mirrored impls of the repository all call the modelled direction. *)
Inductive native :=
| NView (s : slice)
| NBool (b : bool)
| NStr (d : list byte)
| NSeq (l : list native)
| NOption (o : option slice).

(** The loop of [PartialEq<[&T]> for NonFixedWidthArray] (lib.rs:1540-1544):
    [self.iter().zip(other.iter())]; [Zip] asks the array first. *)
Fixpoint nfwa_eq_seq (h : host) (x : ty) (eqs : list (slice -> res bool)) (it : nfwa_iter) : res bool :=
  let* p := nfwa_next h x it in
  match fst p, eqs with
  | None, _ => Ok true
  | Some _, [] => Ok true
  | Some a, e :: eqs' =>
      let* b := e a in
      if b then nfwa_eq_seq h x eqs' (snd p) else Ok false
  end.

(** [[T] == [U]] of core: lengths first, then item by item until one differs. *)
Fixpoint slice_eq_seq (eqs : list (slice -> res bool)) (rs : list slice) : res bool :=
  match rs, eqs with
  | [], [] => Ok true
  | r :: rs', e :: eqs' => let* b := e r in if b then slice_eq_seq eqs' rs' else Ok false
  | _, _ => Ok false
  end.

(** [view == native].  A combination for which the crate (or core) has no impl
    does not compile.  [NonFixedWidthArray<Item> == [&T]] needs [Item == T]
    (1535); the [Option<&T>] form exists only for maybes of fixed-size types
    that a [gv!] user can name (1761: [T: Sized]). *)
Fixpoint eq_native (h : host) (t : ty) (s : slice) (n : native) {struct n} : res bool :=
  match n with
  | NView q => gv_eq h t s q
  | NBool b =>
      match t with
      | TB => Ok (Bool.eqb (0 <? of_ne h (s_data s)) b)
      | _ => Crash NoCompile
      end
  | NStr d =>
      match t with
      | TS | TO | TG => Ok (str_eq_str (s_data s) d)
      | _ => Crash NoCompile
      end
  | NSeq l =>
      match t with
      | TA x =>
          let eqs := map (fun m r => eq_native h x r m) l in
          match size_of x with
          | Some _ =>
              match mem_layout x with
              | Some (size, _) =>
                  if slen s / size =? N.of_nat (length l)
                  then slice_eq_seq eqs (slice_elems size s) else Ok false
              | None => Crash NoCompile
              end
          | None =>
              let* n := nfwa_len h s in
              if n =? N.of_nat (length l)
              then let* it := nfwa_into_iter h x s in nfwa_eq_seq h x eqs it
              else Ok false
          end
      | _ => Crash NoCompile
      end
  | NOption o =>
      match t with
      | TM x =>
          match size_of x with
          | Some _ =>
              let* a := to_option h x s in
              match a, o with
              | None, None => Ok true
              | Some r, Some q => gv_eq h x r q
              | _, _ => Ok false
              end
          | None => Crash NoCompile
          end
      | _ => Crash NoCompile
      end
  end.

(** ** Ordering of maybes *)
(** [f64::partial_cmp] (core), on the bits: NaN is unordered; otherwise compare
    as sign and magnitude, the two zeros being equal. *)
Definition f64_key (bits : N) : Z :=
  let mag := Z.of_N (N.land bits 0x7FFFFFFFFFFFFFFF) in
  if N.testbit bits 63 then (- mag)%Z else mag.
Definition f64_cmp (a b : N) : option comparison :=
  if f64_is_nan a || f64_is_nan b then None else Some (f64_key a ?= f64_key b)%Z.

(** [T::partial_cmp] for the fixed-size types that have one: the numbers (core).
    [Bool], and the generated structures, implement none. *)
Definition gv_cmp (h : host) (t : ty) (a b : slice) : res (option comparison) :=
  let na := of_ne h (s_data a) in
  let nb := of_ne h (s_data b) in
  match t with
  | TY | TQ | TU | TT => Ok (Some (na ?= nb))
  | TN => Ok (Some (signed 16 na ?= signed 16 nb)%Z)
  | TI => Ok (Some (signed 32 na ?= signed 32 nb)%Z)
  | TX => Ok (Some (signed 64 na ?= signed 64 nb)%Z)
  | TD => Ok (f64_cmp na nb)
  | _ => Crash NoCompile
  end.

(** [MaybeFixedSize::partial_cmp] (lib.rs:1771-1775): [Option]'s order, [None]
    before [Some] (core). *)
Definition maybe_cmp (h : host) (x : ty) (a b : slice) : res (option comparison) :=
  match size_of x with
  | None => Crash NoCompile
  | Some _ =>
      let* oa := to_option h x a in
      let* ob := to_option h x b in
      match oa, ob with
      | None, None => Ok (Some Eq)
      | None, Some _ => Ok (Some Lt)
      | Some _, None => Ok (Some Gt)
      | Some ra, Some rb => gv_cmp h x ra rb
      end
  end.

(** ** Hashing of maybes *)
(** [Hash for MaybeFixedSize] (lib.rs:1776-1780): [Option]'s hash, which feeds
    the hasher the discriminant (as an isize, [write_isize]: here [inl]) and then
    the integer's bytes in memory order ([write]: here [inr]).  [f64], [Bool] and
    the generated structures have no [Hash]. *)
Definition maybe_hash (h : host) (x : ty) (a : slice) : res (list (Z + list byte)) :=
  match x with
  | TY | TN | TQ | TI | TU | TX | TT =>
      let* oa := to_option h x a in
      match oa with
      | None => Ok [inl 0%Z]
      | Some r => Ok [inl 1%Z; inr (s_data r)]
      end
  | _ => Crash NoCompile
  end.
