(** Independent specification: what GVariant values are, how bytes denote them
    and what their normal form is, written from the GVariant
    Specification (docs/gvariant-serialisation.pdf, sections 1.3, 2.3-2.5 and 3.2)
    and the crate's documentation (gvariant/src/lib.rs:1285-1359,1673-1680 and
    README.md).

    Uses nothing of the model except the abstract syntax of types.  All
    arithmetic is on unbounded numbers. *)
From Coq Require Import List NArith ZArith Bool Init.Byte.
From Verif Require Import Types.
From Coq Require String.
Export String.StringSyntax.

(** The ASCII bytes of a literal. *)
Definition bs (s : String.string) : list byte := String.list_byte_of_string s.
Arguments bs s%string_scope.
Import ListNotations.
Open Scope N_scope.

(** ** Values *)
Inductive value :=
| VInt (z : Z)
| VDouble (bits : N)                       (* the 64 bits of an IEEE double *)
| VBool (b : bool)
| VStr (s : list byte)                     (* s, o, g: UTF-8 bytes, no NUL *)
| VVariant (typestr data : list byte)
| VArray (vs : list value)
| VMaybe (v : option value)
| VTuple (vs : list value).

(** ** Sizes and alignments (2.5: "alignment", "fixed size") *)
Fixpoint sp_align (t : ty) : N :=
  match t with
  | TB | TY | TS | TO | TG => 1
  | TN | TQ => 2
  | TI | TU => 4
  | TX | TT | TD | TV => 8
  | TA t | TM t => sp_align t
  | TTuple ts => fold_right (fun t m => N.max (sp_align t) m) 1 ts
  | TDict k v => N.max (sp_align k) (sp_align v)
  end.

(** Least multiple of [al] that is at least [x]. *)
Definition pad_to (al x : N) : N := x + (al - x mod al) mod al.

(** Where the next item ends when laid out after position [pos]. *)
Definition sp_struct_size (al : N) (items : list (N * N)) : N :=
  match items with
  | [] => 1
  | _ => pad_to al (fold_left (fun pos it => pad_to (fst it) pos + snd it) items 0)
  end.

Fixpoint all_some {A} (l : list (option A)) : option (list A) :=
  match l with
  | [] => Some []
  | Some x :: r => match all_some r with Some xs => Some (x :: xs) | None => None end
  | None :: _ => None
  end.

(** Fixed size of a type, [None] when it varies. *)
Fixpoint sp_size (t : ty) : option N :=
  match t with
  | TB | TY => Some 1
  | TN | TQ => Some 2
  | TI | TU => Some 4
  | TX | TT | TD => Some 8
  | TS | TO | TG | TV | TA _ | TM _ => None
  | TTuple ts =>
      match all_some (map sp_size ts) with
      | Some szs => Some (sp_struct_size (sp_align t) (combine (map sp_align ts) szs))
      | None => None
      end
  | TDict k v =>
      match sp_size k, sp_size v with
      | Some a, Some b => Some (sp_struct_size (sp_align t) [(sp_align k, a); (sp_align v, b)])
      | _, _ => None
      end
  end.

(** A type has no component of varying size: no strings, variants, arrays or
    maybes inside it. *)
Fixpoint sp_no_var (t : ty) : bool :=
  match t with
  | TS | TO | TG | TV | TA _ | TM _ => false
  | TTuple ts => forallb sp_no_var ts
  | TDict k v => sp_no_var k && sp_no_var v
  | _ => true
  end.

Definition sp_fixed (t : ty) : bool := match sp_size t with Some _ => true | None => false end.

(** ** Byte strings *)
Definition len {A} (l : list A) : N := N.of_nat (length l).
(** The [n] bytes of [d] starting at [p]. *)
Definition sub (d : list byte) (p n : N) : list byte :=
  firstn (N.to_nat n) (skipn (N.to_nat p) d).
Fixpoint le_num (d : list byte) : N :=
  match d with [] => 0 | b :: r => Byte.to_N b + 256 * le_num r end.
Fixpoint num_le (k : nat) (n : N) : list byte :=
  match k with
  | O => []
  | S k => (match Byte.of_N (n mod 256) with Some b => b | None => x00 end)
             :: num_le k (n / 256)
  end.
Definition nuls (n : N) : list byte := repeat x00 (N.to_nat n).

(** Framing offset width of a container of [n] bytes (2.3.6). *)
Definition sp_width (n : N) : N :=
  if n =? 0 then 0 else if n <? 2^8 then 1 else if n <? 2^16 then 2
  else if n <? 2^32 then 4 else 8.

(** ** Cutting containers into children.
    [Some bytes]: the child's bytes; [None]: the child is out of range and takes
    the default value of its type. *)
Definition cut (d : list byte) (start stop limit : N) : option (list byte) :=
  if (start <=? stop) && (stop <=? limit) then Some (sub d start (stop - start)) else None.

(** Array of variable-size elements with alignment [al] (2.5.3.2): the last
    framing offset says where the framing offsets begin; it must leave a whole
    number of them, else the array is empty. *)
Fixpoint sp_array_cut (al : N) (d : list byte) (limit prev : N) (ends : list N)
  : list (option (list byte)) :=
  match ends with
  | [] => []
  | e :: r => cut d (pad_to al prev) e limit :: sp_array_cut al d limit e r
  end.
Definition sp_array_children (al : N) (d : list byte) : list (option (list byte)) :=
  let n := len d in
  if n =? 0 then []
  else
    let w := sp_width n in
    let last := le_num (sub d (n - w) w) in
    if (last <=? n) && ((n - last) mod w =? 0) then
      let k := (n - last) / w in
      let ends := map (fun i => le_num (sub d (last + N.of_nat i * w) w))
                      (seq 0 (N.to_nat k)) in
      sp_array_cut al d last 0 ends
    else [].

(** Structure (2.5.4): children one after another, each aligned.  A fixed-size
    child ends after its size; the last child ends where the framing offsets
    begin; any other child ends at its framing offset, the framing offsets being
    stored in reverse at the end. *)
Fixpoint sp_struct_cut (d : list byte) (w limit prev : N) (nth : N)
  (items : list (N * option N)) : list (option (list byte)) :=
  match items with
  | [] => []
  | (al, size) :: rest =>
      let start := pad_to al prev in
      match size, rest with
      | Some s, _ =>
          cut d start (start + s) limit :: sp_struct_cut d w limit (start + s) nth rest
      | None, [] => [cut d start limit limit]
      | None, _ =>
          let e := le_num (sub d (len d - w * (nth + 1)) w) in
          cut d start e limit :: sp_struct_cut d w limit e (nth + 1) rest
      end
  end.
(** Number of framing offsets: variable-size children that are not last. *)
Fixpoint sp_n_offsets (items : list (N * option N)) : N :=
  match items with
  | [] => 0
  | [_] => 0
  | (_, Some _) :: rest => sp_n_offsets rest
  | (_, None) :: rest => 1 + sp_n_offsets rest
  end.
Definition sp_struct_children (items : list (N * option N)) (d : list byte)
  : list (option (list byte)) :=
  let w := sp_width (len d) in
  let k := sp_n_offsets items in
  if w * k <=? len d then sp_struct_cut d w (len d - w * k) 0 0 items
  else map (fun _ => None) items.

(** Where the children of a structure start, walking them one by one from
    [prev]: a fixed-size child is followed immediately, the [k]-th variable-size
    child ends at [ends k]. *)
Fixpoint sp_starts (ends : nat -> N) (prev : N) (k : nat) (items : list (N * option N)) : list N :=
  match items with
  | [] => []
  | (al, size) :: rest =>
      let start := pad_to al prev in
      start :: match size with
               | Some s => sp_starts ends (start + s) k rest
               | None => sp_starts ends (ends k) (S k) rest
               end
  end.

(** Where the [k]-th variable-size child's predecessor ended: 0 for the first. *)
Definition sp_prev_end (ends : nat -> N) (k : nat) : N :=
  match k with O => 0 | S k => ends k end.

(** ** Decoding *)
Definition sp_num (big : bool) (d : list byte) : N :=
  le_num (if big then rev d else d).
Definition sp_signed (bits : N) (n : N) : Z :=
  if n <? 2 ^ (bits - 1) then Z.of_N n else (Z.of_N n - 2 ^ Z.of_N bits)%Z.

(** UTF-8 (Unicode chapter 3, D92), stated by encoding code points. *)
Definition scalar (c : N) : Prop := c < 55296 \/ (57344 <= c /\ c < 1114112).
Definition bt (n : N) : byte := match Byte.of_N (n mod 256) with Some b => b | None => x00 end.
Definition utf8_of (c : N) : list byte :=
  if c <? 128 then [bt c]
  else if c <? 2048 then [bt (192 + c / 64); bt (128 + c mod 64)]
  else if c <? 65536 then [bt (224 + c / 4096); bt (128 + c / 64 mod 64); bt (128 + c mod 64)]
  else [bt (240 + c / 262144); bt (128 + c / 4096 mod 64); bt (128 + c / 64 mod 64); bt (128 + c mod 64)].
Definition is_utf8 (d : list byte) : Prop :=
  exists cs, Forall scalar cs /\ d = concat (map utf8_of cs).
(** Strings GVariant can hold. *)
Definition good_string (s : list byte) : Prop := is_utf8 s /\ ~ In x00 s.

(** A decidable form of [is_utf8], needed to make decoding a function: decode
    the first code point by trying the four lengths.  [Utf8Facts.sp_utf8_ok]
    proves it equivalent to [is_utf8]. *)
Definition starts_with_char (n : nat) (d : list byte) : bool :=
  let p := firstn n d in
  let v := map Byte.to_N p in
  let c :=
    match v with
    | [a] => a
    | [a; b] => (a - 192) * 64 + (b - 128)
    | [a; b; c] => (a - 224) * 4096 + (b - 128) * 64 + (c - 128)
    | [a; b; c; e] => (a - 240) * 262144 + (b - 128) * 4096 + (c - 128) * 64 + (e - 128)
    | _ => 1114112
    end in
  ((c <? 55296) || ((57344 <=? c) && (c <? 1114112)))
  && (if list_eq_dec Byte.byte_eq_dec (utf8_of c) p then true else false).
Fixpoint sp_utf8_go (fuel : nat) (d : list byte) : bool :=
  match d, fuel with
  | [], _ => true
  | _, O => false
  | _, S f =>
      if starts_with_char 1 d then sp_utf8_go f (skipn 1 d)
      else if starts_with_char 2 d then sp_utf8_go f (skipn 2 d)
      else if starts_with_char 3 d then sp_utf8_go f (skipn 3 d)
      else if starts_with_char 4 d then sp_utf8_go f (skipn 4 d)
      else false
  end.
Definition sp_utf8 (d : list byte) : bool := sp_utf8_go (length d) d.
Definition sp_nul_free (d : list byte) : bool :=
  if in_dec Byte.byte_eq_dec x00 d then false else true.

(** String: bytes up to the final NUL if they are well formed, else empty. *)
Definition sp_string (d : list byte) : list byte :=
  match d with
  | [] => []
  | _ => let s := removelast d in
         if Byte.eqb (last d x01) x00 && sp_utf8 s && sp_nul_free s then s else []
  end.

(** Variant (2.5.5): split at the last NUL, unit if there is none. *)
Fixpoint sp_split_last (d : list byte) : option (list byte * list byte) :=
  match d with
  | [] => None
  | b :: r =>
      match sp_split_last r with
      | Some (x, y) => Some (b :: x, y)
      | None => if Byte.eqb b x00 then Some ([], r) else None
      end
  end.
Definition sp_variant (d : list byte) : value :=
  match sp_split_last d with
  | Some (data, ts) => VVariant ts data
  | None => VVariant ["("; ")"]%byte []
  end.

(** Cut into pieces of [n] bytes. *)
Fixpoint sp_pieces (fuel : nat) (n : nat) (d : list byte) : list (list byte) :=
  match d, fuel with
  | [], _ => []
  | _, O => []
  | _, S f => firstn n d :: sp_pieces f n (skipn n d)
  end.

(** The value denoted by bytes [d] at type [t]; [None]: the default value. *)
Fixpoint sp_decode (big : bool) (t : ty) (d : option (list byte)) {struct t} : value :=
  let sized (n : N) : list byte :=
    match d with
    | Some b => if len b =? n then b else nuls n
    | None => nuls n
    end in
  let bytes : list byte := match d with Some b => b | None => [] end in
  let items (ts : list ty) := map (fun t => (sp_align t, sp_size t)) ts in
  let struct (ts : list ty) (own : option N) :=
    let b := match own with Some n => sized n | None => bytes end in
    let cs := match own with
              | Some n => sp_struct_cut b 0 n 0 0 (items ts)
              | None => sp_struct_children (items ts) b
              end in
    VTuple ((fix go (ts : list ty) (cs : list (option (list byte))) : list value :=
               match ts, cs with
               | t :: ts, c :: cs => sp_decode big t c :: go ts cs
               | _, _ => []
               end) ts cs) in
  match t with
  | TB => VBool (negb (sp_num big (sized 1) =? 0))
  | TY => VInt (Z.of_N (sp_num big (sized 1)))
  | TN => VInt (sp_signed 16 (sp_num big (sized 2)))
  | TQ => VInt (Z.of_N (sp_num big (sized 2)))
  | TI => VInt (sp_signed 32 (sp_num big (sized 4)))
  | TU => VInt (Z.of_N (sp_num big (sized 4)))
  | TX => VInt (sp_signed 64 (sp_num big (sized 8)))
  | TT => VInt (Z.of_N (sp_num big (sized 8)))
  | TD => VDouble (sp_num big (sized 8))
  | TS | TO | TG => VStr (sp_string bytes)
  | TV => sp_variant bytes
  | TA x =>
      VArray (map (sp_decode big x)
        match sp_size x with
        | Some n => if len bytes mod n =? 0
                    then map Some (sp_pieces (length bytes) (N.to_nat n) bytes)
                    else []
        | None => sp_array_children (sp_align x) bytes
        end)
  | TM x =>
      VMaybe (match sp_size x with
              | Some n => if len bytes =? n then Some (sp_decode big x (Some bytes)) else None
              | None => match bytes with
                        | [] => None
                        | _ => Some (sp_decode big x (Some (removelast bytes)))
                        end
              end)
  | TTuple ts => struct ts (sp_size t)
  | TDict k v =>
      let own := sp_size t in
      let b := match own with Some n => sized n | None => bytes end in
      let cs := match own with
                | Some n => sp_struct_cut b 0 n 0 0 (items [k; v])
                | None => sp_struct_children (items [k; v]) b
                end in
      match cs with
      | [ck; cv] => VTuple [sp_decode big k ck; sp_decode big v cv]
      | _ => VTuple []
      end
  end.

(** Bytes that make a whole number of elements, when [x] is an array of
    fixed-size elements. *)
Definition sp_whole (x : ty) (c : option (list byte)) : bool :=
  match x, c with
  | TA y, Some b => match sp_size y with Some n => len b mod n =? 0 | None => true end
  | _, _ => true
  end.
(** Every array of fixed-size elements that is directly the element of an array
    or maybe is a whole number of elements. *)
Fixpoint sp_reads (t : ty) (d : option (list byte)) {struct t} : bool :=
  let bytes : list byte := match d with Some b => b | None => [] end in
  let items (ts : list ty) := map (fun t => (sp_align t, sp_size t)) ts in
  match t with
  | TA x => match sp_size x with
            | Some _ => true
            | None => forallb (fun c => sp_whole x c && sp_reads x c)
                              (sp_array_children (sp_align x) bytes)
            end
  | TM x => match sp_size x, bytes with
            | None, _ :: _ => let c := Some (removelast bytes) in sp_whole x c && sp_reads x c
            | _, _ => true
            end
  | TTuple ts =>
      match sp_size t with
      | Some _ => true
      | None => (fix go (ts : list ty) (cs : list (option (list byte))) : bool :=
                   match ts, cs with
                   | t :: ts, c :: cs => sp_reads t c && go ts cs
                   | _, _ => true
                   end) ts (sp_struct_children (items ts) bytes)
      end
  | TDict k v =>
      match sp_size t, sp_struct_children (items [k; v]) bytes with
      | None, [ck; cv] => sp_reads k ck && sp_reads v cv
      | _, _ => true
      end
  | _ => true
  end.
(** No array of multi-byte fixed-size elements is directly the element of an
    array or maybe. *)
Definition sp_multi (x : ty) : bool :=
  match x with TA y => match sp_size y with Some n => negb (n =? 1) | None => false end | _ => false end.
Fixpoint sp_tame (t : ty) : bool :=
  match t with
  | TA x | TM x => negb (sp_multi x) && sp_tame x
  | TTuple ts => forallb sp_tame ts
  | TDict k v => sp_tame k && sp_tame v
  | _ => true
  end.

(** Default value of a type. *)
Definition sp_default (big : bool) (t : ty) : value := sp_decode big t None.

(** ** Well-typed values *)
Fixpoint sp_typed (t : ty) (v : value) {struct t} : Prop :=
  match t, v with
  | TB, VBool _ => True
  | TY, VInt z => (0 <= z < 2^8)%Z
  | TN, VInt z => (- 2^15 <= z < 2^15)%Z
  | TQ, VInt z => (0 <= z < 2^16)%Z
  | TI, VInt z => (- 2^31 <= z < 2^31)%Z
  | TU, VInt z => (0 <= z < 2^32)%Z
  | TX, VInt z => (- 2^63 <= z < 2^63)%Z
  | TT, VInt z => (0 <= z < 2^64)%Z
  | TD, VDouble b => b < 2^64
  | (TS | TO | TG), VStr s => good_string s
  | TV, VVariant ts _ => ~ In x00 ts
  | TA x, VArray vs => (fix all vs := match vs with [] => True | v :: r => sp_typed x v /\ all r end) vs
  | TM x, VMaybe o => match o with Some v => sp_typed x v | None => True end
  | TTuple ts, VTuple vs =>
      (fix all2 ts vs := match ts, vs with
                         | [], [] => True
                         | t :: ts, v :: vs => sp_typed t v /\ all2 ts vs
                         | _, _ => False
                         end) ts vs
  | TDict a b, VTuple [x; y] => sp_typed a x /\ sp_typed b y
  | _, _ => False
  end.

(** ** Normal form: the canonical encoding *)

(** Smallest offset width that can address the finished container: [body] bytes
    followed by [n] offsets. *)
Definition sp_fit_width (body n : N) : N :=
  if body + n <? 2^8 then 1 else if body + 2 * n <? 2^16 then 2
  else if body + 4 * n <? 2^32 then 4 else 8.
Definition sp_offsets (body : N) (ends : list N) : list byte :=
  concat (map (num_le (N.to_nat (sp_fit_width body (len ends)))) ends).

(** Array of variable-size elements: elements one after another, each aligned;
    then all end offsets.  ([tail]: with padding after the last element as well,
    which is not normal form; see [sp_written].) *)
Fixpoint sp_lay (al : N) (pos : N) (bodies : list (list byte)) : list byte * list N :=
  match bodies with
  | [] => ([], [])
  | b :: r =>
      let start := pad_to al pos in
      let stop := start + len b in
      let '(rest, ends) := sp_lay al stop r in
      (nuls (start - pos) ++ b ++ rest, stop :: ends)
  end.
Definition sp_array_bytes (tail : bool) (al : N) (bodies : list (list byte)) : list byte :=
  let '(body, ends) := sp_lay al 0 bodies in
  let body := if tail then body ++ nuls (pad_to al (len body) - len body) else body in
  body ++ sp_offsets (len body) ends.

(** Structure: items one after another, each aligned; then the end offsets of
    variable-size items other than the last, in reverse; fixed-size structures
    have no offsets and are padded to their size instead. *)
Fixpoint sp_lay_struct (pos : N) (items : list (N * option N)) (bodies : list (list byte))
  : list byte * list N :=
  match items, bodies with
  | (al, size) :: items, b :: bodies =>
      let start := pad_to al pos in
      let stop := start + len b in
      let '(rest, ends) := sp_lay_struct stop items bodies in
      (nuls (start - pos) ++ b ++ rest,
       match size, items with
       | None, _ :: _ => stop :: ends
       | _, _ => ends
       end)
  | _, _ => ([], [])
  end.
Definition sp_struct_bytes (own : option N) (items : list (N * option N)) (bodies : list (list byte))
  : list byte :=
  let '(body, ends) := sp_lay_struct 0 items bodies in
  match own with
  | Some n => body ++ nuls (n - len body)
  | None => body ++ sp_offsets (len body) (rev ends)
  end.

Definition sp_int (big : bool) (k : nat) (z : Z) : list byte :=
  let d := num_le k (Z.to_N (z mod 2 ^ (8 * Z.of_nat k))) in
  if big then rev d else d.

Fixpoint sp_bytes (tail big : bool) (t : ty) (v : value) {struct t} : list byte :=
  let items (ts : list ty) := map (fun t => (sp_align t, sp_size t)) ts in
  match t, v with
  | TB, VBool b => [if b then x01 else x00]
  | TY, VInt z => sp_int big 1 z
  | (TN | TQ), VInt z => sp_int big 2 z
  | (TI | TU), VInt z => sp_int big 4 z
  | (TX | TT), VInt z => sp_int big 8 z
  | TD, VDouble b => sp_int big 8 (Z.of_N b)
  | (TS | TO | TG), VStr s => s ++ [x00]
  | TV, VVariant ts data => data ++ [x00] ++ ts
  | TA x, VArray vs =>
      let bodies := map (sp_bytes tail big x) vs in
      if sp_fixed x then concat bodies else sp_array_bytes tail (sp_align x) bodies
  | TM x, VMaybe None => []
  | TM x, VMaybe (Some v) =>
      if sp_fixed x then sp_bytes tail big x v else sp_bytes tail big x v ++ [x00]
  | TTuple ts, VTuple vs =>
      sp_struct_bytes (sp_size t) (items ts)
        ((fix go ts vs := match ts, vs with
                          | t :: ts, v :: vs => sp_bytes tail big t v :: go ts vs
                          | _, _ => []
                          end) ts vs)
  | TDict a b, VTuple [x; y] =>
      sp_struct_bytes (sp_size t) (items [a; b]) [sp_bytes tail big a x; sp_bytes tail big b y]
  | _, _ => []
  end.
(** The normal form of a value. *)
Definition sp_encode (big : bool) (t : ty) (v : value) : list byte := sp_bytes false big t v.
(** The variation of it in which every array of variable-size elements is padded
    after its last element too. *)
Definition sp_written (big : bool) (t : ty) (v : value) : list byte := sp_bytes true big t v.
(** Values in which there is nothing to pad: the last element of every array of
    variable-size elements ends at a multiple of the element alignment. *)
Fixpoint sp_tails (big : bool) (t : ty) (v : value) {struct t} : bool :=
  match t, v with
  | TA x, VArray vs =>
      forallb (sp_tails big x) vs &&
      (sp_fixed x || (len (last (map (sp_encode big x) vs) []) mod sp_align x =? 0))
  | TM x, VMaybe (Some w) => sp_tails big x w
  | TTuple ts, VTuple vs =>
      (fix go ts vs := match ts, vs with
                       | t :: ts, v :: vs => sp_tails big t v && go ts vs
                       | _, _ => true
                       end) ts vs
  | TDict a b, VTuple [x; y] => sp_tails big a x && sp_tails big b y
  | _, _ => true
  end.

(** ** Type strings: the grammar *)
(** The type string of a type. *)
Fixpoint sp_show (t : ty) : list byte :=
  match t with
  | TB => ["b"] | TY => ["y"] | TN => ["n"] | TQ => ["q"] | TI => ["i"]
  | TU => ["u"] | TX => ["x"] | TT => ["t"] | TD => ["d"]
  | TS => ["s"] | TO => ["o"] | TG => ["g"] | TV => ["v"]
  | TA x => ["a"] ++ sp_show x
  | TM x => ["m"] ++ sp_show x
  | TTuple items => ["("] ++ flat_map sp_show items ++ [")"]
  | TDict k v => ["{"] ++ sp_show k ++ sp_show v ++ ["}"]
  end%byte.
(** The component types of a container. *)
Definition sp_components (t : ty) : list ty :=
  match t with
  | TA x => [x]
  | TM x => [x]
  | TTuple ts => ts
  | TDict k v => [k; v]
  | _ => []
  end.
Definition sp_is_struct (t : ty) : bool :=
  match t with TTuple _ | TDict _ _ => true | _ => false end.
Inductive type_string : list byte -> Prop :=
| ts_basic c : In c ["b";"y";"n";"q";"i";"u";"x";"t";"d";"s";"o";"g";"v"]%byte -> type_string [c]
| ts_array s : type_string s -> type_string ("a"%byte :: s)
| ts_maybe s : type_string s -> type_string ("m"%byte :: s)
| ts_tuple ss : Forall type_string ss -> type_string (["("%byte] ++ concat ss ++ [")"%byte])
| ts_entry k v : type_string k -> type_string v -> type_string (["{"%byte] ++ k ++ v ++ ["}"%byte]).

(** ** Equality of values: doubles compare as IEEE numbers. *)
Definition sp_nan (b : N) : bool :=
  (2047 * 2 ^ 52 <? b mod 2 ^ 63).
Definition sp_feq (a b : N) : bool :=
  negb (sp_nan a) && negb (sp_nan b) && ((a =? b) || ((a mod 2 ^ 63 =? 0) && (b mod 2 ^ 63 =? 0))).
Definition sp_beq (a b : list byte) : bool :=
  if list_eq_dec Byte.byte_eq_dec a b then true else false.
Fixpoint sp_veq (a b : value) {struct a} : bool :=
  let fix all2 (xs ys : list value) : bool :=
    match xs, ys with
    | [], [] => true
    | x :: xs, y :: ys => sp_veq x y && all2 xs ys
    | _, _ => false
    end in
  match a, b with
  | VInt x, VInt y => (x =? y)%Z
  | VDouble x, VDouble y => sp_feq x y
  | VBool x, VBool y => Bool.eqb x y
  | VStr x, VStr y => sp_beq x y
  | VVariant t x, VVariant u y => sp_beq t u && sp_beq x y
  | VArray xs, VArray ys => all2 xs ys
  | VMaybe None, VMaybe None => true
  | VMaybe (Some x), VMaybe (Some y) => sp_veq x y
  | VTuple xs, VTuple ys => all2 xs ys
  | _, _ => false
  end.

(** ** Which fixed-size structures the macro can generate (C05)
    Walk the fields at their proper offsets, remembering as anchor the offset of
    the last field that was more strictly aligned than all fields before it (0
    at first).  The macro works exactly when no field's distance from the anchor
    shares a binary digit with the anchor. *)
Fixpoint sp_anchored (anchor maxal pos : N) (items : list (N * N)) : bool :=
  match items with
  | [] => true
  | (al, s) :: rest =>
      let start := pad_to al pos in
      if al <=? maxal
      then (N.land anchor (start - anchor) =? 0) && sp_anchored anchor maxal (start + s) rest
      else sp_anchored start al (start + s) rest
  end.
(** The offsets of consecutive fields, each (alignment, size), from [pos]. *)
Fixpoint sp_field_offsets (pos : N) (items : list (N * N)) : list N :=
  match items with
  | [] => []
  | (al, s) :: rest => pad_to al pos :: sp_field_offsets (pad_to al pos + s) rest
  end.

(** ** Occurrence of a type inside another *)
Inductive sp_occurs (s : ty) : ty -> Prop :=
| occ_here : sp_occurs s s
| occ_in t c : In c (sp_components t) -> sp_occurs s c -> sp_occurs s t.
(** Characters that may follow the first one in a Rust identifier: ASCII letters
    and digits (there are others). *)
Definition ident_char (c : byte) : Prop :=
  let n := Byte.to_N c in
  (97 <= n /\ n <= 122) \/ (65 <= n /\ n <= 90) \/ (48 <= n /\ n <= 57).

(** Types with no double anywhere in them (variants compare as bytes). *)
Fixpoint sp_no_double (t : ty) : bool :=
  match t with
  | TD => false
  | TA x | TM x => sp_no_double x
  | TTuple ts => forallb sp_no_double ts
  | TDict k v => sp_no_double k && sp_no_double v
  | _ => true
  end.
