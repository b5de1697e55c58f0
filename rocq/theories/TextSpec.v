(** Reading generated Rust source text: its items, and in them the fields,
    the calls of [get_child_elem] and the statements of the serialisers. *)
From Verif Require Import Base Types Spec PrintSpec LexSpec.

(** ** Comparing *)
Fixpoint spells (a b : list byte) : bool :=
  match a, b with
  | [], [] => true
  | x :: a, y :: b => Byte.eqb x y && spells a b
  | _, _ => false
  end.
Definition token_eqb (a b : token) : bool :=
  match a, b with
  | Ident x, Ident y | Life x, Life y | Num x, Num y | ByteStr x, ByteStr y => spells x y
  | Punct x, Punct y => Byte.eqb x y
  | Open x, Open y | Close x, Close y => same_delim x y
  | _, _ => false
  end.
Fixpoint tree_eqb (a b : tree) : bool :=
  match a, b with
  | Leaf x, Leaf y => token_eqb x y
  | Group d xs, Group e ys =>
      same_delim d e &&
      (fix all (xs ys : list tree) : bool :=
         match xs, ys with
         | [], [] => true
         | x :: xs, y :: ys => tree_eqb x y && all xs ys
         | _, _ => false
         end) xs ys
  | _, _ => false
  end.

(** ** Readers: what was read, and what is left *)
Definition reader (A : Type) := list tree -> option (A * list tree).
Notation "'get' x <- m ';' f" := (match m with Some x => f | None => None end)
  (at level 200, x pattern, m at level 100, f at level 200).
Fixpoint strip (pat ts : list tree) : option (unit * list tree) :=
  match pat, ts with
  | [], _ => Some (tt, ts)
  | p :: pat, t :: ts => if tree_eqb p t then strip pat ts else None
  | _, [] => None
  end.
(** These very tokens. *)
Definition lit (s : list byte) : reader unit := fun ts =>
  get pat <- token_trees s; strip pat ts.
Definition decimal (s : list byte) : option N :=
  match s with [] => None | _ => if forallb is_digit s then Some (sp_number 10 s) else None end.
Definition num : reader N := fun ts =>
  match ts with Leaf (Num s) :: r => get n <- decimal s; Some (n, r) | _ => None end.
Definition int : reader Z := fun ts =>
  match lit (bs "-") ts with
  | Some (_, r) => get (n, r) <- num r; Some ((- Z.of_N n)%Z, r)
  | None => get (n, r) <- num ts; Some (Z.of_N n, r)
  end.
(** A letter or word and a number in one identifier, such as A8. *)
Fixpoint after_prefix (p s : list byte) : option (list byte) :=
  match p, s with
  | [], _ => Some s
  | x :: p, y :: s => if Byte.eqb x y then after_prefix p s else None
  | _, _ => None
  end.
Definition numbered (p : list byte) : reader N := fun ts =>
  match ts with
  | Leaf (Ident s) :: r => get d <- after_prefix p s; get n <- decimal d; Some (n, r)
  | _ => None
  end.
Definition group (d : delim) : reader (list tree) := fun ts =>
  match ts with Group e b :: r => if same_delim d e then Some (b, r) else None | _ => None end.
(** Everything before a punctuation mark. *)
Fixpoint upto (c : byte) (ts : list tree) : option (list tree * list tree) :=
  match ts with
  | [] => None
  | Leaf (Punct p) :: r => if Byte.eqb c p then Some ([], ts) else get (a, b) <- upto c r; Some (Leaf (Punct p) :: a, b)
  | t :: r => get (a, b) <- upto c r; Some (t :: a, b)
  end.
Definition whole {A} (r : option (A * list tree)) : option A :=
  match r with Some (a, []) => Some a | _ => None end.
(** As often as it goes; everything must be read. *)
Fixpoint many {A} (fuel : nat) (p : reader A) (ts : list tree) : option (list A) :=
  match ts, fuel with
  | [], _ => Some []
  | _, O => None
  | _, S fuel => get (a, r) <- p ts; get l <- many fuel p r; Some (a :: l)
  end.
Definition every {A} (p : reader A) (ts : list tree) : option (list A) := many (length ts) p ts.

(** ** Items: each ends with its braces *)
Fixpoint items_from (hd ts : list tree) : option (list (list tree * list tree)) :=
  match ts with
  | [] => match hd with [] => Some [] | _ => None end
  | Group Brace b :: r => get l <- items_from [] r; Some ((hd, b) :: l)
  | t :: r => items_from (hd ++ [t]) r
  end.
Definition items (ts : list tree) := items_from [] ts.
Fixpoint pick {A B} (f : A -> option B) (l : list A) : list B :=
  match l with
  | [] => []
  | a :: l => match f a with Some b => b :: pick f l | None => pick f l end
  end.
Definition is_word (w : list byte) (t : tree) : bool := tree_eqb (Leaf (Ident w)) t.
Definition is_mark (c : byte) (t : tree) : bool := tree_eqb (Leaf (Punct c)) t.
(** [... struct NAME { ... }] *)
Definition struct_of (it : list tree * list tree) : option (list byte * list tree) :=
  match rev (fst it) with
  | Leaf (Ident n) :: k :: _ => if is_word (bs "struct") k then Some (n, snd it) else None
  | _ => None
  end.
(** [... TRAIT for NAME { ... }], [... TRAIT<'a> for NAME { ... }] and
    [... TRAIT<NAME> for &( ... ) { ... }] *)
Definition impl_of (it : list tree * list tree) : option (list byte * list byte * list tree) :=
  match rev (fst it) with
  | Leaf (Ident n) :: f :: Leaf (Ident tr) :: _ =>
      if is_word (bs "for") f then Some (tr, n, snd it) else None
  | Leaf (Ident n) :: f :: g :: Leaf (Life _) :: l :: Leaf (Ident tr) :: _ =>
      if is_word (bs "for") f && is_mark ">" g && is_mark "<" l then Some (tr, n, snd it) else None
  | Group Paren _ :: a :: f :: g :: Leaf (Ident n) :: l :: Leaf (Ident tr) :: _ =>
      if is_mark "&" a && is_word (bs "for") f && is_mark ">" g && is_mark "<" l then Some (tr, n, snd it) else None
  | _ => None
  end.
Definition structs (its : list (list tree * list tree)) := pick struct_of its.
Definition impls (its : list (list tree * list tree)) := pick impl_of its.
(** The body of [fn NAME]. *)
Fixpoint next_braces (ts : list tree) : option (list tree) :=
  match ts with
  | [] => None
  | Group Brace b :: _ => Some b
  | _ :: r => next_braces r
  end.
Fixpoint fn_body (nm : list byte) (ts : list tree) : option (list tree) :=
  match ts with
  | [] => None
  | k :: r => if is_word (bs "fn") k
              then match r with n :: q => if is_word nm n then next_braces q else fn_body nm r | [] => None end
              else fn_body nm r
  end.

(** Its arguments. *)
Fixpoint fn_args (nm : list byte) (ts : list tree) : option (list tree) :=
  match ts with
  | [] => None
  | k :: r => if is_word (bs "fn") k
              then match r with
                   | n :: q => if is_word nm n then get (b, _) <- group Paren q; Some b else fn_args nm r
                   | [] => None
                   end
              else fn_args nm r
  end.
(** The first [impl] of a trait and the structure it is for. *)
Definition impl_body (tr : list byte) (its : list (list tree * list tree)) : option (list byte * list tree) :=
  get (_, n, b) <- find (fun x => spells tr (fst (fst x))) (impls its); Some (n, b).
Definition method (tr nm : list byte) (its : list (list tree * list tree)) : option (list tree) :=
  get (_, b) <- impl_body tr its; fn_body nm b.
(** [impl NAME { ... }] *)
Definition inherent_of (it : list tree * list tree) : option (list byte * list tree) :=
  match fst it with
  | [k; Leaf (Ident n)] => if is_word (bs "impl") k then Some (n, snd it) else None
  | _ => None
  end.
Definition inherent (its : list (list tree * list tree)) := pick inherent_of its.

(** ** Fields of a structure *)
Inductive field :=
| Data (n : N) (ty : list tree)   (* pub field_N : TYPE, *)
| Padding (n size : N)            (* _padding_N : [u8; SIZE], *)
| Bytes (al : N).                 (* data: AlignedSlice<aligned_bytes::A..>, *)
Definition read_field : reader field := fun ts =>
  match lit (bs "pub") ts with
  | Some (_, r) =>
      get (n, r) <- numbered (bs "field_") r; get (_, r) <- lit (bs ":") r;
      get (t, r) <- upto "," r; get (_, r) <- lit (bs ",") r; Some (Data n t, r)
  | None =>
      match numbered (bs "_padding_") ts with
      | Some (n, r) =>
          get (_, r) <- lit (bs ":") r; get (b, r) <- group Brack r;
          get (_, b) <- lit (bs "u8;") b; get size <- whole (num b);
          get (_, r) <- lit (bs ",") r; Some (Padding n size, r)
      | None =>
          get (_, r) <- lit (bs "data: AlignedSlice<aligned_bytes::") ts; get (a, r) <- numbered (bs "A") r;
          get (_, r) <- lit (bs ">,") r; Some (Bytes a, r)
      end
  end.
Definition read_fields : list tree -> option (list field) := every read_field.
(** [type AlignOf = ...::A8;] *)
Definition read_align (ts : list tree) : option N :=
  get (_, r) <- lit (bs "type AlignOf =") ts;
  match lit (bs "aligned_bytes::") r with
  | Some (_, r) => get (a, r) <- numbered (bs "A") r; get _ <- whole (lit (bs ";") r); Some a
  | None => get (_, r) <- lit (bs "::gvariant::aligned_bytes::") r;
            get (a, r) <- numbered (bs "A") r; get _ <- whole (lit (bs ";") r); Some a
  end.

(** ** Calls of [get_child_elem] *)
Record call := Call { c_type : list tree; c_b : N; c_i : Z; c_a : N; c_c : N; c_size : option N; c_last : bool; c_offsets : N }.
Definition read_size : reader (option N) := fun ts =>
  match lit (bs "None") ts with
  | Some (_, r) => Some (None, r)
  | None => get (_, r) <- lit (bs "Some") ts; get (b, r) <- group Paren r; get n <- whole (num b); Some (Some n, r)
  end.
Definition read_bool : reader bool := fun ts =>
  match lit (bs "true") ts with
  | Some (_, r) => Some (true, r)
  | None => get (_, r) <- lit (bs "false") ts; Some (false, r)
  end.
Definition read_call : reader call := fun ts =>
  get (_, r) <- lit (bs "get_child_elem::<") ts;
  get (t, r) <- upto "," r; get (_, r) <- lit (bs ", aligned_bytes::") r;
  get (b, r) <- numbered (bs "A") r; get (_, r) <- lit (bs ">") r;
  get (args, r) <- group Paren r; get (_, r) <- lit (bs ",") r;
  get (_, x) <- lit (bs "self.data.as_aligned(),") args;
  get (i, x) <- int x; get (_, x) <- lit (bs ",") x;
  get (a, x) <- num x; get (_, x) <- lit (bs ",") x;
  get (c, x) <- num x; get (_, x) <- lit (bs ",") x;
  get (size, x) <- read_size x; get (_, x) <- lit (bs ",") x;
  get (last, x) <- read_bool x; get (_, x) <- lit (bs ",") x;
  get n <- whole (num x);
  Some (Call t b i a c size last n, r).
(** The body of [to_tuple]: of a structure of variable size, and of another. *)
Definition read_calls (ts : list tree) : option (list call) :=
  get b <- whole (group Paren ts); every read_call b.
Definition read_ref : reader N := fun ts =>
  get (_, r) <- lit (bs "&self.") ts; get (n, r) <- numbered (bs "field_") r; get (_, r) <- lit (bs ",") r; Some (n, r).
Definition read_refs (ts : list tree) : option (list N) :=
  get b <- whole (group Paren ts); every read_ref b.

(** ** Constructor, default and equality of a structure of fixed size *)
Inductive init :=
| SetData (n m : N)        (* field_N : field_M, *)
| SetPadding (n size : N). (* _padding_N : [0u8; SIZE], *)
Definition read_init : reader init := fun ts =>
  match numbered (bs "field_") ts with
  | Some (n, r) => get (_, r) <- lit (bs ":") r; get (m, r) <- numbered (bs "field_") r;
                   get (_, r) <- lit (bs ",") r; Some (SetData n m, r)
  | None => get (n, r) <- numbered (bs "_padding_") ts; get (_, r) <- lit (bs ":") r;
            get (b, r) <- group Brack r; get (_, b) <- lit (bs "0u8;") b; get size <- whole (num b);
            get (_, r) <- lit (bs ",") r; Some (SetPadding n size, r)
  end.
Definition read_new (ts : list tree) : option (list byte * list init) :=
  match ts with
  | [Leaf (Ident n); Group Brace b] => get l <- every read_init b; Some (n, l)
  | _ => None
  end.
(** [field_N : TYPE], with commas between. *)
Definition read_arg : reader (N * list tree) := fun ts =>
  get (n, r) <- numbered (bs "field_") ts; get (_, r) <- lit (bs ":") r;
  match upto "," r with
  | Some (t, r) => get (_, r) <- lit (bs ",") r; Some ((n, t), r)
  | None => Some ((n, r), [])
  end.
Definition read_args : list tree -> option (list (N * list tree)) := every read_arg.
(** [static s : NAME = NAME::new(0, ..., 0); &s]: the structures named and the number of zeros. *)
Definition read_default (ts : list tree) : option (list byte * list byte * nat) :=
  get (_, r) <- lit (bs "static s :") ts;
  match r with
  | Leaf (Ident n) :: e :: Leaf (Ident m) :: r =>
      if is_mark "=" e then
        get (_, r) <- lit (bs "::new") r; get (b, r) <- group Paren r; get _ <- whole (lit (bs "; &s") r);
        match b with
        | [] => Some (n, m, O)
        | _ => get (_, b) <- lit (bs "0") b; get l <- every (lit (bs ", 0")) b; Some (n, m, S (length l))
        end
      else None
  | _ => None
  end.
(** [true && self.field_0 == other.field_0 && ...] *)
Definition read_equal : reader N := fun ts =>
  get (_, r) <- lit (bs "&& self.") ts; get (n, r) <- numbered (bs "field_") r;
  get (_, r) <- lit (bs "== other.") r; get (m, r) <- numbered (bs "field_") r;
  if n =? m then Some (n, r) else None.
Definition read_eq (ts : list tree) : option (list N) :=
  get (_, r) <- lit (bs "true") ts; every read_equal r.

(** ** Statements of the serialisers *)
Inductive stmt :=
| WriteZeros (n : N)   (* f.write_all(b"\0...")?; *)
| Advance (n : N)      (* off += N; *)
| WritePad (al : N)    (* off += write_padding::<A.., _>(off, f)?; *)
| Child (n : N)        (* self.N.serialize(f)?; *)
| ChildAdvance (n : N) (* off += self.N.serialize(f)?; *)
| Frame (i : N).       (* framing_offsets[I] = off; *)
Definition read_child : reader N := fun ts =>
  get (_, r) <- lit (bs "self.") ts; get (n, r) <- num r; get (_, r) <- lit (bs ".serialize(f)?;") r; Some (n, r).
Definition read_stmt : reader stmt := fun ts =>
  match lit (bs "off +=") ts with
  | Some (_, r) =>
      match num r with
      | Some (n, r) => get (_, r) <- lit (bs ";") r; Some (Advance n, r)
      | None =>
          match read_child r with
          | Some (n, r) => Some (ChildAdvance n, r)
          | None => get (_, r) <- lit (bs "write_padding::<") r; get (a, r) <- numbered (bs "A") r;
                    get (_, r) <- lit (bs ", _>(off, f)?;") r; Some (WritePad a, r)
          end
      end
  | None =>
      match read_child ts with
      | Some (n, r) => Some (Child n, r)
      | None =>
          match lit (bs "f.write_all") ts with
          | Some (_, r) =>
              get (b, r) <- group Paren r;
              match b with
              | [Leaf (ByteStr z)] =>
                  if forallb (Byte.eqb x00) z then get (_, r) <- lit (bs "?;") r; Some (WriteZeros (len z), r) else None
              | _ => None
              end
          | None => get (_, r) <- lit (bs "framing_offsets") ts; get (b, r) <- group Brack r;
                    get i <- whole (num b); get (_, r) <- lit (bs "= off;") r; Some (Frame i, r)
          end
      end
  end.
(** As many statements as there are, then what is left. *)
Fixpoint stmts (fuel : nat) (ts : list tree) : list stmt * list tree :=
  match fuel with
  | O => ([], ts)
  | S fuel => match read_stmt ts with
              | Some (s, r) => let '(l, q) := stmts fuel r in (s :: l, q)
              | None => ([], ts)
              end
  end.
(** The body of [serialize] of a structure of variable size: the number of framing
    offsets and the statements between declarations and [write_offsets]. *)
Definition read_serialize (ts : list tree) : option (N * list stmt) :=
  get (_, r) <- lit (bs "let mut off: usize = 0; let mut framing_offsets :") ts;
  get (b, r) <- group Brack r; get (_, b) <- lit (bs "usize;") b; get n <- whole (num b);
  get (_, r) <- lit (bs "=") r;
  get (b, r) <- group Brack r; get (_, b) <- lit (bs "0;") b; get m <- whole (num b);
  get (_, r) <- lit (bs ";") r;
  let '(l, r) := stmts (length r) r in
  get _ <- whole (lit (bs "off = write_offsets(off, &framing_offsets, f)?; Ok(off)") r);
  if n =? m then Some (n, l) else None.
(** Of a structure of fixed size: the statements and the structure whose size is returned. *)
Definition read_serialize_fixed (ts : list tree) : option (list stmt * list tree) :=
  let '(l, r) := stmts (length ts) ts in
  get (_, r) <- lit (bs "Ok") r;
  get b <- whole (group Paren r); get (_, b) <- lit (bs "core::mem::size_of::<") b;
  get (t, b) <- upto ">" b; get _ <- whole (lit (bs ">()") b); Some (l, t).

(** ** What the code of one structure says *)
Definition code (text : list byte) : option (list (list tree * list tree)) :=
  get ts <- token_trees text; items ts.
(** The one structure declared and its fields. *)
Definition fields_of (its : list (list tree * list tree)) : option (list byte * list field) :=
  match structs its with [(n, b)] => get l <- read_fields b; Some (n, l) | _ => None end.
Definition declared_align (its : list (list tree * list tree)) : option (list byte * N) :=
  get (n, b) <- impl_body (bs "AlignOf") its; get a <- read_align b; Some (n, a).
Definition calls_of (its : list (list tree * list tree)) : option (list call) :=
  get b <- method (bs "Structure") (bs "to_tuple") its; read_calls b.
Definition refs_of (its : list (list tree * list tree)) : option (list N) :=
  get b <- method (bs "Structure") (bs "to_tuple") its; read_refs b.
Definition statements_of (its : list (list tree * list tree)) : option (N * list stmt) :=
  get b <- method (bs "SerializeTo") (bs "serialize") its; read_serialize b.
Definition fixed_statements_of (its : list (list tree * list tree)) : option (list stmt * list tree) :=
  get b <- method (bs "SerializeTo") (bs "serialize") its; read_serialize_fixed b.
Definition default_of (its : list (list tree * list tree)) : option (list byte * list byte * nat) :=
  get b <- method (bs "Cast") (bs "default_ref") its; read_default b.
Definition equality_of (its : list (list tree * list tree)) : option (list N) :=
  get b <- method (bs "PartialEq") (bs "eq") its; read_eq b.
(** Of [new]: the structure it belongs to and its parameters; the structure it makes and what it sets. *)
Definition parameters_of (its : list (list tree * list tree)) : option (list byte * list (N * list tree)) :=
  match inherent its with [(n, b)] => get a <- fn_args (bs "new") b; get l <- read_args a; Some (n, l) | _ => None end.
Definition inits_of (its : list (list tree * list tree)) : option (list byte * list init) :=
  match inherent its with [(_, b)] => get c <- fn_body (bs "new") b; read_new c | _ => None end.

Definition data_of (f : field) : option (N * list tree) := match f with Data n t => Some (n, t) | _ => None end.
Definition padding_of (f : field) : option N := match f with Padding n _ => Some n | _ => None end.
Definition init_of (f : field) : init :=
  match f with Data n _ => SetData n n | Padding n s => SetPadding n s | Bytes a => SetPadding 0 a end.
(** Where the data fields lie if every field follows the one before at once, and the end. *)
Fixpoint positions (pos : N) (sizes : list N) (l : list field) : option (list N * N) :=
  match l with
  | [] => match sizes with [] => Some ([], pos) | _ => None end
  | Padding _ n :: l => positions (pos + n) sizes l
  | Data _ _ :: l => match sizes with
                     | s :: sizes => get (ps, e) <- positions (pos + s) sizes l; Some (pos :: ps, e)
                     | [] => None
                     end
  | Bytes _ :: _ => None
  end.

(** ** What the statements of a serialiser do *)
Fixpoint put_at (l : list N) (i : nat) (x : N) : option (list N) :=
  match l, i with
  | _ :: r, O => Some (x :: r)
  | y :: r, S i => get l <- put_at r i x; Some (y :: l)
  | [], _ => None
  end.
(** [ds]: what serialising each member writes.  The bytes written, [off] and [framing_offsets]. *)
Fixpoint perform (ds : list (list byte)) (l : list stmt) (off : N) (frames : list N) : option (list byte * N * list N) :=
  match l with
  | [] => Some ([], off, frames)
  | WriteZeros n :: l => get (d, o, f) <- perform ds l off frames; Some (nuls n ++ d, o, f)
  | Advance n :: l => perform ds l (off + n) frames
  | WritePad al :: l => get (d, o, f) <- perform ds l (pad_to al off) frames; Some (nuls (pad_to al off - off) ++ d, o, f)
  | Child n :: l => get e <- nth_error ds (N.to_nat n); get (d, o, f) <- perform ds l off frames; Some (e ++ d, o, f)
  | ChildAdvance n :: l =>
      get e <- nth_error ds (N.to_nat n); get (d, o, f) <- perform ds l (off + len e) frames; Some (e ++ d, o, f)
  | Frame i :: l => get frames <- put_at frames (N.to_nat i) off; perform ds l off frames
  end.

(** ** The rest of the code *)
(** The attributes in front of the structure. *)
Fixpoint attributes (ts : list tree) : list (list tree) :=
  match ts with
  | h :: r => if is_mark "#" h then match r with Group Brack b :: r => b :: attributes r | _ => [] end else []
  | [] => []
  end.
Definition attributes_of (its : list (list tree * list tree)) : list (list (list tree)) :=
  pick (fun it => match struct_of it with Some _ => Some (attributes (fst it)) | None => None end) its.
(** Is the body of a function this text? *)
Definition body_is (s : list byte) (body : option (list tree)) : bool :=
  match body with Some b => match whole (lit s b) with Some _ => true | None => false end | None => false end.
(** [&*(X as *const AlignedSlice<aligned_bytes::A8> as *const NAME)], and with [mut]. *)
Definition read_cast (amp ptr : list byte) (ts : list tree) : option (list byte * N * list byte) :=
  get (_, r) <- lit amp ts; get b <- whole (group Paren r);
  match b with
  | Leaf (Ident x) :: b =>
      get (_, b) <- lit (bs "as") b; get (_, b) <- lit ptr b; get (_, b) <- lit (bs "AlignedSlice<aligned_bytes::") b;
      get (n, b) <- numbered (bs "A") b; get (_, b) <- lit (bs "> as") b; get (_, b) <- lit ptr b;
      match b with [Leaf (Ident nm)] => Some (x, n, nm) | _ => None end
  | _ => None
  end.
(** The casts of a structure of variable size: in [default_ref], after
    [let d = empty_aligned();], in [try_from_aligned_slice], and in
    [from_aligned_slice_mut], which [try_from_aligned_slice_mut] has to call. *)
Definition casts_of (its : list (list tree * list tree)) : option (list (list byte * N * list byte)) :=
  get b <- method (bs "Cast") (bs "default_ref") its;
  get (_, b) <- lit (bs "let d = empty_aligned(); unsafe") b; get b <- whole (group Brace b);
  get x <- read_cast (bs "&*") (bs "*const") b;
  get b <- method (bs "Cast") (bs "try_from_aligned_slice") its;
  get (_, b) <- lit (bs "Ok") b; get b <- whole (group Paren b); get (_, b) <- lit (bs "unsafe") b; get b <- whole (group Brace b);
  get y <- read_cast (bs "&*") (bs "*const") b;
  if body_is (bs "Ok(Self::from_aligned_slice_mut(slice))") (method (bs "Cast") (bs "try_from_aligned_slice_mut") its) then
    match inherent its with
    | [(_, b)] => get b <- fn_body (bs "from_aligned_slice_mut") b; get (_, b) <- lit (bs "unsafe") b; get b <- whole (group Brace b);
                  get z <- read_cast (bs "&mut *") (bs "*mut") b; Some [x; y; z]
    | _ => None
    end
  else None.
(** Types of tuples of references: the associated type, that of [to_tuple], and
    the tuples the structure converts into; the name of the structure converted. *)
Definition read_ref_type : reader (list tree) := fun ts =>
  get (_, r) <- lit (bs "&'a") ts; get (t, r) <- upto "," r; get (_, r) <- lit (bs ",") r; Some (t, r).
Definition from_item (its : list (list tree * list tree)) : option (list tree * list tree) :=
  find (fun it => match lit (bs "impl<'a> From<&'a") (fst it) with Some _ => true | None => false end) its.
Definition tuples_of (its : list (list tree * list tree)) : option (list (list (list tree)) * list byte) :=
  get (_, b) <- impl_body (bs "Structure") its; get (_, r) <- lit (bs "type RefTuple =") b;
  get (b, r) <- group Paren r; get x <- every read_ref_type b;
  get (_, r) <- lit (bs "; fn to_tuple(&'a self) ->") r; get (b, _) <- group Paren r; get y <- every read_ref_type b;
  get it <- from_item its; get (_, r) <- lit (bs "impl<'a> From<&'a") (fst it);
  match r with
  | Leaf (Ident n) :: r => get (_, r) <- lit (bs "> for") r; get b <- whole (group Paren r); get z <- every read_ref_type b; Some ([x; y; z], n)
  | _ => None
  end.
(** [T0: ::gvariant::SerializeTo<TYPE> + Copy] *)
Definition read_param : reader (N * list tree) := fun ts =>
  get (n, r) <- numbered (bs "T") ts; get (_, r) <- lit (bs ": ::gvariant::SerializeTo<") r;
  get (t, r) <- upto "+" r; get (_, r) <- lit (bs "+ Copy") r;
  match rev t with g :: t => if is_mark ">" g then Some ((n, rev t), r) else None | [] => None end.
Fixpoint params (fuel : nat) (ts : list tree) : option (list (N * list tree) * list tree) :=
  match lit (bs ">") ts, fuel with
  | Some (_, r), _ => Some ([], r)
  | None, O => None
  | None, S fuel =>
      get (p, r) <- read_param ts;
      match lit (bs ",") r with
      | Some (_, r) => get (l, r) <- params fuel r; Some (p :: l, r)
      | None => get (_, r) <- lit (bs ">") r; Some ([p], r)
      end
  end.
Definition read_T : reader N := fun ts => get (n, r) <- numbered (bs "T") ts; get (_, r) <- lit (bs ",") r; Some (n, r).
(** [impl<PARAMS> SerializeTo<NAME> for &(T0, ...)] *)
Definition serializable (its : list (list tree * list tree)) : option (list (N * list tree) * list byte * list N) :=
  get it <- find (fun it => match impl_of it with Some (tr, _, _) => spells (bs "SerializeTo") tr | None => false end) its;
  get (_, r) <- lit (bs "impl<") (fst it); get (ps, r) <- params (length r) r;
  get (_, r) <- lit (bs "::gvariant::SerializeTo<") r;
  match r with
  | Leaf (Ident n) :: r => get (_, r) <- lit (bs "> for &") r; get b <- whole (group Paren r); get l <- every read_T b; Some (ps, n, l)
  | _ => None
  end.
