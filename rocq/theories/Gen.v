(** The text of the Rust code the macros generate: gvariant-macro/src/generate_impl.rs
    and lib.rs.  The format strings are transcribed with their white space. *)
From Verif Require Import Base Types Layout Spec CoreFmt Ser Marker.

(** [{}] of a [usize] and of a [u8], [{:?}] of an [Option<usize>], [{}] of a [bool]; [join]. *)
Definition dec (n : N) : list byte := core_int (Z.of_N n).
Definition option_text (o : option N) : list byte :=
  match o with Some n => bs "Some(" ++ dec n ++ bs ")" | None => bs "None" end.
Definition bool_text (b : bool) : list byte := if b then bs "true" else bs "false".
Definition nl : list byte := [x0a].
Fixpoint join (sep : list byte) (l : list (list byte)) : list byte :=
  match l with
  | [] => []
  | [x] => x
  | x :: r => x ++ sep ++ join sep r
  end.
Definition number {A} (l : list A) : list (nat * A) := combine (seq 0 (length l)) l.

(** The elements of [serialize_cmds] (generate_impl.rs:182-183, 189, 194-195, 200-206,
    436, 450, 464).  ["\0".repeat(n)] is a backslash and a 0, n times. *)
Definition cmd_text (c : cmd) : list byte :=
  match c with
  | CZeros n => bs "f.write_all(b""" ++ concat (repeat (bs "\0") (N.to_nat n)) ++ bs """)?;"
  | CAdd n => bs "off += " ++ dec n ++ bs ";"
  | CPad A => bs "off += write_padding::<A" ++ dec A ++ bs ", _>(off, f)?;"
  | CChild n => bs "self." ++ dec (N.of_nat n) ++ bs ".serialize(f)?;"
  | CChildAdd n => bs "off += self." ++ dec (N.of_nat n) ++ bs ".serialize(f)?;"
  | CFrame i => bs "framing_offsets[" ++ core_int i ++ bs "] = off;"
  end.
(** [serialize_types] and [serialize_types2], joined (210-215, 249-250; 445-449, 517-518). *)
Definition serialize_types (children : list ty) : list byte :=
  join (bs ", ") (map (fun p => bs "T" ++ dec (N.of_nat (fst p)) ++ bs ": ::gvariant::SerializeTo<" ++
                                marker_type (snd p) ++ bs "> + Copy") (number children)).
Definition serialize_types2 (children : list ty) : list byte :=
  join (bs " ") (map (fun p => bs "T" ++ dec (N.of_nat (fst p)) ++ bs ",") (number children)).

(** One element of the tuple in [to_tuple] (152-175). *)
Definition child_text (nfo : N) (child : ty) (r : row) (last_child : bool) : list byte :=
  let '(i, a, b, c) := r in
  bs "
            // " ++ display child ++ bs "
            get_child_elem::<" ++ marker_type child ++ bs ", aligned_bytes::A" ++ dec b ++ bs ">(
                self.data.as_aligned(),
                " ++ core_int i ++ bs ",
                " ++ dec a ++ bs ",
                " ++ dec c ++ bs ",
                " ++ option_text (size_of child) ++ bs ",
                " ++ bool_text last_child ++ bs ",
                " ++ dec nfo ++ bs ")," ++ nl.
Fixpoint children_text (nfo : N) (children : list ty) (rows : list row) : list byte :=
  match children, rows with
  | child :: cs, r :: rs =>
      child_text nfo child r (match cs with [] => true | _ => false end) ++ children_text nfo cs rs
  | _, _ => []
  end.
(** [write_non_fixed_size_structure] (54-255). *)
Definition non_fixed_text (t : ty) : list byte :=
  let children := children_of t in
  let nm := struct_name t in
  let al := dec (align_of t) in
  let nfo := n_frame_offsets children in
  let tuple := bs "(" ++ concat (map (fun c => bs "                &'a " ++ marker_type c ++ bs ",") children) ++
               bs "            )" ++ nl in
  bs "
    #[repr(transparent)]
    pub(crate) struct Structure" ++ nm ++ bs " {
        data: AlignedSlice<aligned_bytes::A" ++ al ++ bs ">,
    }
    impl Structure" ++ nm ++ bs " {
        fn from_aligned_slice_mut(slice: &mut AlignedSlice<<Self as AlignOf>::AlignOf>) -> &mut Self {
            // This is safe because Structure" ++ nm ++ bs " is repr(transparent) around
            // this same type:
            unsafe {&mut *(slice as *mut AlignedSlice<aligned_bytes::A" ++ al ++ bs "> as *mut Structure" ++ nm ++ bs ")}
        }
    }
    impl ToOwned for Structure" ++ nm ++ bs " {
        type Owned = Owned<Self>;
        fn to_owned(&self) -> Self::Owned {
            Owned::from_bytes(&*self.data)
        }
    }
    impl ::gvariant::Cast for Structure" ++ nm ++ bs " {
        fn default_ref() -> &'static Self {
            let d = empty_aligned();
            // This is safe because Structure" ++ nm ++ bs " is repr(transparent) around
            // this same type:
            unsafe {&*(d as *const AlignedSlice<aligned_bytes::A" ++ al ++ bs "> as *const Structure" ++ nm ++ bs ")}
        }
        fn try_from_aligned_slice(slice:&AlignedSlice<Self::AlignOf>) -> Result<&Self, ::gvariant::casting::WrongSize> {
            // This is safe because Structure" ++ nm ++ bs " is repr(transparent) around
            // this same type:
            Ok(unsafe {&*(slice as *const AlignedSlice<aligned_bytes::A" ++ al ++ bs "> as *const Structure" ++ nm ++ bs ")})
        }
        fn try_from_aligned_slice_mut(slice:&mut AlignedSlice<Self::AlignOf>) -> Result<&mut Self, ::gvariant::casting::WrongSize> {
            // This is safe because Structure" ++ nm ++ bs " is repr(transparent) around
            // this same type:
            Ok(Self::from_aligned_slice_mut(slice))
        }
    }
    unsafe impl ::gvariant::casting::AllBitPatternsValid for Structure" ++ nm ++ bs " {}
    unsafe impl ::gvariant::casting::AlignOf for Structure" ++ nm ++ bs " {
        type AlignOf = aligned_bytes::A" ++ al ++ bs ";
    }
    impl<'a> Structure<'a> for Structure" ++ nm ++ bs " {
        type RefTuple = " ++ tuple ++ bs ";
        fn to_tuple(&'a self) -> " ++ tuple ++ bs " { (" ++
  children_text nfo children (generate_table children) ++
  bs "            )
        }
    }
    impl<'a> From<&'a Structure" ++ nm ++ bs "> for (" ++ concat (map (fun c => bs "&'a " ++ marker_type c ++ bs ", ") children) ++ bs ") {
        fn from(value : &'a Structure" ++ nm ++ bs ") -> Self {
            value.to_tuple()
        }
    }
    impl PartialEq for Structure" ++ nm ++ bs " {
        fn eq(&self, other: &Self) -> bool {
            self.to_tuple() == other.to_tuple()
        }
    }
    impl<" ++ serialize_types children ++ bs "> ::gvariant::SerializeTo<Structure" ++ nm ++ bs "> for &(" ++ serialize_types2 children ++ bs ") {
        fn serialize(self, f: &mut impl std::io::Write) -> std::io::Result<usize> {
            let mut off: usize = 0;
            let mut framing_offsets : [usize; " ++ dec nfo ++ bs "] = [0; " ++ dec nfo ++ bs "];
            " ++ join nl (map cmd_text (nonfixed_cmds 0 8 0 0 nfo children)) ++ bs "
            off = write_offsets(off, &framing_offsets, f)?;
            Ok(off)
        }
    }
    " ++ nl.

(** The declarations of the fields (420-465): paddings are numbered apart.  [pads] and
    [final] are [packed_struct]'s; [start] and [end_] are recomputed from them for the comments. *)
Fixpoint fields_text (n k : nat) (pos : N) (pads : list N) (final : N) (children : list ty) : list byte :=
  match pads, children with
  | p :: pads', child :: rest =>
      let start := pos + p in
      let end_ := start + match size_of child with Some s => s | None => 0 end in
      (if 0 <? p then bs "    _padding_" ++ dec (N.of_nat k) ++ bs " : [u8;" ++ dec p ++ bs "]," ++ nl else []) ++
      bs "    // " ++ display child ++ bs " bytes " ++ dec start ++ bs ".." ++ dec end_ ++ nl ++
      bs "    pub field_" ++ dec (N.of_nat n) ++ bs " : " ++ marker_type child ++ bs "," ++ nl ++
      fields_text (S n) (if 0 <? p then S k else k) end_ pads' final rest
  | _, _ => if 0 <? final then bs "    _padding_" ++ dec (N.of_nat k) ++ bs " : [u8;" ++ dec final ++ bs "]," ++ nl else []
  end.
(** [set_fields] (432-435, 452, 460-463). *)
Fixpoint set_fields_text (n k : nat) (pads : list N) (final : N) (children : list ty) : list byte :=
  match pads, children with
  | p :: pads', child :: rest =>
      (if 0 <? p then bs "_padding_" ++ dec (N.of_nat k) ++ bs " : [0u8;" ++ dec p ++ bs "]," ++ nl else []) ++
      bs "field_" ++ dec (N.of_nat n) ++ bs " : field_" ++ dec (N.of_nat n) ++ bs "," ++ nl ++
      set_fields_text (S n) (if 0 <? p then S k else k) pads' final rest
  | _, _ => if 0 <? final then bs "_padding_" ++ dec (N.of_nat k) ++ bs " : [0u8;" ++ dec final ++ bs "]," ++ nl else []
  end.
(** [write_packed_struct] (397-527); [None] if it panics, see [packed_struct]. *)
Definition packed_text (t : ty) : option (list byte) :=
  match packed_struct t with
  | None => None
  | Some (pads, final) =>
      let children := children_of t in
      let nm := struct_name t in
      let each (f : nat -> ty -> list byte) := map (fun p => f (fst p) (snd p)) (number children) in
      let num n := dec (N.of_nat n) in
      let get_fields := join (bs " ") (each (fun n _ => bs "&self.field_" ++ num n ++ bs ",")) in
      let field_arglist := join (bs ", ") (each (fun n c => bs "field_" ++ num n ++ bs " : " ++ marker_type c)) in
      let set_fields := set_fields_text 0 0 pads final children in
      let defaults := join (bs ", ") (each (fun _ _ => bs "0")) in
      let eqs := join (bs " && ") (bs "true" :: each (fun n _ => bs "self.field_" ++ num n ++ bs " == other.field_" ++ num n)) in
      let tuple := join (bs " ") (each (fun _ c => bs "&'a " ++ marker_type c ++ bs ",")) in
      Some (bs "#[derive(Default,Copy,Clone)]" ++ nl ++ bs "#[repr(C)]" ++ nl ++
            bs "pub(crate) struct Structure" ++ nm ++ bs " {" ++ nl ++
            fields_text 0 0 0 pads final children ++
            bs "}
        unsafe impl ::gvariant::casting::AllBitPatternsValid for Structure" ++ nm ++ bs " {}
        unsafe impl ::gvariant::casting::AlignOf for Structure" ++ nm ++ bs " {
            type AlignOf = ::gvariant::aligned_bytes::A" ++ dec (align_of t) ++ bs ";
        }
        impl Structure" ++ nm ++ bs " {
            pub const fn new(" ++ field_arglist ++ bs ") -> Structure" ++ nm ++ bs " {
                Structure" ++ nm ++ bs " { " ++ set_fields ++ bs " }
            }
        }
        impl<'a> ::gvariant::Structure<'a> for Structure" ++ nm ++ bs " {
            type RefTuple = (" ++ tuple ++ bs ");
            fn to_tuple(&'a self) -> (" ++ tuple ++ bs ") {
                (" ++ get_fields ++ bs ")
            }
        }
        impl ::gvariant::Cast for Structure" ++ nm ++ bs " {
            fn default_ref() -> &'static Self {
                static s : Structure" ++ nm ++ bs " = Structure" ++ nm ++ bs "::new(" ++ defaults ++ bs ");
                &s
            }
            fn try_from_aligned_slice(slice:&::gvariant::aligned_bytes::AlignedSlice<Self::AlignOf>) -> Result<&Self, ::gvariant::casting::WrongSize> {
                ::gvariant::casting::try_cast_slice_to::<Self>(slice)
            }
            fn try_from_aligned_slice_mut(slice:&mut ::gvariant::aligned_bytes::AlignedSlice<Self::AlignOf>) -> Result<&mut Self, ::gvariant::casting::WrongSize> {
                ::gvariant::casting::try_cast_slice_to_mut::<Self>(slice)
            }
        }
        impl PartialEq for Structure" ++ nm ++ bs " {
            fn eq(&self, other: &Self) -> bool {
                " ++ eqs ++ bs "
            }
        }
        impl<'a> From<&'a Structure" ++ nm ++ bs "> for (" ++ tuple ++ bs ") {
            fn from(value : &'a Structure" ++ nm ++ bs ") -> Self {
                value.to_tuple()
            }
        }
        impl<" ++ serialize_types children ++ bs "> ::gvariant::SerializeTo<Structure" ++ nm ++ bs "> for &(" ++ serialize_types2 children ++ bs ") {
            fn serialize(self, f: &mut impl std::io::Write) -> std::io::Result<usize> {
                " ++ join nl (map cmd_text (packed_cmds 0 pads final)) ++ bs "
                Ok(core::mem::size_of::<Structure" ++ nm ++ bs ">())
            }
        }
        " ++ nl)
  end.
(** [generate_tuple] (31-52). *)
Definition tuple_text (t : ty) : option (list byte) :=
  let nm := struct_name t in
  match (if is_fixed t then packed_text t else Some (non_fixed_text t)) with
  | Some out => Some (out ++
      bs "impl std::fmt::Debug for Structure" ++ nm ++ bs " {
        fn fmt(&self, f: &mut std::fmt::Formatter<'_>) -> std::fmt::Result {
            std::fmt::Debug::fmt(&self.to_tuple(), f)
        }
    }")
  | None => None
  end.
(** [generate_types] (6-29). *)
Fixpoint types_text (t : ty) : option (list byte) :=
  match t with
  | TTuple children =>
      match (fix all (l : list ty) : option (list byte) :=
               match l with
               | [] => Some []
               | x :: r => match types_text x, all r with
                           | Some a, Some b => Some (a ++ b)
                           | _, _ => None
                           end
               end) children, tuple_text t with
      | Some a, Some b => Some (a ++ b)
      | _, _ => None
      end
  | TDict k v =>
      match types_text k, types_text v, tuple_text t with
      | Some a, Some b, Some c => Some (a ++ b ++ c)
      | _, _, _ => None
      end
  | TA x | TM x => types_text x
  | _ => Some []
  end.
(** [define_gv!] (gvariant-macro/src/lib.rs:20-27) before the text is made a token
    stream: panics for invalid type strings and where [packed_struct] does. *)
Definition define_gv (s : list byte) : res (list byte) :=
  match one s with
  | inl _ => Crash PUnwrap
  | inr t => match types_text t with Some x => Ok x | None => Crash POverflow end
  end.
