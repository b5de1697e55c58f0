(** The words of generated code: what they may be.  Lists of names of the Rust
    language and library and of this crate. *)
From Verif Require Import Base Types Spec LexSpec TextSpec.

(** Keywords and built-in types; [_]. *)
Definition language : list (list byte) :=
  [bs "pub"; bs "crate"; bs "struct"; bs "impl"; bs "unsafe"; bs "fn"; bs "mut"; bs "self"; bs "Self"; bs "type";
   bs "for"; bs "as"; bs "const"; bs "static"; bs "let"; bs "true"; bs "false"; bs "_"; bs "usize"; bs "bool";
   bs "u8"; bs "i16"; bs "u16"; bs "i32"; bs "u32"; bs "i64"; bs "u64"; bs "f64"].
(** The arguments of the attributes, and the names Rust's prelude brings into
    every module. *)
Definition prelude : list (list byte) :=
  [bs "repr"; bs "transparent"; bs "C"; bs "derive"; bs "ToOwned"; bs "Result"; bs "Ok"; bs "Some"; bs "None";
   bs "PartialEq"; bs "From"; bs "Copy"; bs "Clone"; bs "Default"].
(** The crates, and what the paths go to in [std] and [core]; methods and
    associated items of traits there. *)
Definition library : list (list byte) :=
  [bs "std"; bs "core"; bs "gvariant"; bs "io"; bs "Write"; bs "fmt"; bs "Debug"; bs "Formatter"; bs "mem";
   bs "size_of"; bs "Owned"; bs "to_owned"; bs "eq"; bs "from"; bs "write_all"].
(** What gvariant exports and [gv!] imports (gvariant/src/lib.rs:577-581): modules,
    types, functions, traits and their members. *)
Definition exported : list (list byte) :=
  [bs "aligned_bytes"; bs "AlignedSlice"; bs "A1"; bs "A2"; bs "A4"; bs "A8"; bs "empty_aligned"; bs "as_aligned";
   bs "casting"; bs "AlignOf"; bs "AllBitPatternsValid"; bs "WrongSize"; bs "try_cast_slice_to";
   bs "try_cast_slice_to_mut"; bs "Cast"; bs "default_ref"; bs "try_from_aligned_slice";
   bs "try_from_aligned_slice_mut"; bs "from_bytes"; bs "Structure"; bs "RefTuple"; bs "to_tuple"; bs "SerializeTo";
   bs "serialize"; bs "get_child_elem"; bs "write_padding"; bs "write_offsets"; bs "Bool"; bs "Str"; bs "Variant";
   bs "NonFixedWidthArray"; bs "MaybeFixedSize"; bs "MaybeNonFixedSize"].
(** Functions, fields, parameters and variables of the generated code itself. *)
Definition own_words : list (list byte) :=
  [bs "data"; bs "from_aligned_slice_mut"; bs "new"; bs "slice"; bs "value"; bs "other"; bs "f"; bs "d"; bs "s";
   bs "off"; bs "framing_offsets"].
Definition vocabulary : list (list byte) := language ++ prelude ++ library ++ exported ++ own_words.
(** [T0], [field_0], [_padding_0], ... *)
Definition numbered_word (w : list byte) : bool :=
  existsb (fun p => match after_prefix p w with Some d => match decimal d with Some _ => true | None => false end | None => false end)
    [bs "T"; bs "field_"; bs "_padding_"].
(** A word that generated code may use, if it may use the structures in [names]. *)
Definition may_use (names : list (list byte)) (w : list byte) : Prop :=
  In w vocabulary \/ numbered_word w = true \/ In w names.
