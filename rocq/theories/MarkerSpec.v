(** What the Rust type expressions of [gv!] should satisfy. *)
From Verif Require Import Base Types Spec.

(** The Rust types do not tell strings, object paths and signatures apart, except
    inside structures. *)
Fixpoint sp_rust (t : ty) : ty :=
  match t with
  | TS | TO | TG => TS
  | TA x => TA (sp_rust x)
  | TM x => TM (sp_rust x)
  | _ => t
  end.
(** The words of a piece of Rust text: maximal runs of letters, digits and
    underscores. *)
Definition sp_word_char (b : byte) : bool :=
  let n := b2n b in
  ((48 <=? n) && (n <=? 57)) || ((65 <=? n) && (n <=? 90)) || ((97 <=? n) && (n <=? 122)) || (n =? 95).
Fixpoint sp_words_from (cur : list byte) (s : list byte) : list (list byte) :=
  match s with
  | [] => match cur with [] => [] | _ => [cur] end
  | b :: s' => if sp_word_char b then sp_words_from (cur ++ [b]) s'
               else match cur with [] => [] | _ => [cur] end ++ sp_words_from [] s'
  end.
Definition sp_words (s : list byte) : list (list byte) := sp_words_from [] s.
(** The types that the gvariant crate itself defines or that are Rust's own
    (lib.rs:286-330 and the [gv!] macro's imports, 573-610). *)
Definition sp_builtin : list (list byte) :=
  [bs "Bool"; bs "u8"; bs "i16"; bs "u16"; bs "i32"; bs "u32"; bs "i64"; bs "u64"; bs "f64";
   bs "Str"; bs "Variant"; bs "NonFixedWidthArray"; bs "MaybeNonFixedSize"; bs "MaybeFixedSize"].
