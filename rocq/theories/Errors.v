(** The texts of the type-string parser's errors (gvariant-macro).

    [one] and [parse_one_type_spec] (Types.v) return one of the kinds of
    [perr]; this file gives each the text it carries in the source. *)
From Verif Require Import Base Types Spec.

(** The [message] of each [ParseError] built in type_parser.rs: "Type string is
    empty" (type_parser.rs:73), "More than one type in type string"
    (type_parser.rs:79), "Array item type required" (type_parser.rs:108),
    "Maybe item type required" (type_parser.rs:114), "EOF when inside tuple
    definition" (type_parser.rs:123), "EOF: Dict entry requires two types"
    (type_parser.rs:135 and 141), "EOF when expecting }" (type_parser.rs:146),
    "Expected }, got something else" (type_parser.rs:150) and "Unexpected
    charactor" (type_parser.rs:157; the misspelling is the source's).  [EFuel] is
    the model's own and never comes out (C01_parser_terminates). *)
Definition perr_message (e : perr) : list byte :=
  match e with
  | EEmpty => bs "Type string is empty"
  | EMore => bs "More than one type in type string"
  | EArray => bs "Array item type required"
  | EMaybe => bs "Maybe item type required"
  | EEofTuple => bs "EOF when inside tuple definition"
  | EEofDict => bs "EOF: Dict entry requires two types"
  | EEofClose => bs "EOF when expecting }"
  | EClose => bs "Expected }, got something else"
  | EChar => bs "Unexpected charactor"
  | EFuel => []
  end.

(** [Display for ParseError] (type_parser.rs:8-12). *)
Definition perr_display (e : perr) : list byte := bs "Parse Error: " ++ perr_message e.

(** The text of the error [one] returns for a string, if it returns one
    (type_parser.rs:69-84; what gv_type and define_gv of
    gvariant-macro/src/lib.rs:14-27 panic with, by way of [unwrap]). *)
Definition parse_error (spec : list byte) : option (list byte) :=
  match one spec with
  | inl e => Some (perr_display e)
  | inr _ => None
  end.
