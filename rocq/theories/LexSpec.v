(** Reading Rust source text: tokens and token trees, after the Rust Reference
    ("Lexical structure", "Macros").  A part of the language: what is rejected
    here may be good Rust, what is accepted is split as Rust splits it. *)
From Verif Require Import Base Types Spec MarkerSpec PrintSpec.

Inductive delim := Paren | Brack | Brace.
Inductive token :=
| Ident (s : list byte)      (* identifiers, keywords and _ *)
| Life (s : list byte)       (* 'a *)
| Num (s : list byte)        (* integers, with suffix *)
| ByteStr (s : list byte)    (* b"...", the bytes meant *)
| Punct (c : byte)
| Open (d : delim)
| Close (d : delim).

(** What has been begun and not ended. *)
Inductive lexing :=
| Gap                        (* nothing *)
| InWord (w : list byte)
| InNum (w : list byte)
| NumDot (w : list byte)     (* a number and a dot: not a floating-point literal if a word follows *)
| Quote                      (* ' *)
| InLife (w : list byte)
| Slash                      (* / *)
| Slashes                    (* // *)
| InLine                     (* in a comment *)
| InText (w : list byte)     (* in a byte string *)
| Escape (w : list byte)     (* after \ in a byte string *)
| TextEnd.                   (* after a byte string: a suffix may not follow *)

Definition is_digit (c : byte) : bool := (48 <=? b2n c) && (b2n c <=? 57).
Definition word_start (c : byte) : bool := sp_word_char c && negb (is_digit c).
Definition is_space (c : byte) : bool := (b2n c =? 32) || (b2n c =? 10).
Definition printable (c : byte) : bool := (32 <=? b2n c) && (b2n c <=? 126).
Definition is_punct (c : byte) : bool := existsb (Byte.eqb c) (bs "#:;,.<>&*=!?+-").
Definition delim_of (c : byte) : option token :=
  match c with
  | "(" => Some (Open Paren) | ")" => Some (Close Paren)
  | "[" => Some (Open Brack) | "]" => Some (Close Brack)
  | "{" => Some (Open Brace) | "}" => Some (Close Brace)
  | _ => None
  end%byte.
(** A character where nothing has been begun. *)
Definition fresh (c : byte) : option (list token * lexing) :=
  if is_space c then Some ([], Gap)
  else if is_digit c then Some ([], InNum [c])
  else if word_start c then Some ([], InWord [c])
  else match delim_of c with
       | Some d => Some ([d], Gap)
       | None => if is_punct c then Some ([Punct c], Gap)
                 else if Byte.eqb c "'" then Some ([], Quote)
                 else if Byte.eqb c "/" then Some ([], Slash)
                 else None
       end.
Definition after (ts : list token) (r : option (list token * lexing)) : option (list token * lexing) :=
  match r with Some (us, st) => Some (ts ++ us, st) | None => None end.
(** One character more: the tokens that end before or with it. *)
Definition lex_step (st : lexing) (c : byte) : option (list token * lexing) :=
  match st with
  | Gap => fresh c
  | InWord w =>
      if sp_word_char c then Some ([], InWord (w ++ [c]))
      else if Byte.eqb c """" then match w with ["b"%byte] => Some ([], InText []) | _ => None end
      else if Byte.eqb c "'" || Byte.eqb c "#" then None
      else after [Ident w] (fresh c)
  | InNum w =>
      if sp_word_char c then Some ([], InNum (w ++ [c]))
      else if Byte.eqb c "." then Some ([], NumDot w)
      else after [Num w] (fresh c)
  | NumDot w => if word_start c then Some ([Num w; Punct "."], InWord [c]) else None
  | Quote => if word_start c then Some ([], InLife [c]) else None
  | InLife w =>
      if sp_word_char c then Some ([], InLife (w ++ [c]))
      else if Byte.eqb c "'" then None
      else after [Life w] (fresh c)
  | Slash => if Byte.eqb c "/" then Some ([], Slashes) else None
  | Slashes =>
      if Byte.eqb c "/" || Byte.eqb c "!" then None
      else if b2n c =? 10 then Some ([], Gap) else if printable c then Some ([], InLine) else None
  | InLine => if b2n c =? 10 then Some ([], Gap) else if printable c then Some ([], InLine) else None
  | InText w =>
      if Byte.eqb c """" then Some ([ByteStr w], TextEnd)
      else if Byte.eqb c "\" then Some ([], Escape w)
      else if printable c then Some ([], InText (w ++ [c])) else None
  | Escape w => if Byte.eqb c "0" then Some ([], InText (w ++ [x00])) else None
  | TextEnd => if sp_word_char c then None else fresh c
  end.
Definition lex_end (st : lexing) : option (list token) :=
  match st with
  | Gap | TextEnd | Slashes | InLine => Some []
  | InWord w => Some [Ident w]
  | InNum w => Some [Num w]
  | InLife w => Some [Life w]
  | _ => None
  end.
Fixpoint lex (st : lexing) (s : list byte) : option (list token) :=
  match s with
  | [] => lex_end st
  | c :: r => match lex_step st c with
              | Some (ts, st') => match lex st' r with Some us => Some (ts ++ us) | None => None end
              | None => None
              end
  end.

(** ** Token trees *)
Inductive tree := Leaf (t : token) | Group (d : delim) (ts : list tree).
Definition same_delim (a b : delim) : bool :=
  match a, b with Paren, Paren | Brack, Brack | Brace, Brace => true | _, _ => false end.
(** [up]: the groups not closed yet, innermost first, with what comes before each. *)
Fixpoint grow (up : list (delim * list tree)) (cur : list tree) (ts : list token) : option (list tree) :=
  match ts with
  | [] => match up with [] => Some cur | _ => None end
  | Open d :: r => grow ((d, cur) :: up) [] r
  | Close d :: r =>
      match up with
      | (d', before) :: up => if same_delim d d' then grow up (before ++ [Group d cur]) r else None
      | [] => None
      end
  | t :: r => grow up (cur ++ [Leaf t]) r
  end.
(** What [str::parse::<TokenStream>] makes of a text. *)
Definition token_trees (s : list byte) : option (list tree) :=
  match lex Gap s with Some ts => grow [] [] ts | None => None end.
