(** How long the parser of type strings takes, and how deep it recurses.

    The functions of [Types] once more, line by line, with a count of steps and the number
    of calls of [parse_one_type_spec] that are active at a time.  Asking the iterator for a
    byte, a [match] on a byte, a comparison, a [Box::new] and pushing to a vector (on
    average: it doubles when it is full) are a step each.  [ParseCostFacts] shows that
    without the counts these are the functions of [Types]. *)
From Verif Require Import Base Types.

Record counted (A : Type) : Type := Counted { c_steps : N; c_depth : N; c_result : perr + A }.
Arguments Counted {A} _ _ _. Arguments c_steps {A} _. Arguments c_depth {A} _. Arguments c_result {A} _.
(** The operator [?] (as at type_parser.rs:75): steps add up, the deeper of the two counts. *)
Definition cbind {A B} (m : counted A) (f : A -> counted B) : counted B :=
  match c_result m with
  | inr a => let r := f a in Counted (c_steps m + c_steps r) (N.max (c_depth m) (c_depth r)) (c_result r)
  | inl e => Counted (c_steps m) (c_depth m) (inl e)
  end.
Notation "'let%' x := m 'in' f" := (cbind m (fun x => f)) (at level 200, x pattern, m at level 100, f at level 200).
Definition gives {A} (n : N) (a : A) : counted A := Counted n 0 (inr a).
Definition fails {A} (e : perr) : counted A := Counted 0 0 (inl e).
(** [it.next().ok_or(e)?] (type_parser.rs:72-74, 107-109, 114-116, 123-125, 133-135, 140-142, 146-148). *)
Definition next_t (e : perr) (it : list byte) : counted (byte * list byte) :=
  match it with [] => Counted 1 0 (inl e) | c :: it => gives 1 (c, it) end.
(** A call of [parse_one_type_spec] (86-89) and what goes on in it. *)
Definition calls_t {A} (m : counted A) : counted A := Counted (c_steps m) (1 + c_depth m) (c_result m).

(** [parse_one_type_spec] (type_parser.rs:86-161), [loop] (121-129). *)
Fixpoint parse_one_t (fuel : nat) (c : byte) (it : list byte) {struct fuel} : counted (ty * list byte) :=
  match fuel with
  | O => fails EFuel
  | S fuel => calls_t (
      let% _ := gives 1 tt in
      match basic_letter c with
      | Some t => gives 0 (t, it)
      | None =>
          if byte_eqb c "a" then
            let% (c', it') := next_t EArray it in
            let% (x, it'') := parse_one_t fuel c' it' in
            gives 1 (TA x, it'')
          else if byte_eqb c "m" then
            let% (c', it') := next_t EMaybe it in
            let% (x, it'') := parse_one_t fuel c' it' in
            gives 1 (TM x, it'')
          else if byte_eqb c "(" then
            let% (ts, it') := parse_items_t fuel it [] in
            gives 0 (TTuple ts, it')
          else if byte_eqb c "{" then
            let% (c1, it1) := next_t EEofDict it in
            let% (a, it2) := parse_one_t fuel c1 it1 in
            let% (c2, it3) := next_t EEofDict it2 in
            let% (b, it4) := parse_one_t fuel c2 it3 in
            let% (c3, it5) := next_t EEofClose it4 in
            let% _ := gives 1 tt in
            if byte_eqb c3 "}" then gives 1 (TDict a b, it5) else fails EClose
          else fails EChar
      end)
  end%byte
with parse_items_t (fuel : nat) (it : list byte) (subtype : list ty) {struct fuel} : counted (list ty * list byte) :=
  match fuel with
  | O => fails EFuel
  | S fuel =>
      let% (c, it') := next_t EEofTuple it in
      let% _ := gives 1 tt in
      if byte_eqb c ")"%byte then gives 0 (subtype, it')
      else
        let% (t, it'') := parse_one_t fuel c it' in
        let% _ := gives 1 tt in
        parse_items_t fuel it'' (subtype ++ [t])
  end.
(** [one] (type_parser.rs:69-84). *)
Definition one_t (spec : list byte) : counted ty :=
  let% (c, it) := next_t EEmpty spec in
  let% (out, rest) := parse_one_t (2 * length spec + 2) c it in
  let% _ := gives 1 tt in
  match rest with [] => gives 0 out | _ :: _ => fails EMore end.
