(** Type strings: gvariant-macro/src/type_parser.rs and the naming part of
    gvariant-macro/src/generate_impl.rs. *)
From Verif Require Import Base.

(** [enum GVariantType] (type_parser.rs:15-34). *)
Inductive ty :=
| TB | TY | TN | TQ | TI | TU | TX | TT | TD
| TS | TO | TG | TV
| TA (t : ty)
| TM (t : ty)
| TTuple (ts : list ty)
| TDict (k v : ty).

(** Induction over types with the nested list made explicit. *)
Section ty_ind'.
  Variable P : ty -> Prop.
  Hypothesis HB : P TB. Hypothesis HY : P TY. Hypothesis HN : P TN.
  Hypothesis HQ : P TQ. Hypothesis HI : P TI. Hypothesis HU : P TU.
  Hypothesis HX : P TX. Hypothesis HT : P TT. Hypothesis HD : P TD.
  Hypothesis HS : P TS. Hypothesis HO : P TO. Hypothesis HG : P TG.
  Hypothesis HV : P TV.
  Hypothesis HA : forall t, P t -> P (TA t).
  Hypothesis HM : forall t, P t -> P (TM t).
  Hypothesis HTuple : forall ts, Forall P ts -> P (TTuple ts).
  Hypothesis HDict : forall k v, P k -> P v -> P (TDict k v).
  Fixpoint ty_ind' (t : ty) : P t :=
    match t with
    | TB => HB | TY => HY | TN => HN | TQ => HQ | TI => HI | TU => HU
    | TX => HX | TT => HT | TD => HD | TS => HS | TO => HO | TG => HG
    | TV => HV
    | TA t => HA t (ty_ind' t)
    | TM t => HM t (ty_ind' t)
    | TTuple ts => HTuple ts
        ((fix go (ts : list ty) : Forall P ts :=
            match ts with
            | [] => Forall_nil _
            | x :: xs => Forall_cons x (ty_ind' x) (go xs)
            end) ts)
    | TDict k v => HDict k v (ty_ind' k) (ty_ind' v)
    end.
End ty_ind'.

(** [Display for GVariantType] (type_parser.rs:36-67). *)
Fixpoint display (t : ty) : list byte :=
  match t with
  | TB => ["b"] | TY => ["y"] | TN => ["n"] | TQ => ["q"] | TI => ["i"]
  | TU => ["u"] | TX => ["x"] | TT => ["t"] | TD => ["d"]
  | TS => ["s"] | TO => ["o"] | TG => ["g"] | TV => ["v"]
  | TA x => "a" :: display x
  | TM x => "m" :: display x
  | TTuple items => "(" :: concat (map display items) ++ [")"]
  | TDict k v => "{" :: display k ++ display v ++ ["}"]
  end%byte.

(** The error messages of type_parser.rs:72-158.  [EFuel] is the model's own
    "recursion budget exhausted"; [TypesFacts.one_no_fuel] shows it never
    happens. *)
Inductive perr :=
| EEmpty | EMore | EArray | EMaybe | EEofTuple | EEofDict | EEofClose | EClose
| EChar | EFuel.

(** The single-letter arms of [parse_one_type_spec] (type_parser.rs:91-104). *)
Definition basic_letter (c : byte) : option ty :=
  match c with
  | "b" => Some TB | "y" => Some TY | "n" => Some TN | "q" => Some TQ
  | "i" => Some TI | "u" => Some TU | "x" => Some TX | "t" => Some TT
  | "d" => Some TD
  | "s" => Some TS | "o" => Some TO | "g" => Some TG | "v" => Some TV
  | _ => None
  end%byte.

(** [parse_one_type_spec] (type_parser.rs:86-161) and its [loop] for tuples
    (121-129).  The iterator is the list of remaining bytes, returned with the
    result.  Rust's recursion is modelled by recursion on a budget. *)
Fixpoint parse_one (fuel : nat) (c : byte) (it : list byte) {struct fuel}
  : perr + (ty * list byte) :=
  match fuel with
  | O => inl EFuel
  | S fuel =>
      match basic_letter c with
      | Some t => inr (t, it)
      | None =>
          if byte_eqb c "a" then
            match it with
            | [] => inl EArray
            | c' :: it' =>
                match parse_one fuel c' it' with
                | inl e => inl e
                | inr (x, it'') => inr (TA x, it'')
                end
            end
          else if byte_eqb c "m" then
            match it with
            | [] => inl EMaybe
            | c' :: it' =>
                match parse_one fuel c' it' with
                | inl e => inl e
                | inr (x, it'') => inr (TM x, it'')
                end
            end
          else if byte_eqb c "(" then
            match parse_items fuel it [] with
            | inl e => inl e
            | inr (ts, it') => inr (TTuple ts, it')
            end
          else if byte_eqb c "{" then
            match it with
            | [] => inl EEofDict
            | c1 :: it1 =>
                match parse_one fuel c1 it1 with
                | inl e => inl e
                | inr (a, []) => inl EEofDict
                | inr (a, c2 :: it2) =>
                    match parse_one fuel c2 it2 with
                    | inl e => inl e
                    | inr (b, []) => inl EEofClose
                    | inr (b, c3 :: it3) =>
                        if byte_eqb c3 "}" then inr (TDict a b, it3)
                        else inl EClose
                    end
                end
            end
          else inl EChar
      end
  end%byte
with parse_items (fuel : nat) (it : list byte) (subtype : list ty) {struct fuel}
  : perr + (list ty * list byte) :=
  match fuel with
  | O => inl EFuel
  | S fuel =>
      match it with
      | [] => inl EEofTuple
      | c :: it' =>
          if byte_eqb c ")"%byte then inr (subtype, it')
          else match parse_one fuel c it' with
               | inl e => inl e
               | inr (t, it'') => parse_items fuel it'' (subtype ++ [t])
               end
      end
  end.

(** [one] (type_parser.rs:69-84): exactly one type, nothing left over. *)
Definition one (spec : list byte) : perr + ty :=
  match spec with
  | [] => inl EEmpty
  | c :: it =>
      match parse_one (2 * length spec + 2) c it with
      | inl e => inl e
      | inr (out, []) => inr out
      | inr (out, _ :: _) => inl EMore
      end
  end.

(** [escape] (generate_impl.rs:257-269). *)
Definition escape_byte (c : byte) : byte :=
  match c with
  | "(" => "C" | "{" => "F" | ")" => "7" | "}" => "3"
  | _ => c
  end%byte.
Definition escape (x : list byte) : list byte := map escape_byte x.

(** Name suffix of the Rust struct generated for a structure type: the
    [Structure{...}] names of generate_impl.rs:73,86,404-407 and
    gvariant-macro/src/lib.rs:57-59 (without the constant prefix). *)
Definition struct_name (t : ty) : list byte := escape (display t).

(** The structure definitions [generate_types] emits, in order
    (generate_impl.rs:6-29): children first, then the structure itself; arrays
    and maybes pass through; everything else is built in. *)
Fixpoint generate_types (t : ty) : list ty :=
  match t with
  | TTuple children => concat (map generate_types children) ++ [t]
  | TDict k v => generate_types k ++ generate_types v ++ [t]
  | TA x => generate_types x
  | TM x => generate_types x
  | _ => []
  end.
