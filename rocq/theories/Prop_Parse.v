(** Which type strings are GVariant's, and what the parser's errors mean:
    C86, C87, C88. *)
From Verif Require Import Base Types Spec Errors ParseSpec ParseFacts.

(** C86 is false: a dictionary entry may have a variant, or any container, as
    its key, which GVariant forbids ... *)
Theorem C86_keys_refuted : exists (s : list byte) (t : ty), one s = inr t /\ ~ g_type s.
Proof. exact keys_witness. Qed.
Print Assumptions C86_keys_refuted.
(** ... and the handle type [h], which is GVariant's, is refused. *)
Theorem C86_handles_refuted : exists s : list byte, g_type s /\ forall t : ty, one s <> inr t.
Proof. exact handles_witness. Qed.
Print Assumptions C86_handles_refuted.

(** C87: an accepted string is GVariant's just if all its entries have basic keys ... *)
Theorem C87_accepted : forall (s : list byte) (t : ty),
  one s = inr t -> (g_type s <-> basic_keys t = true).
Proof. exact one_g. Qed.
Print Assumptions C87_accepted.
(** ... and a definite GVariant type string is accepted just if it has no handles. *)
Theorem C87_definite : forall s : list byte,
  g_type s -> ((exists t, one s = inr t) <-> ~ In "h"%byte s).
Proof. exact g_accepted. Qed.
Print Assumptions C87_definite.
Example C87_case : one (bs "a{s(mvit)}") = inr (TA (TDict TS (TTuple [TM TV; TI; TT]))) /\
  basic_keys (TA (TDict TS (TTuple [TM TV; TI; TT]))) = true /\ ~ In "h"%byte (bs "a{s(mvit)}").
Proof. repeat split. cbn. intuition discriminate. Qed.

(** C88: each error text of the macros says what is wrong with the string.
    There is none for a type string ... *)
Theorem C88_none : forall s : list byte, parse_error s = None <-> type_string s.
Proof. exact parse_error_none. Qed.
Print Assumptions C88_none.
Theorem C88_empty : forall s : list byte,
  parse_error s = Some (bs "Parse Error: Type string is empty") <-> s = [].
Proof. exact parse_error_empty. Qed.
Print Assumptions C88_empty.
(** ... text after a whole type ... *)
Theorem C88_more_than_one : forall s : list byte,
  parse_error s = Some (bs "Parse Error: More than one type in type string") <->
  exists p r, s = p ++ r /\ r <> [] /\ type_string p.
Proof. exact parse_error_more. Qed.
Print Assumptions C88_more_than_one.
(** ... a string that stops too early, after [a] or [m] ... *)
Theorem C88_array_item : forall s : list byte,
  parse_error s = Some (bs "Parse Error: Array item type required") <->
  unfinished s /\ ends_in s "a"%byte.
Proof. exact parse_error_array. Qed.
Print Assumptions C88_array_item.
Theorem C88_maybe_item : forall s : list byte,
  parse_error s = Some (bs "Parse Error: Maybe item type required") <->
  unfinished s /\ ends_in s "m"%byte.
Proof. exact parse_error_maybe. Qed.
Print Assumptions C88_maybe_item.
(** ... where a tuple is open, an entry has both types, or an entry lacks one ... *)
Theorem C88_in_tuple : forall s : list byte,
  parse_error s = Some (bs "Parse Error: EOF when inside tuple definition") <->
  may_follow s ")"%byte.
Proof. exact parse_error_tuple. Qed.
Print Assumptions C88_in_tuple.
Theorem C88_entry_close : forall s : list byte,
  parse_error s = Some (bs "Parse Error: EOF when expecting }") <-> may_follow s "}"%byte.
Proof. exact parse_error_close. Qed.
Print Assumptions C88_entry_close.
Theorem C88_entry_types : forall s : list byte,
  parse_error s = Some (bs "Parse Error: EOF: Dict entry requires two types") <->
  s <> [] /\ unfinished s /\ ~ ends_in s "a"%byte /\ ~ ends_in s "m"%byte /\
  ~ may_follow s ")"%byte /\ ~ may_follow s "}"%byte.
Proof. exact parse_error_dict. Qed.
Print Assumptions C88_entry_types.
(** ... and a character that cannot stand where it does. *)
Theorem C88_not_closed : forall s : list byte,
  parse_error s = Some (bs "Parse Error: Expected }, got something else") <->
  exists p d, wrong_at s p d /\ may_follow p "}"%byte.
Proof. exact parse_error_notclose. Qed.
Print Assumptions C88_not_closed.
Theorem C88_unexpected : forall s : list byte,
  parse_error s = Some (bs "Parse Error: Unexpected charactor") <->
  exists p d, wrong_at s p d /\ ~ may_follow p "}"%byte.
Proof. exact parse_error_char. Qed.
Print Assumptions C88_unexpected.
Example C88_cases :
  parse_error [] = Some (bs "Parse Error: Type string is empty") /\
  parse_error (bs "(i)s") = Some (bs "Parse Error: More than one type in type string") /\
  parse_error (bs "(iaa") = Some (bs "Parse Error: Array item type required") /\
  parse_error (bs "{sm") = Some (bs "Parse Error: Maybe item type required") /\
  parse_error (bs "a(i{sv}") = Some (bs "Parse Error: EOF when inside tuple definition") /\
  parse_error (bs "a{sv") = Some (bs "Parse Error: EOF when expecting }") /\
  parse_error (bs "(i{s") = Some (bs "Parse Error: EOF: Dict entry requires two types") /\
  parse_error (bs "({svi})") = Some (bs "Parse Error: Expected }, got something else") /\
  parse_error (bs "a{z}") = Some (bs "Parse Error: Unexpected charactor").
Proof. repeat split. Qed.
