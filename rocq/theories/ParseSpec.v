(** What the errors of the type-string parser should mean, said without a parser
    (C86-C88), and GVariant's own grammar of type strings. *)
From Verif Require Import Base Types Spec.

(** A string is unfinished if something can be added to it to make it a type
    string. *)
Definition unfinished (s : list byte) : Prop := exists q, q <> [] /\ type_string (s ++ q).
(** A character may come next if some type string starts with [s] and then it. *)
Definition may_follow (s : list byte) (c : byte) : Prop := exists q, type_string (s ++ [c] ++ q).
(** [s] goes wrong at [d], after [p]: [p] could still have become a type
    string, but not with [d] next. *)
Definition wrong_at (s p : list byte) (d : byte) : Prop :=
  (exists r, s = p ++ [d] ++ r) /\ unfinished p /\ ~ may_follow p d.
Definition ends_in (s : list byte) (c : byte) : Prop := exists p, s = p ++ [c].

(** GVariant's definite type strings, by its specification: the basic types are
    bynqiuxthd and sog; [v] is not basic; the key of a dictionary entry is basic. *)
Inductive g_basic : list byte -> Prop :=
| gb c : In c ["b";"y";"n";"q";"i";"u";"x";"t";"h";"d";"s";"o";"g"]%byte -> g_basic [c].
Inductive g_type : list byte -> Prop :=
| g_of_basic s : g_basic s -> g_type s
| g_variant : g_type ["v"%byte]
| g_array s : g_type s -> g_type ("a"%byte :: s)
| g_maybe s : g_type s -> g_type ("m"%byte :: s)
| g_tuple ss : Forall g_type ss -> g_type (["("%byte] ++ concat ss ++ [")"%byte])
| g_entry k v : g_basic k -> g_type v -> g_type (["{"%byte] ++ k ++ v ++ ["}"%byte]).

(** A type all of whose dictionary entries have a basic key. *)
Definition basic_type (t : ty) : bool :=
  match t with
  | TV | TA _ | TM _ | TTuple _ | TDict _ _ => false
  | _ => true
  end.
Fixpoint basic_keys (t : ty) : bool :=
  match t with
  | TA x | TM x => basic_keys x
  | TTuple ts => forallb basic_keys ts
  | TDict k v => basic_type k && basic_keys v
  | _ => true
  end.
