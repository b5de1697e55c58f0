(** Vocabulary for what a reader delivers (C89). *)
From Verif Require Import Base Reader.

(** What a call contributes, and whether reading goes on after it. *)
Definition brings (o : outcome) : list byte := match o with Bytes d => d | _ => [] end.
Definition goes_on (o : outcome) : Prop :=
  match o with Bytes d => d <> [] | Interrupted => True | Fails _ => False end.
Definition at_end (rest : list outcome) : Prop :=
  match rest with [] => True | o :: _ => o = Bytes [] end.
