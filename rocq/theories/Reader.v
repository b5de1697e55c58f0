(** [Marker::deserialize] with the reader it reads from (lib.rs:363-386). *)
From Verif Require Import Base Types Buf.

(** What one call of the [Read::read] of the reader passed to [deserialize]
    gives (lib.rs:378-386; [std::io::Read]): some bytes, none of them at its
    end, an error of kind [Interrupted], or another error, here a number.
    Simplified: a reader is the list of what its calls give; after the last of
    them it is at its end.  How many bytes [read_to_end] asks for at a time is up
    to the standard library, so any division into pieces is possible. *)
Inductive outcome :=
| Bytes (d : list byte)
| Interrupted
| Fails (e : N).

(** [r.read_to_end(&mut buf)] (lib.rs:383; documented in [std::io::Read]): reads
    until a call gives no bytes, calls again after [Interrupted], and gives up
    on any other error. *)
Fixpoint read_to_end (calls : list outcome) (buf : list byte) : N + list byte :=
  match calls with
  | [] => inr buf
  | Bytes [] :: _ => inr buf
  | Bytes d :: rest => read_to_end rest (buf ++ d)
  | Interrupted :: rest => read_to_end rest buf
  | Fails e :: _ => inl e
  end.

(** [Marker::deserialize] (lib.rs:378-386): [inl] is the error returned for a
    failing reader.  The vector ends up at the address [a1]. *)
Definition deserialize_from (h : host) (t : ty) (calls : list outcome) (a1 a2 a3 a4 : N) : N + res owned :=
  match read_to_end calls [] with
  | inl e => inl e
  | inr buf => inr (deserialize h t (Vec a1 buf) a2 a3 a4)
  end.
