(** Writers other than [Ser.sink] that can be passed to [Marker::serialize]
    (gvariant/src/lib.rs:425-431). *)
From Verif Require Import Base Ser.

(** What one call of the writer's [Write::write] does ([std::io::Write]; called
    by the [write_all] of lib.rs:619, 679, 793-794 and so on): takes up to a
    number of the bytes offered, fails with [Interrupted], or fails otherwise,
    here with a number. *)
Inductive answer :=
| Accepts (n : N)
| Again
| Refuses (e : N).

(** A writer: the bytes it has taken, and the answers its next calls give.
    Simplified: the answers are fixed beforehand, and after the last of them it
    takes all it is offered. *)
Record writer := Writer { w_out : list byte; w_answers : list answer }.

(** [Write::write_all], provided by the standard library:
    [[
    while !buf.is_empty() {
        match self.write(buf) {
            Ok(0) => return Err(WRITE_ALL_EOF),
            Ok(n) => buf = &buf[n..],
            Err(ref e) if e.is_interrupted() => {}
            Err(e) => return Err(e),
        }
    }
    ]] *)
Fixpoint write_loop (answers : list answer) (buf out : list byte) : writer * sres unit :=
  match buf, answers with
  | [], _ => (Writer out answers, SOk tt)
  | _, [] => (Writer (out ++ buf) [], SOk tt)
  | _, Accepts n :: rest =>
      if n =? 0 then (Writer out rest, SErr EWriteZero)
      else write_loop rest (drop n buf) (out ++ take n buf)
  | _, Again :: rest => write_loop rest buf out
  | _, Refuses e :: rest => (Writer out rest, SErr (EOther e))
  end.
#[global] Instance writer_write : Write writer := fun bs k => write_loop (w_answers k) bs (w_out k).

(** [Marker::serialize] (lib.rs:425-431) to it. *)
Definition serialize_to (h : host) (t : Types.ty) (r : rval) (answers : list answer) : writer * sres N :=
  ser h r t (Writer [] answers).
