(** Vocabulary for what reading asks of the allocator. *)
From Verif Require Import Base Types Spec.

(** A copy of [n] bytes in a buffer that is aligned, made where the allocator puts it at
    [a]: the bytes, and if that is not a multiple of 8, once more with room to move. *)
Definition sp_copy (n a : N) : list N :=
  if n =? 0 then [] else if a mod 8 =? 0 then [n] else [n; N.max (2 * n) (n + 7)].
(** An owned value of type [t] made from the bytes [d]: nothing for a fixed-size one; the
    text and a NUL; the elements of an array of fixed size, if the size is right; for
    all others a copy. *)
Definition sp_owning (t : ty) (d : list byte) (a : N) : list N :=
  match sp_size t with
  | Some _ => []
  | None =>
      match t with
      | TS | TO | TG => [len (sp_string d) + 1]
      | TA x => match sp_size x with
                | Some k => if (len d =? 0) || negb (len d mod k =? 0) then [] else [len d]
                | None => sp_copy (len d) a
                end
      | _ => sp_copy (len d) a
      end
  end.
(** Aligning, in place, a vector at [a] that holds [n] bytes and has room for [cap]. *)
Definition sp_room (n cap a : N) : list N :=
  if (n =? 0) || (a mod 8 =? 0) || (n + 7 <=? cap) then [] else [N.max (2 * cap) (n + 7)].
Definition sp_total (l : list N) : N := fold_right N.add 0 l.
