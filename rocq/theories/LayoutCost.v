(** How many calls it takes the macro to find the alignment and the size of a type.

    [align_of] and [size_of] of [Layout] once more, with the number of calls of the two
    beside the result, the first call included.  Alignments are computed anew at every
    level (generate_impl.rs:327, 337, 343, 345). *)
From Verif Require Import Base Types Layout.

(** [fn align_of] (generate_impl.rs:271-297). *)
Fixpoint align_of_t (t : ty) : N * N :=
  match t with
  | TB | TY => (1, 1)
  | TN | TQ => (1, 2)
  | TI | TU => (1, 4)
  | TX | TT => (1, 8)
  | TD => (1, 8)
  | TS | TO | TG => (1, 1)
  | TM t => let '(n, al) := align_of_t t in (1 + n, al)
  | TA t => let '(n, al) := align_of_t t in (1 + n, al)
  | TTuple subtypes =>
      let rs := map align_of_t subtypes in
      (1 + fold_right N.add 0 (map fst rs), fold_right N.max 1 (map snd rs))
  | TDict k v => let '(n, a) := align_of_t k in let '(m, b) := align_of_t v in (1 + n + m, N.max a b)
  | TV => (1, 8)
  end.
(** [fn size_of] (generate_impl.rs:299-351); the loop (326-332) ends at the first member
    without a fixed size. *)
Fixpoint size_of_t (t : ty) : N * option N :=
  match t with
  | TB | TY => (1, Some 1)
  | TN | TQ => (1, Some 2)
  | TI | TU => (1, Some 4)
  | TX | TT | TD => (1, Some 8)
  | TS | TO | TG | TV | TA _ | TM _ => (1, None)
  | TTuple subtypes =>
      match subtypes with
      | [] => (1, Some 1)
      | _ :: _ =>
          let '(n, r) :=
            (fix walk (pos : N) (ts : list ty) : N * option N :=
               match ts with
               | [] => (0, Some pos)
               | t :: ts =>
                   let '(n1, al) := align_of_t t in
                   let pos := align pos al in
                   let '(n2, sz) := size_of_t t in
                   match sz with
                   | Some s => let '(n3, r) := walk (pos + s) ts in (n1 + n2 + n3, r)
                   | None => (n1 + n2, None)
                   end
               end) 0 subtypes in
          match r with
          | Some pos => let '(m, al) := align_of_t t in (1 + n + m, Some (align pos al))
          | None => (1 + n, None)
          end
      end
  | TDict k v =>
      let '(n1, a) := size_of_t k in
      let '(n2, b) := size_of_t v in
      match a, b with
      | Some a, Some b =>
          let '(n3, al) := align_of_t v in
          let pos := align a al in
          let pos := pos + b in
          let '(n4, al) := align_of_t t in
          (1 + n1 + n2 + n3 + n4, Some (align pos al))
      | _, _ => (1 + n1 + n2, None)
      end
  end.
