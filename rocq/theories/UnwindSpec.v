(** Programs that go on after a panic, and the plain objects they are compared
    with. *)
From Verif Require Import Base Types Layout AlignedBytes Deser Strs Spec Buf Histories Unwind.

(** ** GString *)
(** Calls, with the allocator's answers. *)
Inductive un_op :=
| UPush (s : list byte) (a1 a2 a3 : grant)
| UClear (a : grant)
| UReserve (additional : N) (a : grant).
Definition run_un_op (g : gstring) (o : un_op) : gstring * ending bool :=
  match o with
  | UPush s a1 a2 a3 => un_try_push_str s a1 a2 a3 g
  | UClear a => un_clear a g
  | UReserve n a => un_reserve n a g
  end.
Fixpoint run_un (g : gstring) (os : list un_op) : gstring * list (ending bool) :=
  match os with
  | [] => (g, [])
  | o :: os => let '(g, r) := run_un_op g o in let '(g, rs) := run_un g os in (g, r :: rs)
  end.
(** Arguments of type [&str] are UTF-8. *)
Definition un_op_wf (o : un_op) : Prop := match o with UPush s _ _ _ => is_utf8 s | _ => True end.

(** What a call may do to a plain string: appending either happens or panics
    without effect, unless there is a NUL byte to refuse; clearing happens. *)
Inductive may_do : un_op -> list byte -> ending bool -> list byte -> Prop :=
| do_append t a1 a2 a3 s : ~ In x00 t -> may_do (UPush t a1 a2 a3) s (Returned true) (s ++ t)
| do_refuse t a1 a2 a3 s : In x00 t -> may_do (UPush t a1 a2 a3) s (Returned false) s
| do_panic t a1 a2 a3 s : ~ In x00 t -> may_do (UPush t a1 a2 a3) s Panicked s
| do_clear a s : may_do (UClear a) s (Returned true) []
| do_reserve n a s r : r = Returned true \/ r = Panicked -> may_do (UReserve n a) s r s.
Inductive may_do_all : list un_op -> list byte -> list (ending bool) -> list byte -> Prop :=
| do_none s : may_do_all [] s [] s
| do_more o os s r s1 rs s2 : may_do o s r s1 -> may_do_all os s1 rs s2 ->
    may_do_all (o :: os) s (r :: rs) s2.

(** ** AlignedBuf *)
(** A call of [with_vec]: the callback turns the contents into what [f] says,
    leaves the vector at address [a1], and returns or panics; aligning may move
    the vector to [a2], or there is no memory for it. *)
Record un_call := UCall { u_f : list byte -> list byte * ending N; u_a1 : N; u_a2 : option N }.
Definition call_wf (c : un_call) : Prop :=
  u_a1 c + 8 < 2 ^ 64 /\ match u_a2 c with Some a => a + 8 < 2 ^ 64 | None => True end.
Definition run_un_call (h : host) (b : vec) (c : un_call) : res (option (vec * ending N)) :=
  un_with_vec h b (fun v => let '(d, e) := u_f c (v_data v) in (Vec (u_a1 c) d, e)) (u_a2 c).
(** There is memory for aligning. *)
Definition granted (c : un_call) : Prop := u_a2 c <> None.
(** A program that goes on after every panic; [None] if it is aborted. *)
Fixpoint run_un_calls (h : host) (b : vec) (cs : list un_call) : res (option (vec * list (ending N))) :=
  match cs with
  | [] => Ok (Some (b, []))
  | c :: cs => let* p := run_un_call h b c in
               match p with
               | None => Ok None
               | Some (b, e) => let* q := run_un_calls h b cs in
                                match q with
                                | None => Ok None
                                | Some (b, es) => Ok (Some (b, e :: es))
                                end
               end
  end.
Definition un_start (h : host) (v : vec) (a : N) (cs : list un_call) : res (option (vec * list (ending N))) :=
  let* b := buf_from_vec h v a in run_un_calls h b cs.
(** The same with a plain vector. *)
Fixpoint plain_calls (d : list byte) (cs : list un_call) : list byte * list (ending N) :=
  match cs with
  | [] => (d, [])
  | c :: cs => let '(d, e) := u_f c d in let '(d, es) := plain_calls d cs in (d, e :: es)
  end.

(** What happens when memory is refused: the vector stays where the callback left
    it, and the bytes before the next multiple of eight are taken for padding.  A
    buffer with fewer bytes than that is no use any more ([None]). *)
Definition sp_lost (a : N) : N := (8 - a mod 8) mod 8.
Definition sp_short (c : un_call) (d : list byte) : bool :=
  match u_a2 c, d with
  | None, _ :: _ => negb (sp_lost (u_a1 c) =? 0)
  | _, _ => false
  end.
Definition sp_call (st : option (list byte)) (c : un_call) : option (option (list byte) * ending N) :=
  match st with
  | None => Some (None, Panicked)
  | Some d =>
      let '(d, e) := u_f c d in
      if sp_short c d then
        match e with
        | Panicked => None
        | Returned _ => Some (if sp_lost (u_a1 c) <=? len d then Some (skipn (N.to_nat (sp_lost (u_a1 c))) d) else None,
                              Panicked)
        end
      else Some (Some d, e)
  end.
Fixpoint sp_calls (st : option (list byte)) (cs : list un_call) : option (option (list byte) * list (ending N)) :=
  match cs with
  | [] => Some (st, [])
  | c :: cs => match sp_call st c with
               | None => None
               | Some (st, e) => match sp_calls st cs with
                                 | None => None
                                 | Some (st, es) => Some (st, e :: es)
                                 end
               end
  end.

(** Only appending, and how much. *)
Definition is_push (o : un_op) : Prop := match o with UPush _ _ _ _ => True | _ => False end.
Definition pushed (os : list un_op) : N :=
  fold_right (fun o n => match o with UPush s _ _ _ => len s + n | _ => n end) 0 os.
