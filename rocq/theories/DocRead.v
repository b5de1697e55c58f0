(** The ways of reading a file into an [AlignedBuf] shown in the documentation. *)
From Verif Require Import Base Types AlignedBytes Buf Reader.

(** One call of [Read::read] with a slice of [room] bytes, as in aligned_bytes.rs:41
    (documented in [std::io::Read]: never more bytes than there is room for); [inl] is
    an error.  [Interrupted] is an error like any other for one who calls [read]. *)
Definition read_once (room : N) (calls : list outcome) : (option N) + list byte :=
  match calls with
  | [] => inr []
  | Bytes d :: _ => inr (take room d)
  | Interrupted :: _ => inl None
  | Fails e :: _ => inl (Some e)
  end.
(** aligned_bytes.rs:40-42: [let mut buf = vec![]; let len = file.read(buf.as_mut())?;
    let mut buf : AlignedBuf = buf.into();].  What is read overwrites as many bytes of
    the slice. *)
Definition module_example (h : host) (calls : list outcome) (a : N) : (option N) + res vec :=
  let buf := vec_new in
  match read_once (vlen buf) calls with
  | inl e => inl e
  | inr d => inr (buf_from_vec h (Vec (v_addr buf) (d ++ drop (blen d) (v_data buf))) a)
  end.
(** lib.rs:184-186 and 256-258, the tests in buf.rs:164-168: [let mut buf = vec![];
    file.read_to_end(&mut buf)?; let mut buf : AlignedBuf = buf.into();].  The vector
    ends up at [a1]. *)
Definition crate_example (h : host) (calls : list outcome) (a1 a2 : N) : N + res vec :=
  match read_to_end calls (v_data vec_new) with
  | inl e => inl e
  | inr d => inr (buf_from_vec h (Vec a1 d) a2)
  end.
(** What [read_to_end] has appended to a vector by the time it returns, with an error
    or without ([std::io::Read]: what was read before an error stays). *)
Fixpoint appended (calls : list outcome) (d : list byte) : list byte :=
  match calls with
  | Bytes [] :: _ | Fails _ :: _ | [] => d
  | Bytes e :: rest => appended rest (d ++ e)
  | Interrupted :: rest => appended rest d
  end.
(** buf.rs:46-47: [let mut a = AlignedBuf::new(); a.with_vec(|v| file.read_to_end(v))?]:
    the buffer afterwards, and the error if there is one. *)
Definition with_vec_example (h : host) (b : vec) (calls : list outcome) (a1 a2 : N) : res (vec * option N) :=
  let* b := buf_with_vec h b (fun v => Vec a1 (appended calls (v_data v))) a2 in
  Ok (b, match read_to_end calls [] with inl e => Some e | inr _ => None end).
