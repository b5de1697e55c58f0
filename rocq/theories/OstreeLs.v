(** The example program: examples/ostree-ls/src/main.rs:4-28. *)
From Verif Require Import Base Types Layout AlignedBytes Strs Spec Deser Buf.

(** [hex::encode] (the hex crate): two lower-case digits per byte. *)
Definition hex_digit (n : N) : byte :=
  nth (N.to_nat n) (bs "0123456789abcdef") x00.
Definition hex_encode (d : list byte) : list byte :=
  flat_map (fun b => [hex_digit (b2n b / 16); hex_digit (b2n b mod 16)]) d.
Definition newline : byte := x0a.

Definition ostree_ty : ty :=
  TTuple [TA (TTuple [TS; TA TY]); TA (TTuple [TS; TA TY; TA TY])].

(** One line per entry (16-21, 24-25); [{}] of a [Str] is its [to_str]
    (lib.rs:846-850). *)
Definition ls_dir (h : host) (r : slice) : res (list byte) :=
  let* rs := to_tuple h (TTuple [TS; TA TY; TA TY]) r in
  match rs with
  | [name; tree; meta] =>
      Ok (hex_encode (s_data tree) ++ bs " " ++ hex_encode (s_data meta) ++ bs " " ++ to_str (s_data name) ++ bs "/" ++ [newline])
  | _ => Crash NoCompile
  end.
Definition ls_file (h : host) (r : slice) : res (list byte) :=
  let* rs := to_tuple h (TTuple [TS; TA TY]) r in
  match rs with
  | [name; checksum] => Ok (hex_encode (s_data checksum) ++ bs " " ++ to_str (s_data name) ++ [newline])
  | _ => Crash NoCompile
  end.
(** Everything printed; [v] is the vector the file was read into.  The references
    are all collected before the first line is printed, which only matters if
    fetching one panics. *)
Definition ostree_ls (h : host) (v : vec) (a2 a3 a4 : N) : res (list byte) :=
  let* tree := deserialize h ostree_ty v a2 a3 a4 in
  let* r := owned_borrow h ostree_ty tree in
  let* rs := to_tuple h ostree_ty r in
  match rs with
  | [files; dirs] =>
      let* ds := nfwa_items h (TTuple [TS; TA TY; TA TY]) dirs in
      let* dl := mapM (ls_dir h) ds in
      let* fs := nfwa_items h (TTuple [TS; TA TY]) files in
      let* fl := mapM (ls_file h) fs in
      Ok (concat dl ++ concat fl)
  | _ => Crash NoCompile
  end.
