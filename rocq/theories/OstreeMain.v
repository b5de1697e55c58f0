(** The example program as a whole, line by line as it prints, with the file it
    reads: examples/ostree-ls/src/main.rs:4-36. *)
From Verif Require Import Base Types Deser Buf Reader OstreeLs.

(** How a call of [ostree_ls] (main.rs:4-28) ends. *)
Inductive ending :=
| Returned
| Errored (e : N)
| Panicked (c : crash).

(** [for s in dirs { .. println!(..) }] (main.rs:13-21, 23-26): what has been printed
    by the time the loop is over, and the panic that ended it, if one did.
    Simplified: writing to the standard output succeeds.  The iterator is
    lib.rs:1555-1573. *)
Fixpoint print_loop (h : host) (x : ty) (line : slice -> res (list byte)) (fuel : nat) (it : nfwa_iter) : list byte * option crash :=
  match fuel with
  | O => ([], Some Diverges)
  | S f =>
      match nfwa_next h x it with
      | Crash c => ([], Some c)
      | Ok (None, _) => ([], None)
      | Ok (Some r, it) =>
          match line r with
          | Crash c => ([], Some c)
          | Ok l => let p := print_loop h x line f it in (l ++ fst p, snd p)
          end
      end
  end.
(** The loop with the [into_iter] before it (main.rs:13, 23; lib.rs:1585-1599). *)
Definition print_array (h : host) (x : ty) (line : slice -> res (list byte)) (s : slice) : list byte * option crash :=
  match nfwa_into_iter h x s with
  | Crash c => ([], Some c)
  | Ok it => print_loop h x line (S (length (s_data s))) it
  end.
(** Everything after the file has been read (main.rs:10-27). *)
Definition ls_print (h : host) (tree : res owned) : list byte * ending :=
  match (let* o := tree in let* r := owned_borrow h ostree_ty o in to_tuple h ostree_ty r) with
  | Crash c => ([], Panicked c)
  | Ok [files; dirs] =>
      match print_array h (TTuple [TS; TA TY; TA TY]) (ls_dir h) dirs with
      | (out, Some c) => (out, Panicked c)
      | (out, None) =>
          match print_array h (TTuple [TS; TA TY]) (ls_file h) files with
          | (out', Some c) => (out ++ out', Panicked c)
          | (out', None) => (out ++ out', Returned)
          end
      end
  | Ok _ => ([], Panicked NoCompile)
  end.
(** [ostree_ls(filename)] (main.rs:4-28): [file] is what [File::open] gives, an error
    or what the calls of [read] give (main.rs:6). *)
Definition ls_function (h : host) (file : N + list outcome) (a1 a2 a3 a4 : N) : list byte * ending :=
  match file with
  | inl e => ([], Errored e)
  | inr calls =>
      match deserialize_from h ostree_ty calls a1 a2 a3 a4 with
      | inl e => ([], Errored e)
      | inr tree => ls_print h tree
      end
  end.
(** [main] (main.rs:30-36) unwraps the result. *)
Definition ls_main (h : host) (file : N + list outcome) (a1 a2 a3 a4 : N) : list byte * ending :=
  match ls_function h file a1 a2 a3 a4 with
  | (out, Errored _) => (out, Panicked PUnwrap)
  | r => r
  end.
