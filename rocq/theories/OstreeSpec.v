(** What the example program should print, in terms of values. *)
From Verif Require Import Base Types Spec.

(** Lower-case hexadecimal digit: 0..9 are characters 48..57, a..f 97..102. *)
Definition sp_hex_digit (n : N) : byte :=
  match Byte.of_N (if n <? 10 then 48 + n else 87 + n) with Some b => b | None => x00 end.
Definition sp_hex (v : value) : list byte :=
  match v with
  | VArray vs => flat_map (fun x => match x with
                                    | VInt z => [sp_hex_digit (Z.to_N z / 16); sp_hex_digit (Z.to_N z mod 16)]
                                    | _ => []
                                    end) vs
  | _ => []
  end.
Definition sp_ls_entry (v : value) : list byte :=
  match v with
  | VTuple [VStr name; tree; meta] => sp_hex tree ++ bs " " ++ sp_hex meta ++ bs " " ++ name ++ bs "/" ++ [x0a]
  | VTuple [VStr name; checksum] => sp_hex checksum ++ bs " " ++ name ++ [x0a]
  | _ => []
  end.
(** Directories before files. *)
Definition sp_ls (v : value) : list byte :=
  match v with
  | VTuple [VArray files; VArray dirs] => flat_map sp_ls_entry dirs ++ flat_map sp_ls_entry files
  | _ => []
  end.
(** An OSTree dirtree, ["(a(say)a(sayay))"]: files (name, checksum), then
    directories (name, checksum of the tree, checksum of the metadata). *)
Definition sp_dirtree : ty :=
  TTuple [TA (TTuple [TS; TA TY]); TA (TTuple [TS; TA TY; TA TY])].
