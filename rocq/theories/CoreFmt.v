(** How the standard library writes numbers and strings for [{:?}], which the
    [Debug] implementations of lib.rs rely on (lib.rs:475-485, 851-855, 876-905,
    1152-1162): an instance of the parameters of Fmt.v.

    The tables of printable and grapheme-extending characters, and how doubles
    are written, remain parameters. *)
From Verif Require Import Base Types Strs Spec Fmt.

(** A digit, and a number in a base up to 16, without leading zeros
    ([core::fmt::num], used for the [{:?}] of the numbers of gvariant/src/lib.rs
    [Debug] bounds and for the bytes at lib.rs:1159; [EscapeUnicode] for base
    16). *)
Definition digit (d : N) : byte := n2b (if d <? 10 then 48 + d else 87 + d).
Fixpoint digits (fuel : nat) (base n : N) : list byte :=
  match fuel with
  | O => []
  | S f => if n <? base then [digit n] else digits f base (n / base) ++ [digit (n mod base)]
  end.
Definition radix (base n : N) : list byte := digits (S (N.to_nat (N.log2 n))) base n.
Definition core_int (z : Z) : list byte :=
  match z with
  | Zneg p => bs "-" ++ radix 10 (Npos p)
  | _ => radix 10 (Z.to_N z)
  end.

(** [str::chars] ([core::str::next_code_point]) on the bytes of a [&str], for the
    [Debug for str] that lib.rs:853 and 896 call. *)
Definition low6 (b : byte) : N := b2n b mod 64.
Fixpoint chars (s : list byte) : list N :=
  match s with
  | [] => []
  | b0 :: r0 =>
      if b2n b0 <? 128 then b2n b0 :: chars r0
      else match r0 with
           | [] => []
           | b1 :: r1 =>
               if b2n b0 <? 224 then (b2n b0 mod 32 * 64 + low6 b1) :: chars r1
               else match r1 with
                    | [] => []
                    | b2 :: r2 =>
                        if b2n b0 <? 240 then (b2n b0 mod 32 * 4096 + low6 b1 * 64 + low6 b2) :: chars r2
                        else match r2 with
                             | [] => []
                             | b3 :: r3 =>
                                 (b2n b0 mod 8 * 262144 + low6 b1 * 4096 + low6 b2 * 64 + low6 b3) :: chars r3
                             end
                    end
           end
  end.
(** [char::escape_debug_ext] as [Debug for str] calls it (core; used by
    lib.rs:853 and 896): [shown] tells the characters that are printable and do
    not extend a grapheme. *)
Definition escape (shown : N -> bool) (c : N) : list byte :=
  if c =? 0 then bs "\0"
  else if c =? 9 then bs "\t"
  else if c =? 13 then bs "\r"
  else if c =? 10 then bs "\n"
  else if (c =? 34) || (c =? 92) then [n2b 92; n2b c]
  else if shown c then utf8_of c
  else bs "\u{" ++ radix 16 c ++ bs "}".
Definition core_str (shown : N -> bool) (s : list byte) : list byte :=
  [n2b 34] ++ concat (map (escape shown) (chars s)) ++ [n2b 34].

(** [String::from_utf8_lossy] (alloc; used at lib.rs:880 and 896): the table of
    [core::str::lossy], an incomplete character being replaced by one U+FFFD. *)
Definition replacement : list byte := [xef; xbf; xbd].
Fixpoint core_lossy (l : list byte) : list byte :=
  match l with
  | [] => []
  | b0 :: r0 =>
      if in_rng 0 127 b0 then b0 :: core_lossy r0
      else if in_rng 194 223 b0 then
        match r0 with
        | b1 :: r1 => if cont b1 then b0 :: b1 :: core_lossy r1 else replacement ++ core_lossy r0
        | [] => replacement
        end
      else if in_rng 224 239 b0 then
        match r0 with
        | b1 :: r1 =>
            if (if b2n b0 =? 224 then in_rng 160 191 b1
                else if b2n b0 =? 237 then in_rng 128 159 b1 else cont b1)
            then match r1 with
                 | b2 :: r2 => if cont b2 then b0 :: b1 :: b2 :: core_lossy r2
                               else replacement ++ core_lossy r1
                 | [] => replacement
                 end
            else replacement ++ core_lossy r0
        | [] => replacement
        end
      else if in_rng 240 244 b0 then
        match r0 with
        | b1 :: r1 =>
            if (if b2n b0 =? 240 then in_rng 144 191 b1
                else if b2n b0 =? 244 then in_rng 128 143 b1 else cont b1)
            then match r1 with
                 | b2 :: r2 =>
                     if cont b2
                     then match r2 with
                          | b3 :: r3 => if cont b3 then b0 :: b1 :: b2 :: b3 :: core_lossy r3
                                        else replacement ++ core_lossy r2
                          | [] => replacement
                          end
                     else replacement ++ core_lossy r1
                 | [] => replacement
                 end
            else replacement ++ core_lossy r0
        | [] => replacement
        end
      else replacement ++ core_lossy r0
  end.

(** The formats of a build with the [alloc] feature (lib.rs:893-897).  Without it
    (lib.rs:898-904) a type string that is not UTF-8 is written as
    [<Error: Invalid Utf-8>], without quotes; not modelled. *)
Definition core_fmts (shown : N -> bool) (double : N -> list byte) : fmts :=
  Fmts core_int double (core_str shown) core_lossy.
