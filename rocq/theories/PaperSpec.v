(** The value the text of the GVariant Specification
    (docs/gvariant-serialisation.pdf, sections 2.4, 2.5, 2.7.2 "Default Values" and
    2.7.3 "Handling Non-Normal Serialised Data", pages 11-23) gives to a byte sequence, without the deviations
    that gvariant/src/lib.rs:88-160, 716-757 and 1182-1184 document, and where
    these deviations matter.  Written separately from [Spec.sp_decode], which
    includes them; shared are alignments, sizes, the width of framing offsets,
    numbers and [sp_pieces].

    Not taken over from the Specification: values of variants are left as a type
    string and bytes, since reading them is not part of this crate. *)
From Verif Require Import Base Types Spec.

(** What counts as a valid object path, D-Bus signature and type string. *)
Record names := Names { ok_path : list byte -> bool; ok_sig : list byte -> bool; ok_type : list byte -> bool }.

(** ** Ranges of children: start and end, if the framing offsets they need exist. *)
Definition pa_ends (d : list byte) : N * list N :=
  let n := len d in
  let w := sp_width n in
  let last := le_num (sub d (n - w) w) in
  if (0 <? n) && (last <=? n) && ((n - last) mod w =? 0)
  then (last, map (fun i => le_num (sub d (last + N.of_nat i * w) w)) (seq 0 (N.to_nat ((n - last) / w))))
  else (n, []).
Fixpoint pa_array_ranges (al prev : N) (ends : list N) : list (option (N * N)) :=
  match ends with
  | [] => []
  | e :: r => Some (pad_to al prev, e) :: pa_array_ranges al e r
  end.
(** Framing offset [j], counted from the end of a structure. *)
Definition pa_offset (d : list byte) (j : N) : option N :=
  let w := sp_width (len d) in
  if w * (j + 1) <=? len d then Some (le_num (sub d (len d - w * (j + 1)) w)) else None.
(** Where the framing offsets of a structure start. *)
Definition pa_limit (items : list (N * option N)) (d : list byte) : option N :=
  let k := sp_width (len d) * sp_n_offsets items in
  if k <=? len d then Some (len d - k) else None.
Fixpoint pa_struct_ranges (d : list byte) (limit prev : option N) (nth : N) (items : list (N * option N))
  : list (option (N * N)) :=
  match items with
  | [] => []
  | (al, size) :: rest =>
      let start := option_map (pad_to al) prev in
      let stop := match size, rest with
                  | Some s, _ => option_map (fun a => a + s) start
                  | None, [] => limit
                  | None, _ => pa_offset d nth
                  end in
      let nth := match size with Some _ => nth | None => nth + 1 end in
      match start, stop with
      | Some a, Some b => Some (a, b)
      | _, _ => None
      end :: pa_struct_ranges d limit stop nth rest
  end.
(** The bytes of a child: those of its range if that is inside the container, and
    else none, as every type has the same value for no bytes as by default.
    "Child Values Overlapping Framing Offsets: ... this error is ignored". *)
Definition pa_bytes (d : list byte) (r : option (N * N)) : list byte :=
  match r with
  | Some (a, b) => if (a <=? b) && (b <=? len d) then sub d a (b - a) else []
  | None => []
  end.
Definition pa_array (al : N) (d : list byte) : list (list byte) :=
  map (pa_bytes d) (pa_array_ranges al 0 (snd (pa_ends d))).
Definition pa_struct (items : list (N * option N)) (d : list byte) : list (list byte) :=
  map (pa_bytes d) (pa_struct_ranges d (pa_limit items d) (Some 0) 0 items).

(** ** Strings: empty without a final NUL; cut at the first NUL; any bytes. *)
Fixpoint to_nul (d : list byte) : list byte :=
  match d with
  | [] => []
  | b :: r => if Byte.eqb b x00 then [] else b :: to_nul r
  end.
Definition terminated (d : list byte) : bool := match d with [] => false | _ => Byte.eqb (last d x01) x00 end.
Definition pa_string (d : list byte) : list byte := if terminated d then to_nul d else [].

(** ** Decoding *)
Fixpoint pa_decode (nm : names) (big : bool) (t : ty) (d : list byte) {struct t} : value :=
  let sized (n : N) : list byte := if len d =? n then d else nuls n in
  let items (ts : list ty) := map (fun t => (sp_align t, sp_size t)) ts in
  match t with
  | TB => VBool (negb (sp_num big (sized 1) =? 0))
  | TY => VInt (Z.of_N (sp_num big (sized 1)))
  | TN => VInt (sp_signed 16 (sp_num big (sized 2)))
  | TQ => VInt (Z.of_N (sp_num big (sized 2)))
  | TI => VInt (sp_signed 32 (sp_num big (sized 4)))
  | TU => VInt (Z.of_N (sp_num big (sized 4)))
  | TX => VInt (sp_signed 64 (sp_num big (sized 8)))
  | TT => VInt (Z.of_N (sp_num big (sized 8)))
  | TD => VDouble (sp_num big (sized 8))
  | TS => VStr (pa_string d)
  | TO => VStr (if terminated d && ok_path nm (removelast d) then removelast d else ["/"%byte])
  | TG => VStr (if terminated d && ok_sig nm (removelast d) then removelast d else [])
  | TV => match sp_split_last d with
          | Some (data, ts) => if ok_type nm ts then VVariant ts data else VVariant ["("; ")"]%byte []
          | None => VVariant ["("; ")"]%byte []
          end
  | TA x =>
      VArray (map (pa_decode nm big x)
        match sp_size x with
        | Some n => if len d mod n =? 0 then sp_pieces (length d) (N.to_nat n) d else []
        | None => pa_array (sp_align x) d
        end)
  | TM x =>
      VMaybe (match sp_size x with
              | Some n => if len d =? n then Some (pa_decode nm big x d) else None
              | None => match d with [] => None | _ => Some (pa_decode nm big x (removelast d)) end
              end)
  | TTuple ts =>
      let d := match sp_size t with Some n => sized n | None => d end in
      VTuple ((fix go (ts : list ty) (cs : list (list byte)) : list value :=
                 match ts, cs with
                 | t :: ts, c :: cs => pa_decode nm big t c :: go ts cs
                 | _, _ => []
                 end) ts (pa_struct (items ts) d))
  | TDict k v =>
      let d := match sp_size t with Some n => sized n | None => d end in
      match pa_struct (items [k; v]) d with
      | [ck; cv] => VTuple [pa_decode nm big k ck; pa_decode nm big v cv]
      | _ => VTuple []
      end
  end.

(** ** Data to which no documented deviation applies *)
(** No child that has bytes and lies in the container reaches into the framing
    offsets, which start at [limit]. *)
Definition pa_apart (d : list byte) (limit : N) (rs : list (option (N * N))) : bool :=
  forallb (fun r => match r with
                    | Some (a, b) => negb ((a <? b) && (b <=? len d) && (limit <? b))
                    | None => true
                    end) rs.
(** Strings with a final NUL are UTF-8 and have no other. *)
Definition pa_text (d : list byte) : bool :=
  negb (terminated d) || (sp_utf8 (removelast d) && sp_nul_free (removelast d)).
Fixpoint pa_plain (nm : names) (t : ty) (d : list byte) {struct t} : bool :=
  let items (ts : list ty) := map (fun t => (sp_align t, sp_size t)) ts in
  let lies (ts : list ty) :=
    match pa_limit (items ts) d with
    | Some limit => pa_apart d limit (pa_struct_ranges d (Some limit) (Some 0) 0 (items ts))
    | None => false
    end in
  match t with
  | TS => pa_text d
  | TO => pa_text d && terminated d && ok_path nm (removelast d)
  | TG => pa_text d && (negb (terminated d) || ok_sig nm (removelast d))
  | TV => match sp_split_last d with Some (_, ts) => ok_type nm ts | None => true end
  | TA x => match sp_size x with
            | Some _ => true
            | None => pa_apart d (fst (pa_ends d)) (pa_array_ranges (sp_align x) 0 (snd (pa_ends d))) &&
                      forallb (pa_plain nm x) (pa_array (sp_align x) d)
            end
  | TM x => match sp_size x, d with
            | None, _ :: _ => pa_plain nm x (removelast d)
            | _, _ => true
            end
  | TTuple ts =>
      match sp_size t with
      | Some _ => true
      | None => lies ts &&
                (fix go (ts : list ty) (cs : list (list byte)) : bool :=
                   match ts, cs with
                   | t :: ts, c :: cs => pa_plain nm t c && go ts cs
                   | _, _ => true
                   end) ts (pa_struct (items ts) d)
      end
  | TDict k v =>
      match sp_size t with
      | Some _ => true
      | None => lies [k; v] &&
                match pa_struct (items [k; v]) d with
                | [ck; cv] => pa_plain nm k ck && pa_plain nm v cv
                | _ => true
                end
      end
  | _ => true
  end.

(** Values whose object paths, signatures and type strings are valid. *)
Fixpoint pa_named (nm : names) (t : ty) (v : value) {struct t} : bool :=
  match t, v with
  | TO, VStr s => ok_path nm s
  | TG, VStr s => ok_sig nm s
  | TV, VVariant ts _ => ok_type nm ts
  | TA x, VArray vs => forallb (pa_named nm x) vs
  | TM x, VMaybe (Some w) => pa_named nm x w
  | TTuple ts, VTuple vs =>
      (fix go ts vs := match ts, vs with
                       | t :: ts, v :: vs => pa_named nm t v && go ts vs
                       | _, _ => true
                       end) ts vs
  | TDict a b, VTuple [x; y] => pa_named nm a x && pa_named nm b y
  | _, _ => true
  end.
