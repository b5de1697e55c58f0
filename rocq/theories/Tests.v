(** The unit tests of the repository, run against the model.  Nothing here is
    used by a proof; it is evidence that the definitions of the model compute
    what the code computes.  Cited: the test and its lines. *)
From Coq Require Import String Ascii.
From Verif Require Import Base Types Layout AlignedBytes Strs Spec Deser Ser Buf PaperSpec.
Open Scope N_scope.

(** Byte string literals, written as in the tests: [\0] and [\xNN] escapes. *)
Definition hex (c : ascii) : N :=
  let n := N_of_ascii c in if n <? 58 then n - 48 else n - 87.
Fixpoint rb (s : string) : list byte :=
  match s with
  | EmptyString => []
  | String c r =>
      if Ascii.eqb c "\"%char then
        match r with
        | String "0"%char r' => x00 :: rb r'
        | String "x"%char (String a (String b r')) => n2b (16 * hex a + hex b) :: rb r'
        | _ => []
        end
      else byte_of_ascii c :: rb r
  end.
Arguments rb s%string_scope.
Example rb_case : rb "a\0\xffb" = [x61; x00; xff; x62]. Proof. reflexivity. Qed.

(** A little-endian debug build; the two statics are somewhere. *)
Definition hd : host := Host false true true 1003 77.
(** [gv!("...")] *)
Definition gv (s : String.string) : ty := match one (bs s) with inr t => t | inl _ => TTuple [] end.
Arguments gv s%string_scope.
(** [gv!(t).cast(data)] on aligned data, then reading everything. *)
Definition view_of (t : ty) (d : list byte) : res value := decode hd t (Slice 4096 d).
Definition I (z : Z) := VInt z.
Definition S (s : String.string) := VStr (bs s).
Arguments S s%string_scope.
(** [gv!(t).serialize_to_vec(r)] *)
Definition to_bytes (t : ty) (r : rval) : list byte := k_out (fst (serialize hd t r None)).
Definition R (s : String.string) := RStr (bs s).
Arguments R s%string_scope.

(** ** gvariant-macro/src/type_parser.rs *)
(** parsing_complex_type, 166-194 *)
Example parsing_complex_type :
  one (bs "(bynqiuxtdsogvaamb(abi)m(yy)a{si})") =
    inr (TTuple [TB; TY; TN; TQ; TI; TU; TX; TT; TD; TS; TO; TG; TV;
                 TA (TA (TM TB)); TTuple [TA TB; TI]; TM (TTuple [TY; TY]); TA (TDict TS TI)]) /\
  one (bs "i") = inr TI.
Proof. split; reflexivity. Qed.

(** ** gvariant-macro/src/generate_impl.rs *)
(** test_alignment, 538-543 *)
Example test_alignment :
  map align_of [gv "s"; gv "i"; gv "(uy)"; gv "(ti)"] = [1; 4; 4; 8].
Proof. reflexivity. Qed.
(** test_size, 546-553 *)
Example test_size :
  map size_of [gv "s"; gv "i"; gv "a(uu)"; gv "(uu)"; gv "(uy)"; gv "(ti)"] =
  [None; Some 4; None; Some 8; Some 8; Some 16].
Proof. reflexivity. Qed.
(** test_align, 556-564 *)
Example test_align :
  map (fun p => align (fst p) (snd p)) [(0, 1); (1, 1); (0, 4); (3, 4); (4, 4); (6, 4); (17, 4)] =
  [0; 1; 0; 4; 4; 8; 20].
Proof. reflexivity. Qed.

(** ** gvariant/src/offset.rs *)
(** test, 153-171 *)
Example test_offset :
  try_new 2 3 = None /\ try_new 2 0 = Some 0 /\ try_new 4 8 = Some 8 /\
  map (align_offset hd 4) [0; 1; 4; 6; 7; 8; 9] = map Ok [0; 4; 4; 8; 8; 8; 12].
Proof. repeat split. Qed.

(** ** gvariant/src/buf.rs *)
(** test_read_to_buf, 171-189; allocations at odd addresses *)
Definition counting (n : nat) : list byte := map (fun i => n2b (N.of_nat i)) (seq 0 n).
Definition read_to_buf (d : list byte) : res (list byte) :=
  let* b := buf_from_vec hd (to_vec d 1235) 4567 in
  let* s := buf_deref hd b in
  Ok (s_data s).
Example test_read_to_buf :
  read_to_buf [] = Ok [] /\ read_to_buf (counting 12) = Ok (counting 12) /\
  read_to_buf (counting 500) = Ok (counting 500).
Proof. repeat split; vm_compute; reflexivity. Qed.
(** (8000 and 16384 bytes in the test.) *)

(** ** gvariant/src/lib.rs *)
(** test_numbers, 2136-2195 *)
Definition nine : list byte := [x01; x02; x03; x04; x05; x06; x07; x08; x09].
Example test_numbers :
  map (fun n => view_of TI (take n nine)) [0; 3; 5; 8] = repeat (Ok (I 0)) 4 /\
  view_of TB (take 1 nine) = Ok (VBool true) /\
  view_of TY (take 1 nine) = Ok (I 0x01) /\
  view_of TN (take 2 nine) = Ok (I 0x0201) /\
  view_of TQ (take 2 nine) = Ok (I 0x0201) /\
  view_of TI (take 4 nine) = Ok (I 0x04030201) /\
  view_of TU (take 4 nine) = Ok (I 0x04030201) /\
  view_of TX (take 8 nine) = Ok (I 0x0807060504030201) /\
  view_of TT (take 8 nine) = Ok (I 0x0807060504030201) /\
  view_of TD (take 8 nine) = Ok (VDouble 0x0807060504030201).
Proof. repeat split; vm_compute; reflexivity. Qed.
(** test_non_fixed_width_maybe, 2197-2214 *)
Example test_non_fixed_width_maybe :
  view_of (TM TS) [] = Ok (VMaybe None) /\
  view_of (TM TS) (rb "\0") = Ok (VMaybe (Some (S ""))) /\
  view_of (TM TS) (rb "hello world\0\0") = Ok (VMaybe (Some (S "hello world"))).
Proof. repeat split. Qed.
(** test_fixed_width_maybe, 2216-2229 *)
Example test_fixed_width_maybe :
  view_of (TM TY) [] = Ok (VMaybe None) /\
  view_of (TM TY) (rb "\x43") = Ok (VMaybe (Some (I 0x43))) /\
  view_of (TM TY) (rb "\x43\0") = Ok (VMaybe None).
Proof. repeat split. Qed.
(** test_non_fixed_width_array, 2232-2280 *)
Example test_non_fixed_width_array_1 :
  let a := Slice 4096 [] in
  nfwa_len hd a = Ok 0 /\ nfwa_is_empty hd a = Ok true /\ nfwa_first hd TS a = Ok None /\
  nfwa_last hd TS a = Ok None /\ nfwa_items hd TS a = Ok [] /\
  (let* it := nfwa_into_iter hd TS a in nfwa_size_hint hd it) = Ok 0.
Proof. repeat split. Qed.
Example test_non_fixed_width_array_2 :
  let a := Slice 4097 (rb "hello\0world\0\x06\x0c") in
  let str r := match r with Ok s => to_str (s_data s) | _ => [] end in
  nfwa_len hd a = Ok 2 /\
  read hd (TA TS) a = Ok (VArray [S "hello"; S "world"]) /\
  str (nfwa_index hd TS a 0) = bs "hello" /\ str (nfwa_index hd TS a 1) = bs "world" /\
  nfwa_is_empty hd a = Ok false /\
  (exists r, nfwa_first hd TS a = Ok (Some r) /\ to_str (s_data r) = bs "hello") /\
  (exists r, nfwa_last hd TS a = Ok (Some r) /\ to_str (s_data r) = bs "world") /\
  (let* it := nfwa_into_iter hd TS a in
   let* n0 := nfwa_size_hint hd it in
   let* p := nfwa_next hd TS it in
   let* n1 := nfwa_size_hint hd (snd p) in
   let* q := nfwa_next hd TS (snd p) in
   let* n2 := nfwa_size_hint hd (snd q) in
   Ok [n0; n1; n2]) = Ok [2; 1; 0].
Proof. repeat split; try (vm_compute; reflexivity); eexists; split; vm_compute; reflexivity. Qed.
(** 2262-2279, with assert_array_self_consistent (2281-2289) *)
Definition self_consistent (x : ty) (d : list byte) : res (list (list byte)) :=
  let a := Slice 4096 d in
  let* v := nfwa_items hd x a in
  let* n := nfwa_len hd a in
  let* ws := mapM (fun i => nfwa_index hd x a (N.of_nat i)) (seq 0 (N.to_nat n)) in
  let* e := eq_all (gv_eq hd x) v ws in
  let* it := nfwa_into_iter hd x a in
  let* m := nfwa_size_hint hd it in
  if (n =? blen v) && e && (m =? n) then Ok (map s_data v) else Crash PAssert.
Example test_non_fixed_width_array_3 :
  self_consistent (TA TY) (rb "\x08") = Ok [] /\
  self_consistent (TA TY) (rb "\x01\x00") = Ok [[]; []] /\
  self_consistent (TA TY) (zeros 256 ++ to_le 2 255) = Ok [].
Proof. repeat split; vm_compute; reflexivity. Qed.
(** test_non_fixed_width_array_panic, 2292-2298: should_panic *)
Example test_non_fixed_width_array_panic :
  nfwa_index hd (TA TY) (Slice 4096 (rb "\x08")) 0 = Crash PIndex.
Proof. reflexivity. Qed.
(** test_spec_examples, 2300-2367 *)
Definition from_bytes_of (t : ty) (d : list byte) : res value :=
  let* o := from_bytes hd t (Slice 4099 d) 51 62 73 84 in
  let* r := owned_borrow hd t o in
  read hd t r.
Example test_spec_examples_1 :
  from_bytes_of (gv "s") (rb "hello world\0") = Ok (S "hello world") /\
  to_bytes (gv "s") (R "hello world") = rb "hello world\0" /\
  from_bytes_of (gv "ms") (rb "hello world\0\0") = Ok (VMaybe (Some (S "hello world"))) /\
  to_bytes (gv "ms") (ROpt (Some (R "hello world"))) = rb "hello world\0\0" /\
  view_of (gv "ab") (rb "\x01\x00\x00\x01\x01") = Ok (VArray (map VBool [true; false; false; true; true])) /\
  to_bytes (gv "ab") (RList (map RBool [true; false; false; true; true])) = rb "\x01\x00\x00\x01\x01" /\
  from_bytes_of (gv "as") (rb "i\0can\0has\0strings?\0\x02\x06\x0a\x13") =
    Ok (VArray [S "i"; S "can"; S "has"; S "strings?"]) /\
  to_bytes (gv "as") (RList [R "i"; R "can"; R "has"; R "strings?"]) =
    rb "i\0can\0has\0strings?\0\x02\x06\x0a\x13" /\
  view_of (gv "ay") [x04; x05; x06; x07] = Ok (VArray (map I [4; 5; 6; 7]%Z)) /\
  to_bytes (gv "ay") (RList (map RInt [4; 5; 6; 7]%Z)) = [x04; x05; x06; x07] /\
  from_bytes_of (gv "ai") (rb "\x04\0\0\0\x02\x01\0\0") = Ok (VArray (map I [4; 258]%Z)) /\
  to_bytes (gv "ai") (RList (map RInt [4; 258]%Z)) = rb "\x04\0\0\0\x02\x01\0\0".
Proof. repeat split; vm_compute; reflexivity. Qed.
(** test_gvariantstr, 2369-2381 *)
Example test_gvariantstr :
  map to_str [[]; rb "\0"; rb "hello world\0"] = [[]; []; bs "hello world"] /\
  str_eq_str (rb "hello world\0") (bs "hello world") = true.
Proof. repeat split. Qed.
(** test_variant, 2383-2418 *)
Example test_variant_1 :
  let v := Slice 4096 (rb "\x04\x00\x00n") in
  let u1 := Slice 8000 (rb "\x00()") in
  let u2 := Slice 8008 [] in
  (exists d, variant_split hd v = Ok (Slice 4099 (bs "n"), d) /\ decode hd TN d = Ok (I 4)) /\
  gv_eq hd TV v v = Ok true /\ gv_eq hd TV u1 u2 = Ok true /\ gv_eq hd TV u1 v = Ok false.
Proof. repeat split; try reflexivity. eexists. split; reflexivity. Qed.
Example test_variant_2 :
  let x := RWrap (gv "as") (RList [R "hello"; R "goodbye"]) in
  to_bytes TV x = rb "hello\0goodbye\0\x06\x0e\0as" /\
  to_bytes TV (RWrap TV x) = rb "hello\0goodbye\0\x06\x0e\0as\0v" /\
  (let* o := from_bytes hd TV (Slice 4099 (to_bytes TV (RWrap TV x))) 51 62 73 84 in
   let* r := owned_borrow hd TV o in
   let* a := variant_get hd TV r in
   match a with
   | Some a => let* b := variant_get hd (gv "as") a in
               match b with Some b => read hd (gv "as") b | None => Crash PUnwrap end
   | None => Crash PUnwrap
   end) = Ok (VArray [S "hello"; S "goodbye"]).
Proof. repeat split; vm_compute; reflexivity. Qed.

(** ** gvariant/tests/test.rs *)
(** test_basic_types, 6-12 *)
Example test_basic_types : view_of (gv "i") [x00; x00; x00; x00] = Ok (I 0).
Proof. reflexivity. Qed.
(** test_struct_into_tuple, 14-33 *)
Definition at_empty (t : ty) : res value :=
  let* e := empty_aligned hd (trait_align t) in decode hd t e.
Example test_struct_into_tuple :
  at_empty (gv "()") = Ok (VTuple []) /\ at_empty (gv "(i)") = Ok (VTuple [I 0]) /\
  at_empty (gv "(s)") = Ok (VTuple [S ""]) /\
  view_of (gv "(ii)") (rb "\x06\x00\x00\x00\x03\x00\x00\x00") = Ok (VTuple [I 6; I 3]) /\
  view_of (gv "(is)") (rb "\x06\x00\x00\x00super\x00") = Ok (VTuple [I 6; S "super"]).
Proof. repeat split; vm_compute; reflexivity. Qed.
(** test_struct_serialisation, 35-122 *)
Definition to_b (s : String.string) (rs : list rval) : list byte := to_bytes (gv s) (RTuple rs).
Arguments to_b s%string_scope rs.
Example test_struct_serialisation_1 :
  to_b "()" [] = rb "\0" /\
  to_b "(i)" [RInt 87654321] = rb "\xb1\x7f\x39\x05" /\
  to_b "(iy)" [RInt 87654321; RInt 6] = rb "\xb1\x7f\x39\x05\x06\x00\x00\x00" /\
  to_b "(yi)" [RInt 6; RInt 87654321] = rb "\x06\x00\x00\x00\xb1\x7f\x39\x05" /\
  to_b "(yyyyi)" [RInt 6; RInt 5; RInt 4; RInt 3; RInt 87654321] = rb "\x06\x05\x04\x03\xb1\x7f\x39\x05" /\
  to_b "(s)" [R "Hello!"] = rb "Hello!\0" /\
  to_b "(si)" [R "Hello!!"; RInt 87654321] = rb "Hello!!\0\xb1\x7f\x39\x05\x08" /\
  to_b "(si)" [R "Hello!"; RInt 87654321] = rb "Hello!\0\0\xb1\x7f\x39\x05\x07" /\
  to_b "(si)" [R "Hello"; RInt 87654321] = rb "Hello\0\0\0\xb1\x7f\x39\x05\x06" /\
  to_b "(si)" [R "Hell"; RInt 87654321] = rb "Hell\0\0\0\0\xb1\x7f\x39\x05\x05" /\
  to_b "(is)" [RInt 87654321; R "Hello"] = rb "\xb1\x7f\x39\x05Hello\0" /\
  to_b "(isis)" [RInt 87654321; R "Hello"; RInt 0x12345678; R "Byee"] =
    rb "\xb1\x7f\x39\x05Hello\0\0\0\x78\x56\x34\x12Byee\0\x0a" /\
  to_b "(sisi)" [R "Hello"; RInt 87654321; R "Byee"; RInt 0x12345678] =
    rb "Hello\0\0\0\xb1\x7f\x39\x05Byee\0\0\0\0\x78\x56\x34\x12\x11\x06".
Proof. repeat split; vm_compute; reflexivity. Qed.
Definition sututy (s : String.string) : list rval :=
  [R s; RInt 0x11111111; RInt 0x2222222222222222; RInt 0x33333333; RInt 0x4444444444444444; RInt 0x55].
Arguments sututy s%string_scope.
Definition sututysis_bytes : list byte :=
  rb "\0\0\0\0\x11\x11\x11\x11\x22\x22\x22\x22\x22\x22\x22\x22\x33\x33\x33\x33\0\0\0\0\x44\x44\x44\x44\x44\x44\x44\x44\x55\0\0\0\x66\x66\x66\x66\0\x22\x01".
Example test_struct_serialisation_2 :
  to_b "(sututy)" (sututy "Hello") =
    rb "Hello\0\0\0\x11\x11\x11\x11\0\0\0\0\x22\x22\x22\x22\x22\x22\x22\x22\x33\x33\x33\x33\0\0\0\0\x44\x44\x44\x44\x44\x44\x44\x44\x55\x06" /\
  to_b "(sututy)" (sututy "He") =
    rb "He\0\0\x11\x11\x11\x11\x22\x22\x22\x22\x22\x22\x22\x22\x33\x33\x33\x33\0\0\0\0\x44\x44\x44\x44\x44\x44\x44\x44\x55\x03" /\
  to_b "(sututysis)"
    [RStrView (rb "\0"); RInt 0x11111111; RInt 0x2222222222222222; RInt 0x33333333;
     RInt 0x4444444444444444; RInt 0x55; RStrView (rb "\0"); RInt 0x66666666; RStrView (rb "\0")] =
    sututysis_bytes.
Proof. repeat split; vm_compute; reflexivity. Qed.
(** test_complex_types, 125-192 *)
Definition dirtree : list byte :=
  rb "hello\x00\x01\x02\x03\x04\x06world\x00\x04\x03\x02\x01\x06\x0b\x16my-dir\x00\x03\x14\x15\x92e5\x0b\x07\x0f\x18".
Definition ys (l : list Z) : value := VArray (map I l).
Definition rys (l : list Z) : rval := RList (map RInt l).
Example test_complex_types_1 :
  view_of (gv "(a(say)a(sayay))") dirtree =
    Ok (VTuple [VArray [VTuple [S "hello"; ys [1; 2; 3; 4]%Z]; VTuple [S "world"; ys [4; 3; 2; 1]%Z]];
                VArray [VTuple [S "my-dir"; ys [0x3; 0x14; 0x15; 0x92]%Z; ys [0x65; 0x35]%Z]]]) /\
  to_b "(a(say)a(sayay))"
    [RList [RTuple [R "hello"; rys [1; 2; 3; 4]%Z]; RTuple [R "world"; rys [4; 3; 2; 1]%Z]];
     RList [RTuple [R "my-dir"; rys [0x3; 0x14; 0x15; 0x92]%Z; rys [0x65; 0x35]%Z]]] = dirtree.
Proof. split; vm_compute; reflexivity. Qed.
(** The contents of tests/0bf62002...5b94.commit. *)
Definition commit_file : list byte :=
  [x72; x70; x6d; x6f; x73; x74; x72; x65; x65; x2e; x69; x6e; x70; x75; x74; x68; x61; x73; 
   x68; x00; x00; x00; x00; x00; x36; x61; x36; x37; x39; x37; x30; x32; x65; x32; x33; x66; 
   x63; x65; x35; x63; x64; x33; x31; x62; x65; x39; x30; x30; x66; x61; x32; x62; x33; x34; 
   x30; x63; x38; x37; x39; x32; x35; x35; x30; x65; x62; x30; x33; x38; x38; x31; x64; x36; 
   x62; x31; x38; x38; x36; x63; x33; x61; x62; x36; x37; x64; x38; x32; x35; x65; x00; x00; 
   x73; x14; x00; x00; x00; x00; x76; x65; x72; x73; x69; x6f; x6e; x00; x37; x2e; x31; x37; 
   x30; x37; x00; x00; x73; x08; x5c; x72; x46; x20; xe5; x91; xa7; x6a; x44; xb6; x24; xf6; 
   x52; x6b; xc6; xe8; x22; x2d; x6d; xb8; xde; x11; x1e; x50; x4e; xa5; x0b; xbb; x54; x4c; 
   xd9; x04; xa0; x40; x00; x00; x00; x00; x00; x00; x00; x00; x59; x7f; x56; xd6; x36; xca; 
   x55; x98; xd3; x27; x43; xba; xa9; x3d; xc7; xb7; x4c; xad; x49; x32; xf8; x75; x6e; x05; 
   x01; x77; x0d; x5d; x8b; xef; xe6; x0e; x0a; x03; x2d; x4f; x50; x77; x38; x17; xe4; x51; 
   x96; x29; xfb; x06; x1c; xb3; xcf; xe4; xdd; xae; x0a; x99; x6c; x12; x33; x6d; x08; x70; 
   x42; x48; x1f; xbe; xab; x1a; x38; x0c; xc0; x96; x95; x94; x94; x74].
Example test_complex_types_2 :
  match view_of (gv "(a{sv}aya(say)sstayay)") commit_file with
  | Ok (VTuple [VArray md; _; _; _; _; timestamp; _; _]) =>
      In (VTuple [S "version"; VVariant (bs "s") (rb "7.1707\0")]) md /\
      timestamp = I 15444671992342511616
  | _ => False
  end.
Proof. vm_compute. intuition. Qed.
Example test_complex_types_3 :
  view_of (gv "(sututysis)") sututysis_bytes =
    Ok (VTuple [S ""; I 0x11111111; I 0x2222222222222222; I 0x33333333; I 0x4444444444444444; I 0x55;
                S ""; I 0x66666666; S ""]).
Proof. vm_compute. reflexivity. Qed.
(** test_spec_examples, 195-266 *)
Example test_spec_examples_2 :
  view_of (gv "(si)") (rb "foo\0\xff\xff\xff\xff\x04") = Ok (VTuple [S "foo"; I (-1)]) /\
  to_b "(si)" [R "foo"; RInt (-1)] = rb "foo\0\xff\xff\xff\xff\x04" /\
  view_of (gv "a(si)") (rb "hi\0\0\xfe\xff\xff\xff\x03\0\0\0bye\0\xff\xff\xff\xff\x04\x09\x15") =
    Ok (VArray [VTuple [S "hi"; I (-2)]; VTuple [S "bye"; I (-1)]]) /\
  view_of (gv "((ys)as)") (rb "ican\0has\0strings?\0\x04\x0d\x05") =
    Ok (VTuple [VTuple [I 105; S "can"]; VArray [S "has"; S "strings?"]]) /\
  view_of (gv "(yy)") [x70; x80] = Ok (VTuple [I 0x70; I 0x80]) /\
  view_of (gv "(iy)") [x60; x00; x00; x00; x70; x00; x00; x00] = Ok (VTuple [I 96; I 0x70]) /\
  view_of (gv "(yi)") [x70; x00; x00; x00; x60; x00; x00; x00] = Ok (VTuple [I 0x70; I 96]) /\
  view_of (gv "a(iy)") (rb "\x60\0\0\0\x70\0\0\0\x88\x02\0\0\xf7\0\0\0") =
    Ok (VArray [VTuple [I 96; I 0x70]; VTuple [I 648; I 0xf7]]).
Proof. repeat split; vm_compute; reflexivity. Qed.
(** test_non_normal_values, 269-358 *)
Example test_non_normal_values_1 :
  view_of (gv "i") [x07; x33; x90] = Ok (I 0) /\
  view_of (gv "(yi)") [x55; x66; x77; x88; x02; x01; x00; x00] = Ok (VTuple [I 0x55; I 258]) /\
  view_of (gv "ab") [x01; x00; x03; x04; x00; x01; xff; x80; x00] =
    Ok (VArray (map VBool [true; false; true; true; false; true; true; true; false])) /\
  view_of (gv "as") (rb "hello world\0\x0b\x0c") = Ok (VArray [S ""; S ""]) /\
  view_of (gv "s") (rb "foo\0bar\0") = Ok (S "") /\
  view_of (gv "s") (rb "foo\0bar") = Ok (S "") /\
  view_of (gv "mi") [x33; x44; x55; x66; x77; x88] = Ok (VMaybe None) /\
  view_of (gv "a(yy)") [x03; x04; x05; x06; x07] = Ok (VArray []) /\
  view_of (gv "(ayayayayay)") [x03; x02; x01] =
    Ok (VTuple [VArray []; VArray []; VArray []; VArray []; VArray []]).
Proof. repeat split; vm_compute; reflexivity. Qed.
Definition indexed (d : list byte) (n : nat) : res (list value) :=
  mapM (fun i => let* r := nfwa_index hd TS (Slice 4096 d) (N.of_nat i) in read hd TS r) (seq 0 n).
Example test_non_normal_values_2 :
  let d1 := rb "foo\0bar\0baz\0\x04\x10\x0c" in
  let d2 := rb "foo\0bar\0baz\0\x04\x00\x04\x0c" in
  view_of (gv "as") d1 = Ok (VArray [S "foo"; S ""; S ""]) /\
  indexed d1 3 = Ok [S "foo"; S ""; S ""] /\ nfwa_len hd (Slice 4096 d1) = Ok 3 /\
  view_of (gv "as") d2 = Ok (VArray [S "foo"; S ""; S "foo"; S ""]) /\
  indexed d2 4 = Ok [S "foo"; S ""; S "foo"; S ""] /\ nfwa_len hd (Slice 4096 d2) = Ok 4.
Proof. repeat split; vm_compute; reflexivity. Qed.

(** * The examples of the GVariant Specification
    (docs/gvariant-serialisation.pdf), with [PaperSpec.pa_decode], which follows
    the text of the Specification, and the model.  Evidence that [pa_decode] says
    what the Specification says. *)
Definition pa (t : String.string) (d : list byte) : value :=
  pa_decode (Names (fun _ => true) (fun _ => true) (fun _ => true)) false (gv t) d.
Arguments pa t%string_scope d.
(** [pa_decode] and the model give this value, and it is written like this. *)
Definition normal (t : String.string) (d : list byte) (v : value) : Prop :=
  pa t d = v /\ view_of (gv t) d = Ok v /\ sp_encode false (gv t) v = d.
Arguments normal t%string_scope d v.
(** Section 2.6, pages 16-19.  As printed, the examples of [a(si)] and [((ys)as)]
    lack the last framing offset of the array; the tests of the crate
    (gvariant/tests/test.rs:203-235) have it, and so they are here. *)
Example specification_2_6 :
  normal "s" (rb "hello world\0") (S "hello world") /\
  normal "ms" (rb "hello world\0\0") (VMaybe (Some (S "hello world"))) /\
  normal "ab" [x01; x00; x00; x01; x01] (VArray (map VBool [true; false; false; true; true])) /\
  normal "(si)" (rb "foo\0\xff\xff\xff\xff\x04") (VTuple [S "foo"; I (-1)]) /\
  normal "a(si)" (rb "hi\0\0\xfe\xff\xff\xff\x03\0\0\0bye\0\xff\xff\xff\xff\x04\x09\x15")
    (VArray [VTuple [S "hi"; I (-2)]; VTuple [S "bye"; I (-1)]]) /\
  normal "as" (rb "i\0can\0has\0strings?\0\x02\x06\x0a\x13") (VArray [S "i"; S "can"; S "has"; S "strings?"]) /\
  normal "((ys)as)" (rb "ican\0has\0strings?\0\x04\x0d\x05")
    (VTuple [VTuple [I 105; S "can"]; VArray [S "has"; S "strings?"]]) /\
  normal "(yy)" [x70; x80] (VTuple [I 0x70; I 0x80]) /\
  normal "(iy)" [x60; x00; x00; x00; x70; x00; x00; x00] (VTuple [I 96; I 0x70]) /\
  normal "(yi)" [x70; x00; x00; x00; x60; x00; x00; x00] (VTuple [I 0x70; I 96]) /\
  normal "a(iy)" (rb "\x60\0\0\0\x70\0\0\0\x88\x02\0\0\xf7\0\0\0")
    (VArray [VTuple [I 96; I 0x70]; VTuple [I 648; I 0xf7]]) /\
  normal "ay" [x04; x05; x06; x07] (VArray [I 4; I 5; I 6; I 7]) /\
  normal "ai" [x04; x00; x00; x00; x02; x01; x00; x00] (VArray [I 4; I 258]) /\
  normal "{si}" (rb "a key\0\0\0\x02\x02\0\0\x06") (VTuple [S "a key"; I 514]).
Proof. repeat split; vm_compute; reflexivity. Qed.
(** Section 2.7.4, pages 24-26; types [(as)] are printed for [as] there. *)
Example specification_2_7_4 :
  pa "i" [x07; x33; x90] = I 0 /\
  pa "(yi)" [x55; x66; x77; x88; x02; x01; x00; x00] = VTuple [I 0x55; I 258] /\
  pa "ab" [x01; x00; x03; x04; x00; x01; xff; x80; x00] =
    VArray (map VBool [true; false; true; true; false; true; true; true; false]) /\
  pa "as" (rb "hello world\0\x0b\x0c") = VArray [S ""; S ""] /\
  pa "s" (rb "foo\0bar\0") = S "foo" /\
  pa "s" (rb "foo\0bar") = S "" /\
  pa "mi" [x33; x44; x55; x66; x77; x88] = VMaybe None /\
  pa "a(yy)" [x03; x04; x05; x06; x07] = VArray [] /\
  pa "as" (rb "foo\0bar\0baz\0\x04\x10\x0c") = VArray [S "foo"; S ""; S ""] /\
  pa "as" (rb "foo\0bar\0baz\0\x04\x00\x0c") = VArray [S "foo"; S ""; S "foo"] /\
  pa "(ayayayayay)" [x03; x02; x01] = VTuple [VArray [I 3]; VArray [I 2]; VArray [I 1]; VArray []; VArray []].
Proof. repeat split; vm_compute; reflexivity. Qed.
(** Where the crate differs, as it documents: embedded NULs, and framing offsets
    for which there is no space. *)
Example specification_2_7_4_here :
  view_of (gv "s") (rb "foo\0bar\0") = Ok (S "") /\
  view_of (gv "as") (rb "foo\0bar\0baz\0\x04\x00\x0c") = Ok (VArray [S "foo"; S ""; S ""]) /\
  view_of (gv "(ayayayayay)") [x03; x02; x01] =
    Ok (VTuple [VArray []; VArray []; VArray []; VArray []; VArray []]).
Proof. repeat split; vm_compute; reflexivity. Qed.
(** Section 3.1, pages 27-28. *)
Example specification_3_1 :
  pa "(ssn)" [x78; x00; x00; x02] = VTuple [S "x"; S ""; I 120] /\
  view_of (gv "(ssn)") [x78; x00; x00; x02] = Ok (VTuple [S "x"; S ""; I 120]).
Proof. split; vm_compute; reflexivity. Qed.
