(** The fuzz target (fuzz/fuzz_targets/fuzz_target_1.rs:15-383) with its
    comparisons with GLib.

    GLib is not modelled: a [glib] is what its functions answer, and may be
    anything.  Reference counting, the [Drop] implementations and the messages of
    failed assertions (with [Debug for GLibVariant], 94-107) are left out. *)
From Verif Require Import Base Types Layout AlignedBytes Strs Spec Deser Ser Buf Fuzz.

(** GLib's functions, for a type [g_ref] of pointers to GVariants (35-73, and where
    the names occur below).  [g_new]: [g_variant_new_from_bytes] with a type string,
    taken to return no NULL, like [g_variant_get_child_value] and
    [g_variant_get_variant], whose results meet [unwrap] (44, 70, 253).  [g_string]:
    the bytes up to the NUL, and the length returned beside it.  [g_fixed]: the
    numbers at the pointer [g_variant_get_fixed_array] returns, taken to be
    aligned, or NULL.  The seven functions for integers are one, [g_int]. *)
Record glib := Glib {
  g_ref : Type;
  g_new : list byte -> list byte -> g_ref;
  g_normal : g_ref -> bool;
  g_type : g_ref -> list byte;
  g_data : g_ref -> list byte;
  g_boolean : g_ref -> bool;
  g_int : g_ref -> Z;
  g_double : g_ref -> N;
  g_string : g_ref -> list byte * N;
  g_fixed : g_ref -> option (list Z);
  g_n_children : g_ref -> N;
  g_child : g_ref -> N -> g_ref;
  g_maybe : g_ref -> option g_ref;
  g_variant : g_ref -> g_ref }.

(** [GLibVariant::get_child] (65-72). *)
Definition gl_get_child (G : glib) (g : g_ref G) (n : N) : res (g_ref G) :=
  let* _ := assert_that (n <? g_n_children G g) in Ok (g_child G g n).

(** The types with [int_eq!] (133-139). *)
Definition gl_number (t : ty) : bool :=
  match t with TY | TN | TQ | TI | TU | TX | TT => true | _ => false end.
(** The types with [PartialEq<GLibVariant>] (109-266) but for tuples of references. *)
Fixpoint gl_impl (t : ty) : bool :=
  match t with
  | TA x => gl_number x || match size_of x with None => gl_impl x | Some _ => false end
  | TM x => gl_impl x
  | TTuple _ | TDict _ _ => false
  | _ => true
  end.
(** Integers (111-115) and [[T]] of integers, which [==] compares with one another
    (116-129). *)
Definition gl_int_eq (v : Spec.value) (z : Z) : bool := match v with VInt y => (y =? z)%Z | _ => false end.
Fixpoint gl_ints_eq (vs : list Spec.value) (zs : list Z) : bool :=
  match vs, zs with
  | [], [] => true
  | v :: vs, z :: zs => gl_int_eq v z && gl_ints_eq vs zs
  | _, _ => false
  end.
(** [==] between a reference and a GVariant of GLib (109-266).
    [slice::from_raw_parts] of NULL (125) is undefined behaviour, for which
    [UBMisaligned] stands.  Of arrays, both loops (193-195, 201-206) go over the
    elements collected first: iterating again gives the same. *)
Fixpoint gl_eq (h : host) (G : glib) (t : ty) (v : slice) (g : g_ref G) {struct t} : res bool :=
  match t with
  | TB => Ok (Bool.eqb (0 <? of_ne h (s_data v)) (g_boolean G g))
  | TY | TN | TQ | TI | TU | TX | TT => let* n := read h t v in Ok (gl_int_eq n (g_int G g))
  | TD =>
      let b := of_ne h (s_data v) in
      Ok (if f64_is_nan b then f64_is_nan (g_double G g) else f64_eq b (g_double G g))
  | TS | TO | TG =>
      let normal_form := g_normal G g in
      let* _ := if normal_form
                then assert_that (bytes_eqb (to_str (s_data v)) (as_bytes_non_conformant (s_data v)))
                else Ok tt in
      let ts := hd x00 (g_type G g) in
      if (byte_eqb ts "o" || byte_eqb ts "g") && negb normal_form then Ok true
      else
        let '(string, n) := g_string G g in
        Ok ((blen (to_str (s_data v)) =? n) && bytes_eqb (to_str (s_data v)) string)
  | TV =>
      let c := g_variant G g in
      let* p := variant_split h v in
      if g_normal G c
      then Ok (bytes_eqb (s_data (fst p)) (g_type G c) && bytes_eqb (s_data (snd p)) (g_data G c))
      else Ok true
  | TA x =>
      if gl_number x then
        let* rs := array_refs h x v in
        let* ns := mapM (read h x) rs in
        match g_fixed G g with
        | Some zs => Ok (gl_ints_eq ns zs)
        | None => Crash UBMisaligned
        end
      else
        let* rs := nfwa_items h x v in
        let* n := nfwa_len h v in
        let* _ := assert_that (n =? N.of_nat (length rs)) in
        let* _ := (fix check (i : N) (rs : list slice) : res unit :=
                     match rs with
                     | [] => Ok tt
                     | r :: rs => let* q := nfwa_index h x v i in
                                  let* e := gv_eq h x r q in
                                  let* _ := assert_that e in
                                  check (i + 1) rs
                     end) 0 rs in
        if g_n_children G g =? n then
          (fix go (i : N) (rs : list slice) : res bool :=
             match rs with
             | [] => Ok true
             | r :: rs => let* c := gl_get_child G g i in
                          let* e := gl_eq h G x r c in
                          if e then go (i + 1) rs else Ok false
             end) 0 rs
        else Ok false
  | TM x =>
      let* o := to_option h x v in
      match g_maybe G g, o with
      | Some c, Some r => gl_eq h G x r c
      | None, None => Ok true
      | _, _ => Ok false
      end
  | TTuple _ | TDict _ _ => Crash NoCompile
  end.
(** Tuples of references (268-291): [&&] over the children. *)
Fixpoint gl_eq_fields (h : host) (G : glib) (i : N) (ts : list ty) (vs : list slice) (g : g_ref G) : res bool :=
  match ts, vs with
  | t :: ts, v :: vs =>
      let* c := gl_get_child G g i in
      let* e := gl_eq h G t v c in
      if e then gl_eq_fields h G (i + 1) ts vs g else Ok false
  | _, _ => Ok true
  end.

(** [test_cmp] (293-332); see [fuzz_cmp] for [va], [a1] and [a2].  It does not
    compile for types without the comparison (297). *)
Definition test_cmp (h : host) (G : glib) (va a1 a2 : N) (t : ty) (s : slice) : res unit :=
  if negb (gl_impl t) then Crash NoCompile else
  let g := g_new G (display t) (s_data s) in
  let* v := cast h t s in
  let* r := view_rval h t v in
  let* out := serialize_to_vec h t r in
  let* c := copy_to_align h (trait_align t) (vec_slice va out) a1 a2 in
  let* rs := cow_as_ref h (trait_align t) c in
  let* _ := match t with
            | TD => Ok tt
            | _ => let* q := cast h t rs in
                   let* e := gv_eq h t q v in
                   assert_that e
            end in
  let* e := gl_eq h G t v g in
  let* _ := assert_that e in
  if g_normal G g then
    if (256 <=? slen s) && (slen s <? 512) && bytes_eqb (display t) ["a"; "a"; "y"]%byte
    then assert_that (g_normal G (g_new G (display t) out))
    else assert_that (bytes_eqb out (s_data s))
  else Ok tt.
(** [fuzz_struct] (334-356).  Two tuples are compared like two structures. *)
Definition test_struct (h : host) (G : glib) (va a1 a2 : N) (s : slice) : res unit :=
  let t := fuzz_struct_ty in
  let* v := cast h t s in
  let* vs := to_tuple h t v in
  let* r := view_rval h t v in
  let* out := serialize_to_vec h t r in
  let* c := copy_to_align h (trait_align t) (vec_slice va out) a1 a2 in
  let* _ := assert_that (g_normal G (g_new G (display t) out)) in
  let* rs := cow_as_ref h (trait_align t) c in
  let* q := cast h t rs in
  let* e := gv_eq h t q v in
  let* _ := assert_that e in
  let g := g_new G (display t) (s_data s) in
  if g_normal G g then
    let* e := gl_eq_fields h G 0 [TS; TU; TT; TU; TT; TY; TS; TI; TS] vs g in
    assert_that e
  else Ok tt.
(** [fuzz_target!] (358-383). *)
Fixpoint test_all (h : host) (G : glib) (mem : ty -> N * N * N) (ts : list ty) (s : slice) : res unit :=
  match ts with
  | [] => Ok tt
  | t :: ts =>
      let '(va, a1, a2) := mem t in
      let* d := as_aligned 8 (trait_align t) s in
      let* _ := test_cmp h G va a1 a2 t d in
      test_all h G mem ts s
  end.
Definition test_target (h : host) (G : glib) (mem : ty -> N * N * N) (b1 b2 : N) (data : slice) : res unit :=
  let* c := copy_to_align h 8 data b1 b2 in
  let* s := cow_as_ref h 8 c in
  let* _ := test_all h G mem fuzz_types s in
  let '(va, a1, a2) := mem fuzz_struct_ty in
  test_struct h G va a1 a2 s.
