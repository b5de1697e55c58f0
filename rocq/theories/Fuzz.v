(** In-memory serialisation (lib.rs:438-443) and the repository's fuzz target
    (fuzz/fuzz_targets/fuzz_target_1.rs:293-383).

    Of the fuzz target, the comparisons with GLib's reading of the same bytes
    are left to [FuzzGlib]; whether GLib calls the bytes normal is a parameter. *)
From Verif Require Import Base Types Layout AlignedBytes Strs Deser Ser Buf.

(** [Marker::serialize_to_vec]: writing to a [Vec] never fails by itself; an
    error meets [expect]. *)
Definition serialize_to_vec (h : host) (t : ty) (r : rval) : res (list byte) :=
  match serialize h t r None with
  | (k, SOk _) => Ok (k_out k)
  | (_, SErr _) => Crash PUnwrap
  | (_, SCrash c) => Crash c
  end.
(** The bytes of a [Vec<u8>] that started out as [vec![]]: it has allocated (at
    [va]) when something was written. *)
Definition vec_slice (va : N) (d : list byte) : slice :=
  match d with [] => Slice 1 [] | _ => Slice va d end.

(** [assert_eq!], and [assert!]. *)
Definition assert_that (b : bool) : res unit := if b then Ok tt else Crash PAssert.

(** [test_cmp] (fuzz_target_1.rs:293-332).  [m.serialize(v, &mut vec).unwrap()]
    fails like [serialize_to_vec].  [va], [a1] and [a2] are where the allocator
    puts the vector, its copy and the copy's re-aligned self. *)
Definition fuzz_cmp (h : host) (normal : bool) (va a1 a2 : N) (t : ty) (s : slice) : res unit :=
  let* v := cast h t s in
  let* r := view_rval h t v in
  let* out := serialize_to_vec h t r in
  let* c := copy_to_align h (trait_align t) (vec_slice va out) a1 a2 in
  let* rs := cow_as_ref h (trait_align t) c in
  let* _ := match t with
            | TD => Ok tt
            | _ => let* q := cast h t rs in
                   let* e := gv_eq h t q v in
                   assert_that e
            end in
  if normal then
    if (256 <=? slen s) && (slen s <? 512) && bytes_eqb (display t) ["a"; "a"; "y"]%byte then Ok tt
    else assert_that (bytes_eqb out (s_data s))
  else Ok tt.
(** [fuzz_struct] (334-356): the tuple of references is written and compared like
    the structure itself. *)
Definition fuzz_struct_ty : ty := TTuple [TS; TU; TT; TU; TT; TY; TS; TI; TS].
Definition fuzz_struct (h : host) (va a1 a2 : N) (s : slice) : res unit :=
  let t := fuzz_struct_ty in
  let* v := cast h t s in
  let* r := view_rval h t v in
  let* out := serialize_to_vec h t r in
  let* c := copy_to_align h (trait_align t) (vec_slice va out) a1 a2 in
  let* rs := cow_as_ref h (trait_align t) c in
  let* q := cast h t rs in
  let* e := gv_eq h t q v in
  assert_that e.

(** The target (358-383): [data] is what the fuzzer passes; [normal] is GLib's
    verdict, [mem] the allocator's choices, for each type. *)
Definition fuzz_types : list ty :=
  [TB; TY; TN; TQ; TI; TU; TX; TT; TD; TS; TO; TG; TV; TA TY; TA TI; TA TS; TA (TA TY); TM TY; TM TI; TM TS; TM (TA TY)].
Fixpoint fuzz_all (h : host) (normal : ty -> bool) (mem : ty -> N * N * N) (ts : list ty) (s : slice) : res unit :=
  match ts with
  | [] => Ok tt
  | t :: ts =>
      let '(va, a1, a2) := mem t in
      let* d := as_aligned 8 (trait_align t) s in
      let* _ := fuzz_cmp h (normal t) va a1 a2 t d in
      fuzz_all h normal mem ts s
  end.
Definition fuzz_target (h : host) (normal : ty -> bool) (mem : ty -> N * N * N) (b1 b2 : N) (data : slice) : res unit :=
  let* c := copy_to_align h 8 data b1 b2 in
  let* s := cow_as_ref h 8 c in
  let* _ := fuzz_all h normal mem fuzz_types s in
  let '(va, a1, a2) := mem fuzz_struct_ty in
  fuzz_struct h va a1 a2 s.
