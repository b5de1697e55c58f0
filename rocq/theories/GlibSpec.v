(** What the fuzz target finds out about GLib. *)
From Verif Require Import Base Types Spec PaperSpec Fuzz FuzzSpec FuzzGlib.

Definition sp_bytes_of (d : option (list byte)) : list byte := match d with Some b => b | None => [] end.
Definition sp_number (t : ty) : bool :=
  match t with TY | TN | TQ | TI | TU | TX | TT => true | _ => false end.
(** The types that can be compared. *)
Fixpoint sp_compared (t : ty) : bool :=
  match t with
  | TA x => sp_number x || (negb (sp_fixed x) && sp_compared x)
  | TM x => sp_compared x
  | TTuple _ | TDict _ _ => false
  | _ => true
  end.
(** What is in a maybe. *)
Definition sp_inside (x : ty) (b : list byte) : option (list byte) :=
  match sp_size x with
  | Some n => if len b =? n then Some b else None
  | None => match b with [] => None | _ => Some (removelast b) end
  end.

(** GLib's [g] tells of the bytes [d] at type [t] what [sp_decode] says; NaNs are
    alike; of object paths and signatures, and of the contents of variants, only
    if GLib calls them normal; GLib calls no string normal that has a NUL inside or
    is not UTF-8. *)
Fixpoint tells (G : glib) (big : bool) (t : ty) (d : option (list byte)) (g : g_ref G) {struct t} : Prop :=
  let bytes := sp_bytes_of d in
  match t with
  | TB => sp_decode big t d = VBool (g_boolean G g)
  | TY | TN | TQ | TI | TU | TX | TT => sp_decode big t d = VInt (g_int G g)
  | TD => exists b, sp_decode big t d = VDouble b /\
                    (sp_feq b (g_double G g) = true \/ (sp_nan b = true /\ sp_nan (g_double G g) = true))
  | TS | TO | TG =>
      (g_normal G g = true -> pa_text bytes = true) /\
      ((exists s, sp_decode big t d = VStr s /\ g_string G g = (s, len s)) \/
       (g_normal G g = false /\ exists c, hd_error (g_type G g) = Some c /\ (c = "o"%byte \/ c = "g"%byte)))
  | TV => g_normal G (g_variant G g) = true ->
          sp_decode big t d = VVariant (g_type G (g_variant G g)) (g_data G (g_variant G g))
  | TA x =>
      if sp_number x then exists zs, g_fixed G g = Some zs /\ sp_decode big t d = VArray (map VInt zs)
      else
        let cs := sp_array_children (sp_align x) bytes in
        g_n_children G g = len cs /\
        forall i c, nth_error cs i = Some c -> tells G big x c (g_child G g (N.of_nat i))
  | TM x =>
      match sp_inside x bytes, g_maybe G g with
      | Some b, Some c => tells G big x (Some b) c
      | None, None => True
      | _, _ => False
      end
  | TTuple _ | TDict _ _ => False
  end.

(** For one type: GLib tells the same; and if it calls the bytes normal, they are
    what is written for the value, or, where its verdict cannot be relied on, it
    calls what is written normal. *)
Definition sp_again (big : bool) (t : ty) (d : list byte) : list byte :=
  sp_encode big t (sp_decode big t (Some d)).
Definition sp_tested (G : glib) (big : bool) (t : ty) (d : list byte) : Prop :=
  let g := g_new G (sp_show t) d in
  sp_compared t = true /\ tells G big t (Some d) g /\
  (g_normal G g = true ->
     (~ excused t d /\ sp_again big t d = d) \/
     (excused t d /\ g_normal G (g_new G (sp_show t) (sp_again big t d)) = true)).
(** For the structure: what is written is called normal; if the bytes are, GLib
    tells the same of the children. *)
Definition sp_tested_struct (G : glib) (big : bool) (d : list byte) : Prop :=
  let t := fuzz_struct_ty in
  let g := g_new G (sp_show t) d in
  let ts := [TS; TU; TT; TU; TT; TY; TS; TI; TS] in
  g_normal G (g_new G (sp_show t) (sp_again big t d)) = true /\
  (g_normal G g = true -> 9 <= g_n_children G g /\
     forall i t c, nth_error ts i = Some t ->
       nth_error (sp_struct_children (map (fun t => (sp_align t, sp_size t)) ts) d) i = Some c ->
       tells G big t c (g_child G g (N.of_nat i))).
(** What is written fits into memory. *)
Definition sp_fits (big : bool) (d : list byte) : Prop :=
  len d < 2 ^ 32 /\ forall t, In t (fuzz_struct_ty :: fuzz_types) -> len (sp_again big t d) < 2 ^ 63.

(** ** GLib as the crate's documentation has it (gvariant/src/lib.rs:88-160) *)
Definition normal_form (nm : names) (big : bool) (t : ty) (d : option (list byte)) : Prop :=
  exists v, sp_typed t v /\ pa_named nm t v = true /\ d = Some (sp_encode big t v) /\ len (sp_encode big t v) < 2 ^ 63.
(** [R g t d]: [g] stands for the bytes [d] at type [t].  GLib calls what is normal
    normal, and nothing else unless excused; its answers are those of [sp_decode].
    Of strings that are not plain, and of the contents of variants, this is
    required of normal ones only. *)
Record documented (G : glib) (nm : names) (big : bool) (R : g_ref G -> ty -> option (list byte) -> Prop) : Prop := {
  doc_new : forall t d, In t (fuzz_struct_ty :: fuzz_types) -> R (g_new G (sp_show t) d) t (Some d);
  doc_type : forall g t d, R g t d -> g_type G g = sp_show t;
  doc_called_normal : forall g t d, R g t d -> g_normal G g = true -> normal_form nm big t d \/ excused t (sp_bytes_of d);
  doc_normal : forall g t d, R g t d -> normal_form nm big t d -> g_normal G g = true;
  doc_bool : forall g d, R g TB d -> sp_decode big TB d = VBool (g_boolean G g);
  doc_number : forall g t d, sp_number t = true -> R g t d -> sp_decode big t d = VInt (g_int G g);
  doc_double : forall g d, R g TD d -> sp_decode big TD d = VDouble (g_double G g);
  doc_string : forall g t d, t = TS \/ ((t = TO \/ t = TG) /\ g_normal G g = true) -> R g t d ->
    exists s, sp_decode big t d = VStr s /\ g_string G g = (s, len s);
  doc_variant : forall g d, R g TV d -> g_normal G (g_variant G g) = true ->
    sp_decode big TV d = VVariant (g_type G (g_variant G g)) (g_data G (g_variant G g));
  doc_numbers : forall g x d, sp_number x = true -> R g (TA x) d ->
    exists zs, g_fixed G g = Some zs /\ sp_decode big (TA x) d = VArray (map VInt zs);
  doc_array : forall g x d, sp_size x = None -> R g (TA x) d ->
    g_n_children G g = len (sp_array_children (sp_align x) (sp_bytes_of d)) /\
    forall i c, nth_error (sp_array_children (sp_align x) (sp_bytes_of d)) i = Some c -> R (g_child G g (N.of_nat i)) x c;
  doc_maybe : forall g x d, R g (TM x) d ->
    match sp_inside x (sp_bytes_of d), g_maybe G g with
    | Some b, Some c => R c x (Some b)
    | None, None => True
    | _, _ => False
    end;
  doc_struct : forall g ts d, sp_size (TTuple ts) = None -> R g (TTuple ts) d ->
    g_n_children G g = len ts /\
    forall i t c, nth_error ts i = Some t ->
      nth_error (sp_struct_children (map (fun t => (sp_align t, sp_size t)) ts) (sp_bytes_of d)) i = Some c ->
      R (g_child G g (N.of_nat i)) t c }.

(** One such GLib, for [text := sp_string] and [null := false]: a GVariant is a type
    and bytes.  [text] reads strings; with [null], arrays without elements are
    NULL. *)
Definition known (ts : list byte) : option ty := find (fun t => sp_beq (sp_show t) ts) (fuzz_struct_ty :: fuzz_types).
Definition sample (nm : names) (big : bool) (text : list byte -> list byte) (null : bool) : glib := {|
  g_ref := ty * option (list byte);
  g_new := fun ts d => match known ts with Some t => (t, Some d) | None => (TS, None) end;
  g_normal := fun g => match snd g with
                       | Some b => sp_beq (sp_again big (fst g) b) b && (len b <? 2 ^ 63) &&
                                   pa_named nm (fst g) (sp_decode big (fst g) (Some b))
                       | None => false
                       end;
  g_type := fun g => sp_show (fst g);
  g_data := fun g => sp_bytes_of (snd g);
  g_boolean := fun g => match sp_decode big (fst g) (snd g) with VBool b => b | _ => false end;
  g_int := fun g => match sp_decode big (fst g) (snd g) with VInt z => z | _ => 0%Z end;
  g_double := fun g => match sp_decode big (fst g) (snd g) with VDouble b => b | _ => 0 end;
  g_string := fun g => let s := text (sp_bytes_of (snd g)) in (s, len s);
  g_fixed := fun g => match sp_decode big (fst g) (snd g) with
                      | VArray [] => if null then None else Some []
                      | VArray vs => Some (map (fun v => match v with VInt z => z | _ => 0%Z end) vs)
                      | _ => None
                      end;
  g_n_children := fun g => match fst g with
                           | TA x => len (sp_array_children (sp_align x) (sp_bytes_of (snd g)))
                           | TTuple ts => len ts
                           | _ => 0
                           end;
  g_child := fun g i => match fst g with
                        | TA x => (x, nth (N.to_nat i) (sp_array_children (sp_align x) (sp_bytes_of (snd g))) None)
                        | TTuple ts => (nth (N.to_nat i) ts TS,
                            nth (N.to_nat i) (sp_struct_children (map (fun t => (sp_align t, sp_size t)) ts) (sp_bytes_of (snd g))) None)
                        | _ => (TS, None)
                        end;
  g_maybe := fun g => match fst g with
                      | TM x => option_map (fun b => (x, Some b)) (sp_inside x (sp_bytes_of (snd g)))
                      | _ => None
                      end;
  g_variant := fun g => match sp_decode big (fst g) (snd g) with
                        | VVariant ts d => match known ts with Some t => (t, Some d) | None => (TS, None) end
                        | _ => (TS, None)
                        end |}.
