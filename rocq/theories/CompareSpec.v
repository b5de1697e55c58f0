(** Values of the Rust types that may stand on the other side of [==]. *)
From Verif Require Import Base Types Spec Deser Histories Cmp Traits.

(** Views of [o] and [g] have the same Rust type as those of [s]; these types are
    written without either. *)
Definition sp_no_og (t : ty) : Prop := ~ In "o"%byte (sp_show t) /\ ~ In "g"%byte (sp_show t).

(** [stands h n r w]: the Rust value n has type r and means w. *)
Inductive stands (h : host) : native -> rty -> value -> Prop :=
| st_view t q w : sp_no_og t -> view h t q -> read h t q = Ok w -> stands h (NView q) (marker t) w
| st_bool b : stands h (NBool b) YBool (VBool b)
| st_str d : stands h (NStr d) YStr (VStr d)
| st_string d : stands h (NStr d) YString (VStr d)
| st_ref n r w : stands h n r w -> stands h n (YRef r) w
| st_slice l r ws : stands_all h l r ws -> stands h (NSeq l) (YSlice r) (VArray ws)
| st_array l r ws : stands_all h l r ws -> stands h (NSeq l) (YArray r) (VArray ws)
| st_vec l r ws : stands_all h l r ws -> stands h (NSeq l) (YVec r) (VArray ws)
| st_none r : stands h (NOption None) (YOption r) (VMaybe None)
| st_some q r w : stands h (NView q) r w -> stands h (NOption (Some q)) (YOption (YRef r)) (VMaybe (Some w))
with stands_all (h : host) : list native -> rty -> list value -> Prop :=
| sa_nil r : stands_all h [] r []
| sa_cons n r w l ws : stands h n r w -> stands_all h l r ws -> stands_all h (n :: l) r (w :: ws).
