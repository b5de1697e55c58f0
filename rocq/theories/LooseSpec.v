(** Programs that are not careful (C146). *)
From Verif Require Import Base Types Spec Ser SerSpec Programs LazySpec.

(** What happens when a reference would not be aligned: undefined behaviour, or in
    builds with debug assertions a failed one. *)
Definition misaligned_crash (h : host) (c : crash) : Prop :=
  c = UBMisaligned \/ (c = PAssert /\ h_debug h = true).
(** What the program is told is what the machine says, up to the first such crash. *)
Definition same_until_misaligned {A} (h : host) (told said : list (res A)) : Prop :=
  told = said \/
  exists pre c rest rest', misaligned_crash h c /\ told = pre ++ Crash c :: rest /\ said = pre ++ rest'.

(** What a view shows fits into memory when it is written out again (for the others
    this is part of [realistic]). *)
Definition fits (big : bool) (env : list lthing) (p : call) : Prop :=
  match p with
  | PRewrite i _ => forall t l v, nth_error env i = Some (LtView t l) -> lforce l = Some v -> len (sp_written big t v) < 2 ^ 63
  | _ => True
  end.
Fixpoint all_fit (big : bool) (env : list lthing) (ps : list call) : Prop :=
  match ps with
  | [] => True
  | p :: ps => fits big env p /\ all_fit big (fst (lstep big env p)) ps
  end.
