(** What programs that compute with fixed-size values should do (C141): the same with
    records, which have no bytes.  The syntax of programs is that of [Copies]. *)
From Verif Require Import Base Types Spec Histories Ser SerSpec MutSpec Copies.

(** Variables: their types and values. *)
Definition vars := list (ty * value).

(** The member [.i.j...] of a value. *)
Fixpoint sp_pick (v : value) (p : list nat) : value :=
  match p with
  | [] => v
  | i :: p => match v with VTuple vs => sp_pick (nth i vs (VTuple [])) p | _ => v end
  end.
Fixpoint sp_eval (big : bool) (m : vars) (t : ty) (e : expr) {struct e} : value :=
  match e with
  | EInt z => VInt z
  | EDouble b => VDouble b
  | ECopy x p => sp_pick (snd (nth x m (t, VTuple []))) p
  | EDefault => sp_decode big t None
  | ENew es =>
      VTuple ((fix go es ts := match es, ts with
                               | e :: es, t :: ts => sp_eval big m t e :: go es ts
                               | _, _ => []
                               end) es (sp_components t))
  end.
(** Member [p] of variable [x] set to [v]. *)
Definition sp_set (m : vars) (x : nat) (p : list nat) (v : value) : vars :=
  map (fun jw => if Nat.eqb (fst jw) x then (fst (snd jw), sp_replace (snd (snd jw)) p v) else snd jw)
      (combine (seq 0 (length m)) m).
(** The type of a member, if there is one. *)
Definition sp_type_at (m : vars) (x : nat) (p : list nat) : option ty :=
  match nth_error m x with
  | Some (u, _) => match sp_member u p with Some (_, t) => Some t | None => None end
  | None => None
  end.
Definition sp_exec (big : bool) (m : vars) (s : stmt) : vars :=
  match s with
  | SLet t e => m ++ [(t, sp_eval big m t e)]
  | SAssign x p e =>
      match sp_type_at m x p with Some t => sp_set m x p (sp_eval big m t e) | None => m end
  | SSwap x p y q =>
      match sp_type_at m x p with
      | Some t => sp_set (sp_set m x p (sp_eval big m t (ECopy y q))) y q (sp_eval big m t (ECopy x p))
      | None => m
      end
  end.
Fixpoint sp_execs (big : bool) (m : vars) (ss : list stmt) : vars :=
  match ss with
  | [] => m
  | s :: ss => sp_execs big (sp_exec big m s) ss
  end.

(** Has a default: no booleans in it. *)
Fixpoint has_default (t : ty) : bool :=
  match t with
  | TY | TN | TQ | TI | TU | TX | TT | TD => true
  | TTuple ts => forallb has_default ts
  | TDict k v => has_default k && has_default v
  | _ => false
  end.
(** Well-typed expressions and statements, [m] for the types of the variables. *)
Fixpoint etyped (m : vars) (t : ty) (e : expr) {struct e} : Prop :=
  match e with
  | EInt z => rtyped t (RInt z)
  | EDouble b => rtyped t (RDouble b)
  | ECopy x p => sp_type_at m x p = Some t
  | EDefault => has_default t = true
  | ENew es =>
      sp_is_struct t = true /\
      (fix all es ts := match es, ts with
                        | [], [] => True
                        | e :: es, t :: ts => etyped m t e /\ all es ts
                        | _, _ => False
                        end) es (sp_components t)
  end.
Definition stmt_ok (m : vars) (s : stmt) : Prop :=
  match s with
  | SLet t e => usable t /\ sp_fixed t = true /\ etyped m t e
  | SAssign x p e => exists t, sp_type_at m x p = Some t /\ etyped m t e
  | SSwap x p y q => exists t, sp_type_at m x p = Some t /\ sp_type_at m y q = Some t
  end.
Fixpoint stmts_ok (big : bool) (m : vars) (ss : list stmt) : Prop :=
  match ss with
  | [] => True
  | s :: ss => stmt_ok m s /\ stmts_ok big (sp_exec big m s) ss
  end.

(** Memory that holds values of fixed-size types, of any bytes, and what they are. *)
Definition holds_values (m : memory) : Prop :=
  Forall (fun v => usable (fst v) /\ sp_size (fst v) = Some (len (snd v))) m.
Definition the_values (big : bool) (m : memory) : vars :=
  map (fun v => (fst v, sp_decode big (fst v) (Some (snd v)))) m.
(** All in normal form. *)
Definition all_normal (big : bool) (m : memory) : Prop :=
  Forall (fun v => snd v = sp_encode big (fst v) (sp_decode big (fst v) (Some (snd v)))) m.
