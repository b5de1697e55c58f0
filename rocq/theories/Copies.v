(** Values of fixed-size types as a program uses them: the generated structures are
    [Copy], [Clone] and [Default] (generate_impl.rs:402), have a constructor
    (473-477) and public fields (441).  [Mut] has the constructor and assignments to
    fields; here are copies and defaults, and programs made of these. *)
From Verif Require Import Base Types Layout Ser Mut.

(** Copying the declared fields, the paddings among them, to where they are in the
    copy.  [cs] copies the data fields. *)
Fixpoint copy_fields (cs : list (list byte -> res (list byte))) (fs : list (bool * (N * N))) (os : list N)
    (d mem : list byte) : res (list byte) :=
  match fs, os with
  | (is_data, (n, _)) :: fs', o :: os' =>
      let old := take n (drop o d) in
      if is_data then
        match cs with
        | c :: cs' => let* new := c old in copy_fields cs' fs' os' d (splice mem o new)
        | [] => Crash NoCompile
        end
      else copy_fields cs fs' os' d (splice mem o old)
  | _, _ => Ok mem
  end.
(** A copy of a value of the type [marker_type] picks for [t]
    (gvariant-macro/src/lib.rs:34-61): numbers; [Bool], which is [Copy]
    (lib.rs:1971-1973); structures, copied field by field.  Copying a value does not
    preserve bytes that belong to no field, if there are any (Rust reference, "Type
    layout"): these come from [junk].  [clone()] is the same: [derive(Clone)] with
    [derive(Copy)] copies. *)
Fixpoint copied (junk : nat -> byte) (t : ty) (d : list byte) {struct t} : res (list byte) :=
  let fields (cs : list (list byte -> res (list byte))) (ts : list ty) :=
    match packed_struct t, mem_layouts ts with
    | Some (pads, final), Some ls =>
        let fs := interleave pads ls final in
        let '(os, size, _) := repr_c (map snd fs) in
        copy_fields cs fs os d (map junk (seq 0 (N.to_nat size)))
    | _, _ => Crash NoCompile
    end in
  match t with
  | TB | TY | TN | TQ | TI | TU | TX | TT | TD => Ok d
  | TTuple ts => fields (map (copied junk) ts) ts
  | TDict k v => fields [copied junk k; copied junk v] [k; v]
  | _ => Crash NoCompile
  end.

(** [Default::default()]: zero for numbers; for structures that of every field, the
    paddings (arrays of [u8]) included ([derive(Default)], generate_impl.rs:402);
    [Bool] has none. *)
Fixpoint defaulted (junk : nat -> byte) (t : ty) {struct t} : res (list byte) :=
  match t with
  | TY => Ok (zeros 1)
  | TN | TQ => Ok (zeros 2)
  | TI | TU => Ok (zeros 4)
  | TX | TT | TD => Ok (zeros 8)
  | TTuple ts =>
      let* vals := (fix go (ts : list ty) : res (list (list byte)) :=
                      match ts with
                      | [] => Ok []
                      | t :: ts => let* v := defaulted junk t in let* vs := go ts in Ok (v :: vs)
                      end) ts in
      struct_new junk t vals
  | TDict k v =>
      let* a := defaulted junk k in
      let* b := defaulted junk v in
      struct_new junk t [a; b]
  | _ => Crash NoCompile
  end.

(** Expressions of a fixed-size type.  Variables are numbered; a variable is a local
    one or what a reference points to, as in a view of any bytes. *)
Inductive expr :=
| EInt (z : Z)
| EDouble (bits : N)
| ECopy (x : nat) (p : list nat)     (* x.field_i.field_j... *)
| EDefault
| ENew (es : list expr).             (* Structure::new(e, ...) *)
(** What is in memory: types and bytes of the variables. *)
Definition memory := list (ty * list byte).

(** Whether two types are the same, as the compiler asks. *)
Definition ty_dec : forall a b : ty, {a = b} + {a <> b}.
Proof. fix IH 1. intros a b; decide equality. - apply (list_eq_dec IH). Defined.

(** Size of a sized type, 0 for others. *)
Definition sized (t : ty) : N := match mem_layout t with Some (n, _) => n | None => 0 end.
(** The value of an expression of type [t], as bytes. *)
Fixpoint eval (h : host) (junk : nat -> byte) (m : memory) (t : ty) (e : expr) {struct e} : res (list byte) :=
  match e with
  | EInt z => image h junk t (RInt z)
  | EDouble b => image h junk t (RDouble b)
  | ECopy x p =>
      match nth_error m x with
      | Some (u, d) =>
          let* q := place u p in
          if ty_dec (snd q) t then copied junk t (take (sized t) (drop (fst q) d)) else Crash NoCompile
      | None => Crash NoCompile
      end
  | EDefault => defaulted junk t
  | ENew es =>
      match t with
      | TTuple _ | TDict _ _ =>
          let ts := children_of t in
          if Nat.eqb (length ts) (length es) then
            let* vals := (fix go (es : list expr) (ts : list ty) : res (list (list byte)) :=
                            match es, ts with
                            | e :: es', t :: ts' =>
                                let* v := eval h junk m t e in let* vs := go es' ts' in Ok (v :: vs)
                            | _, _ => Ok []
                            end) es ts in
            struct_new junk t vals
          else Crash NoCompile
      | _ => Crash NoCompile
      end
  end.

(** Statements. *)
Inductive stmt :=
| SLet (t : ty) (e : expr)                             (* let x: T = e; *)
| SAssign (x : nat) (p : list nat) (e : expr)          (* x.field_i... = e; *)
| SSwap (x : nat) (p : list nat) (y : nat) (q : list nat). (* core::mem::swap(&mut x.field_i..., &mut y.field_j...) *)
(** Writing [new] to [x], at offset [o]. *)
Fixpoint store (m : memory) (x : nat) (o : N) (new : list byte) : memory :=
  match m, x with
  | (t, d) :: m', O => (t, splice d o new) :: m'
  | v :: m', S x' => v :: store m' x' o new
  | [], _ => []
  end.
Definition set_place (m : memory) (x : nat) (p : list nat) (new : ty -> res (list byte)) : res memory :=
  match nth_error m x with
  | Some (u, _) => let* q := place u p in let* d := new (snd q) in Ok (store m x (fst q) d)
  | None => Crash NoCompile
  end.
Definition exec (h : host) (junk : nat -> byte) (m : memory) (s : stmt) : res memory :=
  match s with
  | SLet t e => let* d := eval h junk m t e in Ok (m ++ [(t, d)])
  | SAssign x p e => set_place m x p (fun t => eval h junk m t e)
  | SSwap x p y q =>
      let* m' := set_place m x p (fun t => eval h junk m t (ECopy y q)) in
      set_place m' y q (fun t => eval h junk m t (ECopy x p))
  end.
(** Programs; what [junk] is may differ from statement to statement. *)
Fixpoint execs (h : host) (m : memory) (ss : list ((nat -> byte) * stmt)) : res memory :=
  match ss with
  | [] => Ok m
  | (junk, s) :: ss => let* m := exec h junk m s in execs h m ss
  end.
