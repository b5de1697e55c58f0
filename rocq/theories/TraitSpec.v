(** Vocabulary for statements about [SerializeTo]. *)
From Verif Require Import Base Types Spec Histories Ser Traits.

(** Types written with a structure, or with a maybe of a boolean, in them. *)
Definition sp_writes_structure (t : ty) : Prop := In "("%byte (sp_show t) \/ In "{"%byte (sp_show t).
Definition sp_writes_maybe_bool (t : ty) : Prop := exists a b, sp_show t = a ++ bs "mb" ++ b.

(** A Rust type made for passing values of type t: numbers; &bool; &str; &Variant;
    [T; N]; &Option<T> or Option<T>; &(T0, T1, ...). *)
Fixpoint sp_natural (t : ty) : rty :=
  match t with
  | TB => YRef YBool
  | TY => YU8 | TN => YI16 | TQ => YU16 | TI => YI32 | TU => YU32 | TX => YI64 | TT => YU64 | TD => YF64
  | TS | TO | TG => YRef YStr
  | TV => YRef GVariant
  | TA x => YArray (sp_natural x)
  | TM x => match sp_size x with Some _ => YRef (YOption (sp_natural x)) | None => YOption (sp_natural x) end
  | TTuple ts => YRef (YTuple (map sp_natural ts))
  | TDict a b => YRef (YTuple [sp_natural a; sp_natural b])
  end.

(** Types with something in them that cannot be copied: what is owned on the heap,
    what has no size of its own, and iterators.  A reference stops the search. *)
Inductive sp_holds : rty -> rty -> Prop :=
| h_here : forall r, sp_holds r r
| h_option : forall r x, sp_holds r x -> sp_holds (YOption r) x
| h_array : forall r x, sp_holds r x -> sp_holds (YArray r) x
| h_wrap : forall t r x, sp_holds r x -> sp_holds (GWrap t r) x
| h_tuple : forall rs r x, In r rs -> sp_holds r x -> sp_holds (YTuple rs) x.
Definition sp_uncopied (r : rty) : Prop :=
  match r with
  | YString | GString | YBox _ | YVec _ | YIter _ => True
  | YStr | GStr | GVariant | YSlice _ | GArray _ | GMaybeFixed _ | GMaybe _ => True
  | GStruct t => sp_size t = None
  | _ => False
  end.

(** The values of a Rust type, as [rval]. *)
Inductive value_of : rval -> rty -> Prop :=
| v_u8 : forall z, (0 <= z < 2^8)%Z -> value_of (RInt z) YU8
| v_i16 : forall z, (- 2^15 <= z < 2^15)%Z -> value_of (RInt z) YI16
| v_u16 : forall z, (0 <= z < 2^16)%Z -> value_of (RInt z) YU16
| v_i32 : forall z, (- 2^31 <= z < 2^31)%Z -> value_of (RInt z) YI32
| v_u32 : forall z, (0 <= z < 2^32)%Z -> value_of (RInt z) YU32
| v_i64 : forall z, (- 2^63 <= z < 2^63)%Z -> value_of (RInt z) YI64
| v_u64 : forall z, (0 <= z < 2^64)%Z -> value_of (RInt z) YU64
| v_f64 : forall b, b < 2^64 -> value_of (RDouble b) YF64
| v_bool : forall b, value_of (RBool b) YBool
| v_gbool : forall b, value_of (RBoolView b) GBool
| v_str : forall s, is_utf8 s -> value_of (RStr s) YStr
| v_string : forall s, is_utf8 s -> value_of (RStr s) YString
| v_gstr : forall d, value_of (RStrView d) GStr
| v_variant : forall d, value_of (RVariant d) GVariant
| v_wrap : forall t v r, len (sp_show t) < 2^32 -> value_of v r -> value_of (RWrap t v) (GWrap t r)
| v_seq : forall vs r s, In s [YSlice r; YVec r; YArray r; YIter r; GArray r] -> values_of vs r -> value_of (RList vs) s
| v_none : forall r s, In s [YOption r; GMaybeFixed r; GMaybe r] -> value_of (ROpt None) s
| v_some : forall v r s, In s [YOption r; GMaybeFixed r; GMaybe r] -> value_of v r -> value_of (ROpt (Some v)) s
| v_tuple : forall vs rs, members_of vs rs -> value_of (RTuple vs) (YTuple rs)
| v_ref : forall v r, value_of v r -> value_of v (YRef r)
| v_box : forall v r, value_of v r -> value_of v (YBox r)
with values_of : list rval -> rty -> Prop :=
| vs_nil : forall r, values_of [] r
| vs_cons : forall v vs r, value_of v r -> values_of vs r -> values_of (v :: vs) r
with members_of : list rval -> list rty -> Prop :=
| ms_nil : members_of [] []
| ms_cons : forall v vs r rs, value_of v r -> members_of vs rs -> members_of (v :: vs) (r :: rs).
