(** The emitted functions, run: C126, C127, C131. *)
From Verif Require Import Base Types Layout Spec AlignedBytes Deser Ser SerSpec Histories LexSpec TextSpec Gen Run Mut RunFacts.

(** [to_tuple] of a variable-size structure, as it stands in the emitted text, gives
    references to the components GVariant finds in the bytes: reading them gives the
    value the bytes stand for (or panics where C48 says). *)
Theorem C126_variable_size : forall (h : host) (s : ty) (text : list byte) (its : list (list tree * list tree)) (x : slice),
  sp_is_struct s = true -> sp_size s = None -> tuple_text s = Some text -> code text = Some its ->
  usable s -> aligned (sp_align s) x -> len (s_data x) < 2 ^ 32 ->
  exists nm al calls, fields_of its = Some (nm, [Bytes al]) /\ calls_of its = Some calls /\
    (let* rs := run_calls h al x (sp_components s) calls in let* vs := read_each h (sp_components s) rs in Ok (VTuple vs)) =
    if sp_reads s (Some (s_data x)) then Ok (sp_decode (h_big_endian h) s (Some (s_data x))) else Crash PUnwrap.
Proof. exact variable_run. Qed.
Print Assumptions C126_variable_size.
(** So what the other theorems say about [to_tuple] is about the emitted text, for
    bytes of any length. *)
Theorem C126_is_the_model : forall (h : host) (s : ty) (text : list byte) (its : list (list tree * list tree)) (x : slice),
  sp_is_struct s = true -> sp_size s = None -> tuple_text s = Some text -> code text = Some its ->
  exists nm al calls, fields_of its = Some (nm, [Bytes al]) /\ calls_of its = Some calls /\
    run_calls h al x (sp_components s) calls = to_tuple h s x.
Proof. exact run_variable. Qed.
Print Assumptions C126_is_the_model.
(** Of a fixed-size one: the fields it names lie, one after the other as declared,
    where the components are. *)
Theorem C126_fixed_size : forall (h : host) (s : ty) (n : N) (szs : list N) (text : list byte) (its : list (list tree * list tree)) (x : slice),
  sp_is_struct s = true -> sp_size s = Some n -> map sp_size (sp_components s) = map Some szs ->
  tuple_text s = Some text -> code text = Some its -> usable s -> aligned (sp_align s) x -> len (s_data x) = n ->
  exists nm fields ns ps rs vs, fields_of its = Some (nm, fields) /\ refs_of its = Some ns /\ positions 0 szs fields = Some (ps, n) /\
    run_refs x ps szs ns = Some rs /\ to_tuple h s x = Ok rs /\ read_each h (sp_components s) rs = Ok vs /\
    VTuple vs = sp_decode (h_big_endian h) s (Some (s_data x)).
Proof. exact fixed_run. Qed.
Print Assumptions C126_fixed_size.

Example C126_case : let s := TTuple [TS; TX; TS] in let h := Host false true true 0 0 in
  let x := Slice 16 (bs "ab" ++ [x00; x00; x00; x00; x00; x00; x07; x00; x00; x00; x00; x00; x00; x00] ++ bs "c" ++ [x00; x03]) in
  usable s /\ aligned (sp_align s) x /\ len (s_data x) < 2 ^ 32 /\ sp_reads s (Some (s_data x)) = true /\
  (get text <- tuple_text s; get its <- code text; get calls <- calls_of its;
   Some (run_calls h 8 x (sp_components s) calls)) =
  Some (Ok [Slice 16 (bs "ab" ++ [x00]); Slice 24 [x07; x00; x00; x00; x00; x00; x00; x00]; Slice 32 (bs "c" ++ [x00])]) /\
  sp_decode false s (Some (s_data x)) = VTuple [VStr (bs "ab"); VInt 7; VStr (bs "c")].
Proof. intros s h x. repeat split; vm_compute; reflexivity. Qed.
Example C126_case_fixed : let s := TTuple [TY; TN] in let x := Slice 8 [x05; xee; x01; x02] in
  usable s /\ aligned (sp_align s) x /\ sp_size s = Some (len (s_data x)) /\
  (get text <- tuple_text s; get its <- code text; get (nm, fields) <- fields_of its; get ns <- refs_of its;
   get (ps, n) <- positions 0 [1; 2] fields; run_refs x ps [1; 2] ns) = Some [Slice 8 [x05]; Slice 10 [x01; x02]].
Proof. intros s x. repeat split; vm_compute; reflexivity. Qed.

(** * C127 *)
(** [serialize] of a structure, executed statement by statement as it stands in the
    emitted text, each component's [serialize] being that of the library or of other
    emitted text, writes the structure as C21 says, to sinks that run full as well. *)
Theorem C127_variable_size : forall (h : host) (s : ty) (text : list byte) (its : list (list tree * list tree)) (rs : list rval) (budget : option N),
  sp_is_struct s = true -> sp_size s = None -> tuple_text s = Some text -> code text = Some its ->
  usable s -> rtyped s (RTuple rs) -> no_nuls s (RTuple rs) ->
  let bytes := sp_written (h_big_endian h) s (rvalue true (h_big_endian h) s (RTuple rs)) in len bytes < 2 ^ 63 ->
  exists n l, statements_of its = Some (n, l) /\
    run_serialize h n l (map (fun p => ser h (fst p) (snd p)) (combine rs (sp_components s))) (Sink [] budget) =
    sp_deliver budget bytes (SOk (len bytes)).
Proof. exact variable_written. Qed.
Print Assumptions C127_variable_size.
Theorem C127_fixed_size : forall (h : host) (s : ty) (n : N) (text : list byte) (its : list (list tree * list tree)) (rs : list rval) (budget : option N),
  sp_is_struct s = true -> sp_size s = Some n -> tuple_text s = Some text -> code text = Some its ->
  usable s -> rtyped s (RTuple rs) -> no_nuls s (RTuple rs) ->
  let bytes := sp_written (h_big_endian h) s (rvalue true (h_big_endian h) s (RTuple rs)) in len bytes < 2 ^ 63 ->
  exists l nm, fixed_statements_of its = Some (l, nm) /\
    run_serialize_fixed h n l (map (fun p => ser h (fst p) (snd p)) (combine rs (sp_components s))) (Sink [] budget) =
    sp_deliver budget bytes (SOk (len bytes)).
Proof. exact fixed_written. Qed.
Print Assumptions C127_fixed_size.
(** It does what the model's [ser_struct] does, for every writer and whatever
    serialising the components does; so the other theorems about writing are about
    the emitted text. *)
Theorem C127_is_the_model : forall (K : Type) (W : Write K) (h : host) (s : ty) (text : list byte) (its : list (list tree * list tree)) (ms : list (M K N)) (k : K),
  sp_is_struct s = true -> sp_size s = None -> tuple_text s = Some text -> code text = Some its ->
  exists n l, statements_of its = Some (n, l) /\ run_serialize h n l ms k = ser_struct h s ms k.
Proof. exact @variable_serialize. Qed.
Print Assumptions C127_is_the_model.
Theorem C127_is_the_model_fixed : forall (K : Type) (W : Write K) (h : host) (s : ty) (n : N) (text : list byte) (its : list (list tree * list tree)) (ms : list (M K N)) (k : K),
  macro_ok s = true -> sp_is_struct s = true -> sp_size s = Some n -> tuple_text s = Some text -> code text = Some its ->
  exists l, fixed_statements_of its = Some (l, [Leaf (Ident (bs "Structure" ++ struct_name s))]) /\
    run_serialize_fixed h n l ms k = ser_struct h s ms k.
Proof. exact @fixed_serialize. Qed.
Print Assumptions C127_is_the_model_fixed.
Example C127_case : let s := TTuple [TS; TX; TS] in let h := Host false true true 0 0 in
  let rs := [RStr (bs "ab"); RInt 7; RStr (bs "c")] in
  usable s /\ rtyped s (RTuple rs) /\ no_nuls s (RTuple rs) /\
  (get text <- tuple_text s; get its <- code text; get (n, l) <- statements_of its;
   Some (run_serialize h n l (map (fun p => ser h (fst p) (snd p)) (combine rs (sp_components s))) (Sink [] None))) =
  Some (Sink (bs "ab" ++ [x00; x00; x00; x00; x00; x00; x07; x00; x00; x00; x00; x00; x00; x00] ++ bs "c" ++ [x00; x03]) None, SOk 19).
Proof.
  intros s h rs. split; [split; reflexivity|]. split.
  { split; [exists [97; 98]; split; [repeat constructor|reflexivity]|]. split; [split; [discriminate|reflexivity]|].
    split; [exists [99]; split; [repeat constructor|reflexivity]|exact I]. }
  split; [|vm_compute; reflexivity].
  intros z Hz. cbn in Hz. destruct Hz as [<-|[<-|[]]]; intros H; vm_compute in H; repeat (destruct H as [H|H]; [discriminate|]); exact H.
Qed.
Example C127_case_full : let s := TTuple [TY; TN] in let h := Host true true true 0 0 in
  let rs := [RInt 5; RInt 258] in
  usable s /\ rtyped s (RTuple rs) /\ no_nuls s (RTuple rs) /\
  (get text <- tuple_text s; get its <- code text; get (l, nm) <- fixed_statements_of its;
   Some (run_serialize_fixed h 4 l (map (fun p => ser h (fst p) (snd p)) (combine rs (sp_components s))) (Sink [] (Some 3)))) =
  Some (Sink [x05; x00; x01] (Some 0), SErr EIo).
Proof.
  intros s h rs. split; [split; reflexivity|]. split; [cbn; repeat split; try discriminate; reflexivity|].
  split; [intros z []|vm_compute; reflexivity].
Qed.

(** * C131 *)
(** [eq] of a fixed-size structure as it stands in the emitted text, comparing the
    fields it names at the places the declaration gives them, says whether the values
    are equal. *)
Theorem C131_eq : forall (h : host) (s : ty) (n : N) (szs : list N) (text : list byte) (its : list (list tree * list tree)) (x y : slice),
  sp_is_struct s = true -> sp_size s = Some n -> map sp_size (sp_components s) = map Some szs ->
  tuple_text s = Some text -> code text = Some its -> usable s ->
  aligned (sp_align s) x -> len (s_data x) = n -> aligned (sp_align s) y -> len (s_data y) = n ->
  exists nm fields ns ps, fields_of its = Some (nm, fields) /\ equality_of its = Some ns /\ positions 0 szs fields = Some (ps, n) /\
    run_eq h (sp_components s) x y ps szs ns = gv_eq h s x y /\
    gv_eq h s x y = Ok (sp_veq (sp_decode (h_big_endian h) s (Some (s_data x))) (sp_decode (h_big_endian h) s (Some (s_data y)))).
Proof. exact fixed_eq. Qed.
Print Assumptions C131_eq.
(** [repr(C)] leaves no gaps between the fields declared: their sizes add up to that of
    the structure. *)
Theorem C131_no_gaps : forall (s : ty) (n : N) (text : list byte) (its : list (list tree * list tree)),
  sp_is_struct s = true -> sp_size s = Some n -> tuple_text s = Some text -> code text = Some its -> usable s ->
  exists nm fields lays fl os, fields_of its = Some (nm, fields) /\ map mem_layout (sp_components s) = map Some lays /\
    layouts_of lays fields = Some fl /\ repr_c fl = (os, n, sp_align s) /\ fold_right N.add 0 (map fst fl) = n.
Proof. exact fixed_no_gaps. Qed.
Print Assumptions C131_no_gaps.
(** [new] of the emitted text makes, of arguments of the sizes of the components, the
    bytes GVariant has for the structure, as C78 takes it to do. *)
Theorem C131_new : forall (junk : nat -> byte) (s : ty) (n : N) (szs : list N) (text : list byte) (its : list (list tree * list tree)) (vals : list (list byte)),
  sp_is_struct s = true -> sp_size s = Some n -> map sp_size (sp_components s) = map Some szs ->
  tuple_text s = Some text -> code text = Some its -> usable s -> map len vals = szs ->
  exists nm fields params inits d, fields_of its = Some (nm, fields) /\ parameters_of its = Some (nm, params) /\ inits_of its = Some (nm, inits) /\
    run_new (map fst params) vals inits fields = Some d /\ struct_new junk s vals = Ok d /\
    d = sp_struct_bytes (Some n) (map (fun c => (sp_align c, sp_size c)) (sp_components s)) vals.
Proof. exact fixed_new. Qed.
Print Assumptions C131_new.
(** A structure expression that leaves out a declared field, names no parameter or sets
    a padding to another length, which rustc rejects, does not run here either. *)
Theorem C131_new_sets : forall (params : list N) (vals : list (list byte)) (inits : list init) (fields : list field) (d : list byte),
  run_new params vals inits fields = Some d ->
  forall f, In f fields -> match f with
    | Data n _ => exists m v, In (SetData n m) inits /\ In (m, v) (combine params vals)
    | Padding n z => In (SetPadding n z) inits
    | Bytes _ => False
    end.
Proof. exact new_sets. Qed.
Print Assumptions C131_new_sets.
Example C131_new_sets_case : let fields := [Data 0 []; Padding 0 0; Data 1 []] in
  run_new [0; 1] [[x01]; [x02]] [SetData 0 0; SetPadding 0 0; SetData 1 1] fields = Some [x01; x02] /\
  run_new [0; 1] [[x01]; [x02]] [SetData 0 0; SetData 1 1] fields = None /\
  run_new [0; 1] [[x01]; [x02]] [SetData 0 0; SetPadding 0 1; SetData 1 1] fields = None /\
  run_new [0; 1] [[x01]; [x02]] [SetPadding 0 0; SetData 1 1] fields = None.
Proof. repeat split. Qed.
(** [default_ref] has the default value. *)
Theorem C131_default : forall (h : host) (s : ty) (n : N) (szs : list N) (text : list byte) (its : list (list tree * list tree)),
  sp_is_struct s = true -> sp_size s = Some n -> map sp_size (sp_components s) = map Some szs ->
  tuple_text s = Some text -> code text = Some its -> usable s ->
  exists nm fields params inits k r, fields_of its = Some (nm, fields) /\ parameters_of its = Some (nm, params) /\ inits_of its = Some (nm, inits) /\
    default_of its = Some (nm, nm, k) /\ run_default (map fst params) szs k inits fields = Some (nuls n) /\
    default_ref h s = Ok r /\ s_data r = nuls n /\ read h s r = Ok (sp_decode (h_big_endian h) s None).
Proof. exact fixed_default. Qed.
Print Assumptions C131_default.
Example C131_case : let s := TTuple [TN; TY; TN; TY] in let h := Host false true true 0 0 in let szs := [2; 1; 2; 1] in
  let x := Slice 16 [x01; x00; x02; x00; x03; x00; x04; x00] in
  let y := Slice 32 [x01; x00; x02; x07; x03; x00; x04; xff] in
  sp_is_struct s = true /\ sp_size s = Some 8 /\ map sp_size (sp_components s) = map Some szs /\ usable s /\
  aligned (sp_align s) x /\ len (s_data x) = 8 /\ aligned (sp_align s) y /\ len (s_data y) = 8 /\
  (get text <- tuple_text s; get its <- code text; get (nm, fields) <- fields_of its; get ns <- equality_of its; get (ps, _) <- positions 0 szs fields;
   get (_, params) <- parameters_of its; get (_, inits) <- inits_of its;
   Some (layouts_of [(2, 2); (1, 1); (2, 2); (1, 1)] fields, run_eq h (sp_components s) x y ps szs ns, run_new (map fst params) [[x01; x00]; [x02]; [x03; x00]; [x04]] inits fields)) =
  Some (Some [(2, 2); (1, 1); (1, 1); (2, 2); (1, 1); (1, 1)], Ok true, Some (s_data x)).
Proof.
  intros s h szs x y. do 3 (split; [reflexivity|]). split; [split; reflexivity|]. do 4 (split; [reflexivity|]). vm_compute. reflexivity.
Qed.
