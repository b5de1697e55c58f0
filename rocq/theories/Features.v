(** Which names the crate gvariant uses under which features, as far as they
    depend on features (gvariant/Cargo.toml:15-18; documented at lib.rs:60-84). *)
From Verif Require Import Base.

(** The features of Cargo.toml:15-18; "std" turns on "alloc". *)
Record features := Features { std_on : bool; alloc_on : bool }.
Definition selectable (f : features) : Prop := std_on f = true -> alloc_on f = true.

(** The [cfg] attribute an item is under (gvariant/src/lib.rs and the other
    files): none, [feature = "std"] or [feature = "alloc"]. *)
Inductive guard := Always | IfStd | IfAlloc.
Definition enabled (f : features) (g : guard) : bool :=
  match g with Always => true | IfStd => std_on f | IfAlloc => alloc_on f end.

(** Names that are not always there: paths through the crate [std], which a crate
    under [no_std] (lib.rs:281) cannot name; through [alloc] (lib.rs:283-284); the
    trait [Write] (imported at lib.rs:297-298); [String] (imported at
    lib.rs:285-286, otherwise in the prelude of std only); the module [buf]
    (lib.rs:308-309). *)
Inductive name := StdCrate | AllocCrate | WriteTrait | StringType | BufModule.
Definition available (f : features) (n : name) : bool :=
  match n with
  | StdCrate => std_on f
  | AllocCrate => alloc_on f
  | WriteTrait => std_on f
  | StringType => std_on f || alloc_on f
  | BufModule => alloc_on f
  end.

(** The uses of these names outside tests and documentation, by file and line of
    gvariant/src; buf.rs and the module of lib.rs:908-1090 are under "alloc" as a
    whole.  Simplified: of several uses of a name in one line only one is listed;
    other names of std's prelude ([Vec], [vec!], [Box], [ToOwned]) and of the
    dependencies are left out. *)
Inductive source := AlignedBytesRs | BufRs | CastingRs | LibRs.
Record use := Use { u_file : source; u_line : N; u_guard : guard; u_name : name }.
Definition uses : list use :=
  [Use AlignedBytesRs 81 IfAlloc AllocCrate; Use AlignedBytesRs 88 IfAlloc BufModule; Use AlignedBytesRs 90 Always StdCrate;
   Use AlignedBytesRs 565 IfStd StdCrate; Use BufRs 27 IfAlloc StdCrate; Use BufRs 29 IfAlloc StdCrate;
   Use CastingRs 24 IfStd StdCrate; Use LibRs 286 IfAlloc AllocCrate; Use LibRs 298 IfStd StdCrate;
   Use LibRs 380 IfStd StdCrate; Use LibRs 381 IfStd StdCrate; Use LibRs 384 IfStd BufModule;
   Use LibRs 428 IfStd WriteTrait; Use LibRs 429 IfStd StdCrate; Use LibRs 458 Always StdCrate;
   Use LibRs 458 Always WriteTrait; Use LibRs 471 Always BufModule; Use LibRs 476 Always StdCrate;
   Use LibRs 482 Always StdCrate; Use LibRs 614 Always WriteTrait; Use LibRs 617 Always StdCrate;
   Use LibRs 678 Always StdCrate; Use LibRs 680 Always StdCrate; Use LibRs 684 Always StdCrate;
   Use LibRs 791 Always StdCrate; Use LibRs 791 Always WriteTrait; Use LibRs 799 Always StdCrate;
   Use LibRs 799 Always WriteTrait; Use LibRs 805 Always StdCrate; Use LibRs 806 Always StdCrate;
   Use LibRs 816 Always StdCrate; Use LibRs 816 Always WriteTrait; Use LibRs 821 Always StdCrate;
   Use LibRs 821 Always WriteTrait; Use LibRs 825 Always StringType; Use LibRs 826 Always StdCrate;
   Use LibRs 826 Always WriteTrait; Use LibRs 862 IfAlloc StringType; Use LibRs 880 IfAlloc StringType;
   Use LibRs 896 IfAlloc StringType; Use LibRs 913 IfStd StdCrate; Use LibRs 943 IfAlloc StringType;
   Use LibRs 994 IfAlloc StringType; Use LibRs 1015 IfAlloc StringType; Use LibRs 1022 IfAlloc StdCrate;
   Use LibRs 1028 IfAlloc StdCrate; Use LibRs 1053 IfAlloc StringType; Use LibRs 1056 IfAlloc StringType;
   Use LibRs 1065 IfAlloc StringType; Use LibRs 1073 IfStd StdCrate; Use LibRs 1142 Always StdCrate;
   Use LibRs 1142 Always WriteTrait; Use LibRs 1277 Always StdCrate; Use LibRs 1277 Always WriteTrait;
   Use LibRs 1319 Always StdCrate; Use LibRs 1319 Always WriteTrait; Use LibRs 1628 Always StdCrate;
   Use LibRs 1628 Always WriteTrait; Use LibRs 1647 Always WriteTrait; Use LibRs 1648 Always StdCrate;
   Use LibRs 1772 Always StdCrate; Use LibRs 1777 Always StdCrate; Use LibRs 1815 Always StdCrate;
   Use LibRs 1815 Always WriteTrait; Use LibRs 1824 Always StdCrate; Use LibRs 1824 Always WriteTrait;
   Use LibRs 1949 Always StdCrate; Use LibRs 1949 Always WriteTrait; Use LibRs 2024 Always StdCrate;
   Use LibRs 2024 Always WriteTrait; Use LibRs 2030 Always StdCrate; Use LibRs 2030 Always WriteTrait].
