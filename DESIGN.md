# Formal model of gvariant-rs in Coq 8.16.1

Source: `/repo` (ostreedev/gvariant-rs: crates `gvariant` and `gvariant-macro`,
the fuzz target and the example program).  The code is read as text; nothing is
built or run.

## Method

* Model (`rocq/theories/`): `Base Types Layout AlignedBytes Strs Deser Ser Buf Cmp
  Fmt Fuzz OstreeLs Marker Mut Errors Reader CoreFmt Unwind Writer Features
  Traits Compare Iter Offsets Flags Gen Run DocRead OstreeMain FuzzGlib Custom Copies Programs
  Cost Decl Heap SerCost Alloc FmtCost ParseCost LayoutCost`.  Executable Gallina (but for the rules in `Traits` and `Compare`), one definition per
  Rust function, each with a comment citing file and lines, no proofs inside.
* Specification.  `Spec` (type strings, alignments, sizes, decoder, encoder, from
  the GVariant Specification, in the repository as docs/gvariant-serialisation.pdf,
  and the crate documentation), `PaperSpec` (a second decoder,
  after the Specification's text alone; `Tests` checks it on the Specification's
  examples), `TableSpec` and `ConvSpec` (sections 3.2 and 3.1), `LongSpec`, `WrapSpec`, `SumSpec`, `ParseSpec`, `PrintSpec`,
  `SizeSpec`, `LocalSpec`, `NeedSpec`, `CostSpec`, `AllocSpec`, `FmtCostSpec`, `LeastSpec`, `ParseCostSpec`, `LayoutCostSpec`, `LexSpec` (Rust's tokens), `TextSpec` (reading declarations and functions from tokens), `NameSpec` (lists of names) and (but for the type of hosts) `SwapSpec` share with the model only the syntax of types (`Types.ty`); byte-list and number helpers are
  defined a second time.  `SerSpec`, `CustomSpec`, `CopiesSpec` (the syntax of programs), `ProgSpec` (promises and doors), `ValSpec` (a machine over values), `LazySpec` (one over lazy values), `FmtSpec`, `FlagSpec`, `ReaderSpec`, `MarkerSpec`, `OstreeSpec`, `BuildSpec`, `BuildProgSpec`, `LooseSpec` (hosts, results), `DeclSpec` (declared types), `HeapSpec`, `SerCostSpec` and
  `FuzzSpec` and `GlibSpec` also take data types from the model (Rust values, sinks, format
  parameters, GLib's answers) and, in the last two, the list of types the fuzz target tries.
  `Histories`, `OwnSpec`, `CmpSpec`, `MutSpec`, `IterSpec`, `TraitSpec` and `CompareSpec` (the Rust types of `Traits`), `UnwindSpec` and `WriterSpec` do name operations of the model, since they
  say which sequences of operations are meant, or that two reads agree.
* The hypothesis `usable t` (in `Histories`: the macro returns code for t rather
  than panic, and the type string is below 4 GiB) is phrased with the model's
  `macro_ok`, which the C05 theorems characterise from the specification side.
  It is wider than "compiles" (C43): also fixed-size structures with a boolean or
  a structure inside are usable, although their default does not type-check.
* Proofs: `*Facts`, `*Claims`, `SerStruct`, `SerMain`, `WrapMore`, `GenMain`, `BuildMore`, `BuildProg`, `LooseProg`, `CustomMore`, `CopiesMore`, `ValMain`, `LazyMain`, `DeclMore`, `SerCalls`, `LeastEq`, `ProgEq`.
* Properties: `Prop_*.v` contain only the property theorems, each closed by
  `exact lemma`, with `Print Assumptions` below and an `Example` beside it showing
  a concrete case that meets the hypotheses.
* `Tests`: the expectations of the repository's own unit tests and documentation
  examples, evaluated in the model.  They are not proofs of properties; they
  tie the model to the behaviour the authors wrote down.
* `seeded/`: seeded-bug testing.  `bugs*.py` are the edits, `LOG.jsonl` the
  outcomes, `tools/seed.py` the driver: it edits a scratch copy, recompiles
  everything, and reads from `Print Assumptions` which property theorems rest on
  a proof that no longer goes through.  That is weaker than showing the theorem
  false for the edited model: a script can also break on a harmless edit.  The
  edits are therefore chosen to falsify a named claim, and the log names the
  first lemmas that broke.  Batch 1 was run before the files from `Cmp` on
  existed, so their theorems do not occur in its entries.  Batches 4, 9, 11, 14,
  15, 17 to 19 and 21 to 24 are edits picked at random by `tools/mutants.py`, and so are those of batches 13 and 20, which are
  edits to the specifications; entries with `stopped_at_first`
  name only the first property theorem found to break.  The theorems named under
  `tightened` were added, or made stronger, after the edit had got through; in
  batches 22 to 24 the edit was then tried again on the files their proofs need, and
  broke one.  What still gets through in batches 22 to 24 keeps within a stated bound, only
  weakens a specification, is in a branch never reached, or changes nothing.
* `tools/cmp_gen.py` compares the string literals of generate_impl.rs with those of
  `Gen`: every piece of text between two holes is there.
* `tools/cmp_uses.py` derives the list of feature-dependent names in `Features`, with
  their lines, from the sources again.

The model is parametric in a `host`: byte order, `overflow_checks` on or off
(debug or release arithmetic), `debug_assertions` on or off, the addresses of
statics.  Every property theorem quantifies over all hosts unless it says
otherwise.  Every function that can panic or invoke undefined behaviour returns
`res A = Ok a | Crash reason`; the reason is an index panic, an overflow panic,
`unwrap` of an error, a failed assertion, `todo!()`, `unreachable!()`, a
misaligned reference (undefined behaviour), non-termination, or "does not
compile".  A reference (and a byte slice) is an address and the bytes it covers,
so alignment and containment are statements about addresses.

## Trusted base

* Coq 8.16.1's kernel (and its VM, used by `vm_compute` in some `Example`s and
  witnesses).
* `Print Assumptions` lists `Closed under the global context` for every theorem
  in the `Prop_*.v` files: no axiom is used, neither own nor of the standard
  library.  Only Coq's standard library is imported.  The checker's list of axioms
  in loaded libraries is `Coq.ssr.ssrunder.Under_rel.*`; no theorem depends on
  them.
* That the model says what the Rust code does: the comment on each definition
  names the lines.  What Rust, `std` and `memchr` do is modelled from their
  documentation: wrapping or panicking `usize` arithmetic, slicing panics,
  `repr(C)` layout, `from_utf8`, `memchr`/`memrchr`, `Vec` with an allocator that
  may place anything anywhere, `io::Write`.
* That `Spec.v` and its companions say what the English properties say.  `LexSpec`
  is a part of Rust's lexical grammar (no raw strings, no escapes but `\0`, no
  nested comments, no floats): enough for the emitted text, and everything it
  accepts is split as Rust splits it (that a number has a proper suffix is left to the
  readers in `TextSpec`).

## What is modelled

* `gvariant-macro/src/type_parser.rs`: parser, its errors with their texts, and
  printer.
* `gvariant-macro/src/generate_impl.rs`: sizes, alignments, the table of
  structure offsets, packed-structure generation with the `repr(C)` layout, names,
  which structures are generated, the generated readers, writers, `PartialEq`,
  `Debug`, `to_tuple`, defaults, and the reasons why generated code is rejected
  by rustc that come from the shape of the type (duplicate definitions, missing
  tuple impls, ill-typed defaults, overflow in the macro).  `Gen` has the text the
  macro emits, character by character: the templates with their holes.  C121 to
  C125 read it back, so that what the rest of the model takes the generated code to
  be does not rest on reading the templates alone; C126, C127 and C131 run the
  functions read back (`Run`).
* `gvariant-macro/src/lib.rs`: `marker_type`, the type strings.
* `gvariant/src/offset.rs`: construction, rounding, `|`, `+`, narrowing, comparison
  and printing.
* `gvariant/src/aligned_bytes.rs`: slicing operators, `split_at`, `as_aligned`,
  `try_as_aligned`, `copy_to_align`, `empty_aligned`.  The `_mut` variants are the
  same text and are represented by the same definitions.
* `gvariant/src/buf.rs`: `AlignedBuf` with histories of operations.
* `gvariant/src/casting.rs`: the casts between byte slices and references, and
  `TryInto` for slices of numbers.
* Writing through `&mut AlignedSlice` and, after `try_cast_mut`, to the public
  fields of generated fixed-size structures; their constructor `new`, and programs
  that copy, construct, default, assign and swap values of fixed size (`Copies`).
* Whole programs as lists of calls (`Programs`): each call takes objects made
  before and makes new ones, panics are caught.  Objects are values and share
  nothing; the borrow checker, which only forbids programs, is left out.
  What a program gets to see: the bytes of slices, vectors and strings, answers
  of `read`, `==`, `partial_cmp`, `hash`, `len`, `size_hint` and `Debug`, single
  bytes, the order of strings; never addresses.
* `gvariant/src/lib.rs`: `Marker` (cast, `from_bytes`, `deserialize`,
  `serialize`, `serialize_to_vec`), `Cast`, `Owned`, `Str`, `GString` with
  histories, `Variant`, `VariantWrap`, `NonFixedWidthArray` with its iterator,
  `[T]`, `MaybeFixedSize`, `MaybeNonFixedSize`, `Bool`, the numbers,
  `SerializeTo` for all of these, equality, ordering, hashing and `Debug`.
  Implementations of `SerializeTo` by the program are arbitrary functions of the
  writer, put anywhere in a value (`Custom`).
* Panics half-way: `GString`'s methods whose calls on `Vec` panic, and
  `AlignedBuf::with_vec` whose callback or whose realignment does (`Unwind`).
* Features (`Features`): where names that depend on features are used; a list of
  uses transcribed from the sources, not derived.  `tools/cmp_uses.py` finds the same
  72 uses, with their lines and `cfg` attributes, in the sources.  No theorem is about
  the line numbers, so seeded bugs that change one (16 so far) pass every proof; the
  script notices each.
* Which Rust types implement `SerializeTo` which marker types (`Traits`): one rule
  per impl, over the Rust types the impls name.  That rustc finds an impl exactly
  if a rule applies is assumed.  Lifetimes are left out.  Also there: which marker
  types implement `Eq`, `Hash`, `PartialOrd` and `Ord`, and what deriving these for
  `AlignedOffset` and `AlignedSlice` gives.  `Compare` has the rules of `PartialEq`
  (without those of core between vectors and arrays).
* `fuzz/fuzz_targets/fuzz_target_1.rs`: `test_cmp` and the target, in `Fuzz` without
  the comparisons with GLib, in `FuzzGlib` with them, for a GLib that may answer
  anything; `examples/ostree-ls/src/main.rs` as a whole, line by
  line as it prints (`OstreeMain`), with a file that gives anything or fails; writing
  to the standard output is taken to succeed.

## What is not modelled

* rustc: type checking in general, trait resolution (but for what `Traits` and `Compare` say), the borrow checker,
  the lifetime side of soundness.  (`Decl` has the fields of the declared types, their layout, and `Send` and `Sync`.)  `NoCompile` covers the named
  reasons only.
* 32-bit targets: the crate does not compile for them (a literal pattern in
  lib.rs:1378 does not fit), so `usize` is 64 bits.
* Code for builds without the `alloc` feature (there are none, C103),
  documentation, the constant messages of `Misaligned` and `WrongSize`, what GLib does (in `FuzzGlib` it may do anything), what width and precision do to numbers (C117 takes it as given), how core prints doubles and
  which characters it calls printable (parameters; numbers, escapes and the lossy
  conversion to UTF-8 are modelled in `CoreFmt`, from core's documentation and
  source).
* Objects of 2^63 bytes and more, which Rust does not allow; type strings of
  2^32 bytes and more.  Allocations within 8 bytes of the top of the address
  space.
* Of what can be done with a mutable reference to a value, only assigning to it
  and its fields, and `mem::swap`, are modelled.
* Allocation failure outside `GString` and `with_vec` (where C92, C101 and C102
  take it to be a panic; by default it ends the program).
* Memory consumption, but for the offsets that serialising keeps (`Heap`, C159) and what
  reading into an owned value requests (`Alloc`, C161), and
  time, but for reading, comparing, serialising, printing, parsing type strings and finding sizes: `Cost`, `SerCost`, `FmtCost`, `ParseCost` and `LayoutCost` count steps
  (sums, comparisons, slicing, casts, loads, bytes searched, calls of the writer, bytes of text) of these
  functions for C148 to C152, C160 and C162 to C165; what a step takes on a machine is not modelled.

## Properties

"FALSE" marks properties that fail for the code; the refutation is a theorem
`..._refuted` with a witness, and the property named after it is the corrected
claim, proved.

| id | status | how |
|----|--------|-----|
| C01 | proved | parser and printer are mutually inverse; grammar as an inductive predicate; termination by fuel shown sufficient |
| C02, C03 | proved | induction over types against `sp_align`, `sp_size` |
| C04 | proved | layout computed by the `repr(C)` algorithm equals the walk over the members |
| C05 | FALSE | `(yii)` underflows in the macro, which leaves out a step of the Specification (C112); exact condition proved (C43) |
| C06 | partly FALSE | names distinct proved; `((s)(s))` defines a structure twice, exact condition proved |
| C07 | proved | table invariant over all member lists and end offsets |
| C08 | proved | every reference reachable by any sequence of accessors is in bounds and aligned; invariant over reachability |
| C09 | FALSE | `aai`, `mai` panic; C48 says exactly when and for which types |
| C10 | proved | reading = `sp_decode`, induction over types, all bytes |
| C11 | proved | cast to fixed-size types |
| C12 | proved | width is least; writer and reader agree |
| C13 | proved | iterator states of all prefixes |
| C14 | FALSE | index 2^63+1 without overflow checks; C51 |
| C15, C16, C17 | proved | against `sp_decode`, split at last NUL, Unicode scalar values |
| C18 | proved | containment of addresses for everything reachable |
| C19 | partly FALSE | proved below 4 GiB; beyond, release builds wrap around; C76 |
| C20 | proved | `==` = equality of decoded values, for all pairs of views |
| C21 | proved | serialiser writes exactly `sp_written`, delivered to a sink with any budget |
| C22, C23, C24, C25 | FALSE | arrays of variable-size elements are padded after the last element (`a(si)`); exact conditions C52, C53, C55, C56; types without the problem C54; uniqueness of normal forms proved |
| C26 | proved | the string, and everything before it, for any position in a value |
| C27 | partly FALSE | type string proved; value as C23; C57 |
| C28 | FALSE | `try_as_aligned` compares `align_of` of the unit structs A1..A8, always 1, so it accepts every address; C46 |
| C29 | FALSE | for empty data; C45 |
| C30 | partly FALSE | multiples proved; `align_offset` near the top overflows; C44 |
| C31 | proved | simulation by a byte vector over all histories and allocator placements |
| C32, C33 | FALSE | empty `AlignedBuf` dereferences to address 1; C58 (empty, exactly), C59 (non-empty) |
| C34 | proved | invariant over chains of slicing operations |
| C35, C36 | proved | refinement to a NUL-free string over all histories; order |
| C37 | partly FALSE | `with_capacity` drops the string it reserved and returns a fresh one; `reserve` proved, C47 |
| C38 | FALSE | `todo!()` for `[T]`; C50 |
| C39 | FALSE | panics or wraps on corrupt 8-byte offsets; C49, C73 to C76 |
| C40 | FALSE | `(b)`; exact condition proved |
| C41, C42, C43 | proved | generated structures, names, exact set of supported types |
| C44 to C47 | proved | corrected C30, C29, C28, C37 |
| C48 | proved | reading = value or panic, exactly, for all bytes |
| C49 | proved | up to 2^63 bytes |
| C50, C51 | proved | corrected C38, C14 |
| C52 to C57 | proved | serialise/read, exactly, up to 2^63 bytes and in every build.  The "only if" half uses `loosely`, what reading gives at the least, also where it wraps |
| C58, C59 | proved | owned values for every allocator placement |
| C60 | proved | relation between the reads of two copies of the same bytes |
| C61, C62, C63 | proved | comparison with native values, order and hash of maybes |
| C64, C65 | proved | `{:?}`, with core's number and string formats as parameters |
| C66 | FALSE | NUL in a string; C67 |
| C67 | proved | `serialize_to_vec`: panics exactly on a NUL in a Rust string |
| C68 | FALSE | inputs whose length is not a positive multiple of 4; C72 |
| C69 | proved | output of the example program for every file |
| C70, C71 | proved | Rust type expressions: injective up to s/o/g, closed |
| C72 | proved | fuzz target, given that GLib calls only normal forms normal |
| C73 to C76 | proved | 4 GiB and more: right with framing offsets below 2^63, in every build; right or overflow panic with overflow checks |
| C77 | proved | induction over types: a witness for every type with an array of multi-byte fixed-size elements directly inside an array or maybe |
| C78 | proved | `Structure::new`: no byte of the structure is left undefined, and they are the normal form if booleans are 0 or 1 |
| C79 | proved | induction over the path of field names; fields do not overlap |
| C80 | proved | as C31, with writes through mutable slices and fields |
| C81 | proved | `TryInto` for the eight number types |
| C82 | FALSE | `as` bytes with ends 2, 0, 2: elements 0 and 2 are the same two bytes; likewise `(sss)`; C83 |
| C83 | proved | positions of all children as an increasing chain, arrays and structures; normal forms put no child out of range |
| C84 | FALSE | offsets alternating between n and 0, nested; C85 |
| C85 | proved | induction over types on the size of the value, with and without sums that wrap around (C119); the exponent is the one C84's witness reaches; linear if no child is out of range (`sp_orderly`), since elements and their framing offsets then do not overlap |
| C86 | FALSE | `a{vs}` is accepted, `h` is not; C87 |
| C87 | proved | two inductive grammars, compared by way of the types |
| C88 | proved | induction on the parser for what may follow a string that stops early and where a wrong one goes wrong; type strings are prefix-free |
| C89 | proved | reader as a list of the results of its calls; C59 for the data |
| C90 | FALSE | variants with type strings `ff` and `fe`; NaNs; C91 |
| C91 | proved | the text of a value is a prefix code before `,`, `)` and `]`, by induction over types; UTF-8, escapes and digits likewise; `mended` says what `from_utf8_lossy` does independently of the decoder's tables |
| C92 | proved | step semantics of the `Vec` calls in which each may panic; invariant over histories |
| C93 | proved | the guard's `align` runs on both ways out; simulation by a byte vector as C31 |
| C94 | proved | the range of a child computed from two containers, from the offsets it reads |
| C95 | proved | decoder after the Specification's text (`PaperSpec`) compared with `Spec`'s, which C48 is about, ranges of children first, then induction over types |
| C96 | FALSE | variants holding 0.0 and -0.0; a NaN; C97 |
| C97 | proved | equal type strings and data; injectivity of the encoder and of type strings; position independence |
| C98 | proved | the serialisers are generic in the writer, as in Rust; each is compared with itself run on a writer that records the pieces, by induction; then induction over the writer's answers |
| C99 | proved | the decoder and the encoder for the two byte orders compared by induction over types; a value of ones tells them apart, its encoding bounded by the length of the type string; overflow panics: the steps of reading do not look at the byte order until a number is reached |
| C100 | proved | induction over types on the decoders of C48 and C119 |
| C101 | FALSE | a refused reservation while aligning makes a buffer forget its first bytes |
| C102 | proved | invariant over call histories; the state of a buffer includes "unusable" |
| C103 | FALSE | `use std::marker::PhantomData` under `no_std` |
| C104 | proved | case analysis over the transcribed list of uses |
| C105 | FALSE | no derivation in the rules that transcribe the impls; `&[u8]` as "s" as documented is one witness |
| C106 | proved | rule induction over the impls; views by induction on types |
| C107 | FALSE | 4 GiB of zeros, then the offsets 2^64-1 and 2^32; the witness is symbolic |
| C108 | proved | states of the iterator are numbered; `next` either moves on or, at an overflow, stays |
| C109 | FALSE | two transcribed lists of derives do not match |
| C110 | proved | offsets are numbers in the model |
| C111 | proved | induction over types; reflexivity from C20 |
| C112 | proved | the Python function of the Specification, with exponents, transcribed in `TableSpec`; induction over the members, then arithmetic on bits |
| C113 | proved | numbers turned round in place commute with cutting structures and arrays; lengths of normal forms do not depend on the byte order; for the witness all four bytes are considered |
| C114 | FALSE | the README compares a `GString` with a `&str`; `MaybeNonFixedSize` lacks comparison with `Option`, order and hash; what can be compared is in C115 |
| C115 | proved | one rule per `impl` of `PartialEq` in `Compare`; inversion of the rules; the last theorem by induction over the type, with C61 |
| C116 | proved | divisibility of powers of two; this one came from a seeded bug in `cast_slice` that no other theorem noticed |
| C117 | proved | as C64; core's `PadAdapter` rewrites text after the fact, the specification indents by depth: moving a text one step in commutes with both |
| C118 | proved | the text of each value, followed by a comma or closing bracket, ends where it ends: lines of a block are told from its end by one more step of indentation |
| C119 | proved | `WrapSpec` restates the decoder with starts modulo 2^64; as C48, with the sums of each step reduced |
| C120 | proved | as C91 and C118, which follow from it: what follows a value's text tells where it ends, so texts are compared piece by piece; the converse by induction over types |
| C121 | proved | the lexer run on the templates with the holes left open; lemmas for names, numbers and type expressions; concatenation of token trees |
| C122 | proved | the declarations read back from the token trees, field by field; then arithmetic on paddings as in C04 |
| C123 | proved | calls, statements and member lists read back from the token trees; what the statements write by induction over the components, as in C21 |
| C124 | proved | as C122 and C123; type parameters and types of tuples by induction over the components |
| C125 | proved | the lexer run on the templates again, looking at identifiers only; structures of components are among those of the type |
| C126 | proved | the calls read back are those `nonfixed_refs` makes; then C48 and, for fixed-size structures, C122 |
| C127 | proved | the statements read back are those `run_cmds` runs; then C21 |
| C128 | FALSE | the example reads into an empty slice; C129 has those with `read_to_end` |
| C129, C130 | proved | C31 and the facts of C89; unfolding `align` |
| C131 | proved | as C126; C20; the lemma behind C78 for `new` |
| C132 | proved | the relation is kept by sequencing; one lemma per function; induction on types, values and commands |
| C133 | proved | C69; C119, with sums that cannot wrap as nothing in a dirtree is aligned; C132 for what is printed before a panic; C139 for when it panics |
| C134 | proved | equality of a reference with GLib's value, type by type, by induction; C72 for the rest of the target |
| C135 | proved | from C134; decoded values are typed, so what is written is in normal form, and normal forms are read back (as for C54) |
| C136 | FALSE | `slice::from_raw_parts` of NULL; run on a GLib like that of C135, but for NULL |
| C137 | FALSE | `(ai)` with no numbers: written as nothing (C98), read at a misaligned address (C58) |
| C138 | proved | C98, C89, C53 put together; C58 for values written as nothing |
| C139 | proved | as C48 and C75, following every checked addition; the rows of the table of section 3.2 give those of a structure |
| C140 | proved | as C21, the bytes of the parts being given; C48 for reading; every addition and padding followed with any count below 2^64, wrapping or not |
| C141 | proved | the fields, paddings included, cover every byte of the structure (C04); simulation of programs by records, C79 for one assignment |
| C142 | proved | an invariant per kind of object (`promised`), kept by every call that is not a `door`; induction over the calls; C08, C20, C21, C31, C35, C45, C65, C79 and C108 for the single calls |
| C143 | proved | a simulation (`shows`) between the objects of a program and the things of the value machine, kept by every call: the theorems about single calls (C10, C13, C18, C20, C48, C79 and others); induction over the calls |
| C144 | proved | the simulation of C143 with lazy values (`lshows`): `lz` says what a reference shows, `eq_lazy`, `access_lazy` and `native_seq` which of its parts a call touches; touching all of a lazy value is reading (`lforce_decode`) |
| C145 | proved | per call, the lemmas of C132 for `step` and `reply` (`step_builds`, `reply_builds`), also for the iterator a panicking `next` leaves behind; then induction over the program |
| C146 | proved | everything below a reference gives the same on any two slices with the same bytes, or one of the two is misaligned (`lo_*` in `LooseFacts`, no hypothesis on alignment); so each call gives the same on the objects as they are and on the same objects moved to address 0 (`calls_sim`), where no door is open and C142 and C144 apply; `copy_to_align` (copies or not) and `deserialize` of nothing by hand. That a rewritten view fits into memory is asked of the machine, not of the run |
| C147 | proved | without debug assertions only the casts to references check anything (`try_release`, `unchecked_release`), so by induction on the type a read goes through just if every cast does (`all_known`); which value, and that it is else undefined behaviour, from `lo_read` of C146 against the same bytes at address 0. That the type's own bound is the least: the normal form of the value with one element in every array and maybe needs just that much (`needs_full`). For builds with debug assertions only one direction: what they read is aligned as a release build needs it; they also assert things it does not need (Example) |
| C148 | proved | the functions of `Deser` with step counts (`Cost`); without the counts they are those functions (`er_*`), and each count is bounded by going through the code (`w_*`) |
| C149 | proved | as C148; `memrchr` counts from the end |
| C150 | partial | FALSE: the nested arrays of C84, whose reading takes a step at least for every node and byte read |
| C151 | proved | induction on the type, with 56 steps kept back for each value to pay for its own frame; linear if all children are in range, since then the elements of an array and its framing offsets together are no longer than the array (`children_sum`) |
| C152 | proved | as C150 and C151, for pairs of values, an array's elements being counted along both iterators (`w_eq_go_sum`); `gv_eq_t` without the counts is `gv_eq` (`er_eq`) |
| C153 | proved | the pieces of C98, counted with a writer that keeps them apart; two for each element or member (padding, framing offset), three for a variant, one at the end of a fixed-size structure |
| C154 | proved | text length, not tokens; a number in the text has at most twenty digits, which is where 4 GiB comes in; the square is from nested structures, each of whose names spells out its type |
| C155 | proved | how core prints characters and doubles is a parameter: a double takes at most D bytes, and for `{:#?}` has no line break; the text is bounded by what is read, which C85 bounds by the bytes; arrays hand on no `#` and so are not indented, maybes and structures are |
| C156 | proved | induction over types, with 15 bytes kept back for each value to pay for its padding and framing offset; with C85 for views, which also turns the assumption of C21 and C55 about the length of the output into one about the input |
| C157 | proved | the declared types as trees of fields (`Decl`) with Rust's rules for `repr(C)` and `repr(transparent)`; agrees with `mem_layout` (C04) by induction on the type, then C08 for what is reachable; that the emitted structures have these fields, from C122 |
| C158 | proved | rules for auto traits over the same trees; by induction on the type |
| C159 | proved | the serialiser with the offsets kept beside the writer; it forgets to `ser`, and each piece adds what it keeps, by induction on the value |
| C160 | proved | the serialiser with a count of steps beside the writer; it forgets to `ser`, steps added up by induction on the value; at least one for each call of any writer that counts its calls |
| C161 | proved | `from_bytes` and `deserialize` with the sizes of requests; exact lists by unfolding, bounds from them |
| C162 | proved | `fmt_debug` with a count of steps; the count is that of `read_t` and the text, by induction on the type; bounds from C151 and C155 |
| C163 | proved | the counts of `Cost` bounded from below, part by part, by induction on the type; for equality along two equal values (C20) |
| C164 | proved | the parser with counts of steps and active calls; both read off the bytes taken, by induction on the budget |
| C165 | proved | `align_of` and `size_of` with a count of calls, by induction on the type |
