import json
P=[]
def p(id,title,statement,quantifier,why,anchors):
    P.append(dict(id=id,title=title,statement=statement,quantifier=quantifier,why_tests_cant=why,anchors=anchors))
L="gvariant/src/lib.rs"; G="gvariant-macro/src/generate_impl.rs"; T="gvariant-macro/src/type_parser.rs"; A="gvariant/src/aligned_bytes.rs"; O="gvariant/src/offset.rs"; B="gvariant/src/buf.rs"; C="gvariant/src/casting.rs"; M="gvariant-macro/src/lib.rs"
p("C01","Type-string parser is exact","gv! accepts a type string exactly when it is one complete GVariant type in the grammar (basic letters bynqiuxtdsogv, a/m prefixes, (...) tuples, {kv} entries); the parsed type prints back to the very same string, and every type parses back from its printed form.","every byte string and every (arbitrarily nested) type","the set of type strings is infinite and nesting is unbounded",[T+": one, parse_one_type_spec, Display for GVariantType"])
p("C02","Alignments are consistent","Every type has alignment 1, 2, 4 or 8, a container's alignment is at least (a multiple of) that of every component, and the alignment the Rust types declare (AlignOf) is the one the macro computes, so narrowing a parent's buffer to a child's alignment is always legal.","every type","types nest without bound",[G+": align_of",C+": AlignOf",L+": AlignOf impls"])
p("C03","Fixed sizes are right","A type has a fixed size exactly when it contains no s, o, g, v, array or maybe; that size is the GVariant one (non-zero, a multiple of the alignment, unit is 1 byte).","every type","types nest without bound",[G+": size_of, align_of"])
p("C04","Memory layout of generated fixed-size structures","For every fixed-size structure that gv! accepts, the generated #[repr(C)] struct has mem::size_of equal to the GVariant fixed size, every field at the GVariant offset, alignment no larger than the declared one, and no compiler-inserted padding.","every fixed-size structure type accepted by the macro","unbounded family of types; a wrong offset silently misreads data",[G+": write_packed_struct, generate_table",C+": AllBitPatternsValid"])
p("C05","gv! accepts every fixed-size structure","gv! can generate code for every fixed-size structure type (README/lib.rs: 'Support for all GVariant types is implemented').","every fixed-size structure type","unbounded family of types",[G+": write_packed_struct"])
p("C06","Generated names do not clash","Within one gv! invocation distinct structure types get distinct Rust names and no structure is defined twice.","every type string","unbounded family of type strings",[G+": generate_types, escape",M+": marker_type"])
p("C07","Structure offset table equals sequential layout","The compile-time (i,a,b,c) table, applied to any end offset of the preceding variable-size child, gives the start the GVariant rules give by walking the children one by one and aligning each.","every list of child types and every run-time framing offset","the offset is a run-time value and the child list is unbounded",[G+": generate_table",L+": calc_offsets"])
p("C08","Reading arbitrary bytes is memory safe","Casting any correctly aligned byte buffer to any type and then reading everything reachable through the public accessors never reads outside the buffer and never forms a misaligned reference (no undefined behaviour), in debug or release.","every type, every byte buffer at every suitably aligned address, every build mode","all inputs of all lengths; UB need not show up in a test",[L+": Cast, get_child_elem, NonFixedWidthArray, MaybeNonFixedSize, Variant",C+": cast_slice, try_cast_slice_to",A+": Index impls"])
p("C09","Reading arbitrary bytes never panics","Casting any correctly aligned byte buffer to any type and reading everything reachable never panics ('This always succeeds', 'safe to run on untrusted input').","every type and every byte buffer","all inputs; the panicking ones are non-normal and not in the corpus",[L+": NonFixedWidthArrayIterator::next, Index for NonFixedWidthArray, MaybeNonFixedSize::to_option, Cast for [T]"])
p("C10","Decoding follows the GVariant rules on all data","For any bytes, in normal form or not, the value seen through the accessors is the one the GVariant rules (with the documented GLib deviations) give: framing offsets, alignment, defaults for wrong sizes and for children out of range.","every type and every byte buffer below 4 GiB","all inputs of all types",[L+": get_child_elem, calc_offsets, read_last_frame_offset, Index/Iterator of NonFixedWidthArray"])
p("C11","Fixed-size cast takes exact size only","Casting to a fixed-size type yields the stored number (host byte order) if the length is exactly the type's size and the all-zero default otherwise.","every fixed-size type and every buffer length and content","all lengths and all contents",[C+": try_cast_slice_to",L+": Cast::from_aligned_slice, impl_cast_for"])
p("C12","Framing-offset width","The offset width used for a container of n bytes is 0 for n=0 and otherwise the smallest of 1,2,4,8 able to represent n; reader and writer agree on it for every container.","every container size and every number of offsets","boundaries at 2^8, 2^16, 2^32; up to 2^64",[L+": offset_size, read_uint, write_offsets, read_last_frame_offset"])
p("C13","Array length, iteration and indexing agree","For any bytes viewed as an array of variable-size elements, iter() yields exactly len() items, its i-th item is a[i], size_hint is exact after every step, and first()/last() are a[0]/a[len-1] or None when empty.","every byte buffer, every element type, every index and every prefix of the iteration","all inputs incl. corrupt offsets",[L+": NonFixedWidthArray, NonFixedWidthArrayIterator"])
p("C14","Out-of-range indexing panics","a[i] panics for every i >= a.len().","every array buffer, every i up to usize::MAX, every build mode","index space is 2^64",[L+": Index for NonFixedWidthArray, read_uint"])
p("C15","Maybe semantics","A maybe of fixed-size type is Some exactly when the length equals the element size; a maybe of variable-size type is None exactly when empty and otherwise holds the bytes minus the last one.","every byte buffer and element type","all inputs",[L+": MaybeFixedSize::to_option, MaybeNonFixedSize::to_option"])
p("C16","Variant split and get","split() cuts at the last zero byte, giving unit when there is none; get(m) is Some exactly when the stored type string equals m's type string, and then is the value cast from the stored bytes.","every byte buffer and every marker type","all inputs",[L+": Variant::split, Variant::get"])
p("C17","to_str always yields a proper string","Str::to_str returns valid UTF-8 without NULs for any bytes; it is the bytes before the final NUL when those are valid UTF-8 without NULs and empty otherwise, and in normal form equals as_bytes_non_conformant.","every byte buffer","all byte strings",[L+": Str::to_str, as_bytes_non_conformant"])
p("C18","Accessors are zero-copy","Every reference handed out points into the buffer that was cast (its bytes are a contiguous part of it) or to a static default value.","every type and buffer","all inputs",[L+": get_child_elem, NonFixedWidthArray, Maybe*, Variant"])
p("C19","Children overlapping framing offsets read as default","A child whose range would reach into the framing offsets or outside the container, or whose end precedes its start, reads as the default value of its type.","every container type and every byte buffer","all inputs; differs from the published spec",[L+": Index/Iterator of NonFixedWidthArray, calc_offsets"])
p("C20","Equality compares values","== on two views of the same type is true exactly when the decoded values are equal (numbers, truth values, strings, maybe/array/tuple shape; variants by type string and bytes; f64 by IEEE ==); padding and other non-canonical bytes do not matter. It is an equivalence relation for types without d.","every type and every pair of buffers","all pairs of inputs",[L+": PartialEq impls",G+": PartialEq generation"])
p("C21","Byte count and failing writers","serialize returns exactly the number of bytes written; with a sink that fails after any number of bytes the error is propagated and what was written is a prefix of the full output; serialisation never panics.","every serialisable value and every failure point of the sink","every crash point",[L+": SerializeTo impls, write_offsets, write_padding",G+": serialize_cmds"])
p("C22","Serialisation produces normal form","serialize writes the GVariant normal form of the value (padding, offsets, minimal offset width).","every type and value","all values; fuzzing covers few types",[L+": SerializeTo impls, write_offsets",G+": serialize_cmds"])
p("C23","Serialise then deserialise is the identity","Reading back what serialize wrote gives the same value.","every type and value","all values, all sizes around the offset-width boundaries",[L+": SerializeTo, Cast"])
p("C24","Re-serialising a view of arbitrary data","Casting any bytes, serialising the view and casting the result gives an equal value.","every type and every byte buffer","all inputs incl. non-normal",[L+": SerializeTo for views",  "fuzz/fuzz_targets/fuzz_target_1.rs: test_cmp"])
p("C25","Normal form is unique and preserved","Two different values never have the same normal form, and data in normal form re-serialises to the identical bytes.","every type and every normal-form buffer","all inputs",[L+": SerializeTo, Cast"])
p("C26","Strings with embedded NULs","Serialising a &str containing NUL fails with InvalidInput (nothing of that string is written); &Str is normalised to its to_str() value; any other &str round-trips.","every string","all strings",[L+": SerializeTo<Str>"])
p("C27","Variant wrapping round-trips","A value wrapped with VariantWrap (any nesting) reads back with the same type string and get() of that type gives the value back; get() with any other marker gives None.","every type and value, any nesting depth","all types and values",[L+": VariantWrap, Variant::get"])
p("C28","try_as_aligned is a sound check","try_as_aligned::<A> returns Ok only for slices whose address is a multiple of A, and Misaligned otherwise.","every slice address and every alignment","addresses are environment dependent",[A+": TryAsAligned for AlignedSlice"])
p("C29","copy_to_align","copy_to_align returns the same bytes at an address aligned as requested, without copying exactly when the input was already aligned.","every slice, every address, every allocator placement","depends on allocator addresses",[A+": copy_to_align",B+": AlignedBuf"])
p("C30","AlignedOffset arithmetic","Every AlignedOffset<A> obtainable through the API is a multiple of A; align_offset(x) is the least multiple of A not below x whenever that fits in usize; try_new accepts exactly multiples.","every usize and every expression built from the API","2^64 inputs, unbounded expressions",[O+": AlignedOffset, align_offset, try_new, Add, BitOr, From"])
p("C31","AlignedBuf behaves as a byte vector","Under any sequence of operations (new, from Vec, with_vec with any callback that may panic, in-place writes) and any allocator placement, an AlignedBuf dereferences to exactly the bytes a plain Vec<u8> would hold, at an 8-byte aligned address if non-empty, and converting to Vec gives those bytes.","every operation sequence, every callback, every sequence of allocation addresses","allocator addresses are always aligned in practice so the padded path is never tested",[B+": AlignedBuf, align, unalign, with_vec"])
p("C32","Empty owned buffers are aligned","Casting an empty AlignedBuf (for instance deserialising an empty stream) to any type neither panics nor forms a misaligned reference.","every type, every build mode","address of an empty Vec is an implementation detail",[B+": Deref for AlignedBuf, offset_to_align",C+": cast_slice",L+": Marker::deserialize, Marker::from_bytes"])
p("C33","Owned values keep their value","from_bytes, deserialize and to_owned yield an owned object whose value equals that of casting the same bytes.","every type, every byte buffer, every allocator placement","all inputs",[L+": Owned, Marker::from_bytes, Marker::deserialize, ToOwned impls"])
p("C34","Slicing keeps the promised alignment","Every AlignedSlice<A> obtained by the slicing operators, split_at, as_aligned or empty_aligned from a correctly aligned one is correctly aligned and has exactly the requested bytes; out-of-range slicing panics.","every slice, range and chain of slicing operations","unbounded chains",[A+": Index impls, split_at, as_aligned, empty_aligned"])
p("C35","GString is a NUL-free string","Under any sequence of operations a GString holds valid UTF-8 with exactly one NUL, at the end, and behaves as an ordinary NUL-free string: try_push_str appends or fails without change, len/is_empty/as_str/clear are those of the string, conversion to String and CString succeeds.","every operation sequence and every argument string","unbounded histories",[L+": gstring::GString"])
p("C36","GString order and equality","Comparing GStrings gives the same result as comparing the strings they hold; GString equality agrees with Str equality of the borrowed values.","every pair of GStrings","all pairs",[L+": GString derive(PartialEq, Ord), Borrow<Str>"])
p("C37","GString::with_capacity honours its argument","with_capacity(n) returns an empty string that can hold n bytes without reallocating (capacity() >= n); reserve(n) ensures capacity() >= len()+n.","every n and every allocator rounding","all n",[L+": GString::with_capacity, reserve, capacity"])
p("C38","Mutable casts","try_cast_mut succeeds exactly when the shared cast would not fall back to the default, for every type.","every type and buffer","all inputs",[L+": Cast::try_from_aligned_slice_mut"])
p("C39","Behaviour beyond 4 GiB","The reading rules also hold for containers of 4 GiB and more (8-byte framing offsets): corrupt offsets give default values, no panic.","every buffer length up to isize::MAX","such inputs are too large to test",[L+": calc_offsets, align_offset, NonFixedWidthArrayIterator::next"])
p("C40","Generated defaults and derives type-check","For every fixed-size structure the generated constant default (one literal 0 per field) and derive(Default) are well typed, so the type can be used.","every fixed-size structure type","unbounded family of types",[G+": write_packed_struct (defaults, derive)"])
p("C41","gv! defines exactly the structures it needs","The structure definitions emitted for a type string are exactly the structure types occurring in it.","every type string","unbounded family of type strings",[G+": generate_types"])
p("C42","Generated names are identifiers","Every generated structure name is a legal Rust identifier.","every structure type","unbounded family of types",[G+": escape"])
p("C43","Exactly which types gv! supports","The code gv! generates compiles exactly when no structure type occurs twice in the type string, every structure has at most 12 members, and every fixed-size structure has only integer members whose layout passes the macro's offset computation (in particular if a most strictly aligned member comes first).","every type string","unbounded family of type strings",[G+": generate_tuple, write_packed_struct, generate_types"])
p("C44","align_offset, exactly","align_offset(x) is the least multiple of A not below x whenever x + A fits in usize; without overflow checks also whenever the answer fits; with overflow checks it panics exactly when x + A does not fit.","every usize, every alignment, every build mode","2^64 inputs; corrects C30",[O+": align_offset"])
p("C45","copy_to_align of non-empty data","copy_to_align never fails, returns the same bytes, without copying exactly when the input was already aligned, and for non-empty data at an address aligned as requested.","every slice, every address, every allocator placement","depends on allocator addresses; corrects C29",[A+": copy_to_align",B+": AlignedBuf"])
p("C46","try_as_aligned checks nothing","try_as_aligned returns its argument unchanged for every slice and every pair of alignments: it never reports Misaligned.","every slice address and every pair of alignments","addresses are environment dependent; corrects C28",[A+": TryAsAligned for AlignedSlice"])
p("C47","GString::reserve honours its argument","After any history, reserve(n) leaves capacity() >= len() + n.","every history, every n, every allocator rounding","unbounded histories; the true half of C37",[L+": GString::reserve, capacity"])
p("C48","Exactly when reading panics","Casting bytes below 4 GiB and reading everything panics exactly when some array of fixed-size elements that is directly the element of an array or maybe does not have a whole number of elements; otherwise the value is the one the GVariant rules give. So types without an array of multi-byte fixed-size elements directly inside an array or maybe never panic.","every type and every byte buffer below 4 GiB","the panicking bytes are rare and type dependent; absence of panics needs all inputs",["gvariant/src/lib.rs: NonFixedWidthArrayIterator::next, Index, MaybeNonFixedSize::to_option, Cast::try_from_aligned_slice"])
p("C49","Panics beyond 4 GiB","For buffers up to isize::MAX bytes the only panic besides those of C48 is arithmetic overflow on a corrupt offset, only with overflow checks and only at 4 GiB or more; without overflow checks types without the arrays of C48 never panic.","every type, every buffer length up to isize::MAX, every build mode","buffers over 4 GiB are impractical to test",["gvariant/src/offset.rs: align_offset","gvariant/src/lib.rs: read_uint, NonFixedWidthArray","gvariant-macro/src/generate_impl.rs"])
p("C50","Mutable casts other than slices","For every type except arrays of fixed-size elements try_cast_mut succeeds exactly when the length is one a value of the type can have, and agrees with the shared cast.","every type and buffer","all types and lengths",["gvariant/src/lib.rs: Cast::try_from_aligned_slice_mut, Marker::try_cast_mut"])
p("C51","Out-of-range indexing, exactly","a[i] panics for every i >= a.len(), with overflow checks for every usize, without them (in particular for i below 2^61) exactly unless i modulo 2^64 divided by the width of the framing offsets is the index of an element other than the first, when a[i] is that element; for arrays of fixed-size elements always.","every array buffer, every index, every build mode","2^64 indices",["gvariant/src/lib.rs: Index for NonFixedWidthArray, read_uint"])
p("C52","Normal form, exactly","serialize writes the GVariant normal form exactly when the last element of every array of variable-size elements, also inside wrapped variants, ends at a multiple of the element alignment; otherwise it pads after the last element too.","every type and value","all values",["gvariant/src/lib.rs: SerializeTo<NonFixedWidthArray>"])
p("C53","Round trip, exactly","Reading back what serialize wrote gives the same value exactly under the condition of C52.","every type and value whose output is below 2^63 bytes, every build mode","all values",["gvariant/src/lib.rs: SerializeTo, Cast"])
p("C54","Types that always round-trip","For types in which the elements of every array have fixed size, alignment 1, or are arrays or maybes of fixed-size values, every value is written in normal form and read back unchanged, and so is every view of arbitrary bytes.","every such type and value","all values",["gvariant/src/lib.rs: SerializeTo, Cast"])
p("C55","What serialising a view writes","Serialising a view of arbitrary bytes writes the (padded) encoding of the value read, and reading that gives the same value exactly when there was nothing to pad.","every type and every buffer that can be read without panic","all inputs incl. non-normal",["gvariant/src/lib.rs: SerializeTo for views","fuzz/fuzz_targets/fuzz_target_1.rs: test_cmp"])
p("C56","Normal forms preserved, exactly","Data in normal form re-serialises to the identical bytes exactly when there is nothing to pad.","every type and every normal-form buffer","all inputs",["gvariant/src/lib.rs: SerializeTo, Cast"])
p("C57","Variant get after wrapping, exactly","get() on a wrapped value gives None for every other marker, and for the right one the value exactly when nothing was padded.","every type and value, any nesting depth","all types and values",["gvariant/src/lib.rs: VariantWrap, Variant::get"])
p("C58","Empty owned data, exactly","Deserialising an empty stream, from_bytes of an empty slice and to_owned of an empty view give an object that reads as the default value, unless the type is (or has at offset 0) an array of fixed-size elements of alignment above 1 and the empty data is copied to the dangling address 1; then debug builds panic and release builds form a misaligned slice.","every usable type, every address and allocator placement, debug and release","depends on the address of an empty Vec and on the type",["gvariant/src/buf.rs: Deref for AlignedBuf","gvariant/src/casting.rs: cast_slice","gvariant/src/lib.rs: Marker::deserialize, Marker::from_bytes, Owned, ToOwned impls"])
p("C59","Non-empty owned values keep their value","For non-empty data from_bytes, deserialize and to_owned give an object that reads exactly (value or panic) as casting the same bytes at an aligned address does.","every usable type, every non-empty byte buffer, every allocator placement","all inputs and placements",["gvariant/src/lib.rs: Owned, Marker::from_bytes, Marker::deserialize, ToOwned impls"])
p("C60","Position independence","Casting and reading gives the same result (value or panic) wherever the same bytes lie, as long as the address is aligned for the type; more generally it only depends on the bytes and on the address modulo the alignment.","every accepted type, every byte buffer of any length, every pair of addresses","all addresses",["gvariant/src/lib.rs: all accessors","gvariant-macro/src/generate_impl.rs: to_tuple"])
F="fuzz/fuzz_targets/fuzz_target_1.rs"; E="examples/ostree-ls/src/main.rs"
p("C61","Comparison with native values","== between a view and a bool, a str, a slice of native values, an Option or another view says whether the two values are equal.","every type, every readable view of arbitrary bytes, every native value of the matching shape","all values and buffers",[L+": PartialEq impls for Bool, Str, NonFixedWidthArray, MaybeFixedSize, MaybeNonFixedSize"])
p("C62","Order of maybes","Maybes of numbers are ordered by value with Nothing first, only NaN being unordered, and comparing as Equal agrees with ==.","every pair of views of maybes of numbers","all pairs of buffers",[L+": PartialOrd for MaybeFixedSize"])
p("C63","Hash agrees with equality","Two maybes of integers feed the same data to a hasher exactly when their values are equal.","every pair of views of maybes of integers","all pairs of buffers, incl. those of the wrong size",[L+": Hash for MaybeFixedSize"])
p("C64","Debug output depends on the value only","{:?} of any view, and {:?} and {} of an owned copy, print a text determined by the value and the type alone.","every type, every view of arbitrary bytes that can be read","all values and non-normal encodings of them",[L+": Debug impls, Display for Owned",G+": generate_tuple (Debug)"])
p("C65","Printing panics only where reading does","Formatting a view with {:?} panics exactly when reading everything reachable in it panics, and is free of undefined behaviour.","every type and every view of arbitrary bytes","all inputs",[L+": Debug impls, Variant fmt"])
p("C66","Serialising to a Vec is infallible","serialize_to_vec never panics ('Serialization to Vec should be infallible').","every type and every value that can be passed","all values",[L+": Marker::serialize_to_vec"])
p("C67","Serialising to a Vec, exactly","serialize_to_vec panics exactly when the value contains a Rust string with a NUL byte in it, and otherwise returns exactly the bytes serialize writes.","every type and value","all values; corrects C66",[L+": Marker::serialize_to_vec, SerializeTo<Str>"])
p("C68","The fuzz target's own assertions hold","No assertion of the fuzz target that does not involve GLib can fail, for any input.","every input and every allocator placement","all inputs; fuzzing samples them",[F+": test_cmp, fuzz_target"])
p("C69","ostree-ls prints the tree","The example program prints, for every file below 4 GiB, well-formed or not (and for longer ones whose framing offsets are below 2^63), one line per directory and one per file of the tree the file denotes, and never panics once it has been read.","every such file content and every allocator placement","all file contents",[E+": ostree_ls"])
p("C70","gv! types are distinct","gv! gives two GVariant types the same Rust type exactly when they differ at most in calling a string a string, an object path or a signature, outside structures; so a view of one type cannot be passed where another is meant. Strings that are not the type string of a type make the macro panic while compiling.","every pair of types, every string","unbounded family of types",[M+": gv_type, marker_type"])
p("C71","Generated code only names what exists","The Rust type of every gv! invocation and the field types of every structure it generates only mention built-in types and structures that the same invocation generates.","every type","unbounded family of types",[M+": marker_type",G+": generate_types, write_packed_struct, write_non_fixed_size_structure"])
p("C72","The fuzz target, exactly","The fuzz target's assertions other than those about GLib values hold whenever the input length is a positive multiple of 4; test_cmp's round-trip and normal-form assertions hold for every type that C48 and C54 say can always be read and re-read, if the normal form is not empty or the alignment is 1.","every input and every allocator placement","all inputs; corrects C68",[F+": test_cmp, fuzz_target"])
p("C73","Reading beyond 4 GiB","Bytes of any length below 2^63 read as the GVariant rules say (and panic exactly where C48 says) in every build, as long as the framing offsets used are below 2^63, as all those of buffers below 4 GiB are.","every type, every buffer below 2^63 bytes, every build mode","such inputs are too large to test",[L+": calc_offsets, align_offset, NonFixedWidthArrayIterator::next"])
p("C74","Long normal forms","Every value whose normal form is shorter than 2^63 bytes is read back from it, in every build.","every type, every value, every build mode","such inputs are too large to test",[L+": Cast, to_rs, calc_offsets"])
p("C75","Builds with overflow checks","With overflow checks reading any bytes below 2^63 gives the value the rules say, panics as C48 says, or panics with an arithmetic overflow, the latter only if some framing offset is 2^63 or more.","every type, every buffer below 2^63 bytes","such inputs are too large to test",[L+": calc_offsets, align_offset"])
p("C76","Children out of range, exactly","A child whose range leaves its container, reaches into the framing offsets or ends before it starts reads as the default value of its type if no framing offset of the container is 2^63 or more, in every build.","every container type, every buffer below 2^63 bytes, every build mode","all inputs incl. non-normal and huge",[L+": calc_offsets, NonFixedWidthArray::index"])
p("C77","Exactly which types can panic","For every type that has an array of multi-byte fixed-size elements directly inside an array or maybe, and for no other, there are bytes (at most 24 per character of the type string) that panic when read, at every aligned address and in every build.","every type, address and build mode","one input per type out of an unbounded family; converse of C48",[L+": NonFixedWidthArray::index, MaybeNonFixedSize::to_option"])
p("C78","Constructed structures","The memory of a value made with the generated const constructors is fully determined (no uninitialised padding), has the GVariant size, reads back as the fields given, and is the normal form of that value if its booleans are 0 or 1.","every fixed-size type and every value of its Rust type","all layouts and values",[G+": write_packed_struct (new)"])
p("C79","Assigning to a field","Assigning to a field, at any nesting depth, of a structure obtained with try_cast_mut changes the bytes of that field only, and reading the whole afterwards gives the old value with that member replaced; for bytes of another length try_cast_mut gives an error.","every fixed-size type, every field path, every value, every aligned byte slice","all layouts and values",[L+": Marker::try_cast_mut",G+": write_packed_struct","gvariant/src/casting.rs: try_cast_slice_to_mut"])
p("C80","Writing into a buffer","After any sequence of byte and field assignments through chains of mutable slices of an AlignedBuf, mixed with the operations of C31, the buffer holds what the same assignments make of a plain vector; it panics exactly when a range or index is out of range.","every history, every allocator placement","all histories",["gvariant/src/buf.rs: DerefMut for AlignedBuf",A+": IndexMut impls, as_aligned_mut",L+": Marker::try_cast_mut"])
p("C81","Slices of numbers from bytes","TryInto<&[T]> for the number types gives the whole slice exactly when its length is a multiple of the element size, and an error otherwise.","every number type, every aligned byte slice","all lengths",["gvariant/src/casting.rs: unsafe_fixed_bytes_to_type, cast_slice"])
p("C82","Children do not share bytes","Distinct elements of an array and distinct members of a structure never cover the same bytes.","every container type, every buffer","all inputs incl. hostile framing offsets",[L+": NonFixedWidthArray::index, calc_offsets"])
p("C83","Children lie one after another","If the framing offsets put no child out of range (as in every normal form), the elements of an array, fixed-size or not, and the members of a structure that have any bytes lie in memory in order and without overlap, in every build.","every container type, every buffer below 2^63 bytes, every build mode","all inputs; corrects C82",[L+": NonFixedWidthArrayIterator::next, calc_offsets, get_child_elem",G+": write_non_fixed_size_structure"])
p("C84","Reading does not amplify","The amount of data reading a buffer gives (nodes plus bytes of strings and variants) is at most proportional to the length of the buffer.","every type, every buffer","all inputs incl. hostile framing offsets",[L+": NonFixedWidthArrayIterator::next"])
p("C85","Amplification is bounded","The amount of data reading n bytes of type t gives is at most 3 * (length of the type string) * (n+1)^(1+k), k being how many arrays of variable-size elements are nested in each other in t; fixed-size types and types without such arrays are linear in n, and so is reading if no child is out of range, as in normal forms.","every type, every buffer below 2^63 bytes, every build","all inputs; corrects C84, whose counterexamples show the exponent is right",[L+": NonFixedWidthArrayIterator::next, calc_offsets"])
p("C86","Type strings are GVariant's","gv! accepts exactly the definite type strings of the GVariant specification: basic types bynqiuxthdsog, v, a and m, tuples, and dictionary entries whose key is basic.","every byte string","the set of type strings is infinite and nesting is unbounded",[T+": one, parse_one_type_spec"])
p("C87","How type strings differ from GVariant's","A type string gv! accepts is a definite GVariant type string just if the key of every dictionary entry in it is a basic type; a definite GVariant type string is accepted just if no handle (h) occurs in it.","every byte string","infinite set of strings; corrects C86",[T+": one, parse_one_type_spec"])
p("C88","Parse errors are accurate","The text of the error for a rejected type string tells what is wrong with it: empty; more than one type exactly if a proper prefix is a type string; item type required, EOF in tuple, EOF in entry and EOF when expecting } exactly if the string can be continued to a type string, according to what may come next; Expected } and Unexpected charactor exactly if the string can be continued up to some character but not with it.","every byte string","infinite set of strings; the errors are told apart by all possible continuations",[T+": one, parse_one_type_spec, ParseError"])
p("C89","deserialize reads everything","deserialize gives the object whose data are all the bytes the reader delivers up to its end, however they are divided into reads and however often it is interrupted, and the reader's error if there is one before.","every reader (sequence of read results), type, allocator placement, non-empty data","all divisions into reads, all data",[L+": Marker::deserialize"])
p("C90","Debug tells values apart","Two values of one type that print alike with {:?} are equal.","every type, all pairs of values","infinitely many values; nesting and quoting could collide",[L+": Debug impls",G+": Debug"])
p("C91","Debug tells legible values apart","Two values of one type, without NaNs and with all type strings of variants UTF-8, that print alike with {:?} are equal; numbers are written so that they read back, strings end at their closing quote, type strings are altered just if not UTF-8, and then as Unicode recommends (U+FFFD for every maximal part of a character, or for a byte that begins none).","every type, all pairs of views on any hosts, all tables of printable characters, every injective way of writing doubles","infinitely many values; corrects C90",[L+": Debug impls, DisplayUtf8Lossy",G+": Debug"])
p("C92","Strings survive panics","After any sequence of calls on a GString of which some panic for want of memory or because the capacity overflows, the string holds a valid NUL-free text with one NUL at the end: that of the calls that did not panic, plus nothing of the others. clear never panics, and after reserve(n) returned, appending n bytes in all does not panic.","all initial strings, all sequences of calls, every pattern of granted and refused allocations","unbounded histories with failures at every point",[L+": GString::try_push_str, clear, reserve"])
p("C93","Buffers survive panics","If callbacks of AlignedBuf::with_vec panic at any point, the buffer afterwards holds what the callback left in the vector, at an aligned address if not empty, the panic goes on to the caller, and later calls work as usual, as long as there is memory for aligning.","all buffers, all sequences of callbacks that return or panic, all placements by the allocator","unbounded histories of arbitrary callbacks",[B+": AlignedBuf::with_vec"])
p("C94","A child depends on few bytes","An element of an array depends only on its own bytes, the last framing offset, its own and the one before; a member of a structure or dictionary entry only on its own bytes, the framing offset of the last variable-size member before it and its own if it has one. Changing any other byte of a container of the same length changes nothing about the child: its place, its bytes and hence its value.","all types, all bytes in normal form or not, all positions, all pairs of containers of the same length and address","relates two arbitrary readings",[L+": NonFixedWidthArray::index, read_framing_offset","gvariant-macro/src/lib.rs: generated to_tuple"])
p("C95","Documented deviations are the only ones","Data to which none of the documented deviations applies (children overlapping framing offsets, strings that are not UTF-8 or have a NUL inside, invalid object paths and signatures, type strings of variants) reads exactly as the text of the GVariant Specification says; normal forms are such data. Where a deviation applies, the result is the documented one.","all types, all bytes, both byte orders, any notion of valid path, signature and type string","compares two decoders on every input",[L+": module documentation, Deviations from the Specification",L+": Str::to_str, Variant::split, NonFixedWidthArray::index"])
p("C96","Variant equality is right in normal form","Comparing two variants with == gives, for data in normal form, the same answer as comparing their contents.","all types, all values, all addresses","claim of the documentation about every value",[L+": Variant, documentation and PartialEq"])
p("C97","What variant equality means","Variants in normal form are equal exactly when type and value are the same, so without doubles == on them is == on their contents. Whatever the data, equal variants have contents that read the same for every marker; there are false negatives, as documented, for data not in normal form. The comparison is reflexive, contrary to the documentation.","all bytes, all types, all addresses","all pairs of byte strings",[L+": Variant::get, split, PartialEq"])
p("C98","Any writer gets the same bytes","Serialising to a writer that takes a few bytes at a time or is interrupted delivers all bytes; the first call of write that fails or takes nothing before all bytes are taken ends it with its error, the bytes taken so far being the beginning of the output. What is offered to a writer does not depend on it.","all types and values, every sequence of answers of the writer, every implementation of Write","unbounded histories of calls",[L+": SerializeTo::serialize(f: &mut impl Write), Marker::serialize"])
p("C99","Byte order","The same bytes read on a machine of the other byte order give the same value with the bytes of every number turned round, and what the other machine writes is what this one writes for that value; framing offsets do not depend on the byte order. Exactly the types without numbers of several bytes read the same everywhere.","all types, all bytes, all values, both byte orders","relates all readings on two machines",[L+": numbers, from_ne_bytes / to_ne_bytes; read_uint, write_offsets"])
p("C100","What is read is valid","Whatever the bytes, reading gives a value of the type: numbers in range, strings that are UTF-8 without NUL, type strings of variants without NUL, structures with the right number of members.","all types, all bytes","arbitrary bytes, in particular hostile ones",[L+": Str::to_str, Variant::split, Marker::cast"])
p("C101","Buffers survive want of memory","If with_vec panics, be it in the callback or because there is no memory for aligning the buffer again, the buffer afterwards holds what the callback left.","every buffer, every callback, every allocator","allocation failures at a particular point",[B+": with_vec, RealignGuard, align_cold"])
p("C102","Buffers without memory, exactly","If there is memory for aligning, the buffer holds what the callback left. If not, it holds that without the bytes before the next multiple of eight, or, if there are fewer, panics at every use; nothing worse happens. If the callback panicked as well, the program is aborted.","every sequence of calls, every callback, every allocator","allocation failures at any point of a history",[B+": with_vec, RealignGuard, align_cold, unalign_cold, Deref"])
p("C103","no-std support","The crate can be built without the std feature (documented: 'Disable this feature for no-std support').","every selection of features","tests run with the default features",[L+": crate documentation, cfg_attr no_std; "+A+": imports"])
p("C104","Names need std","With the default features all names that depend on features are there; without std there are always some that are not: with alloc alone the uses of std and of Write not under the std guard, with neither all uses not under a guard.","every selection of features","tests run with the default features",[L+": items under cfg; "+A+": imports; "+B+": Debug"])
p("C105","Views and bytes can be serialised","What was read can be passed to serialize as it is (a reference to the marker type implements SerializeTo the marker type), and &[u8] can be serialised as a string (documented at SerializeTo).","every type string","whether a program compiles is not tested",[L+": SerializeTo and its impls; "+G+": write_non_fixed_size_structure, write_packed_struct"])
p("C106","What can be serialised","A view can be passed to serialize exactly if its type has no structure and no maybe of a boolean in it. Each type has a Rust type that can be passed, also as a member of a structure. What is passed as a structure is a reference to a tuple with as many members, none of which has anything in it that cannot be copied. All that can be passed is a value of the type.","every type, every Rust type made of numbers, bool, strings, references, boxes, options, tuples, vectors, arrays, slices, iterators and the crate's own types","whether a program compiles is not tested",[L+": SerializeTo and its impls; "+G+": write_non_fixed_size_structure, write_packed_struct; "+M+": marker_type"])
p("C107","Iterators go on after panics","If a program catches panics of next() and goes on calling it, call i gives a[i] or its panic, and from the length on None.","every array of variable-size elements, every number of calls","tests do not catch panics",[L+": NonFixedWidthArrayIterator::next"])
p("C108","Iterators and panics, exactly","Call i of next() gives a[i] or panics as a[i] does, and from the length on None, until computing an element overflows; from then on every call panics so. There is no overflow without overflow checks or below 4 GiB.","every array of variable-size elements, every number of calls, every build","tests do not catch panics",[L+": NonFixedWidthArrayIterator::next, Index"])
p("C109","Offsets and slices implement what they derive","AlignedOffset<A> implements PartialEq, Eq, PartialOrd and Ord, and AlignedSlice<A> implements Eq.","every alignment","no test compares two offsets",[O+": AlignedOffset; "+A+": AlignedSlice, A1, A2, A4, A8"])
p("C110","Comparing offsets and slices","Of what they derive, AlignedOffset has Debug, Copy and Clone, AlignedSlice Debug. Offsets compare with usize, in both directions, as numbers do, are obtained from exactly the multiples of the alignment and print as the decimal digits of the number, without leading zeros; aligned slices are equal exactly if their bytes are.","every alignment, every number, every slice","all numbers",[O+": PartialEq, PartialOrd, TryFrom, Display; "+A+": PartialEq for AlignedSlice"])
p("C111","Which types implement Eq, Hash, PartialOrd and Ord","Views implement Eq exactly if there is no double, variant or structure in the type, and == is reflexive then; Hash exactly for integers and slices and maybes of integers; PartialOrd for these and doubles; Ord for integers and slices of integers. Owned strings implement all but Hash.","every type, every pair of views","tests compare a few values",[L+": Eq, Hash and PartialOrd impls; "+G+": write_packed_struct"])
p("C112","The structure table is the Specification's","The macro's generate_table computes the table of the Specification's generate_table (3.2.2). After the reduction of 3.2.3, which changes no start, a bitwise or gives every start correctly (3.2.4). The macro uses the or without the reduction, and on (yii) gets a wrong start.","every list of member types, every framing offset","tests have a few structures",[G+": generate_table, write_packed_struct; docs/gvariant-serialisation.pdf: 3.2.2-3.2.4"])
p("C113","Conversion to the other byte order","Data of a type without framing offsets, and data in normal form, can be converted to the other byte order in place; other data cannot always be.","every type, every byte sequence, every value, both byte orders","no test runs on two byte orders",[L+": cast impls of the integers, f64, arrays and structures; docs/gvariant-serialisation.pdf: 3.1"])
p("C114","Comparisons the documents promise","The comparison in the README compiles, and the two views of maybes have the same interface.","the README's example; every element type of a maybe","the README's example is not compiled by any test",["README.md:7-10; "+L+": GString, MaybeFixedSize, MaybeNonFixedSize (documentation and PartialEq, PartialOrd, Hash impls)"])
p("C115","What == accepts, and its answer","Views compare with views of the same type; views of maybes compare with options exactly if the element has a fixed size; owned strings compare only with owned strings; == is accepted one way round if it is the other way round; whatever rustc accepts opposite a view (views, bools, texts, and references, slices, arrays and vectors of such, options of views), the answer is whether the two values are equal.","every type without o and g, every view, every Rust type and value that may be compared with it","tests compare a few types",[L+": PartialEq impls; "+G+": PartialEq impls"])
p("C116","Casting functions with any alignment","cast_slice, for any declared alignment and any element size and alignment, panics if the declared alignment is below the element's, gives the whole slice if its length is a multiple of the element's size and an error otherwise; it has no undefined behaviour and its debug assertion never fails. try_cast_slice_to does the same for one value if AlignOf is correct or conservative; if AlignOf is too small, there are slices for which it panics in debug builds and makes a misaligned reference in others.","every alignment 2^a and 2^j, every size, every slice","the crate only uses it with equal alignments",[C+": cast_slice, try_cast_slice_to, AlignOf"])
p("C117","Format flags","With any format flags, what a view or an owned value prints depends on its value and the flags alone. With # (as in {:#?}) slices, maybes and structures go over several lines, indented by depth; variants and arrays of variable-size elements are always printed plainly, on one line. Printing panics exactly when reading does.","every type, every view, every value, every choice of flags","tests print a few values with {:?}",[L+": Debug and Display impls; "+G+": Debug impl"])
p("C118","{:#?} tells legible values apart","Values of one type that print alike with {:#?} are equal, if no double in them is a NaN and the type strings of their variants are UTF-8.","every type, every two views, every two machines","tests compare texts with {:?} only",[L+": Debug impls; "+G+": Debug impl"])
p("C119","Sums that wrap around","Builds without overflow checks read any bytes exactly as the rules of GVariant say with the places where children start (and fixed-size children end) taken modulo 2^64, and panic exactly where those rules say so; if all framing offsets used are below 2^63, as in any buffer below 4 GiB, that is the same as the rules themselves.","every type, every buffer below 2^63 bytes, every build without overflow checks","exact for all bytes, also where C19 and C39 fail; the failing data is over 4 GiB",[L+": NonFixedWidthArrayIterator::next, NonFixedWidthArray::index, calc_offsets; "+O+": align_offset"])
p("C120","Exactly what the printed text tells","Two views of one type print alike with {:?} if and only if their values are the same but for doubles that are written alike and for type strings of variants that from_utf8_lossy turns into the same text; with {:#?} likewise. So {:#?} tells no more and no less than {:?}.","every type, every two views, every two machines, every way of writing doubles in the characters of numbers","C91 and C118 without conditions on the values, and their converses",[L+": Debug impls; "+G+": Debug impl"])
p("C121","The macros emit Rust text","For every type string that C05 lets through, and for no other string, define_gv! produces text; it is the concatenation of the text of each structure in the type, innermost first. The text is ASCII, is a sequence of Rust tokens with matching delimiters (so that parse().unwrap() cannot fail), and is a sequence of items that declare these structures in that order. The same holds of the type gv_type! names.","every string, every type","the templates are strings with holes; a type whose name or comment broke the surrounding text would make the macro panic",[M+": define_gv, gv_type, marker_type; "+G+": generate_types, generate_tuple, write_non_fixed_size_structure, write_packed_struct"])
p("C122","The emitted declarations","The text emitted for a structure of variable size declares a struct of that name over bytes aligned as the type is; for a structure of fixed size, a struct with one field per component, of the component's type, and padding fields such that, laid end to end, each field lies where GVariant places the component and the last ends at the size of the type. Field names are distinct. new takes a parameter for each component and sets its field to it, and the padding to zeros. The traits are implemented for that struct, AlignOf with the alignment of the type.","every structure type for which the macro emits text","what the layout properties (C04, C05, C44) assume about the declared struct, shown of the emitted text itself",[G+": write_non_fixed_size_structure, write_packed_struct"])
p("C123","The emitted functions","In the text emitted for a structure of variable size, to_tuple reads each component with its type, its size, the number of framing offsets, the row of the table of section 3.2 of the GVariant Specification, and last_child for the last only; serialize, run with what serialising each component writes, writes the structure as GVariant lays it out. For fixed size, to_tuple and eq go over every field once and in order, default_ref has a 0 for each component, and serialize writes the structure as GVariant lays it out.","every structure type for which the macro emits text; all bytes the components may be written as","the code generator is where the offsets are; a wrong number in a template is silent data corruption",[G+": write_non_fixed_size_structure, write_packed_struct, generate_table"])
p("C124","The rest of the emitted code","The struct emitted for a structure of variable size is repr(transparent) and every unsafe cast in its implementation is to it from bytes of the alignment it is declared with; one of fixed size is repr(C) and its casts are those of the casting module. RefTuple, the return type of to_tuple and the tuple the structure converts into list the types of the components in order, and SerializeTo takes tuples with one parameter for each component, bound by its type. The bodies of from, Debug::fmt, and, for variable size, eq and to_owned are calls of to_tuple and from_bytes.","every structure type for which the macro emits text","a missing repr or a cast from bytes of another alignment is undefined behaviour that nothing else in the code would notice",[G+": write_non_fixed_size_structure, write_packed_struct, generate_tuple"])
p("C125","Names in the emitted code","Every identifier in the text define_gv emits, and in the type beside it, is of the Rust language, of the prelude or the standard library, exported by gvariant, one of the fixed names of the templates, a numbered field, padding or type parameter, or the name of a structure declared in the same text; no structure declared there has a name of one of the other kinds.","every type for which define_gv emits text","a name that is not declared, or one that hides another, makes gv! fail to compile for some types only",[G+": generate_types, generate_tuple, write_non_fixed_size_structure, write_packed_struct, escape",M+": marker_type",L+": macro gv"])
p("C126","Running the emitted to_tuple","The to_tuple of the emitted text, executed call by call as it is written there with get_child_elem of lib.rs (or, for a fixed-size structure, field by field at the places the declared fields have), returns references from which exactly the components of the value the bytes stand for in GVariant are read, or the panic of C48.","every structure type for which text is emitted, every aligned slice (shorter than 4 GiB, or of the size of the fixed-size structure), both byte orders","C122 and C123 say what the numbers in the text are; this says that those numbers, given to the library function as it is, find the right bytes",[G+": write_non_fixed_size_structure, write_packed_struct",L+": get_child_elem, calc_offsets, nth_last_frame_offset"])
p("C127","Running the emitted serialize","The serialize of the emitted text, executed statement by statement as it is written there with the library's write_padding and write_offsets and each component's own serialize, writes the bytes C21 says and returns their number, also to a sink that fails after some bytes.","every structure type for which text is emitted, every value of it without nul characters in strings, every sink, both byte orders","C123 says what the statements add up to for given bytes of the components; this runs them against the writer, errors included",[G+": write_non_fixed_size_structure, write_packed_struct",L+": write_padding, write_offsets"])
p("C128","The documented way to read a file","The example in the documentation of aligned_bytes for reading data from a file into an aligned buffer leaves the file's bytes in the buffer.","every reader","users copy it; it reads into an empty slice and so reads nothing",[A+": module documentation, lines 32-44",B+": From<Vec<u8>> for AlignedBuf"])
p("C129","Reading files, as the other examples do it","The examples with read_to_end, in the crate's documentation and in that of AlignedBuf::with_vec, leave all of the file's bytes, 8-byte aligned, in the buffer; the reader's error is returned, with with_vec along with a buffer that has what was read before. with_vec puts what is read after what the buffer held.","every reader, every placement of vectors by the allocator","the corrected form of C128",[L+": crate documentation",B+": AlignedBuf::with_vec, From<Vec<u8>> for AlignedBuf"])
p("C130","Converting AlignedBuf is cheap","Converting a vector at an 8-byte aligned address to an AlignedBuf and back leaves it as it is; any other gets less than 8 bytes of padding before the data, which the conversion back removes without moving the vector.","every vector and placement","documented: conversion between AlignedBuf and Vec is in practice a noop",[B+": AlignedBuf documentation, From<Vec<u8>> for AlignedBuf, From<AlignedBuf> for Vec<u8>"])
p("C131","Running the emitted eq, new and default_ref","Of the text emitted for a fixed-size structure, eq, executed as it is written there on the fields at the places the declaration gives them, says whether the values are equal; new makes of its arguments the bytes GVariant has for the structure, whatever was in memory before; default_ref has the default value. The declared fields leave no gaps in memory.","every fixed-size structure gv! supports, all bytes, all arguments","what C11, C20 and C78 say is so of the emitted text, not of a reading of the templates",[G+": write_packed_struct"])
p("C132","Debug and release builds agree","What a build with overflow checks, or with overflow checks and debug assertions, gives for reading, iterating, comparing, hashing, printing, owning, serialising and assigning, and for the fuzz target whatever GLib answers, is what the build without them gives, unless one of the checks fails; a release build never gives another answer than the debug build does.","every type, all bytes at any address, every value and writer, no hypothesis","all inputs in two builds; what is tested in debug builds runs in release builds",[L+": whole file",A+": whole file",B+": whole file",C+": try_cast_slice_to, cast_slice",O+": align_offset"])
p("C133","The whole of ostree-ls","The example program prints, for a file of any length however it comes in, the listing of C69, or the beginning of it before an overflow check fails, which happens only if a framing offset is 2^63 or more, and in builds with overflow checks exactly if a sum made in reading the tree reaches 2^64; if the file cannot be opened or read, ostree_ls returns the error and main panics, nothing having been printed.","every file content and division into reads, errors of opening and reading at any point, every allocator placement, all builds","all file contents; partial output",[E+": ostree_ls, main",L+": Marker::deserialize"])
p("C134","What it means that the fuzz target passes","The fuzz target passes on an input, whatever GLib answers, exactly if the input's length is a positive multiple of 4 and for every type it tries GLib tells of the input what the format's decoder says -- as far as the target asks: not of object paths, signatures and contents of variants that GLib calls not normal -- and GLib calls normal no string that is not UTF-8 or has a NUL inside, and no input that is not what the crate writes, but for arrays of byte strings of 256 to 511 bytes.  With a GLib that reads strings as the GVariant Specification's text has it, it fails whenever the crate's string differs.","every GLib (arbitrary answers), every input shorter than 4 GiB whose normal forms fit into memory, every allocator placement, all builds; test_cmp also for every type it can be used with","all inputs and all behaviours of GLib: what a passing fuzz run tells about the crate and GLib",[F+": GLibVariant, int_eq!, PartialEq<GLibVariant>, test_cmp, fuzz_struct"])
p("C135","The fuzz target passes with GLib as documented","With any GLib whose answers are those of the format's decoder and which calls normal what is in normal form, and of what is not only arrays of byte strings of 256 to 511 bytes, the fuzz target passes on every input whose length is a positive multiple of 4.","every such GLib and notion of well-formed object paths, signatures and type strings, every input shorter than 4 GiB whose normal forms fit into memory, every allocator placement, all builds","all inputs: the fuzzer itself only samples them",[F+": whole file",L+": Deviations from the Specification and reference implementation (88-160)"])
p("C136","The fuzz target's comparisons with GLib have no undefined behaviour","Comparing a slice of numbers with GLib's array makes a valid slice from the pointer GLib returns, whatever the array's length.","every input whose length is a positive multiple of 4, every GLib that returns a pointer to the elements or, if there are none, NULL","undefined behaviour in unsafe code, on empty arrays only",[F+": int_eq! (116-129)"])
p("C137","A value written by one program is read by another","A value that needs no padding, serialised to a writer and deserialised from a reader that brings the bytes written, reads as the value.","every type and value without NULs in strings that needs no padding (as in C53), every writer that takes all bytes, every division of the bytes into reads, every build and allocator placement of both programs on hosts of the same endianness","all values, all builds; it fails for values written as no bytes at all",[L+": Marker::serialize, Marker::deserialize, ToOwned impls"])
p("C138","Exactly which values survive being written and read","A value serialised to a writer that takes all bytes and deserialised from a reader that brings them reads as the value if and only if it needs no padding and, should it be written as no bytes at all, its type is not one whose empty value is misread at a misaligned address (as in C58; an array of fixed-size elements is read well if the reader's vector happens to be aligned).","every type and value without NULs in strings, every writer that takes all bytes, every division of the bytes into reads, every build and allocator placement of both programs on hosts of the same endianness","all values, all builds of writer and reader",[L+": Marker::serialize, Marker::deserialize, ToOwned impls",B+": From<Vec<u8>> for AlignedBuf"])
p("C139","Overflow checks, exactly","A build with overflow checks reads any bytes below 2^63 as the value the rules say if no sum made while reading reaches 2^64 and no size is wrong where that panics (C48); if it panics with an overflow some sum does reach 2^64, and if it panics otherwise some such size is wrong. The sums are those of rounding up the end of the element or of the components before, as in the table of section 3.2 of the GVariant Specification, and of adding the sizes of components. With all framing offsets below 2^63 no sum does.","every type, every buffer below 2^63 bytes, every address","such inputs are too large to test",[L+": calc_offsets, align_offset, get_child_elem",O+": align_offset"])
p("C140","Programs' own serialisers","Values of a program's own types, with their own implementation of SerializeTo as the documentation invites, can stand wherever a value of their GVariant type can: if the implementations write some bytes, of the type's size if that is fixed, and return their number, these bytes are framed by the rules, and reading gives each part back (for values that need no padding and framing offsets below 2^63) or panics where some size is wrong as C48 says. An implementation that serialises something else in its place, as the documented enum does, is as good as that. Whatever the implementations write, return or fail with, and whatever the writer: an error of theirs or of the writer makes the whole fail; the library itself fails only on a string with a NUL, and panics only on an overflow, in builds with overflow checks.","every supported type and value with any number of such parts in it, every implementation, every writer, all builds","arbitrary code in the middle of the library's: no tests can cover its return values",[L+": SerializeTo (446-460), VariantWrap (1255-1283), SerializeTo impls",G+": write_non_fixed_size_structure, write_packed_struct"])
p("C141","Computing with fixed-size values","Values of fixed-size types behave as records: programs that copy them or their members, construct them, take defaults, assign to members and swap them never panic, and every variable ends with the value that the same program gives with records, wherever it then is in memory. Copies have every byte of the original, the paddings too; defaults are all zeros, the normal form of the value the rules give data of a wrong size. From values in normal form such programs make only values in normal form.","every supported fixed-size type, variables of any bytes, every well-typed program of these operations, whatever memory outside fields holds","programs are not bounded in length, nor types in depth; padding bytes are copied by an argument about layout only",[G+": write_packed_struct (derive at 402, fields at 441, new at 473-477)",L+": Bool (1971-1973)"])
p("C142","Whole safe programs","A program that uses only the safe API, in any order and number of calls, and that catches panics and carries on, has undefined behaviour only after one of these: try_as_aligned on bytes that are not aligned; making a reference to a variable-size type from no bytes at an address that is not a multiple of its alignment, by cast, by dereferencing an Owned, or, for slices, by try_into, from_bytes or deserialize. Up to then every object is what its type promises: aligned slices that are not empty are aligned, references have an address and a size their type allows, buffers start at a multiple of 8, strings are UTF-8 without NUL, iterators are those of an array of theirs; and calls panic only with the panics of indexing, unwrapping and overflow. Each of the calls named does break a promise. Comparing two views with == compiles just if they are of the same type.","every list of calls, of 48 kinds, on every platform setting, all data and all addresses the allocator may choose","Soundness is about all programs; a test is one of them, and misalignment depends on where the allocator puts things.",[L+":304-443",L+":470-521",A+":240-532",B+":22-159",C+":60-155"])
p("C143","Programs compute with values","A safe program of C142 that goes through none of those doors, over data of less than 4 GiB that does not make reading panic, is told by the crate exactly what a machine without memory would tell it, one that keeps a value of the GVariant specification for every reference, owned value and iterator and a list of bytes for every buffer: all bytes, values, lengths, comparisons, hashes, texts and panics are the same. So its outcome depends neither on where data lies nor on debug assertions or overflow checks, and if it compiles it panics only at indices and ranges out of bounds.","every list of calls, of 48 kinds, on every platform setting, all data and all addresses the allocator may choose; indices below 2^60, no strings with NUL serialised","A program that behaves differently when the allocator returns another address, or in a release build, cannot be tested; a user wants to reason about values only.",[L+":304-443",L+":470-521",L+":1208-1219",L+":1395-1622",L+":1731-1780",B+":22-159"])
p("C144","What programs on malformed data get to see","C143 with nothing asked of the data but to be shorter than 4 GiB: a safe program that goes through none of the doors of C142 is told exactly what a machine over lazy values would tell it, in which an element of an array or the content of a maybe that is an array of the wrong length is a hole that panics when touched. So it is settled which calls panic: those that touch a hole, comparisons being decided by lengths first and then from left to right; an iterator goes on behind the hole it panicked at. Panics are failed unwraps or indices out of bounds, and neither addresses nor build settings change any answer. Without holes, lazy values are the values of the specification and compare as they do.","every list of calls, of 48 kinds, on every platform setting, all data below 4 GiB and all addresses the allocator may choose; indices below 2^60","A service that catches panics of one request and goes on must know which requests an attacker can make fail and that nothing else changes.",[L+":304-443",L+":470-521",L+":1208-1219",L+":1395-1622",L+":1731-1780",B+":22-159"])
p("C145","Whole programs in debug and release builds","A program that uses the safe API is told by a build without overflow checks, or without overflow checks and debug assertions, exactly what it is told by the build with them, up to the first reply that is a failed check. If no check fails the two conversations are the same and end with the same objects, or in undefined behaviour at the same call. So trouble in release builds that a debug build does not have starts with a check that the debug build fails.","every list of calls, of 48 kinds, from any objects, on every platform setting; no hypothesis on data, sizes or addresses, so it also holds beyond the 4 GiB of C144 and through the doors of C142","Tests and fuzzing run in debug builds; what they show should hold for the release build that is shipped.",[L+": whole file",A+": whole file",B+": whole file",C+": try_cast_slice_to, cast_slice",O+": align_offset"])
p("C146","Programs that are not careful","A program that uses the safe API, also one that goes through the doors of C142 (try_as_aligned on bytes that are not aligned, references to no bytes at any address), is told by the crate exactly what the machine over lazy values of C144 says, up to the first moment at which a reference would not be aligned: this is undefined behaviour, or a failed debug assertion in builds that have them. There is no other way in which a misaligned slice or view changes an answer: no wrong data, no other panic. A program that runs into neither is told just what the machine says, wherever its references point.","every list of calls, of 48 kinds, with the conditions on sizes and addresses of C142 and C144 but without their condition that no door is used; data of any content below 4 GiB; every platform setting","try_as_aligned is a safe function that always succeeds (C46), so safe programs with misaligned views exist; this says what exactly can go wrong in them.",[L+": whole file",A+": whole file",B+": whole file",C+": try_cast_slice_to, cast_slice",O+": align_offset"])
p("C147","Which addresses a value can be read at","When a slice is taken to be aligned although it may not be (through try_as_aligned, or unsafe code), a release build reads all of a value of any type just if the address is a multiple of the greatest alignment among the numbers, fixed-size structures and arrays of fixed-size elements that lie in the bytes, and then reads the right value; at every other address it is undefined behaviour. Parts that do not fit and take default values put no demand on the address, nor do strings, variants and the frames of arrays, maybes and structures. No build, with assertions or without, reads a value at any other address or reads anything but the value. From the type alone: a multiple of the greatest alignment of anything of fixed size in it is always enough in a release build, so that arrays of strings or of variants are read at every address; and no less is enough, since every type has readable data for which exactly the multiples of it will do.","every address, every usable type, every data below 4 GiB (for the exact statement: data with which the read does not panic as in C48); every platform setting","try_as_aligned checks nothing, so misaligned slices occur; the property says exactly when that is harmless in release builds and when it is undefined behaviour",[A+": try_as_aligned, to_alignedslice_unchecked, Index impls",C+": try_cast_slice_to, cast_slice",L+": from_aligned_slice impls, NonFixedWidthArray, Structure access",G+": to_tuple"])
p("C148","Looking into a container takes constant time","Casting a slice, asking an array of variable-size elements for its length, whether it is empty, its first, last or any element, starting to iterate and each step of iterating, and asking a maybe for its content take a number of steps that does not depend on the data, its length, the index or the type (at most 14, 17, 18, 66, 84, 48, 19, 28 and 10). Taking a structure apart takes at most 56 steps for each member. The functions whose steps are counted give the results of the functions of the model.","every type, every slice at every address, every index, every iterator, every platform setting","the format exists for constant-time access to parts of large buffers; a search or a copy anywhere in the access functions would break it",[L+": NonFixedWidthArray, NonFixedWidthArrayIterator, to_option, calc_offsets, get_child_elem",G+": to_tuple",C+": try_cast_slice_to, cast_slice"])
p("C149","How long strings and variants take","as_bytes_non_conformant takes constant time (3 steps) and to_str linear time (at most 8 + 2n steps), as their documentation says. Variant::get takes at most 23 + 2k steps, k being the length of the type string stored after the last NUL, however long the value is; if there is no NUL at all it searches all n bytes (at most 28 + n).","every data, every type asked for, every platform setting","the documentation promises constant and linear time; the NUL is searched from the end so that large values in variants cost nothing",[L+": Str::as_bytes_non_conformant, Str::to_str, Variant::get, Variant::split"])
p("C150","Reading everything takes linear time","The number of steps needed to read all of a value is at most proportional to the length of its bytes.","every type, every buffer","all inputs incl. hostile framing offsets",[L+": NonFixedWidthArrayIterator::next"])
p("C151","The time for reading everything is bounded","Reading all of n bytes of type t takes at most 66 * (length of the type string) * (n+1)^(1+k) steps, k being how many arrays of variable-size elements are nested in each other in t. If no array or structure has a child out of range, as in every normal form, it takes at most 66 * (length of the type string) * (n+1) steps.","every type, every bytes at every address, every platform setting; the linear bound for usable types, aligned slices below 2^63 bytes with all children in range, and for the normal form of every value","all inputs; corrects C150, whose counterexamples show the exponent is right",[L+": NonFixedWidthArrayIterator::next, calc_offsets, get_child_elem, to_option, to_str, Variant::split",G+": to_tuple"])
p("C152","Comparing takes bounded time","== of two views takes at most a number of steps that is the length of the type string times a power of the number of bytes of both, the exponent being one more than the number of arrays of variable-size elements around each other in the type, as for reading; this is reached, but where no child is out of range, as in normal forms, the number of steps is linear; arrays of different lengths are told apart in a constant number of steps.","every type, any two byte strings at any addresses","tests never compare large values",[L+": PartialEq impls of Str, Variant, NonFixedWidthArray, MaybeFixedSize, MaybeNonFixedSize and Bool",G+": PartialEq in write_packed_struct and write_non_fixed_size_structure"])
p("C153","How often serialising calls the writer","Serialising calls write_all fewer than five times for every value (element, member, string, number) in what is serialised, however long the strings and variants are; an array of bytes takes one call for each byte.","every type, every value, every writer","tests write to a Vec, where the number of calls does not show",[L+": SerializeTo impls, write_padding, write_offsets",G+": serialize_cmds"])
p("C154","How much code the macros emit","What define_gv! emits is at most 3150 times the square of the length of the type string, what gv_type! emits at most 22 times its length; the square is reached by nested parentheses.","every type string below 4 GiB that the macros accept","the tests use short types, where growth does not show",[G+": generate_types, generate_tuple, write_non_fixed_size_structure, write_packed_struct",M+": define_gv, gv_type"])
p("C155","How long the printed text is","If no double prints as more than D bytes, {:?} writes at most 32 + D bytes for each byte and node of the value read, which is linear in the bytes if no child is out of range, and {:#?}, which indents, at most 40 + D plus 8 times the length of the type string for each; k nested maybes in at most k + 1 bytes make {:#?} write 4 * k * k bytes or more.","every type, alignment and data below 2^63 bytes; every way core could print characters and doubles of bounded length","the tests print one value or none",[L+": Debug impls of Str, Variant, NonFixedWidthArray, MaybeFixedSize, MaybeNonFixedSize, Bool",G+": generate_tuple"])
p("C156","How much serialising writes","Serialising writes at most 24 bytes for each byte and node of the value; so serialising a view of n bytes writes at most 72 * (length of the type string) * (n+1)^(1+k), k as in C85, and at most 72 * (length of the type string) * (n+1) if no child is out of range. The data of C84 shows that the exponent is needed.","every type, value and view whose bound is below 2^63, every build","re-serialising untrusted data may need far more room than the data, which no test shows",[L+": SerializeTo impls, write_offsets",G+": write_non_fixed_size_structure, write_packed_struct"])
p("C157","References span just their bytes","As Rust lays out the declared types, a reference to a value spans exactly the bytes it was made from and is aligned for its type: types of fixed size have the size and alignment of the specification, arrays of them those of their elements, and all others are laid out like slices of bytes, whatever their type parameters. References to types of fixed size are an address, to the others an address and a length. The structures are declared with just the fields this takes them to have in the text define_gv! emits.","every usable type, every reference that can be reached from any bytes","the pointer casts in the crate are sound only if the layouts agree, which no test shows",[A+": AlignedSlice, to_alignedslice_unchecked",L+": Str, Variant, NonFixedWidthArray, MaybeFixedSize, MaybeNonFixedSize, Bool",C+": cast_slice, try_cast_slice_to",G+": write_packed_struct, write_non_fixed_size_structure"])
p("C158","Values may be used from any thread","The view of every type, references to it, owned values, iterators, buffers, strings, offsets and errors are Send and Sync; VariantWrap is if what it wraps is.","every type","follows from the private fields, so any change to them could take it away unnoticed; the static default of fixed-size structures needs it to compile",[A+": AlignedSlice",L+": Str, Variant, NonFixedWidthArray, NonFixedWidthArrayIterator, MaybeFixedSize, MaybeNonFixedSize, Bool, Owned, GString, VariantWrap",B+": AlignedBuf, RealignGuard",O+": AlignedOffset",G+": write_packed_struct, write_non_fixed_size_structure"])
p("C159","What serialising keeps on the heap","While a value is serialised the offsets of the elements so far of the arrays of variable-size elements being written are kept, and nothing else; however it ends they are freed; at most as many as the value has parts, or as bytes are written, and none for a type of fixed size.","every value, writer and host","a caller who streams a large value to a file wants to know that memory does not grow with the size of the elements",[L+": SerializeTo for NonFixedWidthArray, write_offsets, SerializeTo impls",G+": write_packed_struct, write_non_fixed_size_structure"])
p("C160","Serialising takes linear time","The steps serialising takes, calls of the writer included, are linear in the number of parts of the value and the bytes of the strings and views in it, however it ends, and at least as many as there are calls of the writer.","every value, writer and host","code that serialises what others sent must not be made to work long by little data",[L+": SerializeTo impls, write_offsets, write_padding",G+": write_packed_struct, write_non_fixed_size_structure"])
p("C161","What reading into an owned value allocates","from_bytes requests of the allocator a copy of the data if it is not aligned, and the owned value: nothing for a fixed-size type, the text and a NUL for a string, the bytes otherwise; deserialize the owned value, and room to align what was read.  With an allocator whose blocks are aligned that is at most twice the data (once, if the data is aligned, and for deserialize); otherwise at most six times the data and 14 bytes.","every type, every byte string, every address the allocator may choose","bytes from elsewhere must not make a reader allocate much more than they take",[L+": Marker::from_bytes, Marker::deserialize, Owned::from_bytes, ToOwned impls, GString::from_str_unchecked",A+": copy_to_align",B+": align, align_cold"])
p("C162","How long printing takes","Printing a view with {:?} takes just the steps that reading everything in it takes, one for each byte of text, and one for each byte of the type strings of variants; so it is bounded as reading is, and linear if no child is out of range.","every type, every byte string, every host, whatever core prints for numbers and strings (for the bounds: aligned data, doubles of at most D bytes)","values from elsewhere are printed in logs and must not take long",[L+": Debug for Str, Variant, NonFixedWidthArray, MaybeFixedSize, MaybeNonFixedSize, Bool",G+": fmt of structures"])
p("C163","Reading and comparing are not free","Reading everything takes at least a step for each value there is in what is read, and two for each byte of a string, so the time grows with the result even when little data stands for much; and two values are found equal only after all of both has been looked at, and what is in a variant is given only after its type string has been found and compared.","every type, all bytes at all addresses, every host","the other side of the bounds of C151 and C152: what a reader returns has been looked at",[L+": to_str, Variant::split, NonFixedWidthArrayIterator::next, to_option, PartialEq impls",G+": to_tuple, generated PartialEq"])
p("C164","How long parsing a type string takes","Parsing takes a number of steps linear in the length of the type string, valid or not, and for a valid one the number is known exactly: one for each byte, and a few for each type in it. The parser recurses as deep as there are types inside each other; that is never more than the length of the string, and there is no other limit to it.","every string of bytes","the macro runs in the compiler: a type string must neither hang it nor, below the size of its stack, end it",[T+":69-161"])
p("C165","How much work the size of a type is","To find the alignment of a type the macro makes one call for each type in it; to find its size it makes at most twice the number of types in it times the depth of nesting, and for a type of fixed size the number is known exactly. Without a fixed size, nothing behind the first member without one is looked at. Structures inside each other do take calls in the square of their number, as alignments are computed anew at every level, but no more.","every type","the macro calls these functions for every member of every structure: work exponential in the nesting would hang the compiler",[G+":271-351"])
with open('/verif/properties.jsonl','w') as f:
    for q in P: f.write(json.dumps(q)+"\n")
print(len(P))
