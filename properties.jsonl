{"id": "C01", "title": "Type-string parser is exact", "statement": "gv! accepts a type string exactly when it is one complete GVariant type in the grammar (basic letters bynqiuxtdsogv, a/m prefixes, (...) tuples, {kv} entries); the parsed type prints back to the very same string, and every type parses back from its printed form.", "quantifier": "every byte string and every (arbitrarily nested) type", "why_tests_cant": "the set of type strings is infinite and nesting is unbounded", "anchors": ["gvariant-macro/src/type_parser.rs: one, parse_one_type_spec, Display for GVariantType"]}
{"id": "C02", "title": "Alignments are consistent", "statement": "Every type has alignment 1, 2, 4 or 8, a container's alignment is at least (a multiple of) that of every component, and the alignment the Rust types declare (AlignOf) is the one the macro computes, so narrowing a parent's buffer to a child's alignment is always legal.", "quantifier": "every type", "why_tests_cant": "types nest without bound", "anchors": ["gvariant-macro/src/generate_impl.rs: align_of", "gvariant/src/casting.rs: AlignOf", "gvariant/src/lib.rs: AlignOf impls"]}
{"id": "C03", "title": "Fixed sizes are right", "statement": "A type has a fixed size exactly when it contains no s, o, g, v, array or maybe; that size is the GVariant one (non-zero, a multiple of the alignment, unit is 1 byte).", "quantifier": "every type", "why_tests_cant": "types nest without bound", "anchors": ["gvariant-macro/src/generate_impl.rs: size_of, align_of"]}
{"id": "C04", "title": "Memory layout of generated fixed-size structures", "statement": "For every fixed-size structure that gv! accepts, the generated #[repr(C)] struct has mem::size_of equal to the GVariant fixed size, every field at the GVariant offset, alignment no larger than the declared one, and no compiler-inserted padding.", "quantifier": "every fixed-size structure type accepted by the macro", "why_tests_cant": "unbounded family of types; a wrong offset silently misreads data", "anchors": ["gvariant-macro/src/generate_impl.rs: write_packed_struct, generate_table", "gvariant/src/casting.rs: AllBitPatternsValid"]}
{"id": "C05", "title": "gv! accepts every fixed-size structure", "statement": "gv! can generate code for every fixed-size structure type (README/lib.rs: 'Support for all GVariant types is implemented').", "quantifier": "every fixed-size structure type", "why_tests_cant": "unbounded family of types", "anchors": ["gvariant-macro/src/generate_impl.rs: write_packed_struct"]}
{"id": "C06", "title": "Generated names do not clash", "statement": "Within one gv! invocation distinct structure types get distinct Rust names and no structure is defined twice.", "quantifier": "every type string", "why_tests_cant": "unbounded family of type strings", "anchors": ["gvariant-macro/src/generate_impl.rs: generate_types, escape", "gvariant-macro/src/lib.rs: marker_type"]}
{"id": "C07", "title": "Structure offset table equals sequential layout", "statement": "The compile-time (i,a,b,c) table, applied to any end offset of the preceding variable-size child, gives the start the GVariant rules give by walking the children one by one and aligning each.", "quantifier": "every list of child types and every run-time framing offset", "why_tests_cant": "the offset is a run-time value and the child list is unbounded", "anchors": ["gvariant-macro/src/generate_impl.rs: generate_table", "gvariant/src/lib.rs: calc_offsets"]}
{"id": "C08", "title": "Reading arbitrary bytes is memory safe", "statement": "Casting any correctly aligned byte buffer to any type and then reading everything reachable through the public accessors never reads outside the buffer and never forms a misaligned reference (no undefined behaviour), in debug or release.", "quantifier": "every type, every byte buffer at every suitably aligned address, every build mode", "why_tests_cant": "all inputs of all lengths; UB need not show up in a test", "anchors": ["gvariant/src/lib.rs: Cast, get_child_elem, NonFixedWidthArray, MaybeNonFixedSize, Variant", "gvariant/src/casting.rs: cast_slice, try_cast_slice_to", "gvariant/src/aligned_bytes.rs: Index impls"]}
{"id": "C09", "title": "Reading arbitrary bytes never panics", "statement": "Casting any correctly aligned byte buffer to any type and reading everything reachable never panics ('This always succeeds', 'safe to run on untrusted input').", "quantifier": "every type and every byte buffer", "why_tests_cant": "all inputs; the panicking ones are non-normal and not in the corpus", "anchors": ["gvariant/src/lib.rs: NonFixedWidthArrayIterator::next, Index for NonFixedWidthArray, MaybeNonFixedSize::to_option, Cast for [T]"]}
{"id": "C10", "title": "Decoding follows the GVariant rules on all data", "statement": "For any bytes, in normal form or not, the value seen through the accessors is the one the GVariant rules (with the documented GLib deviations) give: framing offsets, alignment, defaults for wrong sizes and for children out of range.", "quantifier": "every type and every byte buffer below 4 GiB", "why_tests_cant": "all inputs of all types", "anchors": ["gvariant/src/lib.rs: get_child_elem, calc_offsets, read_last_frame_offset, Index/Iterator of NonFixedWidthArray"]}
{"id": "C11", "title": "Fixed-size cast takes exact size only", "statement": "Casting to a fixed-size type yields the stored number (host byte order) if the length is exactly the type's size and the all-zero default otherwise.", "quantifier": "every fixed-size type and every buffer length and content", "why_tests_cant": "all lengths and all contents", "anchors": ["gvariant/src/casting.rs: try_cast_slice_to", "gvariant/src/lib.rs: Cast::from_aligned_slice, impl_cast_for"]}
{"id": "C12", "title": "Framing-offset width", "statement": "The offset width used for a container of n bytes is 0 for n=0 and otherwise the smallest of 1,2,4,8 able to represent n; reader and writer agree on it for every container.", "quantifier": "every container size and every number of offsets", "why_tests_cant": "boundaries at 2^8, 2^16, 2^32; up to 2^64", "anchors": ["gvariant/src/lib.rs: offset_size, read_uint, write_offsets, read_last_frame_offset"]}
{"id": "C13", "title": "Array length, iteration and indexing agree", "statement": "For any bytes viewed as an array of variable-size elements, iter() yields exactly len() items, its i-th item is a[i], size_hint is exact after every step, and first()/last() are a[0]/a[len-1] or None when empty.", "quantifier": "every byte buffer, every element type, every index and every prefix of the iteration", "why_tests_cant": "all inputs incl. corrupt offsets", "anchors": ["gvariant/src/lib.rs: NonFixedWidthArray, NonFixedWidthArrayIterator"]}
{"id": "C14", "title": "Out-of-range indexing panics", "statement": "a[i] panics for every i >= a.len().", "quantifier": "every array buffer, every i up to usize::MAX, every build mode", "why_tests_cant": "index space is 2^64", "anchors": ["gvariant/src/lib.rs: Index for NonFixedWidthArray, read_uint"]}
{"id": "C15", "title": "Maybe semantics", "statement": "A maybe of fixed-size type is Some exactly when the length equals the element size; a maybe of variable-size type is None exactly when empty and otherwise holds the bytes minus the last one.", "quantifier": "every byte buffer and element type", "why_tests_cant": "all inputs", "anchors": ["gvariant/src/lib.rs: MaybeFixedSize::to_option, MaybeNonFixedSize::to_option"]}
{"id": "C16", "title": "Variant split and get", "statement": "split() cuts at the last zero byte, giving unit when there is none; get(m) is Some exactly when the stored type string equals m's type string, and then is the value cast from the stored bytes.", "quantifier": "every byte buffer and every marker type", "why_tests_cant": "all inputs", "anchors": ["gvariant/src/lib.rs: Variant::split, Variant::get"]}
{"id": "C17", "title": "to_str always yields a proper string", "statement": "Str::to_str returns valid UTF-8 without NULs for any bytes; it is the bytes before the final NUL when those are valid UTF-8 without NULs and empty otherwise, and in normal form equals as_bytes_non_conformant.", "quantifier": "every byte buffer", "why_tests_cant": "all byte strings", "anchors": ["gvariant/src/lib.rs: Str::to_str, as_bytes_non_conformant"]}
{"id": "C18", "title": "Accessors are zero-copy", "statement": "Every reference handed out points into the buffer that was cast (its bytes are a contiguous part of it) or to a static default value.", "quantifier": "every type and buffer", "why_tests_cant": "all inputs", "anchors": ["gvariant/src/lib.rs: get_child_elem, NonFixedWidthArray, Maybe*, Variant"]}
{"id": "C19", "title": "Children overlapping framing offsets read as default", "statement": "A child whose range would reach into the framing offsets or outside the container, or whose end precedes its start, reads as the default value of its type.", "quantifier": "every container type and every byte buffer", "why_tests_cant": "all inputs; differs from the published spec", "anchors": ["gvariant/src/lib.rs: Index/Iterator of NonFixedWidthArray, calc_offsets"]}
{"id": "C20", "title": "Equality compares values", "statement": "== on two views of the same type is true exactly when the decoded values are equal (numbers, truth values, strings, maybe/array/tuple shape; variants by type string and bytes; f64 by IEEE ==); padding and other non-canonical bytes do not matter. It is an equivalence relation for types without d.", "quantifier": "every type and every pair of buffers", "why_tests_cant": "all pairs of inputs", "anchors": ["gvariant/src/lib.rs: PartialEq impls", "gvariant-macro/src/generate_impl.rs: PartialEq generation"]}
{"id": "C21", "title": "Byte count and failing writers", "statement": "serialize returns exactly the number of bytes written; with a sink that fails after any number of bytes the error is propagated and what was written is a prefix of the full output; serialisation never panics.", "quantifier": "every serialisable value and every failure point of the sink", "why_tests_cant": "every crash point", "anchors": ["gvariant/src/lib.rs: SerializeTo impls, write_offsets, write_padding", "gvariant-macro/src/generate_impl.rs: serialize_cmds"]}
{"id": "C22", "title": "Serialisation produces normal form", "statement": "serialize writes the GVariant normal form of the value (padding, offsets, minimal offset width).", "quantifier": "every type and value", "why_tests_cant": "all values; fuzzing covers few types", "anchors": ["gvariant/src/lib.rs: SerializeTo impls, write_offsets", "gvariant-macro/src/generate_impl.rs: serialize_cmds"]}
{"id": "C23", "title": "Serialise then deserialise is the identity", "statement": "Reading back what serialize wrote gives the same value.", "quantifier": "every type and value", "why_tests_cant": "all values, all sizes around the offset-width boundaries", "anchors": ["gvariant/src/lib.rs: SerializeTo, Cast"]}
{"id": "C24", "title": "Re-serialising a view of arbitrary data", "statement": "Casting any bytes, serialising the view and casting the result gives an equal value.", "quantifier": "every type and every byte buffer", "why_tests_cant": "all inputs incl. non-normal", "anchors": ["gvariant/src/lib.rs: SerializeTo for views", "fuzz/fuzz_targets/fuzz_target_1.rs: test_cmp"]}
{"id": "C25", "title": "Normal form is unique and preserved", "statement": "Two different values never have the same normal form, and data in normal form re-serialises to the identical bytes.", "quantifier": "every type and every normal-form buffer", "why_tests_cant": "all inputs", "anchors": ["gvariant/src/lib.rs: SerializeTo, Cast"]}
{"id": "C26", "title": "Strings with embedded NULs", "statement": "Serialising a &str containing NUL fails with InvalidInput (nothing of that string is written); &Str is normalised to its to_str() value; any other &str round-trips.", "quantifier": "every string", "why_tests_cant": "all strings", "anchors": ["gvariant/src/lib.rs: SerializeTo<Str>"]}
{"id": "C27", "title": "Variant wrapping round-trips", "statement": "A value wrapped with VariantWrap (any nesting) reads back with the same type string and get() of that type gives the value back; get() with any other marker gives None.", "quantifier": "every type and value, any nesting depth", "why_tests_cant": "all types and values", "anchors": ["gvariant/src/lib.rs: VariantWrap, Variant::get"]}
{"id": "C28", "title": "try_as_aligned is a sound check", "statement": "try_as_aligned::<A> returns Ok only for slices whose address is a multiple of A, and Misaligned otherwise.", "quantifier": "every slice address and every alignment", "why_tests_cant": "addresses are environment dependent", "anchors": ["gvariant/src/aligned_bytes.rs: TryAsAligned for AlignedSlice"]}
{"id": "C29", "title": "copy_to_align", "statement": "copy_to_align returns the same bytes at an address aligned as requested, without copying exactly when the input was already aligned.", "quantifier": "every slice, every address, every allocator placement", "why_tests_cant": "depends on allocator addresses", "anchors": ["gvariant/src/aligned_bytes.rs: copy_to_align", "gvariant/src/buf.rs: AlignedBuf"]}
{"id": "C30", "title": "AlignedOffset arithmetic", "statement": "Every AlignedOffset<A> obtainable through the API is a multiple of A; align_offset(x) is the least multiple of A not below x whenever that fits in usize; try_new accepts exactly multiples.", "quantifier": "every usize and every expression built from the API", "why_tests_cant": "2^64 inputs, unbounded expressions", "anchors": ["gvariant/src/offset.rs: AlignedOffset, align_offset, try_new, Add, BitOr, From"]}
{"id": "C31", "title": "AlignedBuf behaves as a byte vector", "statement": "Under any sequence of operations (new, from Vec, with_vec with any callback that may panic, in-place writes) and any allocator placement, an AlignedBuf dereferences to exactly the bytes a plain Vec<u8> would hold, at an 8-byte aligned address if non-empty, and converting to Vec gives those bytes.", "quantifier": "every operation sequence, every callback, every sequence of allocation addresses", "why_tests_cant": "allocator addresses are always aligned in practice so the padded path is never tested", "anchors": ["gvariant/src/buf.rs: AlignedBuf, align, unalign, with_vec"]}
{"id": "C32", "title": "Empty owned buffers are aligned", "statement": "Casting an empty AlignedBuf (for instance deserialising an empty stream) to any type neither panics nor forms a misaligned reference.", "quantifier": "every type, every build mode", "why_tests_cant": "address of an empty Vec is an implementation detail", "anchors": ["gvariant/src/buf.rs: Deref for AlignedBuf, offset_to_align", "gvariant/src/casting.rs: cast_slice", "gvariant/src/lib.rs: Marker::deserialize, Marker::from_bytes"]}
{"id": "C33", "title": "Owned values keep their value", "statement": "from_bytes, deserialize and to_owned yield an owned object whose value equals that of casting the same bytes.", "quantifier": "every type, every byte buffer, every allocator placement", "why_tests_cant": "all inputs", "anchors": ["gvariant/src/lib.rs: Owned, Marker::from_bytes, Marker::deserialize, ToOwned impls"]}
{"id": "C34", "title": "Slicing keeps the promised alignment", "statement": "Every AlignedSlice<A> obtained by the slicing operators, split_at, as_aligned or empty_aligned from a correctly aligned one is correctly aligned and has exactly the requested bytes; out-of-range slicing panics.", "quantifier": "every slice, range and chain of slicing operations", "why_tests_cant": "unbounded chains", "anchors": ["gvariant/src/aligned_bytes.rs: Index impls, split_at, as_aligned, empty_aligned"]}
{"id": "C35", "title": "GString is a NUL-free string", "statement": "Under any sequence of operations a GString holds valid UTF-8 with exactly one NUL, at the end, and behaves as an ordinary NUL-free string: try_push_str appends or fails without change, len/is_empty/as_str/clear are those of the string, conversion to String and CString succeeds.", "quantifier": "every operation sequence and every argument string", "why_tests_cant": "unbounded histories", "anchors": ["gvariant/src/lib.rs: gstring::GString"]}
{"id": "C36", "title": "GString order and equality", "statement": "Comparing GStrings gives the same result as comparing the strings they hold; GString equality agrees with Str equality of the borrowed values.", "quantifier": "every pair of GStrings", "why_tests_cant": "all pairs", "anchors": ["gvariant/src/lib.rs: GString derive(PartialEq, Ord), Borrow<Str>"]}
{"id": "C37", "title": "GString::with_capacity honours its argument", "statement": "with_capacity(n) returns an empty string that can hold n bytes without reallocating (capacity() >= n); reserve(n) ensures capacity() >= len()+n.", "quantifier": "every n and every allocator rounding", "why_tests_cant": "all n", "anchors": ["gvariant/src/lib.rs: GString::with_capacity, reserve, capacity"]}
{"id": "C38", "title": "Mutable casts", "statement": "try_cast_mut succeeds exactly when the shared cast would not fall back to the default, for every type.", "quantifier": "every type and buffer", "why_tests_cant": "all inputs", "anchors": ["gvariant/src/lib.rs: Cast::try_from_aligned_slice_mut"]}
{"id": "C39", "title": "Behaviour beyond 4 GiB", "statement": "The reading rules also hold for containers of 4 GiB and more (8-byte framing offsets): corrupt offsets give default values, no panic.", "quantifier": "every buffer length up to isize::MAX", "why_tests_cant": "such inputs are too large to test", "anchors": ["gvariant/src/lib.rs: calc_offsets, align_offset, NonFixedWidthArrayIterator::next"]}
{"id": "C40", "title": "Generated defaults and derives type-check", "statement": "For every fixed-size structure the generated constant default (one literal 0 per field) and derive(Default) are well typed, so the type can be used.", "quantifier": "every fixed-size structure type", "why_tests_cant": "unbounded family of types", "anchors": ["gvariant-macro/src/generate_impl.rs: write_packed_struct (defaults, derive)"]}
{"id": "C41", "title": "gv! defines exactly the structures it needs", "statement": "The structure definitions emitted for a type string are exactly the structure types occurring in it.", "quantifier": "every type string", "why_tests_cant": "unbounded family of type strings", "anchors": ["gvariant-macro/src/generate_impl.rs: generate_types"]}
{"id": "C42", "title": "Generated names are identifiers", "statement": "Every generated structure name is a legal Rust identifier.", "quantifier": "every structure type", "why_tests_cant": "unbounded family of types", "anchors": ["gvariant-macro/src/generate_impl.rs: escape"]}
{"id": "C43", "title": "Exactly which types gv! supports", "statement": "The code gv! generates compiles exactly when no structure type occurs twice in the type string, every structure has at most 12 members, and every fixed-size structure has only integer members whose layout passes the macro's offset computation (in particular if a most strictly aligned member comes first).", "quantifier": "every type string", "why_tests_cant": "unbounded family of type strings", "anchors": ["gvariant-macro/src/generate_impl.rs: generate_tuple, write_packed_struct, generate_types"]}
{"id": "C44", "title": "align_offset, exactly", "statement": "align_offset(x) is the least multiple of A not below x whenever x + A fits in usize; without overflow checks also whenever the answer fits; with overflow checks it panics exactly when x + A does not fit.", "quantifier": "every usize, every alignment, every build mode", "why_tests_cant": "2^64 inputs; corrects C30", "anchors": ["gvariant/src/offset.rs: align_offset"]}
{"id": "C45", "title": "copy_to_align of non-empty data", "statement": "copy_to_align never fails, returns the same bytes, without copying exactly when the input was already aligned, and for non-empty data at an address aligned as requested.", "quantifier": "every slice, every address, every allocator placement", "why_tests_cant": "depends on allocator addresses; corrects C29", "anchors": ["gvariant/src/aligned_bytes.rs: copy_to_align", "gvariant/src/buf.rs: AlignedBuf"]}
{"id": "C46", "title": "try_as_aligned checks nothing", "statement": "try_as_aligned returns its argument unchanged for every slice and every pair of alignments: it never reports Misaligned.", "quantifier": "every slice address and every pair of alignments", "why_tests_cant": "addresses are environment dependent; corrects C28", "anchors": ["gvariant/src/aligned_bytes.rs: TryAsAligned for AlignedSlice"]}
{"id": "C47", "title": "GString::reserve honours its argument", "statement": "After any history, reserve(n) leaves capacity() >= len() + n.", "quantifier": "every history, every n, every allocator rounding", "why_tests_cant": "unbounded histories; the true half of C37", "anchors": ["gvariant/src/lib.rs: GString::reserve, capacity"]}
{"id": "C48", "title": "Exactly when reading panics", "statement": "Casting bytes below 4 GiB and reading everything panics exactly when some array of fixed-size elements that is directly the element of an array or maybe does not have a whole number of elements; otherwise the value is the one the GVariant rules give. So types without an array of multi-byte fixed-size elements directly inside an array or maybe never panic.", "quantifier": "every type and every byte buffer below 4 GiB", "why_tests_cant": "the panicking bytes are rare and type dependent; absence of panics needs all inputs", "anchors": ["gvariant/src/lib.rs: NonFixedWidthArrayIterator::next, Index, MaybeNonFixedSize::to_option, Cast::try_from_aligned_slice"]}
{"id": "C49", "title": "Panics beyond 4 GiB", "statement": "For buffers up to isize::MAX bytes the only panic besides those of C48 is arithmetic overflow on a corrupt offset, only with overflow checks and only at 4 GiB or more; without overflow checks types without the arrays of C48 never panic.", "quantifier": "every type, every buffer length up to isize::MAX, every build mode", "why_tests_cant": "buffers over 4 GiB are impractical to test", "anchors": ["gvariant/src/offset.rs: align_offset", "gvariant/src/lib.rs: read_uint, NonFixedWidthArray", "gvariant-macro/src/generate_impl.rs"]}
{"id": "C50", "title": "Mutable casts other than slices", "statement": "For every type except arrays of fixed-size elements try_cast_mut succeeds exactly when the length is one a value of the type can have, and agrees with the shared cast.", "quantifier": "every type and buffer", "why_tests_cant": "all types and lengths", "anchors": ["gvariant/src/lib.rs: Cast::try_from_aligned_slice_mut, Marker::try_cast_mut"]}
{"id": "C51", "title": "Out-of-range indexing, exactly", "statement": "a[i] panics for every i >= a.len(), with overflow checks for every usize, without them (in particular for i below 2^61) exactly unless i modulo 2^64 divided by the width of the framing offsets is the index of an element other than the first, when a[i] is that element; for arrays of fixed-size elements always.", "quantifier": "every array buffer, every index, every build mode", "why_tests_cant": "2^64 indices", "anchors": ["gvariant/src/lib.rs: Index for NonFixedWidthArray, read_uint"]}
{"id": "C52", "title": "Normal form, exactly", "statement": "serialize writes the GVariant normal form exactly when the last element of every array of variable-size elements, also inside wrapped variants, ends at a multiple of the element alignment; otherwise it pads after the last element too.", "quantifier": "every type and value", "why_tests_cant": "all values", "anchors": ["gvariant/src/lib.rs: SerializeTo<NonFixedWidthArray>"]}
{"id": "C53", "title": "Round trip, exactly", "statement": "Reading back what serialize wrote gives the same value exactly under the condition of C52.", "quantifier": "every type and value whose output is below 2^63 bytes, every build mode", "why_tests_cant": "all values", "anchors": ["gvariant/src/lib.rs: SerializeTo, Cast"]}
{"id": "C54", "title": "Types that always round-trip", "statement": "For types in which the elements of every array have fixed size, alignment 1, or are arrays or maybes of fixed-size values, every value is written in normal form and read back unchanged, and so is every view of arbitrary bytes.", "quantifier": "every such type and value", "why_tests_cant": "all values", "anchors": ["gvariant/src/lib.rs: SerializeTo, Cast"]}
{"id": "C55", "title": "What serialising a view writes", "statement": "Serialising a view of arbitrary bytes writes the (padded) encoding of the value read, and reading that gives the same value exactly when there was nothing to pad.", "quantifier": "every type and every buffer that can be read without panic", "why_tests_cant": "all inputs incl. non-normal", "anchors": ["gvariant/src/lib.rs: SerializeTo for views", "fuzz/fuzz_targets/fuzz_target_1.rs: test_cmp"]}
{"id": "C56", "title": "Normal forms preserved, exactly", "statement": "Data in normal form re-serialises to the identical bytes exactly when there is nothing to pad.", "quantifier": "every type and every normal-form buffer", "why_tests_cant": "all inputs", "anchors": ["gvariant/src/lib.rs: SerializeTo, Cast"]}
{"id": "C57", "title": "Variant get after wrapping, exactly", "statement": "get() on a wrapped value gives None for every other marker, and for the right one the value exactly when nothing was padded.", "quantifier": "every type and value, any nesting depth", "why_tests_cant": "all types and values", "anchors": ["gvariant/src/lib.rs: VariantWrap, Variant::get"]}
{"id": "C58", "title": "Empty owned data, exactly", "statement": "Deserialising an empty stream, from_bytes of an empty slice and to_owned of an empty view give an object that reads as the default value, unless the type is (or has at offset 0) an array of fixed-size elements of alignment above 1 and the empty data is copied to the dangling address 1; then debug builds panic and release builds form a misaligned slice.", "quantifier": "every usable type, every address and allocator placement, debug and release", "why_tests_cant": "depends on the address of an empty Vec and on the type", "anchors": ["gvariant/src/buf.rs: Deref for AlignedBuf", "gvariant/src/casting.rs: cast_slice", "gvariant/src/lib.rs: Marker::deserialize, Marker::from_bytes, Owned, ToOwned impls"]}
{"id": "C59", "title": "Non-empty owned values keep their value", "statement": "For non-empty data from_bytes, deserialize and to_owned give an object that reads exactly (value or panic) as casting the same bytes at an aligned address does.", "quantifier": "every usable type, every non-empty byte buffer, every allocator placement", "why_tests_cant": "all inputs and placements", "anchors": ["gvariant/src/lib.rs: Owned, Marker::from_bytes, Marker::deserialize, ToOwned impls"]}
{"id": "C60", "title": "Position independence", "statement": "Casting and reading gives the same result (value or panic) wherever the same bytes lie, as long as the address is aligned for the type; more generally it only depends on the bytes and on the address modulo the alignment.", "quantifier": "every accepted type, every byte buffer of any length, every pair of addresses", "why_tests_cant": "all addresses", "anchors": ["gvariant/src/lib.rs: all accessors", "gvariant-macro/src/generate_impl.rs: to_tuple"]}
{"id": "C61", "title": "Comparison with native values", "statement": "== between a view and a bool, a str, a slice of native values, an Option or another view says whether the two values are equal.", "quantifier": "every type, every readable view of arbitrary bytes, every native value of the matching shape", "why_tests_cant": "all values and buffers", "anchors": ["gvariant/src/lib.rs: PartialEq impls for Bool, Str, NonFixedWidthArray, MaybeFixedSize, MaybeNonFixedSize"]}
{"id": "C62", "title": "Order of maybes", "statement": "Maybes of numbers are ordered by value with Nothing first, only NaN being unordered, and comparing as Equal agrees with ==.", "quantifier": "every pair of views of maybes of numbers", "why_tests_cant": "all pairs of buffers", "anchors": ["gvariant/src/lib.rs: PartialOrd for MaybeFixedSize"]}
{"id": "C63", "title": "Hash agrees with equality", "statement": "Two maybes of integers feed the same data to a hasher exactly when their values are equal.", "quantifier": "every pair of views of maybes of integers", "why_tests_cant": "all pairs of buffers, incl. those of the wrong size", "anchors": ["gvariant/src/lib.rs: Hash for MaybeFixedSize"]}
{"id": "C64", "title": "Debug output depends on the value only", "statement": "{:?} of any view, and {:?} and {} of an owned copy, print a text determined by the value and the type alone.", "quantifier": "every type, every view of arbitrary bytes that can be read", "why_tests_cant": "all values and non-normal encodings of them", "anchors": ["gvariant/src/lib.rs: Debug impls, Display for Owned", "gvariant-macro/src/generate_impl.rs: generate_tuple (Debug)"]}
{"id": "C65", "title": "Printing panics only where reading does", "statement": "Formatting a view with {:?} panics exactly when reading everything reachable in it panics, and is free of undefined behaviour.", "quantifier": "every type and every view of arbitrary bytes", "why_tests_cant": "all inputs", "anchors": ["gvariant/src/lib.rs: Debug impls, Variant fmt"]}
{"id": "C66", "title": "Serialising to a Vec is infallible", "statement": "serialize_to_vec never panics ('Serialization to Vec should be infallible').", "quantifier": "every type and every value that can be passed", "why_tests_cant": "all values", "anchors": ["gvariant/src/lib.rs: Marker::serialize_to_vec"]}
{"id": "C67", "title": "Serialising to a Vec, exactly", "statement": "serialize_to_vec panics exactly when the value contains a Rust string with a NUL byte in it, and otherwise returns exactly the bytes serialize writes.", "quantifier": "every type and value", "why_tests_cant": "all values; corrects C66", "anchors": ["gvariant/src/lib.rs: Marker::serialize_to_vec, SerializeTo<Str>"]}
{"id": "C68", "title": "The fuzz target's own assertions hold", "statement": "No assertion of the fuzz target that does not involve GLib can fail, for any input.", "quantifier": "every input and every allocator placement", "why_tests_cant": "all inputs; fuzzing samples them", "anchors": ["fuzz/fuzz_targets/fuzz_target_1.rs: test_cmp, fuzz_target"]}
{"id": "C69", "title": "ostree-ls prints the tree", "statement": "The example program prints, for every file below 4 GiB, well-formed or not (and for longer ones whose framing offsets are below 2^63), one line per directory and one per file of the tree the file denotes, and never panics once it has been read.", "quantifier": "every such file content and every allocator placement", "why_tests_cant": "all file contents", "anchors": ["examples/ostree-ls/src/main.rs: ostree_ls"]}
{"id": "C70", "title": "gv! types are distinct", "statement": "gv! gives two GVariant types the same Rust type exactly when they differ at most in calling a string a string, an object path or a signature, outside structures; so a view of one type cannot be passed where another is meant. Strings that are not the type string of a type make the macro panic while compiling.", "quantifier": "every pair of types, every string", "why_tests_cant": "unbounded family of types", "anchors": ["gvariant-macro/src/lib.rs: gv_type, marker_type"]}
{"id": "C71", "title": "Generated code only names what exists", "statement": "The Rust type of every gv! invocation and the field types of every structure it generates only mention built-in types and structures that the same invocation generates.", "quantifier": "every type", "why_tests_cant": "unbounded family of types", "anchors": ["gvariant-macro/src/lib.rs: marker_type", "gvariant-macro/src/generate_impl.rs: generate_types, write_packed_struct, write_non_fixed_size_structure"]}
{"id": "C72", "title": "The fuzz target, exactly", "statement": "The fuzz target's assertions other than those about GLib values hold whenever the input length is a positive multiple of 4; test_cmp's round-trip and normal-form assertions hold for every type that C48 and C54 say can always be read and re-read, if the normal form is not empty or the alignment is 1.", "quantifier": "every input and every allocator placement", "why_tests_cant": "all inputs; corrects C68", "anchors": ["fuzz/fuzz_targets/fuzz_target_1.rs: test_cmp, fuzz_target"]}
{"id": "C73", "title": "Reading beyond 4 GiB", "statement": "Bytes of any length below 2^63 read as the GVariant rules say (and panic exactly where C48 says) in every build, as long as the framing offsets used are below 2^63, as all those of buffers below 4 GiB are.", "quantifier": "every type, every buffer below 2^63 bytes, every build mode", "why_tests_cant": "such inputs are too large to test", "anchors": ["gvariant/src/lib.rs: calc_offsets, align_offset, NonFixedWidthArrayIterator::next"]}
{"id": "C74", "title": "Long normal forms", "statement": "Every value whose normal form is shorter than 2^63 bytes is read back from it, in every build.", "quantifier": "every type, every value, every build mode", "why_tests_cant": "such inputs are too large to test", "anchors": ["gvariant/src/lib.rs: Cast, to_rs, calc_offsets"]}
{"id": "C75", "title": "Builds with overflow checks", "statement": "With overflow checks reading any bytes below 2^63 gives the value the rules say, panics as C48 says, or panics with an arithmetic overflow, the latter only if some framing offset is 2^63 or more.", "quantifier": "every type, every buffer below 2^63 bytes", "why_tests_cant": "such inputs are too large to test", "anchors": ["gvariant/src/lib.rs: calc_offsets, align_offset"]}
{"id": "C76", "title": "Children out of range, exactly", "statement": "A child whose range leaves its container, reaches into the framing offsets or ends before it starts reads as the default value of its type if no framing offset of the container is 2^63 or more, in every build.", "quantifier": "every container type, every buffer below 2^63 bytes, every build mode", "why_tests_cant": "all inputs incl. non-normal and huge", "anchors": ["gvariant/src/lib.rs: calc_offsets, NonFixedWidthArray::index"]}
{"id": "C77", "title": "Exactly which types can panic", "statement": "For every type that has an array of multi-byte fixed-size elements directly inside an array or maybe, and for no other, there are bytes (at most 24 per character of the type string) that panic when read, at every aligned address and in every build.", "quantifier": "every type, address and build mode", "why_tests_cant": "one input per type out of an unbounded family; converse of C48", "anchors": ["gvariant/src/lib.rs: NonFixedWidthArray::index, MaybeNonFixedSize::to_option"]}
{"id": "C78", "title": "Constructed structures", "statement": "The memory of a value made with the generated const constructors is fully determined (no uninitialised padding), has the GVariant size, reads back as the fields given, and is the normal form of that value if its booleans are 0 or 1.", "quantifier": "every fixed-size type and every value of its Rust type", "why_tests_cant": "all layouts and values", "anchors": ["gvariant-macro/src/generate_impl.rs: write_packed_struct (new)"]}
{"id": "C79", "title": "Assigning to a field", "statement": "Assigning to a field, at any nesting depth, of a structure obtained with try_cast_mut changes the bytes of that field only, and reading the whole afterwards gives the old value with that member replaced; for bytes of another length try_cast_mut gives an error.", "quantifier": "every fixed-size type, every field path, every value, every aligned byte slice", "why_tests_cant": "all layouts and values", "anchors": ["gvariant/src/lib.rs: Marker::try_cast_mut", "gvariant-macro/src/generate_impl.rs: write_packed_struct", "gvariant/src/casting.rs: try_cast_slice_to_mut"]}
{"id": "C80", "title": "Writing into a buffer", "statement": "After any sequence of byte and field assignments through chains of mutable slices of an AlignedBuf, mixed with the operations of C31, the buffer holds what the same assignments make of a plain vector; it panics exactly when a range or index is out of range.", "quantifier": "every history, every allocator placement", "why_tests_cant": "all histories", "anchors": ["gvariant/src/buf.rs: DerefMut for AlignedBuf", "gvariant/src/aligned_bytes.rs: IndexMut impls, as_aligned_mut", "gvariant/src/lib.rs: Marker::try_cast_mut"]}
{"id": "C81", "title": "Slices of numbers from bytes", "statement": "TryInto<&[T]> for the number types gives the whole slice exactly when its length is a multiple of the element size, and an error otherwise.", "quantifier": "every number type, every aligned byte slice", "why_tests_cant": "all lengths", "anchors": ["gvariant/src/casting.rs: unsafe_fixed_bytes_to_type, cast_slice"]}
{"id": "C82", "title": "Children do not share bytes", "statement": "Distinct elements of an array and distinct members of a structure never cover the same bytes.", "quantifier": "every container type, every buffer", "why_tests_cant": "all inputs incl. hostile framing offsets", "anchors": ["gvariant/src/lib.rs: NonFixedWidthArray::index, calc_offsets"]}
{"id": "C83", "title": "Children lie one after another", "statement": "If the framing offsets put no child out of range (as in every normal form), the elements of an array, fixed-size or not, and the members of a structure that have any bytes lie in memory in order and without overlap, in every build.", "quantifier": "every container type, every buffer below 2^63 bytes, every build mode", "why_tests_cant": "all inputs; corrects C82", "anchors": ["gvariant/src/lib.rs: NonFixedWidthArrayIterator::next, calc_offsets, get_child_elem", "gvariant-macro/src/generate_impl.rs: write_non_fixed_size_structure"]}
{"id": "C84", "title": "Reading does not amplify", "statement": "The amount of data reading a buffer gives (nodes plus bytes of strings and variants) is at most proportional to the length of the buffer.", "quantifier": "every type, every buffer", "why_tests_cant": "all inputs incl. hostile framing offsets", "anchors": ["gvariant/src/lib.rs: NonFixedWidthArrayIterator::next"]}
{"id": "C85", "title": "Amplification is bounded", "statement": "The amount of data reading n bytes of type t gives is at most 3 * (length of the type string) * (n+1)^(1+k), k being how many arrays of variable-size elements are nested in each other in t; fixed-size types and types without such arrays are linear in n, and so is reading if no child is out of range, as in normal forms.", "quantifier": "every type, every buffer below 2^63 bytes, every build", "why_tests_cant": "all inputs; corrects C84, whose counterexamples show the exponent is right", "anchors": ["gvariant/src/lib.rs: NonFixedWidthArrayIterator::next, calc_offsets"]}
{"id": "C86", "title": "Type strings are GVariant's", "statement": "gv! accepts exactly the definite type strings of the GVariant specification: basic types bynqiuxthdsog, v, a and m, tuples, and dictionary entries whose key is basic.", "quantifier": "every byte string", "why_tests_cant": "the set of type strings is infinite and nesting is unbounded", "anchors": ["gvariant-macro/src/type_parser.rs: one, parse_one_type_spec"]}
{"id": "C87", "title": "How type strings differ from GVariant's", "statement": "A type string gv! accepts is a definite GVariant type string just if the key of every dictionary entry in it is a basic type; a definite GVariant type string is accepted just if no handle (h) occurs in it.", "quantifier": "every byte string", "why_tests_cant": "infinite set of strings; corrects C86", "anchors": ["gvariant-macro/src/type_parser.rs: one, parse_one_type_spec"]}
{"id": "C88", "title": "Parse errors are accurate", "statement": "The text of the error for a rejected type string tells what is wrong with it: empty; more than one type exactly if a proper prefix is a type string; item type required, EOF in tuple, EOF in entry and EOF when expecting } exactly if the string can be continued to a type string, according to what may come next; Expected } and Unexpected charactor exactly if the string can be continued up to some character but not with it.", "quantifier": "every byte string", "why_tests_cant": "infinite set of strings; the errors are told apart by all possible continuations", "anchors": ["gvariant-macro/src/type_parser.rs: one, parse_one_type_spec, ParseError"]}
{"id": "C89", "title": "deserialize reads everything", "statement": "deserialize gives the object whose data are all the bytes the reader delivers up to its end, however they are divided into reads and however often it is interrupted, and the reader's error if there is one before.", "quantifier": "every reader (sequence of read results), type, allocator placement, non-empty data", "why_tests_cant": "all divisions into reads, all data", "anchors": ["gvariant/src/lib.rs: Marker::deserialize"]}
{"id": "C90", "title": "Debug tells values apart", "statement": "Two values of one type that print alike with {:?} are equal.", "quantifier": "every type, all pairs of values", "why_tests_cant": "infinitely many values; nesting and quoting could collide", "anchors": ["gvariant/src/lib.rs: Debug impls", "gvariant-macro/src/generate_impl.rs: Debug"]}
{"id": "C91", "title": "Debug tells legible values apart", "statement": "Two values of one type, without NaNs and with all type strings of variants UTF-8, that print alike with {:?} are equal; numbers are written so that they read back, strings end at their closing quote, type strings are altered just if not UTF-8, and then as Unicode recommends (U+FFFD for every maximal part of a character, or for a byte that begins none).", "quantifier": "every type, all pairs of views on any hosts, all tables of printable characters, every injective way of writing doubles", "why_tests_cant": "infinitely many values; corrects C90", "anchors": ["gvariant/src/lib.rs: Debug impls, DisplayUtf8Lossy", "gvariant-macro/src/generate_impl.rs: Debug"]}
{"id": "C92", "title": "Strings survive panics", "statement": "After any sequence of calls on a GString of which some panic for want of memory or because the capacity overflows, the string holds a valid NUL-free text with one NUL at the end: that of the calls that did not panic, plus nothing of the others. clear never panics, and after reserve(n) returned, appending n bytes in all does not panic.", "quantifier": "all initial strings, all sequences of calls, every pattern of granted and refused allocations", "why_tests_cant": "unbounded histories with failures at every point", "anchors": ["gvariant/src/lib.rs: GString::try_push_str, clear, reserve"]}
{"id": "C93", "title": "Buffers survive panics", "statement": "If callbacks of AlignedBuf::with_vec panic at any point, the buffer afterwards holds what the callback left in the vector, at an aligned address if not empty, the panic goes on to the caller, and later calls work as usual, as long as there is memory for aligning.", "quantifier": "all buffers, all sequences of callbacks that return or panic, all placements by the allocator", "why_tests_cant": "unbounded histories of arbitrary callbacks", "anchors": ["gvariant/src/buf.rs: AlignedBuf::with_vec"]}
{"id": "C94", "title": "A child depends on few bytes", "statement": "An element of an array depends only on its own bytes, the last framing offset, its own and the one before; a member of a structure or dictionary entry only on its own bytes, the framing offset of the last variable-size member before it and its own if it has one. Changing any other byte of a container of the same length changes nothing about the child: its place, its bytes and hence its value.", "quantifier": "all types, all bytes in normal form or not, all positions, all pairs of containers of the same length and address", "why_tests_cant": "relates two arbitrary readings", "anchors": ["gvariant/src/lib.rs: NonFixedWidthArray::index, read_framing_offset", "gvariant-macro/src/lib.rs: generated to_tuple"]}
{"id": "C95", "title": "Documented deviations are the only ones", "statement": "Data to which none of the documented deviations applies (children overlapping framing offsets, strings that are not UTF-8 or have a NUL inside, invalid object paths and signatures, type strings of variants) reads exactly as the text of the GVariant Specification says; normal forms are such data. Where a deviation applies, the result is the documented one.", "quantifier": "all types, all bytes, both byte orders, any notion of valid path, signature and type string", "why_tests_cant": "compares two decoders on every input", "anchors": ["gvariant/src/lib.rs: module documentation, Deviations from the Specification", "gvariant/src/lib.rs: Str::to_str, Variant::split, NonFixedWidthArray::index"]}
{"id": "C96", "title": "Variant equality is right in normal form", "statement": "Comparing two variants with == gives, for data in normal form, the same answer as comparing their contents.", "quantifier": "all types, all values, all addresses", "why_tests_cant": "claim of the documentation about every value", "anchors": ["gvariant/src/lib.rs: Variant, documentation and PartialEq"]}
{"id": "C97", "title": "What variant equality means", "statement": "Variants in normal form are equal exactly when type and value are the same, so without doubles == on them is == on their contents. Whatever the data, equal variants have contents that read the same for every marker; there are false negatives, as documented, for data not in normal form. The comparison is reflexive, contrary to the documentation.", "quantifier": "all bytes, all types, all addresses", "why_tests_cant": "all pairs of byte strings", "anchors": ["gvariant/src/lib.rs: Variant::get, split, PartialEq"]}
{"id": "C98", "title": "Any writer gets the same bytes", "statement": "Serialising to a writer that takes a few bytes at a time or is interrupted delivers all bytes; the first call of write that fails or takes nothing before all bytes are taken ends it with its error, the bytes taken so far being the beginning of the output. What is offered to a writer does not depend on it.", "quantifier": "all types and values, every sequence of answers of the writer, every implementation of Write", "why_tests_cant": "unbounded histories of calls", "anchors": ["gvariant/src/lib.rs: SerializeTo::serialize(f: &mut impl Write), Marker::serialize"]}
{"id": "C99", "title": "Byte order", "statement": "The same bytes read on a machine of the other byte order give the same value with the bytes of every number turned round, and what the other machine writes is what this one writes for that value; framing offsets do not depend on the byte order. Exactly the types without numbers of several bytes read the same everywhere.", "quantifier": "all types, all bytes, all values, both byte orders", "why_tests_cant": "relates all readings on two machines", "anchors": ["gvariant/src/lib.rs: numbers, from_ne_bytes / to_ne_bytes; read_uint, write_offsets"]}
{"id": "C100", "title": "What is read is valid", "statement": "Whatever the bytes, reading gives a value of the type: numbers in range, strings that are UTF-8 without NUL, type strings of variants without NUL, structures with the right number of members.", "quantifier": "all types, all bytes", "why_tests_cant": "arbitrary bytes, in particular hostile ones", "anchors": ["gvariant/src/lib.rs: Str::to_str, Variant::split, Marker::cast"]}
{"id": "C101", "title": "Buffers survive want of memory", "statement": "If with_vec panics, be it in the callback or because there is no memory for aligning the buffer again, the buffer afterwards holds what the callback left.", "quantifier": "every buffer, every callback, every allocator", "why_tests_cant": "allocation failures at a particular point", "anchors": ["gvariant/src/buf.rs: with_vec, RealignGuard, align_cold"]}
{"id": "C102", "title": "Buffers without memory, exactly", "statement": "If there is memory for aligning, the buffer holds what the callback left. If not, it holds that without the bytes before the next multiple of eight, or, if there are fewer, panics at every use; nothing worse happens. If the callback panicked as well, the program is aborted.", "quantifier": "every sequence of calls, every callback, every allocator", "why_tests_cant": "allocation failures at any point of a history", "anchors": ["gvariant/src/buf.rs: with_vec, RealignGuard, align_cold, unalign_cold, Deref"]}
{"id": "C103", "title": "no-std support", "statement": "The crate can be built without the std feature (documented: 'Disable this feature for no-std support').", "quantifier": "every selection of features", "why_tests_cant": "tests run with the default features", "anchors": ["gvariant/src/lib.rs: crate documentation, cfg_attr no_std; gvariant/src/aligned_bytes.rs: imports"]}
{"id": "C104", "title": "Names need std", "statement": "With the default features all names that depend on features are there; without std there are always some that are not: with alloc alone the uses of std and of Write not under the std guard, with neither all uses not under a guard.", "quantifier": "every selection of features", "why_tests_cant": "tests run with the default features", "anchors": ["gvariant/src/lib.rs: items under cfg; gvariant/src/aligned_bytes.rs: imports; gvariant/src/buf.rs: Debug"]}
{"id": "C105", "title": "Views and bytes can be serialised", "statement": "What was read can be passed to serialize as it is (a reference to the marker type implements SerializeTo the marker type), and &[u8] can be serialised as a string (documented at SerializeTo).", "quantifier": "every type string", "why_tests_cant": "whether a program compiles is not tested", "anchors": ["gvariant/src/lib.rs: SerializeTo and its impls; gvariant-macro/src/generate_impl.rs: write_non_fixed_size_structure, write_packed_struct"]}
{"id": "C106", "title": "What can be serialised", "statement": "A view can be passed to serialize exactly if its type has no structure and no maybe of a boolean in it. Each type has a Rust type that can be passed, also as a member of a structure. What is passed as a structure is a reference to a tuple with as many members, none of which has anything in it that cannot be copied. All that can be passed is a value of the type.", "quantifier": "every type, every Rust type made of numbers, bool, strings, references, boxes, options, tuples, vectors, arrays, slices, iterators and the crate's own types", "why_tests_cant": "whether a program compiles is not tested", "anchors": ["gvariant/src/lib.rs: SerializeTo and its impls; gvariant-macro/src/generate_impl.rs: write_non_fixed_size_structure, write_packed_struct; gvariant-macro/src/lib.rs: marker_type"]}
{"id": "C107", "title": "Iterators go on after panics", "statement": "If a program catches panics of next() and goes on calling it, call i gives a[i] or its panic, and from the length on None.", "quantifier": "every array of variable-size elements, every number of calls", "why_tests_cant": "tests do not catch panics", "anchors": ["gvariant/src/lib.rs: NonFixedWidthArrayIterator::next"]}
{"id": "C108", "title": "Iterators and panics, exactly", "statement": "Call i of next() gives a[i] or panics as a[i] does, and from the length on None, until computing an element overflows; from then on every call panics so. There is no overflow without overflow checks or below 4 GiB.", "quantifier": "every array of variable-size elements, every number of calls, every build", "why_tests_cant": "tests do not catch panics", "anchors": ["gvariant/src/lib.rs: NonFixedWidthArrayIterator::next, Index"]}
{"id": "C109", "title": "Offsets and slices implement what they derive", "statement": "AlignedOffset<A> implements PartialEq, Eq, PartialOrd and Ord, and AlignedSlice<A> implements Eq.", "quantifier": "every alignment", "why_tests_cant": "no test compares two offsets", "anchors": ["gvariant/src/offset.rs: AlignedOffset; gvariant/src/aligned_bytes.rs: AlignedSlice, A1, A2, A4, A8"]}
{"id": "C110", "title": "Comparing offsets and slices", "statement": "Of what they derive, AlignedOffset has Debug, Copy and Clone, AlignedSlice Debug. Offsets compare with usize, in both directions, as numbers do, are obtained from exactly the multiples of the alignment and print as the decimal digits of the number, without leading zeros; aligned slices are equal exactly if their bytes are.", "quantifier": "every alignment, every number, every slice", "why_tests_cant": "all numbers", "anchors": ["gvariant/src/offset.rs: PartialEq, PartialOrd, TryFrom, Display; gvariant/src/aligned_bytes.rs: PartialEq for AlignedSlice"]}
{"id": "C111", "title": "Which types implement Eq, Hash, PartialOrd and Ord", "statement": "Views implement Eq exactly if there is no double, variant or structure in the type, and == is reflexive then; Hash exactly for integers and slices and maybes of integers; PartialOrd for these and doubles; Ord for integers and slices of integers. Owned strings implement all but Hash.", "quantifier": "every type, every pair of views", "why_tests_cant": "tests compare a few values", "anchors": ["gvariant/src/lib.rs: Eq, Hash and PartialOrd impls; gvariant-macro/src/generate_impl.rs: write_packed_struct"]}
{"id": "C112", "title": "The structure table is the Specification's", "statement": "The macro's generate_table computes the table of the Specification's generate_table (3.2.2). After the reduction of 3.2.3, which changes no start, a bitwise or gives every start correctly (3.2.4). The macro uses the or without the reduction, and on (yii) gets a wrong start.", "quantifier": "every list of member types, every framing offset", "why_tests_cant": "tests have a few structures", "anchors": ["gvariant-macro/src/generate_impl.rs: generate_table, write_packed_struct; docs/gvariant-serialisation.pdf: 3.2.2-3.2.4"]}
{"id": "C113", "title": "Conversion to the other byte order", "statement": "Data of a type without framing offsets, and data in normal form, can be converted to the other byte order in place; other data cannot always be.", "quantifier": "every type, every byte sequence, every value, both byte orders", "why_tests_cant": "no test runs on two byte orders", "anchors": ["gvariant/src/lib.rs: cast impls of the integers, f64, arrays and structures; docs/gvariant-serialisation.pdf: 3.1"]}
{"id": "C114", "title": "Comparisons the documents promise", "statement": "The comparison in the README compiles, and the two views of maybes have the same interface.", "quantifier": "the README's example; every element type of a maybe", "why_tests_cant": "the README's example is not compiled by any test", "anchors": ["README.md:7-10; gvariant/src/lib.rs: GString, MaybeFixedSize, MaybeNonFixedSize (documentation and PartialEq, PartialOrd, Hash impls)"]}
{"id": "C115", "title": "What == accepts, and its answer", "statement": "Views compare with views of the same type; views of maybes compare with options exactly if the element has a fixed size; owned strings compare only with owned strings; == is accepted one way round if it is the other way round; whatever rustc accepts opposite a view (views, bools, texts, and references, slices, arrays and vectors of such, options of views), the answer is whether the two values are equal.", "quantifier": "every type without o and g, every view, every Rust type and value that may be compared with it", "why_tests_cant": "tests compare a few types", "anchors": ["gvariant/src/lib.rs: PartialEq impls; gvariant-macro/src/generate_impl.rs: PartialEq impls"]}
{"id": "C116", "title": "Casting functions with any alignment", "statement": "cast_slice, for any declared alignment and any element size and alignment, panics if the declared alignment is below the element's, gives the whole slice if its length is a multiple of the element's size and an error otherwise; it has no undefined behaviour and its debug assertion never fails. try_cast_slice_to does the same for one value if AlignOf is correct or conservative; if AlignOf is too small, there are slices for which it panics in debug builds and makes a misaligned reference in others.", "quantifier": "every alignment 2^a and 2^j, every size, every slice", "why_tests_cant": "the crate only uses it with equal alignments", "anchors": ["gvariant/src/casting.rs: cast_slice, try_cast_slice_to, AlignOf"]}
{"id": "C117", "title": "Format flags", "statement": "With any format flags, what a view or an owned value prints depends on its value and the flags alone. With # (as in {:#?}) slices, maybes and structures go over several lines, indented by depth; variants and arrays of variable-size elements are always printed plainly, on one line. Printing panics exactly when reading does.", "quantifier": "every type, every view, every value, every choice of flags", "why_tests_cant": "tests print a few values with {:?}", "anchors": ["gvariant/src/lib.rs: Debug and Display impls; gvariant-macro/src/generate_impl.rs: Debug impl"]}
{"id": "C118", "title": "{:#?} tells legible values apart", "statement": "Values of one type that print alike with {:#?} are equal, if no double in them is a NaN and the type strings of their variants are UTF-8.", "quantifier": "every type, every two views, every two machines", "why_tests_cant": "tests compare texts with {:?} only", "anchors": ["gvariant/src/lib.rs: Debug impls; gvariant-macro/src/generate_impl.rs: Debug impl"]}
{"id": "C119", "title": "Sums that wrap around", "statement": "Builds without overflow checks read any bytes exactly as the rules of GVariant say with the places where children start (and fixed-size children end) taken modulo 2^64, and panic exactly where those rules say so; if all framing offsets used are below 2^63, as in any buffer below 4 GiB, that is the same as the rules themselves.", "quantifier": "every type, every buffer below 2^63 bytes, every build without overflow checks", "why_tests_cant": "exact for all bytes, also where C19 and C39 fail; the failing data is over 4 GiB", "anchors": ["gvariant/src/lib.rs: NonFixedWidthArrayIterator::next, NonFixedWidthArray::index, calc_offsets; gvariant/src/offset.rs: align_offset"]}
{"id": "C120", "title": "Exactly what the printed text tells", "statement": "Two views of one type print alike with {:?} if and only if their values are the same but for doubles that are written alike and for type strings of variants that from_utf8_lossy turns into the same text; with {:#?} likewise. So {:#?} tells no more and no less than {:?}.", "quantifier": "every type, every two views, every two machines, every way of writing doubles in the characters of numbers", "why_tests_cant": "C91 and C118 without conditions on the values, and their converses", "anchors": ["gvariant/src/lib.rs: Debug impls; gvariant-macro/src/generate_impl.rs: Debug impl"]}
{"id": "C121", "title": "The macros emit Rust text", "statement": "For every type string that C05 lets through, and for no other string, define_gv! produces text; it is the concatenation of the text of each structure in the type, innermost first. The text is ASCII, is a sequence of Rust tokens with matching delimiters (so that parse().unwrap() cannot fail), and is a sequence of items that declare these structures in that order. The same holds of the type gv_type! names.", "quantifier": "every string, every type", "why_tests_cant": "the templates are strings with holes; a type whose name or comment broke the surrounding text would make the macro panic", "anchors": ["gvariant-macro/src/lib.rs: define_gv, gv_type, marker_type; gvariant-macro/src/generate_impl.rs: generate_types, generate_tuple, write_non_fixed_size_structure, write_packed_struct"]}
{"id": "C122", "title": "The emitted declarations", "statement": "The text emitted for a structure of variable size declares a struct of that name over bytes aligned as the type is; for a structure of fixed size, a struct with one field per component, of the component's type, and padding fields such that, laid end to end, each field lies where GVariant places the component and the last ends at the size of the type. Field names are distinct. new takes a parameter for each component and sets its field to it, and the padding to zeros. The traits are implemented for that struct, AlignOf with the alignment of the type.", "quantifier": "every structure type for which the macro emits text", "why_tests_cant": "what the layout properties (C04, C05, C44) assume about the declared struct, shown of the emitted text itself", "anchors": ["gvariant-macro/src/generate_impl.rs: write_non_fixed_size_structure, write_packed_struct"]}
{"id": "C123", "title": "The emitted functions", "statement": "In the text emitted for a structure of variable size, to_tuple reads each component with its type, its size, the number of framing offsets, the row of the table of section 3.2 of the GVariant Specification, and last_child for the last only; serialize, run with what serialising each component writes, writes the structure as GVariant lays it out. For fixed size, to_tuple and eq go over every field once and in order, default_ref has a 0 for each component, and serialize writes the structure as GVariant lays it out.", "quantifier": "every structure type for which the macro emits text; all bytes the components may be written as", "why_tests_cant": "the code generator is where the offsets are; a wrong number in a template is silent data corruption", "anchors": ["gvariant-macro/src/generate_impl.rs: write_non_fixed_size_structure, write_packed_struct, generate_table"]}
{"id": "C124", "title": "The rest of the emitted code", "statement": "The struct emitted for a structure of variable size is repr(transparent) and every unsafe cast in its implementation is to it from bytes of the alignment it is declared with; one of fixed size is repr(C) and its casts are those of the casting module. RefTuple, the return type of to_tuple and the tuple the structure converts into list the types of the components in order, and SerializeTo takes tuples with one parameter for each component, bound by its type. The bodies of from, Debug::fmt, and, for variable size, eq and to_owned are calls of to_tuple and from_bytes.", "quantifier": "every structure type for which the macro emits text", "why_tests_cant": "a missing repr or a cast from bytes of another alignment is undefined behaviour that nothing else in the code would notice", "anchors": ["gvariant-macro/src/generate_impl.rs: write_non_fixed_size_structure, write_packed_struct, generate_tuple"]}
{"id": "C125", "title": "Names in the emitted code", "statement": "Every identifier in the text define_gv emits, and in the type beside it, is of the Rust language, of the prelude or the standard library, exported by gvariant, one of the fixed names of the templates, a numbered field, padding or type parameter, or the name of a structure declared in the same text; no structure declared there has a name of one of the other kinds.", "quantifier": "every type for which define_gv emits text", "why_tests_cant": "a name that is not declared, or one that hides another, makes gv! fail to compile for some types only", "anchors": ["gvariant-macro/src/generate_impl.rs: generate_types, generate_tuple, write_non_fixed_size_structure, write_packed_struct, escape", "gvariant-macro/src/lib.rs: marker_type", "gvariant/src/lib.rs: macro gv"]}
{"id": "C126", "title": "Running the emitted to_tuple", "statement": "The to_tuple of the emitted text, executed call by call as it is written there with get_child_elem of lib.rs (or, for a fixed-size structure, field by field at the places the declared fields have), returns references from which exactly the components of the value the bytes stand for in GVariant are read, or the panic of C48.", "quantifier": "every structure type for which text is emitted, every aligned slice (shorter than 4 GiB, or of the size of the fixed-size structure), both byte orders", "why_tests_cant": "C122 and C123 say what the numbers in the text are; this says that those numbers, given to the library function as it is, find the right bytes", "anchors": ["gvariant-macro/src/generate_impl.rs: write_non_fixed_size_structure, write_packed_struct", "gvariant/src/lib.rs: get_child_elem, calc_offsets, nth_last_frame_offset"]}
{"id": "C127", "title": "Running the emitted serialize", "statement": "The serialize of the emitted text, executed statement by statement as it is written there with the library's write_padding and write_offsets and each component's own serialize, writes the bytes C21 says and returns their number, also to a sink that fails after some bytes.", "quantifier": "every structure type for which text is emitted, every value of it without nul characters in strings, every sink, both byte orders", "why_tests_cant": "C123 says what the statements add up to for given bytes of the components; this runs them against the writer, errors included", "anchors": ["gvariant-macro/src/generate_impl.rs: write_non_fixed_size_structure, write_packed_struct", "gvariant/src/lib.rs: write_padding, write_offsets"]}
{"id": "C128", "title": "The documented way to read a file", "statement": "The example in the documentation of aligned_bytes for reading data from a file into an aligned buffer leaves the file's bytes in the buffer.", "quantifier": "every reader", "why_tests_cant": "users copy it; it reads into an empty slice and so reads nothing", "anchors": ["gvariant/src/aligned_bytes.rs: module documentation, lines 32-44", "gvariant/src/buf.rs: From<Vec<u8>> for AlignedBuf"]}
{"id": "C129", "title": "Reading files, as the other examples do it", "statement": "The examples with read_to_end, in the crate's documentation and in that of AlignedBuf::with_vec, leave all of the file's bytes, 8-byte aligned, in the buffer; the reader's error is returned, with with_vec along with a buffer that has what was read before. with_vec puts what is read after what the buffer held.", "quantifier": "every reader, every placement of vectors by the allocator", "why_tests_cant": "the corrected form of C128", "anchors": ["gvariant/src/lib.rs: crate documentation", "gvariant/src/buf.rs: AlignedBuf::with_vec, From<Vec<u8>> for AlignedBuf"]}
{"id": "C130", "title": "Converting AlignedBuf is cheap", "statement": "Converting a vector at an 8-byte aligned address to an AlignedBuf and back leaves it as it is; any other gets less than 8 bytes of padding before the data, which the conversion back removes without moving the vector.", "quantifier": "every vector and placement", "why_tests_cant": "documented: conversion between AlignedBuf and Vec is in practice a noop", "anchors": ["gvariant/src/buf.rs: AlignedBuf documentation, From<Vec<u8>> for AlignedBuf, From<AlignedBuf> for Vec<u8>"]}
{"id": "C131", "title": "Running the emitted eq, new and default_ref", "statement": "Of the text emitted for a fixed-size structure, eq, executed as it is written there on the fields at the places the declaration gives them, says whether the values are equal; new makes of its arguments the bytes GVariant has for the structure, whatever was in memory before; default_ref has the default value. The declared fields leave no gaps in memory.", "quantifier": "every fixed-size structure gv! supports, all bytes, all arguments", "why_tests_cant": "what C11, C20 and C78 say is so of the emitted text, not of a reading of the templates", "anchors": ["gvariant-macro/src/generate_impl.rs: write_packed_struct"]}
{"id": "C132", "title": "Debug and release builds agree", "statement": "What a build with overflow checks, or with overflow checks and debug assertions, gives for reading, iterating, comparing, hashing, printing, owning, serialising and assigning, and for the fuzz target whatever GLib answers, is what the build without them gives, unless one of the checks fails; a release build never gives another answer than the debug build does.", "quantifier": "every type, all bytes at any address, every value and writer, no hypothesis", "why_tests_cant": "all inputs in two builds; what is tested in debug builds runs in release builds", "anchors": ["gvariant/src/lib.rs: whole file", "gvariant/src/aligned_bytes.rs: whole file", "gvariant/src/buf.rs: whole file", "gvariant/src/casting.rs: try_cast_slice_to, cast_slice", "gvariant/src/offset.rs: align_offset"]}
{"id": "C133", "title": "The whole of ostree-ls", "statement": "The example program prints, for a file of any length however it comes in, the listing of C69, or the beginning of it before an overflow check fails, which happens only if a framing offset is 2^63 or more, and in builds with overflow checks exactly if a sum made in reading the tree reaches 2^64; if the file cannot be opened or read, ostree_ls returns the error and main panics, nothing having been printed.", "quantifier": "every file content and division into reads, errors of opening and reading at any point, every allocator placement, all builds", "why_tests_cant": "all file contents; partial output", "anchors": ["examples/ostree-ls/src/main.rs: ostree_ls, main", "gvariant/src/lib.rs: Marker::deserialize"]}
{"id": "C134", "title": "What it means that the fuzz target passes", "statement": "The fuzz target passes on an input, whatever GLib answers, exactly if the input's length is a positive multiple of 4 and for every type it tries GLib tells of the input what the format's decoder says -- as far as the target asks: not of object paths, signatures and contents of variants that GLib calls not normal -- and GLib calls normal no string that is not UTF-8 or has a NUL inside, and no input that is not what the crate writes, but for arrays of byte strings of 256 to 511 bytes.  With a GLib that reads strings as the GVariant Specification's text has it, it fails whenever the crate's string differs.", "quantifier": "every GLib (arbitrary answers), every input shorter than 4 GiB whose normal forms fit into memory, every allocator placement, all builds; test_cmp also for every type it can be used with", "why_tests_cant": "all inputs and all behaviours of GLib: what a passing fuzz run tells about the crate and GLib", "anchors": ["fuzz/fuzz_targets/fuzz_target_1.rs: GLibVariant, int_eq!, PartialEq<GLibVariant>, test_cmp, fuzz_struct"]}
{"id": "C135", "title": "The fuzz target passes with GLib as documented", "statement": "With any GLib whose answers are those of the format's decoder and which calls normal what is in normal form, and of what is not only arrays of byte strings of 256 to 511 bytes, the fuzz target passes on every input whose length is a positive multiple of 4.", "quantifier": "every such GLib and notion of well-formed object paths, signatures and type strings, every input shorter than 4 GiB whose normal forms fit into memory, every allocator placement, all builds", "why_tests_cant": "all inputs: the fuzzer itself only samples them", "anchors": ["fuzz/fuzz_targets/fuzz_target_1.rs: whole file", "gvariant/src/lib.rs: Deviations from the Specification and reference implementation (88-160)"]}
{"id": "C136", "title": "The fuzz target's comparisons with GLib have no undefined behaviour", "statement": "Comparing a slice of numbers with GLib's array makes a valid slice from the pointer GLib returns, whatever the array's length.", "quantifier": "every input whose length is a positive multiple of 4, every GLib that returns a pointer to the elements or, if there are none, NULL", "why_tests_cant": "undefined behaviour in unsafe code, on empty arrays only", "anchors": ["fuzz/fuzz_targets/fuzz_target_1.rs: int_eq! (116-129)"]}
{"id": "C137", "title": "A value written by one program is read by another", "statement": "A value that needs no padding, serialised to a writer and deserialised from a reader that brings the bytes written, reads as the value.", "quantifier": "every type and value without NULs in strings that needs no padding (as in C53), every writer that takes all bytes, every division of the bytes into reads, every build and allocator placement of both programs on hosts of the same endianness", "why_tests_cant": "all values, all builds; it fails for values written as no bytes at all", "anchors": ["gvariant/src/lib.rs: Marker::serialize, Marker::deserialize, ToOwned impls"]}
{"id": "C138", "title": "Exactly which values survive being written and read", "statement": "A value serialised to a writer that takes all bytes and deserialised from a reader that brings them reads as the value if and only if it needs no padding and, should it be written as no bytes at all, its type is not one whose empty value is misread at a misaligned address (as in C58; an array of fixed-size elements is read well if the reader's vector happens to be aligned).", "quantifier": "every type and value without NULs in strings, every writer that takes all bytes, every division of the bytes into reads, every build and allocator placement of both programs on hosts of the same endianness", "why_tests_cant": "all values, all builds of writer and reader", "anchors": ["gvariant/src/lib.rs: Marker::serialize, Marker::deserialize, ToOwned impls", "gvariant/src/buf.rs: From<Vec<u8>> for AlignedBuf"]}
{"id": "C139", "title": "Overflow checks, exactly", "statement": "A build with overflow checks reads any bytes below 2^63 as the value the rules say if no sum made while reading reaches 2^64 and no size is wrong where that panics (C48); if it panics with an overflow some sum does reach 2^64, and if it panics otherwise some such size is wrong. The sums are those of rounding up the end of the element or of the components before, as in the table of section 3.2 of the GVariant Specification, and of adding the sizes of components. With all framing offsets below 2^63 no sum does.", "quantifier": "every type, every buffer below 2^63 bytes, every address", "why_tests_cant": "such inputs are too large to test", "anchors": ["gvariant/src/lib.rs: calc_offsets, align_offset, get_child_elem", "gvariant/src/offset.rs: align_offset"]}
{"id": "C140", "title": "Programs' own serialisers", "statement": "Values of a program's own types, with their own implementation of SerializeTo as the documentation invites, can stand wherever a value of their GVariant type can: if the implementations write some bytes, of the type's size if that is fixed, and return their number, these bytes are framed by the rules, and reading gives each part back (for values that need no padding and framing offsets below 2^63) or panics where some size is wrong as C48 says. An implementation that serialises something else in its place, as the documented enum does, is as good as that. Whatever the implementations write, return or fail with, and whatever the writer: an error of theirs or of the writer makes the whole fail; the library itself fails only on a string with a NUL, and panics only on an overflow, in builds with overflow checks.", "quantifier": "every supported type and value with any number of such parts in it, every implementation, every writer, all builds", "why_tests_cant": "arbitrary code in the middle of the library's: no tests can cover its return values", "anchors": ["gvariant/src/lib.rs: SerializeTo (446-460), VariantWrap (1255-1283), SerializeTo impls", "gvariant-macro/src/generate_impl.rs: write_non_fixed_size_structure, write_packed_struct"]}
{"id": "C141", "title": "Computing with fixed-size values", "statement": "Values of fixed-size types behave as records: programs that copy them or their members, construct them, take defaults, assign to members and swap them never panic, and every variable ends with the value that the same program gives with records, wherever it then is in memory. Copies have every byte of the original, the paddings too; defaults are all zeros, the normal form of the value the rules give data of a wrong size. From values in normal form such programs make only values in normal form.", "quantifier": "every supported fixed-size type, variables of any bytes, every well-typed program of these operations, whatever memory outside fields holds", "why_tests_cant": "programs are not bounded in length, nor types in depth; padding bytes are copied by an argument about layout only", "anchors": ["gvariant-macro/src/generate_impl.rs: write_packed_struct (derive at 402, fields at 441, new at 473-477)", "gvariant/src/lib.rs: Bool (1971-1973)"]}
{"id": "C142", "title": "Whole safe programs", "statement": "A program that uses only the safe API, in any order and number of calls, and that catches panics and carries on, has undefined behaviour only after one of these: try_as_aligned on bytes that are not aligned; making a reference to a variable-size type from no bytes at an address that is not a multiple of its alignment, by cast, by dereferencing an Owned, or, for slices, by try_into, from_bytes or deserialize. Up to then every object is what its type promises: aligned slices that are not empty are aligned, references have an address and a size their type allows, buffers start at a multiple of 8, strings are UTF-8 without NUL, iterators are those of an array of theirs; and calls panic only with the panics of indexing, unwrapping and overflow. Each of the calls named does break a promise. Comparing two views with == compiles just if they are of the same type.", "quantifier": "every list of calls, of 48 kinds, on every platform setting, all data and all addresses the allocator may choose", "why_tests_cant": "Soundness is about all programs; a test is one of them, and misalignment depends on where the allocator puts things.", "anchors": ["gvariant/src/lib.rs:304-443", "gvariant/src/lib.rs:470-521", "gvariant/src/aligned_bytes.rs:240-532", "gvariant/src/buf.rs:22-159", "gvariant/src/casting.rs:60-155"]}
{"id": "C143", "title": "Programs compute with values", "statement": "A safe program of C142 that goes through none of those doors, over data of less than 4 GiB that does not make reading panic, is told by the crate exactly what a machine without memory would tell it, one that keeps a value of the GVariant specification for every reference, owned value and iterator and a list of bytes for every buffer: all bytes, values, lengths, comparisons, hashes, texts and panics are the same. So its outcome depends neither on where data lies nor on debug assertions or overflow checks, and if it compiles it panics only at indices and ranges out of bounds.", "quantifier": "every list of calls, of 48 kinds, on every platform setting, all data and all addresses the allocator may choose; indices below 2^60, no strings with NUL serialised", "why_tests_cant": "A program that behaves differently when the allocator returns another address, or in a release build, cannot be tested; a user wants to reason about values only.", "anchors": ["gvariant/src/lib.rs:304-443", "gvariant/src/lib.rs:470-521", "gvariant/src/lib.rs:1208-1219", "gvariant/src/lib.rs:1395-1622", "gvariant/src/lib.rs:1731-1780", "gvariant/src/buf.rs:22-159"]}
{"id": "C144", "title": "What programs on malformed data get to see", "statement": "C143 with nothing asked of the data but to be shorter than 4 GiB: a safe program that goes through none of the doors of C142 is told exactly what a machine over lazy values would tell it, in which an element of an array or the content of a maybe that is an array of the wrong length is a hole that panics when touched. So it is settled which calls panic: those that touch a hole, comparisons being decided by lengths first and then from left to right; an iterator goes on behind the hole it panicked at. Panics are failed unwraps or indices out of bounds, and neither addresses nor build settings change any answer. Without holes, lazy values are the values of the specification and compare as they do.", "quantifier": "every list of calls, of 48 kinds, on every platform setting, all data below 4 GiB and all addresses the allocator may choose; indices below 2^60", "why_tests_cant": "A service that catches panics of one request and goes on must know which requests an attacker can make fail and that nothing else changes.", "anchors": ["gvariant/src/lib.rs:304-443", "gvariant/src/lib.rs:470-521", "gvariant/src/lib.rs:1208-1219", "gvariant/src/lib.rs:1395-1622", "gvariant/src/lib.rs:1731-1780", "gvariant/src/buf.rs:22-159"]}
{"id": "C145", "title": "Whole programs in debug and release builds", "statement": "A program that uses the safe API is told by a build without overflow checks, or without overflow checks and debug assertions, exactly what it is told by the build with them, up to the first reply that is a failed check. If no check fails the two conversations are the same and end with the same objects, or in undefined behaviour at the same call. So trouble in release builds that a debug build does not have starts with a check that the debug build fails.", "quantifier": "every list of calls, of 48 kinds, from any objects, on every platform setting; no hypothesis on data, sizes or addresses, so it also holds beyond the 4 GiB of C144 and through the doors of C142", "why_tests_cant": "Tests and fuzzing run in debug builds; what they show should hold for the release build that is shipped.", "anchors": ["gvariant/src/lib.rs: whole file", "gvariant/src/aligned_bytes.rs: whole file", "gvariant/src/buf.rs: whole file", "gvariant/src/casting.rs: try_cast_slice_to, cast_slice", "gvariant/src/offset.rs: align_offset"]}
{"id": "C146", "title": "Programs that are not careful", "statement": "A program that uses the safe API, also one that goes through the doors of C142 (try_as_aligned on bytes that are not aligned, references to no bytes at any address), is told by the crate exactly what the machine over lazy values of C144 says, up to the first moment at which a reference would not be aligned: this is undefined behaviour, or a failed debug assertion in builds that have them. There is no other way in which a misaligned slice or view changes an answer: no wrong data, no other panic. A program that runs into neither is told just what the machine says, wherever its references point.", "quantifier": "every list of calls, of 48 kinds, with the conditions on sizes and addresses of C142 and C144 but without their condition that no door is used; data of any content below 4 GiB; every platform setting", "why_tests_cant": "try_as_aligned is a safe function that always succeeds (C46), so safe programs with misaligned views exist; this says what exactly can go wrong in them.", "anchors": ["gvariant/src/lib.rs: whole file", "gvariant/src/aligned_bytes.rs: whole file", "gvariant/src/buf.rs: whole file", "gvariant/src/casting.rs: try_cast_slice_to, cast_slice", "gvariant/src/offset.rs: align_offset"]}
{"id": "C147", "title": "Which addresses a value can be read at", "statement": "When a slice is taken to be aligned although it may not be (through try_as_aligned, or unsafe code), a release build reads all of a value of any type just if the address is a multiple of the greatest alignment among the numbers, fixed-size structures and arrays of fixed-size elements that lie in the bytes, and then reads the right value; at every other address it is undefined behaviour. Parts that do not fit and take default values put no demand on the address, nor do strings, variants and the frames of arrays, maybes and structures. No build, with assertions or without, reads a value at any other address or reads anything but the value. From the type alone: a multiple of the greatest alignment of anything of fixed size in it is always enough in a release build, so that arrays of strings or of variants are read at every address; and no less is enough, since every type has readable data for which exactly the multiples of it will do.", "quantifier": "every address, every usable type, every data below 4 GiB (for the exact statement: data with which the read does not panic as in C48); every platform setting", "why_tests_cant": "try_as_aligned checks nothing, so misaligned slices occur; the property says exactly when that is harmless in release builds and when it is undefined behaviour", "anchors": ["gvariant/src/aligned_bytes.rs: try_as_aligned, to_alignedslice_unchecked, Index impls", "gvariant/src/casting.rs: try_cast_slice_to, cast_slice", "gvariant/src/lib.rs: from_aligned_slice impls, NonFixedWidthArray, Structure access", "gvariant-macro/src/generate_impl.rs: to_tuple"]}
{"id": "C148", "title": "Looking into a container takes constant time", "statement": "Casting a slice, asking an array of variable-size elements for its length, whether it is empty, its first, last or any element, starting to iterate and each step of iterating, and asking a maybe for its content take a number of steps that does not depend on the data, its length, the index or the type (at most 14, 17, 18, 66, 84, 48, 19, 28 and 10). Taking a structure apart takes at most 56 steps for each member. The functions whose steps are counted give the results of the functions of the model.", "quantifier": "every type, every slice at every address, every index, every iterator, every platform setting", "why_tests_cant": "the format exists for constant-time access to parts of large buffers; a search or a copy anywhere in the access functions would break it", "anchors": ["gvariant/src/lib.rs: NonFixedWidthArray, NonFixedWidthArrayIterator, to_option, calc_offsets, get_child_elem", "gvariant-macro/src/generate_impl.rs: to_tuple", "gvariant/src/casting.rs: try_cast_slice_to, cast_slice"]}
{"id": "C149", "title": "How long strings and variants take", "statement": "as_bytes_non_conformant takes constant time (3 steps) and to_str linear time (at most 8 + 2n steps), as their documentation says. Variant::get takes at most 23 + 2k steps, k being the length of the type string stored after the last NUL, however long the value is; if there is no NUL at all it searches all n bytes (at most 28 + n).", "quantifier": "every data, every type asked for, every platform setting", "why_tests_cant": "the documentation promises constant and linear time; the NUL is searched from the end so that large values in variants cost nothing", "anchors": ["gvariant/src/lib.rs: Str::as_bytes_non_conformant, Str::to_str, Variant::get, Variant::split"]}
{"id": "C150", "title": "Reading everything takes linear time", "statement": "The number of steps needed to read all of a value is at most proportional to the length of its bytes.", "quantifier": "every type, every buffer", "why_tests_cant": "all inputs incl. hostile framing offsets", "anchors": ["gvariant/src/lib.rs: NonFixedWidthArrayIterator::next"]}
{"id": "C151", "title": "The time for reading everything is bounded", "statement": "Reading all of n bytes of type t takes at most 66 * (length of the type string) * (n+1)^(1+k) steps, k being how many arrays of variable-size elements are nested in each other in t. If no array or structure has a child out of range, as in every normal form, it takes at most 66 * (length of the type string) * (n+1) steps.", "quantifier": "every type, every bytes at every address, every platform setting; the linear bound for usable types, aligned slices below 2^63 bytes with all children in range, and for the normal form of every value", "why_tests_cant": "all inputs; corrects C150, whose counterexamples show the exponent is right", "anchors": ["gvariant/src/lib.rs: NonFixedWidthArrayIterator::next, calc_offsets, get_child_elem, to_option, to_str, Variant::split", "gvariant-macro/src/generate_impl.rs: to_tuple"]}
{"id": "C152", "title": "Comparing takes bounded time", "statement": "== of two views takes at most a number of steps that is the length of the type string times a power of the number of bytes of both, the exponent being one more than the number of arrays of variable-size elements around each other in the type, as for reading; this is reached, but where no child is out of range, as in normal forms, the number of steps is linear; arrays of different lengths are told apart in a constant number of steps.", "quantifier": "every type, any two byte strings at any addresses", "why_tests_cant": "tests never compare large values", "anchors": ["gvariant/src/lib.rs: PartialEq impls of Str, Variant, NonFixedWidthArray, MaybeFixedSize, MaybeNonFixedSize and Bool", "gvariant-macro/src/generate_impl.rs: PartialEq in write_packed_struct and write_non_fixed_size_structure"]}
{"id": "C153", "title": "How often serialising calls the writer", "statement": "Serialising calls write_all fewer than five times for every value (element, member, string, number) in what is serialised, however long the strings and variants are; an array of bytes takes one call for each byte.", "quantifier": "every type, every value, every writer", "why_tests_cant": "tests write to a Vec, where the number of calls does not show", "anchors": ["gvariant/src/lib.rs: SerializeTo impls, write_padding, write_offsets", "gvariant-macro/src/generate_impl.rs: serialize_cmds"]}
{"id": "C154", "title": "How much code the macros emit", "statement": "What define_gv! emits is at most 3150 times the square of the length of the type string, what gv_type! emits at most 22 times its length; the square is reached by nested parentheses.", "quantifier": "every type string below 4 GiB that the macros accept", "why_tests_cant": "the tests use short types, where growth does not show", "anchors": ["gvariant-macro/src/generate_impl.rs: generate_types, generate_tuple, write_non_fixed_size_structure, write_packed_struct", "gvariant-macro/src/lib.rs: define_gv, gv_type"]}
{"id": "C155", "title": "How long the printed text is", "statement": "If no double prints as more than D bytes, {:?} writes at most 32 + D bytes for each byte and node of the value read, which is linear in the bytes if no child is out of range, and {:#?}, which indents, at most 40 + D plus 8 times the length of the type string for each; k nested maybes in at most k + 1 bytes make {:#?} write 4 * k * k bytes or more.", "quantifier": "every type, alignment and data below 2^63 bytes; every way core could print characters and doubles of bounded length", "why_tests_cant": "the tests print one value or none", "anchors": ["gvariant/src/lib.rs: Debug impls of Str, Variant, NonFixedWidthArray, MaybeFixedSize, MaybeNonFixedSize, Bool", "gvariant-macro/src/generate_impl.rs: generate_tuple"]}
{"id": "C156", "title": "How much serialising writes", "statement": "Serialising writes at most 24 bytes for each byte and node of the value; so serialising a view of n bytes writes at most 72 * (length of the type string) * (n+1)^(1+k), k as in C85, and at most 72 * (length of the type string) * (n+1) if no child is out of range. The data of C84 shows that the exponent is needed.", "quantifier": "every type, value and view whose bound is below 2^63, every build", "why_tests_cant": "re-serialising untrusted data may need far more room than the data, which no test shows", "anchors": ["gvariant/src/lib.rs: SerializeTo impls, write_offsets", "gvariant-macro/src/generate_impl.rs: write_non_fixed_size_structure, write_packed_struct"]}
{"id": "C157", "title": "References span just their bytes", "statement": "As Rust lays out the declared types, a reference to a value spans exactly the bytes it was made from and is aligned for its type: types of fixed size have the size and alignment of the specification, arrays of them those of their elements, and all others are laid out like slices of bytes, whatever their type parameters. References to types of fixed size are an address, to the others an address and a length. The structures are declared with just the fields this takes them to have in the text define_gv! emits.", "quantifier": "every usable type, every reference that can be reached from any bytes", "why_tests_cant": "the pointer casts in the crate are sound only if the layouts agree, which no test shows", "anchors": ["gvariant/src/aligned_bytes.rs: AlignedSlice, to_alignedslice_unchecked", "gvariant/src/lib.rs: Str, Variant, NonFixedWidthArray, MaybeFixedSize, MaybeNonFixedSize, Bool", "gvariant/src/casting.rs: cast_slice, try_cast_slice_to", "gvariant-macro/src/generate_impl.rs: write_packed_struct, write_non_fixed_size_structure"]}
{"id": "C158", "title": "Values may be used from any thread", "statement": "The view of every type, references to it, owned values, iterators, buffers, strings, offsets and errors are Send and Sync; VariantWrap is if what it wraps is.", "quantifier": "every type", "why_tests_cant": "follows from the private fields, so any change to them could take it away unnoticed; the static default of fixed-size structures needs it to compile", "anchors": ["gvariant/src/aligned_bytes.rs: AlignedSlice", "gvariant/src/lib.rs: Str, Variant, NonFixedWidthArray, NonFixedWidthArrayIterator, MaybeFixedSize, MaybeNonFixedSize, Bool, Owned, GString, VariantWrap", "gvariant/src/buf.rs: AlignedBuf, RealignGuard", "gvariant/src/offset.rs: AlignedOffset", "gvariant-macro/src/generate_impl.rs: write_packed_struct, write_non_fixed_size_structure"]}
{"id": "C159", "title": "What serialising keeps on the heap", "statement": "While a value is serialised the offsets of the elements so far of the arrays of variable-size elements being written are kept, and nothing else; however it ends they are freed; at most as many as the value has parts, or as bytes are written, and none for a type of fixed size.", "quantifier": "every value, writer and host", "why_tests_cant": "a caller who streams a large value to a file wants to know that memory does not grow with the size of the elements", "anchors": ["gvariant/src/lib.rs: SerializeTo for NonFixedWidthArray, write_offsets, SerializeTo impls", "gvariant-macro/src/generate_impl.rs: write_packed_struct, write_non_fixed_size_structure"]}
{"id": "C160", "title": "Serialising takes linear time", "statement": "The steps serialising takes, calls of the writer included, are linear in the number of parts of the value and the bytes of the strings and views in it, however it ends, and at least as many as there are calls of the writer.", "quantifier": "every value, writer and host", "why_tests_cant": "code that serialises what others sent must not be made to work long by little data", "anchors": ["gvariant/src/lib.rs: SerializeTo impls, write_offsets, write_padding", "gvariant-macro/src/generate_impl.rs: write_packed_struct, write_non_fixed_size_structure"]}
{"id": "C161", "title": "What reading into an owned value allocates", "statement": "from_bytes requests of the allocator a copy of the data if it is not aligned, and the owned value: nothing for a fixed-size type, the text and a NUL for a string, the bytes otherwise; deserialize the owned value, and room to align what was read.  With an allocator whose blocks are aligned that is at most twice the data (once, if the data is aligned, and for deserialize); otherwise at most six times the data and 14 bytes.", "quantifier": "every type, every byte string, every address the allocator may choose", "why_tests_cant": "bytes from elsewhere must not make a reader allocate much more than they take", "anchors": ["gvariant/src/lib.rs: Marker::from_bytes, Marker::deserialize, Owned::from_bytes, ToOwned impls, GString::from_str_unchecked", "gvariant/src/aligned_bytes.rs: copy_to_align", "gvariant/src/buf.rs: align, align_cold"]}
{"id": "C162", "title": "How long printing takes", "statement": "Printing a view with {:?} takes just the steps that reading everything in it takes, one for each byte of text, and one for each byte of the type strings of variants; so it is bounded as reading is, and linear if no child is out of range.", "quantifier": "every type, every byte string, every host, whatever core prints for numbers and strings (for the bounds: aligned data, doubles of at most D bytes)", "why_tests_cant": "values from elsewhere are printed in logs and must not take long", "anchors": ["gvariant/src/lib.rs: Debug for Str, Variant, NonFixedWidthArray, MaybeFixedSize, MaybeNonFixedSize, Bool", "gvariant-macro/src/generate_impl.rs: fmt of structures"]}
{"id": "C163", "title": "Reading and comparing are not free", "statement": "Reading everything takes at least a step for each value there is in what is read, and two for each byte of a string, so the time grows with the result even when little data stands for much; and two values are found equal only after all of both has been looked at, and what is in a variant is given only after its type string has been found and compared.", "quantifier": "every type, all bytes at all addresses, every host", "why_tests_cant": "the other side of the bounds of C151 and C152: what a reader returns has been looked at", "anchors": ["gvariant/src/lib.rs: to_str, Variant::split, NonFixedWidthArrayIterator::next, to_option, PartialEq impls", "gvariant-macro/src/generate_impl.rs: to_tuple, generated PartialEq"]}
{"id": "C164", "title": "How long parsing a type string takes", "statement": "Parsing takes a number of steps linear in the length of the type string, valid or not, and for a valid one the number is known exactly: one for each byte, and a few for each type in it. The parser recurses as deep as there are types inside each other; that is never more than the length of the string, and there is no other limit to it.", "quantifier": "every string of bytes", "why_tests_cant": "the macro runs in the compiler: a type string must neither hang it nor, below the size of its stack, end it", "anchors": ["gvariant-macro/src/type_parser.rs:69-161"]}
{"id": "C165", "title": "How much work the size of a type is", "statement": "To find the alignment of a type the macro makes one call for each type in it; to find its size it makes at most twice the number of types in it times the depth of nesting, and for a type of fixed size the number is known exactly. Without a fixed size, nothing behind the first member without one is looked at. Structures inside each other do take calls in the square of their number, as alignments are computed anew at every level, but no more.", "quantifier": "every type", "why_tests_cant": "the macro calls these functions for every member of every structure: work exponential in the nesting would hang the compiler", "anchors": ["gvariant-macro/src/generate_impl.rs:271-351"]}
