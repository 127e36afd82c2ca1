{"id": "C01", "title": "Vec round trip", "statement": "Converting any Vec<T> of a non-zero-sized type into a VecCopy (or VecDyn) and back with into_vec::<T>() returns Some of exactly the same elements in the same order, without copying or reallocating; the vector reports the length of the original.", "quantifier": "every element type (any size and alignment), every vector contents, every capacity, both build profiles", "why_tests_cant": "element types, lengths and capacities are unbounded; a test fixes a few", "anchors": ["src/vec_copy.rs: from_vec_non_copy, into_vec, len", "src/vec_void.rs: from_vec, into_valid_vec, into_vec_unchecked", "src/vec_dyn.rs: from_vec, into_vec"]}
{"id": "C02", "title": "Typed access is guarded by the element type", "statement": "Every typed accessor of VecCopy/VecDyn/slices (push_as, resize, fill, as_slice_as, as_mut_slice_as, iter_as, append_copy_to_vec, copy_from_slice, get_as, check*) returns None when the requested type is not the stored type, and in that case neither contents, length, capacity nor memory change; it never returns None when the types agree.", "quantifier": "every pair of types, every buffer, every argument", "why_tests_cant": "all pairs of types and all contents", "anchors": ["src/vec_copy.rs: check, check_ref, check_mut, push_as, resize, fill, as_slice_as, as_mut_slice_as, get_as", "src/slice_copy.rs: check, as_slice, get_as", "src/vec_dyn.rs: check, push_as"]}
{"id": "C03", "title": "VecCopy behaves as a plain list", "statement": "Any sequence of VecCopy operations (construction, push_as, push, resize, fill, truncating resize, clear, reserve, append, rotate, copy_from_slice, typed and untyped in-place writes, clone, drop, into_vec), interleaved over any number of buffers, gives the answers and contents that the same sequence gives on plain lists of values, as long as no call panics.", "quantifier": "every history of operations over every number of live buffers and every element type", "why_tests_cant": "histories are unbounded", "anchors": ["src/vec_copy.rs", "src/vec_void.rs"]}
{"id": "C04", "title": "VecCopy memory ledger", "statement": "Over any history of VecCopy calls, including ones that panic, every deallocation and reallocation names a block that is live with exactly the layout (size and alignment) it was allocated with, no two buffers own the same block, and when no call has panicked the live blocks are exactly the ones owned by live buffers (nothing leaks).", "quantifier": "every history over any number of buffers, every element type, both build profiles", "why_tests_cant": "an allocator contract violation at one step of one history is enough; histories and layouts are unbounded", "anchors": ["src/vec_void.rs: from_vec_override, apply_aligned_unchecked, apply_unchecked, into_vec_unchecked, clone, drop"]}
{"id": "C05", "title": "Safe VecCopy calls never cause undefined behaviour", "statement": "No sequence of safe VecCopy calls, with any arguments and including calls that panic and are caught, reads outside the stored elements, reads bytes as a value of a type they do not hold, or misuses the allocator.", "quantifier": "every history, every argument, both build profiles", "why_tests_cant": "negative property over all histories", "anchors": ["src/vec_copy.rs", "src/vec_void.rs"]}
{"id": "C06", "title": "Untyped indexing is bounds-checked", "statement": "VecCopy::get_ref(i) and get_mut(i) give access to the i-th element when i < len and panic when i >= len, in every build profile.", "quantifier": "every buffer, every index, every build profile", "why_tests_cant": "all indices and both profiles; an out-of-bounds read often does not crash", "anchors": ["src/vec_copy.rs: get_ref, get_mut"]}
{"id": "C07", "title": "Zero-sized element types are rejected", "statement": "No VecCopy or VecDyn can be constructed for a zero-sized element type: from_vec, with_type, with_capacity, with_size, from_slice and with_type_from all panic for them and succeed for every other type.", "quantifier": "every type, every contents", "why_tests_cant": "all types", "anchors": ["src/vec_copy.rs: from_vec_non_copy, with_type_from", "src/vec_void.rs: from_vec_override"]}
{"id": "C08", "title": "reserve guarantees room and keeps contents", "statement": "reserve(n) on a VecCopy leaves the elements unchanged and makes the capacity at least len + n, without panicking unless the byte size would overflow the address space.", "quantifier": "every buffer, every n", "why_tests_cant": "all combinations of element size, alignment, length, capacity and n", "anchors": ["src/vec_copy.rs: reserve", "src/vec_void.rs: reserve, from_vec_override"]}
{"id": "C09", "title": "resize", "statement": "resize(n, v) keeps the first min(n, len) elements and fills the rest with v; on a type mismatch it returns None and changes nothing.", "quantifier": "every buffer, n and value", "why_tests_cant": "unbounded sizes", "anchors": ["src/vec_copy.rs: resize", "src/vec_void.rs: truncate, reserve"]}
{"id": "C10", "title": "Pushing a value reference", "statement": "VecCopy::push(value) with a value of the stored type appends that value and leaves the earlier elements unchanged; with another type of the same size it returns None and changes nothing; with another size it panics and changes nothing.", "quantifier": "every buffer and value, every element size and alignment", "why_tests_cant": "element layouts are unbounded; the shipped tests use only one-chunk elements", "anchors": ["src/vec_copy.rs: push", "src/vec_void.rs: push"]}
{"id": "C11", "title": "extend and collect", "statement": "Extending a VecCopy with an iterator of value references of the stored type appends all of them in order, and collecting a non-empty iterator gives a VecCopy of exactly those values; an iterator mixing types panics.", "quantifier": "every iterator contents and size hint", "why_tests_cant": "unbounded iterators", "anchors": ["src/vec_copy.rs: extend, from_iter"]}
{"id": "C12", "title": "append", "statement": "append moves all elements of the other buffer to the end of this one, in order, and leaves the other empty (same type); with different types it returns None and changes neither.", "quantifier": "every pair of buffers", "why_tests_cant": "unbounded contents, and two buffers at once", "anchors": ["src/vec_copy.rs: append", "src/vec_void.rs: append"]}
{"id": "C13", "title": "rotation", "statement": "rotate_left(k)/rotate_right(k) with k <= len produce exactly the list rotation of the elements, element by element, on vectors and on slices, and undo each other.", "quantifier": "every buffer, every k <= len, every element size and alignment", "why_tests_cant": "unbounded; byte rotation must respect element boundaries for all sizes", "anchors": ["src/vec_copy.rs: rotate_left, rotate_right", "src/vec_void.rs: rotate_left, rotate_right", "src/slice_copy.rs: rotate_left, rotate_right"]}
{"id": "C14", "title": "Out-of-range rotation panics and loses nothing", "statement": "rotate_left(k)/rotate_right(k) with k > len panic, and the contents are still there afterwards.", "quantifier": "every buffer, every k > len, every build profile", "why_tests_cant": "all k up to usize::MAX, both profiles", "anchors": ["src/vec_void.rs: rotate_left, rotate_right, apply_aligned_unchecked", "src/slice_copy.rs: rotate_left, rotate_right"]}
{"id": "C15", "title": "Typed indexing", "statement": "get_as/get_ref_as/get_mut_as(i) return the i-th value when the type matches and i < len, None on a wrong type with i < len, and panic when i >= len whatever the type.", "quantifier": "every buffer, index and type", "why_tests_cant": "all indices and types", "anchors": ["src/vec_copy.rs: get_as, get_ref_as, get_mut_as", "src/slice_copy.rs: get_as"]}
{"id": "C16", "title": "Iteration", "statement": "iter, iter_as, byte_chunks and slice iterators yield exactly len items, the i-th of which is the i-th element.", "quantifier": "every buffer", "why_tests_cant": "unbounded lengths and element sizes", "anchors": ["src/vec_copy.rs: iter, iter_as, byte_chunks", "src/slice_copy.rs: iter", "src/vec_dyn.rs: iter", "src/slice.rs: iter"]}
{"id": "C17", "title": "copy_from_slice", "statement": "copy_from_slice(s) makes the buffer hold exactly s (the documentation says the buffer is extended when s is longer); on a type mismatch it returns None and changes nothing.", "quantifier": "every buffer and slice", "why_tests_cant": "all length combinations", "anchors": ["src/vec_copy.rs: copy_from_slice", "src/slice_copy.rs: copy_from_slice"]}
{"id": "C18", "title": "fill", "statement": "fill(v) sets every element to v and keeps the length.", "quantifier": "every buffer", "why_tests_cant": "unbounded lengths", "anchors": ["src/vec_copy.rs: fill", "src/vec_dyn.rs: fill"]}
{"id": "C19", "title": "Cloned VecCopy is equal and independent", "statement": "clone gives a buffer with the same element type, elements, length and capacity that owns a different block, and later changes to either do not affect the other.", "quantifier": "every buffer and every later history on either", "why_tests_cant": "all later histories", "anchors": ["src/vec_void.rs: clone", "src/vec_copy.rs: VecCopy (derive Clone)"]}
{"id": "C20", "title": "Building an empty buffer of the type of another value", "statement": "with_type_from(source) gives an empty buffer that accepts exactly the type of the source (value reference, slice or vector).", "quantifier": "every source and every non-zero-sized type", "why_tests_cant": "all types", "anchors": ["src/vec_copy.rs: with_type_from", "src/vec_dyn.rs: with_type_from", "src/meta.rs", "src/vec_void.rs: from_vec_override"]}
{"id": "C21", "title": "Subslicing selects exactly the requested elements", "statement": "subslice(r) on a slice view gives exactly the elements with index in r, for all six range forms, and panics if r is out of range.", "quantifier": "every slice, every range of each form, both profiles", "why_tests_cant": "all ranges and element sizes", "anchors": ["src/index_slice.rs", "src/slice_copy.rs: subslice, into_subslice, subslice_mut"]}
{"id": "C22", "title": "split_at and chunks_exact partition", "statement": "split_at(k) gives the first k elements and the rest; chunks_exact(k) gives the consecutive full groups of k elements and nothing else.", "quantifier": "every slice and k", "why_tests_cant": "all sizes", "anchors": ["src/slice_copy.rs: split_at, chunks_exact"]}
{"id": "C23", "title": "Swapping two elements of a slice", "statement": "swap(i, j) with i, j < len exchanges exactly the i-th and j-th elements; with i or j out of range (i != j) it panics and changes nothing.", "quantifier": "every slice, i and j", "why_tests_cant": "all positions", "anchors": ["src/lib.rs: ElementBytesMut::swap", "src/slice_copy.rs: swap", "src/slice.rs: swap"]}
{"id": "C24", "title": "Mutable sub-views touch only their own range", "statement": "Any write made through a mutable element reference or a mutable subslice changes only the elements in that view's range and leaves every other element and the length unchanged.", "quantifier": "every slice, view and write", "why_tests_cant": "all ranges and writes", "anchors": ["src/slice_copy.rs: get_mut, subslice_mut, chunks_exact_mut, split_at", "src/vec_dyn.rs: get_mut"]}
{"id": "C25", "title": "Upcasting preserves data and behaviour", "statement": "Upcasting a vector, slice or value to a base table changes neither its elements nor its type, and every operation still offered by the base table does the same thing as before.", "quantifier": "every container, contents and pair of derived/base table", "why_tests_cant": "all contents and trait hierarchies", "anchors": ["src/vec_copy.rs: upcast", "src/vec_dyn.rs: upcast", "src/value.rs: upcast", "src/copy_value.rs: upcast"]}
{"id": "C26", "title": "Alignment dispatch", "statement": "For every alignment Rust allows (powers of two up to 2^29) the alignment dispatch picks the carrier type whose size and alignment equal that alignment, and panics for every other number; every element of a buffer starts at an address that is a multiple of its alignment.", "quantifier": "every alignment, every buffer, every index", "why_tests_cant": "30 legal alignments times all buffers; wrong arms only show up for exotic alignments", "anchors": ["src/elem.rs: eval_align, generate_aligned_types, ElemInfo"]}
{"id": "C27", "title": "State after a panic", "statement": "After any panicking VecCopy call the buffer is either exactly as before or empty of elements, and using or dropping it afterwards is not undefined behaviour.", "quantifier": "every call, argument and state", "why_tests_cant": "all panic points", "anchors": ["src/vec_void.rs: apply_aligned_unchecked, apply_unchecked, default"]}
{"id": "C28", "title": "VecDyn neither double-drops nor loses values", "statement": "Over any history of VecDyn operations in which no destructor panics, every value moved in or created by clone is dropped at most once and never both dropped and handed out; if no call panics it is exactly: dropped, still stored, or handed back.", "quantifier": "every history over any number of VecDyns, clone behaviours that may panic", "why_tests_cant": "histories are unbounded; double drops may be silent", "anchors": ["src/vec_dyn.rs", "src/traits.rs: drop_bytes, clone_into_raw_bytes"]}
{"id": "C29", "title": "Dropping a VecDyn", "statement": "Dropping a VecDyn drops each stored element exactly once, in index order, with the element type's destructor, and then frees its block with the layout it was allocated with.", "quantifier": "every VecDyn", "why_tests_cant": "unbounded lengths and types", "anchors": ["src/vec_dyn.rs: Drop", "src/vec_void.rs: Drop"]}
{"id": "C30", "title": "Panicking destructors", "statement": "If an element's destructor panics during clear or a shrinking resize, no element is dropped twice when the VecDyn is later dropped.", "quantifier": "every VecDyn, every element whose destructor panics", "why_tests_cant": "every crash point inside the loop", "anchors": ["src/vec_dyn.rs: clear, resize, Drop"]}
{"id": "C31", "title": "Cloning a VecDyn", "statement": "clone calls each element's clone exactly once in order and holds exactly the results; the source is unchanged; if some clone panics nothing is dropped twice and the source is unchanged.", "quantifier": "every VecDyn and clone behaviour, every panic point", "why_tests_cant": "all contents and crash points", "anchors": ["src/vec_dyn.rs: Clone", "src/traits.rs: clone_into_raw_bytes"]}
{"id": "C32", "title": "Pushing a boxed value into a VecDyn", "statement": "push(v) of a boxed value of the stored type moves it to the end of the vector without dropping it and frees its box with the layout the box was allocated with; a value of another type is dropped and None is returned.", "quantifier": "every VecDyn and boxed value", "why_tests_cant": "all element layouts; a wrong-layout free is silent with most allocators", "anchors": ["src/vec_dyn.rs: push", "src/vec_void.rs: push", "src/copy_value.rs: DropAsAligned"]}
{"id": "C33", "title": "push_cloned", "statement": "push_cloned(r) appends a clone of the referenced value (calling clone exactly once) and leaves all other elements and the source unchanged; with another type it returns None.", "quantifier": "every VecDyn and value reference", "why_tests_cant": "all layouts and clone behaviours", "anchors": ["src/vec_dyn.rs: push_cloned", "src/vec_void.rs: resize_with"]}
{"id": "C34", "title": "VecDyn::into_vec transfers ownership or drops", "statement": "into_vec::<T>() with the stored type hands all elements to the caller, dropping none; with another type it returns None and every element is dropped exactly once.", "quantifier": "every VecDyn and type", "why_tests_cant": "leaks are not observable in tests", "anchors": ["src/vec_dyn.rs: into_vec"]}
{"id": "C35", "title": "Equality of VecDyns and slices", "statement": "Two VecDyns (or slices) compare equal iff they have the same length and pairwise equal elements of the same type; equality is an equivalence relation when the element equality is.", "quantifier": "every pair and triple of containers", "why_tests_cant": "all pairs", "anchors": ["src/vec_dyn.rs: PartialEq, Eq", "src/slice.rs: PartialEq", "src/value.rs: PartialEq"]}
{"id": "C36", "title": "Hash agrees with equality", "statement": "Containers and values that compare equal feed the same data to a hasher, when this holds for the element type.", "quantifier": "every pair of containers", "why_tests_cant": "all pairs", "anchors": ["src/vec_dyn.rs: Hash", "src/slice.rs: Hash", "src/value.rs: Hash"]}
{"id": "C37", "title": "Debug output", "statement": "The Debug output of a VecDyn or slice is the list of its elements' own Debug outputs in order.", "quantifier": "every container", "why_tests_cant": "unbounded contents", "anchors": ["src/vec_dyn.rs: Debug", "src/slice.rs: Debug"]}
{"id": "C38", "title": "VecDyn::resize and clear account for every value", "statement": "Growing resize stores clones of the given value and drops the given value exactly once; shrinking drops exactly the removed tail once; clear drops every element once and leaves the vector empty.", "quantifier": "every VecDyn, n and value", "why_tests_cant": "unbounded sizes", "anchors": ["src/vec_dyn.rs: resize, clear"]}
{"id": "C39", "title": "A VecDyn can be dropped after a caught panic", "statement": "After any VecDyn call panics (for instance in a user clone), the VecDyn can still be dropped without panicking.", "quantifier": "every call and crash point", "why_tests_cant": "every crash point", "anchors": ["src/vec_dyn.rs: push_cloned, push, Drop", "src/vec_void.rs: apply_aligned_unchecked"]}
{"id": "C40", "title": "Value ownership", "statement": "A boxed or small value built from v gives v back by downcast to its type without dropping it; otherwise dropping it drops v exactly once and frees the box with its own layout; cloning calls clone once and both are independent.", "quantifier": "every type (including zero-sized) and value", "why_tests_cant": "all layouts", "anchors": ["src/value.rs: BoxValue::new, downcast, Clone, Drop", "src/copy_value.rs: DropAsAligned"]}
{"id": "C41", "title": "A failed downcast does not leak", "statement": "Downcasting an owned value to a different type returns None and drops the value exactly once.", "quantifier": "every value and type", "why_tests_cant": "leaks are silent", "anchors": ["src/value.rs: downcast"]}
{"id": "C42", "title": "SmallValue admission", "statement": "SmallValue::try_new(v) succeeds iff the type has the size of usize, the value then behaves as in C40, and on failure v is dropped, not leaked; new panics exactly when try_new fails.", "quantifier": "every type and value", "why_tests_cant": "all sizes", "anchors": ["src/value.rs: SmallValue::try_new, new", "src/bytes.rs: try_into_usize"]}
{"id": "C43", "title": "ValueMut swap, assign, clone_from_other", "statement": "For equal types swap exchanges the two values, assign replaces the target by the given value dropping the old one exactly once, clone_from_other replaces the target by a clone; for different types nothing changes in the targets and clone_from_other reports an error.", "quantifier": "every pair of values", "why_tests_cant": "all types and values", "anchors": ["src/value.rs: ValueMut::swap, assign, clone_from_other"]}
{"id": "C44", "title": "CopyValueMut copy and swap", "statement": "copy(v) overwrites the target with v and returns Some iff the types are equal; swap exchanges the values iff the types are equal; otherwise nothing changes.", "quantifier": "every pair of values", "why_tests_cant": "all types", "anchors": ["src/copy_value.rs: copy, swap"]}
{"id": "C45", "title": "Values of different types are never equal", "statement": "Comparing two values of different types gives false and never runs the element comparison; comparing values of the same type gives exactly that type's equality.", "quantifier": "every pair of values", "why_tests_cant": "all types", "anchors": ["src/value.rs: PartialEq"]}
{"id": "C46", "title": "Derived tables dispatch to the right functions", "statement": "For every module or trait declaration accepted by dync_mod/dync_trait (whose traits are not named like standard ones, see C66), each accessor of the generated table, applied to the table built for T, returns T's implementation of exactly that method; the table has exactly the accessors of the supertraits it offers.", "quantifier": "every trait declaration and type", "why_tests_cant": "all trait hierarchies", "anchors": ["dync-derive/src/lib.rs: construct_dync_items, vtable_struct_def"]}
{"id": "C47", "title": "Derived base conversions", "statement": "For every dync_mod hierarchy, converting the table built for T to the table of any (transitive) supertrait gives exactly the table that would have been built for T directly, so that upcasts compose and agree.", "quantifier": "every acyclic trait hierarchy (no trait named like a standard one), type and pair of traits", "why_tests_cant": "all hierarchies", "anchors": ["dync-derive/src/lib.rs: construct_dync_items (conversions)", "src/traits.rs: vtables"]}
{"id": "C48", "title": "Inheritance flattening is the transitive closure", "statement": "After dync_mod's flattening, the supertraits recorded for each trait are exactly all its transitive supertraits plus Drop, whatever the order of declaration; flattening terminates on every acyclic hierarchy.", "quantifier": "every acyclic hierarchy (no trait named like a standard one) and declaration order", "why_tests_cant": "all hierarchies", "anchors": ["dync-derive/src/lib.rs: flatten_inheritance, union_children, fill_drop_for_inheritance"]}
{"id": "C49", "title": "Drop comes first exactly once", "statement": "Every generated table contains the drop function exactly once and at position 0.", "quantifier": "every trait declaration (not named like a standard trait)", "why_tests_cant": "all declarations", "anchors": ["dync-derive/src/lib.rs: dync_trait, fill_drop_for_inheritance, Trait (ordering)"]}
{"id": "C50", "title": "Macro configuration is honoured", "statement": "The table generated by dync_trait(suffix = \"S\") for trait Tr is named TrS. dync_crate_name may be any path by which the user's crate reaches the library.", "quantifier": "every trait name, suffix and path", "why_tests_cant": "all names", "anchors": ["dync-derive/src/lib.rs: Config, dync_trait, construct_dync_items"]}
{"id": "C51", "title": "Method signature translation", "statement": "The signature translator accepts exactly the supported signatures: it rejects every composite type that mentions Self and accepts every composite type that does not.", "quantifier": "every type expression", "why_tests_cant": "unbounded type expressions", "anchors": ["dync-derive/src/lib.rs: check_for_unsupported_self, check_for_unsupported_generics, type_to_bytes"]}
{"id": "C52", "title": "Numeric casting", "statement": "cast_into_vec::<O>() returns one output per element: the same number when it is representable in O and zero otherwise, for the ten dispatched numeric types; for any other element type an empty Vec (VecCopy) or None (VecDyn).", "quantifier": "every numeric buffer and pair of types", "why_tests_cant": "all values and type pairs", "anchors": ["src/vec_copy.rs: cast_into_vec", "src/vec_dyn.rs: cast_into_vec", "src/macros.rs"]}
{"id": "C53", "title": "Views do not outlive their data", "statement": "No safe construction of a slice or value view can be used after the data it points into has been dropped.", "quantifier": "every program that the borrow rules of the published signatures accept", "why_tests_cant": "lifetimes are a static property over all programs", "anchors": ["src/slice_copy.rs: from_slice", "src/slice.rs: from_slice"]}
{"id": "C54", "title": "Raw parts round trip", "statement": "from_raw_parts(into_raw_parts(x)) is x for vectors, slices and values.", "quantifier": "every container", "why_tests_cant": "all contents", "anchors": ["src/vec_copy.rs: into_raw_parts, from_raw_parts", "src/vec_dyn.rs", "src/value.rs", "src/lib.rs: into_dyn, from_dyn"]}
{"id": "C55", "title": "Untyped indexing of VecDyn and slices", "statement": "get(i)/get_mut(i) on VecDyn, Slice and SliceCopy return the i-th element when i < len and panic otherwise.", "quantifier": "every container, index, build profile", "why_tests_cant": "all indices, including ones whose byte offset wraps", "anchors": ["src/vec_dyn.rs: get, get_mut", "src/slice_copy.rs: get, get_mut", "src/lib.rs: index_byte_range"]}
{"id": "C56", "title": "Bulk copies to typed vectors", "statement": "append_copy_to_vec / copy_into_vec / append_cloned_to_vec / clone_into_vec append (clones of) exactly the elements in order to the given vector, leaving the source unchanged, and None on a type mismatch with the target unchanged. The only panic is a capacity overflow of the target (or a panicking clone).", "quantifier": "every buffer and target", "why_tests_cant": "unbounded contents", "anchors": ["src/vec_copy.rs: append_copy_to_vec, copy_into_vec", "src/vec_dyn.rs: append_cloned_to_vec, clone_into_vec", "src/slice_copy.rs: append_copy_to_vec", "src/slice.rs: append_clone_to_vec"]}
{"id": "C57", "title": "Only copyable types end up in VecCopy", "statement": "Every VecCopy that safe code can construct has an element type that is Copy, so that copying its bytes never duplicates an owned resource.", "quantifier": "every constructor and source of type information", "why_tests_cant": "all constructors and sources; the failure is a double drop", "anchors": ["src/vec_copy.rs: with_type_from", "src/meta.rs: Meta, From<ValueRef>, From<Slice>"]}
{"id": "C58", "title": "Type information of a container is consistent", "statement": "Every container built by safe code from a Meta value has the size, alignment, type id and function table of one and the same type.", "quantifier": "every Meta value safe code can build", "why_tests_cant": "Meta has public fields, so this ranges over all combinations", "anchors": ["src/meta.rs: Meta", "src/vec_copy.rs: with_type_from", "src/vec_dyn.rs: with_type_from"]}
{"id": "C59", "title": "Slices cross threads only when their elements may", "statement": "A Slice or SliceMut is Send/Sync only if its element type is.", "quantifier": "every element type and table", "why_tests_cant": "auto traits are decided by the compiler for all instantiations", "anchors": ["src/slice.rs: Slice, SliceMut", "src/slice_copy.rs: SliceCopy, SliceCopyMut"]}
{"id": "C60", "title": "Typed push", "statement": "push_as::<T>(v) on a VecCopy of T appends v, for every size and alignment, growing when necessary, and changes nothing else; the only panic is a capacity overflow.", "quantifier": "every reachable buffer, type and value", "why_tests_cant": "unbounded contents and all layouts", "anchors": ["src/vec_copy.rs: push_as", "src/vec_void.rs: push_as, apply_aligned"]}
{"id": "C61", "title": "Programs over VecDyns and owned values behave as programs over lists", "statement": "Any sequence of VecDyn, Slice and Value calls in which nothing panics reports exactly what the same sequence reports on plain lists and single values (with the same order of clones and drops), and afterwards every vector and value holds what the list program says.", "quantifier": "every program over any number of vectors and owned values, every element type", "why_tests_cant": "unbounded histories and contents, interleavings of operations over shared objects", "anchors": ["src/vec_dyn.rs: VecDyn", "src/slice.rs: Slice, SliceMut", "src/value.rs: Value, ValueRef, ValueMut"]}
{"id": "C62", "title": "clone_from on raw buffers", "statement": "clone_from on the untyped buffers of two vectors (as given out by into_raw_parts) makes the target hold the elements of the source, keeping its memory when large enough, and is never undefined behaviour.", "quantifier": "every pair of reachable buffers", "why_tests_cant": "all layouts, capacities and contents", "anchors": ["src/vec_void.rs: Clone::clone_from", "src/vec_copy.rs: into_raw_parts"]}
{"id": "C63", "title": "Raw parts of a boxed value can be dropped", "statement": "The parts that into_raw_parts of a boxed value gives out are ordinary owned Rust objects: dropping them is not undefined behaviour.", "quantifier": "every reachable boxed value of every type", "why_tests_cant": "all layouts", "anchors": ["src/value.rs: into_raw_parts", "src/copy_value.rs: DropAsAligned"]}
{"id": "C64", "title": "Standard supertraits are recognised however they are written", "statement": "A supertrait written with any of the paths Rust accepts for a standard trait (Clone, std::clone::Clone, Hash after an import, std::hash::Hash, ...) is offered by the generated table.", "quantifier": "every declaration and every way of writing the eight standard traits", "why_tests_cant": "all declarations and spellings; an unrecognised one is silently skipped", "anchors": ["dync-derive/src/lib.rs: From<Path> for Trait, fill_trait_map"]}
{"id": "C65", "title": "The generated code type-checks", "statement": "For every hierarchy of traits that rustc accepts, the code generated by dync_mod and dync_trait resolves all names, defines nothing twice, and its fields, accessors, constructors and conversions have matching types.", "quantifier": "every acyclic hierarchy (no trait named like a standard one), every crate name", "why_tests_cant": "all hierarchies", "anchors": ["dync-derive/src/lib.rs: construct_dync_items, dync_mod, dync_trait"]}
{"id": "C66", "title": "User traits are never mistaken for standard ones", "statement": "A trait that inherits only traits declared in the same module (which inherit nothing) offers no standard trait but Drop, whatever the traits are called; the generated items never redefine the library's.", "quantifier": "every module and every choice of trait names", "why_tests_cant": "all names", "anchors": ["dync-derive/src/lib.rs: From<String> for Trait, fill_trait_map, construct_dync_items"]}
{"id": "C67", "title": "Reborrowed and converted views show the same value", "statement": "reborrow, reborrow_mut (of values and slices) and the conversions Value to ValueRef, ValueMut to ValueRef, CopyValueRef to ValueRef and CopyValueMut to ValueMut give a view of the same value, and ValueRef::new and ValueMut::new a view of the value referred to: same type id, same downcast at every type, same size for with_type_from, same comparison, hash, formatting and clones, and writes through a reborrowed view have the same effect. A converted copyable view runs no destructor.", "quantifier": "every value reference, every type, every call made through the view", "why_tests_cant": "all types, tables and calls", "anchors": ["src/value.rs: ValueRef::reborrow, ValueMut::reborrow, ValueMut::reborrow_mut, From<ValueMut> for ValueRef, From<CopyValueRef> for ValueRef, From<CopyValueMut> for ValueMut, drop_copy, From<&Value> for ValueRef, new", "src/slice_copy.rs: reborrow"]}
{"id": "C68", "title": "Translated signatures keep the call shape and name no lost type", "statement": "dync_trait_method turns fn f<T: B, ..>(args) -> R into unsafe fn f_bytes(args'), without type parameters, with the same arguments in the same order, self first turned into bytes, Self, &Self, &mut Self and pointers to it replaced by byte types, T, &T .. by trait objects of their bounds (declared inline or in a where clause), other types unchanged; the result mentions neither Self nor any type parameter.", "quantifier": "every method signature", "why_tests_cant": "unbounded signatures", "anchors": ["dync-derive/src/lib.rs: dync_trait_method, dync_fn_sig, process_generics, process_generic_type_path, type_to_bytes"]}
{"id": "C69", "title": "Printing numeric buffers", "statement": "Formatting a VecCopy with Display writes every element once, in order, each followed by a space, and returns Ok; a buffer of a type that is no number writes nothing to the formatter; if the formatter reports an error, the error is returned.", "quantifier": "every buffer, every formatter", "why_tests_cant": "all buffers and all points at which a writer can fail", "anchors": ["src/vec_copy.rs: Display for VecCopy, reinterpret_display", "src/macros.rs: call_numeric_buffer_fn"]}
{"id": "C70", "title": "Views for reading are not written behind", "statement": "While a view for reading is still used, no other view or owner changes the elements it shows.", "quantifier": "every program that the borrow rules of the published signatures accept", "why_tests_cant": "aliasing is a static property over all programs", "anchors": ["src/slice_copy.rs: SliceCopy, SliceCopyMut", "src/slice.rs: Slice, SliceMut", "src/value.rs: ValueRef, ValueMut", "src/copy_value.rs: CopyValueRef, CopyValueMut"]}
{"id": "C71", "title": "An untyped handle crosses threads only if the typed one may", "statement": "A container or view may be sent to (or shared with) another thread only if the typed container, slice or reference it stands for may: Vec<T> for VecDyn, &[T] for Slice, &mut [T] for SliceMut, &T for ValueRef, and so on.", "quantifier": "every element type, virtual table, container and view", "why_tests_cant": "decided by the compiler for all instantiations; violations are data races", "anchors": ["src/value.rs: impl_value_ref_traits, Send/Sync for Value", "src/slice.rs: Send/Sync for Slice, SliceMut", "src/vec_dyn.rs: Send/Sync for VecDyn", "src/traits.rs: HasSend, HasSync"]}
{"id": "C72", "title": "A container whose table promises Send may be sent", "statement": "A container or view whose table is one of the Send (Sync) tables, built in or derived from a trait that inherits Send (Sync), is itself Send (Sync).", "quantifier": "every table, every trait hierarchy, every container and view", "why_tests_cant": "decided by the compiler for all instantiations and hierarchies", "anchors": ["src/traits.rs: SendVTable, SyncVTable, HasSend, HasSync", "src/vec_dyn.rs: module documentation", "dync-derive/src/lib.rs: dync_mod"]}
{"id": "C73", "title": "Converting the table to a trait object and back", "statement": "Turning a container with a concrete table into one with a trait-object table (into_dyn!) keeps its elements and behaviour; turning it back (from_dyn!) with the same table type gives the original container; with another table type it panics, and drops the elements exactly once.", "quantifier": "every table type, element type, contents and history", "why_tests_cant": "ranges over all tables, contents and histories; loss of elements shows only through destructors", "anchors": ["src/lib.rs: from_dyn, into_dyn", "src/vec_dyn.rs: into_raw_parts, from_raw_parts", "src/vec_copy.rs: into_raw_parts, from_raw_parts"]}
{"id": "C74", "title": "The conversion macros expand for every container and path", "statement": "from_dyn![C<dyn Trait as VTable>] and into_dyn![C<dyn Trait>] expand for every container C of the crate and every path Trait and VTable, to the conversion of that container with those paths.", "quantifier": "every container, every path of any length", "why_tests_cant": "the set of paths is infinite; an arm that matches nothing is seen only when some user needs it", "anchors": ["src/lib.rs: from_dyn, into_dyn"]}
{"id": "C75", "title": "The unchecked accessors agree with the checked ones", "statement": "For the right element type and an index in range, get_unchecked_ref/get_unchecked_mut read and write the same element that the checked accessors read and write, and touch nothing else; otherwise nothing is promised.", "quantifier": "every element type, contents, index and history", "why_tests_cant": "undefined behaviour of unchecked access cannot be observed by a test", "anchors": ["src/vec_copy.rs: get_unchecked_ref, get_unchecked_mut", "src/vec_dyn.rs: get_unchecked_ref, get_unchecked_mut"]}
{"id": "C76", "title": "Cloning through a view for writing", "statement": "clone_value and clone_small_value of a mutable view, of an owned value or of an element of a vector, clone the value shown exactly once, give an owned value of the same type, and leave the original as it is; a panicking clone leaves no trace.", "quantifier": "every element type, value, element, history", "why_tests_cant": "ranges over all clone implementations, including panicking ones", "anchors": ["src/value.rs: ValueMut::clone_value, ValueMut::clone_small_value", "src/vec_dyn.rs: get_mut"]}
{"id": "C77", "title": "What implements Eq is equal to itself", "statement": "A vector, value or reference whose type implements Eq compares equal to itself.", "quantifier": "every element type and contents", "why_tests_cant": "reflexivity over all values of all element types", "anchors": ["src/vec_dyn.rs: Eq for VecDyn", "src/value.rs: Eq for value references", "src/traits.rs: EqVTable"]}
{"id": "C78", "title": "The macro always finishes", "statement": "dync_mod finishes on every module of traits, whatever the traits inherit.", "quantifier": "every module of trait declarations", "why_tests_cant": "termination over all inheritance graphs", "anchors": ["dync-derive/src/lib.rs: dync_mod, flatten_inheritance, union_children"]}
{"id": "C79", "title": "The signature produced for a trait method parses", "statement": "Whenever dync_trait_method accepts a signature, every type in the signature it writes can be parsed back by the compiler.", "quantifier": "every accepted signature", "why_tests_cant": "the set of signatures is infinite", "anchors": ["dync-derive/src/lib.rs: dync_fn_sig, type_to_dyn"]}
{"id": "C80", "title": "Parts of a mutable slice are used independently", "statement": "A mutable slice can be cut by subslice, split_at and chunks_exact, the parts cut again, and so on; reading, writing, rotating and swapping in the parts, in any order, has the effect of the same operations on the corresponding pieces of the list of elements, and everything outside a part is left alone. A panic in one part keeps what was written before it.", "quantifier": "every nesting of cuts and every sequence of operations on the parts, for every slice of plain or owned elements", "why_tests_cant": "the nestings and interleavings are unbounded", "anchors": ["src/slice_copy.rs: SliceCopyMut, subslice, split_at, chunks_exact_mut", "src/slice.rs: SliceMut", "src/vec_copy.rs: as_mut_slice"]}
{"id": "C81", "title": "Programs that catch panics are accounted for by lists", "statement": "In a program over any number of buffers that catches every panic and goes on, each call or view either answers and acts as on lists, or panics for one of a few stated reasons; a panicking call leaves its buffer as it was, or (extend) with a prefix of the values appended, or without contents; buffers the step is not about keep their contents; memory is neither freed twice nor lost unless a call panicked.", "quantifier": "every program of calls and views whose arguments are in range, every set of element types, every build profile", "why_tests_cant": "programs are unbounded and any step may panic", "anchors": ["src/vec_copy.rs: VecCopy", "src/vec_void.rs: apply_aligned, from_vec_override", "src/slice_copy.rs: SliceCopyMut"]}
{"id": "C82", "title": "Programs over VecDyns and owned values that catch panics are accounted for by lists", "statement": "In a program over any number of VecDyns and owned values that catches every panic and goes on, each call either answers and acts as on lists and single values, with the same clones and drops, or panics for one of the reasons stated for it (an index out of range, no room, a panicking clone, a type of size zero, ...); which objects a panicking call leaves, with which contents, and which clones and drops have happened by then, is stated for every call. A call that loses the contents of a vector leaves it without contents until it is dropped or converted; objects that a call does not name stay as they are.", "quantifier": "every program over any number of vectors and owned values whose arguments are in range, every set of element types whose destructors do not panic, every build profile", "why_tests_cant": "programs are unbounded, and any step, including any single clone inside a bulk operation, may panic", "anchors": ["src/vec_dyn.rs: VecDyn", "src/vec_void.rs: apply_aligned, from_vec_override", "src/slice.rs: Slice, SliceMut", "src/value.rs: Value, ValueRef, ValueMut"]}
{"id": "C83", "title": "Whatever the position, untyped access reaches only whole elements", "statement": "An untyped access by position on a slice or VecDyn (get, get_mut, copy into get_mut, split_at, chunks_exact, a subslice, a rotation, a swap) with any position whatever, in any build, either panics and changes nothing or works on whole elements of the container; it never yields a reference to the end of one element and the beginning of the next and never breaks elements apart.", "quantifier": "every slice, vector, element type, position, build profile", "why_tests_cant": "positions range over all of usize, and the result depends on the arithmetic of the position modulo 2^64 and on the element size", "anchors": ["src/slice_copy.rs: SliceCopy::get, split_at, chunks_exact, subslice, SliceCopyMut::get_mut, rotate_left, rotate_right, swap", "src/slice.rs: Slice, SliceMut", "src/vec_dyn.rs: VecDyn::get, get_mut", "src/lib.rs: ElementBytes, ElementBytesMut"]}
{"id": "C84", "title": "Pushing allocates only logarithmically often, and not at all within the reserved room", "statement": "Appending values one at a time (VecCopy::push_as, VecDyn::push_as, and VecCopy::push for the element types for which it works) calls the allocator at most 1 + log2(final length) times in total, the capacity at least doubling each time it grows and never exceeding twice the final length beyond its initial value and the standard minimum; after a reserve(n) that found room, or on a container made with_capacity(n), the next n appends do not call the allocator at all, so the storage stays where it is.", "quantifier": "every live buffer or vector, element type, list of values, build profile, within the memory limit", "why_tests_cant": "the bound must hold for every number of pushes and every initial capacity; a test sees one sequence and one allocator", "anchors": ["src/vec_copy.rs: VecCopy::push_as, push, reserve, with_capacity", "src/vec_dyn.rs: VecDyn::push_as, with_capacity", "src/vec_void.rs: VecVoid::apply, push, reserve"]}
{"id": "C85", "title": "Programs whose destructors panic", "statement": "A program over any number of VecDyns and owned values in which any destructor may panic at any moment, and which catches every panic and goes on, keeps the library's own memory handling well defined: a block is never freed twice, with the wrong layout or read after it was freed. Unless the process is aborted (by a destructor that panics during unwinding), every value given to the library or cloned by it is afterwards stored, handed back, dropped or leaked, and no value is dropped twice unless a call of clear or resize panicked; if nothing panicked, nothing is leaked either except by the calls that lose values anyway (into_vec and downcast at the wrong type, a SmallValue that does not fit).", "quantifier": "every program of VecDyn and owned-value steps whose arguments are in range, every set of types with arbitrary clone and destructor behaviour, every build profile", "why_tests_cant": "each destructor call of each program is a possible crash point, and programs are unbounded", "anchors": ["src/vec_dyn.rs: VecDyn, Drop, clear, resize, fill, with_size, get_mut, iter_mut", "src/value.rs: BoxValue, SmallValue, ValueMut, Drop, assign, clone_from_other", "src/slice.rs: clone_from_slice"]}
{"id": "C86", "title": "Views for reading can be kept side by side", "statement": "Any number of views for reading, of whole containers, parts and elements, nested or independent, can be made and used in any order at the same time: the signatures never force a reader to give up another reader.", "quantifier": "every program that only looks (makes views with & and reads them), of any length and nesting", "why_tests_cant": "all programs; a signature that borrows mutably without need is only noticed by the program that needs it", "anchors": ["src/vec_copy.rs: iter, as_slice, get_ref", "src/vec_dyn.rs: iter, as_slice, get", "src/slice_copy.rs: SliceCopy", "src/slice.rs: Slice", "src/value.rs: as_ref, ValueRef"]}
{"id": "C87", "title": "A table need only offer what the program uses", "statement": "A container or value whose table offers only some of the functions (clone, compare, hash, print) behaves, in every program that uses only those, exactly like one whose table offers all of them: same results, same panics, same contents, same allocations and the same calls of the elements' code in the same order. This holds for the tables of the library, for the table of a container made from one without destructors, and for the table derived for any trait of a hierarchy; so what is promised of type-erased containers holds for each of them.", "quantifier": "every table type, every set of functions it offers, every hierarchy of traits, every program of VecDyn and owned-value steps that stays within what is offered, every set of element types, every build profile", "why_tests_cant": "tables, hierarchies and programs are unbounded; the tests use a handful of tables", "anchors": ["src/traits.rs: HasDrop, HasClone, HasPartialEq, HasHash, HasDebug, DropVTable, CloneVTable, PartialEqVTable, EqVTable, HashVTable, DebugVTable", "src/value.rs: impl HasClone for (DropFn, V)", "src/vec_dyn.rs: VecDyn", "dync-derive/src/lib.rs: dync_mod"]}
{"id": "C88", "title": "The numeric macro calls the given function with the element type", "statement": "call_numeric_buffer_fn! accepts every call of the forms f::<_, A, ..>(buffer, x, ..) or {..} and buffer.f::<_, A, ..>(x, ..) or {..}, with any number of further type parameters and arguments. The resulting code evaluates the buffer expression once; if the element type is one of the ten number types it then evaluates the arguments once, in order, and calls f with that type as the first type parameter and the others as given; otherwise it runs the fallback block and evaluates no argument. A function call without a buffer does not compile.", "quantifier": "every function and method name, every list of type parameters, every list of argument expressions, every element type", "why_tests_cant": "the number of type parameters and arguments is unbounded, and each selects another chain of macro arms", "anchors": ["src/macros.rs: call_numeric_buffer_fn", "src/vec_copy.rs: cast_into_vec, Display", "src/vec_dyn.rs: cast_into_vec"]}
{"id": "C89", "title": "Macros can be called by path", "statement": "The exported macros work however the caller names them: dync::from_dyn!, dync::into_dyn! and dync::call_numeric_buffer_fn! need no import of the macro.", "quantifier": "every accepted call of the three macros", "why_tests_cant": "the tests import the macros; the set of calls is infinite and only the arms that call the macro again depend on the import", "anchors": ["src/lib.rs: from_dyn, into_dyn", "src/macros.rs: call_numeric_buffer_fn"]}
{"id": "C90", "title": "Macro attributes are read as written and mistakes are reported", "statement": "dync_trait and dync_mod take the attributes exactly as the user lists them, with or without a comma at the end; a list that is not of the form name, name = literal, ... does not compile; an attribute the macros do not know, or one with a value of the wrong kind, is reported.", "quantifier": "every list of tokens given as attributes, every trait and module", "why_tests_cant": "the set of token lists is infinite", "anchors": ["dync-derive/src/lib.rs: DynAttrib::parse, Config::parse, dync_trait, dync_mod"]}
