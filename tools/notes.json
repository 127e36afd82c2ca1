{
 "C01": "For vectors of every sized type, length and capacity, and for every reachable buffer.",
 "C02": "Every typed operation of VecCopy, for every reachable buffer and every other type; the right type is always accepted.",
 "C03": "Proved for every program whose arguments do not overflow usize when scaled by the element size, and for every program in checked builds. False in release builds for huge arguments (refuted).",
 "C04": "Proved for every history, with caught panics and out-of-range calls, in every build profile. Once a call has undefined behaviour of another kind (C05, C06) nothing more is claimed about the history.",
 "C05": "Proved under the same condition as C03. False in every build after a caught panic followed by pushing a reference to a unit value, and in release builds for huge rotation amounts (both refuted).",
 "C06": "In-range access proved. Out-of-range access panics only with debug assertions; otherwise it is undefined behaviour (refuted).",
 "C07": "All constructors, zero-sized and sized.",
 "C08": "Proved except for 3-byte elements growing from capacity 1 to 2, where the call panics and the contents are lost; the theorem c08_reserve_panics characterises the panics. In release builds huge requests wrap around (refuted).",
 "C09": "Proved except for the odd growth of C08 (refuted there). Shrinking is proved in full. c09_resize_panics: in every other case it panics and the contents are lost.",
 "C10": "Proved for types whose size equals their alignment. For every type larger than its alignment push always panics and destroys the buffer (c10_push_never_works). A full buffer that cannot grow: it panics and loses the contents (c10_push_full_panics).",
 "C11": "As C10: proved for size equal to alignment, refuted otherwise.",
 "C12": "Proved except for the odd growth of C08 (refuted there). c12_append_panics: in every other case it panics; what is left of both buffers is stated.",
 "C13": "Proved for alignments up to 8192 on vectors and for all types on slices. For larger alignments vector rotation always panics (refuted).",
 "C14": "The panic is proved; on vectors the contents are always lost (refuted), on slices nothing changes. In release builds huge amounts wrap around (refuted).",
 "C15": "Full.",
 "C16": "Full for sized elements, on vectors and slices. Slices of zero-sized values have no usable length (refuted).",
 "C17": "Same length proved; any other length panics, though longer slices are documented to extend the buffer (refuted).",
 "C18": "Full.",
 "C19": "Full, with independence of later operations on either buffer.",
 "C20": "Full: from buffers, vectors, slices, copyable references, references and mutable references (non-zero size).",
 "C21": "Proved for half-open ranges, and for inclusive ones over one-byte elements. For larger elements an inclusive range always loses its last element (c21_inclusive_short); huge ranges wrap in release builds (refuted).",
 "C22": "Proved for arguments that do not overflow when scaled; refuted in release builds otherwise. c55_lost_vec_get: on a vector that a caught panic left without contents, a release build accepts every index and gives a reference to (), whose clone panics.",
 "C23": "Proved for arguments that do not overflow when scaled; refuted in release builds otherwise. c55_lost_vec_get: on a vector that a caught panic left without contents, a release build accepts every index and gives a reference to (), whose clone panics.",
 "C24": "Full.",
 "C25": "Full: every call commutes with the upcast, on vectors, slices, references, mutable references and owned values.",
 "C26": "Full.",
 "C27": "Unchanged or emptied after every caught panic, except that extend keeps the items pushed before the offending one (refuted as stated); dropping afterwards always succeeds.",
 "C44": "Full.",
 "C54": "Vectors, slices and values.",
 "C55": "Proved with debug assertions or for indices that do not overflow when scaled; refuted in release builds otherwise. c55_lost_vec_get: on a vector that a caught panic left without contents, a release build accepts every index and gives a reference to (), whose clone panics.",
 "C56": "Full, for vectors and slices, copyable and owned elements; clone_into_vec has no capacity panic at all, and a panicking clone drops the clones made so far (c56_clone_into_vec_panics).",
 "C60": "Full; c60_push_as_panics: it does panic when the buffer is full and cannot grow.",
 "C28": "Proved: in every history, with caught panics, each value is accounted for at most once; and exactly when no call panics and none of three leaking calls occurs. The leaks are real (refuted; see C34, C41, C42). Pushes of boxed values of alignment above 1 are excluded (C32). c28_push_as_no_room, c28_append_no_room: what a panic for lack of room costs.",
 "C29": "Full.",
 "C30": "False: refuted by clear on a vector with a panicking destructor. Proved: exactly which destructors clear, a shrinking resize and drop run when one panics, that clear and resize then leave the vector unchanged (so dropping it starts over, c30_dropped_again) and that drop leaks the buffer. The vectors are those of every program that was not aborted, whether destructors panicked in it before or not (running_vec). c30_into_vec: a Vec made of the vector drops every element once, even if one destructor panics. c30_value_drop, c30_assign_element: an owned value whose destructor panics leaks its boxes; an assignment over such an element still puts the new value in place. c30_clone_from_element, c30_fill, c30_clone_from_slice: the same for clones written over elements.",
 "C31": "Full, with and without panicking clones.",
 "C32": "Proved for types of size and alignment 1 and for mismatched types. For every other alignment the box is freed with the wrong layout (c32_wrong_layout); for alignment 1 and other sizes push always panics and destroys the vector (c32_push_never_works).",
 "C33": "Proved except for the odd growth of C08. With a panicking clone all other elements are lost (c33_panicking_clone_loses, refuted). c33_push_cloned_no_room: without room nothing is cloned and the elements are lost.",
 "C34": "Proved for the stored type. With another type no element is dropped (c34_other_type_loses, refuted).",
 "C35": "Proved for equal lengths. Lengths are ignored: the theorem c35_common_prefix says what is computed; equality is not transitive (refuted).",
 "C36": "Proved for equal lengths and for values; false otherwise (refuted).",
 "C37": "Full, for vectors, slices, values and references.",
 "C38": "Proved except for the odd growth of C08 (refuted there). c38_resize_no_room: without room nothing is cloned, the given value is dropped, the elements are lost. c38_fill_clone_panics: the elements replaced so far stay, the rest is as before, the given value is dropped.",
 "C39": "Proved for every vector that has not lost its contents; dropping one that has always panics (refuted).",
 "C40": "Full.",
 "C41": "False: a failed downcast always leaks (c41_leaks, c41_small_leaks). Proved for copyable small values.",
 "C42": "Admission proved; on failure the value is leaked (refuted).",
 "C43": "Full, for owned values and for elements of vectors, and when the clone panics: then the target is as before.",
 "C45": "Full.",
 "C61": "Proved for programs whose arguments do not overflow usize when scaled by the element size; false in release builds for huge arguments (refuted).",
 "C62": "Proved for buffers of the same type, except for the odd growth of C08. For different types it reads out of bounds (refuted).",
 "C63": "Proved to be fine exactly for zero-sized types and types of alignment 1; undefined behaviour otherwise (refuted).",
 "C46": "For every hierarchy with distinct names, no cycle and no trait named like a standard one (C66), any macro attributes and any type. c46_generated_table makes the generated table an instance of the tables all VecDyn and Value theorems quantify over. c46_library_tables says the same of the library's own tables. dync_trait: for the direct supertraits, which are all it looks at.",
 "C47": "For every hierarchy as in C46; conversions to tables of standard and of declared supertraits; two steps agree with one.",
 "C48": "Termination for every acyclic hierarchy (with an explicit bound on the recursion depth), closure, and independence of declaration order up to the order of the generated items.",
 "C49": "For dync_mod and dync_trait.",
 "C50": "False: the suffix is ignored (refuted), and so is build_vtable_only (c50_ignored shows that neither attribute ever changes the output). The default suffix is proved; the crate name is honoured (C46-C49, C65 quantify over it). c50_crate_path_refuted: a crate name that is not a single identifier, such as crate::dync, stops both macros, for every trait and module.",
 "C64": "False for Hash, Debug (after an import) and for full paths of Clone, PartialEq, Eq, Send, Sync (refuted with Hash). Proved for the eight spellings the macro knows.",
 "C65": "Proved for dync_mod. False for dync_trait on traits with Eq but not PartialEq as a supertrait, because it does not flatten (refuted); proved for dync_trait otherwise. c65_check: the boolean check is equivalent to the typing rules of DeriveSpec.v. c65_library: the library's own items satisfy them.",
 "C66": "False: a user trait named Clone gives its subtraits the standard Clone functions (refuted). c66_bounds_ignored_refuted: for each of the eight standard names, the bounds of a trait so named are ignored, in every module. c66_own_drop_refuted: what is generated for a trait named Drop does not compile. Proved for names other than the sixteen reserved ones.",
 "C67": "Full.",
 "C57": "False: with_type_from accepts a reference to a value of any type and push_as has no Copy bound, so a string can be pushed once and dropped twice (refuted). Proved for programs that build buffers through the constructors with a Copy bound and from copyable references.",
 "C58": "False: Meta has public fields; mixing two types gives a vector whose elements are dropped at the wrong type (refuted, and c58_mixed_meta for every pair of types). Proved for a Meta taken from one source.",
 "C51": "False: the check is inverted. It accepts [Self; n] and rejects [u8; n] (refuted); behind a reference nothing is checked (refuted). c51_composite_partial says exactly what is accepted; paths, references and pointers to paths are translated rightly.",
 "C68": "False for parameters bounded in a where clause, always rejected, and for parameters nested in other types, which are left undeclared (refuted). The shape is proved for every accepted signature; translation and closedness for signatures whose types are paths or references or pointers to paths.",
 "C52": "False for fractions and for integers without an exact float, which are truncated or rounded instead of becoming zero (refuted). Proved as stated between integer types; for all types c52_vec_copy_partial and c52_vec_dyn_partial say exactly what an element becomes (same number whenever representable, truncation, closest float, infinities, NaN). usize, isize, u128 and i128 elements are lost (c52_wide_numbers_lost). The conversions of num_traits 0.2 and of the as operator are modelled from their documentation.",
 "C69": "False for a failing formatter: printing panics (refuted). The rest is proved.",
 "C53": "False (refuted): SliceCopy::from_slice and Slice::from_slice take &[T] with a lifetime of its own, so an accepted program reads through the view after the vector is dropped. Proved for every accepted straight-line program over all other safe view-making functions (c53_partial): whenever a view is used it was not moved, its owner's memory is the one it points to, and the table it refers to still exists. c53_flow_partial: the same for every run, of any length, of an accepted program with branches and loops (control-flow graph, liveness and loans joined over paths; each run is shown to be an accepted straight-line program). User-defined functions that pass views on are not modelled; rustc's rules are in the trusted base.",
 "C70": "False (refuted) through the free lifetime of from_slice. Proved for all accepted straight-line programs over the other safe functions: a view for reading sees the same number of writes when used as when made. c70_flow_partial: the same for every run of an accepted program with branches and loops.",
 "C59": "Slice and SliceMut: proved from the contract of the unsafe traits HasSend/HasSync (c59_slices), and without assuming the contract for tables the macro generates (c59_derived_slices). Refuted for SliceCopy and SliceCopyMut, which get the auto traits from their bytes whatever the element type (c59_copy_refuted); a Copy element such as a raw pointer crosses threads.",
 "C71": "Refuted: Slice, ValueRef and CopyValueRef are Send if the elements are Send, but a shared reference may be sent only if they are Sync (e.g. elements of type Cell<u8> are shared between threads). Proved for all owned and exclusive handles and for all Sync (c71_owned_partial), and for shared ones if the elements are Sync whenever they are Send (c71_shared_partial); SliceCopy and SliceCopyMut are excluded, see C59.",
 "C72": "Proved for tables generated from traits that inherit Send or Sync (c72_derived) for every handle but VecCopy and VecVoid. Refuted for the built-in SendVTable and SyncVTable, which implement neither HasSend nor HasSync, and for VecCopy, which is never Send.",
 "C73": "Round trip, unchanged behaviour and slices proved (c73_round_trip, c73_same_behaviour, c73_slice); with another table type the call panics and frees the memory, but drops no element (c73_other_table), so elements that own something are lost (c73_from_dyn_refuted). For VecCopy nothing is lost (c73_copy_other_table).",
 "C74": "Expansion of macro_rules modelled on token lists. from_dyn! expands for both owning containers and every path (c74_from_owned), into_dyn! for every container if the trait is one name and for Slice with every path (c74_into). Refuted: from_dyn! of no slice expands (the arms call an internal arm that does not exist); into_dyn! refuses every path of two or more names for all containers but Slice.",
 "C75": "Proved for VecCopy (including what is undefined out of range) and for VecDyn; writing drops the old element as set_as does.",
 "C76": "Proved for views of owned values and of elements (get_mut), boxed and small clones, and a panicking clone.",
 "C77": "Refuted: EqVTable can be built for types that are only PartialEq, such as f32, so a Vec<f32> with NaN gives a VecDyn<EqVTable> that implements Eq and differs from itself. Proved for elements whose == is reflexive (c77_reflexive_partial); c77_irreflexive says it fails for all others.",
 "C78": "Refuted: for two traits that inherit each other the recursion never ends, at every depth (c78_cycle_refuted). Proved for every module without cycles (c78_no_cycle_partial), with an explicit bound on the depth.",
 "C79": "Refuted: fn f<T: A + B>(&self, x: &T) is accepted and becomes &dyn A + B, for all such bounds (c79_refuted). Proved when each parameter has at most one bound (c79_single_partial).",
 "C80": "Proved for arguments whose byte positions are representable (all arguments in builds that check overflow, except chunk sizes): any nesting and order of operations on the parts acts on the elements as on a list, panics included (c80_views_partial, c80_buffer_views_partial, c80_owned_views_partial for owned elements, where only moving operations exist). c80_outside and c80_chunks say what the list programs mean. Refuted otherwise in release builds, where positions and chunk sizes wrap (c80_views_refuted).",
 "C81": "Proved for every program whose calls are in range: every step of every program, panicking or not, is one that PanicSpec.v allows, the buffers end as it says (contents, or gone), nothing is undefined and the memory ledger is right (c81_programs). A panic that takes the contents of a buffer is allowed only where the buffer cannot grow, pushes a type larger than its alignment, or is rotated too far. c81_other_buffers and c81_returning_calls say what PanicSpec.v implies: other buffers are left alone, and returning calls are those of Spec.v. Calls out of range in builds without overflow checks are the subject of C03, C04 and C05.",
 "C82": "Proved for every program whose calls are in range and every set of types whose destructors do not panic: every step, panicking or not, is one that DynPanicSpec.v allows, and the objects and the trace end as it says (c82_programs). DynPanicSpec.v does not say what a vector that lost its contents answers, only that using it changes no object. c82_other_objects, c82_lost and c82_returns say what DynPanicSpec.v implies: objects not named are left alone, a lost vector stays lost until it is dropped or converted, and steps that name no lost vector return and panic exactly as stated.",
 "C83": "Every build panics or does what a release build does (c83_any_build, c83_vec_any_build). In a release build the property holds for element sizes that are powers of two, and the theorems say exactly which element each position is taken for (c83_release_partial, c83_vec_release_partial). For every other size it is false of every container with at least two elements (c83_torn_refuted, c83_vec_torn_refuted): some position gives a reference to parts of two elements, for String an invalid String, from safe code. The model calls reading such bytes undefined; for types of which every bit pattern is a value it is a value that was never stored.",
 "C84": "The number of blocks asked of the allocator is counted by the model's allocator (every alloc or realloc takes the next block number); the growth policy is std's RawVec (trusted base). The theorems bound the number for every list of values pushed and say that pushes within the reserved room leave the memory untouched (w' = w).",
 "C85": "Proved for every wf_tenv with clones_ok, i.e. destructors may panic depending on the value and on the whole trace so far. Undefined behaviour is what the model can express (allocation, layout, initialised reads at the right type); a second drop of a value is not UB there but counted: again lists the values dropped by a clear or resize that panicked and left them in the vector (C30). Values lost by a panicking step are collected in lost, the blocks in leak.",
 "C86": "The signatures that take &self and give a view for reading are listed by name (c86_signatures); every program, of any length, made of new owners, calls by & on variables of the right kind, and reads is accepted by the borrow rules (c86_readers).",
 "C87": "needs lists the table functions each kind of step calls; acts_full says that a table with every function, built, dropped and laid out the same way, exists with which the program does the same. Proved for every table whose built values drop as their type does and offer what the program needs (c87_smaller_tables), for the library's tables (c87_library), for (DropFn, V) (c87_paired) and for derived tables (c87_derived); c87_derived_accounting carries the accounting of C85 over. That rustc refuses a program that uses what the table does not offer is the compiler's business, not modelled beyond C46.",
 "C88": "The five arms and Rust's matching rules with repetitions are modelled (MacroNum.v); an argument expression is one piece, already parsed. Every call of the documented forms expands, whatever the numbers of type parameters and arguments, and its code does what the property says (does in MacroNumSpec.v). c88_library: the library's own calls expand to the dispatch that Numeric.v gives them. What the macro refuses beyond that (trailing commas, receivers that are not plain names) is not stated.",
 "C89": "False: the arms call the macro again by its bare name, without $crate::. c89_from_dyn_refuted and c89_into_dyn_refuted: no call by path expands unless the macro is imported too. c89_numeric_refuted, c89_numeric_method_refuted: nor do numeric calls with a single type parameter or a single argument; c89_numeric_partial: the other numeric calls do work by path.",
 "C90": "DeriveAttr.v parses the tokens as syn does. c90_read: every attribute list is read as written. c90_accepted says exactly which token lists are accepted (the = may be missing or stand alone), c90_refused that all others are a compile error. False: misspelt names and values of the wrong kind are accepted (c90_mistakes_refuted) and have no effect, wherever they stand (c90_mistakes_partial)."
}
