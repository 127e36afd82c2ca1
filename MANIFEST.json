{
 "claims": [
  {
   "property": "C01",
   "status": "proved",
   "theorems": [
    "c01_vec_round_trip",
    "c01_into_vec"
   ],
   "note": "For vectors of every sized type, length and capacity, and for every reachable buffer."
  },
  {
   "property": "C02",
   "status": "proved",
   "theorems": [
    "c02_wrong_type_refused",
    "c02_right_type_accepted"
   ],
   "note": "Every typed operation of VecCopy, for every reachable buffer and every other type; the right type is always accepted."
  },
  {
   "property": "C03",
   "status": "partial",
   "theorems": [
    "c03_list_refinement_partial",
    "c03_list_refinement_checked_partial",
    "c03_list_refinement_refuted"
   ],
   "note": "Proved for every program whose arguments do not overflow usize when scaled by the element size, and for every program in checked builds. False in release builds for huge arguments (refuted)."
  },
  {
   "property": "C04",
   "status": "proved",
   "theorems": [
    "c04_memory_ledger"
   ],
   "note": "Proved for every history, with caught panics and out-of-range calls, in every build profile. Once a call has undefined behaviour of another kind (C05, C06) nothing more is claimed about the history."
  },
  {
   "property": "C05",
   "status": "partial",
   "theorems": [
    "c05_no_undefined_behaviour_partial",
    "c05_no_undefined_behaviour_checked_partial",
    "c05_no_undefined_behaviour_refuted",
    "c05_wrapping_rotation_refuted"
   ],
   "note": "Proved under the same condition as C03. False in every build after a caught panic followed by pushing a reference to a unit value, and in release builds for huge rotation amounts (both refuted)."
  },
  {
   "property": "C06",
   "status": "partial",
   "theorems": [
    "c06_get_in_bounds",
    "c06_get_out_of_bounds_partial",
    "c06_get_out_of_bounds_refuted"
   ],
   "note": "In-range access proved. Out-of-range access panics only with debug assertions; otherwise it is undefined behaviour (refuted)."
  },
  {
   "property": "C07",
   "status": "proved",
   "theorems": [
    "c07_zero_sized_rejected",
    "c07_sized_constructors"
   ],
   "note": "All constructors, zero-sized and sized."
  },
  {
   "property": "C08",
   "status": "partial",
   "theorems": [
    "c08_reserve_partial",
    "c08_reserve_panics",
    "c08_reserve_refuted",
    "c08_reserve_wraps_refuted"
   ],
   "note": "Proved except for 3-byte elements growing from capacity 1 to 2, where the call panics and the contents are lost; the theorem c08_reserve_panics characterises the panics. In release builds huge requests wrap around (refuted)."
  },
  {
   "property": "C09",
   "status": "partial",
   "theorems": [
    "c09_resize_partial",
    "c09_shrinking_resize",
    "c09_resize_panics",
    "c09_resize_refuted"
   ],
   "note": "Proved except for the odd growth of C08 (refuted there). Shrinking is proved in full. c09_resize_panics: in every other case it panics and the contents are lost."
  },
  {
   "property": "C10",
   "status": "partial",
   "theorems": [
    "c10_push_partial",
    "c10_push_other_type",
    "c10_push_full_panics",
    "c10_push_never_works",
    "c10_push_refuted"
   ],
   "note": "Proved for types whose size equals their alignment. For every type larger than its alignment push always panics and destroys the buffer (c10_push_never_works). A full buffer that cannot grow: it panics and loses the contents (c10_push_full_panics)."
  },
  {
   "property": "C11",
   "status": "partial",
   "theorems": [
    "c11_extend_partial",
    "c11_collect_partial",
    "c11_mixed_types_panic",
    "c11_extend_never_works",
    "c11_collect_refuted"
   ],
   "note": "As C10: proved for size equal to alignment, refuted otherwise."
  },
  {
   "property": "C12",
   "status": "partial",
   "theorems": [
    "c12_append_partial",
    "c12_append_other_type",
    "c12_append_panics",
    "c12_append_refuted"
   ],
   "note": "Proved except for the odd growth of C08 (refuted there). c12_append_panics: in every other case it panics; what is left of both buffers is stated."
  },
  {
   "property": "C13",
   "status": "partial",
   "theorems": [
    "c13_rotate_partial",
    "c13_slice_rotate",
    "c13_rotations_undo",
    "c13_rotate_refuted"
   ],
   "note": "Proved for alignments up to 8192 on vectors and for all types on slices. For larger alignments vector rotation always panics (refuted)."
  },
  {
   "property": "C14",
   "status": "partial",
   "theorems": [
    "c14_rotate_out_of_range",
    "c14_slice_rotate_out_of_range_partial",
    "c14_rotate_loses_contents_refuted",
    "c14_slice_rotate_wraps_refuted"
   ],
   "note": "The panic is proved; on vectors the contents are always lost (refuted), on slices nothing changes. In release builds huge amounts wrap around (refuted)."
  },
  {
   "property": "C15",
   "status": "proved",
   "theorems": [
    "c15_typed_indexing"
   ],
   "note": "Full."
  },
  {
   "property": "C16",
   "status": "partial",
   "theorems": [
    "c16_iteration",
    "c16_slice_iteration",
    "c16_slice_is_empty",
    "c16_zero_sized_slice_refuted"
   ],
   "note": "Full for sized elements, on vectors and slices. Slices of zero-sized values have no usable length (refuted)."
  },
  {
   "property": "C17",
   "status": "partial",
   "theorems": [
    "c17_copy_from_slice_partial",
    "c17_copy_from_slice_refuted"
   ],
   "note": "Same length proved; any other length panics, though longer slices are documented to extend the buffer (refuted)."
  },
  {
   "property": "C18",
   "status": "proved",
   "theorems": [
    "c18_fill"
   ],
   "note": "Full."
  },
  {
   "property": "C19",
   "status": "proved",
   "theorems": [
    "c19_clone",
    "c19_independence"
   ],
   "note": "Full, with independence of later operations on either buffer."
  },
  {
   "property": "C20",
   "status": "proved",
   "theorems": [
    "c20_with_type_from",
    "c20_vecdyn_with_type_from"
   ],
   "note": "Full: from buffers, vectors, slices, copyable references, references and mutable references (non-zero size)."
  },
  {
   "property": "C21",
   "status": "partial",
   "theorems": [
    "c21_subslice_partial",
    "c21_inclusive_short",
    "c21_inclusive_refuted",
    "c21_wraps_refuted"
   ],
   "note": "Proved for half-open ranges, and for inclusive ones over one-byte elements. For larger elements an inclusive range always loses its last element (c21_inclusive_short); huge ranges wrap in release builds (refuted)."
  },
  {
   "property": "C22",
   "status": "partial",
   "theorems": [
    "c22_split_at_partial",
    "c22_chunks_exact_partial",
    "c22_zero_chunks",
    "c22_split_at_refuted",
    "c22_chunks_exact_refuted",
    "groups_unique"
   ],
   "note": "Proved for arguments that do not overflow when scaled; refuted in release builds otherwise. c55_lost_vec_get: on a vector that a caught panic left without contents, a release build accepts every index and gives a reference to (), whose clone panics."
  },
  {
   "property": "C23",
   "status": "partial",
   "theorems": [
    "c23_swap_partial",
    "c23_swap_refuted",
    "swap_meaning"
   ],
   "note": "Proved for arguments that do not overflow when scaled; refuted in release builds otherwise. c55_lost_vec_get: on a vector that a caught panic left without contents, a release build accepts every index and gives a reference to (), whose clone panics."
  },
  {
   "property": "C24",
   "status": "proved",
   "theorems": [
    "c24_subslice_write",
    "c24_subslice_swap",
    "c24_element_write",
    "c24_update",
    "c24_iter_copy",
    "c24_split_write",
    "c24_chunk_write",
    "list_set_meaning"
   ],
   "note": "Full."
  },
  {
   "property": "C25",
   "status": "proved",
   "theorems": [
    "c25_upcast",
    "c25_upcast_shows",
    "c25_consuming",
    "c25_ref_upcast",
    "c25_mut_upcast",
    "c25_slice_upcast",
    "c25_vecdyn_upcast",
    "c25_value_ref_upcast",
    "c25_value_mut_upcast",
    "c25_value_upcast"
   ],
   "note": "Full: every call commutes with the upcast, on vectors, slices, references, mutable references and owned values."
  },
  {
   "property": "C26",
   "status": "proved",
   "theorems": [
    "c26_dispatch",
    "c26_elements_aligned"
   ],
   "note": "Full."
  },
  {
   "property": "C27",
   "status": "partial",
   "theorems": [
    "c27_after_panic_partial",
    "c27_after_panic_refuted"
   ],
   "note": "Unchanged or emptied after every caught panic, except that extend keeps the items pushed before the offending one (refuted as stated); dropping afterwards always succeeds."
  },
  {
   "property": "C28",
   "status": "partial",
   "theorems": [
    "c28_accounting_partial",
    "c28_exact_partial",
    "c28_accounting_refuted",
    "c28_push_as_no_room",
    "c28_append_no_room"
   ],
   "note": "Proved: in every history, with caught panics, each value is accounted for at most once; and exactly when no call panics and none of three leaking calls occurs. The leaks are real (refuted; see C34, C41, C42). Pushes of boxed values of alignment above 1 are excluded (C32). c28_push_as_no_room, c28_append_no_room: what a panic for lack of room costs."
  },
  {
   "property": "C29",
   "status": "proved",
   "theorems": [
    "c29_drop"
   ],
   "note": "Full."
  },
  {
   "property": "C30",
   "status": "partial",
   "theorems": [
    "c30_panicking_destructor_refuted",
    "c30_clear_partial",
    "c30_resize_partial",
    "c30_drop_partial",
    "c30_dropped_again",
    "c30_into_vec",
    "c30_value_drop",
    "c30_assign_element",
    "c30_clone_from_element",
    "c30_fill",
    "c30_clone_from_slice"
   ],
   "note": "False: refuted by clear on a vector with a panicking destructor. Proved: exactly which destructors clear, a shrinking resize and drop run when one panics, that clear and resize then leave the vector unchanged (so dropping it starts over, c30_dropped_again) and that drop leaks the buffer. The vectors are those of every program that was not aborted, whether destructors panicked in it before or not (running_vec). c30_into_vec: a Vec made of the vector drops every element once, even if one destructor panics. c30_value_drop, c30_assign_element: an owned value whose destructor panics leaks its boxes; an assignment over such an element still puts the new value in place. c30_clone_from_element, c30_fill, c30_clone_from_slice: the same for clones written over elements."
  },
  {
   "property": "C31",
   "status": "proved",
   "theorems": [
    "c31_clone",
    "c31_clone_panics"
   ],
   "note": "Full, with and without panicking clones."
  },
  {
   "property": "C32",
   "status": "partial",
   "theorems": [
    "c32_push_partial",
    "c32_other_type",
    "c32_wrong_layout",
    "c32_push_never_works",
    "c32_push_refuted",
    "c32_unit_push_refuted"
   ],
   "note": "Proved for types of size and alignment 1 and for mismatched types. For every other alignment the box is freed with the wrong layout (c32_wrong_layout); for alignment 1 and other sizes push always panics and destroys the vector (c32_push_never_works)."
  },
  {
   "property": "C33",
   "status": "partial",
   "theorems": [
    "c33_push_cloned_partial",
    "c33_other_type",
    "c33_panicking_clone_loses",
    "c33_push_cloned_no_room",
    "c33_push_cloned_refuted"
   ],
   "note": "Proved except for the odd growth of C08. With a panicking clone all other elements are lost (c33_panicking_clone_loses, refuted). c33_push_cloned_no_room: without room nothing is cloned and the elements are lost."
  },
  {
   "property": "C34",
   "status": "partial",
   "theorems": [
    "c34_into_vec",
    "c34_other_type_loses",
    "c34_into_vec_refuted"
   ],
   "note": "Proved for the stored type. With another type no element is dropped (c34_other_type_loses, refuted)."
  },
  {
   "property": "C35",
   "status": "partial",
   "theorems": [
    "c35_eq_partial",
    "c35_slice_eq_partial",
    "c35_equivalence_partial",
    "c35_common_prefix",
    "c35_slice_common_prefix",
    "c35_eq_refuted",
    "c35_transitive_refuted"
   ],
   "note": "Proved for equal lengths. Lengths are ignored: the theorem c35_common_prefix says what is computed; equality is not transitive (refuted)."
  },
  {
   "property": "C36",
   "status": "partial",
   "theorems": [
    "c36_hash",
    "c36_hash_eq_partial",
    "c36_value_hash",
    "c36_hash_eq_refuted"
   ],
   "note": "Proved for equal lengths and for values; false otherwise (refuted)."
  },
  {
   "property": "C37",
   "status": "proved",
   "theorems": [
    "c37_vec_fmt",
    "c37_slice_fmt",
    "c37_value_fmt",
    "c37_ref_fmt"
   ],
   "note": "Full, for vectors, slices, values and references."
  },
  {
   "property": "C38",
   "status": "partial",
   "theorems": [
    "c38_clear",
    "c38_resize_grow_partial",
    "c38_resize_clone_panics",
    "c38_resize_shrink",
    "c38_resize_other_type",
    "c38_fill",
    "c38_fill_clone_panics",
    "c38_resize_no_room",
    "c38_resize_grow_refuted"
   ],
   "note": "Proved except for the odd growth of C08 (refuted there). c38_resize_no_room: without room nothing is cloned, the given value is dropped, the elements are lost. c38_fill_clone_panics: the elements replaced so far stay, the rest is as before, the given value is dropped."
  },
  {
   "property": "C39",
   "status": "partial",
   "theorems": [
    "c39_drop_partial",
    "c39_drop_refuted"
   ],
   "note": "Proved for every vector that has not lost its contents; dropping one that has always panics (refuted)."
  },
  {
   "property": "C40",
   "status": "proved",
   "theorems": [
    "c40_new",
    "c40_drop",
    "c40_downcast_box",
    "c40_downcast_small",
    "c40_clone",
    "c40_clone_value",
    "c40_clone_small_value",
    "c40_clone_small_too_big",
    "c40_box_freed"
   ],
   "note": "Full."
  },
  {
   "property": "C41",
   "status": "partial",
   "theorems": [
    "c41_leaks",
    "c41_small_leaks",
    "c41_copy_partial",
    "c41_leaks_refuted"
   ],
   "note": "False: a failed downcast always leaks (c41_leaks, c41_small_leaks). Proved for copyable small values."
  },
  {
   "property": "C42",
   "status": "partial",
   "theorems": [
    "c42_try_new_partial",
    "c42_try_new_refuted"
   ],
   "note": "Admission proved; on failure the value is leaked (refuted)."
  },
  {
   "property": "C43",
   "status": "proved",
   "theorems": [
    "c43_swap_values",
    "c43_assign_value",
    "c43_clone_from_value",
    "c43_clone_from_other_type",
    "c43_swap_elements",
    "c43_assign_element",
    "c43_clone_from_element",
    "c43_clone_from_value_panics",
    "c43_clone_from_element_panics",
    "c43_downcast_value",
    "c43_downcast_element"
   ],
   "note": "Full, for owned values and for elements of vectors, and when the clone panics: then the target is as before."
  },
  {
   "property": "C44",
   "status": "proved",
   "theorems": [
    "c44_copy",
    "c44_swap",
    "c44_reads"
   ],
   "note": "Full."
  },
  {
   "property": "C45",
   "status": "proved",
   "theorems": [
    "c45_value_eq",
    "c45_ref_eq",
    "c45_mut_eq",
    "c45_copy_ref_eq"
   ],
   "note": "Full."
  },
  {
   "property": "C46",
   "status": "proved",
   "theorems": [
    "c46_dispatch",
    "c46_dispatch_trait",
    "c46_library_tables",
    "c46_generated_table"
   ],
   "note": "For every hierarchy with distinct names, no cycle and no trait named like a standard one (C66), any macro attributes and any type. c46_generated_table makes the generated table an instance of the tables all VecDyn and Value theorems quantify over. c46_library_tables says the same of the library's own tables. dync_trait: for the direct supertraits, which are all it looks at."
  },
  {
   "property": "C47",
   "status": "proved",
   "theorems": [
    "c47_base_tables",
    "c47_conversions_agree"
   ],
   "note": "For every hierarchy as in C46; conversions to tables of standard and of declared supertraits; two steps agree with one."
  },
  {
   "property": "C48",
   "status": "proved",
   "theorems": [
    "c48_closure",
    "c48_has_trait",
    "c48_order"
   ],
   "note": "Termination for every acyclic hierarchy (with an explicit bound on the recursion depth), closure, and independence of declaration order up to the order of the generated items."
  },
  {
   "property": "C49",
   "status": "proved",
   "theorems": [
    "c49_drop_first",
    "c49_drop_first_trait"
   ],
   "note": "For dync_mod and dync_trait."
  },
  {
   "property": "C50",
   "status": "partial",
   "theorems": [
    "c50_suffix_refuted",
    "c50_default_suffix_partial",
    "c50_ignored",
    "c50_crate_path_refuted"
   ],
   "note": "False: the suffix is ignored (refuted), and so is build_vtable_only (c50_ignored shows that neither attribute ever changes the output). The default suffix is proved; the crate name is honoured (C46-C49, C65 quantify over it). c50_crate_path_refuted: a crate name that is not a single identifier, such as crate::dync, stops both macros, for every trait and module."
  },
  {
   "property": "C51",
   "status": "partial",
   "theorems": [
    "c51_refuted",
    "c51_hidden_self_refuted",
    "c51_composite_partial",
    "c51_plain_names_partial",
    "c51_direct_partial"
   ],
   "note": "False: the check is inverted. It accepts [Self; n] and rejects [u8; n] (refuted); behind a reference nothing is checked (refuted). c51_composite_partial says exactly what is accepted; paths, references and pointers to paths are translated rightly."
  },
  {
   "property": "C52",
   "status": "partial",
   "theorems": [
    "c52_fraction_refuted",
    "c52_rounding_refuted",
    "c52_vec_copy_partial",
    "c52_vec_dyn_partial",
    "c52_integers_partial",
    "c52_other_types",
    "c52_wide_numbers_lost"
   ],
   "note": "False for fractions and for integers without an exact float, which are truncated or rounded instead of becoming zero (refuted). Proved as stated between integer types; for all types c52_vec_copy_partial and c52_vec_dyn_partial say exactly what an element becomes (same number whenever representable, truncation, closest float, infinities, NaN). usize, isize, u128 and i128 elements are lost (c52_wide_numbers_lost). The conversions of num_traits 0.2 and of the as operator are modelled from their documentation."
  },
  {
   "property": "C53",
   "status": "partial",
   "theorems": [
    "c53_refuted",
    "c53_partial",
    "c53_flow_partial"
   ],
   "note": "False (refuted): SliceCopy::from_slice and Slice::from_slice take &[T] with a lifetime of its own, so an accepted program reads through the view after the vector is dropped. Proved for every accepted straight-line program over all other safe view-making functions (c53_partial): whenever a view is used it was not moved, its owner's memory is the one it points to, and the table it refers to still exists. c53_flow_partial: the same for every run, of any length, of an accepted program with branches and loops (control-flow graph, liveness and loans joined over paths; each run is shown to be an accepted straight-line program). User-defined functions that pass views on are not modelled; rustc's rules are in the trusted base."
  },
  {
   "property": "C54",
   "status": "proved",
   "theorems": [
    "c54_vec_raw_parts",
    "c54_slice_raw_parts",
    "c54_vecdyn_raw_parts",
    "c54_value_raw_parts"
   ],
   "note": "Vectors, slices and values."
  },
  {
   "property": "C55",
   "status": "partial",
   "theorems": [
    "c55_slice_get_partial",
    "c55_typed_slice_get",
    "c55_slice_get_refuted",
    "c55_vec_get_partial",
    "c55_vec_get_mut_partial",
    "c55_vec_get_refuted",
    "c55_lost_vec_get"
   ],
   "note": "Proved with debug assertions or for indices that do not overflow when scaled; refuted in release builds otherwise. c55_lost_vec_get: on a vector that a caught panic left without contents, a release build accepts every index and gives a reference to (), whose clone panics."
  },
  {
   "property": "C56",
   "status": "proved",
   "theorems": [
    "c56_append_copy_to_vec",
    "c56_copy_into_vec",
    "c56_copy_into_vec_other_type",
    "c56_slice_append_copy_to_vec",
    "c56_slice_copy_into_vec",
    "c56_clone_into_vec",
    "c56_clone_into_vec_panics",
    "c56_clone_into_vec_other_type",
    "c56_append_cloned_to_vec",
    "c56_slice_append_clone",
    "c56_slice_clone_into_vec",
    "c56_slice_other_type",
    "c56_clone_from_slice"
   ],
   "note": "Full, for vectors and slices, copyable and owned elements; clone_into_vec has no capacity panic at all, and a panicking clone drops the clones made so far (c56_clone_into_vec_panics)."
  },
  {
   "property": "C57",
   "status": "partial",
   "theorems": [
    "c57_copy_only_partial",
    "c57_copy_only_refuted"
   ],
   "note": "False: with_type_from accepts a reference to a value of any type and push_as has no Copy bound, so a string can be pushed once and dropped twice (refuted). Proved for programs that build buffers through the constructors with a Copy bound and from copyable references."
  },
  {
   "property": "C58",
   "status": "partial",
   "theorems": [
    "c58_one_source_partial",
    "c58_mixed_meta",
    "c58_mixed_refuted"
   ],
   "note": "False: Meta has public fields; mixing two types gives a vector whose elements are dropped at the wrong type (refuted, and c58_mixed_meta for every pair of types). Proved for a Meta taken from one source."
  },
  {
   "property": "C59",
   "status": "partial",
   "theorems": [
    "c59_slices",
    "c59_derived_slices",
    "c59_copy_refuted"
   ],
   "note": "Slice and SliceMut: proved from the contract of the unsafe traits HasSend/HasSync (c59_slices), and without assuming the contract for tables the macro generates (c59_derived_slices). Refuted for SliceCopy and SliceCopyMut, which get the auto traits from their bytes whatever the element type (c59_copy_refuted); a Copy element such as a raw pointer crosses threads."
  },
  {
   "property": "C60",
   "status": "proved",
   "theorems": [
    "c60_push_as",
    "c60_push_as_panics"
   ],
   "note": "Full; c60_push_as_panics: it does panic when the buffer is full and cannot grow."
  },
  {
   "property": "C61",
   "status": "partial",
   "theorems": [
    "c61_programs_partial",
    "c61_programs_refuted"
   ],
   "note": "Proved for programs whose arguments do not overflow usize when scaled by the element size; false in release builds for huge arguments (refuted)."
  },
  {
   "property": "C62",
   "status": "partial",
   "theorems": [
    "c62_clone_from_partial",
    "c62_clone_from_refuted"
   ],
   "note": "Proved for buffers of the same type, except for the odd growth of C08. For different types it reads out of bounds (refuted)."
  },
  {
   "property": "C63",
   "status": "partial",
   "theorems": [
    "c63_raw_box_partial",
    "c63_raw_box_refuted"
   ],
   "note": "Proved to be fine exactly for zero-sized types and types of alignment 1; undefined behaviour otherwise (refuted)."
  },
  {
   "property": "C64",
   "status": "partial",
   "theorems": [
    "c64_paths_refuted",
    "c64_paths_partial"
   ],
   "note": "False for Hash, Debug (after an import) and for full paths of Clone, PartialEq, Eq, Send, Sync (refuted with Hash). Proved for the eight spellings the macro knows."
  },
  {
   "property": "C65",
   "status": "partial",
   "theorems": [
    "c65_mod_compiles",
    "c65_check",
    "c65_library",
    "c65_trait_refuted",
    "c65_trait_partial"
   ],
   "note": "Proved for dync_mod. False for dync_trait on traits with Eq but not PartialEq as a supertrait, because it does not flatten (refuted); proved for dync_trait otherwise. c65_check: the boolean check is equivalent to the typing rules of DeriveSpec.v. c65_library: the library's own items satisfy them."
  },
  {
   "property": "C66",
   "status": "partial",
   "theorems": [
    "c66_std_names_refuted",
    "c66_bounds_ignored_refuted",
    "c66_own_drop_refuted",
    "c66_module_traits_partial",
    "c66_library_untouched_partial"
   ],
   "note": "False: a user trait named Clone gives its subtraits the standard Clone functions (refuted). c66_bounds_ignored_refuted: for each of the eight standard names, the bounds of a trait so named are ignored, in every module. c66_own_drop_refuted: what is generated for a trait named Drop does not compile. Proved for names other than the sixteen reserved ones."
  },
  {
   "property": "C67",
   "status": "proved",
   "theorems": [
    "c67_reborrow",
    "c67_copy_views",
    "c67_slice_reborrow",
    "c67_from_value",
    "c67_new_views"
   ],
   "note": "Full."
  },
  {
   "property": "C68",
   "status": "partial",
   "theorems": [
    "c68_shape",
    "c68_where_refuted",
    "c68_generic_left_refuted",
    "c68_simple_partial",
    "c68_closed_partial"
   ],
   "note": "False for parameters bounded in a where clause, always rejected, and for parameters nested in other types, which are left undeclared (refuted). The shape is proved for every accepted signature; translation and closedness for signatures whose types are paths or references or pointers to paths."
  },
  {
   "property": "C69",
   "status": "partial",
   "theorems": [
    "c69_prints_all",
    "c69_other_types",
    "c69_failing_writer_refuted"
   ],
   "note": "False for a failing formatter: printing panics (refuted). The rest is proved."
  },
  {
   "property": "C70",
   "status": "partial",
   "theorems": [
    "c70_refuted",
    "c70_partial",
    "c70_flow_partial"
   ],
   "note": "False (refuted) through the free lifetime of from_slice. Proved for all accepted straight-line programs over the other safe functions: a view for reading sees the same number of writes when used as when made. c70_flow_partial: the same for every run of an accepted program with branches and loops."
  },
  {
   "property": "C71",
   "status": "partial",
   "theorems": [
    "c71_shared_refuted",
    "c71_owned_partial",
    "c71_shared_partial"
   ],
   "note": "Refuted: Slice, ValueRef and CopyValueRef are Send if the elements are Send, but a shared reference may be sent only if they are Sync (e.g. elements of type Cell<u8> are shared between threads). Proved for all owned and exclusive handles and for all Sync (c71_owned_partial), and for shared ones if the elements are Sync whenever they are Send (c71_shared_partial); SliceCopy and SliceCopyMut are excluded, see C59."
  },
  {
   "property": "C72",
   "status": "partial",
   "theorems": [
    "c72_builtin_refuted",
    "c72_vec_copy_refuted",
    "c72_derived"
   ],
   "note": "Proved for tables generated from traits that inherit Send or Sync (c72_derived) for every handle but VecCopy and VecVoid. Refuted for the built-in SendVTable and SyncVTable, which implement neither HasSend nor HasSync, and for VecCopy, which is never Send."
  },
  {
   "property": "C73",
   "status": "partial",
   "theorems": [
    "c73_round_trip",
    "c73_same_behaviour",
    "c73_slice",
    "c73_other_table",
    "c73_copy_other_table",
    "c73_from_dyn_refuted"
   ],
   "note": "Round trip, unchanged behaviour and slices proved (c73_round_trip, c73_same_behaviour, c73_slice); with another table type the call panics and frees the memory, but drops no element (c73_other_table), so elements that own something are lost (c73_from_dyn_refuted). For VecCopy nothing is lost (c73_copy_other_table)."
  },
  {
   "property": "C74",
   "status": "partial",
   "theorems": [
    "c74_from_owned",
    "c74_into",
    "c74_from_slice_refuted",
    "c74_into_path_refuted"
   ],
   "note": "Expansion of macro_rules modelled on token lists. from_dyn! expands for both owning containers and every path (c74_from_owned), into_dyn! for every container if the trait is one name and for Slice with every path (c74_into). Refuted: from_dyn! of no slice expands (the arms call an internal arm that does not exist); into_dyn! refuses every path of two or more names for all containers but Slice."
  },
  {
   "property": "C75",
   "status": "proved",
   "theorems": [
    "c75_unchecked_copy",
    "c75_unchecked_dyn"
   ],
   "note": "Proved for VecCopy (including what is undefined out of range) and for VecDyn; writing drops the old element as set_as does."
  },
  {
   "property": "C76",
   "status": "proved",
   "theorems": [
    "c76_clone_through_mut"
   ],
   "note": "Proved for views of owned values and of elements (get_mut), boxed and small clones, and a panicking clone."
  },
  {
   "property": "C77",
   "status": "partial",
   "theorems": [
    "c77_reflexive_partial",
    "c77_irreflexive",
    "c77_eq_refuted"
   ],
   "note": "Refuted: EqVTable can be built for types that are only PartialEq, such as f32, so a Vec<f32> with NaN gives a VecDyn<EqVTable> that implements Eq and differs from itself. Proved for elements whose == is reflexive (c77_reflexive_partial); c77_irreflexive says it fails for all others."
  },
  {
   "property": "C78",
   "status": "partial",
   "theorems": [
    "c78_cycle_refuted",
    "c78_no_cycle_partial"
   ],
   "note": "Refuted: for two traits that inherit each other the recursion never ends, at every depth (c78_cycle_refuted). Proved for every module without cycles (c78_no_cycle_partial), with an explicit bound on the depth."
  },
  {
   "property": "C79",
   "status": "partial",
   "theorems": [
    "c79_refuted",
    "c79_single_partial"
   ],
   "note": "Refuted: fn f<T: A + B>(&self, x: &T) is accepted and becomes &dyn A + B, for all such bounds (c79_refuted). Proved when each parameter has at most one bound (c79_single_partial)."
  },
  {
   "property": "C80",
   "status": "partial",
   "theorems": [
    "c80_views_partial",
    "c80_buffer_views_partial",
    "c80_owned_views_partial",
    "c80_outside",
    "c80_chunks",
    "c80_views_refuted"
   ],
   "note": "Proved for arguments whose byte positions are representable (all arguments in builds that check overflow, except chunk sizes): any nesting and order of operations on the parts acts on the elements as on a list, panics included (c80_views_partial, c80_buffer_views_partial, c80_owned_views_partial for owned elements, where only moving operations exist). c80_outside and c80_chunks say what the list programs mean. Refuted otherwise in release builds, where positions and chunk sizes wrap (c80_views_refuted)."
  },
  {
   "property": "C81",
   "status": "proved",
   "theorems": [
    "c81_programs",
    "c81_other_buffers",
    "c81_returning_calls"
   ],
   "note": "Proved for every program whose calls are in range: every step of every program, panicking or not, is one that PanicSpec.v allows, the buffers end as it says (contents, or gone), nothing is undefined and the memory ledger is right (c81_programs). A panic that takes the contents of a buffer is allowed only where the buffer cannot grow, pushes a type larger than its alignment, or is rotated too far. c81_other_buffers and c81_returning_calls say what PanicSpec.v implies: other buffers are left alone, and returning calls are those of Spec.v. Calls out of range in builds without overflow checks are the subject of C03, C04 and C05."
  },
  {
   "property": "C82",
   "status": "proved",
   "theorems": [
    "c82_programs",
    "c82_other_objects",
    "c82_lost",
    "c82_returns"
   ],
   "note": "Proved for every program whose calls are in range and every set of types whose destructors do not panic: every step, panicking or not, is one that DynPanicSpec.v allows, and the objects and the trace end as it says (c82_programs). DynPanicSpec.v does not say what a vector that lost its contents answers, only that using it changes no object. c82_other_objects, c82_lost and c82_returns say what DynPanicSpec.v implies: objects not named are left alone, a lost vector stays lost until it is dropped or converted, and steps that name no lost vector return and panic exactly as stated."
  },
  {
   "property": "C83",
   "status": "partial",
   "theorems": [
    "c83_any_build",
    "c83_release_partial",
    "c83_torn_refuted",
    "c83_vec_any_build",
    "c83_vec_release_partial",
    "c83_vec_torn_refuted"
   ],
   "note": "Every build panics or does what a release build does (c83_any_build, c83_vec_any_build). In a release build the property holds for element sizes that are powers of two, and the theorems say exactly which element each position is taken for (c83_release_partial, c83_vec_release_partial). For every other size it is false of every container with at least two elements (c83_torn_refuted, c83_vec_torn_refuted): some position gives a reference to parts of two elements, for String an invalid String, from safe code. The model calls reading such bytes undefined; for types of which every bit pattern is a value it is a value that was never stored."
  },
  {
   "property": "C84",
   "status": "proved",
   "theorems": [
    "c84_push_as",
    "c84_push",
    "c84_reserved",
    "c84_with_capacity",
    "c84_vec_push_as",
    "c84_vec_with_capacity"
   ],
   "note": "The number of blocks asked of the allocator is counted by the model's allocator (every alloc or realloc takes the next block number); the growth policy is std's RawVec (trusted base). The theorems bound the number for every list of values pushed and say that pushes within the reserved room leave the memory untouched (w' = w)."
  },
  {
   "property": "C85",
   "status": "proved",
   "theorems": [
    "c85_accounting"
   ],
   "note": "Proved for every wf_tenv with clones_ok, i.e. destructors may panic depending on the value and on the whole trace so far. Undefined behaviour is what the model can express (allocation, layout, initialised reads at the right type); a second drop of a value is not UB there but counted: again lists the values dropped by a clear or resize that panicked and left them in the vector (C30). Values lost by a panicking step are collected in lost, the blocks in leak."
  },
  {
   "property": "C86",
   "status": "proved",
   "theorems": [
    "c86_signatures",
    "c86_readers"
   ],
   "note": "The signatures that take &self and give a view for reading are listed by name (c86_signatures); every program, of any length, made of new owners, calls by & on variables of the right kind, and reads is accepted by the borrow rules (c86_readers)."
  },
  {
   "property": "C87",
   "status": "proved",
   "theorems": [
    "c87_smaller_tables",
    "c87_library",
    "c87_paired",
    "c87_derived",
    "c87_derived_accounting"
   ],
   "note": "needs lists the table functions each kind of step calls; acts_full says that a table with every function, built, dropped and laid out the same way, exists with which the program does the same. Proved for every table whose built values drop as their type does and offer what the program needs (c87_smaller_tables), for the library's tables (c87_library), for (DropFn, V) (c87_paired) and for derived tables (c87_derived); c87_derived_accounting carries the accounting of C85 over. That rustc refuses a program that uses what the table does not offer is the compiler's business, not modelled beyond C46."
  },
  {
   "property": "C88",
   "status": "proved",
   "theorems": [
    "c88_function",
    "c88_method",
    "c88_no_buffer",
    "c88_library"
   ],
   "note": "The five arms and Rust's matching rules with repetitions are modelled (MacroNum.v); an argument expression is one piece, already parsed. Every call of the documented forms expands, whatever the numbers of type parameters and arguments, and its code does what the property says (does in MacroNumSpec.v). c88_library: the library's own calls expand to the dispatch that Numeric.v gives them. What the macro refuses beyond that (trailing commas, receivers that are not plain names) is not stated."
  },
  {
   "property": "C89",
   "status": "partial",
   "theorems": [
    "c89_from_dyn_refuted",
    "c89_into_dyn_refuted",
    "c89_numeric_refuted",
    "c89_numeric_method_refuted",
    "c89_numeric_partial"
   ],
   "note": "False: the arms call the macro again by its bare name, without $crate::. c89_from_dyn_refuted and c89_into_dyn_refuted: no call by path expands unless the macro is imported too. c89_numeric_refuted, c89_numeric_method_refuted: nor do numeric calls with a single type parameter or a single argument; c89_numeric_partial: the other numeric calls do work by path."
  },
  {
   "property": "C90",
   "status": "partial",
   "theorems": [
    "c90_read",
    "c90_accepted",
    "c90_refused",
    "c90_mistakes_refuted",
    "c90_mistakes_partial"
   ],
   "note": "DeriveAttr.v parses the tokens as syn does. c90_read: every attribute list is read as written. c90_accepted says exactly which token lists are accepted (the = may be missing or stand alone), c90_refused that all others are a compile error. False: misspelt names and values of the wrong kind are accepted (c90_mistakes_refuted) and have no effect, wherever they stand (c90_mistakes_partial)."
  }
 ]
}