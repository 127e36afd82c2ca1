# Formal model of elrnv/dync — design

The subject is the Rust crate `dync` (`/repo/src`, `/repo/dync-derive/src`): type-erased
homogeneous vectors, slices and values, plus a procedural macro that generates their
function tables.  The model is written in Gallina (Coq 8.16.1) under `rocq/theories`.

## 1. What is modelled, and how

| file | models |
|------|--------|
| `Base.v` | `usize` arithmetic (64 bit, panicking or wrapping depending on the build profile), outcomes (`Ret`, `Panic`, `UB`, `Abort`), list helpers |
| `Types.v` | the universe of Rust types (`TypeId` -> size, alignment, clone/drop/eq/hash/fmt behaviour), object representations as byte fragments, the allocator (ledger of live blocks with their layouts), the trace of drops and clones |
| `StdVec.v` | the parts of `std::vec::Vec` the crate relies on (growth policy included) |
| `VecVoid.v` | `src/elem.rs`, `src/vec_void.rs`, `VecVoid` part of `src/vec_copy.rs` |
| `VecCopy.v` | `src/vec_copy.rs`, `src/copy_value.rs`, `src/meta.rs` |
| `SliceCopy.v` | `src/lib.rs` (`ElementBytes*`), `src/index_slice.rs`, `src/slice_copy.rs` |
| `Value.v` | `src/bytes.rs`, `src/traits.rs`, `src/value.rs`, `src/vtable.rs` |
| `VecDyn.v` | `src/vec_dyn.rs`, `src/slice.rs` |
| `Derive.v` | `dync-derive/src/lib.rs`: `dync_mod`, `dync_trait`, `dync_impl` (trait maps, flattening, generated items) |
| `DeriveSem.v` | what the generated items mean: building a table, calling an accessor, converting, type-checking; the hand-written tables of `src/traits.rs` as items of the same kind |
| `DeriveAttr.v` | `dync-derive/src/lib.rs`: parsing the attributes of the macros |
| `DeriveSig.v` | `dync-derive/src/lib.rs`: `dync_trait_method` (signature checks and translation) |
| `DynTable.v`, `MacroRules.v` | `src/lib.rs`: the macros `into_dyn!` and `from_dyn!`, first what the functions they expand to do, then which calls expand |
| `MacroNum.v` | `src/macros.rs`: which calls of `call_numeric_buffer_fn!` expand, to which code, and what the code evaluates |
| `DynCaps.v` | which functions of its table a step of a program calls |
| `Extra.v` | unchecked accessors of `src/vec_copy.rs` and `src/vec_dyn.rs`; `HasEq` |
| `Numeric.v` | `src/macros.rs`, numeric casts and printing in `src/vec_copy.rs`, `src/vec_dyn.rs` |
| `Borrow.v` | the signatures of all safe view-making functions, the borrow rules for straight-line programs, and what running such a program does |
| `BorrowFlow.v` | the borrow rules for programs with branches and loops (control-flow graphs); their runs as programs of `Borrow.v` |
| `Threads.v` | fields and `Send`/`Sync` implementations of all containers and views |
| `Views.v` | programs that cut a mutable slice into parts, cut those again and work on them; programs of calls and views |
| `Machine.v`, `DynMachine.v` | programs: sequences of calls on a store of buffers (resp. vectors and values), every panic caught, handles invalidated as the calls say |

Specification, independent of the model's helpers: `Spec.v`, `DynSpec.v` (programs on plain lists),
`Reach.v`, `DynReach.v` (the words of the statements: *live buffer*, *shows*, *contents*, *events*,
*freed* ...), `DeriveSpec.v`, `DeriveAttrSpec.v`, `DeriveSigSpec.v`, `NumericSpec.v`, `BorrowSpec.v`, `ThreadsSpec.v`,
`MacroSpec.v`, `MacroNumSpec.v`, `ViewSpec.v`, `PanicSpec.v`, `DynPanicSpec.v`, `LoudSpec.v`.

Statements: `PropertiesCopy.v`, `PropertiesDyn.v`, `PropertiesDerive.v`, `PropertiesSig.v`,
`PropertiesNumeric.v`, `PropertiesStatic.v`, `PropertiesMacro.v`, `PropertiesMacroNum.v`, `PropertiesView.v`.  They are written by `tools/gen_properties.py` from
the templates in `tools/`; each theorem is closed by the lemma `<name>_fact` and followed by
`Print Assumptions`; an `Example` beside it shows that a concrete case meets the hypotheses.
All other files hold proofs.

Key modelling decisions:

* **Types are `TypeId`s.** A type environment gives each id a size, an alignment and the
  behaviour of its trait implementations.  It is universally quantified in every theorem,
  under Rust's own guarantees only: alignment is a power of two up to 2^29, size is a multiple
  of alignment, `()` has size 0.  `clone` may depend on the whole trace so far and may panic;
  so may `drop`.
* **Bytes are fragments.** The object representation of value `v` of type `t` is the sequence
  of fragments `(t, v, 0) .. (t, v, size-1)`.  Reading bytes as a `t` is defined only when they
  are exactly the representation of one `t` value; anything else is `UB`.  This is how
  "data is never interpreted at another type" becomes a theorem and not an assumption.
* **Ownership is inline, allocation is explicit.** A vector carries its initialised bytes and
  the identity of its heap block; a ledger records every live block with the layout it was
  allocated with.  Freeing or growing a block that is not live with exactly that layout is `UB`.
* **Panics are results, and carry the state** in which they leave `&mut` arguments, so that
  behaviour after `catch_unwind` and during unwinding is covered.
* **Build profiles.** `debug_assert!` and overflow checks are two booleans, quantified.
* **Drops and clones are events** in a trace, so that "dropped exactly once" is a statement
  about multisets of events.

## 2. Plan per property

"list" below means the plain list of element values of the buffer.

| id | modelled by | proof |
|----|-------------|-------|
| C01 | `from_vec`, `into_vec` | representation relation, direct |
| C02 | all typed accessors with a second type id | case split on type ids |
| C03 | store of buffers + operation machine | refinement to a machine on plain lists, induction over histories |
| C04 | allocator ledger | frame-style invariant `live = owned ++ rest` over the shape of buffers only (LedgerProofs.v), induction over histories, no call excluded |
| C05 | the same machine, all panics caught | invariant, no `UB` outcome; known exception is C06 |
| C06 | `get_ref`, `get_mut` | false in release builds: refuted; partial for debug or `i < len` |
| C07 | constructors | direct |
| C08 | `reserve`, growth policy | false for one layout (3 bytes, align 1, capacity 1): refuted; otherwise proved |
| C09 | `resize` | induction on the number of pushes |
| C10 | `push` | false for elements larger than their alignment: refuted; partial otherwise |
| C11 | `extend`, `from_iter` | as C10 |
| C12 | `append` | direct |
| C13 | `rotate_*` | bytes of a concatenation |
| C14 | `rotate_*` | false (data loss; wrap-around): refuted; partial |
| C15 | `get_as` … | direct |
| C16 | chunk iteration | induction |
| C17 | `copy_from_slice` | documented extension is false: refuted; partial |
| C18 | `fill` | direct |
| C19 | `clone` | ledger + history independence |
| C20 | `with_type_from` | direct |
| C21 | range scaling | inclusive forms false: refuted; half-open forms proved |
| C22 | `split_at`, `chunks_exact` | induction |
| C23 | `swap` | list update lemma |
| C24 | sub-views as lenses | direct |
| C25 | `upcast` | direct, with C47 |
| C26 | alignment table | enumeration of the 30 powers of two + arithmetic |
| C27 | machine after a panic | invariant |
| C28 | VecDyn machine with drop/clone trace | multiset conservation by induction over histories |
| C29 | VecDyn drop | direct |
| C30 | drop oracle that panics | false: refuted; exact behaviour of clear, shrinking resize and drop at the first panicking destructor (`drop_seq`) proved |
| C31 | `clone` | induction over elements |
| C32 | `push` of a box | false for alignment > 1 (wrong layout on free) and size > alignment: refuted; partial |
| C33 | `push_cloned` | direct |
| C34 | `into_vec` | wrong type leaks: refuted; right type proved |
| C35 | `eq` | false (length ignored): refuted; partial for equal lengths |
| C36 | `hash` | false as a consequence: refuted; partial |
| C37 | `fmt` | direct |
| C38 | `resize`, `clear` | direct |
| C39 | poisoned state | false: refuted |
| C40 | `Value` life cycle | direct |
| C41 | failed downcast | false (leak): refuted |
| C42 | `SmallValue::try_new` | admission proved, leak refuted |
| C43–C45 | `ValueMut`, `CopyValueMut`, equality | direct |
| C46–C49 | macro model: trait maps, table layout, conversions | closure correctness, sortedness |
| C50, C51 | macro model: configuration, signature checks | false: refuted; partial |
| C52 | numeric dispatch, IEEE rounding on bit patterns | false for fractions: refuted; exact meaning over the rationals |
| C53 | borrow model | refuted for `from_slice`; otherwise invariant over programs; with branches and loops: every run of an accepted graph is an accepted straight-line program |
| C54 | raw parts | direct |
| C55 | `get`, `get_mut` | wrap-around in release: refuted; otherwise proved |
| C56 | bulk copies | direct |
| C57 | `with_type_from`, `push_as` | false (no `Copy` bound): refuted; invariant over programs otherwise |
| C58 | `Meta` | false (public fields): refuted; partial |
| C59 | auto traits | `Slice`, `SliceMut` proved; `SliceCopy` refuted |
| C60 | `push_as` | direct |
| C61 | VecDyn machine | refinement to programs on lists, induction over histories |
| C62 | `VecVoid::clone_from` | false across types: refuted; partial |
| C63 | `Value::into_raw_parts` and dropping the box | false for alignment > 1: refuted; partial |
| C64 | macro: paths of supertraits | false for short and full spellings: refuted; partial |
| C65 | macro: type-checking of the output | `dync_mod` proved; `dync_trait` refuted, partial; the check is proved equal to typing rules stated separately |
| C66 | macro: names of user traits | false for sixteen names: refuted; partial |
| C67 | reborrowing and conversions | direct |
| C68 | signature translation | false for where clauses and nested parameters: refuted; partial |
| C69 | `Display` | false for failing formatters (panics): refuted; otherwise induction |
| C70 | borrow model, write counts | as C53 |
| C71 | auto traits against those of the typed handle | shared views false: refuted; otherwise case split |
| C72 | `SendVTable`, generated tables | built-in tables false: refuted; generated ones via C48 |
| C73 | `into_dyn!`, `from_dyn!` on raw parts | another table loses the elements: refuted; otherwise direct |
| C74 | macro expansion on token lists | no arm for slices, paths refused: refuted; otherwise induction on paths |
| C75 | unchecked accessors | reduction to the checked ones |
| C76 | `ValueMut::clone_value` | direct |
| C77 | `Eq` | false for `EqVTable` of floats: refuted; partial for reflexive elements |
| C78 | `union_children` with a depth | false for cycles: refuted; partial via C48 |
| C79 | signature translation, which types parse | false for two bounds: refuted; partial |
| C80 | programs that cut slices into parts, run on the slice model | refinement to programs on lists, mutual induction; partial for wrapping positions |
| C81 | programs of calls and views that catch panics, against the list relation of PanicSpec.v | invariant relating buffers to lists or to `Lost`, induction over programs |
| C82 | programs over VecDyns and owned values that catch panics, against the relation of DynPanicSpec.v | invariant relating each object to a list, a value or `LLost`, with exact traces; induction over programs |
| C83 | positions modulo 2^64 in untyped access | arithmetic of wrapping: exact for sizes dividing 2^64; false for all others, by Bézout: refuted |
| C84 | repeated pushes, counting the blocks the allocator hands out | each growth doubles the capacity and happens at a full buffer: induction on the values pushed |
| C85 | destructor oracle that may panic at any drop; programs of C28 with caught panics | each step runs beside the same step with destructors that return (`lo_st`): equal, aborted, or panicking in the same state; the loops a panic leaves midway are treated directly; then induction on the program |
| C86 | borrow model | induction over programs that only look |
| C87 | DynCaps.v: which table functions a step calls; derived and library tables | induction over programs: a run depends only on the functions it calls; the missing ones can be supplied, since the drop function of a built table identifies its type |
| C88 | MacroNum.v: the arms of call_numeric_buffer_fn!, macro matching with repetitions, the code of the dispatch | induction over lists of parameters and arguments; each form goes through one to three arms |
| C89 | MacroRules.v, MacroNum.v: a nested call is looked up where the user's call is | refuted: nested calls lack $crate::; partial for the calls that need none |
| C90 | DeriveAttr.v: the attribute parser, token by token | induction over token lists: accepted exactly if spelled so; the report of mistakes is refuted, partial: they have no effect |

## 3. Trusted base

1. **Coq 8.16.1**: its kernel (checked again by `coqchk`), including the `vm_compute` conversion
   used in examples and in a few proofs by enumeration.
2. **Assumptions.** `Print Assumptions` answers *Closed under the global context* for every
   theorem of the nine `Properties*.v` files: no axiom is used, not even one of the standard
   library.  (`coqchk` lists seven constants of `Coq.ssr.ssrunder`, which belong to a module type
   that files loaded through the standard library bring along; no theorem depends on them.)
3. **The model is the code.**  Each definition cites the file and lines it transcribes and says
   where it simplifies.  Nothing checks this but reading.  It was put to the test by seeding
   errors in it: `seeded/LOG.jsonl`.
4. **The statements** in `Properties*.v` and the specification files named in section 1.
5. **Behaviour of Rust and of libraries that the code relies on**, as far as it is modelled:
   * `usize` has 64 bits; arithmetic panics with overflow checks and wraps without;
     `debug_assert!` is active exactly with debug assertions.
   * `Vec` (`StdVec.v`): `from_raw_parts` needs a live block with the layout given by element
     type and capacity; growth is that of `RawVec::grow_amortized`,
     `max(minimum for the size, 2 * cap, required)`; `with_capacity` allocates exactly; `truncate`
     and `clear` keep the capacity; allocations above `isize::MAX - (align - 1)` bytes panic
     ("capacity overflow"); the allocator itself never fails; zero-sized elements have capacity
     `usize::MAX`.
   * Reading memory as a value of a type is defined only on bytes that are exactly one value of
     that type (stricter than Rust for plain integers, which makes `UB`-freedom stronger;
     refutations are only claimed where Rust agrees, and C83's says what it means for plain
     integers: a value that was never stored).
   * `TypeId`s of distinct types differ; equal ids mean equal types.
   * `Clone`, `PartialEq`, `Hash`, `Debug` and `Drop` of element types are arbitrary functions,
     which may panic where the environment says so; they do not call back into the container.
   * Panics while unwinding abort; `catch_unwind` around any call is allowed.
   * `num_traits` 0.2 `NumCast`/`ToPrimitive`, the `as` operator and IEEE 754 round-to-nearest-even
     (`Numeric.v`), `write!` on a formatter.
   * `syn`/`quote`: parsing gives the syntax tree of the source, `parse_quote!`/`quote!` print what
     they are given; `BTreeSet` iterates in key order; `HashMap`s are looked up and updated
     entry by entry, so that their order never matters.
   * `macro_rules!`: arms are tried in order, a fragment is parsed greedily and not retried,
     macro names are looked up at the call site (`MacroRules.v`, `MacroNum.v`); `Any::downcast` of a box succeeds exactly for the type it was made from.
   * rustc's rules: name resolution and trait coherence to the extent of `DeriveSem.compiles`,
     borrow rules for straight-line programs (`Borrow.v`) and for control-flow graphs (`BorrowFlow.v`), auto traits (`Threads.v`).

**Not modelled**: addresses and provenance (beyond block identity), timing, out-of-memory, actual
concurrency, `Rc`-like sharing inside elements, elements that re-enter the container from their own
trait implementations, parse errors of the procedural macros
beyond their attributes and the checks they make themselves, documentation, tests, benches and examples.

## 4. What turned out false

Each entry is a theorem `..._refuted` with a concrete witness; the notes in `MANIFEST.json` say what
holds instead.

| property | what goes wrong |
|----------|-----------------|
| C03, C05, C08, C14, C21–C23, C55, C61 | release builds: `i * size` wraps, so huge arguments are accepted, and select or write the wrong elements |
| C05, C39 | after a caught panic a vector is left with the `()` type; pushing a unit reference then divides the memory wrongly; dropping a `VecDyn` in that state panics |
| C06 | `get_ref`/`get_mut` are not bounds-checked in release builds |
| C08, C09, C12, C33, C38 | growing 3-byte elements from capacity 1 panics and destroys the contents |
| C10, C11, C32 | `push` and `extend` panic for every type larger than its alignment |
| C13, C14 | rotation panics for alignments above 8192; an out-of-range amount destroys the contents |
| C16 | slices of zero-sized values have no usable length |
| C17 | a longer slice panics where the documentation promises an extension |
| C21 | inclusive ranges lose their last element |
| C27, C30 | `extend` keeps a prefix; after a panicking destructor in `clear` the elements already dropped are dropped again |
| C28, C34, C41, C42 | failed `into_vec`, failed downcasts and failed `try_new` leak |
| C32, C63 | boxes are freed with the wrong layout |
| C35, C36 | equality ignores lengths, is not transitive, and disagrees with `Hash` |
| C50, C51, C64–C66, C68 | the macros ignore two attributes, refuse a library reached by a path, invert a check, miss spellings and `where` clauses, take user traits for standard ones |
| C52, C69 | casts truncate and round; wide integers are lost; printing panics on a failing formatter |
| C53, C70 | `SliceCopy::from_slice` and `Slice::from_slice` return a view of any lifetime |
| C57, C58, C62 | non-`Copy` values enter a `VecCopy`; public `Meta` fields mix types; `clone_from` across types |
| C59, C71, C72 | `SliceCopy` crosses threads with any element; shared views are `Send` without `Sync`; `SendVTable` does not make anything `Send` |
| C73, C74 | `from_dyn!` with another table type drops no element; it expands for no slice; `into_dyn!` refuses paths |
| C89 | `dync::from_dyn!` and `dync::into_dyn!` need the macro to be imported as well, and so do most calls of `dync::call_numeric_buffer_fn!` |
| C90 | misspelt attributes and values of the wrong kind are silently ignored; `=` is optional |
| C77 | `VecDyn<EqVTable>` of floats implements `Eq` and differs from itself |
| C78, C79 | `dync_mod` never ends on mutually inheriting traits; two bounds on a method's parameter give `&dyn A + B` |
| C80 | in a release build positions and chunk sizes wrap: a write beyond the end of a slice succeeds, and `chunks_exact` with a huge size yields small parts |
| C83 | in a release build `get(i)` on elements whose size is not a power of two (`String`, `[f32; 3]`) can be made to return a reference to parts of two elements, for every such container with two elements |
