# Design: a Rocq model of modern_stl

Everything below lives in `/verif/rocq/theories` (logical name `Verif`).  The
library is header-only C++20; each model file covers one or a few headers and
cites file and lines on every definition.

## 1. Method

* **Outcome monad** (`Base.v`).  A C++ call becomes a function
  `heap -> outcome (result * heap)`.  The outcomes are `Ok`, and the errors
  `UB` (out of bounds, use after free, double free, null dereference,
  construct over a live object, destroy/read of raw storage, reading an
  indeterminate pointer, missing return, wrong size or allocator passed to
  deallocate), `Panic` (`MSTL_PANIC`, `exit(101)`), `Leak` (storage released
  or overwritten while it still holds live elements) and `Fuel` (a loop of the
  model ran out of fuel: every positive theorem proves this does not happen;
  where it is the result, in C25, the theorem says so for every fuel).  Errors are never normal-looking values.
* **Machine integers.**  `usize` is `N` with explicit `mod 2^64` where the code
  can wrap (`len - 1` on an empty vector, `hi--` at 0, `2 * cap`,
  `layout.size * length`).
* **Memory.**  Vector and String: a heap of blocks of cells (`Raw`, `Live v`,
  `Moved`), each block stamped with its byte size and the allocator that made
  it.  Lists: a heap of nodes with `prev`/`next`/`data` and the node's layout
  kind.  Addresses are never reused.
* **Histories.**  For containers the world has any number of named variables
  sharing one heap, and a step function interprets an operation on them.  The
  main theorems are refinements over every finite list of operations to a
  specification machine over plain lists (`*Spec.v`), which mentions no heap,
  capacity or pointer.
* **Known defects.**  The code violates several of the listed properties.  For
  each one there is (a) a `..._refuted` theorem with an explicit witness run on
  the model, and (b) the property proved under the exact guard that excludes
  the defect, named `..._partial`.

## 2. Properties and how each is handled

| id | model | method |
|----|-------|--------|
| C01 | `VecModel.v`: every function of `Vector` over a block heap, several variables | refinement of all histories to lists, by induction over the history with a representation invariant |
| C02 | `emplace`, `insert*`, `move_elements_back` with wrapping `hi--` | partial: proved for non-empty vector, position >= 1, count >= 1 or position = end; refuted at begin(), on empty vectors and for empty insertions; `C02_insert_exact`, `C02_insert_ub`, `C02_insert_lost` (VecBreaks.v): in every reachable state those calls go wrong, and how; `C02_exact` (VecExact.v): every history that is right on sequences is carried out, or has a first call that goes wrong, an excluded one |
| C03 | `erase` | proved for valid positions; range erase proved except the empty range before the end (self-move), refuted there; `C03_erase_exact` (VecBreaks.v): undefined there in every reachable state |
| C04 | block heap | invariant: heap domain = union of the vectors' blocks; corollary at the end of a history |
| C05 | capacity fields | invariant plus pointwise lemmas |
| C06 | a move counter in the model's reallocation | potential-function induction |
| C07 | world with several variables | frame part of the refinement |
| C08 | `operator=(initializer_list)` | refuted; partial for lists not longer than the vector or empty vectors |
| C09 | `==`, `<=>` loops | equivalence with list equality and lexicographic order, order laws |
| C10 | `VectorIntoIter` | induction on the number of `next()` calls |
| C11 | `at`, `front`, `back` | direct |
| C12 | byte arithmetic of the allocator | refuted by wrap-around; partial under `n * sizeof(T) < 2^63` |
| C13 | push_back etc. taking an address argument; `VecAlias.v` for insert(p, n, v[k]) | refuted when reallocating, and for insert also when not; exact behaviour proved |
| C14-C16 | `ListModel.v`: node heap, parametrised by single/double linking | refinement of all histories; linkage invariant; domain invariant; `ListExact.v`: the operations the histories exclude are exactly those that go wrong, so every history is carried out or has a first call that goes wrong |
| C17 | positional operations | node-chain lemmas |
| C18 | `splice*` | partial for non-empty other; refuted for empty |
| C19 | `merge` | partial when both are non-empty, lvalue; refuted for empty this and for rvalue other |
| C20, C21 | `mergeSort`, `merge` on node chains | partial for length <> 1; refuted for length 1; stability refuted for strict orders |
| C22, C23 | `reverse`, `remove_if`, `unique` | loop invariants on node chains |
| C24 | `ListIter`, `ListIntoIter` | induction over interleavings |
| C25 | reversed `ListIterSTL` | divergence theorem: no fuel suffices |
| C26 | `front`/`back`, overload selection for const lists | proved except const `front_unchecked` of List, refuted |
| C27 | move construction with allocator | partial for equal allocators; refuted otherwise |
| C28-C30 | `RangeModel.v`: Array, its iterators, collecting | list reasoning; short initializer lists, `prev`/`len`/copy assignment of the owning iterator refuted, and what they do in every state and history (`ArrExact.v`, `HistExact.v`) |
| C31, C32 | `RangeModel.v`: Range over bounded machine integers | induction; `prev` refuted, its exact behaviour proved |
| C33 | `RangeModel.v`: Slice and its iterators | refinement over all interleavings of next/prev/len (`IterSpec.v`) |
| C34, C35 | `OptModel.v`: union slot, payload lifetimes, several variables | refinement of all histories (`Machine.v`); move assignment refuted |
| C36, C37 | `ResModel.v`: tag and union member kept apart | refinement of all histories; mixed-variant assignment refuted; `ResExact.v`: every history is carried out or has a first mixed assignment |
| C38-C42 | `Utf8Model.v` | equivalence with an RFC 3629 grammar (`Utf8Spec.v`); refutations for 0x7F decoding, error position, byte 128 |
| C43-C45 | `StringModel.v`: union storage of 16 bytes or heap block | refinement of all histories under the guard that keeps away from the 16 byte defects; each exclusion shown necessary; `StringExact.v`: every excluded operation is undefined in every reachable state (invariant: the pointer of a short string is null or dangling); `StrHist.v`: with the rooms of C91, every history is carried out or has a first call that goes wrong |
| C46, C47 | `IterModel.v`: pipelines with stateful closures and a client world | equality with list functions, by induction |
| C48 | `MatchModel.v` | induction on branches; the void specialisation does not compile, its bodies are refuted separately |
| C49, C50 | `TupleModel.v`, `TypeListModel.v` | list induction; compile-time type computations are modelled on codes of types; `count` of the empty list refuted |
| C51, C52 | `LayoutModel.v` | bit-level lemma: popcount = 1 iff power of two; wrapping product refuted, exact size in `ArrExact.v` |
| C53 | `ListModel.v`: `operator<<` | loop invariant; equality with a separately defined join |
| C54-C56 | `CharModel.v`: ASCII iteration, literals, `BasicChar` | refinement to `IterSpec.v`; corollaries of C38, C40, C42; "one character" refuted for literals of several |
| C57 | `VecModel.v`: move construction of `VectorIntoIter` | representation invariant of the consuming iterator; `next()` on the source refuted |
| C58 | `VecIterModel.v`: `VectorIter` as random-access iterator | refinement of all iterator programs to index arithmetic; `==` across sizes refuted |
| C59 | `RangeModel.v`: moves of `ArrayIter` | loop invariant: the moved iterator is the old one; source and move assignment refuted |
| C60 | `ListIterModel.v`: programs that keep list iterators while lists change | refinement to a machine of named elements; names map to node addresses; `end()` across `reverse()` of a doubly linked list refuted |
| C61 | `ListModel.v`: the ghost counter ticks at every call of an order, predicate or relation | counts carried through the loop lemmas; for mergeSort at most n ceil(log2 n) and at least n-1 calls |
| C62 | `PipeModel.v`, `ListPipe.v`: pipelines over lists with every copy, move and destruction of an iterator | triples with footprints (`Tri.v`) for any source and collection (`PipeProofs.v`); refinement of whole programs to sequences |
| C63 | `MixPipe.v`: lists and vectors in one program, pipelines between them | the triples of C62 in the product of two memories (`Tri.v`, `both_mem`); sources and collections as bundles (`MixProofs.v`); refinement to a pair of sequence machines |
| C64 | `VecRefs.v`: programs that keep references and iterators into vectors while vectors change | partial-correctness facts per member (`VecKeep.v`): which calls keep, hand over or free the buffer and what capacity they leave; freed addresses stay freed; refinement to sequences with a capacity rule and addresses that name their owner |
| C65 | `VecAlias.v`: insert with a range that is read from the buffer while it changes | the gap-filling loop with reads from the gap itself; exact in all cases |
| C66 | `VecThrow.v`: every Vector operation with a count of the copies that still succeed; the object's members are assigned in source order, so a throwing call leaves them half way | refuted; exact state after the exception for every operation, over all histories; the no-exception case is shown equal to `VecModel.v` |
| C67 | `OptThrow.v`, `ResThrow.v`, `HistExact.v`: every Option and Result operation with a count of the payload operations that still succeed | refuted for one case; refinement to the C34/C37 specifications extended by "everything as before" for all programs that go on after exceptions |
| C68 | `ListLeak.v`, `ListThrow.v`: every list operation that constructs elements, with a count of the constructions that still succeed | refuted; exact state after the exception for every operation, over all histories (`ListLeak.v` carries the histories on past leaked blocks); the no-exception case is shown equal to `ListModel.v` |
| C69 | `ListCmpThrow.v`: sort, merge, unique, remove_if with a count of the predicate calls that still return | refuted except for unique; loop invariants of the interrupted merge sort (every chain in work ends in a null link or is cut off from the virtual tail); simulation with `ListModel.v` shows the exception is seen exactly when C61's counter would pass k |
| C70 | the functions of `VecModel.v`, `ListModel.v`, `StringModel.v` under a memory in which any requests fail (`Oom.v`, `VecOom.v`, `ListOom.v`, `ListOomProps.v`, `StringOom.v`) | refuted; one comparison lemma per function with the endless memory: for lists and strings equal or undefined, for vectors equal up to missing blocks that nothing was ever constructed in |
| C71 | `PipeThrow.v`, `MixThrow.v`: the pipelines of C62/C63 with a count of the closure calls that still return | refuted; triples with three endings (ends the program, throws, returns) for each terminal over any source; the ending is read off a record of the calls (`calls`), a function of the sequence; refinement of whole programs to that record |
| C72 | `RangeCmp.v`: the C++ rules for comparing integers of two types, and `contains`, `==` and `<=>` on top of them | the eight integer types are enumerated, values are not: conversion to a type that holds the value is the identity; `==` refuted and characterised by congruence modulo the width |
| C73 | `RangeCmp.v`: programs over cursors | refinement to unreduced mathematical integers, as an equivalence |
| C74 | `ListAlias.v`: the inserting members of lists with the argument read from memory when the code reads it | refuted; linking changes no element, so a reference gives equal runs; for ranges an invariant of the path still to be read, and for ranges over the insertion point the same path growing at its end as fast as it is read |
| C75 | `ListDebug.v`: every asserting member of the lists with `MSTL_DEBUG_ASSERT` on | refuted; equality with the release build except on an explicit set of calls, in every reachable state, by cases on what each variable holds |
| C76 | `ListModel.v` on lists whose ends are null | exact outcome of every member in every reachable state |
| C77 | `VecDebug.v`: the checked `operator[]` and the members that use it | equality with the release build in every state, by induction on the loops |
| C78 | `StringIter.v`: programs that keep `chars()` iterators while strings change | per-operation facts: which operations keep, hand over or free a buffer and what capacity they leave; refinement to byte sequences with a capacity rule |
| C79 | `SliceViews.v`: programs over arrays, slices, copies and iterators | refinement to sequences of places |
| C80 | `AllPipe.v`: `MixPipe.v` with ranges, slices, arrays and characters as sources and arrays as collections | the generic triples of `PipeProofs.v` for iterators that own no memory; `Array::from_iter` once for any iterator (also C30) |
| C81 | `StringModel.v` | one call either leaves the bytes where they are or moves them to a buffer half as large again; potential argument over the bytes added since the last move (`StringCost.v`) |
| C82 | `StringAlloc.v`: the functions of `StringModel.v` with numbered allocators and a record of every call of `allocate` and `deallocate` | each function against the one of `StringModel.v`; invariant: the buffer of a long string was made by the string's allocator; counting calls per allocator and size |
| C83 | `Placement.v`: byte addresses, struct layout, `NodeAllocHelper`, node and buffer allocation | invariant: each variable owns one live block; element offsets by arithmetic on powers of two; `operator new` is a parameter with the standard's demands as hypothesis, met by an example |
| C84 | `AllocatorLife.v`: constructions, assignments and destructions of the allocator subobject on top of `StringAlloc.v` | counting users per pool, step by step |
| C85 | `RefViews.v`: `Option<T&>`, `Result<T&, E>` and `Option<E&>` as places of variables and of payloads in the states of `OptModel.v` and `ResModel.v` | product of the refinements of C34 and C37; references are names of owners; `RefExact.v`: every history is carried out or has a first mixed assignment |
| C86 | `VecMoves.v`: the ghost counters of `Base.v` (`hmoves`, `hnext`) over `VecModel.v`; the table of costs is over contents and the capacities of C64 | every member adds its cost to a weighted sum of the counters, whatever the weights; potential 2 size - capacity |
| C87 | `FloatRange.v`: Range over any type given by its operators; `double` as multiples of 2^-1074 rounded to 53 bits, with infinities and NaN | induction over the number of `next` calls, and over histories of all members; rounding does not cross an exact value |
| C88 | `Weigh.v`, `ListMem.v`, `VecMem.v`, `StrMem.v`: sums over all blocks in memory against sums over all variables; requests for list nodes call by call | footprints are disjoint and cover memory, so their weights add up; every list function makes a fixed number of requests, copying returns none |
| C89 | `Printed.v`: the pieces of the models' printing functions as bytes; `show` for nested types | a text followed by a comma, a bracket or nothing determines the value and what follows; sequences preserve this |
| C90 | `Interchange.v`, `InterExact.v`: one program, translated to both models; the specification on sequences with a moved-from state | each translated step is a step of both specifications (C01/C02 and C14), so the histories of both models exist and return the same |
| C91 | `StrRoom.v`: a rule computing each string's block from lengths, over `StringModel.v` | each call's effect on length and capacity, read off its run; then the sums of C88 |
| C92 | `Contig.v`: `start_addr` of the three contiguous iterators, over `RangeModel.v` | the representation relations of C29 and C33; the contract is stated through calls only |
| C93 | `ArrThrow.v`: array constructors, assignments and indexing with a count of the element operations that still succeed; slots that are empty or hold an element | refinement to sequences of N values for all programs that go on after exceptions; elements made and destroyed are counted along |

Every property could be expressed; none is `not_applicable`.

## 3. Trusted base

* Coq 8.16.1's kernel (with its virtual machine: some proofs use
  `vm_compute`).
* `Print Assumptions` is run on every theorem named in `MANIFEST.json` at the
  end of the file that proves it.  It prints "Closed under the global context"
  for every one of them: no axioms, of the standard library or otherwise.
  std++ is used for lists and finite maps, and is axiom-free.
* The reading of the C++ in the model files.  There is no machine-checked link
  between the C++ text and the model; every definition cites file and lines so
  that it can be compared by eye.
* The specifications: `VecSpec.v`, `ListSpec.v`, `SortSpec.v`, `IterSpec.v`,
  `Machine.v`, `Utf8Spec.v`, and the specification sections of the `*Props.v`
  files and of `ListIterRel.v`.  They mention lists, options, finite maps and
  numbers only.

### General simplifications

* `MSTL_DEBUG_ASSERT` is off, as in a release build (`global.h`), except in
  `ListDebug.v` (C75) and `VecDebug.v` (C77).
* `constexpr` evaluation is not modelled, except that what a literal or a type
  computation rejects at compile time is a `None` (C50, C55, C56).
* Element types are abstract: copying and moving are total and throw nothing
  (except in `VecThrow.v`, `ListThrow.v`, `ListCmpThrow.v`, `OptThrow.v`, `ResThrow.v` and `ArrThrow.v`, where
  they may throw; closures of pipelines may throw in `PipeThrow.v`).
  A moved-from element is a distinct state, and reading it counts as undefined
  (stricter than C++), except where the type is stated to be a scalar.
* `::operator new` succeeds up to `PTRDIFF_MAX` bytes; a larger request is an
  error.  Only C70 (`Oom.v`, `VecOom.v`, `ListOom.v`, `ListOomProps.v`,
  `StringOom.v`) drops this: there an arbitrary function (`memory` in `Base.v`)
  says which of the program's requests are met, and the same model functions
  run with it.
* Addresses are not reused, so a dangling pointer never becomes valid again.
* The library is single-threaded by design; there is no concurrency to model.
* An explicit destructor call followed by new contents in the same object
  (lists' assignment) is taken to leave the object usable.
* Arithmetic on an iterator that was just invalidated inside the same call
  (`Vector::emplace`) is taken to be well defined.

### Modelled

| header | file |
|--------|------|
| `collection/vector.h`, `memory/allocators/allocator.h` as used there | `VecModel.v` |
| `VectorIter` of `collection/vector.h` as random-access iterator | `VecIterModel.v` |
| `collection/linked_list.h` | `ListModel.v` |
| `ListIterSTL` of `collection/linked_list.h`, kept across changes | `ListIterModel.v` |
| the same pipelines with the iterator objects themselves; `ListIter`, `ListIntoIter` as sources, `from_iter` of lists | `PipeModel.v`, `ListPipe.v` |
| `VectorIter`, `VectorIntoIter` as sources and `Vector::from_iter` as collection of the same pipelines; programs with lists and vectors | `MixPipe.v` |
| `front_unchecked`, `back_unchecked`, `data`, kept references and iterators | `VecRefs.v` (an address is a buffer and an index) |
| `insert(pos, count, val)` and `insert(pos, first, last)` with arguments inside the vector | `VecAlias.v` |
| exceptions thrown by copying an element, in all Vector operations | `VecThrow.v` |
| exceptions thrown by constructing an element, in all List and ForwardList operations | `ListThrow.v` |
| push_front, push_back, resize, insert, insert_after with references and iterators into lists | `ListAlias.v` |
| `MSTL_DEBUG_ASSERT` in `collection/linked_list.h` and `collection/vector.h` | `ListDebug.v`, `VecDebug.v` |
| exceptions thrown by the predicate given to sort, merge, unique, remove_if of a list | `ListCmpThrow.v` |
| exceptions thrown by the payload, in all Option and Result operations | `OptThrow.v`, `ResThrow.v` |
| exceptions thrown by the elements, in Array's constructors, assignments and `operator[]` | `ArrThrow.v` |
| exceptions thrown by the closures of pipelines | `PipeThrow.v`, `MixThrow.v` |
| `collection/array.h`, `ops/range.h`, `slice.h` | `RangeModel.v` |
| comparisons across integer types and cursor arithmetic in `ops/range.h`; `ops/cmp.h` and `ops/arithmetical.h` for integers | `RangeCmp.v` |
| text written by `operator<<` for vectors, lists, `Layout`, `LayoutError`, `DecodeError`; `print` of `global.h`, `to_string` of `utility/print.h` | `Printed.v` |
| `ops/range.h`: `Range` over index types other than integers, `double` in particular | `FloatRange.v` |
| `option/option.h` | `OptModel.v` |
| `result/result.h` | `ResModel.v` |
| references in `Option<T&>`, `Result<T&, E>`, and those given by `as_ref`, `ok_ref`, `err_ref` | `RefViews.v` |
| `str/encoding/utf8.h`, `str/encoding/ascii.h`, byte-only parts of `str/basic_string.h` | `Utf8Model.v` |
| `str/basic_char.h`, `str/encoding/utility/compile_time_validation.h` | `CharModel.v` |
| `str/basic_string.h`, `str/string.h` | `StringModel.v` |
| `chars()` iterators kept while strings change | `StringIter.v` (an address is the string object or one of its buffers, and an offset) |
| `Allocate` and the allocator arguments of `str/basic_string.h` | `StringAlloc.v` (copying or assigning an allocator yields an equal one; the second destruction of the base is without effect), `AllocatorLife.v` (its effect) |
| slices, copies of slices and their iterators over arrays that change and end | `SliceViews.v` |
| pipelines from any source into any collection, in programs with lists, vectors and arrays | `AllPipe.v` |
| `iter/adapters/*`, `iter/termnals/*`, `iter/utility.h` | `IterModel.v` |
| `utility/match.h` | `MatchModel.v` |
| `utility/tuple.h` | `TupleModel.v` |
| `utility/type_list.h` | `TypeListModel.v` |
| `memory/layout.h`, `memory/allocators/allocator.h` | `LayoutModel.v` |
| where nodes, elements and buffers lie: `linked_list.h` 303-332, 1748-1817, `vector.h` 790-816 | `Placement.v` (Itanium struct layout, 8-byte pointers; what the links and elements hold is left out) |

### The project's own tests

`RepoTests.v` runs the project's unit tests (`/repo/test`) on the models: every
value checked there is an expected value, and the memory left at the end is 0
where MEMORY_TRACK demands it.  All of them come out as the authors expect, so
the disagreements of section 4 are with claims the tests do not reach.  These
examples are evidence for the models, not part of any theorem.

### Not modelled

* Concepts and type traits (`basic_concepts.h`, `iter/iter_concepts.h`,
  `*_concept*.h`, `utility/type_traits.h`, `ops/*.h` other than `range.h`):
  they have no run-time effect.  Which integer types satisfy the ones of
  `ops/cmp.h` and `ops/arithmetical.h` is modelled (C72, C73).
* `utility/variant.h` (an empty stub).
* Text written by a panic; stream flags other than the default ones.
* Code that cannot be instantiated: `UTF8::last` and so `pop_back` of UTF-8
  strings, `BasicString::reserve`, `insert` of ASCII strings, the pipe form
  `| last()`, the `combine` forms of `Last` and `Reduce`, the const
  `Result::ok_ref`, `Match::rest` as first branch.  The comments of the model
  files give the reason for each.
* `bit_cast`, `CharType` and `Bytes` in `basic_char.h` (unused).

## 4. Where the code and the properties disagree

Each line is a theorem about the model (`..._refuted`, `..._undefined`,
`..._breaks` or `..._leaks`); the positive theorem beside it has a guard
that excludes the defect.

| property | defect |
|----------|--------|
| C02 | `move_elements_back` (vector.h:861-875): inserting at `begin()`, into an empty vector, or an empty sequence before the end |
| C03 | `erase(first, last)` of an empty range before the end moves elements onto themselves |
| C08 | `operator=(initializer_list)` (vector.h:157-174) with more elements than the vector has |
| C12, C52 | `size * length` wraps at 2^64: `reserve` of a huge capacity gets a small block |
| C13 | an argument that refers into the vector is read after reallocation; insert(p, n, v[k]) with k >= p reads a destroyed element or inserts v[k-n] |
| C65 | insert(p, data()+a, data()+b) inserts the right elements only if b <= p and nothing is reallocated |
| C66 | an exception while copying an element: only insert(pos, val), emplace and (equal allocators, up to the old size) copy assignment leave a vector that can be destroyed; push_back, resize, assign and the other inserts count elements that do not exist, constructors leak |
| C67 | an exception while a value is copied into an empty Option: `hold_value` is already true, the Option has no value and cannot even be destroyed |
| C68 | an exception while constructing a list element: constructors and single inserts leak blocks; later elements of a multi-element insert leave a cut chain (walking or destroying is undefined); copy assignment leaves dangling head and tail; from_iter is undefined; push_front, push_back, resize are noexcept and end the program |
| C69 | an exception from the caller's predicate: an interrupted sort always leaves a cut chain; an interrupted merge leaves size() = n+m with elements unreachable, or a cut chain; remove_if is noexcept and ends the program; unique is safe |
| C70 | the allocator answers a failed request with null (allocator.h:24-31); vector.h:798-816, linked_list.h:1757-1785 and basic_string.h:73, 84, 116, 137, 397, 412 use the answer unseen.  Lists and strings are undefined at once; an empty vector keeps a capacity that is not there and is undefined at the next push_back |
| C71 | map.h:30, filter.h:31, 53, find.h:16, 33, for_each.h:15, collect.h:15 and utility.h:22, 35, 87 are noexcept: an exception of a closure ends the program, unless it is the lambda of a fold or reduce in a pipeline written with the pipe operator |
| C72 | range.h:145-149: `operator==` between ranges of different integer types compares after the usual conversions: `Range<i32>(-1, 5) == Range<u32>(4294967295, 5)`; not transitive. match.h:69-77: so does `when` |
| C74 | linked_list.h:979-985, 1192-1198: inserting a range of a list into itself, behind a node of the range other than its first, never ends (`l.insert(l.end(), l.begin(), l.end())`) |
| C75 | linked_list.h:1828: a debug build stops copies of moved-from lists; the assertion of `pop_front` never fails for an empty list (size() becomes 2^64-1); most uses of a moved-from list are not asserted against |
| C76 | `clear()`, `resize`, `push_front`, `push_back`, iterating and printing a moved-from list are undefined: its ends are null and only assignment gives it new ones |
| C73 | range.h:50-52: the difference of the cursors of a signed range can overflow |
| C15, C20 | `sort` of a one-element list cuts the sentinel off |
| C18 | splicing an empty list corrupts the target |
| C19 | merging into an empty list breaks it; merging an rvalue list reads freed nodes |
| C21 | `sort` reverses equivalent elements; `merge` takes those of the argument first |
| C23 | `remove(v)` with `v` inside the list reads `v` after freeing it |
| C25 | `++`/`--` of reversed list iterators call each other for ever |
| C26 | const `front_unchecked()` of `List` returns the last element (linked_list.h:728-731) |
| C27 | move construction with a different allocator: undefined, or leaks the tail node |
| C28 | an initializer list shorter than the array leaves scalars indeterminate |
| C29, C32 | `prev()` of `ArrayIntoIter` and `Range` is off by one; `len()` and copy assignment of `ArrayIntoIter` |
| C35 | `Option` move assignment some to some leaves the source some |
| C36 | `Result` assignment between variants does not update the tag |
| C39 | the position of a UTF-8 error is that of the offending byte |
| C40 | U+007F is decoded as the start of a two-byte character |
| C42, C55 | byte 128 counts as ASCII |
| C43, C44 | strings of exactly 16 bytes: printing, assignment, `pop_back` from 17; `Allocate::operator=` has no return statement |
| C82 | copy assignment keeps the target's allocator if the target has room for a text of more than 16 bytes, and takes over the source's in all other cases |
| C83 | as C12: a vector buffer of 2^64 bytes or more gets a small block, its elements lie outside |
| C84 | basic_string.h:430: `~Allocate` calls `~Allocator`, which runs again as the base-class destructor: a string's allocator object is destroyed twice |
| C85 | as C36: a `Result<T&, E>` assigned an error keeps saying it is Ok, and `unwrap` dereferences the error's bytes as a pointer |
| C86 | appending with `resize(size() + 1)`, `insert(end(), 1, x)` or `insert(end(), first, last)` requests a buffer for every element and moves n(n+1)/2 elements |
| C87 | `Range<double>(0, 2.5)` and `Range<double>(0.14, 1.14)` never end under `next()`; `Range<double>(2^53, 2^53 + 2)` gives 2^53 for ever |
| C88 | moving an empty list to another allocator leaves exactly one node in memory that no list holds |
| C89 | an empty vector of strings and one holding an empty string print alike; two strings print like one with a comma and a blank in it |
| C90 | C02 and C76 make Vector and List differ: inserting at the front, reusing a moved-from container |
| C91 | `pop_back` never gives memory back and copies are as large as their original: two strings of 17 bytes can hold any amount of memory |
| C92 | `ArrayIter::len` is always N and `start_addr` always `&data[0]`: after one `next()` they describe a block that starts with a moved-from element |
| C46 | `filter` copies its predicate for every element, so a predicate's own state is lost |
| C48 | the void specialisation of `MatchMid` (does not compile when used) |
| C50 | `count` on the empty type list does not compile |
| C57 | `next()` on a moved-from consuming vector iterator reads through null (its `len` is not reset) |
| C58 | `VectorIter::operator==` compares the end as well, so `it != v.end()` never becomes false if the size changed; `VectorIter` has no assignment |
| C59 | move assignment of `ArrayIter` has no return statement; a moved-from `ArrayIter` keeps handing out elements |
| C60 | `reverse()` of a doubly linked list exchanges the two end nodes: a kept `end()` is `before_begin()` afterwards and incrementing it walks into the list |
| C56 | `UTF8Char c = "ab"_utf8` compiles |

## 5. Wrong programs

`seeded/LOG.jsonl` has one line per deliberately wrong edit of the model: the
definition, the edit, the claim it breaks, the theorems that no longer prove
and those tightened because of it.  An edit that leaves everything provable is
logged as such, with the theorem added afterwards or the reason why no claim
is broken.
