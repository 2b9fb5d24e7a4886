{"id": "C01", "title": "Vector is a sequence under every history of whole-vector operations", "statement": "For any number of Vector variables and any history of construction (default, count/value, initializer list, copy, move), push_back, emplace_back, pop_back on a non-empty vector, resize, reserve, assign, clear, copy/move assignment (including self-assignment), swap and destruction, every observer (size, empty, at, operator[] in range, front, back, iteration, ==, <=>, printing) of every variable returns exactly what the same history on mathematical sequences returns, and no step is undefined behaviour, provided the sizes involved keep the byte count of a block below 2^63.", "quantifier": "all element types/values, all numbers of vectors, all finite histories of these operations", "why_tests_cant": "The set of histories and interleavings of operations on several vectors is unbounded; tests run a handful of fixed ones.", "anchors": ["include/mstl/collection/vector.h: Vector(...), operator=, push_back, emplace_back, pop_back, resize, reserve, assign, clear, swap, at, front, back, iter"]}
{"id": "C02", "title": "Vector insert/emplace at any valid position", "statement": "For every vector content xs, every position 0 <= p <= size() and every inserted sequence ys (emplace, insert of one value, insert of count copies, insert of an iterator range or initializer list), after insert(begin()+p, ys) the content is take p xs ++ ys ++ drop p xs, the returned iterator is at index p, and nothing is undefined.", "quantifier": "all contents (including empty), all positions (including begin() and end()), all inserted sequences (including empty ones)", "why_tests_cant": "Positions, lengths, spare capacity and inserted counts range over an infinite product; the tests only use position 1.", "anchors": ["include/mstl/collection/vector.h: emplace, insert (5 overloads), move_elements_back"]}
{"id": "C03", "title": "Vector erase removes exactly the addressed elements", "statement": "For every content xs and every p < size(), erase(begin()+p) leaves take p xs ++ drop (p+1) xs and returns the iterator at p; for every p <= q <= size(), erase(begin()+p, begin()+q) leaves take p xs ++ drop q xs and returns the iterator at p. Survivors keep their relative order and value.", "quantifier": "all contents, all valid positions and ranges (including empty ranges)", "why_tests_cant": "Unbounded contents and ranges.", "anchors": ["include/mstl/collection/vector.h: erase(ConstIter), erase(ConstIter, ConstIter)"]}
{"id": "C04", "title": "Vector storage discipline: no leak, no double free, matching deallocation", "statement": "Along every history of Vector operations (whole-vector and positional, away from the documented defects), every block is released at most once, by an equal allocator and with the element count it was allocated with; every element is constructed only in raw storage and destroyed exactly once; once all vectors are destroyed no block allocated by the history remains.", "quantifier": "all histories, all interleavings over several vectors", "why_tests_cant": "Leak and double-free freedom is a property of every history; a test tracks one run.", "anchors": ["include/mstl/collection/vector.h: clear, deallocate, allocate, allocate_reserve, destroy_all, move_impl, ~Vector", "include/mstl/memory/allocators/allocator.h: Allocator::allocate, deallocate"]}
{"id": "C05", "title": "Vector capacity contract", "statement": "In every reachable state size() <= capacity(); reserve(n) yields capacity() >= n without changing the content and never shrinks; push_back when size() < capacity() does not relocate the buffer; push_back when full at least doubles the capacity; hence after reserve(n) the next n - size() push_backs keep data() and all element addresses.", "quantifier": "all reachable states, all n, all following push sequences", "why_tests_cant": "Quantifies over every state and every number of following pushes.", "anchors": ["include/mstl/collection/vector.h: reserve, capacity, extend_space, push_back, data"]}
{"id": "C06", "title": "Vector push_back is amortised constant", "statement": "n push_backs on a default-constructed vector perform at most 2n + 2 element relocations in total, and the number of reallocations k satisfies 2^k <= n + 2 (logarithmic). From the middle of any history, any mix of push_back, emplace_back and pop_back on one vector performs at most (its length) + 2 * (elements added) relocations and k reallocations with k = 0 or 2^(k-1) <= length + elements added.", "quantifier": "all n, all pushed values; all reachable states, all mixes", "why_tests_cant": "A complexity bound over all n; a test measures finitely many n.", "anchors": ["include/mstl/collection/vector.h: push_back, extend_space, allocate_reserve"]}
{"id": "C07", "title": "Vector copies are independent", "statement": "After copy construction or copy assignment the two vectors have equal content, and any later operation on one leaves every observation of the other unchanged; no two vectors ever share a buffer.", "quantifier": "all contents, all later histories on either vector", "why_tests_cant": "Independence quantifies over all later histories.", "anchors": ["include/mstl/collection/vector.h: Vector(const Vector&), operator=(const Vector&), copy_impl"]}
{"id": "C08", "title": "Vector assignment from an initializer list", "statement": "For every vector content and every list {y1..yn}, v = {y1..yn} leaves v with content exactly y1..yn.", "quantifier": "all old contents, all lists", "why_tests_cant": "All pairs of lengths; the tests never call it.", "anchors": ["include/mstl/collection/vector.h: operator=(std::initializer_list<T>)"]}
{"id": "C09", "title": "Vector comparison is equality and lexicographic order", "statement": "a == b iff the contents are equal element by element and of equal length; a <=> b is the lexicographic order of the contents (shorter prefix first), is total when elements are, is consistent with ==, antisymmetric and transitive.", "quantifier": "all pairs and triples of vectors over any totally ordered element type", "why_tests_cant": "Order laws quantify over all pairs and triples.", "anchors": ["include/mstl/collection/vector.h: operator==, operator<=>"]}
{"id": "C10", "title": "Vector consuming iterators yield everything once", "statement": "into_iter() leaves the vector empty and yields its elements in order, each exactly once, then none forever; into_iter_reversed() yields them in reverse order; dropping the iterator after any number of steps releases all storage and elements.", "quantifier": "all contents, all numbers of next() calls", "why_tests_cant": "All contents and all stopping points.", "anchors": ["include/mstl/collection/vector.h: into_iter, into_iter_reversed, VectorIntoIter::next"]}
{"id": "C11", "title": "Vector checked access", "statement": "at(i) is some exactly when i < size() and then refers to the i-th element; front()/back() are some exactly when non-empty and refer to the first/last element; none of them is ever undefined.", "quantifier": "all vectors, all indices up to 2^64-1", "why_tests_cant": "All indices.", "anchors": ["include/mstl/collection/vector.h: at, front, back"]}
{"id": "C12", "title": "Requested capacity is really available", "statement": "For every n, after reserve(n) (or construction with n elements) returns normally, the buffer can hold n elements: constructing elements at indices below n is inside the allocated block.", "quantifier": "all n < 2^64 and all element sizes", "why_tests_cant": "The failing n are near 2^64/sizeof(T); tests use tiny n.", "anchors": ["include/mstl/collection/vector.h: reserve, allocate_reserve", "include/mstl/memory/allocators/allocator.h: Allocator::allocate"]}
{"id": "C13", "title": "Vector operations accept references to their own elements", "statement": "v.push_back(v[i]), v.resize(n, v[i]), v.assign(n, v[i]) and v.insert(p, n, v[i]) behave as if the argument had been copied first.", "quantifier": "all contents, all i, all capacities, all n", "why_tests_cant": "Depends on whether this particular call reallocates, i.e. on the whole history.", "anchors": ["include/mstl/collection/vector.h: push_back(const T&), resize(usize,const T&), assign(usize,const T&), insert(ConstIter,usize,const T&)"]}
{"id": "C14", "title": "List/ForwardList is a sequence under every history", "statement": "For any number of list variables and any history of construction, push/pop/emplace at the ends, clear, resize, copy/move construction and assignment, swap, insert/erase, reverse, remove, unique and destruction, every observer (size, empty, front, back, iteration in both directions) returns what the same history on mathematical sequences returns and no step is undefined.", "quantifier": "all element values, all histories, both single and double linking", "why_tests_cant": "Unbounded histories over a mutable pointer structure.", "anchors": ["include/mstl/collection/linked_list.h: BaseList, List, ForwardList"]}
{"id": "C15", "title": "List linkage invariant", "statement": "In every reachable state following next-links from the front visits exactly size() elements and ends at end(); following prev-links from the back visits the same elements in reverse order.", "quantifier": "all reachable states", "why_tests_cant": "An invariant of every reachable state, broken only by rare operation combinations.", "anchors": ["include/mstl/collection/linked_list.h: ListNode, DoubleListNode set_next, iter, begin, end, size"]}
{"id": "C16", "title": "List storage discipline", "statement": "Along every history (away from the documented defects) every node is freed exactly once with the layout it was allocated with; after destroying all lists no node remains.", "quantifier": "all histories over several lists", "why_tests_cant": "Leak freedom over all histories.", "anchors": ["include/mstl/collection/linked_list.h: alloc/destroy node helpers, clear, ~BaseList"]}
{"id": "C17", "title": "List positional insert and erase", "statement": "insert_after/emplace_after/insert/emplace (value, count, range) at any valid position inserts exactly the given elements at that position and returns the iterator the documentation promises; erase_after/erase (single, range) removes exactly the addressed elements and returns the iterator following them; all other nodes keep their identity (iterators to them stay valid).", "quantifier": "all contents, all valid positions, all inserted sequences", "why_tests_cant": "All positions in all lists; iterator stability is about every other node.", "anchors": ["include/mstl/collection/linked_list.h: insert_after, emplace_after, insert, emplace, erase_after, erase"]}
{"id": "C18", "title": "List splice moves all nodes and loses none", "statement": "splice(pos, other)/splice_after(pos, other) inserts all elements of other, in order, at pos without copying (node identity preserved), leaves other empty and size() the sum, for every other including the empty list.", "quantifier": "all pairs of lists, all positions", "why_tests_cant": "All pairs and positions.", "anchors": ["include/mstl/collection/linked_list.h: splice, splice_after"]}
{"id": "C19", "title": "List merge of sorted lists", "statement": "For sorted this and other (either possibly empty, lvalue or rvalue other), this.merge(other) leaves this with a sorted permutation of both contents, other empty, and both lists well formed.", "quantifier": "all pairs of sorted lists, all strict weak orders", "why_tests_cant": "All pairs of lists; the broken cases are boundary shapes.", "anchors": ["include/mstl/collection/linked_list.h: merge, _private::merge"]}
{"id": "C20", "title": "List sort", "statement": "sort(comp) leaves a list whose content is a sorted permutation of the old content and which is still a well-formed list, for every content and every strict weak order.", "quantifier": "all contents (all lengths, including 0 and 1), all strict weak orders", "why_tests_cant": "Sortedness for every input; a single-length defect escapes sampling.", "anchors": ["include/mstl/collection/linked_list.h: sort, _private::mergeSort"]}
{"id": "C21", "title": "List sort and merge are stable", "statement": "Equivalent elements keep their relative order under sort(comp) and, under merge, elements of this precede equivalent elements of other.", "quantifier": "all contents, all strict weak orders with ties", "why_tests_cant": "Needs all inputs with distinguishable equal elements.", "anchors": ["include/mstl/collection/linked_list.h: sort, merge, _private::merge"]}
{"id": "C22", "title": "List reverse", "statement": "reverse() turns the content xs into rev xs, keeps size(), reuses exactly the same nodes, keeps the list well formed in both directions, and is an involution.", "quantifier": "all contents, both linkings", "why_tests_cant": "All lengths.", "anchors": ["include/mstl/collection/linked_list.h: reverse"]}
{"id": "C23", "title": "List remove/remove_if/unique", "statement": "remove_if(p) leaves exactly the elements not satisfying p in order and returns how many were removed; remove(v) likewise for equality; unique(p) keeps the first of every run of elements related to the last kept one and returns the number removed; removed nodes are freed.", "quantifier": "all contents, all predicates", "why_tests_cant": "All contents and predicates.", "anchors": ["include/mstl/collection/linked_list.h: remove, remove_if, unique"]}
{"id": "C24", "title": "List iterators meet in the middle", "statement": "Any interleaving of next() and prev() on List iter() yields each element at most once, next() in order from the front and prev() in order from the back, and returns none from both once all elements were produced; into_iter likewise while transferring ownership.", "quantifier": "all contents, all interleavings of next/prev", "why_tests_cant": "All interleavings.", "anchors": ["include/mstl/collection/linked_list.h: ListIter, ListIntoIter"]}
{"id": "C25", "title": "List reverse STL iterators terminate", "statement": "++ and -- on rbegin()/rend() iterators terminate and move one element backward/forward.", "quantifier": "all lists, all positions", "why_tests_cant": "Non-termination is not observable by a finite test budget in general; the tests only dereference rbegin().", "anchors": ["include/mstl/collection/linked_list.h: ListIterSTL operator++/operator--"]}
{"id": "C26", "title": "List front/back access", "statement": "front()/back() are some exactly when non-empty and refer to the first/last element; front_unchecked()/back_unchecked() (const and non-const) on a non-empty list refer to the first/last element.", "quantifier": "all lists", "why_tests_cant": "All lists; const overload resolution picks a different body.", "anchors": ["include/mstl/collection/linked_list.h: front, back, front_unchecked, back_unchecked"]}
{"id": "C27", "title": "List move between allocators", "statement": "Move construction with an allocator leaves the new list with the old content and the source moved-from, whether or not the allocators are equal; nothing leaks.", "quantifier": "all contents, all allocator pairs", "why_tests_cant": "All contents and both allocator cases.", "anchors": ["include/mstl/collection/linked_list.h: BaseList(BaseList&&, const A&)"]}
{"id": "C28", "title": "Array bounds and construction", "statement": "Array<T,N>::operator[](i) returns the i-th element if i < N and panics otherwise, never reading out of bounds; construction from a list of at most N elements gives those elements followed by value-initialised ones and panics for longer lists; == is elementwise equality; copies are independent.", "quantifier": "all N, all indices, all lists", "why_tests_cant": "All N and indices.", "anchors": ["include/mstl/collection/array.h: Array"]}
{"id": "C29", "title": "Array iterators", "statement": "into_iter()/iter() yield the N elements in order exactly once; any interleaving of next() and prev() yields each element at most once from the two ends; len() is the number of remaining elements.", "quantifier": "all N, all contents, all interleavings of next/prev", "why_tests_cant": "All interleavings of calls.", "anchors": ["include/mstl/collection/array.h: ArrayIter, ArrayIterRef"]}
{"id": "C30", "title": "Array collected from an iterator", "statement": "from_iter(it) holds the first min(N, k) of the k items of it followed by value-initialised elements, and never writes out of bounds.", "quantifier": "all N, all iterators (finite or infinite)", "why_tests_cant": "All source lengths.", "anchors": ["include/mstl/collection/array.h: from_iter"]}
{"id": "C31", "title": "Range enumerates exactly what it contains", "statement": "For low <= high, iterating Range(low, high) with next() or with begin()/end() yields low, low+1, ..., high-1 once each and then none forever; contains(x) iff x is one of them; is_empty() iff there are none.", "quantifier": "all low, high", "why_tests_cant": "All bounds.", "anchors": ["include/mstl/ops/range.h: Range, RangeCursor"]}
{"id": "C32", "title": "Range is a correct double-ended iterator", "statement": "Any interleaving of next() and prev() on Range(low, high) yields each element of [low, high) at most once, prev() from the high end downward, and none once exhausted.", "quantifier": "all bounds, all interleavings", "why_tests_cant": "All interleavings.", "anchors": ["include/mstl/ops/range.h: Range::prev"]}
{"id": "C33", "title": "Slice iterator", "statement": "SliceRefIter over n elements: any interleaving of next()/prev() yields elements from the two ends, each once; len() is the number left, is_empty() iff len()=0, last() is the last remaining element and does not consume.", "quantifier": "all slices, all interleavings", "why_tests_cant": "All interleavings.", "anchors": ["include/mstl/slice.h: SliceRefIter"]}
{"id": "C34", "title": "Option state machine", "statement": "For every history of Option operations (some/none/emplace, copy, move construction, copy assignment, unwrap, as_ref, map) the Option behaves as an optional value: is_some iff it holds a value, unwrap returns it and leaves none, unwrap on none panics; each payload is constructed and destroyed exactly once.", "quantifier": "all histories over several Options, all payload types", "why_tests_cant": "All histories.", "anchors": ["include/mstl/option/option.h: Option<T>"]}
{"id": "C35", "title": "Moving out of an Option leaves none", "statement": "After move construction or move assignment from an Option the source is none.", "quantifier": "all states of source and destination", "why_tests_cant": "All state combinations along histories.", "anchors": ["include/mstl/option/option.h: Option(Option&&), operator=(Option&&)"]}
{"id": "C36", "title": "Result assignment takes over the variant", "statement": "After a = b (copy or move) a has the same variant and payload as b had, for every combination of variants, and payload lifetimes stay balanced.", "quantifier": "all variant combinations, all histories of assignments", "why_tests_cant": "Histories of assignments of mixed variants.", "anchors": ["include/mstl/result/result.h: ResultBase::operator="]}
{"id": "C37", "title": "Result accessors", "statement": "is_ok/is_err are complementary; unwrap returns the ok value or panics; unwrap_err dually; ok()/err()/ok_ref()/err_ref() are some exactly for the matching variant; == iff same variant and equal payloads.", "quantifier": "all Results", "why_tests_cant": "All payloads and variants.", "anchors": ["include/mstl/result/result.h: ResultBase, Result"]}
{"id": "C38", "title": "UTF-8 validation is exactly RFC 3629", "statement": "validate(bytes) reports no error iff bytes is a concatenation of RFC 3629 encodings of Unicode scalar values (no overlong forms, no surrogates, nothing above U+10FFFF, no truncation).", "quantifier": "all byte strings", "why_tests_cant": "256^n inputs for every n.", "anchors": ["include/mstl/str/encoding/utf8.h: UTF8::validate"]}
{"id": "C39", "title": "UTF-8 validation error position", "statement": "When validate reports an error at position valid_up_to, the bytes before valid_up_to form a valid UTF-8 string and no longer prefix ending at a character boundary is valid.", "quantifier": "all invalid byte strings", "why_tests_cant": "All invalid byte strings.", "anchors": ["include/mstl/str/encoding/utf8.h: UTF8::validate", "include/mstl/str/encoding/utility/decode_error.h"]}
{"id": "C40", "title": "UTF-8 character iteration round-trips", "statement": "For every valid UTF-8 string, chars() yields exactly the encodings of its scalar values in order; their concatenation is the string; nothing is read out of bounds.", "quantifier": "all valid UTF-8 strings", "why_tests_cant": "All strings; the wrong boundary affects only one code point.", "anchors": ["include/mstl/str/encoding/utf8.h: UTF8::next", "include/mstl/str/basic_string.h: chars"]}
{"id": "C41", "title": "UTF-8 character boundaries", "statement": "In a valid UTF-8 string is_char_boundary(i) holds exactly for the offsets at which a character starts and for the end.", "quantifier": "all valid strings, all offsets", "why_tests_cant": "All strings and offsets.", "anchors": ["include/mstl/str/encoding/utf8.h: UTF8::is_char_boundary", "include/mstl/str/basic_string.h: is_char_boundary"]}
{"id": "C42", "title": "ASCII validation", "statement": "Ascii::validate accepts exactly the byte strings all of whose bytes are below 128 and otherwise reports the index of the first byte that is not.", "quantifier": "all byte strings", "why_tests_cant": "All byte strings.", "anchors": ["include/mstl/str/encoding/ascii.h: Ascii::validate"]}
{"id": "C43", "title": "String is a byte sequence under every history", "statement": "For any number of strings and any history of literal construction, copy/move construction and assignment, push_back, pop_back, insert at a boundary and destruction, the bytes printed and the characters iterated equal those of the same history on byte sequences; no step is undefined.", "quantifier": "all histories, all lengths (inline and heap, in particular crossing the 16 byte limit)", "why_tests_cant": "All histories; the storage switch happens at specific lengths.", "anchors": ["include/mstl/str/basic_string.h: BasicString"]}
{"id": "C44", "title": "String storage discipline", "statement": "Along every history every heap buffer of a string is freed exactly once with the capacity it was allocated with and none is leaked.", "quantifier": "all histories over several strings", "why_tests_cant": "All histories.", "anchors": ["include/mstl/str/basic_string.h: BasicString, Allocate"]}
{"id": "C45", "title": "String insert respects character boundaries", "statement": "insert(ch, pos) inserts exactly the bytes of ch at pos when pos is a character boundary (including 0 and the end) and panics otherwise, leaving valid UTF-8 valid.", "quantifier": "all valid strings, all characters, all positions", "why_tests_cant": "All strings and positions.", "anchors": ["include/mstl/str/basic_string.h: insert, is_char_boundary"]}
{"id": "C46", "title": "Iterator adapters compute list functions", "statement": "For every finite source, any pipeline of map and filter followed by collect/fold/reduce/for_each/find/last gives the result of the corresponding list functions; callbacks run once per element, in order, interleaved element by element; nothing is pulled from the source past what is needed (find stops at the first match and leaves the rest).", "quantifier": "all sources, all closures, all pipelines of adapters", "why_tests_cant": "All pipelines of any depth over any source.", "anchors": ["include/mstl/iter/adapters/map.h", "include/mstl/iter/adapters/filter.h", "include/mstl/iter/termnals/*.h", "include/mstl/iter/utility.h: combine, operator|"]}
{"id": "C47", "title": "Adapters over exhausted iterators stay exhausted", "statement": "If the source keeps returning none once exhausted then so does every pipeline over it.", "quantifier": "all pipelines, all numbers of further calls", "why_tests_cant": "All pipelines, unbounded number of calls.", "anchors": ["include/mstl/iter/adapters/map.h", "include/mstl/iter/adapters/filter.h"]}
{"id": "C48", "title": "match: first matching branch wins", "statement": "match(v).when(..)...rest(..).finale() returns the result of the first branch whose pattern (value or range) matches v, runs exactly that branch's body, and panics iff none matches.", "quantifier": "all values, all branch lists", "why_tests_cant": "All branch lists.", "anchors": ["include/mstl/utility/match.h: Match, MatchMid"]}
{"id": "C49", "title": "Tuple laws", "statement": "get<i> of a constructed tuple is the i-th argument; == is componentwise; assignment replaces every component; for_each visits components in order exactly once.", "quantifier": "all arities, all component values", "why_tests_cant": "All arities.", "anchors": ["include/mstl/utility/tuple.h"]}
{"id": "C50", "title": "TypeList laws", "statement": "append/prepend/at/count/map/filter/concatenation/equality on type lists are the corresponding operations on lists (order preserving).", "quantifier": "all type lists, all type functions and predicates", "why_tests_cant": "All lists of types.", "anchors": ["include/mstl/utility/type_list.h"]}
{"id": "C51", "title": "Layout validity", "statement": "Layout::from_size_align(size, align) is Ok exactly when align is a power of two and then carries size and align unchanged; Allocator uses the over-aligned allocation function for deallocation exactly when it did for allocation.", "quantifier": "all sizes and alignments below 2^64", "why_tests_cant": "2^128 inputs.", "anchors": ["include/mstl/memory/layout.h: from_size_align", "include/mstl/memory/allocators/allocator.h"]}
{"id": "C52", "title": "An allocation is large and aligned enough", "statement": "allocate(layout, length) asks the system allocator for a block of at least size*length bytes with at least the layout's alignment.", "quantifier": "all layouts and lengths below 2^64", "why_tests_cant": "The overflow only shows for products above 2^64.", "anchors": ["include/mstl/memory/allocators/allocator.h: allocate, deallocate"]}
{"id": "C53", "title": "Printing a list shows its elements in order", "statement": "operator<< on a List (ForwardList) prints the container name, then every element once, in order, separated by exactly one separator between neighbours and none before the first or after the last, also for the empty list, and leaves the list as it was.", "quantifier": "all lists of any length in any reachable state", "why_tests_cant": "Lists of unbounded length in all reachable states.", "anchors": ["include/mstl/collection/linked_list.h: operator<<"]}
{"id": "C54", "title": "ASCII characters come from both ends, each once", "statement": "Any interleaving of Ascii::next and Ascii::last on one iterator over a string gives one-byte characters from the front and the back, each byte exactly once, until the ends meet, and then none for ever.", "quantifier": "all strings, all interleavings of next and last", "why_tests_cant": "Interleavings are exponentially many and strings unbounded.", "anchors": ["include/mstl/str/encoding/ascii.h: next, last"]}
{"id": "C55", "title": "A string literal compiles exactly if it is valid", "statement": "A _utf8 (_ascii) literal is accepted exactly when it is non-empty and valid UTF-8 (ASCII), and the resulting value holds exactly the literal's bytes, without the terminating zero.", "quantifier": "all literals", "why_tests_cant": "Acceptance happens at compile time and the literals are infinitely many.", "anchors": ["include/mstl/str/encoding/utility/compile_time_validation.h: define_str_suffix, CharsWrap", "include/mstl/str/encoding/ascii.h", "include/mstl/str/encoding/utf8.h"]}
{"id": "C56", "title": "A character value is one character and prints as it", "statement": "A BasicChar holds exactly one character of its encoding, get_len() is that character's length in bytes, printing it writes exactly its bytes, and printing the characters chars() gives of a string prints the string.", "quantifier": "all characters, all strings", "why_tests_cant": "Over a million characters and unboundedly many strings; what is rejected is rejected at compile time.", "anchors": ["include/mstl/str/basic_char.h: BasicChar, operator<<", "include/mstl/str/basic_string.h: chars"]}
{"id": "C57", "title": "A consuming vector iterator can be moved", "statement": "Moving the iterator of into_iter() after any number of next() calls gives an iterator that goes on exactly where the old one was; the old one gives nothing more; dropping both releases all elements and storage once.", "quantifier": "all contents, all numbers of next() calls before and after the move", "why_tests_cant": "All contents and all points at which an adapter may move the iterator.", "anchors": ["include/mstl/collection/vector.h: VectorIntoIter(VectorIntoIter&&), into_iter"]}
{"id": "C58", "title": "Vector iterators are positions", "statement": "Iterators of a vector behave as positions between begin() and end(): ++, --, + n, - n, +=, -=, difference, comparison, dereference, writing and next() of any number of iterators agree with index arithmetic on the sequence, also after a push_back that does not reallocate.", "quantifier": "all reachable states, all programs over any number of iterators", "why_tests_cant": "Programs over iterators are unbounded.", "anchors": ["include/mstl/collection/vector.h: VectorIter, begin, end"]}
{"id": "C59", "title": "An owning array iterator can be moved", "statement": "Moving an Array's into_iter() iterator, by construction or assignment, after any calls gives an iterator that goes on exactly where the old one was, and the old one gives nothing more.", "quantifier": "all arrays, all call sequences before and after the move", "why_tests_cant": "All lengths and all points at which an adapter may move the iterator.", "anchors": ["include/mstl/collection/array.h: ArrayIter(ArrayIter&&), operator=(ArrayIter&&)"]}
{"id": "C60", "title": "List iterators stay valid while lists change", "statement": "An iterator into a List or ForwardList refers to the same element until that element is erased, whatever else happens: insertion and erasure elsewhere, sort, merge, reverse, splice into another list, swap or move of the list. Dereferencing it gives that element's current value, ++ and -- go to its current neighbours, two iterators are equal exactly if they refer to the same element, and end() stays end().", "quantifier": "all histories of operations on any number of lists and kept iterators, all contents, both list kinds", "why_tests_cant": "The claim is about every interleaving of kept iterators with relinking operations on several lists; a test fixes one interleaving and does not see a dangling node that happens to hold the right value.", "anchors": ["include/mstl/collection/linked_list.h: ListIterSTL, before_begin, begin, end, insert_after, erase_after, insert, erase, splice, splice_after, merge, sort, reverse, swap"]}
{"id": "C61", "title": "How often list members call the caller's functions", "statement": "sort() of a list of n elements calls the order at most n*ceil(log2 n) times and at least n-1 times, whatever the order answers; merge() of lists with n and m elements (both non-empty) calls it at least once and at most n+m-1 times, and not at all when there is nothing to merge in or a list is merged into itself; remove_if calls the predicate exactly once per element; unique calls its relation exactly once per element except the first.", "quantifier": "all contents, all orders, predicates and relations (no strict-weak-order assumption), every state reachable by any history, both list kinds", "why_tests_cant": "A complexity bound is about all sizes and all answer patterns of the order; a test counts the calls for a few inputs.", "anchors": ["include/mstl/collection/linked_list.h: sort, _private::mergeSort, _private::merge, merge, remove_if, unique"]}
{"id": "C62", "title": "Pipelines over lists, with iterators that own their elements", "statement": "l.iter() and l.into_iter() can be sent through any number of map and filter stages into fold, reduce, find, collect<List>() or plain next() calls, written with operator| or combine(); the result is that of the corresponding list functions, a list built by collect() holds exactly the elements that came out in order, iter() pipelines leave every node of every list as it was, into_iter() pipelines leave the source moved from, and however many iterator copies, moves and temporaries the expression makes, no node is leaked, freed twice or used after being freed, also when the pipeline stops early.", "quantifier": "all programs over any number of lists (all list members and all such pipelines mixed in any order), all stages and closures of the element, both list kinds, moved-from and empty lists included", "why_tests_cant": "Each stage copies and destroys an iterator that owns a whole list; whether the copies are deep enough and each destroyed once depends on every combination of stages, terminals and how far the source was consumed.", "anchors": ["include/mstl/iter/utility.h: combine, operator|", "include/mstl/iter/adapters/map.h", "include/mstl/iter/adapters/filter.h", "include/mstl/iter/termnals/collect.h", "include/mstl/iter/termnals/fold.h", "include/mstl/iter/termnals/reduce.h", "include/mstl/iter/termnals/find.h", "include/mstl/collection/linked_list.h: ListIter, ListIntoIter, from_iter, into_iter, iter"]}
{"id": "C63", "title": "Programs that move elements between lists and vectors through pipelines", "statement": "In a program that uses any number of lists and vectors together, list.iter(), list.into_iter() and vector.iter() can be sent through any map and filter stages into fold, reduce, find, next() calls, collect<List>() or collect<Vector>(), and from_iter() of either collection takes the into_iter() of either; every result and every collection afterwards is that of the corresponding sequence functions. A pipeline from iter() changes no existing node, buffer or variable; from_iter(into_iter()) hands over exactly the elements in order and leaves the source empty (vector) or moved from (list); when all collections are destroyed no node and no buffer is left, also when a consuming iterator is dropped half way.", "quantifier": "all programs over any number of lists and vectors: all operations of C14 and of C01-C13 and all such pipelines mixed in any order, all stages and closures of the element, both list kinds, vectors up to a length whose doubled capacity can be allocated", "why_tests_cant": "Sources and collections combine freely, each with its own ownership rules and growth; a leak or a wrong element shows only for a certain combination of source, stages, stopping point and capacity.", "anchors": ["include/mstl/collection/vector.h: VectorIter, VectorIntoIter, from_iter, iter, into_iter", "include/mstl/collection/linked_list.h: ListIter, ListIntoIter, from_iter, iter, into_iter", "include/mstl/iter/termnals/collect.h", "include/mstl/iter/utility.h: combine, operator|"]}
{"id": "C64", "title": "References and iterators into vectors stay valid exactly while the buffer does", "statement": "A reference, pointer or iterator into a vector (v[k], at_unchecked, data() + k, begin() + k) keeps denoting the element at its index as long as the buffer is kept: through reads and writes anywhere, push_back, emplace_back, insert and emplace while size() < capacity(), reserve, resize and assign up to capacity(), pop_back and erase, and copy assignment from a vector with the same allocator and no larger capacity. swap, move construction and move assignment carry it to the vector that takes the buffer. capacity() after every operation is the documented one (reserve exactly what is asked, push_back doubles). When the buffer is given up (growth, clear, destruction, being assigned over) or the index is no longer below size(), the address can no longer be used. Hence after reserve(n) all references survive filling the vector up to n elements.", "quantifier": "all programs over any number of vectors and kept addresses, all operations of C01-C13 on them in any order, all indices, reads, writes, moves of iterators and next() calls through kept addresses", "why_tests_cant": "Whether an old reference survives depends on the whole history of capacities; a test sees a dangling read as success on most platforms.", "anchors": ["include/mstl/collection/vector.h: operator[], at_unchecked, front_unchecked, back_unchecked, data, begin, end, iter, VectorIter", "include/mstl/collection/vector.h: reserve, extend_space, allocate_reserve, move_impl, swap, clear, operator="]}
{"id": "C65", "title": "Inserting a range of a vector into the same vector", "statement": "v.insert(v.begin() + p, v.data() + a, v.data() + b) with 0 < p inserts copies of the elements v[a], ..., v[b-1] at p when the range lies before p and size() + (b - a) <= capacity(). Otherwise: with reallocation the old buffer is read after it was freed; without reallocation a range that crosses p inserts the part before p over and over, a range that starts at p or up to b - a behind it reads destroyed elements, and a range further behind inserts the elements that stood b - a earlier.", "quantifier": "all histories, contents, capacities, positions p >= 1, ranges a < b", "why_tests_cant": "Which of the five behaviours occurs depends on the capacity left by the whole history and on the relative position of range and insertion point.", "anchors": ["include/mstl/collection/vector.h: insert(ConstIter, InputIt, InputIt), move_elements_back"]}
{"id": "C66", "title": "What a vector is left with when copying an element throws", "statement": "If the copy constructor or copy assignment of an element throws during a Vector operation, the vector can still be destroyed and nothing is leaked (basic guarantee). Proved where it holds: insert(pos, val) and emplace leave everything as it was; copy assignment between equal allocators leaves a valid vector as long as at most the old size() elements were copied. False elsewhere, and exactly how is proved: push_back, emplace_back, resize and assign leave size() one larger than the number of elements, so destroying, clearing or popping reads raw storage; insert of several elements leaves a counted gap in the middle; copy assignment leaves appended elements outside size() or, with different allocators, a size() that counts missing elements; every constructor leaks its buffer and the elements copied so far; from_iter destroys an element that was never made. Other vectors are never affected, and without an exception every operation behaves as in C01.", "quantifier": "all histories, all operations, all contents and capacities, every number of copies before the throwing one", "why_tests_cant": "The damage depends on which of the copies throws, the capacity left by the whole history, the allocators and the sizes; tests would need an element type that throws at every possible point.", "anchors": ["include/mstl/collection/vector.h: push_back, emplace_back, resize, assign, insert, emplace, operator=, constructors, copy_impl, from_iter"]}
{"id": "C68", "title": "What a list is left with when copying an element throws", "statement": "If the copy constructor of an element throws during a List or ForwardList operation, every list can still be used or destroyed and nothing is leaked. False, and exactly what happens is proved for every reachable state and every number k of elements made before the exception. Constructors from a range, a count, a list, and copies: the object never exists and k+3 blocks are lost, everything else goes on as before. insert_after, emplace_after, insert, emplace: if the first element throws the list is unchanged but one block is lost; if a later one throws the chain is cut, so walking, printing, clearing or destroying the list is undefined, and size() counts k new elements or none, depending on the overload. Assigning an initializer_list: as insertion into the emptied list. Copy assignment: a target that held a list is left pointing at freed nodes with size() = k; a moved-from target says moved() while size() = k, and k+3 blocks are lost. from_iter: first element, one block lost; a later one, undefined during unwinding. push_front, push_back and resize are noexcept: the program ends. In all cases every other list keeps its contents, and when nothing throws the operations are those of C14.", "quantifier": "all histories, both list kinds, all constructing operations, all contents and positions, every number of elements made before the throwing one", "why_tests_cant": "The damage depends on which element throws, on the position, on the history of the target (live, moved-from) and on which overload counts; a leaked node is invisible to a test and a cut chain may seem to work until it is walked.", "anchors": ["include/mstl/collection/linked_list.h: construct_node, append, insert_after, emplace_after, insert, emplace, copy_impl, operator=, constructors, from_iter, push_front, push_back, resize"]}
{"id": "C67", "title": "What Option and Result are left with when the payload throws", "statement": "If constructing, copying, moving or assigning the payload throws, every Option and Result is left usable: nothing leaks, nothing is destroyed twice, and is_some() tells whether there is a value. Proved for programs in which any operations throw at any point and the program goes on, with one exception: an exception leaves all Options as they were, except that unwrap and map with a by-value lambda may leave the source holding a moved-from value; an object whose constructor throws never exists; temporaries of emplace and map are destroyed. False for copy assignment of a value to an empty Option: hold_value is set first, so the Option says is_some() although it holds nothing, and reading, unwrapping, assigning, copying or destroying it is undefined, always. Moving Options, and copying, moving or assigning Results, is noexcept: the exception ends the program. All other Result operations leave every Result as it was.", "quantifier": "all histories in which every operation may throw at any of its payload operations and the program continues, all payload types (trivially movable or not, throwing moves that keep or lose their source)", "why_tests_cant": "Needs a payload type that throws at each possible point, in every combination of states of source and target, and the damage (a flag without a value) only shows when the object is destroyed.", "anchors": ["include/mstl/option/option.h:19-206", "include/mstl/result/result.h:28-149, 200-344, 423-437"]}
{"id": "C69", "title": "What a list is left with when the caller's predicate throws", "statement": "If the predicate a caller hands to sort, merge, unique or remove_if of List or ForwardList throws, every list can still be used or destroyed and no element is lost. False except for unique, and exactly what happens is proved for every reachable state, every predicate and every number k of calls that return before the one that throws. An exception is seen exactly when the operation makes more than k calls; otherwise the operation is that of C14. sort: any interrupted sort leaves the list cut, so walking, printing, clearing or destroying it is undefined, while size() still says n; with k < n-1 every sort is interrupted. merge(other): size() is n+m at once and other is empty; the list is either cut or holds only some of the n+m elements, the rest being unreachable, at least one of them; if the very first call throws it still holds its own n elements only. unique(): only the pairs compared so far are treated; the list stays usable, size() included. remove_if is noexcept: the program ends. In all cases every other list keeps its contents.", "quantifier": "all histories, both list kinds, all contents, all predicates and orders (whether or not they are orders), every number of calls before the throwing one", "why_tests_cant": "The outcome of an interrupted merge depends on which call throws and on the relative order of the elements; a cut chain or an unreachable node is not seen until the list is walked to the end, and each test fixes one predicate and one call.", "anchors": ["include/mstl/collection/linked_list.h: sort, mergeSort, mergeNodes, merge, unique, remove_if"]}
{"id": "C70", "title": "Running out of memory is noticed", "statement": "If the memory runs out while a Vector, List, ForwardList or String is being used, the program learns of it: no call is undefined. False: the allocator answers null and no container looks at the answer. What happens instead is proved for every memory (every choice of the requests that fail) and every history that is fine when memory never ends. Lists and strings: while every request is met nothing changes; with the first one that is not, the program is undefined. How many requests a list history makes is computed from its contents alone; the list operations that make none, and every operation on strings of at most 16 bytes, are the same whatever the memory. Vectors: while every request is met nothing changes; otherwise the program is undefined, or it goes on and no returned value, size or capacity tells the difference, the vectors without storage being empty ones. It is undefined as soon as a vector would hold an element in storage that was not granted. Vector() and reserve(n) on an empty vector return silently with a capacity that is not there; the next push_back is undefined.", "quantifier": "all histories over any number of containers, all contents, every set of failing allocation requests", "why_tests_cant": "A test machine does not run out of memory, and a null pointer stored in an empty vector shows only at a later call; the number of the failing request is unbounded.", "anchors": ["include/mstl/memory/allocators/allocator.h: Allocator::allocate", "include/mstl/collection/vector.h: allocate, allocate_reserve, Vector(), reserve", "include/mstl/collection/linked_list.h: alloc_node, alloc_node_with_data, build_virtual_node", "include/mstl/str/basic_string.h: BasicString constructors, operator=, try_alloc"]}
{"id": "C71", "title": "Exceptions from the closures of a pipeline", "statement": "If a closure given to map, filter, find, fold, reduce or for_each throws, the exception reaches the caller, every collection that existed is usable and as before, and nothing leaks. False: MapIter::next, FilterIter::next, find, for_each, collect and every combine are noexcept, so that almost every such exception ends the program. Proved: which closure sees which element in which order is given by a record over the source sequence alone. In every program with any number of lists and vectors, where the first k closure calls of an expression return and the next throws (any k, any stages, any source), the expression returns its value exactly when the record has at most k calls; the exception reaches the caller exactly when call k is by the lambda of a fold or reduce written with the pipe operator, and then nothing that existed has changed (a list moved into the pipeline is moved-from and its elements are destroyed); in all other cases the program is terminated. Programs that catch and go on give what they give on sequences, and when all collections are gone no node and no buffer is left.", "quantifier": "all programs over any number of lists and vectors, all contents, all chains of map and filter with any closures, both ways of writing a pipeline, all terminals and collections, every number k of calls that return", "why_tests_cant": "Whether the exception gets out depends on which of unboundedly many calls throws, at which stage and in which notation; termination cannot be observed by the test that is terminated.", "anchors": ["include/mstl/iter/utility.h: combine, operator|", "include/mstl/iter/adapters/map.h: MapIter::next", "include/mstl/iter/adapters/filter.h: FilterIter::next", "include/mstl/iter/termnals/find.h: find", "include/mstl/iter/termnals/fold.h: fold", "include/mstl/iter/termnals/reduce.h: reduce", "include/mstl/iter/termnals/for_each.h: for_each", "include/mstl/iter/termnals/collect.h: collect"]}
{"id": "C72", "title": "Ranges and cursors of different integer types", "statement": "r.contains(x), cursor comparisons and r == s mean what they mean for integers, whatever the integer types of the two sides. True of contains and of ==, <, <=> between cursors: they compile exactly for the pairs of types that one of the two types, or int, can hold, and then they are those of the integers. False of r == s: it compiles for every pair, and -1 equals 4294967295u; it is not even transitive. Proved instead: r == s holds exactly when the bounds differ by multiples of 2^n, with n = 64 if one side is a 64-bit unsigned type, 32 if one is a 32-bit unsigned type and the other is no 64-bit one, and by nothing otherwise; it is symmetric; the claim holds for exactly the pairs of types for which contains compiles, and for every pair as long as no bound is negative. match(v).when(u, f) has the same defect.", "quantifier": "all pairs of the eight integer types, all bounds and items", "why_tests_cant": "Pairs of types times all their values; the tests compare i32 and u32 only at small non-negative bounds, where the defect does not show.", "anchors": ["include/mstl/ops/range.h: Range::contains, Range::operator==, RangeCursor::operator<=>, RangeCursor::operator==", "include/mstl/ops/cmp.h: PartialOrd, Eq", "include/mstl/utility/match.h: when"]}
{"id": "C73", "title": "Cursor arithmetic", "statement": "In every program over any number of RangeCursors of one integer type (construction, copy, assignment, prefix and postfix ++ and --, +, -, *, ==, <=>) every cursor behaves as the mathematical integer one computes for it, reduced to the type only when it is looked at (types that wrap) or within its bounds (signed int and wider); what is excluded - signed overflow, + and - on types narrower than int - is undefined or does not compile, and nothing else is. From begin(), n increments show low + n and == end() holds exactly at n = high - low. *(end() - begin()) is the number of elements whenever that number is a value of the type; for signed types with bounds far apart it is undefined.", "quantifier": "all programs, all eight integer types, all positions, all numbers of steps", "why_tests_cant": "Overflow and wrap-around appear only at the ends of the types; the tests make a few steps near 1.", "anchors": ["include/mstl/ops/range.h: RangeCursor", "include/mstl/ops/arithmetical.h: Inc, Dec, Add, Sub"]}
{"id": "C74", "title": "List arguments that refer into lists", "statement": "push_front, push_back, resize, insert_after and insert with a reference to an element of the same or of another list, and insert_after and insert with a pair of iterators of the same or of another list, do what they would do for copies made before the call. Refuted for ranges of the list itself: when the node after which the elements are inserted lies in the range behind its first element - e.g. l.insert(l.end(), l.begin(), l.end()) with two or more elements - the call never returns. In all other cases it is true, including the range that starts with that node.", "quantifier": "all histories over any number of lists (single and double), all element values, positions and ranges", "why_tests_cant": "The loops read the list while they relink it; whether the read position is overtaken depends on the place of insertion relative to the range. No test passes a reference or iterator of a list to that list, and a test cannot observe that a call never returns.", "anchors": ["include/mstl/collection/linked_list.h: BaseList::insert_after(pos, count, val), insert_after(pos, first, last), insert(pos, count, val), insert(pos, first, last), push_front, push_back, resize, extend, construct_node"]}
{"id": "C75", "title": "Debug assertions of lists", "statement": "In a debug build every call on List and ForwardList computes what it computes in a release build, as long as the program keeps to what the members allow, and a call that breaks the documented condition of the member panics instead of corrupting the list. Refuted both ways: copying a list that has been moved from is allowed and panics; pop_front on an empty list is not caught, since its assertion compares the wrong nodes. Proved instead: the exact set of calls that panic, in terms of the sequences.", "quantifier": "all histories over any number of lists (single and double), all element values, positions, orders and predicates; every call in every reachable state", "why_tests_cant": "The tests run in one build mode and never break a condition; whether an assertion can ever fail, and whether it fails for programs that are right, is about all states.", "anchors": ["include/mstl/global.h: MSTL_DEBUG_ASSERT", "include/mstl/collection/linked_list.h: MSTL_DEBUG_ASSERT in copy_impl, move construction, insert_after, emplace_after, erase_after, emplace, insert, pop_front, pop_back, merge, remove_if, reverse, unique, sort, ListIntoIter"]}
{"id": "C76", "title": "Using a list that has been moved from", "statement": "A list that has been moved from can be destroyed, assigned, moved or copied again, swapped and asked for its size, its first or last element (none). Of the other members of List and ForwardList, these leave it as it is and answer as an empty list would: remove_if and unique (0), into_iter (nothing), reverse of a ForwardList, merge of an empty list or of itself, inserting nothing before_begin(), erasing nothing; all others - clear, push_front, push_back, pop_front, resize, iterating, printing, sort, splice, non-empty insertion, assignment of an initializer list - are undefined.", "quantifier": "all histories over any number of lists, every member, every argument, in every reachable state", "why_tests_cant": "What a moved-from list does is a matter of every member's handling of null ends; undefined behaviour may look harmless in a test.", "anchors": ["include/mstl/collection/linked_list.h: BaseList move constructor and move assignment, clear, push_front, push_back, pop_front, pop_back, resize, insert_after, insert, erase_after, erase, splice_after, merge, sort, reverse, unique, remove_if, begin, end, operator<<, ListIter, ListIntoIter"]}
{"id": "C77", "title": "Debug assertions of vectors", "statement": "In a debug build v[k] and v[k] = x panic exactly when k >= size(); every other call, and every subscript in range, gives the same result and leaves the same memory as in a release build. In particular no copy, comparison or printing of vectors panics.", "quantifier": "all states whatsoever (C77_debug_exact), all histories over any number of vectors (C77_debug_histories)", "why_tests_cant": "The operator is used inside copying, comparing and printing; that none of these can leave the range is about all vectors, and the tests build one mode only.", "anchors": ["include/mstl/global.h: MSTL_DEBUG_ASSERT", "include/mstl/collection/vector.h: operator[], copy_impl, operator==, operator<<, operator<=>"]}
{"id": "C78", "title": "Iterators over strings kept while strings change", "statement": "An iterator obtained by chars() sees the bytes of its string as they are now. Strings of up to 16 bytes keep their bytes inside the object: the iterator then stays with that object, whatever the string becomes, and is good again and again while the object holds a string of at most 16 bytes; when it has become longer, been moved from or destroyed, using the iterator is undefined. Longer strings keep their bytes in a buffer: appending, inserting and copy assignment keep it as long as the capacity suffices (one and a half times the size at the last allocation, carried over by copying and moving); moving hands buffer and iterator over to the new owner; anything else that replaces it ends the iterator, and using it is undefined. An iterator over valid UTF-8 gives the characters of the string one by one, then nothing.", "quantifier": "all histories of the string operations C43 covers, over any number of ascii or utf8 strings, iterators and copies of iterators, all bytes", "why_tests_cant": "A dangling iterator usually still reads the old bytes; which later operation ends it depends on the capacity reached by the whole history.", "anchors": ["include/mstl/str/basic_string.h:21-39 Chars", "include/mstl/str/basic_string.h:344-357 chars, make_slice", "include/mstl/slice.h:14-69 SliceRefIter", "include/mstl/str/utf8.h:26-62", "include/mstl/str/ascii.h:25-33"]}
{"id": "C79", "title": "Slices are views", "statement": "A slice, and what is left of an iterator over it, stands for a sequence of places in an array. Reading through it gives what the place holds now, writing through the references of next, prev or last changes the array and is seen through every other slice and iterator. Copies of slices and iterators are independent of each other in what is left, and share the elements. into_iter gives an iterator over all of the slice and leaves that slice empty, its copies unchanged. Once the array has ended, len and is_empty still answer, and any call that would give an element is undefined.", "quantifier": "all histories over any number of arrays, slices, iterators and copies of them, all elements, overlapping and empty slices included", "why_tests_cant": "Sharing between overlapping views and independence of copies are statements about all interleavings of writes and reads.", "anchors": ["include/mstl/slice.h:14-70 SliceRefIter", "include/mstl/slice.h:71-118 Slice"]}
{"id": "C80", "title": "Programs that send elements from any source into any collection", "statement": "Ranges, slices, Array::iter(), Array::into_iter(), the characters of a string, list.iter(), list.into_iter() and vector.iter() can each be sent through any map and filter stages, with operator| or combine, into fold, reduce, find, next() calls, collect<List>(), collect<Vector>() or collect<Array<N>>(), in programs that otherwise use the lists, vectors and arrays freely: every result, and every collection afterwards, is that of the corresponding sequence functions. An array collected into holds the first N items followed by value-initialised elements; an array iterated by value keeps no readable element until it is assigned one. Array indices out of bounds panic. When the lists and vectors are destroyed no node and no buffer is left.", "quantifier": "all programs over any number of lists, vectors and arrays of one length N, all sources, stages, closures of the element and sinks in any order; ranges lo <= hi of any integer type, slices inside an array, strings of Unicode scalar values other than U+007F; list and vector operations as in C63", "why_tests_cant": "Every source has its own rule for copying, moving and ending, every collection its own way of growing and stopping; a wrong element shows only for a certain combination of source, stages and sink.", "anchors": ["include/mstl/ops/range.h: next", "include/mstl/slice.h: next, iter", "include/mstl/collection/array.h: ArrayIter, ArrayIterRef, from_iter, iter, into_iter", "include/mstl/str/basic_string.h: Chars", "include/mstl/iter/utility.h: combine, operator|", "include/mstl/iter/termnals/collect.h"]}
{"id": "C81", "title": "Appending to a string is amortised constant", "statement": "From any state of a history, any sequence of push_back, insert, pop_back, size, printing, chars() and is_char_boundary on one string moves at most (its length at the start) + 3 * (bytes added) bytes from one buffer to another, however the calls are mixed; and it requests k new buffers with k = 0 or 17 * 3^(k-1) <= 2^(k-1) * (length at the start + bytes added), so a number logarithmic in the length.", "quantifier": "all reachable states of any number of strings, all sequences of edits of one of them (excluding those refuted in C43: a 17-byte string popped, a 16-byte one printed)", "why_tests_cant": "A bound on the total over every sequence; a growth rule that adds a constant passes every test of contents.", "anchors": ["include/mstl/str/basic_string.h: try_allocate_new_space, push_back, insert, pop_back"]}
{"id": "C82", "title": "Strings with different allocators", "statement": "Strings may be constructed with different allocators. Every block is given back to the allocator that made it, with the size it was asked for; at any time each allocator has handed out, for every size, as many blocks as it got back plus those its strings still use, so that nothing is missing once all strings are gone. The allocators receive exactly the calls listed by a small specification, in that order, and which allocators are used changes nothing else a program can see. A copy uses a default-constructed allocator; moving and assigning take over the allocator of the source. False for copy assignment into a string that has enough room for a text of more than 16 bytes: it keeps its own allocator, so the allocator of a string depends on its capacity. Proved otherwise: the rule for every assignment.", "quantifier": "all programs over any number of strings and allocators, all contents, in every order of operations (without the operations C43 excludes)", "why_tests_cant": "The tests only use the stateless default allocator, for which giving a block to the wrong allocator goes unnoticed; and what each string's allocator is depends on the whole history of lengths and capacities.", "anchors": ["include/mstl/str/basic_string.h:55-56", "include/mstl/str/basic_string.h:63-76", "include/mstl/str/basic_string.h:78-213", "include/mstl/str/basic_string.h:429-453", "include/mstl/memory/allocators/allocator.h:24-57"]}
{"id": "C83", "title": "Where elements lie in memory", "statement": "Whatever the size and alignment of the element type, every element of a list or vector, and the pointers of every list node, lie at an address that is a multiple of their alignment, inside a block that is allocated, and share no byte with any other element or node; blocks go back with the size and alignment they were asked for, and none is left when the containers are gone. This rests only on operator new returning non-null, aligned blocks that do not overlap. False for vectors whose buffer has 2^64 bytes or more: the byte count wraps and elements lie outside the block. Proved for all others.", "quantifier": "all element types (sizes and alignments), both kinds of lists, all histories of creating and destroying nodes and creating, growing and destroying buffers, all conforming implementations of operator new", "why_tests_cant": "The tests use int elements, whose alignment is less than that of the links and of every block; where operator new puts blocks differs from run to run.", "anchors": ["include/mstl/collection/linked_list.h:303-332", "include/mstl/collection/linked_list.h:1748-1817", "include/mstl/collection/vector.h:790-816", "include/mstl/memory/layout.h", "include/mstl/memory/allocators/allocator.h:24-57"]}
{"id": "C84", "title": "Allocator objects inside strings end once", "statement": "A string constructs, assigns and destroys its allocator object like any member: if allocators are handles on shared pools, each pool has at any time as many users as there are strings with that allocator (besides the caller's own handles). False: the destructor of Allocate calls the destructor of its base class, which the language then runs again, so every destroyed string takes two users from its pool. Proved: the exact number of users in every history, which is right as long as no string is destroyed.", "quantifier": "all programs over any number of strings and allocators", "why_tests_cant": "The allocators of the tests have no state and trivial destructors, so the second destruction has no effect.", "anchors": ["include/mstl/str/basic_string.h:429-462", "include/mstl/str/basic_string.h:55-213"]}
{"id": "C85", "title": "References in Option and Result are references", "statement": "An Option<T&> or Result<T&, E>, and what as_ref(), ok_ref() and err_ref() give, refers to the object itself: reading gives the object's current value, assigning through it changes the object for its owner and for all other references to it and changes no other object; copying, moving or assigning such an Option or Result only rebinds it; two Result<T&, E> compare the current values of their referents. A reference to a payload may be used exactly while that Option holds a value or that Result is Ok (Err for err_ref). False for assignment of a Result of the other variant: a Result<T&, E> assigned an error still says it is Ok and dereferences the error's bytes. Proved for all histories without such assignments.", "quantifier": "all histories over any number of variables, Options, Results, Option<T&>, Result<T&, E> and Option<E&>; all payload types and equality predicates", "why_tests_cant": "Aliasing depends on the order of arbitrary many writes through owners and references; the tests read one reference right after making it.", "anchors": ["include/mstl/option/option.h:50-76", "include/mstl/option/option.h:224-335", "include/mstl/result/result.h:306-366", "include/mstl/result/result.h:477-568"]}
{"id": "C86", "title": "What vector operations cost", "statement": "How many elements a Vector call moves and whether it requests a buffer depends only on sizes, capacities and the position: a call that does not outgrow the capacity requests no buffer and moves only the elements that have to make way (those after the gap), and one that does moves each element into the new buffer once. Adding elements one at a time moves on average a constant number of elements per element added, besides those that have to make way, whichever member is used. False for resize(size() + 1), insert(end(), 1, x) and insert(end(), first, last): each reserves exactly the room it needs, so n of them request n buffers and move n(n+1)/2 elements; true for push_back, emplace_back, insert(pos, x) and emplace(pos, x), and for every member once reserve(n) has been called.", "quantifier": "all histories over any number of vectors within the size limit and the guards of C02 and C03; all element types; all positions; every n", "why_tests_cant": "Cost is not a return value, and it is a property of sequences of any length: no single test tells n from n squared.", "anchors": ["include/mstl/collection/vector.h:495-499", "include/mstl/collection/vector.h:543-669", "include/mstl/collection/vector.h:674-752", "include/mstl/collection/vector.h:787-885"]}
{"id": "C87", "title": "Ranges over index types that are not integers", "statement": "Going through Range<Idx>(low, high) with next() gives low, low + 1, ... as long as they lie below high, then none for ever, for every Idx the class accepts. False: next() stops only when low == high, so a range whose high end is not hit exactly never ends, while is_empty() is true and contains() false of the values it gives. Proved for every Idx: next() gives the increments of low one after the other, none equal to high, and none only once one of them is equal to high; what prev() gives first is never in the range. However next(), prev() and the questions are mixed, each end moves only by its own calls, one step a call, and none means the ends have met; after any history the questions are answered for the range as it is and leave it alone, and writing low or high leaves the other end. For types whose ++ moves a fixed distance: it ends exactly when low <= high and the distance is a whole number of steps, and then it gives exactly the values in the range that are whole steps away, and is_empty() tells whether the next call gives none; in every other range it sooner or later does not. For double: between whole numbers up to 2^53, and wherever every value on the way is exact, all is as claimed; from a whole number up to 2^53 it ends for no other high end; it never ends past high or with a NaN; 0 to 2.5 and 0.14 to 1.14 never end, and 2^53 to 2^53 + 2 gives 2^53 for ever.", "quantifier": "all index types with functional ==, <, <=, ++, --; all low, high; all doubles including infinities and NaN; any number of calls", "why_tests_cant": "That a range never ends, and for which bounds it does, cannot be observed in finitely many runs; rounding depends on the values.", "anchors": ["include/mstl/ops/range.h: Range::next, Range::prev, Range::is_empty, Range::contains, Range::operator==", "include/mstl/ops/arithmetical.h: Inc, Dec", "include/mstl/ops/cmp.h: PartialOrd"]}
{"id": "C88", "title": "What is in memory at any moment", "statement": "The memory the containers hold is exactly accounted for by their contents at every moment, not only at the end: a linked list has one node per element and two without element, from its own allocator, and none after it has been moved from; the bytes requested by vectors from each allocator and not returned are the sum of their capacities times the element size; a string longer than 16 bytes has one buffer and a shorter one none. A list call requests exactly the nodes of the elements it adds (a new list or a copy two more, resize only what is missing); moving, swapping, erasing, splicing, merging, sorting, reversing, removing, iterating and printing request nothing, so every node requested and not held has been returned. False after moving an empty list to another allocator, which leaves one node that no list holds.", "quantifier": "all histories over any number of lists, vectors and strings under the guards of C14, C02 and C43; all allocators; all elements", "why_tests_cant": "A test with a leak checker sees the end of one run; that nothing is held in excess in the middle of every history, and how much every call requests, are statements about all states.", "anchors": ["include/mstl/collection/linked_list.h:1757-1826", "include/mstl/collection/linked_list.h:533-577", "include/mstl/collection/linked_list.h:591-641", "include/mstl/collection/vector.h:674-752", "include/mstl/str/basic_string.h:439-462"]}
{"id": "C89", "title": "Printed text tells what was printed", "statement": "In every state that can be reached, printing a Vector, List or ForwardList writes its kind, an opening bracket, the elements' texts in order with a comma and a blank between them, and a closing bracket. Two values of the same type with the same text are equal: integers, decoding and layout errors, and vectors and lists of these nested to any depth; Layouts; vectors and lists of u8, which are written as characters, also if they are commas and brackets; the arguments of print(), one per line. Different kinds of sequences never have the same text. For sequences of strings this holds if no string is empty or contains a comma or closing bracket, and is false otherwise: an empty vector and a vector of one empty string print alike, and so do two strings and one string made of them with a comma and a blank between.", "quantifier": "all printable types built from integers, error types, strings, Vector, List and ForwardList; all values; all histories that lead to them", "why_tests_cant": "A test compares the text of a few values; that no two of infinitely many values of any nested type share a text is a statement about all pairs.", "anchors": ["include/mstl/collection/vector.h:1073-1084", "include/mstl/collection/linked_list.h:1947-1981", "include/mstl/memory/layout.h:64-67", "include/mstl/memory/layout_error.h:13-15", "include/mstl/str/encoding/utility/decode_error.h:18-22", "include/mstl/global.h:47-54", "include/mstl/utility/print.h:12-18"]}
{"id": "C90", "title": "The same program with Vector, List and ForwardList", "statement": "A program that uses only members that Vector and List have in common (constructors, copy and move, assignment, swap, clear, push_back, pop_back, resize, insert, erase, size, empty, front, back, iteration, printing) and is right on sequences gives the same results with either: every return value, every returned iterator as a position, every printed text up to the name of the type. Every program that is right with ForwardList gives the same results with List. False for inserting at the front (works for List, undefined for Vector), for a container that has been moved from and is used again without assignment (works for Vector, undefined for List), and for the const front_unchecked of List.", "quantifier": "all programs over any number of containers, all element types and elements, all sizes of elements", "why_tests_cant": "The claim compares two implementations on every program; tests compare them on a few.", "anchors": ["include/mstl/collection/vector.h:60-790", "include/mstl/collection/vector.h:1073-1084", "include/mstl/collection/linked_list.h:517-1435", "include/mstl/collection/linked_list.h:1947-1981"]}
{"id": "C91", "title": "How much memory a string keeps", "statement": "The block a string holds can be computed from the lengths it had: a string of up to 16 bytes holds none; one that outgrows 16 bytes or its block gets a block half as large again as its new length; a copy gets a block as large as that of the original; a moved string takes the block along; copying over a string that has a block keeps the block if the bytes fit; pop_back keeps it. So the bytes all strings hold are known exactly at every moment, no block is more than half as large again as the longest string there has been, and while nothing is popped and nothing is copied over another string the memory is at most 1.5 times the contents. Not true in general: pop_back never gives memory back and copies inherit the unused room, so two strings of 17 bytes can hold any amount of memory.", "quantifier": "all histories over any number of strings, all contents", "why_tests_cant": "The capacity is private and depends on the whole history of lengths of several strings; tests see a few sequences.", "anchors": ["include/mstl/str/basic_string.h:57-213", "include/mstl/str/basic_string.h:215-288", "include/mstl/str/basic_string.h:372-425", "include/mstl/str/basic_string.h:455-462"]}
{"id": "C92", "title": "Contiguous iterators can be read from memory", "statement": "For the iterators that declare themselves contiguous (Array::iter(), Array::into_iter(), Slice's iterators), after any calls: len() is the number of items still to come, is_empty() says whether that is 0, start_addr() is the address of the item next() would give, and the len() elements stored from there on are what the iterator would still give, in that order. start_addr() moves by one element for each item next() gave and by nothing else. Not true of Array::into_iter(): there len() and start_addr() never change, and the contract holds exactly as long as nothing was handed out.", "quantifier": "all arrays, all slices of them, all sequences of next, prev, len, is_empty and last", "why_tests_cant": "All lengths, all sub-ranges and all interleavings of calls; the tests do not call start_addr.", "anchors": ["include/mstl/iter/iter_concepts.h:84-163", "include/mstl/slice.h:14-71", "include/mstl/collection/array.h:83-98", "include/mstl/collection/array.h:100-144"]}
{"id": "C93", "title": "What an array is left with when an element operation throws", "statement": "When making or assigning an element throws inside a call on an Array: a constructor (default, from an initializer list, from a raw array, copy) leaves no array and no element behind, and every other array as it was; a copy assignment that throws at element k leaves the first k elements those of the source and the others what they were, nothing else changed; an indexed assignment leaves the array as it was; a move constructor or move assignment ends the program, because it is noexcept. At every moment each array has exactly N elements alive, elements made = elements destroyed + N times the number of arrays, and when all arrays have ended everything made has been destroyed.", "quantifier": "all element types, all N, all histories of calls on any number of arrays, a throw at any element operation of any call", "why_tests_cant": "The place of the throw ranges over every element operation of every call and its effect depends on everything done before; the tests use types that never throw.", "anchors": ["include/mstl/collection/array.h:155-218", "include/mstl/collection/array.h:256-271", "include/mstl/collection/array.h:297-298"]}
