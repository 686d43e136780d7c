# Formal model of malachi-iot/estdlib: design

## Approach

The source in /repo is C++ templates.  Every modelled function is transcribed,
function by function, into total computable Gallina; each definition cites the
file and lines it models and says where it simplifies.  Element types, functors
and comparators stay abstract (universally quantified), integer widths are
explicit parameters, and wrap-around is written out (`mod 2^w`) where the code
relies on it.  All theorems are for inputs, capacities and histories of any size.

Undefined behaviour is a distinct outcome: out-of-bounds accesses, null
dereferences, uses of dead objects and signed overflow return `UB` (`Undef` in
the models of variant, optional and expected) instead of a default value.
Theorems prove that the outcome is not `UB` under the stated precondition, or
characterise the states from which it is reached.  A loop without an obvious
bound takes fuel; `Diverge` is its exhaustion and the theorems exclude it.

Layout, per module `X`: `X_Model.v` (transcription only), `X_Spec.v` (small
independent specification), `X_Proofs.v`, `Properties_X.v` (the theorems, their
`Print Assumptions`, and for each property a concrete `Example Cxx_case`
showing that its hypotheses are met).  `Base.v`, `MachInt.v` hold the common
vocabulary, `BaseLemmas.v`, `SliceLemmas.v` lemmas about lists.

Where the code violates the English property, the faithful model makes the full
statement false.  Then a theorem `..._refuted` shows it, where possible
universally: it says what happens from every state of the kind in question,
not just in one example.  The strongest true part is a property of its own, whose
statement names the restrictions it needs; the two properties refer to each other.

The theorems are tested against wrong programs: `seeded/LOG.jsonl` has one line
per edit of a model, with the theorems that then fail.  A theorem is listed there
when its proof, or a lemma it rests on, no longer goes through; that the theorem
itself has become false was not checked separately.  Lines with `lemmas_failed`
and a definition written `Module.name` come from edits generated by a script: for
those that were noticed, `claim_broken` is the title of up to three of the
properties whose theorems failed.  Edits that no theorem noticed were judged one by one:
`claim_broken` then says "none" and why, or names the claim that was tightened.
Some early lines of that kind had such a verdict by mistake on an edit that had
been noticed; they were corrected from the theorems that failed.

## What is modelled, module by module

The text is the head comment of each model file; the comments inside give file and line
for every definition and say where it simplifies.

| model | what it models, and its simplifications | proof technique |
|---|---|---|
| `Acc` | Model of the element proxies for allocators whose memory must be locked: /repo/src/estd/internal/container/accessor.h (accessor_shared, accessor, accessor_stateless), locking_accessor.h, iterator.h (locking_iterator), handle_with_offset.h, traits/allocator_traits.h:160-200. The repository has no such allocator: modelled is any allocator that counts locks per handle and may, at any call, move the blocks that are not locked; a reference obtained by lock is good as long as the block has not moved since. | refinement for every choice of movements: a reference carries the place the block had, and using it after the block moved is undefined; locks are counted |
| `Algo` | Model of the general algorithms of /repo/src/estd/algorithm.h and /repo/src/estd/internal/algorithm/raw.h (the branch taken when FEATURE_ESTD_ALGORITHM_OPT is undefined, its state in this commit: internal/feature/algorithm.h:21-23). Memory is an array (a list); iterators are indices. Accesses outside the array are UB, and so is a range whose end precedes its beginning (the C++ loop then runs away through memory). | loop invariants over index-addressed memory; Permutation for the sorts and partitions |
| `Aln` | Model of the storage in which the library constructs objects: where, inside an object of the class, the bytes for a value begin, and how large and how strictly aligned the class is. /repo/src/estd/internal/variant/storage.h:39-100,264-269, internal/variadic.h:53-70, internal/optional.h:77-107,191-192, internal/expected.h:95-114, expected.h:60-64, internal/variant.h:59,158, internal/array.h:26-73, allocators/fixed.h:93,361-369, internal/impl/dynamic_array.h:101-118,246-250, internal/deduce_fixed_size.h:17-38, internal/container/unordered/traits.h:64-104, internal/container/unordered/base.h:33-61, internal/bip/buffer.h:73-96, internal/memory/v1/pool.h, internal/raw/type_traits.h:199-216, memory.h:50-110,341-380, internal/value_evaporator.h:211-225,257-283. The layout rules are those of the usual ABIs: members in order of declaration, base classes first, each at the next multiple of its alignment; a class is as strictly aligned as its most strictly aligned member. Empty bases take no room; the reuse of a base's tail padding is not modelled. | the storage classes as layouts (sizes, alignments, offsets) under the usual layout rules, in Aln_Model; room, overlap and alignment as divisibility in Aln_Spec; powers of two divide larger ones; refutations by two addresses closer than the alignment |
| `Ard` | Model of the Arduino operators on estd strings: /repo/src/estd/port/arduino/string.h. strlen_P and memcpy_P are modelled from their documentation: the text in flash is a list of characters other than 0, and they read it. The text's length fits an int. operator+=(basic_string&, const String&), string.h:57-65, is not modelled: it passes a char* where String::getBytes takes an unsigned char*, so it does not compile for strings of char. | the operators of port/arduino/string.h over Dyn_Model; equal to append on every string after a history; beyond the range of size_type the copy leaves the buffer |
| `Arr` | Model of array, of the older array windows, of the small maps and of stack: /repo/src/estd/internal/array.h, array.h, internal/fwd/array.h, internal/legacy/array.h (layer2 and layer3 arrays), map.h (layer1 to layer3), stack.h. Simplifications: a cell of an array that was never given a value is None, reading it is undefined; the begin() .. end() loops are loops over indices. | refinement: every program over arrays, windows, maps and stacks is followed step by step on lists; a cell never written is None and reading it undefined |
| `Bip` | Model of the bip buffer. /repo/src/estd/ext/willemt/bipbuffer/bipbuffer.c, bipbuffer.h /repo/src/estd/internal/bip/buffer.h (offer_begin / offer_end, layer1::bipbuf) Bytes are an abstract type B. int/unsigned are 32 bits, unsigned long 64 bits (on a 32-bit [long] the computed values are the same for capacities < 2^31). | layout invariant and abstraction to a byte FIFO; induction over histories |
| `Bipsb` | Model of the stream buffers that keep their characters in a bip buffer, /repo/src/estd/internal/impl/streambuf/bipbuf.h, under the wrapper /repo/src/estd/streambuf.h and internal/impl/streambuf/helpers.h. char_type is char, of values -128..127; len > 0, so that the bip buffer is a layer1 one. Allocation, traits signals and seeking are not modelled. | refinement to the sequence of accepted and delivered characters, for every behaviour of the wrapped buffer |
| `Bits` | Model of flags.h, internal/raw/cstddef.h (byte) and limits.h, internal/limits/integer.h. | bitwise reasoning (testbit) with the range of a type as a condition on the shifted value; digit bounds by induction on numerals |
| `Cb` | internal/functional.h detail::function (the function that does not own its model), thisify_function and contextify_function, the models of internal/impl/functional/fnptr1.h and fnptr2.h, of internal/impl/functional.h and exp/functional.h static_function. One call site of the library per definition; a model is an object at an address with the pointer to its exec function and its data. fnptr1 keeps a pointer to a member function and fnptr2 (the default, internal/fwd/functional.h:30-31) a pointer to a function with the model as its first argument: both are [exec]. Objects whose methods are bound are taken to live as long as they are called. | invariant over all histories that ties each model object to the kind and the earlier calls of the callable it stands for; induction on the history; symbolic execution for the refutations |
| `Charconv` | Model of integer <-> text conversion: /repo/src/estd/charconv.h, internal/charconv.hpp, internal/charconv/from_chars.hpp, internal/charconv/reverse.hpp, internal/locale/cbase.h, internal/raise_and_add.h, internal/to_string.h and internal/limits/{traits,integer}.h. Characters are their codes (Z); a text is the list of characters of [first,last); pointers are indices from first. Integer types are given by width and signedness. The overflow builtins (raise_and_add.h:8, FEATURE_TOOLCHAIN_OVERFLOW_BUILTIN) are assumed to be available; the branch for other tool chains is in Novf_Model.v. | induction on digits, arithmetic modulo 2^w |
| `Chrono` | Model of estd::chrono::duration with an integer representation (internal/chrono/duration.h, operators.hpp, math.h, ratio.h), of the conversion it inherits (internal/units/base.h), of promoted_type (internal/promoted_type.h), of hh_mm_ss and year_month_day (internal/chrono/formatter.hpp) and of year, month and day (internal/chrono/units.hpp). A duration type is its Rep and its Period as given (not reduced). The outer option is None where the program does not compile. int is 32 bits and std::intmax_t 64. | integer arithmetic with gcd and lcm; the calendar by exhaustive division lemmas |
| `Conv` | Model of the older text conversions and of the logging stand-in: /repo/src/estd/internal/string_convert.h and string_convert.cpp (fromString, validateString, maxStringLength, legacy::from_chars), internal/to_string.h string_convert_traits, and internal/utility.cpp with port/esp-idf/fake/esp_log.h (esp_log_write, esp_log_set_vprintf). char is signed and has 8 bits, int 32 bits; w is the width of long. A pointer is the list of characters from it to the end of the array it points into; a read beyond that is undefined. atoi, strtol, strtoul, isdigit, strlen and vprintf are those of the C standard, in the C locale, for the bases 2 to 36. The features FEATURE_ESTD_STRING_LEGACY_VALIDATION and _FROM_CHARS are on and VALIDATE_FEATURE_NULLCHECK is off. The float, double and sprintf variants are not modelled. | the C library functions defined from the C standard on lists of characters; structural induction on the text, its digits and the call history |
| `Ctype` | Model of character classification: /repo/src/estd/cctype.h, internal/cctype.h, internal/locale/ctype.h, locale.h:65-69 and the digits of internal/locale/cbase.h (whose from_char, to_char and is_in_base are in Charconv_Model). Characters are their codes. | classes spelled out as character lists; finite sweeps proved to cover every character and base, range arguments outside |
| `Deque` | Model of layer1::deque<T, N> and the queue adaptor on it: /repo/src/estd/queue.h. Pointers into m_array are indices; one past the end is N. Each slot keeps whether its object is alive: pop_* destroys the object, push_back(const&) assigns to it, which is undefined for a destroyed object unless T is trivial ([triv]). The array's objects are alive at first (array<T, N> default-initialises them; [d] is their value). The move constructor: Dmv_Model.v. | refinement to a bounded list, with object lifetimes; induction over histories |
| `Dev` | Model of streams over devices: the Arduino and POSIX stream buffers behind internal::streambuf, and the parts of basic_istream and basic_ostream that call them. Arduino's Stream (read, peek, available, readBytes, write) and stdio's fwrite and fputc are modelled from their documentation: a queue of received bytes, a sequence of sent ones, and a number of accepted characters chosen by the device. available() and counts fit their types. Input through posix_streambuf is not modelled: streambuf::sgetc and, through it, sbumpc need an xsgetc() that posix_streambuf lacks, so they do not compile. | refinement of a queue of received bytes (output: a sequence of sent ones) for every interleaving of arrivals and every number of accepted characters |
| `Dmv` | Model of a layer1::deque, or the queue on it, made by its move constructor: /repo/src/estd/queue.h. m_front and m_back are pointers (internal/array.h:135), so a pointer says in whose array it points. [left v]: the value a move leaves in an object holding v (v itself for types without a move constructor). The two arrays are not adjacent: a pointer into one never equals a pointer into the other. | deque(deque&&) with pointers that say in whose array they point: size by the invariant of C19; the refutations follow the pointers, which never leave the old array |
| `Dput` | Model of operator<< for double: /repo/src/estd/internal/units/ostream.h:12-30, on a span stream. double is IEEE 754 binary64; the arithmetic is that of Flt_Model, the two zeros are not told apart (neither does the code). | the two-decimal insertion of double over the rounding of Flt and the insertions of Ostream; that rounding x*100 does not cross a whole number from the spacing of the format |
| `Dyn` | Model of internal::dynamic_array (vector and string) over a fixed buffer: /repo/src/estd/internal/dynamic_array.h, internal/impl/dynamic_array.h, internal/runtime_array.h, internal/container/specializer.h, allocators/fixed.h and allocators/handle_desc.h, as instantiated by layer1/layer2/layer3 vector and string (a "singular" allocator: one buffer that is always allocated and never moves). Simplifications: elements are trivially copyable (others: Life_Model.v); int and unsigned hold every buffer length; pointers are indices into the buffer. | refinement of buffer operations to list operations; UB outside the buffer |
| `Evg` | Model of the FreeRTOS event groups: port/freertos/event_groups.h and wrapper/event_groups.h. A task is a list of operations; a schedule is any list of turns. The operating system's event group is modelled by its documentation (and event_groups.c of FreeRTOS 10): an operation takes effect in one atomic step, a task that has to wait is woken by the operation that sets the flags it waits for, or its turn says that its time is over. Priorities are left open. The calls from interrupts (wrapper/event_groups.h:50-53, 69-73), which event_groups.h does not change, and the limit of 8 or 24 flags are not modelled. | tasks over an atomic event group, schedules as any lists of turns; an invariant links waiters to their operations; the meeting point has its own invariant |
| `Evp` | Model of internal/value_evaporator.h: value_evaporator, struct_evaporator, reference_evaporator, instance_provider, instance_from_pointer_provider, global_provider, literal_provider and temporary_provider. An object of one of these classes is a cell. Variables have an address for as long as they live; the address of a temporary is dead after the expression. Simplified: the values are copied and not moved; value() of a holder yields a value to read or a place to write, never a pointer that is kept (so pointer_from_instance_provider, value_evaporator.h:302-317, is not modelled); one sort of holder per class is taken for all that work alike: - Own: value_evaporator<T, true> (:38-56), struct_evaporator<T, true> (:84-114), instance_provider<T> (:211-247; a copy of one that is not const does not compile, for the constructor from any arguments, :238, is chosen); - Reference: instance_from_pointer_provider<T> (:286-300), reference_evaporator<T, true> (:144-171; no value_ptr), global_provider<T&, v> (:180-191) and global_pointer_provider (:196-202), whose variable never ends; - Nothing: value_evaporator<T, false, E, v> (:20-36), struct_evaporator<T, false> (:68-82), reference_evaporator<T, false> (:120-142), literal_provider (:204-209) and temporary_provider (:320-326). | Holders as cells and variables with a lifetime; the specification tells what a holder has from the past operations, latest first (value last set in it, variable referred to and what that was last given); refinement of the model against it by induction over histories. |
| `Exp` | Model of estd::expected<T, E>, /repo/src/estd/expected.h and /repo/src/estd/internal/expected.h. The storage is variant_storage<T, E> (internal/expected.h:114) with VALUE = 0, ERROR = 1; the tag of a variable is has_value_ (expected.h:60). T = void is stored as monostate (internal/expected.h:101), an ordinary trivial type. The copy assignment of expected is deleted (a move constructor is declared), so it does not exist here. | invariant "exactly one alternative alive", simulation of a value-level specification |
| `Flt` | Model of operator>> for float and double: the floating point side of /repo/src/estd/internal/locale/iterated/num_get.h, its driver in internal/locale/num_get.h and operator>> of istream.h, on a span stream. The other num_get::get, over a range of characters (num_get.h:262-265), does not compile for them: it instantiates bases 8 and 16, which iterated/num_get.h:95 rejects. | IEEE 754 arithmetic as correctly rounded integers of the smallest unit, computable; the rounding function proved to give the nearest number of the format, ties to even, in rationals; exactness of the integer steps by induction on the digits, the general error by induction with Bernoulli bounds |
| `Fnt` | Model of internal/functional/function_traits.h (ft), internal/common_type.h (ct), internal/cstdlib.h (cs) and system_error.h (se) of /repo/src/estd. errc is the number it holds (internal/enum.h:25-53 compares and converts it as such). A template that has no such member type, or does not compile, is None. | the usual arithmetic conversions as a semilattice on promoted types (decided by computation over three size comparisons), induction on the list of types; arithmetic |
| `Fun` | Model of the owning estd::experimental::function and of inline_function, /repo/src/estd/functional.h:104-298, over detail::function (internal/functional.h:166-229) and the models of internal/impl/functional/fnptr2.h:16-105 (the default; fnptr1.h:24-105 runs the same way). A callable is a functor with a state of type St; calling it is step. Moving a callable into a function is moving its state. Function variables are numbered; the heap holds the objects made by new model_type. The deleter stored beside the pointer travels with it on copy and move (lines 150, 212, 218), so it always has the type of the object: it is not stored here. The allocator, which the code does not use (line 181), and a throwing new are not modelled. | ownership invariant (disjoint chains of heap objects covering all live ones), simulation of a unique-owner specification |
| `Gct` | Model of gcount: /repo/src/estd/internal/istream.h with FEATURE_ESTD_IOS_GCOUNT, its default (internal/feature/ios.h:5-6), over the input functions of Istream_Model.v, which leave it out. streamsize is int (iosfwd.h:65): to count beyond 2^31 - 1 is undefined. | the input functions of Istream with the counter beside the stream; the counter of loops by induction on their passes |
| `Grow` | Model of vectors and strings over an allocator that can allocate and reallocate (as _allocator of /repo/test/catch/mem.h:127-166: malloc, realloc): estd::vector<T, Alloc>, basic_string<char, Traits, Alloc>. /repo/src/estd/internal/dynamic_array.h, internal/runtime_array.h, internal/impl/dynamic_array.h (explicitly sized, :100-155, :256-330), allocators/handle_desc.h:36-88, internal/impl/handle_desc.h:190-275, internal/container/specializer.h:68-215. Simplifications: sizes are unbounded (memory runs out before size_t does); the address of a dereferenced pointer is the pointer, also of a null handle (&*p), only reading or writing there is undefined; loops that copy a range are one step; lock and unlock of this kind of allocator do nothing; moving a cell nobody wrote moves it as it is. erase moves bytes: modelled for elements of one byte (others: Dyn_Model.v, C181). | invariant: every container holds its elements in a block of its own and every live block is held, preserved by every operation for every choice of the allocator; a frame condition says that the blocks of others are untouched |
| `Hash` | Model of internal/functional/hash.h, internal/string/hash.h and bit.h. | arithmetic modulo 2^w, induction over bytes |
| `Heap` | Model of the k-ary heap algorithms and of the priority queue. /repo/src/estd/internal/algorithm/heap.h /repo/src/estd/internal/algorithm/raw.h /repo/src/estd/internal/priority_queue.h The range [first_, last_) is the first [n] elements of an array (a list); iterators are indices into it. Dereferencing outside the array is UB. Simplification (all definitions): the C++ computes indices in [int]; here they are unbounded naturals, so overflow of [int] for ranges of 2^31 elements or more is not modelled. | heap-except-one-position invariants, Permutation; priority queue refined to a multiset over histories |
| `Ios` | Model of the stream state: /repo/src/estd/internal/ios_base.h and the fill character of internal/ostream.h. FEATURE_ESTD_AGGRESSIVE_BITFIELD and FEATURE_ESTD_OSTREAM_OCTAL are on (internal/feature/ios.h, the defaults), so the fields have 8, 4 and 4 bits. Flag words are uint8_t: the numbers 0..255. | bit arithmetic; induction over histories of calls |
| `Istream` | Model of the unformatted input functions: /repo/src/estd/internal/istream.h and ws of /repo/src/estd/istream.h, on a span buffer. gcount is left out, see Gct_Model.v. | refinement to the list of remaining characters |
| `Itr` | Model of the iterators and element proxies of vector and string: /repo/src/estd/internal/container/iterator.h (locking_iterator), internal/container/traditional_accessor.h, internal/container/locking_accessor.h, internal/runtime_array.h:213-347 (begin, end, operator[], at, front, back) and internal/dynamic_array.h:646-698 (erase and insert through an iterator), over the containers of Dyn_Model.v. fixed.h:86-88 makes the iterator of these containers a locking_iterator over a traditional_accessor, that is over a pointer to the element. Simplifications: as in Dyn_Model.v; a pointer is an index into the buffer, and one past its end is a pointer too. | refinement: every program over iterator and proxy variables is followed step by step on an ideal list with places; loops by induction on the part of the list still ahead |
| `Life` | Model of the lifetimes of a vector's elements when they are objects of a class with its own constructors, assignment operators and destructor (neither trivial nor trivially copyable): /repo/src/estd/internal/dynamic_array.h, internal/runtime_array.h, internal/impl/dynamic_array.h, internal/impl/handle_desc.h, internal/container/specializer.h, allocators/fixed.h, internal/array.h, as instantiated by estd::layer1/layer2/layer3::vector and by estd::vector over an allocator that can reallocate. A slot of the storage holds no object, an object, or the bytes of an object that was copied there without running a constructor. Assigning to, reading, or destroying a slot without an object is undefined; constructing over an object is allowed and ends it without its destructor. Simplifications: size_type holds every size that occurs; allocation succeeds (failure: Grow_Model.v); constructors and assignments do not throw and keep the value they are given; lock and unlock of these allocators do nothing. Trivial elements are Dyn_Model.v and Grow_Model.v. | slots that hold no object, an object, or bytes, and a log of constructor and destructor calls; histories by induction with an invariant on the storage; the loops that shift elements by induction from the last; refutations from every reachable state |
| `Lit` | Model of the predefined durations (internal/chrono/duration.h:114-132, internal/fwd/chrono.h:94-118), of the literals ""s, ""ms, ""us and ""ns (port/chrono.h:37-55) and of min(), max() and zero() of a duration (internal/chrono/duration.h:25-31, 107-110). The literals exist with GCC only. | The predefined durations as a table of representations (both precisions) and periods, compared with a specification that gives the length of each unit as a rational number of seconds; literals and conversions by the general results on conversion (module Chrono) with their side conditions discharged for every pair of units. |
| `Lkd` | Model of the containers of characters over an allocator whose memory must be locked to be touched: /repo/src/estd/internal/runtime_array.h (allocated_array), internal/dynamic_array.h, internal/container/specializer.h (dynamic_array_helper), internal/impl/dynamic_array.h, internal/impl/handle_desc.h, internal/string.h. The repository has no such allocator: modelled is any allocator that may, at every call, move the memory that is not locked and, when it makes memory larger or smaller, that one too; an address is good as long as its memory has not moved since. nest: locks are counted (true), or the first unlock releases the memory (false). Simplified: memory is never refused; the memory of container k is called k; loops that touch memory without a call of the allocator in between are one access of all they may touch (the element by element versions are in Str_Model.v, Dyn_Model.v and Grow_Model.v); elements are one byte. | an allocator given by two unknown functions (when it moves what, what new memory contains); addresses carry the generation of their memory; every operation related to the ideal sequence by a triple that says which locks, generations and contents may change, then induction on the program; lock balance by linear arithmetic over every path |
| `Lnk` | Model of the linked lists. Nodes are numbered; a pointer is None (null) or Some node. The memory keeps each node's next and prev pointers and which nodes have been given back to the allocator: dereferencing null or such a node is UB. [own]: the list allocates its nodes (ValueNode, inlinevalue traits); otherwise the nodes are the user's (intrusive). An operation that allocates takes the node the allocator chose as an argument. Payloads are in Nlife_Model.v: no list function writes one after construction. | path predicates (reachability) over a pointer heap, refinement to lists |
| `Lock` | Model of the locks: mutex.h (lock_guard, unique_lock) over the mutexes of port/std/mutex.h (std::mutex) and port/freertos/mutex.h, and the semaphores of port/freertos/semaphore.h. A thread is a block of C++ code, its scopes and exceptions included; a schedule is any list of thread numbers, and each turn of a thread is one atomic step. An update of a shared variable (v = v + 1) takes two steps, a read and a write. The operating system's mutexes are modelled by their documentation: lock() of a mutex another thread holds waits; std::mutex may not be locked again by its owner, nor unlocked by anyone else. Priorities, time and interrupts are not modelled. | invariant of guarded programs over all schedules (pending destructors = locks held); measure for termination; maximal waited-for mutex for absence of deadlock |
| `Mp` | exp/memory/memory_pool.h memory_pool_1 (handles) and memory_pool2.h:31-105 memory_pool<linked_list>. Calls, answers and rules are those of Pool_Spec: Emplace is construct, Erase is destroy. A block's contents are one value of type A. The shared_ptr specialisation is in Psp_Model; the node lists that users build over the storage are not modelled; memory_pool_ll is memory_pool_1 with pointers. | the free list is a chain whose blocks and the live blocks are a permutation of all blocks; induction on the trace; modular arithmetic for the end marker and the alignment |
| `Mq` | Model of the FreeRTOS message queues: port/freertos/queue.h and wrapper/queue.h, and of this_thread::sleep_for, port/freertos/thread.h. A task is a list of operations; a schedule is any list of turns. The operating system's queue is modelled by its documentation: an operation takes effect in one atomic step, messages are copied byte by byte, a task that has to wait tries again at each of its turns until its time is over; a turn says whether it is. Priorities and the order in which waiting tasks are woken are left open, so the theorems hold for all of them. peek, overwrite, reset and the queue registry of the wrapper, which queue.h does not use, are not modelled; xHigherPriorityTaskWoken is not modelled. | simulation by an ideal queue over all schedules; balance of sends and receives as the invariant of progress, number of operations left as the measure; symbolic execution of object lifetimes; rational arithmetic for ticks |
| `Nlife` | Model of the values of the linked lists that allocate their nodes: /repo/src/estd/traits/list_node.h ValueNode (39-67) and the node traits (142-305) under forward_list.h and list.h, whose links are modelled in Lnk_Model.v. A node's storage holds an object, numbered in the order in which they are made, with a value; the destructors run are recorded. Elements cannot be assigned to: operator* of the iterators gives a const reference (nv_ref_t, traits/list_node.h:229). | an object and a value per node beside the links of Lnk; induction on the history, for both kinds of list at once |
| `Novf` | Model of reading integers on tool chains without the overflow builtins (/repo/src/estd/internal/raise_and_add.h:44-63, FEATURE_TOOLCHAIN_OVERFLOW_BUILTIN = 0): from_chars (internal/charconv/from_chars.hpp) and the iterated num_get with its drivers (internal/locale/iterated/num_get.h, internal/locale/num_get.h, istream.h). Apart from multiplying and adding, these are as in Charconv_Model.v and Numio_Model.v. int has 32 bits. | the accumulator as a residue: induction over the digits with wrap as a ring homomorphism for types that wrap, and with the bound on the partial number for int and wider; the stream driver follows the range driver |
| `Numio` | Model of formatted input: the iterated num_get of /repo/src/estd/internal/locale/iterated/num_get.h (integers and bool), its drivers in internal/locale/num_get.h, internal/chooser.h and operator>> of istream.h, on a span stream. Floating point is in Flt_Model.v. The overflow builtins are available (otherwise: Novf_Model.v). | induction over the characters of the input |
| `Obs` | Model of src/estd/exp/observer.h. Objects outside the subjects live at addresses and all have states of one type S, values of one type V and contexts of one type C: the code lets each differ. A call is recorded with its recipient, the notification and whether a context was passed. Handlers that notify again or that throw are not modelled, nor is moving observers into a subject (lines 279-287), whose observers are written with the state they have once stored. container_subject (186-209) has no way to be given an observer and void_subject (515-522) does nothing: not modelled. | subjects are flattened into the list of their recipients with the gates (proxies) in front of each; one notification is shown to act pointwise on that list, histories follow by induction |
| `Opt` | Model of estd::optional, /repo/src/estd/optional.h and /repo/src/estd/internal/optional.h. The storage is variant_storage<T, monostate> (internal/optional.h:108), modelled by Vst_Model; the tag of a variable is initialized_ (internal/optional.h:79). optional<T&> and optional<void> do not exist. layer1::optional is at the end. | invariant "engaged iff alive", simulation of a value-level specification over histories |
| `Ostream` | Model of formatted and unformatted output to a span stream: /repo/src/estd/internal/ostream.h, internal/ostream/integer.h, ostream.h, the string insertion of internal/ostream_basic_string.hpp, and internal/locale/num_put.h. char is signed. FEATURE_ESTD_OSTREAM_SETW and FEATURE_ESTD_OSTREAM_OCTAL are on (the defaults). sentry::destroy flushes when unitbuf is set; sync of a span buffer is base.h's, which answers 0 and does nothing, so it is left out. | direct computation, case analysis of the flags, finite sweeps of the character domain |
| `Pgm` | Model of strings and arrays in AVR program memory: /repo/src/estd/exp/pgm (read.h, accessor.h, policy.h, impl.h, array.h, string.h), with the parts of internal/runtime_array.h, internal/string.h, internal/container/specializer.h and internal/ostream_basic_string.hpp they go through. Program memory is a list of bytes; an address is a position in it; reading outside it is UB, reading outside one object but inside the memory gives what lies there. The avr-libc functions memcpy_P, strnlen_P and strncmp_P are modelled as documented; the near reads of one, two and four bytes (read.h:30-78) are the same as memcpy_P of that many bytes. Addresses are taken to fit 16 bits, so address arithmetic does not wrap. | elements of an object as a slice of the bytes of program memory, induction on the elements |
| `Pool` | Model of the fixed memory pool: /repo/src/estd/internal/memory/v1/pool.h. A block is a union of the free-list link and the client's bytes: writing one loses the other, and reading the link of a block that holds none is UB. control* is the block's position; storage_ is the list of blocks. A block's contents are one value of type A (its bytes as a whole), so a client's partial write is not told from a full one. Where the blocks lie and how they are aligned is in Aln_Model. | free-list invariant, refinement to a set of live blocks |
| `Psp` | Shared pointers that live in a pool: exp/memory/memory_pool.h memory_pool_1<layer1::shared_ptr<T>, N> (:49-122 the specialisation, :411-500, :565-583 make_shared) with memory.h's layer1 pointers in its blocks and layer3 pointers to them. Block b of the pool holds master b of Sptr_Model, whose followers are used unchanged; a block that is not in use holds no master, and reading one is undefined. w: the width of the count, 16 in the code. kept: whether what was written to a block before its pointer was constructed in it is still there afterwards; the language says it is not. The managed object is represented by its lifetime: w_dead lists the calls of its destructor. | memory_pool_1 of layer1 shared pointers: the pointers of Sptr in the blocks of Mp, with the deleter that calls back into the pool; histories by simulating each call by calls of Sptr and of the pool |
| `Ratio` | Model of ratio.h and of gcd and lcm in internal/numeric.h: compile time arithmetic on std::intmax_t (64 bits). None: the program does not compile (an overflow or a division by zero in a constant expression). A ratio is its two template arguments. | gcd and lcm lemmas; overflow as non-compilation |
| `Ref` | Model of internal/linked_ref.h. An owner is a node of Lnk_Model's memory (its next_), with value_ beside it; a destroyed owner counts as given back, so touching it is UB. [null] is Traits::null and the log records the calls of Traits::destruct, in order. make_weak (158-167) does not compile when used (it passes the const *this to insert_after's non-const reference) and is not modelled; so no weak owner exists, but is_weak is. With the default Traits the destructor does not compile (it calls destruct, they define destroy). | ring invariant, refinement to the set of owners; induction over histories |
| `Sbit` | Model of the stream buffer iterators: /repo/src/estd/internal/istreambuf_iterator.h with the comparisons of iterator.h:22-56, ostreambuf_iterator (iterator.h:66-126), filter_iterator (iterator.h:130-169) and distance (internal/iterator_standalone.h:36-51), over the span stream buffers of Streambuf_Model.v. The buffer is shared by all iterators on it and is passed along; an iterator itself is whether its rdbuf_ is not null. | iterators as a null or non-null pointer beside the buffer of Streambuf; loops with fuel, induction on the characters left |
| `Sch` | Model of how estd::chrono meets std::chrono: the constructor of duration from an std::chrono::duration and the conversion back (internal/chrono/duration.h, internal/chrono/duration.hpp), the constructor of time_point from an std::chrono::time_point (internal/chrono/time_point.h), duration_cast of an std::chrono::duration and the operators on an std::chrono::time_point and an estd duration (port/std/chrono.h). An std duration or time point is its count of ticks; its type is a Rep and a Period, as for estd (Chrono_Model.v). What std::chrono itself does is modelled as the C++ standard has it. Simplified: integer representations and positive periods only; that the standard library takes an estd::ratio where it expects an std::ratio (duration.hpp:47) is taken for granted, which depends on its age. | the conversions and operators of estd over the std::chrono operations of the C++ standard, in Sch_Model; ticks as fractions of seconds in Sch_Spec; uniqueness of lowest terms and exactness of the products |
| `Slp` | Model of estd::this_thread::sleep_for of the FreeRTOS and Arduino ports: the count that is handed to the platform's own delay. The platform's delay itself is in Slp_Spec.v. | rational arithmetic over C162; the documented behaviour of vTaskDelay and delay is in Slp_Spec |
| `Span` | Model of estd::span, /repo/src/estd/span.h. One array m (a list) is the object all pointers of a program point into; a pointer is null or a position 0..length m of it. Moving a pointer outside these bounds, and dereferencing a null or one-past-the-end pointer, is UB. size_type is the unsigned type with values 0 .. M-1 (M = 2^bits, a parameter: 16, 32 and 64 bit targets are covered). Simplification: several arrays at once are not modelled (a span never relates two arrays); element types are any type A, and for the byte views a fixed encoding enc of an element as sizeof(T) bytes. | pointer arithmetic within an array; refinement to sublists |
| `Sptr` | Model of layer1, layer2 and layer3 shared_ptr, /repo/src/estd/memory.h. A layer1 or layer2 pointer ("master") contains its control block; a layer3 pointer ("follower") points to one or is null. Masters and followers are numbered variables; block b is that of master b. w is the width of the count, 16 in the code (memory.h:62, uint16_t). The deleter ends the life of the managed object; nothing else of it is modelled, nor is weak_ptr, which has no operations (memory.h:164-173). | counting invariant (count = number of owners), simulation of an ownership specification over histories |
| `Sstr` | Model of the string stream buffers behind ostringstream, istringstream and stringstream: /repo/src/estd/internal/impl/streambuf/string.h over pos.h and base.h, under the wrapper /repo/src/estd/streambuf.h; sstream.h only names instances. The string is a string of fixed capacity as in Dyn_Model (layer1, layer2, layer3). The position is an unsigned short (pos.h:71). Character traits as in Streambuf_Model. | refinement to a text and a read position; induction over histories |
| `Str` | Model of the queries of strings and string views: /repo/src/estd/internal/string.h, internal/runtime_array.h, internal/container/specializer.h, internal/container/starts_with.h, ends_with.h, traits/char_traits.h, string_view.h, allocators/fixed.h. Characters are integers (the value of the char). A string is seen as the memory readable from data() on and its size(). Simplifications: lengths fit int and unsigned; a pointer outside the storage is undefined when used, not when formed, except where noted. | refinement to list functions |
| `Streambuf` | Model of the span stream buffers: /repo/src/estd/internal/impl/streambuf/{span,pos,base, helpers,buffer}.h under the wrapper /repo/src/estd/streambuf.h, and of internal/istreambuf_iterator.h. Characters are char values, -128..127. Two character traits are modelled: std::char_traits<char> (int_type int, to_int_type through unsigned char), used when <string> exists, and the library's own (traits/char_traits.h:19-37: int_type int16_t, to_int_type by sign extension). | refinement to a position in a character array |
| `Swap` | Model of estd::swap, /repo/src/estd/utility.h:182-227, and iter_swap. Two objects are two positions of one array, so that swapping an object with itself (a = b) is represented. Accesses outside the array are UB. | case analysis on aliasing |
| `Timep` | Model of estd::chrono::time_point (internal/chrono/time_point.h and internal/chrono/operators.hpp:107-151) and of the product of a duration and a number (internal/chrono/operators.hpp:36-46, internal/chrono/duration.h:92-96). A time point is the count of its duration, its clock a type that is never used. Conversion from a std::chrono::time_point is in Sch_Model.v. The outer option is None where the program does not compile, as in Chrono_Model. | induction over histories of steps; modular arithmetic |
| `Tmr` | Model of the FreeRTOS timers: port/freertos/timer.h and wrapper/timer.h. The operating system's timer service is modelled by its documentation (timers.c of FreeRTOS 10): the calls only put a command into a queue, a task of the operating system takes the commands in order and runs the callbacks of the timers that are due. The tick count is a number that does not wrap around; a call that finds the queue full for all of its block time says so (ok = false in the act). Names, ids, the calls from interrupts and pend_function_call are not modelled. | acts of program, timer task and time in any order; an invariant ties objects, pending commands and memory together; a view of one timer is followed by induction over the acts |
| `Tt` | Model of the type traits: internal/raw/type_traits.h (raw), type_traits.h (tt), internal/llvm_type_traits.h (llvm), internal/llvm/is_void.h, internal/type_traits/{is_function, is_member,is_base_of,make_unsigned}.h, internal/utility/{forward,declval}.h of /repo/src/estd, as C++11 or later compiles them. A trait is a function of types, a template with partial specializations a table of patterns (Tt_Lang.choose). None stands for "no such type": the instantiation is an error, or there is no member type. Not modelled: the traits that ask the compiler (is_empty, is_trivial, underlying_type, alignment_of), those built on expressions (is_convertible, is_constructible, is_assignable, invoke_result) and common_type (for integers: Chrono_Model). | types as a grammar, specializations as patterns; case analysis and induction on types against relational specifications |
| `Tup` | Model of the parameter pack tools, tuple and pair: /repo/src/estd/internal/variadic/{type_sequence,integer_sequence,selector,visitor}.h, internal/variadic.h, internal/utility/sequence.h, internal/tuple.h, internal/tuple/{get,apply, make,sparse}.h and utility.h. A type is a number (two types are the same exactly when the numbers are); a parameter pack is a list. A use that does not compile is None. | induction over parameter packs |
| `Ueq` | Model of operator== of unordered_map and unordered_set: internal/container/unordered/base.h, on the tables of Unordered_Model.v. | induction over the slots: what the two iterators see is the list of keys that are not null |
| `Ulife` | Model of unordered_map whose mapped values, and then also keys, are objects of a class with a destructor: /repo/src/estd/internal/container/unordered_map.h, unordered/base.h and unordered/traits.h. The slots and the search in them are those of Unordered_Model.v. Added here: in which slots an object of the mapped type lives, and in which the key is an object. An object is made by a placement new and dies by a call of its destructor; calling a destructor, assigning or swapping where no object lives is undefined. A placement new over a live object ends that object without its destructor: it is lost. Objects are numbered in the order in which they are made. Simplifications: constructors and destructors of the mapped type do not fail and have no other effects; [bytes v] are the bytes of an object of value [v], [dead v] what its destructor leaves of them, both arbitrary. | the slots of Unordered with the object living in each, numbered; the invariant of Unordered plus: an object exactly in the slots with a key, and the numbers made are a permutation of those dead and those living |
| `Units` | Model of units (internal/units/base.h, operators.hpp, common_type.h, bytes.h, percent.h, si.h, ostream.h) with integer representations. A unit type is Rep, Period as given (not reduced) and projector F; its value is rep_ (root_count()). The tag is left out: units of different tags do not mix (they do not compile). The outer option is None where the program does not compile. Floating point counts, compound units (base.h:61-86) and unit_traits are not modelled; FEATURE_ESTD_DEBUG_CONVERT_FROM is off. | reduction to the conversion of durations; modular arithmetic; refinement of the text to a list |
| `Unordered` | Model of unordered_map and unordered_set: /repo/src/estd/internal/container/unordered/base.h, unordered/traits.h, unordered_map.h and unordered_set.h. The container is a list of slots, pointers into it are indices. Reading a slot outside the container is undefined. Key types: equality [keqb] (both KeyEqual and the operator== used by nullable_traits), the null key K{} [null], the hash function [hash] with results of [w] bits. Simplifications: keys and mapped values are trivial types, so destructors do nothing (class types are in Ulife_Model.v); the number of slots fits unsigned and is not zero; lookups use the key type itself. | bucket invariant (probing order), refinement to a finite map over histories |
| `Var` | Model of estd::variant, /repo/src/estd/internal/variant.h and /repo/src/estd/variant.h. The tag of a variable is index_ (internal/variant.h:158); None is variant_npos. | invariant "the object of the index is alive", simulation of a value-level specification over histories |
| `Vm` | exp/memory/memory_pool2.h:127-382 virtual_memory<N, N_Handles>. The storage is bytes, each of which is a byte of the user or belongs to the item (the header of a free chunk) that was last written over it. Reading an item some of whose bytes were written over is undefined here (the program would use the user's bytes as a pointer and a size). hdr is sizeof(item). Pointers into the storage are offsets. Alignment of items is not modelled, and the sizes are taken to be below the range of unsigned. | byte-level memory in which a header is readable while none of its bytes was overwritten; simulation of the ideal allocator whose chunks and regions cover each byte exactly once; induction on the history and on the free list |
| `Vst` | Model of estd::internal::variant_storage_base (/repo/src/estd/internal/variant/storage.h) and of the visitor it uses (internal/variadic/visitor.h): raw memory that may hold one object of one of several types. variant, optional and expected are built on it. C++ programs are modelled as functions from a world (a numbered table of objects plus a log of the constructor and destructor runs) to an outcome: Val a w finished with result a; Thrown w an exception left the call, the world being w; Abort std::abort() was called; Undef undefined behaviour: destroying, reading or assigning an object that is not alive, or using a variable that does not exist. | program logic for constructor/destructor logs |
| `Wrd` | Model of reading a word and a character: in >> string of /repo/src/estd/internal/istream_runtimearray.hpp and in >> char of /repo/src/estd/istream.h, over the streams of Istream_Model.v and the strings of Dyn_Model.v. Simplifications: gcount is not modelled; the locale is the C locale (locale/ctype.h). | over the stream and string models: the input loop is shown equal to running clear and push_back on the string, then induction on the word and on the list of words |
| `Xch` | Model of estd::exchange and of the construction of a pair: /repo/src/estd/utility.h. Objects are of class type; [husk v] is what moving from an object of value v leaves in it. A returned local is the caller's object (the copy is elided). | objects of class type with their values and the numbers of copies and moves; exchange and the pair constructors of utility.h as sequences of copies and moves; equations by case analysis on object numbers |

## What is not modelled

* The concrete platform layers: `port/` (FreeRTOS, Arduino, ESP-IDF, PGGCC and so on). The locks of
  `port/std` and `port/freertos` and the message queues of the latter are modelled by what the operating
  system documents of its mutexes, semaphores and queues; the operating system itself, thread creation, priorities and clocks are not. sleep_for of FreeRTOS and Arduino is modelled, on top of what their delays document.
* Floating point output except that of Dput, excess precision and other rounding modes, the signs of zeros; locales other than the classic one, wide characters.
* Containers over allocators with real locking: the repository has no such allocator; text containers are modelled over
  an arbitrary one (Lkd), element proxies and handles too (Acc). Vectors of other element types, iterators and streams
  are modelled only over allocators whose lock does nothing.
* Everything not named in the table above; in particular the remaining experimental headers
  (`exp/`), `queue` wrappers around the standard library, and compile-time traits that have
  no run-time effect.
* `string += const String&` (port/arduino/string.h:57-65): it passes a `char*` where Arduino's `String::getBytes` takes an
  `unsigned char*`, so it does not compile for strings of char.
* Exceptions thrown by user code, except in variant, optional and expected, where they are.
* Data races: every model is sequential, except those of the locks and message queues (interleaving of atomic steps; no
  weak memory).

## Properties

Full statements: `properties.jsonl`; theorem names: `MANIFEST.json`.  "proved": the theorems together
are the full statement, with the preconditions it names.  "partial": the statement is false of the
code, and `_refuted` theorems show where.  Where a claim a user would expect holds only under
restrictions, the restricted claim and the unrestricted one are two properties, each naming the other.

| id | property | file | status | how, and what is missing |
|---|---|---|---|---|
| C01 | push_heap restores the heap | `Properties_Heap` | proved | The full statement, by the technique of the module. |
| C02 | pop_heap moves a greatest element to the end | `Properties_Heap` | proved | Every restriction in the statement is needed: without it the claim is false of the code (C164). |
| C03 | make_heap builds a heap from any range | `Properties_Heap` | proved | Every restriction in the statement is needed: without it the claim is false of the code (C165). |
| C04 | priority_queue serves elements in priority order | `Properties_Heap` | proved | The full statement, by the technique of the module. |
| C05 | priority_queue.erase removes exactly one element | `Properties_Heap` | proved | Every restriction in the statement is needed: without it the claim is false of the code (C166). |
| C06 | priority_queue.emplace returns the emplaced element if it does not rise | `Properties_Heap` | proved | Every restriction in the statement is needed: without it the claim is false of the code (C167). |
| C07 | bip buffer is a FIFO of bytes | `Properties_Bip` | proved | Capacity < 2^31 (the API reports sizes as int). |
| C08 | bip buffer accounting and bounds | `Properties_Bip` | proved | The full statement, by the technique of the module. |
| C09 | bip buffer poll never returns bytes that were not offered | `Properties_Bip` | proved | Every restriction in the statement is needed: without it the claim is false of the code (C168). |
| C10 | bip buffer drains to the empty state | `Properties_Bip` | proved | The full statement, by the technique of the module. |
| C11 | to_chars then from_chars is the identity | `Properties_Charconv` | proved | The full statement, by the technique of the module. |
| C12 | from_chars parses the maximal digit prefix (unsigned) | `Properties_Charconv` | proved | Every restriction in the statement is needed: without it the claim is false of the code (C169). |
| C13 | from_chars parses negative numbers (signed) | `Properties_Charconv` | proved | Every restriction in the statement is needed: without it the claim is false of the code (C170). |
| C14 | to_chars writes the canonical numeral inside the buffer | `Properties_Charconv` | proved | Every restriction in the statement is needed: without it the claim is false of the code (C171). |
| C15 | to_string prints every integer correctly | `Properties_Charconv` | proved | Every restriction in the statement is needed: without it the claim is false of the code (C172). |
| C16 | stream integer extraction yields the exact value or saturates | `Properties_Numio` | proved | Full, for character ranges and for operator>> on good streams over texts shorter than 65536 (plain). |
| C17 | stream integer extraction stops right after the number | `Properties_Numio` | proved | Every restriction in the statement is needed: without it the claim is false of the code (C173). |
| C18 | stream integer extraction inverts insertion | `Properties_Numio` | proved | The full statement, with its restrictions. All widths, bases 8/10/16, padding with spaces in front. Missing: the most negative value and long octal numerals (not written by operator<<, C15, C52). |
| C19 | layer1::deque/queue is a FIFO within capacity | `Properties_Deque` | proved | Every restriction in the statement is needed: without it the claim is false of the code (C174). |
| C20 | deque iteration visits the contents in order | `Properties_Deque` | proved | Every restriction in the statement is needed: without it the claim is false of the code (C175). |
| C21 | deque refuses overflow and underflow | `Properties_Deque` | partial | False in every reachable boundary state (capacity > 1): both refutations universal. |
| C22 | deque push_front prepends | `Properties_Deque` | proved | Every restriction in the statement is needed: without it the claim is false of the code (C176). |
| C23 | unordered_map find agrees with the map contents | `Properties_Unordered` | proved | Every restriction in the statement is needed: without it the claim is false of the code (C177). |
| C24 | unordered_map keeps keys unique | `Properties_Unordered` | proved | Every restriction in the statement is needed: without it the claim is false of the code (C178). |
| C25 | unordered_map erase removes only the given key | `Properties_Unordered` | proved | Every restriction in the statement is needed: without it the claim is false of the code (C179). |
| C26 | unordered_set erase removes only the given key | `Properties_Unordered` | proved | Every restriction in the statement is needed: without it the claim is false of the code (C180). |
| C27 | fixed-capacity vector is a sequence | `Properties_Dyn` | proved | Every restriction in the statement is needed: without it the claim is false of the code (C181). |
| C28 | A fixed-capacity container stops in an assert beyond its capacity | `Properties_Dyn` | proved | Every restriction in the statement is needed: without it the claim is false of the code (C182). |
| C29 | string append and copy | `Properties_Dyn` | proved | Every restriction in the statement is needed: without it the claim is false of the code (C183). |
| C30 | string comparison is an equality and a total order | `Properties_Str` | proved | Every restriction in the statement is needed: without it the claim is false of the code (C184). |
| C31 | string find returns the first occurrence | `Properties_Str` | proved | Every restriction in the statement is needed: without it the claim is false of the code (C185). |
| C32 | starts_with / ends_with | `Properties_Str` | proved | Every restriction in the statement is needed: without it the claim is false of the code (C186). |
| C33 | string_view substr clamps | `Properties_Str` | proved | Every restriction in the statement is needed: without it the claim is false of the code (C187). |
| C34 | copy and copy_backward move ranges correctly, also overlapping ones | `Properties_Algo` | proved | The full statement, by the technique of the module. |
| C35 | searching algorithms find the first match | `Properties_Algo` | proved | The full statement, by the technique of the module. |
| C36 | min_element/max_element/clamp/reverse | `Properties_Algo` | proved | The full statement, by the technique of the module. |
| C37 | fixed-pool allocation is exclusive | `Properties_Pool` | proved | Client frees and writes only live blocks; covers alloc/free and typed_pool emplace/erase. |
| C38 | pool operations do not disturb live blocks | `Properties_Pool` | proved | The full statement, by the technique of the module. |
| C39 | intrusive forward list is a sequence | `Properties_Lnk` | proved | The full statement, by the technique of the module. |
| C40 | forward list with back pointer | `Properties_Lnk` | proved | Every restriction in the statement is needed: without it the claim is false of the code (C188). |
| C41 | forward_list::remove_if removes matches that are not adjacent and nothing else | `Properties_Lnk` | proved | Every restriction in the statement is needed: without it the claim is false of the code (C189). |
| C42 | doubly linked list is a sequence in both directions | `Properties_Lnk` | proved | Every restriction in the statement is needed: without it the claim is false of the code (C190). |
| C43 | linked_ref destroys the value exactly once, when the last owner goes away | `Properties_Ref` | proved | Every restriction in the statement is needed: without it the claim is false of the code (C191). |
| C44 | FNV hash equals the published algorithm | `Properties_Hash` | proved | Characters of either signedness; the published functions are written out in Hash_Spec.v and the published test vectors evaluate. |
| C45 | FNV hash is incremental and loses nothing per byte | `Properties_Hash` | proved | The full statement, by the technique of the module. |
| C46 | byteswap reverses bytes and is an involution, for unsigned and up to 32 bit types | `Properties_Hash` | proved | Every restriction in the statement is needed: without it the claim is false of the code (C192). |
| C47 | span input stream delivers the span | `Properties_Stream` | proved | Every restriction in the statement is needed: without it the claim is false of the code (C193). |
| C48 | span output stream stays inside its span | `Properties_Stream` | proved | Every restriction in the statement is needed: without it the claim is false of the code (C194). |
| C49 | buffered string output loses nothing | `Properties_Stream` | proved | Every restriction in the statement is needed: without it the claim is false of the code (C195, C471). What the wrapped buffer takes of what it is handed: C472. |
| C50 | getline stores a line shorter than its buffer and a terminator | `Properties_Stream` | proved | Every restriction in the statement is needed: without it the claim is false of the code (C196). |
| C51 | ignore, ws and read consume exactly what they should | `Properties_Stream` | proved | Full on plain texts. |
| C52 | width and fill pad exactly | `Properties_Ostream` | proved | Every restriction in the statement is needed: without it the claim is false of the code (C197). |
| C53 | fill character round-trips for exactly 64 characters | `Properties_Ios` | proved | Every restriction in the statement is needed: without it the claim is false of the code (C198). |
| C54 | boolalpha parsing of texts that start like a name | `Properties_Numio` | proved | Every restriction in the statement is needed: without it the claim is false of the code (C199). |
| C55 | duration arithmetic and comparison are exact in the common period | `Properties_Chrono` | proved | Every restriction in the statement is needed: without it the claim is false of the code (C200). |
| C56 | ratio arithmetic is exact and reduced | `Properties_Ratio` | proved | Every restriction in the statement is needed: without it the claim is false of the code (C201). |
| C57 | subspan and first select the right elements | `Properties_Span` | proved | Every restriction in the statement is needed: without it the claim is false of the code (C202). |
| C58 | optional constructs and destroys its value in balance | `Properties_Opt` | proved | Proved for every history of construction, copy, move, destruction, reset, emplace and the assignments over any number of optionals, for every combination of traits of T. Self-assignment and exceptions: C97. Conversion between optionals of different types and emplacement with several arguments are the same code with another constructor run. |
| C59 | stream state and format flags | `Properties_Ios` | proved | Every restriction in the statement is needed: without it the claim is false of the code (C203). |
| C60 | swap exchanges two objects, and swapping an object with itself changes nothing | `Properties_Algo` | proved | Every restriction in the statement is needed: without it the claim is false of the code (C204). |
| C61 | fill, fill_n and accumulate cover exactly their range | `Properties_Algo` | proved | The full statement, by the technique of the module. |
| C62 | readsome delivers what is available | `Properties_Stream` | proved | Every restriction in the statement is needed: without it the claim is false of the code (C205). |
| C63 | seekg repositions the stream | `Properties_Stream` | proved | Every restriction in the statement is needed: without it the claim is false of the code (C206). |
| C64 | num_put writes the padded numeral | `Properties_Ostream` | proved | Every restriction in the statement is needed: without it the claim is false of the code (C207). |
| C65 | numeric bool extraction | `Properties_Numio` | proved | Full on good streams. |
| C66 | character extraction | `Properties_Numio` | proved | Every restriction in the statement is needed: without it the claim is false of the code (C208). |
| C67 | put stores one character or reports a full buffer | `Properties_Ostream` | proved | Every restriction in the statement is needed: without it the claim is false of the code (C209). |
| C68 | iterating an unordered container visits each entry once and ends | `Properties_Unordered` | partial | The property is false: begin()..end() reads past the end for every table. Only the refutation is proved. |
| C69 | unordered_map accepts a new key while its bucket has room | `Properties_Unordered` | proved | Every restriction in the statement is needed: without it the claim is false of the code (C210). |
| C70 | unordered_map garbage collection and clear | `Properties_Unordered` | proved | The full statement, with its restrictions. In tables as in C25. |
| C71 | unordered_set insertion and bucket iteration | `Properties_Unordered` | proved | The full statement, with its restrictions. Sets whose buckets cannot fill up to the table end, reached by insertions and erasures of bucket ends. |
| C72 | string erase(index,count) | `Properties_Dyn` | proved | The full statement, by the technique of the module. |
| C73 | inserting a string into itself | `Properties_Dyn` | partial | False strictly inside the string (refuted, with the exact result); at the ends it is append_self (C29). |
| C74 | string size is its number of characters | `Properties_Dyn` | partial | Equal modulo the range of size_type only; 256 for the unbounded layer2 string. |
| C75 | compare orders strings of equal length lexicographically | `Properties_Str` | proved | Every restriction in the statement is needed: without it the claim is false of the code (C211). |
| C76 | rfind returns the last occurrence | `Properties_Str` | proved | Every restriction in the statement is needed: without it the claim is false of the code (C212). |
| C77 | find_first_of, and find_last_of inside the string | `Properties_Str` | proved | Every restriction in the statement is needed: without it the claim is false of the code (C213). |
| C78 | string_view remove_prefix and remove_suffix | `Properties_Str` | proved | The full statement, by the technique of the module. |
| C79 | pool handles name the first 128 blocks | `Properties_Pool` | proved | Every restriction in the statement is needed: without it the claim is false of the code (C214). |
| C80 | the pool reuses the most recently freed block first | `Properties_Pool` | proved | The full statement, by the technique of the module. |
| C81 | list iterator arithmetic | `Properties_Lnk` | proved | Every restriction in the statement is needed: without it the claim is false of the code (C215). |
| C82 | forward_list is a sequence | `Properties_Lnk` | proved | The full statement, by the technique of the module. |
| C83 | forward_list pop_front gives back the node it takes out | `Properties_Lnk` | proved | Every restriction in the statement is needed: without it the claim is false of the code (C216). |
| C84 | Moving a linked_ref transfers ownership | `Properties_Ref` | partial | Moving one of several owners is covered by C43_history; moving the only owner, and copying a moved-from owner, are refuted universally (undefined behaviour on destruction). |
| C85 | Strings hash by content, and integers no wider than size_t never collide | `Properties_Hash` | proved | Every restriction in the statement is needed: without it the claim is false of the code (C217). |
| C86 | hh_mm_ss splits a duration below 256 minutes | `Properties_Chrono` | proved | Every restriction in the statement is needed: without it the claim is false of the code (C218). |
| C87 | calendar units within their storage types | `Properties_Chrono` | proved | Every restriction in the statement is needed: without it the claim is false of the code (C219). |
| C88 | promoted_type holds both types | `Properties_Chrono` | proved | Every restriction in the statement is needed: without it the claim is false of the code (C220). |
| C89 | a span shows exactly the memory it was built from | `Properties_Span` | proved | Pointers are positions in one array; leaving it is undefined behaviour in the model. first<count>() (span.h:43-47) does not compile when used and is not modelled. |
| C90 | Variant histories: values, indices and object lifetimes | `Properties_Var` | proved | Every restriction in the statement is needed: without it the claim is false of the code (C221). |
| C91 | Variant access | `Properties_Var` | proved | Proved. |
| C92 | Variant exceptions and self-assignment | `Properties_Var` | proved | Every restriction in the statement is needed: without it the claim is false of the code (C222). |
| C93 | Variant chooses the alternative asked for | `Properties_Var` | proved | Every restriction in the statement is needed: without it the claim is false of the code (C223). |
| C94 | Visiting a variant | `Properties_Var` | proved | Every restriction in the statement is needed: without it the claim is false of the code (C224). |
| C95 | Optional access | `Properties_Opt` | proved | Every restriction in the statement is needed: without it the claim is false of the code (C225). |
| C96 | Optional comparison | `Properties_Opt` | proved | Every restriction in the statement is needed: without it the claim is false of the code (C226). |
| C97 | Optional exceptions and self-assignment | `Properties_Opt` | proved | Every restriction in the statement is needed: without it the claim is false of the code (C227). |
| C98 | layer1::optional holds every value it can represent | `Properties_Opt` | proved | Every restriction in the statement is needed: without it the claim is false of the code (C228). |
| C99 | expected histories | `Properties_Exp` | proved | The full statement, with its restrictions. Histories over any number of variables refine the value/error specification; restricted to copy constructible contents for copy and move construction (C102 shows why). |
| C100 | expected access | `Properties_Exp` | proved | Checked and unchecked access characterised in every state. |
| C101 | expected exception safety of constructors and same-kind assignment | `Properties_Exp` | proved | Every restriction in the statement is needed: without it the claim is false of the code (C229). |
| C102 | expected move construction copies | `Properties_Exp` | proved | Every restriction in the statement is needed: without it the claim is false of the code (C230). |
| C103 | type lookup in parameter packs | `Properties_Tup` | proved | Full characterisation of lookup by position and by type. |
| C104 | selection from parameter packs | `Properties_Tup` | proved | Indices, types, projections and visitor indices equal the filtered list of positioned items. |
| C105 | value sequences | `Properties_Tup` | proved | Every restriction in the statement is needed: without it the claim is false of the code (C231). |
| C106 | integer sequences | `Properties_Tup` | proved | Closed forms for every N. |
| C107 | visitors visit in order and stop at the first acceptance | `Properties_Tup` | proved | Exact characterisation of result and calls for any stateful functor. |
| C108 | tuple elements | `Properties_Tup` | proved | Element access, apply, make_from_tuple, piecewise pair construction and assignment, dense and sparse. |
| C109 | tuple::visit stops at the accepted element | `Properties_Tup` | proved | Every restriction in the statement is needed: without it the claim is false of the code (C232). |
| C110 | pair comparison and swap | `Properties_Tup` | proved | Every restriction in the statement is needed: without it the claim is false of the code (C233). |
| C111 | properties of all types of a pack | `Properties_Tup` | proved | largest_type is the first largest. |
| C112 | An object shared by shared_ptr lives exactly as long as it has an owner | `Properties_Sptr` | proved | The full statement, with its restrictions. Proved for every legal history (C112_history, C112_step); legal excludes copying a follower whose master was reset (C114), self-assignment (C115), 2^w or more owners (C116) and destroying a master before its followers, which leaves the followers pointing at a destroyed control block. C112_all_deleted: nothing leaks or is deleted twice. |
| C113 | use_count is the number of owners and a held object can be used | `Properties_Sptr` | proved | Every restriction in the statement is needed: without it the claim is false of the code (C234). |
| C114 | Copying a shared_ptr always adds an owner | `Properties_Sptr` | partial | False: memory.h:305-312 counts a copy only while the master is active. C114_copy_counts_refuted describes every state with a sole owner whose master was reset: copying it and destroying the original leaves the copy dangling. The case with an active master is part of C112_step. |
| C115 | Assigning a shared_ptr to itself changes nothing | `Properties_Sptr` | partial | False for every state: C115_self_assignment_refuted. operator= resets before it reads the right-hand side (memory.h:568-575). |
| C116 | The owner count of a shared_ptr does not wrap | `Properties_Sptr` | partial | False at exactly 2^w owners beyond the master: C116_many_owners_refuted, for every width. Below 2^w owners the claim is part of C112_history. |
| C117 | Writing through a bip-buffered stream buffer loses and reorders nothing | `Properties_Bipsb` | proved | The full statement, with its restrictions. Proved for capacities and blocks below 2^31 and characters other than '\xff' in sputn (see C235_uncounted_refuted); the answers are given in closed form by greedy_answers. |
| C118 | What a slow sink does not take stays in a bip-buffered stream buffer | `Properties_Bipsb` | proved | Every restriction in the statement is needed: without it the claim is false of the code (C235). |
| C119 | Reading through a bip-buffered stream buffer gives the source's text in order | `Properties_Bipsb` | proved | Every restriction in the statement is needed: without it the claim is false of the code (C236). |
| C120 | sgetn of a bip-buffered stream buffer consumes what it returns | `Properties_Bipsb` | partial | False in every state: xsgetn never consumes (C120_sgetn_consumes_refuted), and it reads past the storage when the buffered characters wrap around (C120_sgetn_wrapped_refuted). |
| C121 | An owning function behaves as the unique owner of its callable | `Properties_Fun` | proved | Unique ownership, simulated by a small owner specification over all histories; copies of const functions, copies of empty functions and self-assignment are C122-C125. |
| C122 | Copying a const function gives an independent function | `Properties_Fun` | partial | Refuted for every history: destroying a const copy and the original, in either order, deletes the object twice. |
| C123 | Copying a function leaves the source as it was | `Properties_Fun` | partial | Refuted for every history: the new function works, the original is empty and calling it is undefined. |
| C124 | Assigning a function to itself changes nothing | `Properties_Fun` | partial | Refuted for every history: f = f empties f. |
| C125 | A function tests true exactly when it can be called | `Properties_Fun` | proved | Every restriction in the statement is needed: without it the claim is false of the code (C237). |
| C126 | An inline function that is not a copy calls its own callable | `Properties_Fun` | proved | Every restriction in the statement is needed: without it the claim is false of the code (C238). |
| C127 | A string stream gives back what was written to it | `Properties_Sstr` | proved | Hypotheses: the whole text fits (one cell is the terminator's), a null terminated text holds no 0, no character equal to the traits' end-of-file value, at most 65535 characters (32767 for in_avail under estd's own traits), and counts of sgetn within size_type. |
| C128 | A write that does not fit a string stream is reported | `Properties_Sstr` | partial | False of the code: too long a write stops on the assertion in a debug build and is undefined in a release build; filling the terminator's cell is undefined in both; a 0 is answered as written but is not in the text. |
| C129 | After clear() a string stream that was not read is empty | `Properties_Sstr` | proved | Every restriction in the statement is needed: without it the claim is false of the code (C239). |
| C130 | sgetn of a string stream reads min(count, available) characters | `Properties_Sstr` | partial | The count is converted to size_type first: sgetn(s, 256) on a string with 8-bit sizes stores nothing. For counts below that see C127. |
| C131 | Seeking a string stream within its text | `Properties_Sstr` | proved | With ios_base::in; without it the answer is -1 and nothing moves (visible in the model, string.h:129-149). |
| C132 | A seek answers the position it moved to, or fails and moves nothing | `Properties_Sstr` | partial | False of the code: from the current position the seek happens but -1 is answered; positions beyond the text are accepted, and reading there gives what the storage holds or is undefined. |
| C133 | isupper, islower, isalpha and isdigit classify as in the C locale | `Properties_Ctype` | proved | The full statement, by the technique of the module. |
| C134 | isspace(ch) accepts white space only | `Properties_Ctype` | proved | Every restriction in the statement is needed: without it the claim is false of the code (C240). |
| C135 | isspace(ch, locale) accepts the six white space characters | `Properties_Ctype` | proved | The full statement, by the technique of the module. |
| C136 | ctype::is answers whether a character is in one of the categories (space, digit, xdigit, upper) | `Properties_Ctype` | proved | The full statement, by the technique of the module. |
| C137 | ctype::is answers whether a character is in one of the categories (lower, alpha, punct) | `Properties_Ctype` | partial | False of the code: lower is tested as 'a' <= ch <= 'a' and not at all beside upper; alpha and punct are never tested. The other categories are C136. |
| C138 | Digit characters and digit values convert back and forth in every base | `Properties_Ctype` | proved | The full statement, by the technique of the module. |
| C139 | A time point is the sum of the steps applied to it | `Properties_Timep` | proved | The full statement, by the technique of the module. |
| C140 | The elapsed time between two readings of a wrapping unsigned clock is right | `Properties_Timep` | proved | The full statement, by the technique of the module. |
| C141 | Time points of different units order and subtract like the instants they denote | `Properties_Timep` | proved | Every restriction in the statement is needed: without it the claim is false of the code (C241). |
| C142 | Adding a duration of another unit moves a time point by whole ticks | `Properties_Timep` | proved | Every restriction in the statement is needed: without it the claim is false of the code (C242). |
| C143 | A duration times a number is that many durations | `Properties_Timep` | proved | Every restriction in the statement is needed: without it the claim is false of the code (C243). |
| C144 | Units convert, add, subtract and compare like the quantities they denote | `Properties_Units` | proved | The full statement, by the technique of the module. |
| C145 | u += s of another unit compiles only where it is exact | `Properties_Units` | proved | The full statement, by the technique of the module. |
| C146 | Offset units keep the quantity | `Properties_Units` | proved | The full statement, by the technique of the module. |
| C147 | A percentage of a range lies where it says | `Properties_Units` | proved | The full statement, by the technique of the module. |
| C148 | Units of ratio 1 combine with plain numbers | `Properties_Units` | proved | The full statement, by the technique of the module. |
| C149 | Kilobytes, megabytes and gigabytes are 1024, 1024^2 and 1024^3 bytes | `Properties_Units` | proved | The full statement, by the technique of the module. |
| C150 | put_unit writes count, prefix and name | `Properties_Units` | proved | The full statement, by the technique of the module. |
| C151 | Units are exact without side conditions | `Properties_Units` | partial | refuted: ticks narrowed before comparison, mixed signs that do not compile, an offset unit constructed from a unit of its own period is off by the offset, percentages of wide ranges, unsigned counts against negative numbers, literals from 4 GiB on |
| C152 | Every SI prefix prints, and the text tells the quantity | `Properties_Units` | partial | refuted: giga and pico do not compile; kilobytes of 1000 and of 1024 bytes print the same |
| C153 | lock_guard gives mutual exclusion | `Properties_Lock` | proved | The full statement, by the technique of the module. |
| C154 | A scope releases its mutex | `Properties_Lock` | proved | The full statement, by the technique of the module. |
| C155 | Updates under a mutex are not lost | `Properties_Lock` | proved | The full statement, by the technique of the module. |
| C156 | Ordered locking does not deadlock | `Properties_Lock` | proved | The full statement, by the technique of the module. |
| C157 | unique_lock releases its mutex | `Properties_Lock` | partial | False: unique_lock has no destructor; a thread that locked through it holds the mutex for ever. |
| C158 | unique_lock(m, try_to_lock) knows whether it owns the mutex | `Properties_Lock` | partial | False: the result of try_lock is dropped; the scope runs without the mutex and its unlock() is undefined. |
| C159 | A FreeRTOS mutex is free when new | `Properties_Lock` | partial | False for binary = true: the binary semaphore is created empty, so nothing can lock it before someone unlocks it. |
| C160 | A semaphore counts | `Properties_Lock` | proved | The full statement, by the technique of the module. |
| C161 | No release is lost | `Properties_Lock` | partial | False: release() of a full semaphore has no effect and reports nothing. |
| C162 | Timed locking waits whole ticks | `Properties_Lock` | proved | The full statement, by the technique of the module. |
| C163 | Timed locking waits at least the timeout | `Properties_Lock` | partial | False: the timeout is truncated to whole ticks; a timeout below one tick does not wait. |
| C164 | pop_heap keeps a single integer | `Properties_Heap` | partial | False of the code, refuted for the cases the theorems name. Companion of C02, which holds the true part. On the unrestricted claim: Class types: full. Built-in integers (swap is xor_swap): full for two or more elements; a one-element range is overwritten with 0 (refuted). |
| C165 | make_heap accepts the empty range | `Properties_Heap` | partial | False of the code, refuted for the cases the theorems name. Companion of C03, which holds the true part. On the unrestricted claim: All non-empty ranges, all k>=1. Missing: the empty range, where the code is undefined (C165_make_heap_empty_refuted). |
| C166 | priority_queue.erase removes the only element | `Properties_Heap` | partial | False of the code, refuted for the cases the theorems name. Companion of C05, which holds the true part. On the unrestricted claim: All queues except those of exactly one element, where erasing it is undefined behaviour (refuted). |
| C167 | priority_queue.emplace returns an element that rises | `Properties_Heap` | partial | False of the code, refuted for the cases the theorems name. Companion of C06, which holds the true part. On the unrestricted claim: False in general (refuted); proved when the new element does not rise. |
| C168 | bip buffer poll refuses more than was offered | `Properties_Bip` | partial | False of the code, refuted for the cases the theorems name. Companion of C09, which holds the true part. On the unrestricted claim: Refuted: poll/peek compare the request with the total storage instead of the readable region. Proved: exact refusal condition, state unchanged on refusal. |
| C169 | from_chars on an empty text, and the pointer after an overflow | `Properties_Charconv` | partial | False of the code, refuted for the cases the theorems name. Companion of C12, which holds the true part. On the unrestricted claim: Nonempty text, all bases and widths: full, except that after an overflow in a base other than 10 and 36 ptr may pass non-digits. Refuted: empty text accepted, overflow pointer. |
| C170 | from_chars with a minus sign followed by something else | `Properties_Charconv` | partial | False of the code, refuted for the cases the theorems name. Companion of C13, which holds the true part. On the unrestricted claim: Proved: unsigned part, '-' + digits ending the text, overflow. Refuted: sign lost before trailing text, minimum rejected, lone '-' accepted, empty text UB. |
| C171 | to_chars uses its whole buffer and accepts every value | `Properties_Charconv` | partial | False of the code, refuted for the cases the theorems name. Companion of C14, which holds the true part. On the unrestricted claim: Proved for every value but the most negative, buffers of at least one character, with the exact room needed. Refuted: exact fit of a nonnegative number, empty buffer, minimum. |
| C172 | to_string prints the most negative value | `Properties_Charconv` | partial | False of the code, refuted for the cases the theorems name. Companion of C15, which holds the true part. On the unrestricted claim: Proved for every value of every width but the most negative one, which is UB (32/64 bits) or garbage (8/16 bits): refuted. |
| C173 | stream integer extraction stops right after a number that does not fit | `Properties_Numio` | partial | False of the code, refuted for the cases the theorems name. Companion of C17, which holds the true part. On the unrestricted claim: Proved: numbers that fit, no digits. Refuted: overflow leaves digits unread or consumes what follows; lone minus reads 0 without failbit; empty range sets eofbit only. |
| C174 | A deque slot can be reused by push_back of a constant | `Properties_Deque` | partial | False of the code, refuted for the cases the theorems name. Companion of C19, which holds the true part. On the unrestricted claim: Trivial elements, or move/emplace pushes only. Refuted: reusing a slot with push_back(const&) for elements with destructors. |
| C175 | Iterating a full deque visits its elements | `Properties_Deque` | partial | False of the code, refuted for the cases the theorems name. Companion of C20, which holds the true part. On the unrestricted claim: All reachable deques that are not full, both directions; refuted for full ones. |
| C176 | deque emplace_front prepends | `Properties_Deque` | partial | False of the code, refuted for the cases the theorems name. Companion of C22, which holds the true part. On the unrestricted claim: push_front: full. emplace_front: refuted. |
| C177 | unordered_map find and insert stay inside the table | `Properties_Unordered` | partial | False of the code, refuted for the cases the theorems name. Companion of C23, which holds the true part. On the unrestricted claim: Every table size and hash, every history of the three insertions; hypotheses: mark bit of the last slot clear, buckets not filled to the table end; both needed (refutations). |
| C178 | unordered_map keeps keys unique after erase and insert of a present key | `Properties_Unordered` | partial | False of the code, refuted for the cases the theorems name. Companion of C24, which holds the true part. On the unrestricted claim: Insert-only histories and histories as in C25; refuted for erase followed by re-insertion of a key of the same bucket. |
| C179 | unordered_map erase loses no other key in any table | `Properties_Unordered` | partial | False of the code, refuted for the cases the theorems name. Companion of C25, which holds the true part. On the unrestricted claim: Histories of insert/assign/erase/gc/clear on tables of 4m slots, m<=16, within bucket depth; refuted for buckets >= 64, overflowing buckets and bucket 0. |
| C180 | unordered_set erase of any key | `Properties_Unordered` | partial | False of the code, refuted for the cases the theorems name. Companion of C26, which holds the true part. On the unrestricted claim: Erasing the first or last key of a bucket; refuted for any other key and for the null key's bucket. |
| C181 | erase and growing resize of a fixed-capacity vector | `Properties_Dyn` | partial | False of the code, refuted for the cases the theorems name. Companion of C27, which holds the true part. On the unrestricted claim: All histories within capacity (N for vectors and sized strings, N-1 for null-terminated strings); vector erase only of one-byte elements or of the last element; resize only downwards. Refuted: erase of wider elements moves bytes instead of elements; growing resize exposes old storage or does nothing. insert(pos,const T&) and assign(first,last) do not compile and are not modelled; elements of class type: C398-C406. |
| C182 | A fixed-capacity container never writes outside its storage | `Properties_Dyn` | partial | False of the code, refuted for the cases the theorems name. Companion of C28, which holds the true part. On the unrestricted claim: Within capacity: C27 (an access outside is UB in the model). Beyond it: assert when asserts are on. Refuted: NDEBUG writes outside; a null-terminated string filled to capacity() writes the terminator outside; a length sum that wraps in size_type passes the check. |
| C183 | string copy with npos, and append of long texts | `Properties_Dyn` | partial | False of the code, refuted for the cases the theorems name. Companion of C29, which holds the true part. On the unrestricted claim: append in all forms, assignment; copy for pos<=size when pos+count does not wrap. Refuted: copy(dest,npos,pos>=1) with a wide size_type, pos>size, C strings longer than size_type's range. |
| C184 | string equality at every length | `Properties_Str` | partial | False of the code, refuted for the cases the theorems name. Companion of C30, which holds the true part. On the unrestricted claim: equality and the total order are proved for strings whose length fits the other string's size_type; a longer string is compared by its length modulo that range (refuted in general) |
| C185 | string find from any position and in any string | `Properties_Str` | partial | False of the code, refuted for the cases the theorems name. Companion of C31, which holds the true part. On the unrestricted claim: a character: exact. A needle: exact for pos = 0 when it occurs, and npos when it does not and the string is null terminated with enough readable memory behind. For pos > 0 the result is the distance from pos (refuted); needles reaching into stale storage are found and views are over-read (refuted) |
| C186 | starts_with of an equal string, and characters of an empty string | `Properties_Str` | partial | False of the code, refuted for the cases the theorems name. Companion of C32, which holds the true part. On the unrestricted claim: ends_with and the C string forms are exact; starts_with of two strings is false for equal strings (refuted); the one-character forms read an empty string's storage (refuted) |
| C187 | string_view substr clamps every count | `Properties_Str` | partial | False of the code, refuted for the cases the theorems name. Companion of C33, which holds the true part. On the unrestricted claim: exact when count is npos or within the view; otherwise the count is not clamped (refuted) |
| C188 | forward list with back pointer after it was emptied | `Properties_Lnk` | partial | False of the code, refuted for the cases the theorems name. Companion of C40, which holds the true part. On the unrestricted claim: Not for a list emptied by pop_front and then used again, nor for a user's node pushed a second time; both refuted for every such history. |
| C189 | forward_list::remove_if removes adjacent matches | `Properties_Lnk` | partial | False of the code, refuted for the cases the theorems name. Companion of C41, which holds the true part. On the unrestricted claim: Exact for lists without two adjacent matches; refuted whenever two matches are adjacent; exact description of what is left, and first_only, for every list. |
| C190 | doubly linked list insert at end() | `Properties_Lnk` | partial | False of the code, refuted for the cases the theorems name. Companion of C42, which holds the true part. On the unrestricted claim: insert at end() of a non-empty list is refuted (null dereference). |
| C191 | linked_ref keeps a null value until the last owner goes away | `Properties_Ref` | partial | False of the code, refuted for the cases the theorems name. Companion of C43, which holds the true part. On the unrestricted claim: Histories of make/copy/move/destroy with values Traits::null does not hold for, moving only one of several owners; refuted for null values. make_weak does not compile and is not modelled. |
| C192 | byteswap of bytes and of int64_t | `Properties_Hash` | partial | False of the code, refuted for the cases the theorems name. Companion of C46, which holds the true part. On the unrestricted claim: 16/32 bits and unsigned 64; refuted for 8 bit types (result is 0 or -1) and int64_t (does not compile). Where the toolchain has std::byteswap the library re-exports that. |
| C193 | span input stream of any text | `Properties_Stream` | partial | False of the code, refuted for the cases the theorems name. Companion of C47, which holds the true part. On the unrestricted claim: Texts shorter than 65536 characters, without (char)-1 when the library's own traits are used; both exceptions refuted universally. |
| C194 | span output stream with a block that does not fit | `Properties_Stream` | partial | False of the code, refuted for the cases the theorems name. Companion of C48, which holds the true part. On the unrestricted claim: Histories in which every block fits. Refuted: a block that does not fit is written past the span. |
| C195 | buffered string output of long blocks | `Properties_Stream` | partial | False of the code, refuted for the cases the theorems name. Companion of C49, which holds the true part. On the unrestricted claim: Single characters in full; blocks that fit. Refuted: longer blocks lose characters. |
| C196 | getline with long lines, and its state after a complete line | `Properties_Stream` | partial | False of the code, refuted for the cases the theorems name. Companion of C50, which holds the true part. On the unrestricted claim: Lines shorter than count: contents, terminator, consumption. Refuted: failbit on every complete line; overrun by one with lines of count or more. |
| C197 | width and fill for octal numerals, left-adjusted characters, strings and wide fields | `Properties_Ostream` | partial | False of the code, refuted for the cases the theorems name. Companion of C52, which holds the true part. On the unrestricted claim: Integers, characters. Refuted: octal of the upper half, left-adjusted characters, strings unpadded, setw modulo 16. |
| C198 | fill character round-trips for every character | `Properties_Ios` | partial | False of the code, refuted for the cases the theorems name. Companion of C53, which holds the true part. On the unrestricted claim: Proved for the characters the 6-bit field holds; refuted for the others. |
| C199 | boolalpha parsing of other texts | `Properties_Numio` | partial | False of the code, refuted for the cases the theorems name. Companion of C54, which holds the true part. On the unrestricted claim: Proved for texts starting with t or f, with exact consumption. Refuted: another first character is skipped; names are read past their end. |
| C200 | duration arithmetic whenever the result fits | `Properties_Chrono` | partial | False of the code, refuted for the cases the theorems name. Companion of C55, which holds the true part. On the unrestricted claim: Conversion equals the exact quotient truncated toward zero and sum, difference and the six comparisons equal the rational ones while the intermediate values are representable; refuted beyond: 64 bit overflow is undefined, ticks are silently narrowed, unsigned counts above half compare below zero against narrower signed ones, uint64_t durations do not compile. Integer representations only. |
| C201 | ratio is normalised like std::ratio | `Properties_Ratio` | partial | False of the code, refuted for the cases the theorems name. Companion of C56, which holds the true part. On the unrestricted claim: Divide, multiply and add are exact, reduced and compile when the products fit; ratio_subtract and comparisons do not exist. Refuted: num and den are not reduced, and the sign may move to the denominator. |
| C202 | subspan without count, and first beyond the span | `Properties_Span` | partial | False of the code, refuted for the cases the theorems name. Companion of C57, which holds the true part. On the unrestricted claim: first(c) and subspan(i,c) inside the span are exact for every span; subspan(offset) without a count is refuted for every offset > 0 (it keeps size() instead of size()-offset), first(c) beyond size() is unchecked. |
| C203 | setf applies the mask | `Properties_Ios` | partial | False of the code, refuted for the cases the theorems name. Companion of C59, which holds the true part. On the unrestricted claim: Full except setf(flags, mask) with flags outside the mask, which are set too (refuted). |
| C204 | swapping an integer with itself changes nothing | `Properties_Algo` | partial | False of the code, refuted for the cases the theorems name. Companion of C60, which holds the true part. On the unrestricted claim: Distinct objects: full. Swapping a built-in integer with itself zeroes it (refuted). |
| C205 | readsome at the end of the text | `Properties_Stream` | partial | False of the code, refuted for the cases the theorems name. Companion of C62, which holds the true part. On the unrestricted claim: Proved while characters are left; refuted at the end of the text. |
| C206 | seekg from the end and after end of file | `Properties_Stream` | partial | False of the code, refuted for the cases the theorems name. Companion of C63, which holds the true part. On the unrestricted claim: From the beginning and the current position. Refuted: from the end does nothing; eofbit is not cleared. |
| C207 | num_put without adjustment flag | `Properties_Ostream` | partial | False of the code, refuted for the cases the theorems name. Companion of C64, which holds the true part. On the unrestricted claim: With an adjustment flag; refuted without one. |
| C208 | extraction of NUL | `Properties_Numio` | partial | False of the code, refuted for the cases the theorems name. Companion of C66, which holds the true part. On the unrestricted claim: All characters but NUL with std::char_traits (refuted). |
| C209 | put of the character -1 | `Properties_Ostream` | partial | False of the code, refuted for the cases the theorems name. Companion of C67, which holds the true part. On the unrestricted claim: Every character but -1 under estd traits, which is refuted. |
| C210 | unordered_map accepts a new key whatever other buckets hold | `Properties_Unordered` | partial | False of the code, refuted for the cases the theorems name. Companion of C69, which holds the true part. On the unrestricted claim: In tables as in C25; refuted when another bucket overflows into the bucket. |
| C211 | compare orders strings of different length lexicographically | `Properties_Str` | partial | False of the code, refuted for the cases the theorems name. Companion of C75, which holds the true part. On the unrestricted claim: holds for equal lengths only; otherwise the shorter string comes first (refuted) |
| C212 | rfind of an empty needle and in an empty string | `Properties_Str` | partial | False of the code, refuted for the cases the theorems name. Companion of C76, which holds the true part. On the unrestricted claim: exact for a non-empty string and needle; refuted for an empty needle and an empty string |
| C213 | find_last_of behind the end and in an empty string | `Properties_Str` | partial | False of the code, refuted for the cases the theorems name. Companion of C77, which holds the true part. On the unrestricted claim: find_first_of exact for pos <= size(); find_last_of exact for pos < size() or npos on a non-empty string, refuted elsewhere |
| C214 | pool handles beyond 128 blocks | `Properties_Pool` | partial | False of the code, refuted for the cases the theorems name. Companion of C79, which holds the true part. On the unrestricted claim: Exact for the first 128 blocks; refuted for every further block (int8_t handle). |
| C215 | list iterator minus a count | `Properties_Lnk` | partial | False of the code, refuted for the cases the theorems name. Companion of C81, which holds the true part. On the unrestricted claim: operator-(int) calls itself and never returns. |
| C216 | forward_list gives back erased nodes | `Properties_Lnk` | partial | False of the code, refuted for the cases the theorems name. Companion of C83, which holds the true part. On the unrestricted claim: pop_front releases its node; erase_after and remove_if do not. |
| C217 | Wide integers never collide | `Properties_Hash` | partial | False of the code, refuted for the cases the theorems name. Companion of C85, which holds the true part. On the unrestricted claim: Integers of types no wider than size_t; wider ones collide (refuted). |
| C218 | hh_mm_ss of 256 minutes or more | `Properties_Chrono` | partial | False of the code, refuted for the cases the theorems name. Companion of C86, which holds the true part. On the unrestricted claim: Holds below 256 minutes; refuted from there on (seconds() never below 60), hours modulo 256. |
| C219 | calendar conversions are Gregorian | `Properties_Chrono`, `Properties_Ymd` | partial | False of the code, refuted for the cases the theorems name. Companion of C87, which holds the true part. On the unrestricted claim: is_leap refuted for every leap year not divisible by 400; ok() for arguments of 8 bits, refuted outside; year_month_day refuted (average months and years): a day that is none, days before the epoch, and for one day in every four years or so a month 13. How near it comes: C447. |
| C220 | promoted_type of a signed and a larger unsigned type | `Properties_Chrono` | partial | False of the code, refuted for the cases the theorems name. Companion of C88, which holds the true part. On the unrestricted claim: Holds and is minimal outside the mixed case; refuted where the larger type is unsigned and the smaller signed. |
| C221 | Copying a variant of an uncopyable alternative | `Properties_Var` | partial | False of the code, refuted for the cases the theorems name. Companion of C90, which holds the true part. On the unrestricted claim: Proved for every history of construction, copy, move, destruction, emplace and the three assignments over any number of variants, for alternatives of distinct types (repeated types: C93) and any traits; copies only of copy-constructible alternatives. Refuted for copies of alternatives that cannot be copied: the copy reports the alternative without holding it. Not modelled: arrays of variants, references as alternatives. |
| C222 | Variant exceptions in every assignment, and every self-assignment | `Properties_Var` | partial | False of the code, refuted for the cases the theorems name. Companion of C92, which holds the true part. On the unrestricted claim: Proved for construction, emplace, assignment into a valueless variant and assignment to the held, assignable alternative. Refuted: an exception while assigning another alternative (or replacing a non-assignable one) leaves the old index on destroyed storage; x = x of a non-assignable alternative reads a destroyed object. |
| C223 | Variant chooses the best match | `Properties_Var` | partial | False of the code, refuted for the cases the theorems name. Companion of C93, which holds the true part. On the unrestricted claim: Proved: first constructible alternative. Refuted: an exact match later in the list loses to an earlier constructible alternative; assigning from an explicitly-constructible type aborts; emplace<I> of a repeated type records the first index. |
| C224 | visit calls the visitor with the held alternative | `Properties_Var` | partial | False of the code, refuted for the cases the theorems name. Companion of C94, which holds the true part. On the unrestricted claim: Proved for visit_index; refuted for visit, which starts at alternative 0 whatever is held. |
| C225 | Hash of an empty optional | `Properties_Opt` | partial | False of the code, refuted for the cases the theorems name. Companion of C95, which holds the true part. On the unrestricted claim: Proved for value, has_value, value_or, operator* of a full optional; hash of an empty optional reads a missing value (refuted). |
| C226 | An empty optional is less than every value | `Properties_Opt` | partial | False of the code, refuted for the cases the theorems name. Companion of C96, which holds the true part. On the unrestricted claim: Proved for ==, !=, >, >= and optional == optional; < and <= answer false for an empty optional (refuted). optional != optional does not compile before C++20. |
| C227 | Optional exceptions over a held value, and every self-assignment | `Properties_Opt` | partial | False of the code, refuted for the cases the theorems name. Companion of C97, which holds the true part. On the unrestricted claim: Proved for construction, emplace and assignment into an empty optional, and assignment through T's operator=. Refuted: emplace over a value whose constructor throws leaves has_value() true over a destroyed value; so does replacement of a T that cannot be assigned; x = x of such a T reads a destroyed object. |
| C228 | layer1::optional holds the null value and large values | `Properties_Opt` | partial | False of the code, refuted for the cases the theorems name. Companion of C98, which holds the true part. On the unrestricted claim: Proved for values other than the null value and values that fit the bit-field; refuted for the null value (stored = empty) and for larger values (truncated). The bit-field theorem is for unsigned T and bool. |
| C229 | expected exception safety of every assignment and emplace | `Properties_Exp` | partial | False of the code, refuted for the cases the theorems name. Companion of C101, which holds the true part. On the unrestricted claim: Strong guarantee for constructors and for assignments to a held assignable value; refuted universally for value/error switches, emplace and unassignable types: the variable is left claiming to hold a destroyed object. |
| C230 | expected move construction of move-only types | `Properties_Exp` | partial | False of the code, refuted for the cases the theorems name. Companion of C102, which holds the true part. On the unrestricted claim: The move constructor copies (source unchanged); for move-only types refuted: the new variable holds nothing and its destruction is undefined behaviour. |
| C231 | value sequence contains repeated values | `Properties_Tup` | partial | False of the code, refuted for the cases the theorems name. Companion of C105, which holds the true part. On the unrestricted claim: contains is right for sequences without repetitions; refuted universally: it holds exactly when the value occurs once, so a repeated value is reported absent. |
| C232 | tuple::visit reports acceptance of the first element, or of none | `Properties_Tup` | partial | False of the code, refuted for the cases the theorems name. Companion of C109, which holds the true part. On the unrestricted claim: The calls are right; the int result is returned as bool, so it is true unless element 0 was accepted (both refutations universal). |
| C233 | swapping a pair of integers with itself changes nothing | `Properties_Tup` | partial | False of the code, refuted for the cases the theorems name. Companion of C110, which holds the true part. On the unrestricted claim: Swap of a pair of integers with itself zeroes both members (refuted); everything else holds. |
| C234 | get of a null shared_ptr | `Properties_Sptr` | partial | False of the code, refuted for the cases the theorems name. Companion of C113, which holds the true part. On the unrestricted claim: C113_held_object_usable and C113_master_count hold in every state of such a history. C234_null_get_refuted: get() of a null layer3 pointer reads the control block through a null pointer. |
| C235 | A slow sink never corrupts a bip-buffered stream buffer in any history | `Properties_Bipsb` | partial | False of the code, refuted for the cases the theorems name. Companion of C118, which holds the true part. On the unrestricted claim: C118_sync: one pubsync with any sink while what it takes lies in one piece. False beyond: a sink that refuses makes the next sputc write past the storage (C235_refusing_sink_refuted), a sink that takes part makes a later pubsync hand it a null pointer (C235_partial_sink_refuted), and '\xff' at a full buffer is stored but not counted (C235_uncounted_refuted). |
| C236 | Reading characters beyond ASCII through a bip-buffered stream buffer | `Properties_Bipsb` | partial | False of the code, refuted for the cases the theorems name. Companion of C119, which holds the true part. On the unrestricted claim: Proved for ASCII texts, any source, either character traits. C236_signed_refuted: underflow returns the char without to_int_type, so the first character of a refill is negative if it is not ASCII, and '\xff' reads as end of file. |
| C237 | Copies of empty functions and functions that are not nullable test true only if they can be called | `Properties_Fun` | partial | False of the code, refuted for the cases the theorems name. Companion of C125, which holds the true part. On the unrestricted claim: Proved for nullable functions in all histories of C121; refuted for copies of empty functions and for functions declared not nullable after a move. |
| C238 | A copy of an inline function calls its own callable | `Properties_Fun` | partial | False of the code, refuted for the cases the theorems name. Companion of C126, which holds the true part. On the unrestricted claim: Proved without copies; refuted for copies: they run the original's functor and dangle when it is destroyed. |
| C239 | After clear() a string stream that was read is empty | `Properties_Sstr` | partial | False of the code, refuted for the cases the theorems name. Companion of C129, which holds the true part. On the unrestricted claim: Proved for a stream not yet read. False otherwise: the position stays, and the next read returns the old text at that position. |
| C240 | isspace(ch) accepts all six white space characters | `Properties_Ctype` | partial | False of the code, refuted for the cases the theorems name. Companion of C134, which holds the true part. On the unrestricted claim: False of the code: of the six only the space itself is accepted (internal/cctype.h:10-13). What is accepted is white space. |
| C241 | Readings of a wrapping clock keep the order of the instants | `Properties_Timep` | partial | False of the code, refuted for the cases the theorems name. Companion of C141, which holds the true part. On the unrestricted claim: partial: the ticks must be representable in the common type; refuted: readings of a wrapping clock do not keep the order of the instants |
| C242 | A time point advances by small steps | `Properties_Timep` | partial | False of the code, refuted for the cases the theorems name. Companion of C142, which holds the true part. On the unrestricted claim: proved: the step is truncated to whole ticks of the time point; refuted as a law: a time point never advances by steps shorter than its tick |
| C243 | A duration times a number of any type | `Properties_Timep` | partial | False of the code, refuted for the cases the theorems name. Companion of C143, which holds the true part. On the unrestricted claim: proved while the product and the factors are representable in their common type; refuted: products of narrow types are cut off silently, overflow of signed types is undefined, a negative duration times an unsigned number is wrong |
| C244 | A message queue is one queue under every schedule | `Properties_Mq` | proved | Each operation of the kernel queue is one atomic step; an operation that would wait leaves the task where it is, a timed one may also give up at any of its turns (when the queue is full resp. empty). Priorities are not modelled: a schedule is any list of turns, so the theorem holds for the priority scheduler too. |
| C245 | Messages of one producer arrive in order | `Properties_Mq` | proved | The tag from tells the producer of a message; the theorem needs it only to name the messages of one task in the stream of received ones. The order across several consumers is that in which the receives completed. |
| C246 | Producers and consumers do not block each other for ever | `Properties_Mq` | proved | The example shows that with more receives than sends a task waits for ever. |
| C247 | A received object owns what was sent | `Properties_Mq` | partial | Refuted: send and receive copy the bytes of the object. For every object with a resource, destroying the sent one makes the received one unusable, destroying both releases the resource twice, and what the receiver owned is never released. |
| C248 | Copying a queue object | `Properties_Mq` | partial | Refuted: the class has a destructor that deletes the handle and the copying the compiler provides. For every queue, destroying one copy makes the other unusable and its destruction undefined. |
| C249 | sleep_for sleeps in whole ticks | `Properties_Mq` | proved | See C250 for what does not hold. sleep_until does not compile for any clock (it passes a duration where an integer is expected) and is not modelled. |
| C250 | sleep_for sleeps at least the duration | `Properties_Mq` | partial | Refuted for every duration that is not a whole number of ticks and every call that does not coincide with a tick: the duration is rounded down to ticks, and the first of them is already running. See C249 for what holds. |
| C251 | Flags are sets | `Properties_Bits` | proved | operator\|= of flags does not compile for any enumeration. For underlying types smaller than int, \| & and ^ compile in constant expressions only. |
| C252 | Byte operations | `Properties_Bits` | proved | See C253 for larger shifts. The operators >>, &, ^ and ~ do not exist for estd::byte. |
| C253 | A byte may be shifted by any count below 32 | `Properties_Bits` | partial | Refuted for every byte and count with b * 2^s >= 2^32: the byte is promoted to int, of which such a shift is undefined before C++20 (the library is for C++11). See C252 for what holds. |
| C254 | numeric_limits tells the range | `Properties_Bits` | proved | See C255 for octal numerals of the other types. |
| C255 | length<8> is enough for every integer | `Properties_Bits` | partial | Refuted: one character is missing for every value above half of the range of an unsigned type of 16 or 64 bits, and for the least value of a signed one. The callers in this library reserve one more. |
| C256 | A non-owning function runs the callable it names, with the state its earlier calls left | `Properties_Cb` | proved | What breaks without its preconditions is C257, C258, C259 and C260. |
| C257 | A copy of a thisify_function is a function of its own | `Properties_Cb` | partial | Refuted: the copy's pointer still points into the original, so the call is undefined once the original has ended.  Without such copies C256. |
| C258 | A static_function calls the functor it was made with | `Properties_Cb` | partial | Refuted: for every second static_function of the same functor type the functor is ignored, and the first one's is called and its state shared.  With one static_function per type C256. |
| C259 | Functions whose model destroys the functor after the call can be used like the others | `Properties_Cb` | partial | Refuted: a second call, and the end of the model after a call, use a functor that has been destroyed.  With one call and no end C256. |
| C260 | Calling an empty or stale non-owning function is defined | `Properties_Cb` | partial | Refuted: both are undefined, for every state, kind of model and argument.  Calls of live callables are C256. |
| C261 | A handle-based virtual memory keeps every region's contents | `Properties_Vm` | proved | What breaks without its preconditions is C263, C264, C265, C266 and C267. |
| C262 | The regions of a virtual memory are disjoint, large enough and account for all memory | `Properties_Vm` | proved | For the histories of C261. |
| C263 | An allocation that just uses up a chunk succeeds | `Properties_Vm` | partial | Refuted: if the chunk is first in the free list the program writes through an uninitialised pointer, for every history that leads there, and allocating the whole fresh storage is one.  Exact fits further down the list are covered by C261. |
| C264 | An allocation may leave a chunk of any size | `Properties_Vm` | partial | Refuted: the header of a remainder smaller than a header overlaps the region, for every such remainder of the fresh storage.  With larger remainders C261. |
| C265 | Running out of handles is reported | `Properties_Vm` | partial | Refuted: the null handle is written through, after every history that uses up the handles.  With a free handle C261. |
| C266 | maint can be called any number of times | `Properties_Vm` | partial | Refuted: the second call follows a null pointer after every history that leaves two chunks which the first call merged or reordered.  One call at a time C261. |
| C267 | Maintenance loses no memory | `Properties_Vm` | partial | Refuted: a merge followed by a reordering drops a chunk of the list.  One call at a time C261, C262. |
| C268 | The handle-based memory pool hands out each block to one owner | `Properties_Mp` | proved | What breaks without its preconditions is C271; the addresses of the blocks are C272. |
| C269 | The second linked-list memory pool hands out each block to one owner | `Properties_Mp` | proved | Its count_free is C270. |
| C270 | count_free of the second pool is the number of free blocks | `Properties_Mp` | partial | Refuted: it is N minus the position of the next block to be handed out, after every history; for every N of at least 2 it says N with a block live. |
| C271 | construct on a pool that is used up is reported | `Properties_Mp` | partial | Refuted: it constructs at the null pointer after every history that uses up the pool.  With a free block C268. |
| C272 | The blocks of the handle-based pool are aligned for their type | `Properties_Mp` | partial | Refuted: for every type whose alignment exceeds the handle's size, one of the first two blocks is misaligned. |
| C273 | fromString converts the number a text begins with | `Properties_Conv` | proved | Numbers that do not fit are C276 and C278. |
| C274 | validateString<int> accepts exactly the decimal digit texts | `Properties_Conv` | proved | Texts that are not ASCII are C279, negative numbers C277, numbers that do not fit C276. |
| C275 | validateString<char> accepts texts of at most one character | `Properties_Conv` | proved | The full statement, by the technique of the module. |
| C276 | A text that passed validation converts to the number it spells | `Properties_Conv` | partial | Refuted: every accepted number of 2^31 or more makes fromString<int> undefined (atoi), and every accepted number from 2^8 on becomes a smaller unsigned char. |
| C277 | validateString<int> accepts the text of every int | `Properties_Conv` | partial | Refuted: every negative number converts but is rejected. |
| C278 | validateString<unsigned short> accepts only numbers of that type | `Properties_Conv` | partial | Refuted: every text that starts with a digit is accepted, negative numbers are accepted and converted to 2^16 minus their size, larger ones reduced modulo 2^16. |
| C279 | Validation is defined for every text | `Properties_Conv` | partial | Refuted: a character below EOF after any number of digits is passed to isdigit.  ASCII texts are C274. |
| C280 | The older from_chars converts what stands in its range | `Properties_Conv` | proved | What the range does not bound is C281, what else it accepts C282, the value after an error C283. |
| C281 | The older from_chars reads only its range | `Properties_Conv` | partial | Refuted: last is only where strtol stores its end; digits after it are taken, and an array of digits is read beyond its end. |
| C282 | The older from_chars accepts only the pattern of from_chars | `Properties_Conv` | partial | Refuted: strtol takes all three, for every number. |
| C283 | The older from_chars leaves the value alone on failure | `Properties_Conv` | partial | Refuted: it becomes 0 or the largest long. |
| C284 | maxStringLength is enough for every value of a fixed-width type | `Properties_Conv` | proved | Bare-metal 32-bit ARM, where int32_t is long, is left out: see C285. |
| C285 | maxStringLength and string_convert_traits are enough for every integer type | `Properties_Conv` | partial | Refuted: on each platform a type of the language that is none of the fixed-width ones has length 0; on bare-metal 32-bit ARM int32_t and uint32_t themselves have length 0; every int16_t from -32768 to -10000 needs six characters where the traits say five.  The fixed-width types are C284. |
| C286 | The log shows exactly the enabled messages, in order, at the current writer | `Properties_Conv` | proved | Tags with a percent sign are C287. |
| C287 | A log tag may be any text | `Properties_Conv` | partial | Refuted: the tag is passed to the writer as a format with no arguments. |
| C288 | Reading into a string takes the next word | `Properties_Wrd` | proved | A stream that is not good is C290, a word that does not fit C291, a word with zeros C292, a source that has not ended C293. |
| C289 | A loop over in >> value sees the words of the text | `Properties_Wrd` | proved | Words that do not fit are C291. |
| C290 | A failed read leaves the value alone | `Properties_Wrd` | partial | Refuted: value is always emptied and eofbit set, wherever the stream stands. |
| C291 | A word that does not fit is reported | `Properties_Wrd` | partial | Refuted: writing goes on outside the string, or an assert stops the program. |
| C292 | Reading a word keeps all its characters | `Properties_Wrd` | partial | Refuted: every word with a 0 in it loses its zeros in a null terminated string. |
| C293 | A word interrupted by missing input can be read again | `Properties_Wrd` | proved | The buffer is the span buffer of C47 with in_avail() answering 0 at its end; no buffer of the library does so today, but it is the case the code asks for. |
| C294 | Reading a character takes the next one that is not a blank | `Properties_Wrd` | proved | The character 0 with the standard traits is C295. |
| C295 | Reading a character stores it whatever it is | `Properties_Wrd` | partial | Refuted: the standard traits' not_eof answers 0 for it, which the code takes for end of file. |
| C296 | Nobody waits for flags that are there | `Properties_Evg` | proved | The operating system's event groups are modelled by their documentation; interrupts and deletion while tasks wait are not. |
| C297 | Flags are neither lost nor invented | `Properties_Evg` | proved | That one set can release many tasks is what C299 refutes for the reader who expects a semaphore. |
| C298 | Tasks that call sync stay together | `Properties_Evg` | proved | Times to wait are max_delay(); a task that gives up leaves its flag behind, as in C297. |
| C299 | One set of a flag releases one task | `Properties_Evg` | partial | Refuted for every state in which two tasks wait. |
| C300 | Event group objects live and die with their group | `Properties_Evg` | proved | Copies and failed creations are C301. |
| C301 | Every event_group object can be used and destroyed | `Properties_Evg` | partial | Refuted: two objects delete one group; the null handle of a failed creation is passed on. |
| C302 | Careful timers are safe | `Properties_Tmr` | proved | The operating system's timer service is modelled by its documentation, with a tick count that does not wrap around. |
| C303 | A destroyed timer falls silent | `Properties_Tmr` | proved | What happens between the destructor and that moment is C306; a destructor whose command is lost is C307. |
| C304 | A stopped timer falls silent | `Properties_Tmr` | proved | What happens between stop() and that moment is C306. |
| C305 | A started timer calls back on time and as often as due | `Properties_Tmr` | proved | A timer that is reset while it runs may still call back for its old start before the command is taken. |
| C306 | No callback after stop or destruction | `Properties_Tmr` | partial | Refuted for every state in which the callback is due. |
| C307 | The destructor of a timer deletes it | `Properties_Tmr` | partial | Refuted: the result of the delete command is ignored. |
| C308 | A timer in static storage can be destroyed at any time | `Properties_Tmr` | partial | Refuted: the command only goes into a queue, and the storage ends with the object; the source says so too. |
| C309 | Every timer object can be used and destroyed | `Properties_Tmr` | partial | Refuted: both objects delete one timer; the null handle is passed on. |
| C310 | Setting the period leaves a dormant timer dormant | `Properties_Tmr` | partial | Refuted for every live timer: xTimerChangePeriod starts it. |
| C311 | A timer is active after start | `Properties_Tmr` | partial | Refuted: active() does not change before the timer task has run. |
| C312 | Iterators and elements are places of a list | `Properties_Itr` | proved | Assignment of one element proxy to another is C315; erase of wider elements is C181. erase(iterator) of a string is reached through its base class. |
| C313 | A loop over a container visits every element once and in order | `Properties_Itr` | proved | Elements written to a null-terminated string must not be 0. |
| C314 | Erasing while iterating | `Properties_Itr` | proved | end() is asked again on every turn, as the loop does. What erase does to wider elements is C181. |
| C315 | Assigning one element to another | `Properties_Itr` | partial | Refuted for every container and pair of different elements: v[i] is a proxy whose copy assignment copies its pointer, so v[i] = v[j] does nothing, and a proxy kept in a variable comes to stand for element j. |
| C316 | An array behaves as a list of fixed length and a window as a view of it | `Properties_Arr` | proved | Initializer lists of another length are C317. estd::array::back() names a member its base class does not have and does not compile when used. |
| C317 | An array takes an initializer list of any length | `Properties_Arr` | partial | Refuted for every array and every list of another length: too many values are written outside the array, and elements without a value are indeterminate. With the right length see C316. |
| C318 | A small map finds the first pair with the key | `Properties_Arr` | proved | The Compare parameter and the flag presorted have no effect in the code. Initializer lists shorter than the map are C319. |
| C319 | A layer1 map with fewer pairs than it can hold | `Properties_Arr` | partial | Refuted for every list that is too short and every key that is not in it: the search reads keys that were never written. |
| C320 | A stack is last in, first out | `Properties_Arr` | proved | The vector operations are those of Dyn_Model.v. Assigning top() of one stack to top() of another is C315. |
| C321 | top() of a const stack | `Properties_Arr` | partial | Refuted for every history: the result is a reference to a proxy that is gone when top() returns; the non-const top() works. |
| C322 | A growing container behaves as a list | `Properties_Grow` | proved | reserve below size() is C326, refused requests C325, references into the container C327 and C328, copies C329; x.assign(x) copies a block onto itself with memcpy and is left out, and erase of larger elements moves too few bytes (C181). Sizes are unbounded numbers: the memory runs out before size_t does. A request for nothing may be refused, as realloc may do. |
| C323 | Growing gives the old memory back | `Properties_Grow` | proved | Ownership by blocks of the model's heap; the end of a container's scope is C324. |
| C324 | A growing container gives its memory back when it goes out of scope | `Properties_Grow` | partial | Refuted for every history and every container that is not empty: no class from the handle to the vector has a destructor, and the block stays allocated without an owner. |
| C325 | A refused allocation leaves the container as it was | `Properties_Grow` | partial | Refuted for every history: a refused push_back of a full container writes through the invalid handle, and a refused reserve leaves size() 0 (while empty() says false) and the old block without an owner. |
| C326 | reserve of less than the size | `Properties_Grow` | partial | Refuted for every history: the block becomes smaller than size() and elements beyond are outside it. With n >= size() see C322. |
| C327 | Pushing an element of the container while there is room | `Properties_Grow` | proved | When the container is full see C328. |
| C328 | Pushing an element of the container when it is full | `Properties_Grow` | partial | Refuted for every history in which the container is full and the reallocation moves the block: the reference is read after its block was released. |
| C329 | A copy of a growing container is independent | `Properties_Grow` | partial | Refuted for every history: the copy has the same handle; a write shows in both, and after one of them grew and moved the other reads released memory. |
| C330 | insert and erase return iterators to the right elements | `Properties_Grow` | proved | Elements of one byte for erase (C181). A full container is C331. |
| C331 | insert returns a usable iterator also when the container had to grow | `Properties_Grow` | partial | Refuted for every history in which the container is not empty, full and the reallocation moves the block: insert returns the iterator it was given, into the released block. |
| C332 | Element proxies lock, act and unlock | `Properties_Acc` | proved | The repository has no allocator with real locking: modelled is any that counts locks and may move unlocked blocks. Assignment between proxies is C333; conversions of locking_accessor and iterators are C334. stateful_locking_accessor::clock() has no return statement and stateful_nonlocking_accessor never sets its handle; both are unusable and not modelled. |
| C333 | Assigning one element proxy to another copies the value | `Properties_Acc` | partial | Refuted for every history: t then stands for the element of u, and the element it stood for keeps its value. |
| C334 | Iterators and locking accessors leave memory unlocked | `Properties_Acc` | partial | Refuted for every memory: a conversion adds a lock nobody takes back; an iterator that was dereferenced d times leaves d - 1 locks, and if it never was, unlocks what is not locked. Exactly one dereference is balanced. |
| C335 | Handle offsets compute exactly | `Properties_Acc` | proved | Size types of the width of int narrower than ptrdiff_t are C336. |
| C336 | The difference of handle offsets is exact for every size type | `Properties_Acc` | partial | Refuted for every size type as wide as int or wider but narrower than ptrdiff_t and every a < b: the result is positive. |
| C337 | Comparisons of handle offsets agree | `Properties_Acc` | partial | Refuted for equal offsets of every two different handles. |
| C338 | A notification reaches every observer once, in order | `Properties_Obs` | proved | States, values and contexts have one type each; handlers that notify again are not modelled. Observers that only handle a type with a context are not called without one (C340), proxies drop contexts (C341). |
| C339 | Subjects keep their own copies of stored observers | `Properties_Obs` | proved | The copy is what C342 is about. |
| C340 | No notification an observer could handle is lost | `Properties_Obs` | partial | Refuted for every subject whose observers handle the type only together with a context: notify(n) calls nobody, changes nothing and compiles without complaint. That the others are called is C338. |
| C341 | Proxies forward the context | `Properties_Obs` | partial | Refuted for every proxy and every subject behind it: the result is that of the notification without a context, and the context comes back as it was. |
| C342 | A proxy made from a subject notifies the observers of that subject | `Properties_Obs` | partial | Refuted for every subject, also for every number of proxies and copies: the proxy notifies its copies. Observers the subject refers to are reached (C339_case). |
| C343 | Input from a device comes in order | `Properties_Dev` | proved | Arduino's Stream is modelled from its documentation. Byte 255 where char is signed is C344. get() reports the end when nothing has arrived: C347. Input through posix_streambuf does not compile (streambuf::sgetc needs xsgetc) and is not modelled. |
| C344 | Every byte can be read from a device | `Properties_Dev` | partial | Refuted for byte 255 wherever char is signed (AVR, x86), whatever follows it: it reads as the end of input and is lost. Other bytes are C343. |
| C345 | Output to a device goes in order and failures are reported | `Properties_Dev` | proved | stdio's fwrite and fputc and Arduino's Print are modelled from their documentation. (char)-1 on Arduino is C346; streams over spans are C67. |
| C346 | A character that was sent is not reported as failed | `Properties_Dev` | partial | Refuted for (char)-1 wherever char is signed, on Arduino: it is sent and eofbit is set. On stdio streams and for other characters it holds (C345). |
| C347 | A blocking stream waits for characters | `Properties_Dev` | partial | Refuted for every state with nothing received: get() sets eofbit and failbit at once, after which peek() does not wait either and sees nothing of what arrives. |
| C348 | A write with time-out sends the caller's characters only | `Properties_Dev` | partial | Refuted whenever the device takes a part and then more than what is left: the loop offers n characters again from the advanced pointer. The feature is off by default (FEATURE_ESTD_OSTREAM_TIMEOUT). What holds is C350. |
| C349 | A write that ran out of time is reported | `Properties_Dev` | partial | Refuted for every write that runs out of time: the state of the stream does not change. |
| C350 | A write with time-out resumes where the device stopped | `Properties_Dev` | proved | Devices that take more than what is left are C348, time-outs C349. |
| C351 | A string in program memory reads as its text | `Properties_Pgm` | proved | avr-libc's memcpy_P, strnlen_P and strncmp_P are modelled from their documentation. Longer strings are C352, copies from the middle C353, comparison of texts with a NUL C354, larger field widths C357. |
| C352 | A string in program memory has any length | `Properties_Pgm` | partial | Refuted for every null-terminated string of more than 256 characters: size, loops and copies stop at 256 and it is not equal to its own text. Shorter ones are C351. |
| C353 | Copying from the middle stops at the end | `Properties_Pgm` | partial | Refuted for every pos > 0 with count >= size: the number copied is min(count, size) whatever pos is, so what lies behind the string is copied too, and a destination sized for the rest overflows. pos = 0 is C351 and C355. |
| C354 | Comparison covers the whole string | `Properties_Pgm` | partial | Refuted for every text with a NUL: strncmp_P stops there. Texts without NUL are C351. |
| C355 | An array in program memory reads as written | `Properties_Pgm` | proved | Copies from the middle are C353; indexing a test_container of wider elements is C356. |
| C356 | Indexing a test_container gives the element | `Properties_Pgm` | partial | Refuted for every wider element type: index i reads the element at i * sizeof(T), outside the container for larger i. What holds is C355. |
| C357 | A field width applies to a string in program memory | `Properties_Pgm` | partial | Refuted for every width above 1: the first character alone is padded, so width - 1 fill characters and then the whole text are written. Width at most 1 is C351. |
| C358 | Qualifiers, references, extents and pointers are removed and added | `Properties_Tt` | proved | Types are a grammar (Tt_Lang.v), templates with partial specializations tables of patterns. C++11 and later. |
| C359 | Types are classified as in the standard | `Properties_Tt` | proved | A platform says how large the types are and whether char and wchar_t are signed. The traits that are not right for every type are C360. |
| C360 | Functions, classes and enumerations are recognised where they are | `Properties_Tt` | proved | The exceptions are C361 to C364. |
| C361 | A variadic function is a function | `Properties_Tt` | partial | Refuted for every such function type: FEATURE_CPP_AMBIGUOUS_ELLIPSES, which guards the specializations, is defined nowhere. Other functions are C360. |
| C362 | A union is a union | `Properties_Tt` | partial | Refuted for every union: is_union is false for every type. Other types are C360. |
| C363 | Only enumerations are enumerations | `Properties_Tt` | partial | Refuted for nullptr_t and every pointer to a member. Other types are C360. |
| C364 | Only arithmetic types are unsigned | `Properties_Tt` | partial | Refuted for every type that is not arithmetic. Arithmetic types are C360. |
| C365 | References, pointers and decay | `Properties_Tt` | proved | The exceptions are C366 and C367. |
| C366 | Types without a reference stay as they are | `Properties_Tt` | partial | Refuted for every such type: the instantiation is an error (void itself has add_lvalue_reference). Others are C365. |
| C367 | Every function decays to a pointer | `Properties_Tt` | partial | Refuted: noexcept functions stay functions in both, variadic ones in decay, and decay of functions with qualifiers is an error. Others are C365. |
| C368 | make_signed gives the signed type | `Properties_Tt` | proved | Platforms are those where char16_t, char32_t, wchar_t and enumerations have the size of a standard integer type. |
| C369 | make_unsigned gives an unsigned type of the same size | `Properties_Tt` | proved | Which type of that size is C370. |
| C370 | make_unsigned gives the unsigned type | `Properties_Tt` | partial | Refuted: there is no type for any other or qualified type; and whenever two signed types have the same size (long and long long, int and short on AVR) one of them gets the wrong one. What holds is C369. |
| C371 | is_base_of tells bases | `Properties_Tt` | proved | A hierarchy gives, for two classes, whether one is a base of the other and whether the pointer conversion is accessible and unambiguous. Unions are C372. |
| C372 | A union is no base | `Properties_Tt` | partial | Refuted for every union with itself. Other types are C371. |
| C373 | Conjunction and disjunction stop where they are decided | `Properties_Tt` | proved | Traits are given by their value, or an error if looking at it is one. |
| C374 | function_traits knows the signature | `Properties_Fnt` | proved | A program's classes are given by the type of their call operator. Other callables are C375. |
| C375 | function_traits knows every callable | `Properties_Fnt` | partial | Refuted for every function that is variadic, noexcept or qualified, every member that is variadic, noexcept, volatile or ref-qualified, objects with such a call operator, and every pointer to a function: there is no such type. What is known is C374. |
| C376 | common_type of arithmetic types | `Properties_Fnt` | proved | Built on the language rules for promotions and usual arithmetic conversions (Fnt_Lang.v). What ?: gives for other types is a parameter. |
| C377 | The common type holds all values | `Properties_Fnt` | partial | Refuted for every signed type from int on together with its unsigned partner. What holds is C376. |
| C378 | div gives quotient and remainder | `Properties_Fnt` | proved | The exceptions are C379. charconv uses div only under FEATURE_ESTD_TO_CHARS_LIBC_DIV, which is not modelled there. |
| C379 | div is right for every value of the type | `Properties_Fnt` | partial | Refuted: the least value of a type narrower than int by -1 gives the least value again; div<long> without <cstdlib> takes int and divides something else for every value outside int. What holds is C378. |
| C380 | Errors are neither success nor each other | `Properties_Fnt` | proved | The collision is C381. |
| C381 | Different errors are different on every platform | `Properties_Fnt` | partial | Refuted for every numbering with ERANGE 10, 20, 30 or 40 above EDOM and no further errno numbers. The usual numbering (33, 34) is C380. |
| C382 | Text containers over memory that moves | `Properties_Lkd` | proved | Memory is never refused here (refusals: Grow, C325). What the preconditions exclude is C384, C385, C387, and C31, C32, C73, C182, C186 for searches, self insertion, terminators and equal prefixes. |
| C383 | Operations give their locks back | `Properties_Lkd` | proved | Unconditional: also for states no program reaches. The exception data() is C386. |
| C384 | A locked address stays good with any allocator | `Properties_Lkd` | partial | Refuted for every null-terminated string over uncounted locks: size() locks and unlocks, which releases the lock the user, or erase, find, find_first_of, copy holds. What holds is C382. |
| C385 | A container inserted into itself over moving memory | `Properties_Lkd` | partial | Refuted for every vector or string with a length of its own whose memory is too small for the result: it is reallocated while the old address is the source. What holds is C382; over fixed memory C73. |
| C386 | data() leaves the memory movable | `Properties_Lkd` | partial | Refuted for every state and every program without an unlock of the user's. |
| C387 | A container without memory can be used | `Properties_Lkd` | partial | Refuted for every container without memory: all of these lock an invalid handle. What holds is C382. |
| C388 | Short decimals are read as the nearest number | `Properties_Flt` | proved | Each operation is rounded to the type read (FLT_EVAL_METHOD 0), to nearest; zeros of both signs are one value. Beyond the limits: C389, C397. A second point: C391. |
| C389 | Any decimal is read with a bounded error | `Properties_Flt` | proved | The bound is (1-eps)^(2n+1)/(1+eps)^k to (1+eps)^(2n+1)/(1-eps)^k times the number, eps = 2^-prec, n digits, k places. Outside the limits: C392, C393, C394. |
| C390 | Reading a floating point number where there is none | `Properties_Flt` | proved | A plus sign is such a character. A lone minus or point is C396. |
| C391 | A number ends before a second point | `Properties_Flt` | partial | Refuted for every text a.b.c: it is consumed whole and read as ab.c. What holds is C388. |
| C392 | The number of decimal places does not matter | `Properties_Flt` | partial | Refuted for every number of 255 or more places: the count has 8 bits, wraps to 0 and stays there, and the point is ignored. What holds is C388, C389. |
| C393 | A number too large for the type sets failbit | `Properties_Flt` | partial | Refuted for every integer of 2^(emax+1) or more: an infinity, without failbit. What holds is C389. |
| C394 | Numbers in range are read as finite numbers near them | `Properties_Flt` | partial | Refuted: a float with 39 to 254 places whose digits are beyond the range reads as NaN (1.000...), digits beyond the range with fewer places as an infinity, few digits behind 39 or more places as zero, although floats hold such numbers. What holds is C389. |
| C395 | Scientific notation is understood | `Properties_Flt` | partial | Refuted for every number with an exponent: read up to the letter. What holds is C388. |
| C396 | A floating point number has a digit | `Properties_Flt` | partial | Refuted for a minus, a point, and a minus and a point, whatever follows. What holds is C390. |
| C397 | Every decimal is read as the nearest number | `Properties_Flt` | partial | Refuted for digits one more than the significand holds, in both formats. What holds is C388, C389. |
| C398 | Elements moved into a vector live until pop_back | `Properties_Life` | proved | The class is neither trivial nor trivially copyable (otherwise: C27, C322). Other ways to remove: C399; other ways to add: C400, C401; growing: C405. Insertion of const T& does not compile. |
| C399 | Every element of a vector is destroyed | `Properties_Life` | partial | Refuted after every history of C398 that leaves an element: no destructor runs at the end of the vector, in clear, in a shrinking resize or in erase of the last element; an element added after clear overwrites an old object. What holds is C398. |
| C400 | Elements of class type can be copied into a vector | `Properties_Life` | partial | Refuted after every history of C398: assignment to storage without an object, for push_back(const T&), append, ranges, initializer lists, and insert before an element when the class is move assignable. What holds is C398, C401, C403. |
| C401 | Insertion of elements that can only be move constructed | `Properties_Life` | proved | For move assignable classes: C400. The objects left behind: C402. |
| C402 | Insertion destroys what it moves from | `Properties_Life` | partial | Refuted for every insertion before an element: each element moved leaves one object that is never destroyed. The sequence is right: C401. |
| C403 | Copying into a vector over the caller's objects | `Properties_Life` | proved | What is not allowed in such a history: C404. |
| C404 | Every operation keeps the caller's objects alive | `Properties_Life` | partial | Refuted: after pop_back the end of the array destroys a destroyed object and push_back(const T&) assigns to it; push_back of a temporary and emplace_back construct over an object that is never destroyed. What holds is C403. |
| C405 | Copies and grown vectors hold objects | `Properties_Life` | partial | Refuted: the copy constructor copies the bytes of the storage, reallocation moves them; reading such an element is undefined. What holds is C398. |
| C406 | resize adds elements, erase removes any element | `Properties_Life` | partial | Refuted: the places added hold no objects; erase of any but the last element moves bytes of objects. What holds is C398. |
| C407 | from_chars without overflow builtins reads numbers that fit | `Properties_Novf` | proved | With the builtins: C12, C13. A negative number followed by something loses its sign here too (C170). The rest is refuted in C410. int has 32 bits. |
| C408 | Stream extraction without overflow builtins reads numbers that fit | `Properties_Novf` | proved | With the builtins: C16, C17. Numbers that do not fit: C409, C411. |
| C409 | Numbers are read modulo a power of two without overflow builtins | `Properties_Novf` | proved | Types int and wider: C410, C411. |
| C410 | from_chars reports numbers that do not fit on every tool chain | `Properties_Novf` | partial | Refuted for every number that does not fit: success with another number, or undefined behaviour for int and wider; and for the least value of int and wider types. What holds is C407, C409. |
| C411 | Stream extraction reports numbers that do not fit on every tool chain | `Properties_Novf` | partial | Refuted for every number that does not fit: failbit stays off, or undefined behaviour for int and wider. What holds is C408, C409. |
| C412 | unordered_map keeps objects of class type alive exactly while they are elements | `Properties_Ulife` | proved | The values of trivial types: C25. Keys are trivial; erasure excludes bucket 0, as in C25. Calls that do not keep to this are refuted in C413-C416. |
| C413 | Elements of unordered_map are destroyed by clear and with the map | `Properties_Ulife` | partial | Refuted for every history: clear() is undefined, as the destructor also runs in empty slots, of which there is always one, and the end of the map destroys no element. |
| C414 | m[k] for a new key makes an element of class type | `Properties_Ulife` | partial | Refuted for every new key: only the key is set, no mapped object is made, so that reading, assigning or erasing it is undefined. |
| C415 | insert_or_assign on a present key loses no object | `Properties_Ulife` | partial | Refuted for every present key: a new object is made over the old one. |
| C416 | gc_active and erase_and_gc move elements of class type | `Properties_Ulife` | partial | Refuted: gc_active of every element with a hole before it in its bucket, and erase_and_gc of every element with another in the next slot, swap with a destroyed object. Trivial types: C70. |
| C417 | unordered_map has keys of class type | `Properties_Ulife` | partial | Refuted: each insertion makes a key over the null key, and erase assigns to the key it has destroyed. |
| C418 | gcount is the number of characters delivered | `Properties_Gct` | proved | What the calls deliver: C47, C49, C50, C62. Other calls: C419-C421. readsome at end of input: C205. |
| C419 | gcount after get | `Properties_Gct` | partial | Refuted for every stream: get() adds one to the earlier value, also at end of input, and never resets it, so n calls give n, and from 2^31 on the counter overflows, which is undefined. |
| C420 | gcount is the number of characters extracted | `Properties_Gct` | partial | Refuted: ignore adds two per character passed, and one at end of input or for the delimiter; a short read gives the number asked for; getline does not count the delimiter. |
| C421 | Formatted input does not alter gcount | `Properties_Gct` | partial | Refuted for every stream: ws peeks, which sets gcount to 0, as does >> into an integer; >> into a character leaves 1. The comment in operator>> says that it does not update gcount. |
| C422 | Linked lists hold the values put in | `Properties_Nlife` | proved | Order and structure: C82, C42. Destruction: C423. |
| C423 | Elements taken out of a linked list are destroyed | `Properties_Nlife` | partial | Refuted for every history: no destructor of an element ever runs (destroy of the node traits is never called), and no list class has a destructor. pop_front gives the storage back (C83), erase_after not even that (C216). |
| C424 | A copy of a forward_list is a list of its own | `Properties_Nlife` | partial | Refuted for every list with an element: the implicit copy constructor copies the front pointer, so after pop_front on one, pop_front and traversal of the other use storage that was given back. |
| C425 | Iterating over a stream buffer gives its characters | `Properties_Sbit` | proved | Exhausted buffers: C426. The character -1: C427. Texts of 2^16 characters: C193. |
| C426 | An iterator on an exhausted stream buffer is the end | `Properties_Sbit` | partial | Refuted for every text: such an iterator differs from the end, shows -1, and a loop from it takes one character that is not there; distance is 1. |
| C427 | Iterating over a stream buffer ends for every text | `Properties_Sbit` | partial | Refuted for every text that has the character -1 (shorter than 2^15), with the library's own traits: its int value is that of end of file, so ++ does not pass it, and the loop never ends. |
| C428 | Writing through an ostreambuf_iterator stores the characters in order | `Properties_Sbit` | proved | Whether it failed: C429. There is no operator*, so *it = c does not compile and the iterator cannot be used with the algorithms. |
| C429 | ostreambuf_iterator::failed tells whether a write failed | `Properties_Sbit` | partial | Refuted for every buffer: failed() is true after a character was stored and false after one was not; before the first write it reads an uninitialised variable. |
| C430 | filter_iterator gives the function's value of each element | `Properties_Sbit` | proved | The name says filter: C431. There is no comparison, so the end has to be known. |
| C431 | filter_iterator shows the elements the predicate accepts | `Properties_Sbit` | partial | Refuted for every array with an element that is not accepted: all elements are gone over, and what is shown is the predicate's answer. |
| C432 | Inserting a double prints it with two decimals | `Properties_Dput` | proved | Between -1 and 0: C433. Larger: C435. Widths pad the integer part only: C436. The base flag: C437. That the nearest double to k/100 can print as (k-1)/100: C434. |
| C433 | The sign of a double is printed | `Properties_Dput` | partial | Refuted for every double strictly between -1 and 0: it prints as its opposite. Otherwise C432. |
| C434 | A double read from two decimals prints as those | `Properties_Dput` | partial | Refuted by 0.29 on every stream: it prints as 0.28. Never off by more than that: C432. |
| C435 | Every double can be inserted into a stream | `Properties_Dput` | partial | Refuted for infinities, NaN and every double of 2^57 or more (the conversions to int64_t are undefined). |
| C436 | A field width is for the whole double | `Properties_Dput` | partial | Refuted for every double of C432 and every width above the length of its integer part. |
| C437 | Inserting a double keeps the stream's base | `Properties_Dput` | partial | Refuted: every insertion that is defined leaves base ten. |
| C438 | Shared objects in a pool give their blocks back | `Properties_Psp` | proved | The managed object's destructor does not run: C439. Without the bytes surviving: C440. pool.destroy: C441. A used-up pool: C442. A pool pointer without an object: C443. Copies after the reset: C444. Shared pointers on their own: C112. |
| C439 | Objects shared from a pool are destroyed | `Properties_Psp` | partial | Refuted: it is called in no history. That the block goes back: C438. |
| C440 | A pool pointer knows its pool | `Properties_Psp` | partial | Refuted for every history: the deleter reads pointers that the constructor left indeterminate. |
| C441 | pool.destroy gives back a shared pointer | `Properties_Psp` | partial | Refuted: the block of a sole owner is put on the free list twice, so the next two objects share it and count_free() does not return; with other owners the block goes back under them and the next object takes their place. The destructor calls itself, which the language leaves undefined; the theorem is about what the code then does. |
| C442 | make_shared reports that the pool is used up | `Properties_Psp` | partial | Refuted: the pointer is constructed at the null pointer. |
| C443 | A pool block without owners is given back | `Properties_Psp` | partial | Refuted for a pointer that has had no object, as the test's comment says; C438 covers the others. |
| C444 | A copied owner keeps the block of a pool | `Properties_Psp` | partial | Refuted for every copy of the only owner left after the reset; the next make_shared puts its object there. Cf. C114. |
| C445 | The output position of a string buffer is the length of its text | `Properties_Sstr` | proved | Seeking does nothing else: C446. |
| C446 | Seeking moves where an output stream writes next | `Properties_Sstr` | partial | Refuted for every state: the arguments of seekoff are not looked at, and the next character is appended (C445). |
| C447 | The date of a day number is near the Gregorian one | `Properties_Ymd` | proved | Not the Gregorian date, and not always a date: C219. |
| C448 | erase at an iterator of an unordered_map returns the next element | `Properties_Uerase` | proved | When nothing is behind the element: C449. Erasing by key: C25. |
| C449 | The last element of an unordered_map can be erased at its iterator | `Properties_Uerase` | partial | Refuted for every history: the search reads the slot past the end before it compares with the end. With an element behind: C448. |
| C450 | bucket_size and count of an unordered_map | `Properties_Uerase` | proved | The full statement, by the technique of the module. |
| C451 | erase_and_gc of the last key of a bucket | `Properties_Uerase` | proved | Keys with others of the bucket behind them: C452. |
| C452 | erase_and_gc keeps the other keys of the bucket | `Properties_Uerase` | partial | Refuted for every key that is neither first nor last in its bucket: the slot stays empty without a mark and the search for every later key of the bucket ends there. Cf. C451. |
| C453 | reserve and shrink_to_fit over fixed storage | `Properties_Dyn` | partial | Refuted: with assertions every call stops the program, also reserve of what is there already; without them every call answers true. |
| C454 | ok() of a date | `Properties_Ymd` | proved | Days beyond the end of a shorter month: C455. |
| C455 | ok() refuses days that a month does not have | `Properties_Ymd` | partial | Refuted for every such day: only the range 1 to 31 is checked. Cf. C454. |
| C456 | sleep_for on Arduino | `Properties_Slp` | proved | The other durations: C457. Under FreeRTOS: C249, C250. |
| C457 | sleep_for on Arduino sleeps at least as long as asked | `Properties_Slp` | partial | Refuted for every duration that is not a whole number of milliseconds: the conversion rounds down. What holds: C456. |
| C458 | sleep_for of a negative duration returns at once | `Properties_Slp` | partial | Refuted: the count becomes unsigned, so that the call blocks for 2^31 - 1 ticks or more. Durations that are not negative: C249, C456. |
| C459 | operator== of unordered containers whose keys differ in order | `Properties_Ueq` | proved | It says nothing of what comes out for equal keys: C460. |
| C460 | operator== of equal unordered containers is true | `Properties_Ueq` | partial | Refuted for every table: after the last element the iterator reads the slot past the end (cf. C68). When the keys differ: C459. |
| C461 | operator== of unordered sets does not depend on the order of insertion | `Properties_Ueq` | partial | Refuted for all keys of one bucket: keys are compared slot by slot, and the slots follow the order of insertion. |
| C462 | A deque made by moving another has its size | `Properties_Dmv` | proved | Elements: C463. Rolling over: C464. |
| C463 | A deque made by moving another owns its elements | `Properties_Dmv` | partial | Refuted: the new deque's pointers point into the deque moved from. front() is the value the move left there, for every history; every access is undefined once that deque is gone; with destructors, moving after a pop is undefined. |
| C464 | A deque made by moving another is circular | `Properties_Dmv` | partial | Refuted for every history: N + 1 rounds of push and pop are undefined. The deque moved from goes on for ever: C19. |
| C465 | Sleeping on the Pico lasts as long as asked | `Properties_Pico` | proved | Negative durations: C466. What sleep_us, delayed_by_us and sleep_until of the SDK do is taken from its documentation (Slp_Spec.v). |
| C466 | Sleeping on the Pico for a negative time returns at once | `Properties_Pico` | partial | Refuted for every negative duration of whole microseconds: the count becomes unsigned. Durations that are not negative: C465. |
| C467 | An std::chrono duration or time point becomes an estd one truncated to whole ticks, and comes back as it was | `Properties_Sch` | proved | Products that overflow and results that are not representable: C468. That the standard library accepts an estd::ratio where it expects an std::ratio is taken for granted (Sch_Model.v). |
| C468 | Construction from an std::chrono duration is defined and exact whenever the result is representable | `Properties_Sch` | partial | Refuted for every count whose product with the numerator overflows 64 bits, and for every result that is not representable, which is narrowed silently. Within those limits: C467. |
| C469 | An std::chrono time point moves by an estd duration | `Properties_Sch` | proved | Unrepresentable results: C470. The arithmetic of std::chrono is modelled as the C++ standard has it (Sch_Model.v). |
| C470 | An std::chrono time point moves by an estd duration from any instant | `Properties_Sch` | partial | Refuted for every time before the epoch and unsigned 64 bit duration that does not reach it, and for every signed sum past the last instant. What is representable: C469. |
| C471 | Every character put into a buffered output is delivered | `Properties_Stream` | partial | False of the code: overflow tests traits::not_eof(ch) on the character itself, so '\xff' is taken for end of file, and with std::char_traits (whose not_eof answers its argument) the null character for false; both are dropped and '*' is answered. Refuted for every such character. Companion of C49. |
| C472 | A buffered output notices what the wrapped buffer refuses | `Properties_Stream` | partial | False of the code: ll_sync ignores what the wrapped sputn answers, clears the buffer and answers 0. Refuted for every buffer whose wrapped buffer takes less than all of it, at pubsync and at a sputc that finds the buffer full. |
| C473 | The storage of a container has room for its values | `Properties_Aln` | proved | The full statement, by the technique of the module. |
| C474 | Values are aligned where the container's own alignment provides for it | `Properties_Aln` | proved | the unrestricted statement is false: see C476 and C477. |
| C475 | A container put at a suitable address keeps its values aligned | `Properties_Aln` | proved | The full statement, by the technique of the module. |
| C476 | The value of an optional, expected or variant is aligned | `Properties_Aln` | partial | false: the storage of values that are not all trivial is an array of bytes. An optional or expected of a class may be at any address; a variant is only as aligned as its std::size_t index. The true cases are in C474 and C475. |
| C477 | The elements of fixed containers are aligned | `Properties_Aln` | partial | false: the elements live in arrays of bytes, so alignas inside the map's entry has no effect on the map itself; the pool is only as aligned as a pointer, the layer1::shared_ptr as its control block. Shown for every position and every type aligned more strictly than the container. The true cases are in C474 and C475. |
| C478 | aligned_storage without alignas holds a value of its type | `Properties_Aln` | partial | false: the member is byte data[Align]. A type larger than its alignment does not fit. |
| C479 | A copy of a fixed pool is a pool of its own | `Properties_Pool` | partial | false: the copy's list head and links point into the original. See C37 for one pool on its own. |
| C480 | The Arduino operators on strings | `Properties_Ard` | proved | for texts and strings as named in the statement; texts that do not fit: C481 |
| C481 | s += F(text) with a text that does not fit | `Properties_Ard` | partial | refuted: if the sum of the lengths leaves the range of size_type the capacity check passes and the text is copied beyond the storage; the assert holds for shorter texts (C28, through C480_flash_as_append) |
| C482 | gc_active and erase_and_gc of class values where nothing has to move | `Properties_Ulife` | proved | the elements for which something has to move: C416 |
| C483 | exchange, and the values of a new pair | `Properties_Xch` | proved | what happens to temporaries: C484 |
| C484 | A pair made of temporaries moves them | `Properties_Xch` | partial | refuted: the constructor's parameters are named, so they are lvalues in its initializers and both elements are copied. (A pair of types that cannot be copied cannot be made this way at all.) A pair has an assignment from a const pair only, so a temporary pair is copied too, and swap copies each element three times. |
| C485 | predefined durations have the lengths of their names | `Properties_Lit` | proved | Beyond the range see C486. |
| C486 | every duration literal and conversion to a finer unit keeps its value | `Properties_Lit` | partial | False: a literal above max() wraps to a negative duration, a conversion whose result does not fit is narrowed to another length, and years is 16 bits wide. The part that holds is C485. |
| C487 | holders give back the value last set where they keep it | `Properties_Evp` | proved | Holders that forget, or refer to what is gone, are C488. |
| C488 | every holder gives back the value it was given | `Properties_Evp` | partial | False: an evaporated holder gives its constant, a reference_evaporator made with a temporary dangles at once, and a holder whose variable has ended is undefined to read or set. The part that holds is C487. |
| C489 | sputc on a buffered output answers the character it was given | `Properties_Stream` | partial | False of the code: sputc passes on what overflow answers, which is '*' for every character; the comment there quotes the contract of overflow, which leaves the value open, but that of sputc does not. Refuted for every character other than '*'. Companion of C49 and C471. |

## Findings: statements refuted of the code

Each theorem below proves, about the model of the code as it is, that a property a user would expect
fails, and says in which states.

* **C21** deque refuses overflow and underflow: `C21_push_full_refuted`, `C21_pop_empty_refuted`
* **C68** iterating an unordered container visits each entry once and ends: `C68_iteration_refuted`
* **C73** inserting a string into itself: `C73_insert_self_refuted`
* **C74** string size is its number of characters: `C74_size_refuted`
* **C84** Moving a linked_ref transfers ownership: `C84_move_only_owner_refuted`, `C84_move_only_owner_count_refuted`, `C84_copy_moved_refuted`
* **C114** Copying a shared_ptr always adds an owner: `C114_copy_counts_refuted`
* **C115** Assigning a shared_ptr to itself changes nothing: `C115_self_assignment_refuted`
* **C116** The owner count of a shared_ptr does not wrap: `C116_many_owners_refuted`
* **C120** sgetn of a bip-buffered stream buffer consumes what it returns: `C120_sgetn_consumes_refuted`, `C120_sgetn_wrapped_refuted`
* **C122** Copying a const function gives an independent function: `C122_copy_refuted`
* **C123** Copying a function leaves the source as it was: `C123_copy_keeps_source_refuted`
* **C124** Assigning a function to itself changes nothing: `C124_self_assignment_refuted`
* **C128** A write that does not fit a string stream is reported: `C128_full_write_refuted`, `C128_full_sputc_refuted`, `C128_nul_write_refuted`
* **C130** sgetn of a string stream reads min(count, available) characters: `C130_sgetn_count_refuted`
* **C132** A seek answers the position it moved to, or fails and moves nothing: `C132_seek_cur_refuted`, `C132_seek_beyond_refuted`
* **C137** ctype::is answers whether a character is in one of the categories (lower, alpha, punct): `C137_is_lower_refuted`, `C137_is_upper_lower_refuted`, `C137_is_alpha_punct_refuted`
* **C151** Units are exact without side conditions: `C151_narrowed_ticks_refuted`, `C151_mixed_refuted`, `C151_same_period_refuted`, `C151_percent_overflow_refuted`, `C151_negative_refuted`, `C151_literal_refuted`
* **C152** Every SI prefix prints, and the text tells the quantity: `C152_giga_refuted`, `C152_kilobytes_refuted`
* **C157** unique_lock releases its mutex: `C157_unique_lock_never_unlocks_refuted`
* **C158** unique_lock(m, try_to_lock) knows whether it owns the mutex: `C158_try_to_lock_goes_on_unlocked_refuted`, `C158_unlock_after_failed_try_refuted`
* **C159** A FreeRTOS mutex is free when new: `C159_binary_mutex_cannot_be_locked_refuted`
* **C161** No release is lost: `C161_release_when_full_lost_refuted`
* **C163** Timed locking waits at least the timeout: `C163_waits_less_than_asked_refuted`, `C163_below_a_tick_does_not_wait_refuted`
* **C164** pop_heap keeps a single integer: `C164_pop_heap_single_int_refuted`
* **C165** make_heap accepts the empty range: `C165_make_heap_empty_refuted`
* **C166** priority_queue.erase removes the only element: `C166_erase_only_element_refuted`
* **C167** priority_queue.emplace returns an element that rises: `C167_emplace_returns_other_element_refuted`
* **C168** bip buffer poll refuses more than was offered: `C168_overread_always_corrupts_refuted`, `C168_poll_delivers_unoffered_bytes_refuted`
* **C169** from_chars on an empty text, and the pointer after an overflow: `C169_empty_text_refuted`, `C169_overflow_pointer_refuted`
* **C170** from_chars with a minus sign followed by something else: `C170_sign_lost_before_trailing_text_refuted`, `C170_minimum_rejected_refuted`, `C170_lone_minus_and_empty_refuted`
* **C171** to_chars uses its whole buffer and accepts every value: `C171_exact_fit_refuted`, `C171_empty_buffer_refuted`, `C171_minimum_refuted`
* **C172** to_string prints the most negative value: `C172_minimum_int8_refuted`
* **C173** stream integer extraction stops right after a number that does not fit: `C173_overflow_early_refuted`, `C173_overflow_late_refuted`, `C173_minus_refuted`, `C173_empty_refuted`
* **C174** A deque slot can be reused by push_back of a constant: `C174_reuse_refuted`
* **C175** Iterating a full deque visits its elements: `C175_full_refuted`
* **C176** deque emplace_front prepends: `C176_emplace_front_refuted`
* **C177** unordered_map find and insert stay inside the table: `C177_table_end_refuted`, `C177_uninitialised_refuted`
* **C178** unordered_map keeps keys unique after erase and insert of a present key: `C178_duplicate_refuted`
* **C179** unordered_map erase loses no other key in any table: `C179_high_bucket_refuted`, `C179_overflow_refuted`, `C179_bucket0_refuted`
* **C180** unordered_set erase of any key: `C180_middle_refuted`, `C180_null_bucket_refuted`
* **C181** erase and growing resize of a fixed-capacity vector: `C181_erase_bytes_refuted`, `C181_erase_refuted`, `C181_resize_grow_refuted`, `C181_string_resize_grow_refuted`
* **C182** A fixed-capacity container never writes outside its storage: `C182_ndebug_refuted`, `C182_string_ndebug_refuted`, `C182_full_string_refuted`, `C182_vector_wrap_refuted`, `C182_string_wrap_refuted`
* **C183** string copy with npos, and append of long texts: `C183_long_append_refuted`, `C183_copy_npos_refuted`, `C183_copy_past_refuted`
* **C184** string equality at every length: `C184_long_refuted`, `C184_long_c_refuted`
* **C185** string find from any position and in any string: `C185_from_pos_refuted`, `C185_stale_refuted`, `C185_overread_refuted`, `C185_empty_needle_refuted`
* **C186** starts_with of an equal string, and characters of an empty string: `C186_starts_with_self_refuted`, `C186_empty_char_refuted`, `C186_empty_last_refuted`
* **C187** string_view substr clamps every count: `C187_clamp_refuted`
* **C188** forward list with back pointer after it was emptied: `C188_emptied_refuted`, `C188_emptied_own_refuted`, `C188_relinked_refuted`
* **C189** forward_list::remove_if removes adjacent matches: `C189_twins_refuted`
* **C190** doubly linked list insert at end(): `C190_insert_end_refuted`
* **C191** linked_ref keeps a null value until the last owner goes away: `C191_null_value_refuted`
* **C192** byteswap of bytes and of int64_t: `C192_byte_refuted`, `C192_int64_refuted`
* **C193** span input stream of any text: `C193_span_input_long_refuted`, `C193_span_input_ff_refuted`
* **C194** span output stream with a block that does not fit: `C194_span_output_refuted`
* **C195** buffered string output of long blocks: `C195_buffered_block_refuted`
* **C196** getline with long lines, and its state after a complete line: `C196_getline_overrun_refuted`, `C196_getline_failbit_refuted`
* **C197** width and fill for octal numerals, left-adjusted characters, strings and wide fields: `C197_octal_refuted`, `C197_char_left_refuted`, `C197_string_refuted`, `C197_setw_refuted`
* **C198** fill character round-trips for every character: `C198_fill_round_trip_refuted`
* **C199** boolalpha parsing of other texts: `C199_first_char_refuted`, `C199_overrun_refuted`
* **C200** duration arithmetic whenever the result fits: `C200_conversion_overflow_refuted`, `C200_comparison_of_narrowed_ticks_refuted`, `C200_unsigned_above_half_refuted`, `C200_uint64_does_not_compile_refuted`
* **C201** ratio is normalised like std::ratio: `C201_num_den_not_reduced_refuted`, `C201_sign_moves_to_denominator_refuted`
* **C202** subspan without count, and first beyond the span: `C202_first_unchecked_refuted`, `C202_subspan_rest_refuted`
* **C203** setf applies the mask: `C203_setf_mask_refuted`
* **C204** swapping an integer with itself changes nothing: `C204_self_swap_integer_refuted`
* **C205** readsome at the end of the text: `C205_readsome_refuted`
* **C206** seekg from the end and after end of file: `C206_seekg_end_refuted`, `C206_seekg_eof_refuted`
* **C207** num_put without adjustment flag: `C207_num_put_refuted`
* **C208** extraction of NUL: `C208_nul_refuted`
* **C209** put of the character -1: `C209_put_eof_refuted`
* **C210** unordered_map accepts a new key whatever other buckets hold: `C210_overflow_refuted`
* **C211** compare orders strings of different length lexicographically: `C211_length_first_refuted`
* **C212** rfind of an empty needle and in an empty string: `C212_empty_needle_refuted`, `C212_empty_string_refuted`
* **C213** find_last_of behind the end and in an empty string: `C213_behind_end_refuted`, `C213_empty_string_refuted`
* **C214** pool handles beyond 128 blocks: `C214_handle_refuted`
* **C215** list iterator minus a count: `C215_minus_refuted`
* **C216** forward_list gives back erased nodes: `C216_erase_leaks_refuted`
* **C217** Wide integers never collide: `C217_wide_refuted`
* **C218** hh_mm_ss of 256 minutes or more: `C218_seconds_from_256_minutes_refuted`
* **C219** calendar conversions are Gregorian: `C219_is_leap_refuted`, `C219_month_ok_refuted`, `C219_year_refuted`, `C219_year_month_day_refuted`, `C219_before_epoch_refuted`, `C219_month_13_refuted`
* **C220** promoted_type of a signed and a larger unsigned type: `C220_mixed_refuted`
* **C221** Copying a variant of an uncopyable alternative: `C221_copy_uncopyable_refuted`
* **C222** Variant exceptions in every assignment, and every self-assignment: `C222_assign_throws_other_refuted`, `C222_assign_throws_replace_refuted`, `C222_self_assign_refuted`
* **C223** Variant chooses the best match: `C223_best_match_refuted`, `C223_explicit_refuted`, `C223_emplace_duplicate_refuted`
* **C224** visit calls the visitor with the held alternative: `C224_visit_refuted`, `C224_visit_first_refuted`
* **C225** Hash of an empty optional: `C225_hash_empty_refuted`
* **C226** An empty optional is less than every value: `C226_less_empty_refuted`
* **C227** Optional exceptions over a held value, and every self-assignment: `C227_emplace_throws_refuted`, `C227_assign_throws_refuted`, `C227_self_assign_refuted`
* **C228** layer1::optional holds the null value and large values: `C228_null_lost_refuted`, `C228_bits_truncate_refuted`
* **C229** expected exception safety of every assignment and emplace: `C229_switch_throws_refuted`, `C229_emplace_throws_refuted`, `C229_unassignable_throws_refuted`
* **C230** expected move construction of move-only types: `C230_move_only_refuted`
* **C231** value sequence contains repeated values: `C231_contains_duplicate_refuted`
* **C232** tuple::visit reports acceptance of the first element, or of none: `C232_first_accepted_refuted`, `C232_none_accepted_refuted`
* **C233** swapping a pair of integers with itself changes nothing: `C233_swap_int_self_refuted`
* **C234** get of a null shared_ptr: `C234_null_get_refuted`
* **C235** A slow sink never corrupts a bip-buffered stream buffer in any history: `C235_refusing_sink_refuted`, `C235_partial_sink_refuted`, `C235_uncounted_refuted`
* **C236** Reading characters beyond ASCII through a bip-buffered stream buffer: `C236_signed_refuted`
* **C237** Copies of empty functions and functions that are not nullable test true only if they can be called: `C237_copy_of_empty_refuted`, `C237_not_nullable_refuted`
* **C238** A copy of an inline function calls its own callable: `C238_inline_copy_refuted`
* **C239** After clear() a string stream that was read is empty: `C239_clear_position_refuted`
* **C240** isspace(ch) accepts all six white space characters: `C240_isspace_refuted`
* **C241** Readings of a wrapping clock keep the order of the instants: `C241_wrapped_order_refuted`
* **C242** A time point advances by small steps: `C242_small_steps_refuted`
* **C243** A duration times a number of any type: `C243_narrow_product_refuted`, `C243_overflow_refuted`, `C243_unsigned_factor_refuted`
* **C247** A received object owns what was sent: `C247_received_object_refuted`, `C247_overwritten_object_refuted`
* **C248** Copying a queue object: `C248_copied_queue_refuted`
* **C250** sleep_for sleeps at least the duration: `C250_sleeps_too_short_refuted`
* **C253** A byte may be shifted by any count below 32: `C253_shift_out_refuted`
* **C255** length<8> is enough for every integer: `C255_octal_length_refuted`
* **C257** A copy of a thisify_function is a function of its own: `C257_copy_refuted`
* **C258** A static_function calls the functor it was made with: `C258_second_refuted`
* **C259** Functions whose model destroys the functor after the call can be used like the others: `C259_once_refuted`
* **C260** Calling an empty or stale non-owning function is defined: `C260_empty_refuted`, `C260_ended_refuted`
* **C263** An allocation that just uses up a chunk succeeds: `C263_exact_fit_refuted`
* **C264** An allocation may leave a chunk of any size: `C264_small_rest_refuted`
* **C265** Running out of handles is reported: `C265_no_handle_refuted`
* **C266** maint can be called any number of times: `C266_maint_twice_refuted`
* **C267** Maintenance loses no memory: `C267_maint_loses_refuted`
* **C270** count_free of the second pool is the number of free blocks: `C270_count_position_refuted`, `C270_count_refuted`
* **C271** construct on a pool that is used up is reported: `C271_construct_refuted`
* **C272** The blocks of the handle-based pool are aligned for their type: `C272_alignment_refuted`
* **C276** A text that passed validation converts to the number it spells: `C276_too_big_int_refuted`, `C276_too_big_byte_refuted`
* **C277** validateString<int> accepts the text of every int: `C277_negative_refuted`
* **C278** validateString<unsigned short> accepts only numbers of that type: `C278_rest_ignored_refuted`, `C278_negative_refuted`, `C278_too_big_refuted`
* **C279** Validation is defined for every text: `C279_undefined_refuted`
* **C281** The older from_chars reads only its range: `C281_past_the_end_refuted`, `C281_array_of_digits_refuted`
* **C282** The older from_chars accepts only the pattern of from_chars: `C282_blank_refuted`, `C282_plus_refuted`, `C282_hex_refuted`
* **C283** The older from_chars leaves the value alone on failure: `C283_no_number_refuted`, `C283_too_big_refuted`
* **C285** maxStringLength and string_convert_traits are enough for every integer type: `C285_no_room_refuted`, `C285_arm_int32_refuted`, `C285_traits_refuted`
* **C287** A log tag may be any text: `C287_percent_refuted`
* **C290** A failed read leaves the value alone: `C290_not_good_refuted`
* **C291** A word that does not fit is reported: `C291_long_refuted`
* **C292** Reading a word keeps all its characters: `C292_zero_refuted`
* **C295** Reading a character stores it whatever it is: `C295_zero_refuted`
* **C299** One set of a flag releases one task: `C299_one_flag_many_tasks_refuted`
* **C301** Every event_group object can be used and destroyed: `C301_copied_group_refuted`, `C301_failed_creation_refuted`
* **C306** No callback after stop or destruction: `C306_callback_after_stop_refuted`, `C306_callback_after_destructor_refuted`
* **C307** The destructor of a timer deletes it: `C307_lost_delete_refuted`
* **C308** A timer in static storage can be destroyed at any time: `C308_static_storage_refuted`
* **C309** Every timer object can be used and destroyed: `C309_copied_timer_refuted`, `C309_failed_creation_refuted`
* **C310** Setting the period leaves a dormant timer dormant: `C310_period_starts_refuted`
* **C311** A timer is active after start: `C311_active_after_start_refuted`
* **C315** Assigning one element to another: `C315_vector_element_refuted`, `C315_string_element_refuted`, `C315_rebound_refuted`
* **C317** An array takes an initializer list of any length: `C317_long_refuted`, `C317_short_refuted`
* **C319** A layer1 map with fewer pairs than it can hold: `C319_map_list_refuted`
* **C321** top() of a const stack: `C321_const_top_refuted`
* **C324** A growing container gives its memory back when it goes out of scope: `C324_scope_end_leaks_refuted`
* **C325** A refused allocation leaves the container as it was: `C325_refused_push_undefined_refuted`, `C325_refused_reserve_loses_everything_refuted`
* **C326** reserve of less than the size: `C326_reserve_below_size_refuted`
* **C328** Pushing an element of the container when it is full: `C328_push_own_element_when_full_refuted`
* **C329** A copy of a growing container is independent: `C329_copy_sees_writes_refuted`, `C329_copy_dangles_refuted`
* **C331** insert returns a usable iterator also when the container had to grow: `C331_insert_iterator_when_full_refuted`
* **C333** Assigning one element proxy to another copies the value: `C333_assigning_proxies_rebinds_refuted`
* **C334** Iterators and locking accessors leave memory unlocked: `C334_conversion_leaves_locked_refuted`, `C334_iterator_life_refuted`
* **C336** The difference of handle offsets is exact for every size type: `C336_difference_of_unsigned_int_refuted`
* **C337** Comparisons of handle offsets agree: `C337_ge_of_other_blocks_refuted`
* **C340** No notification an observer could handle is lost: `C340_silently_lost_refuted`
* **C341** Proxies forward the context: `C341_context_dropped_refuted`
* **C342** A proxy made from a subject notifies the observers of that subject: `C342_original_unmoved_refuted`
* **C344** Every byte can be read from a device: `C344_byte_255_refuted`
* **C346** A character that was sent is not reported as failed: `C346_put_255_refuted`
* **C347** A blocking stream waits for characters: `C347_get_does_not_wait_refuted`
* **C348** A write with time-out sends the caller's characters only: `C348_reads_past_refuted`
* **C349** A write that ran out of time is reported: `C349_timeout_silent_refuted`
* **C352** A string in program memory has any length: `C352_cut_refuted`
* **C353** Copying from the middle stops at the end: `C353_copy_past_the_end_refuted`
* **C354** Comparison covers the whole string: `C354_nul_hides_refuted`
* **C356** Indexing a test_container gives the element: `C356_wrong_element_refuted`
* **C357** A field width applies to a string in program memory: `C357_width_pads_one_character_refuted`
* **C361** A variadic function is a function: `C361_variadic_functions_refuted`
* **C362** A union is a union: `C362_unions_refuted`
* **C363** Only enumerations are enumerations: `C363_not_enumerations_refuted`
* **C364** Only arithmetic types are unsigned: `C364_not_arithmetic_refuted`
* **C366** Types without a reference stay as they are: `C366_no_reference_refuted`
* **C367** Every function decays to a pointer: `C367_stay_functions_refuted`, `C367_errors_refuted`
* **C370** make_unsigned gives the unsigned type: `C370_no_type_refuted`, `C370_wrong_type_refuted`
* **C372** A union is no base: `C372_union_refuted`
* **C375** function_traits knows every callable: `C375_other_callables_refuted`
* **C377** The common type holds all values: `C377_negative_values_refuted`
* **C379** div is right for every value of the type: `C379_least_value_refuted`, `C379_long_refuted`
* **C381** Different errors are different on every platform: `C381_same_number_refuted`
* **C384** A locked address stays good with any allocator: `C384_size_releases_users_lock_refuted`, `C384_own_address_goes_stale_refuted`
* **C385** A container inserted into itself over moving memory: `C385_insert_self_stale_refuted`
* **C386** data() leaves the memory movable: `C386_data_keeps_the_lock_refuted`
* **C387** A container without memory can be used: `C387_no_memory_to_lock_refuted`
* **C391** A number ends before a second point: `C391_two_points_refuted`
* **C392** The number of decimal places does not matter: `C392_places_refuted`
* **C393** A number too large for the type sets failbit: `C393_too_large_refuted`
* **C394** Numbers in range are read as finite numbers near them: `C394_nan_refuted`, `C394_infinity_refuted`, `C394_zero_refuted`
* **C395** Scientific notation is understood: `C395_exponent_refuted`
* **C396** A floating point number has a digit: `C396_no_digit_refuted`
* **C397** Every decimal is read as the nearest number: `C397_long_refuted`
* **C399** Every element of a vector is destroyed: `C399_gone_refuted`, `C399_shrink_refuted`, `C399_clear_refuted`, `C399_reuse_refuted`, `C399_erase_refuted`
* **C400** Elements of class type can be copied into a vector: `C400_append_refuted`, `C400_push_back_refuted`, `C400_initializer_list_refuted`, `C400_insert_range_refuted`, `C400_insert_refuted`
* **C402** Insertion destroys what it moves from: `C402_insert_refuted`
* **C404** Every operation keeps the caller's objects alive: `C404_pop_refuted`, `C404_push_refuted`
* **C405** Copies and grown vectors hold objects: `C405_copy_refuted`, `C405_growth_refuted`
* **C406** resize adds elements, erase removes any element: `C406_resize_refuted`, `C406_erase_refuted`
* **C410** from_chars reports numbers that do not fit on every tool chain: `C410_unnoticed_refuted`, `C410_least_refuted`
* **C411** Stream extraction reports numbers that do not fit on every tool chain: `C411_unnoticed_refuted`
* **C413** Elements of unordered_map are destroyed by clear and with the map: `C413_clear_refuted`, `C413_end_refuted`
* **C414** m[k] for a new key makes an element of class type: `C414_new_refuted`
* **C415** insert_or_assign on a present key loses no object: `C415_over_refuted`
* **C416** gc_active and erase_and_gc move elements of class type: `C416_gc_refuted`, `C416_erase_refuted`
* **C417** unordered_map has keys of class type: `C417_lost_refuted`, `C417_erase_refuted`
* **C419** gcount after get: `C419_get_refuted`, `C419_gets_refuted`, `C419_overflow_refuted`
* **C420** gcount is the number of characters extracted: `C420_ignore_refuted`, `C420_ignore_until_refuted`, `C420_read_refuted`, `C420_getline_refuted`
* **C421** Formatted input does not alter gcount: `C421_ws_refuted`, `C421_int_refuted`, `C421_char_refuted`
* **C423** Elements taken out of a linked list are destroyed: `C423_forward_list_refuted`, `C423_list_refuted`, `C423_nodes_refuted`
* **C424** A copy of a forward_list is a list of its own: `C424_copy_refuted`
* **C426** An iterator on an exhausted stream buffer is the end: `C426_exhausted_refuted`
* **C427** Iterating over a stream buffer ends for every text: `C427_ff_refuted`
* **C429** ostreambuf_iterator::failed tells whether a write failed: `C429_success_refuted`, `C429_failure_refuted`, `C429_unwritten_refuted`
* **C431** filter_iterator shows the elements the predicate accepts: `C431_all_elements_refuted`
* **C433** The sign of a double is printed: `C433_sign_refuted`
* **C434** A double read from two decimals prints as those: `C434_hundredths_refuted`
* **C435** Every double can be inserted into a stream: `C435_large_refuted`
* **C436** A field width is for the whole double: `C436_width_refuted`
* **C437** Inserting a double keeps the stream's base: `C437_base_refuted`
* **C439** Objects shared from a pool are destroyed: `C439_never_refuted`, `C439_last_owner_refuted`
* **C440** A pool pointer knows its pool: `C440_pointer_refuted`, `C440_follower_refuted`
* **C441** pool.destroy gives back a shared pointer: `C441_sole_owner_refuted`, `C441_other_owners_refuted`
* **C442** make_shared reports that the pool is used up: `C442_full_refuted`
* **C443** A pool block without owners is given back: `C443_no_object_refuted`
* **C444** A copied owner keeps the block of a pool: `C444_copy_refuted`
* **C446** Seeking moves where an output stream writes next: `C446_output_seek_refuted`
* **C449** The last element of an unordered_map can be erased at its iterator: `C449_erase_last_refuted`
* **C452** erase_and_gc keeps the other keys of the bucket: `C452_middle_refuted`
* **C453** reserve and shrink_to_fit over fixed storage: `C453_debug_refuted`, `C453_ndebug_refuted`
* **C455** ok() refuses days that a month does not have: `C455_no_such_day_refuted`
* **C457** sleep_for on Arduino sleeps at least as long as asked: `C457_may_sleep_less_refuted`
* **C458** sleep_for of a negative duration returns at once: `C458_freertos_negative_refuted`, `C458_arduino_negative_refuted`
* **C460** operator== of equal unordered containers is true: `C460_same_refuted`
* **C461** operator== of unordered sets does not depend on the order of insertion: `C461_order_refuted`
* **C463** A deque made by moving another owns its elements: `C463_moved_from_value_refuted`, `C463_source_gone_refuted`, `C463_popped_refuted`
* **C464** A deque made by moving another is circular: `C464_no_rollover_refuted`
* **C466** Sleeping on the Pico for a negative time returns at once: `C466_negative_refuted`, `C466_before_boot_refuted`
* **C468** Construction from an std::chrono duration is defined and exact whenever the result is representable: `C468_product_overflow_refuted`, `C468_narrowed_refuted`
* **C470** An std::chrono time point moves by an estd duration from any instant: `C470_before_epoch_refuted`, `C470_past_the_end_refuted`
* **C471** Every character put into a buffered output is delivered: `C471_dropped_refuted`
* **C472** A buffered output notices what the wrapped buffer refuses: `C472_sync_refuted`, `C472_full_refuted`
* **C476** The value of an optional, expected or variant is aligned: `C476_optional_refuted`, `C476_expected_refuted`, `C476_variant_refuted`
* **C477** The elements of fixed containers are aligned: `C477_vector_refuted`, `C477_map_refuted`, `C477_bipbuf_refuted`, `C477_pool_refuted`, `C477_shared_ptr_refuted`
* **C478** aligned_storage without alignas holds a value of its type: `C478_size_refuted`, `C478_alignment_refuted`
* **C479** A copy of a fixed pool is a pool of its own: `C479_same_block_refuted`, `C479_used_block_refuted`
* **C481** s += F(text) with a text that does not fit: `C481_long_text_refuted`
* **C484** A pair made of temporaries moves them: `C484_pair_refuted`, `C484_make_pair_refuted`, `C484_assign_refuted`, `C484_swap_refuted`
* **C486** every duration literal and conversion to a finer unit keeps its value: `C486_literal_refuted`, `C486_to_finer_refuted`, `C486_years_refuted`
* **C488** every holder gives back the value it was given: `C488_evaporated_refuted`, `C488_temporary_refuted`, `C488_ended_refuted`
* **C489** sputc on a buffered output answers the character it was given: `C489_answer_refuted`

## Trusted base

* The kernel of Coq 8.16.1, including its conversion by `vm_compute` (used in
  examples and finite sweeps), and the standard library.  No other library is used.
* The reading of /repo: the models are transcriptions by hand, nothing is
  extracted or executed.  What the C++ standard and the platform say (overload
  resolution, layout of unions, widths of integers) enters through the comments
  at each definition.
* `Print Assumptions` stands after every property theorem (1006 commands); each
  answers "Closed under the global context": no theorem rests on an axiom.
* Loading `ZArith` brings seven declarations of the standard
  library's module type implementation in `Coq.ssr.ssrunder` into the environment
  (`Under_rel.Under_rel`, `Under_rel_from_rel`, `Under_relE`, `Over_rel`,
  `over_rel`, `over_rel_done`, `under_rel_done`).  `vcheck` lists them as library
  axioms; no theorem here depends on them.
* No axiom, `Admitted`, functor, module type, section-less variable, plugin or
  switched-off check is in the sources.
