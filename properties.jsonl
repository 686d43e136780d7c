{"id": "C01", "title": "push_heap restores the heap", "statement": "If [first,last-1) is a heap for comp, then after push_heap(first,last,comp) the whole range [first,last) is a heap for comp and holds exactly the same elements as before (as a multiset).", "quantifier": "every element type, every strict weak order comp, every branching factor k>=1, every range length >=1 and every content whose prefix is a heap", "why_tests_cant": "the set of heaps and orders is infinite; a wrong parent index only shows on particular shapes", "anchors": ["src/estd/internal/algorithm/heap.h:heap::restore_up", "src/estd/internal/algorithm/heap.h:push_heap"]}
{"id": "C02", "title": "pop_heap moves a greatest element to the end", "statement": "On a non-empty heap [first,last) - of elements swapped through a temporary, that is of every class type, or of at least two built-in integers - pop_heap leaves at last-1 the element that was at first, which no element of the range beats under comp; [first,last-1) is again a heap; the range holds the same multiset.", "quantifier": "every strict weak order, every k>=1, every non-empty heap (two or more elements for built-in integers, see the companion property on a single integer)", "why_tests_cant": "all heap shapes and all tie patterns must be covered", "anchors": ["src/estd/internal/algorithm/heap.h:heap::pop", "src/estd/internal/algorithm/heap.h:heap::restore_down", "src/estd/internal/algorithm/heap.h:pop_heap"]}
{"id": "C03", "title": "make_heap builds a heap from any range", "statement": "make_heap(first,last,comp,k) turns any non-empty range into a k-ary heap and permutes the elements without losing or duplicating any.", "quantifier": "every strict weak order, every k>=1, every content of every length but 0", "why_tests_cant": "loop-bound errors only show for particular lengths modulo k", "anchors": ["src/estd/internal/algorithm/heap.h:heap::make", "src/estd/internal/algorithm/heap.h:make_heap"]}
{"id": "C04", "title": "priority_queue serves elements in priority order", "statement": "After any sequence of push and pop calls (pop only when non-empty, pushes within capacity), top() is an element of the current multiset that no other element beats, size() is the number of pushes minus pops, and draining the queue yields the contents in priority order.", "quantifier": "every history of push/pop, every strict weak order, every capacity", "why_tests_cant": "histories are unbounded", "anchors": ["src/estd/internal/priority_queue.h:priority_queue::push/pop/top/size", "src/estd/internal/algorithm/heap.h"]}
{"id": "C05", "title": "priority_queue.erase removes exactly one element", "statement": "erase_if(f) on a queue of none or at least two elements returns whether some element satisfies f; if so exactly one such element is removed and the rest still form a valid priority queue; otherwise nothing changes.", "quantifier": "every queue content other than a single element, every predicate", "why_tests_cant": "the element removed may be at any index of any heap shape, including the last one", "anchors": ["src/estd/internal/priority_queue.h:priority_queue::erase/erase_if"]}
{"id": "C06", "title": "priority_queue.emplace returns the emplaced element if it does not rise", "statement": "The accessor returned by emplace(v) refers to the element just inserted if that element does not beat the one above it, so that it stays last.", "quantifier": "every queue content and every value that does not rise", "why_tests_cant": "whether the returned accessor is right depends on where the element sifts to", "anchors": ["src/estd/internal/priority_queue.h:priority_queue::emplace"]}
{"id": "C07", "title": "bip buffer is a FIFO of bytes", "statement": "For every history of offer and poll calls in which each poll asks for no more than the currently contiguous readable bytes, the concatenation of polled chunks is a prefix of the concatenation of accepted offers, and the rest is what remains in the buffer, in order.", "quantifier": "every capacity, every history of offers (any chunk sizes and contents) and polls", "why_tests_cant": "wrap-around, region switch and drain interleavings are unbounded", "anchors": ["src/estd/ext/willemt/bipbuffer/bipbuffer.c:bipbuf_offer", "src/estd/ext/willemt/bipbuffer/bipbuffer.c:bipbuf_poll", "src/estd/ext/willemt/bipbuffer/bipbuffer.c:bipbuf_peek"]}
{"id": "C08", "title": "bip buffer accounting and bounds", "statement": "offer(n bytes) is accepted exactly when n <= unused(); an accepted offer increases used() by n and writes only inside [0,size) and never over unread bytes; a poll of n decreases used() by n; used()+unused() <= size at all times.", "quantifier": "every capacity and history", "why_tests_cant": "requires an invariant over all reachable region layouts", "anchors": ["src/estd/ext/willemt/bipbuffer/bipbuffer.c:bipbuf_unused", "src/estd/ext/willemt/bipbuffer/bipbuffer.c:bipbuf_used", "src/estd/ext/willemt/bipbuffer/bipbuffer.c:bipbuf_offer"]}
{"id": "C09", "title": "bip buffer poll never returns bytes that were not offered", "statement": "poll(n) and peek(n) refuse exactly when the buffer is empty or the request runs past the end of the storage; a refused call leaves the buffer intact, and peek and poll agree.", "quantifier": "every reachable buffer state and every n", "why_tests_cant": "needs every state; only some layouts expose it", "anchors": ["src/estd/ext/willemt/bipbuffer/bipbuffer.c:bipbuf_peek", "src/estd/ext/willemt/bipbuffer/bipbuffer.c:bipbuf_poll"]}
{"id": "C10", "title": "bip buffer drains to the empty state", "statement": "After polling everything, is_empty() is true, and a buffer that is empty accepts an offer of its full capacity.", "quantifier": "every history", "why_tests_cant": "depends on where the regions ended up", "anchors": ["src/estd/ext/willemt/bipbuffer/bipbuffer.c:bipbuf_poll", "src/estd/ext/willemt/bipbuffer/bipbuffer.c:bipbuf_is_empty", "src/estd/ext/willemt/bipbuffer/bipbuffer.c:bipbuf_unused"]}
{"id": "C11", "title": "to_chars then from_chars is the identity", "statement": "For every unsigned value representable in w bits and every base 2..36, writing it with to_chars into a large enough buffer and reading the produced characters with from_chars in the same base yields no error, consumes exactly the produced characters and gives back the value.", "quantifier": "every width w, every value < 2^w, every base in 2..36", "why_tests_cant": "2^64 values times 35 bases", "anchors": ["src/estd/internal/charconv.hpp:to_chars/to_chars_integer_opt", "src/estd/internal/charconv/from_chars.hpp:from_chars_integer"]}
{"id": "C12", "title": "from_chars parses the maximal digit prefix (unsigned)", "statement": "from_chars on an unsigned type and a non-empty text reads the maximal prefix of digits valid in the base; returns its exact value with ptr just after it; if the value does not fit returns result_out_of_range, leaves value unmodified and ptr past all the digits - just past them in bases 10 and 36 or at the end of the text; with no digits returns invalid_argument and ptr = first.", "quantifier": "every non-empty character sequence, base 2..36, width", "why_tests_cant": "all strings", "anchors": ["src/estd/internal/charconv/from_chars.hpp:from_chars_integer", "src/estd/internal/raise_and_add.h:raise_and_add", "src/estd/internal/locale/cbase.h:cbase"]}
{"id": "C13", "title": "from_chars parses negative numbers (signed)", "statement": "from_chars on a signed type without a leading minus sign behaves as on an unsigned one; '-' followed by the digits of a number greater than the minimum, up to the end of the text, gives the exact negative value; a number below the minimum gives result_out_of_range.", "quantifier": "every character sequence, every base, every width", "why_tests_cant": "all strings, and boundary values at every width", "anchors": ["src/estd/internal/charconv/from_chars.hpp:from_chars_integer"]}
{"id": "C14", "title": "to_chars writes the canonical numeral inside the buffer", "statement": "For every value but the most negative and every buffer of at least one character, to_chars(first,last,v,base) never writes outside [first,last); on success [first,ptr) is the canonical numeral of v (no leading zeros, minus sign iff negative, lowercase digits); it fails with value_too_large exactly when the numeral, and one more character if v is not negative, does not fit. to_chars_opt does the same at the end of the buffer; to_chars_exp needs no extra character.", "quantifier": "every value but the most negative, every base, every buffer length but 0", "why_tests_cant": "all values by all buffer lengths", "anchors": ["src/estd/internal/charconv.hpp:to_chars/to_chars_integer_opt"]}
{"id": "C15", "title": "to_string prints every integer correctly", "statement": "to_string(v) is the canonical decimal numeral of v for every value of every integer width except the most negative one, and two different values never print alike.", "quantifier": "every value of every width except the minimum", "why_tests_cant": "2^64 values", "anchors": ["src/estd/internal/to_string.h", "src/estd/internal/charconv.hpp:to_chars_integer_opt"]}
{"id": "C16", "title": "stream integer extraction yields the exact value or saturates", "statement": "Extracting an integer from characters: the value of the maximal digit prefix if it fits; otherwise failbit is set and the value is the maximum (minimum for negatives).", "quantifier": "every character sequence, base 8/10/16, every signed or unsigned width; streams over texts of fewer than 65536 characters, none of them (char)-1 if the library's own traits are used (C193)", "why_tests_cant": "all strings", "anchors": ["src/estd/internal/locale/iterated/num_get.h:num_get::get/nominal", "src/estd/internal/locale/num_get.h"]}
{"id": "C17", "title": "stream integer extraction stops right after the number", "statement": "Extraction of a number that fits consumes exactly the leading white space, the sign and the digits, whatever follows, setting eofbit exactly if nothing follows; with neither sign nor digit it sets failbit and consumes only white space; without a base flag it sets failbit and assigns nothing.", "quantifier": "every character sequence, every base, every width; streams over texts of fewer than 65536 characters, none of them (char)-1 if the library's own traits are used (C193)", "why_tests_cant": "needs all overflow strings", "anchors": ["src/estd/internal/locale/iterated/num_get.h:num_get::get"]}
{"id": "C18", "title": "stream integer extraction inverts insertion", "statement": "Inserting a value that operator<< can write (every value but the most negative, octal numerals that fit its buffer), padded with spaces in front or not at all, and extracting it with operator>> in the same base gives the value back with eofbit only.", "quantifier": "every value of every width within these limits, bases 8/10/16", "why_tests_cant": "2^64 values", "anchors": ["src/estd/internal/locale/iterated/num_get.h", "src/estd/internal/ostream/integer.h", "src/estd/internal/locale/num_put.h"]}
{"id": "C19", "title": "layer1::deque/queue is a FIFO within capacity", "statement": "Any history of push_back/pop_front/pop_back that never pushes when full and never pops when empty behaves like the same history on an ideal sequence - front(), back(), size(), empty() agree at every point, and a queue delivers what was pushed, in order - for elements without destructors, and for all elements if they are pushed by move or emplace.", "quantifier": "every capacity N>=1, every element type, every such history", "why_tests_cant": "all positions of the circular buffer modulo N", "anchors": ["src/estd/queue.h:layer1::deque"]}
{"id": "C20", "title": "deque iteration visits the contents in order", "statement": "begin()..end() of a deque that is not full enumerates exactly its elements from front to back, and backwards from back to front.", "quantifier": "every reachable deque that is not full", "why_tests_cant": "the full state is a single point of a large state space", "anchors": ["src/estd/queue.h:layer1::deque::begin/end"]}
{"id": "C21", "title": "deque refuses overflow and underflow", "statement": "push_back on a full deque and pop_front on an empty one report failure and change nothing.", "quantifier": "every reachable deque", "why_tests_cant": "needs boundary states of every capacity", "anchors": ["src/estd/queue.h:layer1::deque::push_back/pop_front"]}
{"id": "C22", "title": "deque push_front prepends", "statement": "After push_front(v) (not full) front() is v and the rest of the sequence is unchanged.", "quantifier": "every reachable deque state", "why_tests_cant": "all front/back positions", "anchors": ["src/estd/queue.h:layer1::deque::emplace_front/push_front"]}
{"id": "C23", "title": "unordered_map find agrees with the map contents", "statement": "For every history of insertions (insert/try_emplace/insert_or_assign) into a table over storage whose last slot does not carry the erased mark, in which no bucket's keys reach the end of the table, find(k) succeeds iff k was accepted, and yields the mapped value.", "quantifier": "every bucket count, hash function, and such history of insertions", "why_tests_cant": "collisions and bucket overflow depend on the hash of every key", "anchors": ["src/estd/internal/container/unordered/map.h", "src/estd/internal/container/unordered/traits.h"]}
{"id": "C24", "title": "unordered_map keeps keys unique", "statement": "At no time do two live entries have equal keys: in histories of insertions, and in histories with erasures in which insert and try_emplace are called for absent keys and buckets stay within their depth (the last one below it). In histories of insertions, insert and try_emplace of a key that is present answer its element and false and change nothing, and m[k] denotes it.", "quantifier": "every such history", "why_tests_cant": "needs histories mixing erase and insert in one bucket", "anchors": ["src/estd/internal/container/unordered/"]}
{"id": "C25", "title": "unordered_map erase removes only the given key", "statement": "After erase(k), k is absent and every other key keeps its mapped value and can be found: in tables of 4m slots, m<=16, whose buckets stay within their depth (the last one below it), with insert and try_emplace called for absent keys and no key of bucket 0 erased; every answer is then that of a finite map.", "quantifier": "every history of insertions, assignments, erasures, gc and clear within these limits", "why_tests_cant": "needs every collision pattern", "anchors": ["src/estd/internal/container/unordered/"]}
{"id": "C26", "title": "unordered_set erase removes only the given key", "statement": "After erase(iterator) of the last key of a bucket, or the first of a bucket other than the null key's, the key is gone and every other key can still be found.", "quantifier": "every set reached by insertions and such erasures", "why_tests_cant": "needs every collision pattern", "anchors": ["src/estd/internal/container/unordered/set.h"]}
{"id": "C27", "title": "fixed-capacity vector is a sequence", "statement": "Any history within capacity (N for vectors and sized strings, N-1 for null-terminated strings) of push_back, pop_back, append, assign, clear, insert and erase (vectors: erase of one-byte elements or of the last element), and resize downwards, behaves like the same history on an ideal list, for every observer (size, empty, operator[], front, back, iteration).", "quantifier": "every capacity, element values and such history", "why_tests_cant": "histories unbounded", "anchors": ["src/estd/vector.h", "src/estd/internal/impl/dynamic_array.h", "src/estd/internal/dynamic_array.h"]}
{"id": "C28", "title": "A fixed-capacity container stops in an assert beyond its capacity", "statement": "With asserts on, a call of push_back/append/insert/assign/resize that would exceed the capacity of a fixed-capacity container stops in the assert, provided the resulting length is representable in its size_type; calls within capacity touch only the storage (C27).", "quantifier": "every reachable state and argument", "why_tests_cant": "needs every length near capacity", "anchors": ["src/estd/internal/impl/dynamic_array.h:grow/append/ensure_additional_size"]}
{"id": "C29", "title": "string append and copy", "statement": "append(s,n), append(n,ch), += and assignment make the string the concatenation of what they should; copy(dest,count,pos) with pos <= size and pos+count representable delivers exactly the clamped substring and returns its length.", "quantifier": "every content and argument that fits", "why_tests_cant": "all lengths and positions", "anchors": ["src/estd/internal/string.h", "src/estd/internal/dynamic_array.h"]}
{"id": "C30", "title": "string comparison is an equality and a total order", "statement": "operator== holds exactly for equal contents, and compare()/operator< is a strict total order consistent with it, for strings whose lengths fit the size_type of the string compared with.", "quantifier": "all pairs/triples of such contents", "why_tests_cant": "transitivity ranges over triples", "anchors": ["src/estd/internal/string.h:compare", "src/estd/internal/impl/allocated_array.h"]}
{"id": "C31", "title": "string find returns the first occurrence", "statement": "find(ch,pos) returns the least index >= pos of the character, or npos; find(needle) from position 0 returns the least index at which a needle occurs that does occur, and npos for one that does not, from any position, if the string is null terminated and the needle has no null character and at most as many characters as can be read, or one character.", "quantifier": "every haystack and such needle", "why_tests_cant": "all strings", "anchors": ["src/estd/internal/runtime_array.h:find"]}
{"id": "C32", "title": "starts_with / ends_with", "statement": "s.starts_with(p) iff p is a prefix of s (p a C string; or a string shorter than s, equal lengths being answered no; or a character, s not empty); s.ends_with(p) iff p is a suffix of s (p a C string or a string; or a character, s not empty).", "quantifier": "all pairs of strings", "why_tests_cant": "needs the equal-length case for every string", "anchors": ["src/estd/internal/container/starts_with.h"]}
{"id": "C33", "title": "string_view substr clamps", "statement": "v.substr(pos,count) is the characters [pos, min(pos+count,size)) if count is npos or within the view.", "quantifier": "every view, pos<=size, count = npos or pos+count<=size", "why_tests_cant": "all lengths", "anchors": ["src/estd/string_view.h"]}
{"id": "C34", "title": "copy and copy_backward move ranges correctly, also overlapping ones", "statement": "copy(first,last,d) makes the destination equal to the original source whenever d is not strictly inside (first,last); copy_backward does the same when the destination end is not strictly inside (first,last); nothing else is changed.", "quantifier": "every memory content and every pair of ranges, overlapping or not", "why_tests_cant": "all overlaps", "anchors": ["src/estd/algorithm.h:copy/copy_n/copy_backward/move_backward"]}
{"id": "C35", "title": "searching algorithms find the first match", "statement": "find_if, find_first_of, search, mismatch and equal return exactly the first position with the required property, or last / false.", "quantifier": "every range and predicate/needle", "why_tests_cant": "all ranges", "anchors": ["src/estd/algorithm.h:find_if/search/find_first_of/mismatch/equal"]}
{"id": "C36", "title": "min_element/max_element/clamp/reverse", "statement": "min_element (max_element) return the first least (greatest) element; min (max) of two the lesser (greater), the first of equivalent ones; clamp(v,lo,hi) is within [lo,hi] and nearest to v; reverse reverses any range.", "quantifier": "every range, strict weak order", "why_tests_cant": "all ranges", "anchors": ["src/estd/algorithm.h:min_element/clamp/reverse", "src/estd/internal/algorithm/raw.h:max_element"]}
{"id": "C37", "title": "fixed-pool allocation is exclusive", "statement": "Over any history of allocate/deallocate (deallocating only live blocks) allocate never returns a block that is live, returns null exactly when all N blocks are live, and available + live = N.", "quantifier": "every pool size N and history", "why_tests_cant": "histories unbounded", "anchors": ["src/estd/internal/memory/v1/pool.h"]}
{"id": "C38", "title": "pool operations do not disturb live blocks", "statement": "The contents a client wrote in a live block are unchanged by any allocate/deallocate of other blocks; blocks are distinct and inside the pool.", "quantifier": "every history", "why_tests_cant": "histories unbounded", "anchors": ["src/estd/internal/memory/v1/pool.h"]}
{"id": "C39", "title": "intrusive forward list is a sequence", "statement": "Any history of push_front, pop_front, insert_after, erase_after, replace_after, clear on nodes not currently linked behaves like the same history on an ideal sequence; traversal terminates and visits exactly that sequence.", "quantifier": "every history and node set", "why_tests_cant": "shape/aliasing invariants over all histories", "anchors": ["src/estd/internal/list/intrusive_forward.h"]}
{"id": "C40", "title": "forward list with back pointer", "statement": "push_back appends and back() is the last element, over any history of push_front/push_back/pop_front that pushes every node once and does not push on a list that pop_front has emptied.", "quantifier": "every such history", "why_tests_cant": "needs pop-to-empty followed by push_back", "anchors": ["src/estd/internal/list_node.h:forward_list_with_back_base"]}
{"id": "C41", "title": "forward_list::remove_if removes matches that are not adjacent and nothing else", "statement": "After remove_if(p) a list without two adjacent matches is the previous list filtered by not p; for any list, of every run of adjacent matches every other one is removed; the first_only form removes exactly the first match.", "quantifier": "every list and predicate", "why_tests_cant": "adjacent matches of any run length", "anchors": ["src/estd/forward_list.h:remove_if"]}
{"id": "C42", "title": "doubly linked list is a sequence in both directions", "statement": "After any history of push_front/push_back/insert before an element (or into an empty list), forward traversal yields the ideal sequence and backward traversal its reverse.", "quantifier": "every history without insert at end() of a non-empty list", "why_tests_cant": "two pointer chains must agree for all histories", "anchors": ["src/estd/list.h", "src/estd/internal/reverse_list.h"]}
{"id": "C43", "title": "linked_ref destroys the value exactly once, when the last owner goes away", "statement": "Over any history of make/copy/destroy of owners, and moves of one of several owners, with values that Traits::null does not hold for, the value is destroyed exactly once, at the moment the last owner is destroyed, and count_shared() is the number of live owners.", "quantifier": "every such history of owners and any destruction order", "why_tests_cant": "ring orders unbounded", "anchors": ["src/estd/internal/linked_ref.h"]}
{"id": "C44", "title": "FNV hash equals the published algorithm", "statement": "fnv 1 / 1a for 32 and 64 bits over any byte string equal the mathematical FNV definition modulo 2^32 / 2^64 (the shift-add form multiplies by the 64-bit prime).", "quantifier": "every byte string", "why_tests_cant": "all strings", "anchors": ["src/estd/internal/functional/hash.h"]}
{"id": "C45", "title": "FNV hash is incremental and loses nothing per byte", "statement": "Hashing a concatenation equals hashing the second part starting from the hash of the first; each byte step is a bijection of the hash state, so equal-length strings differing in one byte never collide.", "quantifier": "all byte strings and states", "why_tests_cant": "2^64 states", "anchors": ["src/estd/internal/functional/hash.h"]}
{"id": "C46", "title": "byteswap reverses bytes and is an involution, for unsigned and up to 32 bit types", "statement": "byteswap(v) has the bytes of v reversed and byteswap(byteswap(v)) = v for signed and unsigned 16 and 32 bits and unsigned 64 bits.", "quantifier": "every value", "why_tests_cant": "2^64 values", "anchors": ["src/estd/bit.h"]}
{"id": "C47", "title": "span input stream delivers the span", "statement": "Any sequence of sgetn/sbumpc/sgetc/snextc on a span buffer of fewer than 65536 characters - none of them (char)-1 if the library's own traits are used - delivers the span's characters in order, once each, then eof; in_avail() is the number left (-1 if none; below 32768 with the library's own traits); never reads outside the span.", "quantifier": "every such span and call history", "why_tests_cant": "histories; span length near 2^16", "anchors": ["src/estd/internal/impl/streambuf/span.h", "src/estd/internal/impl/streambuf/pos.h", "src/estd/streambuf.h"]}
{"id": "C48", "title": "span output stream stays inside its span", "statement": "Any sequence of sputc, and sputn of blocks that fit the space left, stores exactly the given characters from the front of the span on and nothing else; a character put into a full span is refused; sputn returns the number of characters stored.", "quantifier": "every span and such history", "why_tests_cant": "all lengths", "anchors": ["src/estd/internal/impl/streambuf/span.h"]}
{"id": "C49", "title": "buffered string output loses nothing", "statement": "Over every history of sputc (of characters other than '\\xff' and, with std::char_traits, the null character) and of sputn of blocks that fit the space left in the buffer, a buffered output buffer hands every character, in order, to the buffer it wraps by the next pubsync, and every call reports that all was taken.", "quantifier": "every buffer size of at least one, content and history; char is signed", "why_tests_cant": "all lengths relative to buffer space", "anchors": ["src/estd/internal/impl/streambuf/buffer.h", "src/estd/internal/impl/streambuf/string.h"]}
{"id": "C50", "title": "getline stores a line shorter than its buffer and a terminator", "statement": "getline(s,count,delim) with a line of fewer than count characters stores the line followed by NUL inside s[0..count), and consumes the delimiter without storing it; the end of the text sets eofbit.", "quantifier": "every input without (char)-1, every count and delimiter; streams over texts of fewer than 65536 characters, none of them (char)-1 if the library's own traits are used (C193)", "why_tests_cant": "all inputs", "anchors": ["src/estd/internal/istream.h:getline"]}
{"id": "C51", "title": "ignore, ws and read consume exactly what they should", "statement": "ignore(n) consumes min(n, available); ignore(n,delim) stops after delim; ws consumes exactly the leading whitespace; read(n) delivers min(n,available) chars and sets eofbit iff short.", "quantifier": "every input and count; streams over texts of fewer than 65536 characters, none of them (char)-1 if the library's own traits are used (C193)", "why_tests_cant": "all inputs", "anchors": ["src/estd/internal/istream.h", "src/estd/istream.h"]}
{"id": "C52", "title": "width and fill pad exactly", "statement": "Formatted insertion of an integer (not the most negative; octal: not of the upper half of uint16/uint64) with width() below 16 and an adjustment flag, or of a character with right adjustment, writes max(width,len) characters: the text plus fill characters on the adjusted side, then width() is 0.", "quantifier": "every such value, width and fill", "why_tests_cant": "all combinations", "anchors": ["src/estd/internal/ostream/integer.h", "src/estd/internal/ostream.h"]}
{"id": "C53", "title": "fill character round-trips for exactly 64 characters", "statement": "After fill(c), fill() returns c for c in 0..63 where char is signed and 32..95 where it is unsigned, and only for these; nothing else of the stream state changes.", "quantifier": "every char c, after every history", "why_tests_cant": "domain is finite but the claim is for all", "anchors": ["src/estd/internal/ostream.h:fill"]}
{"id": "C54", "title": "boolalpha parsing of texts that start like a name", "statement": "Extracting a bool with boolalpha from a text whose first character (after whitespace) is t or f succeeds iff the text begins with the true or the false name, with the corresponding value and consuming the name; otherwise the stream is not good and the value is not true.", "quantifier": "every such character sequence; streams over texts of fewer than 65536 characters, none of them (char)-1 if the library's own traits are used (C193)", "why_tests_cant": "all strings", "anchors": ["src/estd/internal/chooser.h", "src/estd/internal/locale/iterated/num_get.h"]}
{"id": "C55", "title": "duration arithmetic and comparison are exact in the common period", "statement": "Sum, difference and comparison of durations with any two periods equal the exact rational result if the ticks in the common type and the result are representable; converting is the exact quotient truncated toward zero if the product with the reduced ratio's numerator fits in 64 bits and no negative count becomes unsigned; to a finer commensurable period it is exact. += and -= are exact while representable.", "quantifier": "all integer counts and all positive rational periods within these limits", "why_tests_cant": "all ratios", "anchors": ["src/estd/internal/chrono/duration.hpp", "src/estd/internal/chrono/operators.hpp", "src/estd/ratio.h", "src/estd/internal/units/base.h"]}
{"id": "C56", "title": "ratio arithmetic is exact and reduced", "statement": "ratio_divide, ratio_multiply and ratio_add equal the rational operation and are in lowest terms, and compile when the intermediate products are representable; ::type is the same number in lowest terms.", "quantifier": "all numerators and non-zero denominators", "why_tests_cant": "all pairs", "anchors": ["src/estd/ratio.h"]}
{"id": "C57", "title": "subspan and first select the right elements", "statement": "first(n) and subspan(off,n) inside the span denote exactly the specified elements; subspan(0) is the whole span.", "quantifier": "every span, and offset and count inside it", "why_tests_cant": "all lengths", "anchors": ["src/estd/span.h"]}
{"id": "C58", "title": "optional constructs and destroys its value in balance", "statement": "Over any history of emplace/assign/reset/destroy each constructed payload is destroyed exactly once and has_value() tells whether one is alive.", "quantifier": "every history", "why_tests_cant": "histories unbounded", "anchors": ["src/estd/optional.h", "src/estd/internal/optional.h"]}
{"id": "C59", "title": "stream state and format flags", "statement": "setstate only adds bits, clear replaces them, good/fail/bad/eof report the documented combinations; setf(flags,mask), flags being inside the mask, followed by flags() yields exactly the masked update; setting, clearing one flag and setbase leave the others, and the named flags do not overlap. flags(f), width(w) with w below 16 and fill(c) change what they name and nothing else, and return what was there before. A new stream is good, decimal, aligned right, without width and filled with spaces.", "quantifier": "every flag word, after every history", "why_tests_cant": "all bit patterns and histories", "anchors": ["src/estd/internal/ios_base.h"]}
{"id": "C60", "title": "swap exchanges two objects, and swapping an object with itself changes nothing", "statement": "swap(a,b) of distinct objects leaves each object with the other's old value and changes nothing else, for class types and for built-in integers; swap(a,a) leaves an object of class type unchanged.", "quantifier": "all values; distinct objects, or one object of class type", "why_tests_cant": "all values; aliasing is easy to forget", "anchors": ["src/estd/utility.h:swap/xor_swap", "src/estd/algorithm.h:iter_swap"]}
{"id": "C61", "title": "fill, fill_n and accumulate cover exactly their range", "statement": "fill/fill_n set exactly the cells of the range and return its end; accumulate folds exactly the range from left to right.", "quantifier": "every memory, range and value", "why_tests_cant": "all ranges", "anchors": ["src/estd/algorithm.h:fill/fill_n", "src/estd/numeric.h:accumulate"]}
{"id": "C62", "title": "readsome delivers what is available", "statement": "While characters are left readsome(s,n) stores min(n, available) of them and leaves the state alone.", "quantifier": "every text (see C47), position before its end, and count", "why_tests_cant": "all texts and positions", "anchors": ["src/estd/internal/istream.h:readsome"]}
{"id": "C63", "title": "seekg repositions the stream", "statement": "After seekg to any position of the text, from the beginning or from the current position, reading continues at that position; failbit is cleared, and the rest of the stream state and the format are as before.", "quantifier": "every text shorter than 65536 characters, position and offset inside it", "why_tests_cant": "all positions", "anchors": ["src/estd/internal/istream.h:seekg", "src/estd/internal/impl/streambuf/pos.h:seekoff"]}
{"id": "C64", "title": "num_put writes the padded numeral", "statement": "num_put::put writes through its iterator the numeral of the value in the base and case of the flags, padded to width() with the fill character on the side of the adjustment flag set.", "quantifier": "every value (not the most negative; octal: not the upper half of uint16/uint64), type, base and width, with exactly one adjustment flag", "why_tests_cant": "all values", "anchors": ["src/estd/internal/locale/num_put.h"]}
{"id": "C65", "title": "numeric bool extraction", "statement": "Without boolalpha, extracting a bool skips whitespace and reads one character: 0 gives false, 1 gives true, anything else and the end of the input give true and set failbit.", "quantifier": "every text, position and initial flags; streams over texts of fewer than 65536 characters, none of them (char)-1 if the library's own traits are used (C193)", "why_tests_cant": "every text and both character traits; a suite reads a few", "anchors": ["src/estd/internal/locale/iterated/num_get.h: num_get<bool>", "src/estd/internal/locale/num_get.h"]}
{"id": "C66", "title": "character extraction", "statement": "operator>>(char&) skips whitespace and stores the next character, other than NUL if std::char_traits is used; at the end of the input nothing is stored and failbit and eofbit are set.", "quantifier": "every text (see C47) and position", "why_tests_cant": "all character values, including NUL and negative ones, and both traits", "anchors": ["src/estd/internal/istream.h: operator>>", "src/estd/istream.h"]}
{"id": "C67", "title": "put stores one character or reports a full buffer", "statement": "ostream::put(c) on a span stream stores exactly c at the write position and leaves the state alone when there is room; when the span is full it stores nothing and sets eofbit; c is not (char)-1 if the library's own traits are used.", "quantifier": "every buffer, write position and such character", "why_tests_cant": "every character value and both traits; a suite writes a few letters", "anchors": ["src/estd/internal/ostream.h:put", "src/estd/internal/impl/streambuf/span.h"]}
{"id": "C68", "title": "iterating an unordered container visits each entry once and ends", "statement": "for(it = begin(); it != end(); ++it) visits every live entry exactly once and stops at end() without reading outside the table.", "quantifier": "every table", "why_tests_cant": "every table; reading one slot past the end usually goes unnoticed in a test", "anchors": ["src/estd/internal/container/unordered/base.h:iterator_base, skip_null"]}
{"id": "C69", "title": "unordered_map accepts a new key while its bucket has room", "statement": "A new non-null key whose bucket holds fewer than the bucket depth of keys (the last bucket of the table: one fewer) is accepted by insert, try_emplace, insert_or_assign and operator[], and changes no other lookup: in tables and after histories as in C25, in which no bucket overflows into another.", "quantifier": "every such table, hash function and history", "why_tests_cant": "collisions depend on the hash of every key", "anchors": ["src/estd/internal/container/unordered_map.h:insert/operator[]", "src/estd/internal/container/unordered/base.h:insert_precheck"]}
{"id": "C70", "title": "unordered_map garbage collection and clear", "statement": "gc_active changes no lookup and leaves the entry findable; clear empties the map, which is then usable like a new one; size() counts the distinct live keys: in tables and after histories as in C25.", "quantifier": "every table reached as in C25", "why_tests_cant": "needs every pattern of live and erased slots", "anchors": ["src/estd/internal/container/unordered_map.h:gc_active_ll/clear", "src/estd/internal/container/unordered/base.h:size"]}
{"id": "C71", "title": "unordered_set insertion and bucket iteration", "statement": "insert of a present key refuses and changes nothing; an accepted key is then contained; other keys are unaffected; iterating a bucket and count(k) agree with contains: in sets reached by insertions and erasures as in C26 in which no bucket's keys reach the end of the table.", "quantifier": "every such set and key", "why_tests_cant": "collisions depend on the hash of every key", "anchors": ["src/estd/internal/container/unordered_set.h:insert", "src/estd/internal/container/unordered/base.h:local_iterator, count"]}
{"id": "C72", "title": "string erase(index,count)", "statement": "erase(index,count) with index<=size() removes exactly the characters [index, min(index+count,size())) and keeps the others in order.", "quantifier": "every content, index and count (npos included)", "why_tests_cant": "all positions and counts, both kinds of termination", "anchors": ["src/estd/internal/string.h:erase", "src/estd/internal/dynamic_array.h:_erase"]}
{"id": "C73", "title": "inserting a string into itself", "statement": "s.insert(pos,s) inserts the old content of s at pos.", "quantifier": "every content and position", "why_tests_cant": "aliasing cases are easy to miss; the result depends on pos", "anchors": ["src/estd/internal/string.h:insert", "src/estd/internal/dynamic_array.h:raw_insert"]}
{"id": "C74", "title": "string size is its number of characters", "statement": "size() of a null-terminated string is the number of characters before the terminator.", "quantifier": "every content, however long", "why_tests_cant": "only texts longer than the range of size_type show it", "anchors": ["src/estd/internal/layer2/string.h", "src/estd/allocators/fixed.h:single_fixedbuf_allocator", "src/estd/internal/deduce_fixed_size.h"]}
{"id": "C75", "title": "compare orders strings of equal length lexicographically", "statement": "For strings of equal length s.compare(t) < 0 exactly when s precedes t in the order of dictionaries (the first differing character decides).", "quantifier": "all pairs of strings of equal length", "why_tests_cant": "all pairs, of equal and different lengths", "anchors": ["src/estd/internal/string.h:compare", "src/estd/traits/char_traits.h:compare"]}
{"id": "C76", "title": "rfind returns the last occurrence", "statement": "rfind(needle,pos) of a non-empty needle in a non-empty string returns the greatest index <= pos at which needle occurs, or npos.", "quantifier": "every non-empty haystack and needle, every position", "why_tests_cant": "all strings and positions", "anchors": ["src/estd/internal/string.h:rfind", "src/estd/internal/runtime_array.h:rfind"]}
{"id": "C77", "title": "find_first_of, and find_last_of inside the string", "statement": "find_first_of(set,pos) with pos <= size() returns the least index >= pos, find_last_of(set,pos), pos < size() or npos on a non-empty string, the greatest index <= pos, at which a character of the set stands, or npos.", "quantifier": "every string, set and such position", "why_tests_cant": "all strings and positions", "anchors": ["src/estd/internal/string.h:find_first_of/find_last_of", "src/estd/internal/runtime_array.h:find_first_of/find_last_of"]}
{"id": "C78", "title": "string_view remove_prefix and remove_suffix", "statement": "remove_prefix(n)/remove_suffix(n) with n<=size() drop exactly the first/last n characters of the view and leave the characters themselves alone.", "quantifier": "every view and n <= size()", "why_tests_cant": "all lengths", "anchors": ["src/estd/string_view.h:remove_prefix/remove_suffix", "src/estd/allocators/fixed.h"]}
{"id": "C79", "title": "pool handles name the first 128 blocks", "statement": "from_handle(to_handle(p)) is p for every one of the first 128 blocks p of the pool.", "quantifier": "every pool size and every such block", "why_tests_cant": "all pool sizes; only pools of more than 128 blocks show the narrowing", "anchors": ["src/estd/internal/memory/v1/pool.h:to_handle/from_handle"]}
{"id": "C80", "title": "the pool reuses the most recently freed block first", "statement": "alloc and emplace take the block freed last; before any is freed, blocks come in the order of their addresses.", "quantifier": "every pool size and history", "why_tests_cant": "every history", "anchors": ["src/estd/internal/memory/v1/pool.h:alloc/free/reset"]}
{"id": "C81", "title": "list iterator arithmetic", "statement": "it += n and it + n advance n places, it -= n goes back n places, it2 - it1 is the number of places from it1 to it2.", "quantifier": "every list, position and count staying inside it", "why_tests_cant": "all lists, positions and counts", "anchors": ["src/estd/iterators/list.h:ForwardIterator/ReverseIterator"]}
{"id": "C82", "title": "forward_list is a sequence", "statement": "Any history of push_front, emplace_front, pop_front, insert_after and erase_after behaves like the same history on an ideal sequence, with nodes of the list's own or of the user's; traversal terminates.", "quantifier": "every history and node set", "why_tests_cant": "every history, every stale pointer in a reused node", "anchors": ["src/estd/forward_list.h"]}
{"id": "C83", "title": "forward_list pop_front gives back the node it takes out", "statement": "pop_front of a value list deallocates the node it takes out, and no other.", "quantifier": "every history", "why_tests_cant": "a leak is not visible in the list's contents", "anchors": ["src/estd/forward_list.h:pop_front/erase_after/remove_if"]}
{"id": "C84", "title": "Moving a linked_ref transfers ownership", "statement": "After an owner is moved from, the new owner stands in its place: count() is unchanged, destroying the old one has no effect, and the value is destroyed when the last remaining owner goes.", "quantifier": "every history, however many owners the value has", "why_tests_cant": "ring shapes and destruction orders are unbounded", "anchors": ["src/estd/internal/linked_ref.h:linked_ref(linked_ref&&)", "src/estd/internal/list/intrusive_forward.h:before_begin"]}
{"id": "C85", "title": "Strings hash by content, and integers no wider than size_t never collide", "statement": "hash of an integer is injective on every type no wider than size_t; hash of a string depends only on its characters, not on the kind of string, and is the 32 bit FNV-1a, or its low bits where size_t is narrower.", "quantifier": "every such integer, every string, every width of size_t", "why_tests_cant": "all values and all strings", "anchors": ["src/estd/internal/functional/hash.h:integral_hash", "src/estd/internal/string/hash.h"]}
{"id": "C86", "title": "hh_mm_ss splits a duration below 256 minutes", "statement": "For durations shorter than 256 minutes the hours, minutes, seconds and subseconds of hh_mm_ss are non-negative, the last three below 60, 60 and one second, they recombine to the absolute value of the duration, and is_negative() tells its sign.  Beyond, hours() is the hour count modulo 256, subseconds() stays right, and minutes() too while there are fewer than 256 hours.", "quantifier": "every representable duration but the most negative, every period that is one D-th of a second (1/D; periods such as 2/3 s are not covered)", "why_tests_cant": "all durations", "anchors": ["src/estd/internal/chrono/formatter.hpp"]}
{"id": "C87", "title": "calendar units within their storage types", "statement": "is_leap() holds only of leap years; ok() holds exactly of months and days in range, for arguments of 8 bits, and of every 16 bit year but the most negative; sums of a year and years are exact within 16 bits.", "quantifier": "every such year, month and day", "why_tests_cant": "all days", "anchors": ["src/estd/internal/chrono/units.hpp", "src/estd/internal/chrono/formatter.hpp"]}
{"id": "C88", "title": "promoted_type holds both types", "statement": "promoted_type<T1, T2> is the narrowest integer type that represents every value of T1 and of T2, unless the larger type is unsigned and the smaller signed; it exists except for uint64_t with an unsigned or 64 bit type.", "quantifier": "every pair of 8 to 64 bit integer types but those", "why_tests_cant": "the meaning ranges over all values", "anchors": ["src/estd/internal/promoted_type.h"]}
{"id": "C89", "title": "a span shows exactly the memory it was built from", "statement": "A span built from an array, a pointer and a count, a pair of pointers or another span shows exactly those elements: size() and empty() agree with them, operator[] below size() reads and writes that element and no other, iteration visits them in order, and as_bytes shows their object representation.", "quantifier": "every array, position, length, index and element size", "why_tests_cant": "all lengths and aliasing spans", "anchors": ["src/estd/span.h"]}
{"id": "C90", "title": "Variant histories: values, indices and object lifetimes", "statement": "Any program of constructions, copies (of copy-constructible alternatives), moves, destructions, emplacements and assignments over variant variables with distinct alternative types leaves each variable holding exactly the value last put there, index() equal to the alternative alive in its storage, and every alternative object ever constructed destroyed exactly once or still held; when all variables are gone nothing is leaked or destroyed twice.", "quantifier": "all lists of distinct alternative types with any traits, all numbers of variables, all legal operation sequences and values", "why_tests_cant": "Lifetimes are counted over all operation histories and all trait combinations; tests cover a few sequences on a few types.", "anchors": ["src/estd/internal/variant.h:variant", "src/estd/internal/variant/storage.h:variant_storage_base"]}
{"id": "C91", "title": "Variant access", "statement": "index(), valueless_by_exception(), get_if<I>, get<I>, get<T> and holds_alternative<T> agree with the alternative and value the variant holds: get returns the held value or throws bad_variant_access, get_if returns it or null, and a valueless variant reports npos and refuses all access.", "quantifier": "all variants in any reachable state, all alternative indices and types", "why_tests_cant": "Every index against every state; wrong answers appear only for particular combinations.", "anchors": ["src/estd/variant.h:get", "src/estd/variant.h:get_if", "src/estd/variant.h:holds_alternative", "src/estd/internal/variant.h:assert_index_matches"]}
{"id": "C92", "title": "Variant exceptions and self-assignment", "statement": "If a constructor or conversion throws during construction, emplace, assignment into a valueless variant or assignment to the held, assignable alternative, the variant stays usable and destructible (its old value or valueless); assigning a variant to itself changes nothing if it is valueless or holds a copy assignable alternative.", "quantifier": "all states, all alternatives and trait combinations, all points at which a constructor can throw", "why_tests_cant": "Exceptions at every construction point times every trait combination; unit tests rarely inject them, and the damage shows only later, in the destructor.", "anchors": ["src/estd/internal/variant.h:emplace", "src/estd/internal/variant.h:operator=", "src/estd/internal/variant/storage.h:assign_or_init"]}
{"id": "C93", "title": "Variant chooses the alternative asked for", "statement": "emplace<I> holds alternative I if its type appears nowhere before; converting construction holds the first alternative constructible from the argument, and so does converting assignment if that is convertible too.", "quantifier": "all alternative lists, with or without repeated types, and all argument types (given by which alternatives they construct, convert and assign to)", "why_tests_cant": "Overload choice over arbitrary type lists cannot be enumerated.", "anchors": ["src/estd/internal/variant.h:emplace", "src/estd/internal/variant/storage.h:converting_constructor_functor2", "src/estd/internal/variadic.h:select_type"]}
{"id": "C94", "title": "Visiting a variant", "statement": "visit_index on a variant calls the visitor exactly once, with the alternative the variant holds, and reports that alternative's index; not at all if valueless.", "quantifier": "all alternatives, states and visitors (arbitrary programs that may read, change state or throw)", "why_tests_cant": "Quantifies over arbitrary visitors and all held alternatives.", "anchors": ["src/estd/internal/variant.h:visit", "src/estd/internal/variant.h:visit_index", "src/estd/internal/variadic/visitor.h:type_visitor"]}
{"id": "C95", "title": "Optional access", "statement": "has_value(), value(), value_or() and operator* agree: value() and value_or() give the held value, or bad_optional_access and the default respectively when empty; operator* of a full optional gives the value, and hashing it the value's hash.", "quantifier": "all reachable states, all values and defaults", "why_tests_cant": "all states and values", "anchors": ["src/estd/optional.h:value", "src/estd/optional.h:value_or", "src/estd/optional.h:hash"]}
{"id": "C96", "title": "Optional comparison", "statement": "Comparing an optional with a value by ==, !=, > and >=, and a full one by < and <=, orders an empty optional below every value and otherwise compares the held values; optionals are equal iff both are empty or hold equal values.", "quantifier": "all optionals, all values, every ordering of the value type", "why_tests_cant": "ranges over every comparison function and both states; the empty case of < and <= is easily untested", "anchors": ["src/estd/optional.h:operator<", "src/estd/optional.h:operator=="]}
{"id": "C97", "title": "Optional exceptions and self-assignment", "statement": "If constructing an optional's value, emplacing into an empty optional, or assigning to an empty one or through the value's own assignment throws, the optional is as it was; assigning an optional to itself changes nothing if it is empty or its value copy assignable.", "quantifier": "all states, all value-type traits, every throwing constructor", "why_tests_cant": "needs an exception at every construction point; the damage shows only in a later destructor", "anchors": ["src/estd/optional.h:emplace", "src/estd/optional.h:assign_value"]}
{"id": "C98", "title": "layer1::optional holds every value it can represent", "statement": "layer1::optional, which stores the empty state in the value itself (a null value) or beside a bit-field, gives back every value stored in it other than the null value, or that fits the bit-field, and is empty exactly when none is stored.", "quantifier": "all value types with equality, all null values, all bit sizes, all such values (bit-fields: unsigned and bool)", "why_tests_cant": "all values, all field widths", "anchors": ["src/estd/internal/optional.h:layer1::optional_base"]}
{"id": "C99", "title": "expected histories", "statement": "Any program of constructions (value, error, copy and move of copy constructible contents), assignments of a value or an error, emplace and destruction on expected variables leaves each holding the last value or error given to it, with has_value() telling which, and every value and error made is destroyed exactly once.", "quantifier": "all value and error types, all histories over any number of variables", "why_tests_cant": "histories and type traits are unbounded; a leak or double destruction shows only in some of them", "anchors": ["src/estd/expected.h:expected", "src/estd/internal/expected.h:expected"]}
{"id": "C100", "title": "expected access", "statement": "has_value, value(), value_or, operator* and error() give the held value or error; value() throws when there is none.", "quantifier": "all states of all types", "why_tests_cant": "all states", "anchors": ["src/estd/expected.h:value/value_or/operator*", "src/estd/internal/expected.h:error"]}
{"id": "C101", "title": "expected exception safety of constructors and same-kind assignment", "statement": "When the constructor of the value or error throws out of a constructor of expected, or a conversion out of an assignment to a held value (held error) of an assignable type, nothing changes.", "quantifier": "all types, all states, all throwing constructors", "why_tests_cant": "needs every state at the moment of the throw", "anchors": ["src/estd/expected.h:emplace/operator=", "src/estd/internal/expected.h:assign_value/assign_error"]}
{"id": "C102", "title": "expected move construction copies", "statement": "Move construction of an expected with copy constructible content gives the new variable the held value or error, and leaves it in the source too.", "quantifier": "all copy constructible value and error types, all states", "why_tests_cant": "all types", "anchors": ["src/estd/expected.h:expected(expected&&)"]}
{"id": "C103", "title": "type lookup in parameter packs", "statement": "Looking up a type by position gives the type at that position; looking up the position of a type gives its first occurrence, the number of matches is its number of occurrences, lookup by type compiles exactly when the type occurs once, and contains_type tells whether it occurs.", "quantifier": "all parameter packs, all types and positions", "why_tests_cant": "packs of every length and every pattern of repetitions", "anchors": ["src/estd/internal/variadic/type_sequence.h:first_index_of_type", "src/estd/internal/variadic.h:contains_type"]}
{"id": "C104", "title": "selection from parameter packs", "statement": "A selector keeps exactly the types whose evaluator holds, in order, with their original positions; where is the filter; all holds exactly when every type satisfies the evaluator.", "quantifier": "all packs, all evaluators over type and position, all projections", "why_tests_cant": "every pack and evaluator", "anchors": ["src/estd/internal/variadic/selector.h:selector", "src/estd/internal/variadic/type_sequence.h:types::where"]}
{"id": "C105", "title": "value sequences", "statement": "get, first and where of a value sequence give the element at a position, the first, and the elements that satisfy a condition in order; contains<v>() tells whether v is in a sequence without repetitions.", "quantifier": "all value sequences, values and conditions", "why_tests_cant": "every sequence, with and without repetitions", "anchors": ["src/estd/internal/variadic/integer_sequence.h:values", "src/estd/internal/variadic/selector.h:value_selector"]}
{"id": "C106", "title": "integer sequences", "statement": "make_index_sequence<N> is 0..N-1, make_reverse_index_sequence<N> is N-1..0, indices_reverser reverses.", "quantifier": "every N and every sequence", "why_tests_cant": "every length", "anchors": ["src/estd/internal/utility/sequence.h", "src/estd/internal/variadic.h:indices_reverser"]}
{"id": "C107", "title": "visitors visit in order and stop at the first acceptance", "statement": "visit (visit_reverse) calls the functor on the items from the first (last) on, each once, until it returns true, and returns the position of that item or -1 if there is none.", "quantifier": "all packs, all functors with any state", "why_tests_cant": "functors with arbitrary state and packs of any length", "anchors": ["src/estd/internal/variadic/visitor.h:type_visitor::visit/visit_reverse", "src/estd/internal/variadic/visitor.h:forward_invoker"]}
{"id": "C108", "title": "tuple elements", "statement": "A tuple made from values gives each back at its index and by its type when that occurs once; apply and make_from_tuple pass all of them in order; assigning through get changes that element only. Also for sparse tuples with empty types.", "quantifier": "all tuples of all types, with or without empty types, all indices", "why_tests_cant": "every size and mix of empty types", "anchors": ["src/estd/internal/tuple/get.h", "src/estd/internal/tuple/apply.h", "src/estd/internal/tuple/make.h", "src/estd/internal/tuple/sparse.h"]}
{"id": "C109", "title": "tuple::visit stops at the accepted element", "statement": "tuple.visit(f) calls f on the elements in order until it returns true, and returns true if that was an element other than the first; on an empty tuple it calls nothing and returns false.", "quantifier": "all tuples and all functors", "why_tests_cant": "depends on which element is accepted", "anchors": ["src/estd/internal/tuple.h:tuple::visit"]}
{"id": "C110", "title": "pair comparison and swap", "statement": "== holds exactly for equal pairs, < is the lexicographic strict total order (> its converse), and swap exchanges two distinct pairs, and keeps a pair not of integers swapped with itself.", "quantifier": "all pairs over totally ordered members, all pairs of objects, including a pair with itself", "why_tests_cant": "all pairs and triples", "anchors": ["src/estd/utility.h:pair"]}
{"id": "C111", "title": "properties of all types of a pack", "statement": "largest_type is a type of greatest size, are_trivial holds when every type is trivial, are_same when every type is the given one.", "quantifier": "all packs, sizes and traits", "why_tests_cant": "every pack", "anchors": ["src/estd/internal/variadic.h:largest_type/are_trivial/are_same"]}
{"id": "C112", "title": "An object shared by shared_ptr lives exactly as long as it has an owner", "statement": "Over any history of constructing, resetting and destroying layer1/layer2 shared_ptr and copying, moving, assigning, resetting, destroying and swapping layer3 shared_ptr - without self-assignment, copying a follower whose master was reset, more owners than the count can hold, or destroying a master before its followers - the managed object is alive exactly while some pointer owns it, and every object made is deleted exactly once: when its last owner lets go.", "quantifier": "all histories of operations on any number of layer1, layer2 and layer3 shared_ptr objects; all widths of the count", "why_tests_cant": "A leak or a double deletion depends on the order of copies and releases; tests run a few orders, the property is about all of them.", "anchors": ["src/estd/memory.h: shared_ptr2_base, layer1::shared_ptr, layer2::shared_ptr, layer3::shared_ptr"]}
{"id": "C113", "title": "use_count is the number of owners and a held object can be used", "statement": "In every state reached, use_count() of a shared_ptr that owns an object is the number of pointers owning it, use_count() of one that owns nothing is 0, and get() of a pointer that owns an object gives that live object.", "quantifier": "all reachable states, all pointers", "why_tests_cant": "The count is only right if every earlier operation kept it right.", "anchors": ["src/estd/memory.h: shared_ptr2_base::use_count, get"]}
{"id": "C114", "title": "Copying a shared_ptr always adds an owner", "statement": "Copying a layer3 shared_ptr that owns an object makes the copy an owner, also after the layer1 or layer2 pointer the object came from was reset: destroying the original leaves the object alive for the copy.", "quantifier": "all states in which a layer3 pointer owns an object", "why_tests_cant": "The failing order (reset the first pointer, then copy) is one of many; the theorem describes every state in which it fails.", "anchors": ["src/estd/memory.h: shared_ptr2_base(shared_ptr2_base&), layer3::shared_ptr"]}
{"id": "C115", "title": "Assigning a shared_ptr to itself changes nothing", "statement": "a = a leaves the layer3 shared_ptr a owning its object and the object alive.", "quantifier": "all states, all layer3 pointers that own an object", "why_tests_cant": "Self-assignment through aliases is not visible at the call site; the theorem covers every state.", "anchors": ["src/estd/memory.h: layer3::shared_ptr::operator="]}
{"id": "C116", "title": "The owner count of a shared_ptr does not wrap", "statement": "However many shared_ptr own an object, destroying one of them leaves the object alive for the others.", "quantifier": "all numbers of owners, all widths of the count", "why_tests_cant": "It needs 65536 owners of one object to see the 16-bit count wrap; tests have a handful.", "anchors": ["src/estd/memory.h: shared_ptr_control_block::count_type, shared_ptr2_base::eval_delete"]}
{"id": "C117", "title": "Writing through a bip-buffered stream buffer loses and reorders nothing", "statement": "Over any history of sputc, sputn (of characters other than '\\xff') and pubsync on out_bipbuf_streambuf whose wrapped stream buffer takes all it is offered, the characters the wrapped buffer received followed by those still buffered are exactly the characters the answers say were accepted, in order; sputn answers how many that is, and a final pubsync leaves nothing buffered.", "quantifier": "all capacities and block lengths below 2^31, all histories, all characters", "why_tests_cant": "The buffer fills, flushes and refills at history-dependent points; tests write a few short strings.", "anchors": ["src/estd/internal/impl/streambuf/bipbuf.h: out_buffered_bipbuf", "src/estd/streambuf.h: sputn"]}
{"id": "C118", "title": "What a slow sink does not take stays in a bip-buffered stream buffer", "statement": "Whatever part of what it is offered the wrapped stream buffer takes, including nothing, one pubsync hands it the oldest characters, and those it did not take stay buffered in order, provided what it takes lies in one piece and the buffered characters end before the end of the storage.", "quantifier": "all sinks, all states of the buffer", "why_tests_cant": "The failing cases need a full buffer and a sink that takes part or nothing at that moment.", "anchors": ["src/estd/internal/impl/streambuf/bipbuf.h: out_buffered_bipbuf::sync, overflow", "src/estd/streambuf.h: sputn"]}
{"id": "C119", "title": "Reading through a bip-buffered stream buffer gives the source's text in order", "statement": "Over any history of sgetc, sbumpc, snextc, in_avail and pubsync on in_bipbuf_streambuf with a text of ASCII characters, whatever chunks the wrapped stream buffer gives, each answer is the next character of the source's text, bumping consumes exactly one, nothing is skipped or repeated, and end of file is answered only when nothing is buffered and the source just gave nothing.", "quantifier": "all ASCII texts, all chunkings of the source, all histories", "why_tests_cant": "Chunk boundaries and wrap-around combine in ways tests sample only a few of.", "anchors": ["src/estd/internal/impl/streambuf/bipbuf.h: in_buffered_bipbuf", "src/estd/internal/impl/streambuf/helpers.h: sbumpc"]}
{"id": "C120", "title": "sgetn of a bip-buffered stream buffer consumes what it returns", "statement": "sgetn(s, n) stores the next characters of the text and removes exactly those from the buffer, so that successive calls read the text once.", "quantifier": "all states, all n", "why_tests_cant": "It is a statement about every buffer state, including those where the buffered characters wrap around.", "anchors": ["src/estd/internal/impl/streambuf/bipbuf.h: in_buffered_bipbuf::xsgetn"]}
{"id": "C121", "title": "An owning function behaves as the unique owner of its callable", "statement": "In every program that constructs experimental::function objects from functors, moves them, copies a filled non-const function (which moves), assigns functions to other functions, assigns functors, calls, tests and destroys them, a call runs the functor the function owns on that functor's own state and returns its result; nothing is undefined, and when no function holds a callable every object made on the heap has been deleted exactly once.", "quantifier": "every functor behaviour, every history of any length of those operations on any number of functions", "why_tests_cant": "ownership across arbitrary interleavings of moves and assignments; leaks and double deletions appear only in particular orders", "anchors": ["src/estd/functional.h: experimental::function", "src/estd/internal/functional.h: detail::function", "src/estd/internal/impl/functional/fnptr1.h: model"]}
{"id": "C122", "title": "Copying a const function gives an independent function", "statement": "A function copy-constructed from a const function can be destroyed, in any order with the original, like any other.", "quantifier": "every history before the copy, every filled function", "why_tests_cant": "the default copy shares the heap object; a test that never lets both go out of scope does not see it", "anchors": ["src/estd/functional.h: function(const function&)"]}
{"id": "C123", "title": "Copying a function leaves the source as it was", "statement": "After function g(f), f can still be called.", "quantifier": "every history, every filled non-const f", "why_tests_cant": "overload resolution picks the forwarding constructor, which moves from f", "anchors": ["src/estd/functional.h: function(T&&)"]}
{"id": "C124", "title": "Assigning a function to itself changes nothing", "statement": "After f = f, f holds and calls the same callable.", "quantifier": "every history, every filled f", "why_tests_cant": "reset before the move destroys the source only when both are one object", "anchors": ["src/estd/functional.h: operator="]}
{"id": "C125", "title": "A function tests true exactly when it can be called", "statement": "The conversion to bool of a nullable function is true if and only if calling it is defined, after any history without copies of empty or const functions.", "quantifier": "every history as in C121", "why_tests_cant": "empty functions arise by moves and copies in particular orders", "anchors": ["src/estd/functional.h: operator bool"]}
{"id": "C126", "title": "An inline function that is not a copy calls its own callable", "statement": "Calling an inline_function that is not a copy runs the functor stored in it.", "quantifier": "every history of constructions, calls and destructions of inline functions", "why_tests_cant": "the base pointer of a copy still refers to the original object", "anchors": ["src/estd/functional.h: inline_function"]}
{"id": "C127", "title": "A string stream gives back what was written to it", "statement": "Over a string stream buffer on a string of fixed capacity, in any history of sputc, sputn, sgetc, sbumpc, snextc, sungetc, sgetn, in_avail and str() in which the whole text fits: every character written is appended, every read returns the next unread character or end of file when all written text has been read, in_avail answers the number of unread characters (-1 when there are none) and str() is the text written so far.", "quantifier": "every history, every starting content of the string, every capacity and width of size_type, null terminated or not, both character traits, debug and release builds", "why_tests_cant": "histories interleave writes and reads without bound", "anchors": ["src/estd/internal/impl/streambuf/string.h: out_stringbuf, in_stringbuf", "src/estd/internal/impl/streambuf/pos.h", "src/estd/streambuf.h"]}
{"id": "C128", "title": "A write that does not fit a string stream is reported", "statement": "sputn to a string stream whose string has no room for the characters answers a smaller count, sputc answers end of file, and a character answered as written is in str().", "quantifier": "every reachable stream buffer and every text longer than the remaining room; a 0 written to a null terminated string", "why_tests_cant": "every amount of room left and every length", "anchors": ["src/estd/internal/impl/streambuf/string.h: xsputn, sputc"]}
{"id": "C129", "title": "After clear() a string stream that was not read is empty", "statement": "After clear() of a string stream buffer that was not read from, the text is empty and a read reports end of file.", "quantifier": "every reachable string stream buffer whose reading position is 0", "why_tests_cant": "depends on how far the stream had been read before", "anchors": ["src/estd/internal/impl/streambuf/string.h: clear"]}
{"id": "C130", "title": "sgetn of a string stream reads min(count, available) characters", "statement": "sgetn(s, count) on a string stream buffer stores the next min(count, available) characters whatever the width of the string's size_type.", "quantifier": "every reachable string stream buffer, every count", "why_tests_cant": "counts at and beyond the range of size_type", "anchors": ["src/estd/internal/impl/streambuf/string.h: xsgetn"]}
{"id": "C131", "title": "Seeking a string stream within its text", "statement": "seekoff from the beginning or the end with ios_base::in to a position within the text answers that position, and what follows behaves as on a stream read up to there.", "quantifier": "every reachable string stream buffer, every position from 0 to the length of the text, every following history", "why_tests_cant": "every position combined with every following history", "anchors": ["src/estd/internal/impl/streambuf/string.h: seekoff, seekpos", "src/estd/internal/impl/streambuf/pos.h: seekpos"]}
{"id": "C132", "title": "A seek answers the position it moved to, or fails and moves nothing", "statement": "seekoff of a string stream buffer from the current position answers the new position; a seek outside the text fails.", "quantifier": "every reachable string stream buffer, every offset", "why_tests_cant": "every offset", "anchors": ["src/estd/internal/impl/streambuf/string.h: seekoff"]}
{"id": "C133", "title": "isupper, islower, isalpha and isdigit classify as in the C locale", "statement": "The functions of cctype.h answer true exactly for the upper case letters, the lower case letters, the letters and the decimal digits of ASCII.", "quantifier": "every integer argument", "why_tests_cant": "every value of int", "anchors": ["src/estd/cctype.h", "src/estd/internal/cctype.h"]}
{"id": "C134", "title": "isspace(ch) accepts white space only", "statement": "isspace(int) is true only for white space characters: space, tab, line feed, vertical tab, form feed and carriage return.", "quantifier": "every integer argument", "why_tests_cant": "every value of int", "anchors": ["src/estd/cctype.h", "src/estd/internal/cctype.h"]}
{"id": "C135", "title": "isspace(ch, locale) accepts the six white space characters", "statement": "isspace with a locale compatible with the classic one is true exactly for space, tab, line feed, vertical tab, form feed and carriage return.", "quantifier": "every character", "why_tests_cant": "every character", "anchors": ["src/estd/internal/locale/ctype.h: ctype::is, isspace, isupper, islower", "src/estd/locale.h: isspace"]}
{"id": "C136", "title": "ctype::is answers whether a character is in one of the categories (space, digit, xdigit, upper)", "statement": "is(m, ch), for a mask m made of space, digit, xdigit and upper in any combination, is true exactly when ch belongs to one of the categories in m.", "quantifier": "every such mask and every character", "why_tests_cant": "all combinations of categories with all characters", "anchors": ["src/estd/internal/locale/ctype.h: ctype::is, isspace, isupper, islower", "src/estd/locale.h: isspace"]}
{"id": "C137", "title": "ctype::is answers whether a character is in one of the categories (lower, alpha, punct)", "statement": "is(m, ch) is true for a lower case letter if m contains lower, for a letter if m contains alpha, for a punctuation character if m contains punct.", "quantifier": "every mask and every character", "why_tests_cant": "all combinations of categories with all characters", "anchors": ["src/estd/internal/locale/ctype.h: ctype::is, isspace, isupper, islower", "src/estd/locale.h: isspace"]}
{"id": "C138", "title": "Digit characters and digit values convert back and forth in every base", "statement": "to_char gives the digit character of a value in the chosen case; from_char accepts exactly the digits of the base in either case and gives their value; from_char of to_char is the identity, as is from_char_raw.", "quantifier": "every base from 2 to 36, every value below the base, every character", "why_tests_cant": "all bases with all characters", "anchors": ["src/estd/internal/locale/cbase.h: to_char, from_char, from_char_raw, is_in_base"]}
{"id": "C139", "title": "A time point is the sum of the steps applied to it", "statement": "After any history of += and -= of durations of its own type a time point is its start plus the steps, exactly while representable and modulo the width of the count for an unsigned or narrow count; t + w - t is w; a default constructed time point is the epoch; min() is the earliest.", "quantifier": "every representation and period (t + w - t: but 64 unsigned bits, where it does not compile), every history, every value", "why_tests_cant": "histories of unbounded length over all values and all widths", "anchors": ["src/estd/internal/chrono/time_point.h: time_point", "src/estd/internal/chrono/operators.hpp: operator+, operator-, operator<"]}
{"id": "C140", "title": "The elapsed time between two readings of a wrapping unsigned clock is right", "statement": "If a clock is an unsigned counter that wraps, the difference of two readings is the true elapsed number of ticks, if less than one wrap went by, and the elapsed number modulo the wrap otherwise.", "quantifier": "every unsigned width below 64 bits (with 64 the difference does not compile), every pair of instants", "why_tests_cant": "wraps occur rarely (every 49 days for a 32 bit millisecond counter)", "anchors": ["src/estd/internal/chrono/time_point.h: time_point", "src/estd/internal/chrono/operators.hpp: operator+, operator-, operator<"]}
{"id": "C141", "title": "Time points of different units order and subtract like the instants they denote", "statement": "For time points of any two units of which the ticks are representable in the common type, t1 < t2 exactly when t1's instant is before t2's (likewise >, >=, ==, !=), and t1 - t2, if representable, is the time between them in the common unit.", "quantifier": "every pair of representations and periods, every pair of values", "why_tests_cant": "all pairs of units with all values", "anchors": ["src/estd/internal/chrono/time_point.h: time_point", "src/estd/internal/chrono/operators.hpp: operator+, operator-, operator<"]}
{"id": "C142", "title": "Adding a duration of another unit moves a time point by whole ticks", "statement": "t += w and t -= w for w of another unit move t by w truncated to whole ticks of t, while the values are representable.", "quantifier": "every pair of representations and periods, every value", "why_tests_cant": "all pairs of units with all values", "anchors": ["src/estd/internal/chrono/time_point.h: time_point", "src/estd/internal/chrono/operators.hpp: operator+, operator-, operator<"]}
{"id": "C143", "title": "A duration times a number is that many durations", "statement": "d * k and d *= k denote k times the duration d denotes, while the product and both factors are representable in their common type.", "quantifier": "every representation, every value, every type of factor", "why_tests_cant": "all types and all values, overflow included", "anchors": ["src/estd/internal/chrono/operators.hpp: operator*", "src/estd/internal/chrono/duration.h: operator*="]}
{"id": "C144", "title": "Units convert, add, subtract and compare like the quantities they denote", "statement": "For units of any two periods and representations: construction and assignment give the source's quantity in the target's period, truncated toward zero (if the conversion's product fits in 64 bits and a negative value is not converted to an unsigned one); with equal periods the count is kept, and a representation that could lose it is refused at compile time; +, - and the six comparisons are exactly those of the quantities, if the counts in the common unit are representable in the common type and neither representation is both unsigned and wider than a signed other one.", "quantifier": "every pair of representations and periods, every pair of values", "why_tests_cant": "all pairs of unit types with all values", "anchors": ["src/estd/internal/units/base.h: unit", "src/estd/internal/units/operators.hpp", "src/estd/internal/units/common_type.h"]}
{"id": "C145", "title": "u += s of another unit compiles only where it is exact", "statement": "u += s and u -= s of another unit compile only if every value of s is a whole number of counts of u, and then change u by exactly s (while representable).", "quantifier": "every pair of unit types (no unsigned representation with a narrower signed one), every pair of values", "why_tests_cant": "whether all values convert exactly is a statement about all of them", "anchors": ["src/estd/internal/units/base.h: unit", "src/estd/internal/units/operators.hpp", "src/estd/internal/units/common_type.h"]}
{"id": "C146", "title": "Offset units keep the quantity", "statement": "For a unit whose count is its stored value plus an offset: count() is that sum, and assignment from a plain unit, or construction from one of another period, gives a unit whose count is the source's quantity in its period, truncated toward zero.", "quantifier": "every representation, offset, period and value that fit in 64 bits", "why_tests_cant": "all offsets with all periods and values", "anchors": ["src/estd/internal/units/base.h: unit", "src/estd/internal/units/operators.hpp", "src/estd/internal/units/common_type.h"]}
{"id": "C147", "title": "A percentage of a range lies where it says", "statement": "get_from_percent(p, min, max) is the value p hundredths of the way from min to max (rounded toward min), min being 0 where it is left out: min at 0%, max at 100%, in between it stays between them and does not decrease as p grows, as long as the products it forms are representable.", "quantifier": "every representation, ratio, percentage and range", "why_tests_cant": "all ranges with all percentages", "anchors": ["src/estd/internal/units/percent.h: get_from_percent"]}
{"id": "C148", "title": "Units of ratio 1 combine with plain numbers", "statement": "u += k and u -= k change the count by k, ++u by one, and -u negates it (modulo the width, for an unsigned or narrow count, whatever k); u == k, u < k, u > k compare the count with k, if both are representable in the type the language compares them in.", "quantifier": "every representation, every number type, every pair of values", "why_tests_cant": "all types with all values", "anchors": ["src/estd/internal/units/operators.hpp: operator+=, operator==, operator<"]}
{"id": "C149", "title": "Kilobytes, megabytes and gigabytes are 1024, 1024^2 and 1024^3 bytes", "statement": "Conversion to bytes multiplies exactly and conversion from bytes divides and drops the rest; a literal below 4 GiB has the value written.", "quantifier": "every count that fits, every representation", "why_tests_cant": "all counts", "anchors": ["src/estd/internal/units/bytes.h"]}
{"id": "C150", "title": "put_unit writes count, prefix and name", "statement": "Inserting put_unit(u) or put_unit_abbrev(u) writes the decimal count, a space unless abbreviated, the SI prefix whose value the period is, and the name of the unit, and nothing else, and keeps the stream's state but the width.", "quantifier": "every count but the lowest of its type, every representation, every period with a prefix other than giga and pico", "why_tests_cant": "all counts, all stream buffers", "anchors": ["src/estd/internal/units/ostream.h: put_unit", "src/estd/internal/units/si.h"]}
{"id": "C151", "title": "Units are exact without side conditions", "statement": "Every operation that compiles on units is exact, or at least detects that it is not: comparison of units, construction of an offset unit, percentages, comparison with a plain number, literals.", "quantifier": "every pair of unit types, every value", "why_tests_cant": "all types with all values", "anchors": ["src/estd/internal/units/base.h: unit", "src/estd/internal/units/operators.hpp", "src/estd/internal/units/common_type.h", "src/estd/internal/units/percent.h: get_from_percent", "src/estd/internal/units/bytes.h"]}
{"id": "C152", "title": "Every SI prefix prints, and the text tells the quantity", "statement": "put_unit compiles for every SI prefix the library has a ratio for, and different periods of one tag print differently.", "quantifier": "every prefix, every count", "why_tests_cant": "all periods", "anchors": ["src/estd/internal/units/si.h", "src/estd/internal/units/bytes.h", "src/estd/internal/units/ostream.h"]}
{"id": "C153", "title": "lock_guard gives mutual exclusion", "statement": "Threads that lock their mutexes by lock_guard alone (a mutex already held only if it is recursive) never hold the same mutex at the same time, whatever exceptions they throw, and no lock or unlock is undefined.", "quantifier": "any number of threads, every program built from scopes, sequences, updates, exceptions and handlers, every schedule", "why_tests_cant": "all interleavings", "anchors": ["src/estd/mutex.h: lock_guard", "src/estd/port/std/mutex.h: mutex", "src/estd/port/freertos/mutex.h: mutex, recursive_mutex"]}
{"id": "C154", "title": "A scope releases its mutex", "statement": "A thread holds a mutex exactly from the construction of a lock_guard to its destruction, also when the scope is left by an exception; a thread that ended has released each mutex as often as it took it, and when all ended every mutex is free.", "quantifier": "any number of threads, every program, every schedule", "why_tests_cant": "all interleavings and all ways to leave a scope", "anchors": ["src/estd/mutex.h: lock_guard", "src/estd/port/std/mutex.h: mutex", "src/estd/port/freertos/mutex.h: mutex, recursive_mutex"]}
{"id": "C155", "title": "Updates under a mutex are not lost", "statement": "If every update of a variable happens in the scope of a lock_guard of the mutex assigned to that variable, its value is at all times the first value plus the number of updates made.", "quantifier": "every assignment of mutexes to variables, any number of threads, every program, every schedule", "why_tests_cant": "all interleavings of reads and writes", "anchors": ["src/estd/mutex.h: lock_guard", "src/estd/port/std/mutex.h: mutex", "src/estd/port/freertos/mutex.h: mutex, recursive_mutex"]}
{"id": "C156", "title": "Ordered locking does not deadlock", "statement": "If all threads take their mutexes in one order, in every reachable state some thread can go on or all have ended, and every schedule that lets each thread try once per round ends all threads.", "quantifier": "any number of threads and mutexes, every program, every schedule", "why_tests_cant": "all interleavings; absence of deadlock and termination are not observable by a test", "anchors": ["src/estd/mutex.h: lock_guard", "src/estd/port/std/mutex.h: mutex", "src/estd/port/freertos/mutex.h: mutex, recursive_mutex"]}
{"id": "C157", "title": "unique_lock releases its mutex", "statement": "A unique_lock that owns its mutex unlocks it when it is destroyed.", "quantifier": "every program, every schedule", "why_tests_cant": "all interleavings", "anchors": ["src/estd/mutex.h: unique_lock"]}
{"id": "C158", "title": "unique_lock(m, try_to_lock) knows whether it owns the mutex", "statement": "After construction with try_to_lock the code of the scope can tell whether the mutex was taken, and unlocking is defined.", "quantifier": "every state of the mutex, every program", "why_tests_cant": "all interleavings", "anchors": ["src/estd/mutex.h: unique_lock"]}
{"id": "C159", "title": "A FreeRTOS mutex is free when new", "statement": "A newly constructed freertos::mutex can be locked, also with binary = true.", "quantifier": "every program, every schedule", "why_tests_cant": "all interleavings", "anchors": ["src/estd/port/freertos/mutex.h: mutex", "src/estd/port/freertos/semaphore.h: counting_semaphore<1>"]}
{"id": "C160", "title": "A semaphore counts", "statement": "In every history no more acquisitions of a counting semaphore succeed than its first count plus the number of releases, the count never exceeds the maximum and is exact while releases have room; acquire waits and try_acquire fails exactly when the count is zero.", "quantifier": "every maximum and first count, every history of operations of any number of tasks", "why_tests_cant": "all histories", "anchors": ["src/estd/port/freertos/semaphore.h: semaphore, counting_semaphore"]}
{"id": "C161", "title": "No release is lost", "statement": "Every release of a semaphore lets one more acquisition succeed.", "quantifier": "every maximum, every history", "why_tests_cant": "all histories", "anchors": ["src/estd/port/freertos/semaphore.h: semaphore::release"]}
{"id": "C162", "title": "Timed locking waits whole ticks", "statement": "try_lock_for and try_acquire_for wait for the whole ticks of the timeout: at most the timeout, and less than one tick short of it.", "quantifier": "every tick rate, every duration type and non-negative value whose conversion is representable", "why_tests_cant": "all durations and tick rates", "anchors": ["src/estd/port/freertos/mutex.h: timed_mutex::try_lock_for", "src/estd/port/freertos/semaphore.h: semaphore::try_acquire_for", "src/estd/port/freertos/chrono.h: freertos_clock"]}
{"id": "C163", "title": "Timed locking waits at least the timeout", "statement": "try_lock_for and try_acquire_for return false only after the timeout has passed, as the standard requires.", "quantifier": "every tick rate, every duration", "why_tests_cant": "all durations and tick rates", "anchors": ["src/estd/port/freertos/mutex.h: timed_mutex::try_lock_for", "src/estd/port/freertos/semaphore.h: semaphore::try_acquire_for"]}
{"id": "C164", "title": "pop_heap keeps a single integer", "statement": "pop_heap on a heap of one built-in integer leaves it as it is.", "quantifier": "every strict weak order, every k>=1, every non-empty heap", "why_tests_cant": "all heap shapes and all tie patterns must be covered", "anchors": ["src/estd/internal/algorithm/heap.h:heap::pop", "src/estd/internal/algorithm/heap.h:heap::restore_down", "src/estd/internal/algorithm/heap.h:pop_heap"]}
{"id": "C165", "title": "make_heap accepts the empty range", "statement": "make_heap of an empty range does nothing, as std::make_heap.", "quantifier": "every strict weak order, every k>=1, every content of every length", "why_tests_cant": "loop-bound errors only show for particular lengths modulo k", "anchors": ["src/estd/internal/algorithm/heap.h:heap::make", "src/estd/internal/algorithm/heap.h:make_heap"]}
{"id": "C166", "title": "priority_queue.erase removes the only element", "statement": "erase_if on a queue of one element that satisfies the predicate leaves the queue empty.", "quantifier": "every queue content and predicate", "why_tests_cant": "the element removed may be at any index of any heap shape, including the last one", "anchors": ["src/estd/internal/priority_queue.h:priority_queue::erase/erase_if"]}
{"id": "C167", "title": "priority_queue.emplace returns an element that rises", "statement": "The accessor returned by emplace(v) refers to v also when v moves up in the heap.", "quantifier": "every queue content and every value", "why_tests_cant": "whether the returned accessor is right depends on where the element sifts to", "anchors": ["src/estd/internal/priority_queue.h:priority_queue::emplace"]}
{"id": "C168", "title": "bip buffer poll refuses more than was offered", "statement": "poll(n) and peek(n) with n larger than the readable contiguous region return NULL and leave the buffer intact.", "quantifier": "every reachable buffer state and every n", "why_tests_cant": "needs every state; only some layouts expose it", "anchors": ["src/estd/ext/willemt/bipbuffer/bipbuffer.c:bipbuf_peek", "src/estd/ext/willemt/bipbuffer/bipbuffer.c:bipbuf_poll"]}
{"id": "C169", "title": "from_chars on an empty text, and the pointer after an overflow", "statement": "from_chars of an empty text returns invalid_argument; after an overflow ptr points just past the digits in every base.", "quantifier": "every character sequence, base 2..36, width", "why_tests_cant": "all strings", "anchors": ["src/estd/internal/charconv/from_chars.hpp:from_chars_integer", "src/estd/internal/raise_and_add.h:raise_and_add", "src/estd/internal/locale/cbase.h:cbase"]}
{"id": "C170", "title": "from_chars with a minus sign followed by something else", "statement": "from_chars keeps the sign of a number that is followed by other text, accepts the minimum value, and rejects a lone '-' and the empty text.", "quantifier": "every character sequence, every base, every width", "why_tests_cant": "all strings, and boundary values at every width", "anchors": ["src/estd/internal/charconv/from_chars.hpp:from_chars_integer"]}
{"id": "C171", "title": "to_chars uses its whole buffer and accepts every value", "statement": "A nonnegative number fits a buffer of exactly its length; an empty buffer gives value_too_large; the most negative number is written.", "quantifier": "every value, base, buffer length (including 0)", "why_tests_cant": "all values by all buffer lengths", "anchors": ["src/estd/internal/charconv.hpp:to_chars/to_chars_integer_opt"]}
{"id": "C172", "title": "to_string prints the most negative value", "statement": "to_string of the most negative value is its numeral.", "quantifier": "every value of every width", "why_tests_cant": "2^64 values", "anchors": ["src/estd/internal/to_string.h", "src/estd/internal/charconv.hpp:to_chars_integer_opt"]}
{"id": "C173", "title": "stream integer extraction stops right after a number that does not fit", "statement": "Extraction consumes exactly the digits also when the number overflows, and sets failbit for a lone minus sign and at the end of the text.", "quantifier": "every character sequence", "why_tests_cant": "needs all overflow strings", "anchors": ["src/estd/internal/locale/iterated/num_get.h:num_get::get"]}
{"id": "C174", "title": "A deque slot can be reused by push_back of a constant", "statement": "push_back(const T&) into a slot whose element was popped constructs the new element there, also for elements with destructors.", "quantifier": "every capacity N>=1, every element type, every such history", "why_tests_cant": "all positions of the circular buffer modulo N", "anchors": ["src/estd/queue.h:layer1::deque"]}
{"id": "C175", "title": "Iterating a full deque visits its elements", "statement": "begin()..end() of a full deque enumerates its elements.", "quantifier": "every reachable deque, in particular a full one", "why_tests_cant": "the full state is a single point of a large state space", "anchors": ["src/estd/queue.h:layer1::deque::begin/end"]}
{"id": "C176", "title": "deque emplace_front prepends", "statement": "After emplace_front(v) the sequence is v followed by the old elements.", "quantifier": "every reachable deque state", "why_tests_cant": "all front/back positions", "anchors": ["src/estd/queue.h:layer1::deque::emplace_front/push_front"]}
{"id": "C177", "title": "unordered_map find and insert stay inside the table", "statement": "find and insert read only the table, whatever the storage contained before construction and however full the last bucket is.", "quantifier": "every bucket count, hash function, and history of insertions", "why_tests_cant": "collisions and bucket overflow depend on the hash of every key", "anchors": ["src/estd/internal/container/unordered/map.h", "src/estd/internal/container/unordered/traits.h"]}
{"id": "C178", "title": "unordered_map keeps keys unique after erase and insert of a present key", "statement": "Inserting a present key is refused also after another key of its bucket was erased.", "quantifier": "every history of insertions and erasures", "why_tests_cant": "needs histories mixing erase and insert in one bucket", "anchors": ["src/estd/internal/container/unordered/"]}
{"id": "C179", "title": "unordered_map erase loses no other key in any table", "statement": "erase(k) leaves every other key findable also in tables of more than 64 buckets, with overflowing buckets, and for keys of bucket 0.", "quantifier": "every reachable table", "why_tests_cant": "needs every collision pattern", "anchors": ["src/estd/internal/container/unordered/"]}
{"id": "C180", "title": "unordered_set erase of any key", "statement": "After erase(iterator) of any key every other key can still be found.", "quantifier": "every reachable set", "why_tests_cant": "needs every collision pattern", "anchors": ["src/estd/internal/container/unordered/set.h"]}
{"id": "C181", "title": "erase and growing resize of a fixed-capacity vector", "statement": "erase removes exactly the element for every element size, and resize to a larger size appends value-initialised elements.", "quantifier": "every capacity, element values and history", "why_tests_cant": "histories unbounded", "anchors": ["src/estd/vector.h", "src/estd/internal/impl/dynamic_array.h", "src/estd/internal/dynamic_array.h"]}
{"id": "C182", "title": "A fixed-capacity container never writes outside its storage", "statement": "No call of push_back/append/insert writes outside the storage, whatever the arguments: also with asserts off, for a null-terminated string filled to capacity(), and for lengths whose sum wraps.", "quantifier": "every state and argument length", "why_tests_cant": "needs every length near capacity", "anchors": ["src/estd/internal/impl/dynamic_array.h:grow/append/ensure_additional_size"]}
{"id": "C183", "title": "string copy with npos, and append of long texts", "statement": "copy(dest,npos,pos) delivers the rest of the string, a position past the end is reported, and a C string of any length is appended completely.", "quantifier": "every content and argument", "why_tests_cant": "all lengths and positions", "anchors": ["src/estd/internal/string.h", "src/estd/internal/dynamic_array.h"]}
{"id": "C184", "title": "string equality at every length", "statement": "operator== holds exactly for equal contents whatever the lengths.", "quantifier": "all pairs/triples of contents", "why_tests_cant": "transitivity ranges over triples", "anchors": ["src/estd/internal/string.h:compare", "src/estd/internal/impl/allocated_array.h"]}
{"id": "C185", "title": "string find from any position and in any string", "statement": "find(needle,pos) returns the least index >= pos at which needle occurs, or npos, looking only at the string.", "quantifier": "every haystack, needle, position", "why_tests_cant": "all strings", "anchors": ["src/estd/internal/runtime_array.h:find"]}
{"id": "C186", "title": "starts_with of an equal string, and characters of an empty string", "statement": "A string starts with itself; an empty string starts and ends with no character.", "quantifier": "all pairs of strings", "why_tests_cant": "needs the equal-length case for every string", "anchors": ["src/estd/internal/container/starts_with.h"]}
{"id": "C187", "title": "string_view substr clamps every count", "statement": "v.substr(pos,count) is the characters [pos, min(pos+count,size)) for every count.", "quantifier": "every view, pos<=size, count (default npos)", "why_tests_cant": "all lengths", "anchors": ["src/estd/string_view.h"]}
{"id": "C188", "title": "forward list with back pointer after it was emptied", "statement": "push_back appends also to a list emptied by pop_front, and also a node that was in the list before.", "quantifier": "every history", "why_tests_cant": "needs pop-to-empty followed by push_back", "anchors": ["src/estd/internal/list_node.h:forward_list_with_back_base"]}
{"id": "C189", "title": "forward_list::remove_if removes adjacent matches", "statement": "After remove_if(p) no element of the list matches p.", "quantifier": "every list and predicate", "why_tests_cant": "adjacent matches of any run length", "anchors": ["src/estd/forward_list.h:remove_if"]}
{"id": "C190", "title": "doubly linked list insert at end()", "statement": "insert(end(), x) appends x.", "quantifier": "every history", "why_tests_cant": "two pointer chains must agree for all histories", "anchors": ["src/estd/list.h", "src/estd/internal/reverse_list.h"]}
{"id": "C191", "title": "linked_ref keeps a null value until the last owner goes away", "statement": "A value for which Traits::null holds is destroyed when its last owner is.", "quantifier": "every history of owners and any destruction order", "why_tests_cant": "ring orders unbounded", "anchors": ["src/estd/internal/linked_ref.h"]}
{"id": "C192", "title": "byteswap of bytes and of int64_t", "statement": "byteswap(v) is v for 8 bit types, and has the bytes of v reversed for int64_t.", "quantifier": "every value", "why_tests_cant": "2^64 values", "anchors": ["src/estd/bit.h"]}
{"id": "C193", "title": "span input stream of any text", "statement": "Reading delivers every text, of 65536 characters and of the character (char)-1 too, once and then end of file.", "quantifier": "every span and call history", "why_tests_cant": "histories; span length near 2^16", "anchors": ["src/estd/internal/impl/streambuf/span.h", "src/estd/internal/impl/streambuf/pos.h", "src/estd/streambuf.h"]}
{"id": "C194", "title": "span output stream with a block that does not fit", "statement": "sputn of a block larger than the space left writes only inside the span and returns the number stored.", "quantifier": "every span and history", "why_tests_cant": "all lengths", "anchors": ["src/estd/internal/impl/streambuf/span.h"]}
{"id": "C195", "title": "buffered string output of long blocks", "statement": "sputn of a block larger than the space left delivers every character or reports a smaller count.", "quantifier": "every buffer size, text, and sink behaviour", "why_tests_cant": "all lengths relative to buffer space", "anchors": ["src/estd/internal/impl/streambuf/buffer.h", "src/estd/internal/impl/streambuf/string.h"]}
{"id": "C196", "title": "getline with long lines, and its state after a complete line", "statement": "getline stays inside s[0..count) for every line, and does not set failbit for a complete line that fits.", "quantifier": "every input, count, delimiter", "why_tests_cant": "all inputs", "anchors": ["src/estd/internal/istream.h:getline"]}
{"id": "C197", "title": "width and fill for octal numerals, left-adjusted characters, strings and wide fields", "statement": "Octal numerals of every value, left-adjusted characters, and strings are padded to width(), and setw(n) sets any n.", "quantifier": "every text, width, fill, adjustment", "why_tests_cant": "all combinations", "anchors": ["src/estd/internal/ostream/integer.h", "src/estd/internal/ostream.h"]}
{"id": "C198", "title": "fill character round-trips for every character", "statement": "After fill(c), fill() returns c for every c.", "quantifier": "every char c", "why_tests_cant": "domain is finite but the claim is for all", "anchors": ["src/estd/internal/ostream.h:fill"]}
{"id": "C199", "title": "boolalpha parsing of other texts", "statement": "Extracting a bool with boolalpha fails for texts that begin with neither name, whatever their first character, and reads the names only.", "quantifier": "every character sequence", "why_tests_cant": "all strings", "anchors": ["src/estd/internal/chooser.h", "src/estd/internal/locale/iterated/num_get.h"]}
{"id": "C200", "title": "duration arithmetic whenever the result fits", "statement": "Conversions and comparisons of durations are exact whenever their result is representable, for all integer representations including uint64_t.", "quantifier": "all counts and all positive rational periods", "why_tests_cant": "all ratios", "anchors": ["src/estd/internal/chrono/duration.hpp", "src/estd/internal/chrono/operators.hpp", "src/estd/ratio.h", "src/estd/internal/units/base.h"]}
{"id": "C201", "title": "ratio is normalised like std::ratio", "statement": "num and den have no common factor, and the reduced denominator is positive.", "quantifier": "all numerators and denominators", "why_tests_cant": "all pairs", "anchors": ["src/estd/ratio.h"]}
{"id": "C202", "title": "subspan without count, and first beyond the span", "statement": "subspan(off) denotes the elements from off on, and first(n) nothing beyond the span.", "quantifier": "every span, offset, count", "why_tests_cant": "all lengths", "anchors": ["src/estd/span.h"]}
{"id": "C203", "title": "setf applies the mask", "statement": "setf(flags,mask) sets no flag outside the mask.", "quantifier": "every flag word", "why_tests_cant": "all bit patterns and histories", "anchors": ["src/estd/internal/ios_base.h"]}
{"id": "C204", "title": "swapping an integer with itself changes nothing", "statement": "swap(a,a) leaves a built-in integer unchanged.", "quantifier": "all values, distinct or aliased objects", "why_tests_cant": "all values; aliasing is easy to forget", "anchors": ["src/estd/utility.h:swap/xor_swap", "src/estd/algorithm.h:iter_swap"]}
{"id": "C205", "title": "readsome at the end of the text", "statement": "readsome(s,n) stores nothing at the end of the input.", "quantifier": "every text, position and count", "why_tests_cant": "all texts and positions", "anchors": ["src/estd/internal/istream.h:readsome"]}
{"id": "C206", "title": "seekg from the end and after end of file", "statement": "seekg from the end repositions, and seekg makes a stream that has reached end of file readable again.", "quantifier": "every text, position and offset", "why_tests_cant": "all positions", "anchors": ["src/estd/internal/istream.h:seekg", "src/estd/internal/impl/streambuf/pos.h:seekoff"]}
{"id": "C207", "title": "num_put without adjustment flag", "statement": "num_put::put writes the numeral also when no adjustment flag is set.", "quantifier": "every value, type, flag combination and width", "why_tests_cant": "all values", "anchors": ["src/estd/internal/locale/num_put.h"]}
{"id": "C208", "title": "extraction of NUL", "statement": "operator>>(char&) stores a NUL character.", "quantifier": "every text and position", "why_tests_cant": "all character values, including NUL and negative ones, and both traits", "anchors": ["src/estd/internal/istream.h: operator>>", "src/estd/istream.h"]}
{"id": "C209", "title": "put of the character -1", "statement": "put((char)-1) with the library's own traits leaves the state alone when there is room.", "quantifier": "every buffer, write position and character", "why_tests_cant": "every character value and both traits; a suite writes a few letters", "anchors": ["src/estd/internal/ostream.h:put", "src/estd/internal/impl/streambuf/span.h"]}
{"id": "C210", "title": "unordered_map accepts a new key whatever other buckets hold", "statement": "A new key of an empty bucket is accepted also when the bucket before it has overflowed.", "quantifier": "every table, hash function and history", "why_tests_cant": "collisions depend on the hash of every key", "anchors": ["src/estd/internal/container/unordered_map.h:insert/operator[]", "src/estd/internal/container/unordered/base.h:insert_precheck"]}
{"id": "C211", "title": "compare orders strings of different length lexicographically", "statement": "s.compare(t) < 0 exactly when s precedes t in the order of dictionaries, whatever their lengths.", "quantifier": "all pairs of strings", "why_tests_cant": "all pairs, of equal and different lengths", "anchors": ["src/estd/internal/string.h:compare", "src/estd/traits/char_traits.h:compare"]}
{"id": "C212", "title": "rfind of an empty needle and in an empty string", "statement": "rfind returns the greatest index <= pos at which needle occurs also for an empty needle (size() if pos is not less) and an empty string.", "quantifier": "every haystack, needle and position", "why_tests_cant": "all strings and positions", "anchors": ["src/estd/internal/string.h:rfind", "src/estd/internal/runtime_array.h:rfind"]}
{"id": "C213", "title": "find_last_of behind the end and in an empty string", "statement": "find_last_of(set,pos) looks only at the string for every pos and an empty string too.", "quantifier": "every string, set and position", "why_tests_cant": "all strings and positions", "anchors": ["src/estd/internal/string.h:find_first_of/find_last_of", "src/estd/internal/runtime_array.h:find_first_of/find_last_of"]}
{"id": "C214", "title": "pool handles beyond 128 blocks", "statement": "from_handle(to_handle(p)) is p for every block p of the pool.", "quantifier": "every pool size and block", "why_tests_cant": "all pool sizes; only pools of more than 128 blocks show the narrowing", "anchors": ["src/estd/internal/memory/v1/pool.h:to_handle/from_handle"]}
{"id": "C215", "title": "list iterator minus a count", "statement": "it - n goes back n places.", "quantifier": "every list, position and count staying inside it", "why_tests_cant": "all lists, positions and counts", "anchors": ["src/estd/iterators/list.h:ForwardIterator/ReverseIterator"]}
{"id": "C216", "title": "forward_list gives back erased nodes", "statement": "erase_after deallocates the node it takes out.", "quantifier": "every history", "why_tests_cant": "a leak is not visible in the list's contents", "anchors": ["src/estd/forward_list.h:pop_front/erase_after/remove_if"]}
{"id": "C217", "title": "Wide integers never collide", "statement": "hash is injective on integer types wider than size_t.", "quantifier": "every integer, every string, every width of size_t", "why_tests_cant": "all values and all strings", "anchors": ["src/estd/internal/functional/hash.h:integral_hash", "src/estd/internal/string/hash.h"]}
{"id": "C218", "title": "hh_mm_ss of 256 minutes or more", "statement": "seconds() of hh_mm_ss is below 60 for every duration.", "quantifier": "every representable duration and sub-second period", "why_tests_cant": "all durations", "anchors": ["src/estd/internal/chrono/formatter.hpp"]}
{"id": "C219", "title": "calendar conversions are Gregorian", "statement": "is_leap() holds of every leap year, ok() of no month outside 1..12 whatever the argument, and year_month_day of a day number is the Gregorian date of that day.", "quantifier": "every year, month, day and day number", "why_tests_cant": "all days", "anchors": ["src/estd/internal/chrono/units.hpp", "src/estd/internal/chrono/formatter.hpp"]}
{"id": "C220", "title": "promoted_type of a signed and a larger unsigned type", "statement": "promoted_type<T1, T2> represents every value of T1 and of T2 if the larger type is unsigned and the smaller signed.", "quantifier": "every pair of 8 to 64 bit integer types", "why_tests_cant": "the meaning ranges over all values", "anchors": ["src/estd/internal/promoted_type.h"]}
{"id": "C221", "title": "Copying a variant of an uncopyable alternative", "statement": "A variant that reports an alternative after copy construction holds it, also when the alternative is not copy constructible.", "quantifier": "all lists of distinct alternative types with any traits, all numbers of variables, all legal operation sequences and values", "why_tests_cant": "Lifetimes are counted over all operation histories and all trait combinations; tests cover a few sequences on a few types.", "anchors": ["src/estd/internal/variant.h:variant", "src/estd/internal/variant/storage.h:variant_storage_base"]}
{"id": "C222", "title": "Variant exceptions in every assignment, and every self-assignment", "statement": "If a constructor throws while another alternative is assigned, or the held one replaced, the variant stays destructible; and self-assignment is defined for every alternative.", "quantifier": "all states, all alternatives and trait combinations, all points at which a constructor can throw", "why_tests_cant": "Exceptions at every construction point times every trait combination; unit tests rarely inject them, and the damage shows only later, in the destructor.", "anchors": ["src/estd/internal/variant.h:emplace", "src/estd/internal/variant.h:operator=", "src/estd/internal/variant/storage.h:assign_or_init"]}
{"id": "C223", "title": "Variant chooses the best match", "statement": "Converting construction holds the alternative of the argument's own type, converting assignment never stops the program, and emplace<I> holds alternative I also of repeated types.", "quantifier": "all alternative lists, with or without repeated types, and all argument types (given by which alternatives they construct, convert and assign to)", "why_tests_cant": "Overload choice over arbitrary type lists cannot be enumerated.", "anchors": ["src/estd/internal/variant.h:emplace", "src/estd/internal/variant/storage.h:converting_constructor_functor2", "src/estd/internal/variadic.h:select_type"]}
{"id": "C224", "title": "visit calls the visitor with the held alternative", "statement": "visit on a variant calls the visitor exactly once, with the alternative the variant holds.", "quantifier": "all alternatives, states and visitors (arbitrary programs that may read, change state or throw)", "why_tests_cant": "Quantifies over arbitrary visitors and all held alternatives.", "anchors": ["src/estd/internal/variant.h:visit", "src/estd/internal/variant.h:visit_index", "src/estd/internal/variadic/visitor.h:type_visitor"]}
{"id": "C225", "title": "Hash of an empty optional", "statement": "Hashing an optional is defined for an empty optional.", "quantifier": "all reachable states, all values and defaults", "why_tests_cant": "all states and values", "anchors": ["src/estd/optional.h:value", "src/estd/optional.h:value_or", "src/estd/optional.h:hash"]}
{"id": "C226", "title": "An empty optional is less than every value", "statement": "Comparing an empty optional with a value by < or <= says yes.", "quantifier": "all optionals, all values, every ordering of the value type", "why_tests_cant": "ranges over every comparison function and both states; the empty case of < and <= is easily untested", "anchors": ["src/estd/optional.h:operator<", "src/estd/optional.h:operator=="]}
{"id": "C227", "title": "Optional exceptions over a held value, and every self-assignment", "statement": "If emplacing over a held value, or replacing one that cannot be assigned, throws, has_value() tells the truth; and self-assignment is defined for every value type.", "quantifier": "all states, all value-type traits, every throwing constructor", "why_tests_cant": "needs an exception at every construction point; the damage shows only in a later destructor", "anchors": ["src/estd/optional.h:emplace", "src/estd/optional.h:assign_value"]}
{"id": "C228", "title": "layer1::optional holds the null value and large values", "statement": "layer1::optional gives back the null value, and values larger than the bit-field, when stored.", "quantifier": "all value types with equality, all null values, all bit sizes, all values", "why_tests_cant": "all values, all field widths", "anchors": ["src/estd/internal/optional.h:layer1::optional_base"]}
{"id": "C229", "title": "expected exception safety of every assignment and emplace", "statement": "When switching between value and error, emplacing, or replacing an unassignable content throws, the expected still holds either what it held before or the new content.", "quantifier": "all types, all states, all throwing constructors", "why_tests_cant": "needs every state at the moment of the throw", "anchors": ["src/estd/expected.h:emplace/operator=", "src/estd/internal/expected.h:assign_value/assign_error"]}
{"id": "C230", "title": "expected move construction of move-only types", "statement": "Move construction transfers the held value or error also for move-only types.", "quantifier": "all value and error types, all states", "why_tests_cant": "all types", "anchors": ["src/estd/expected.h:expected(expected&&)"]}
{"id": "C231", "title": "value sequence contains repeated values", "statement": "contains<v>() holds of a sequence in which v is repeated.", "quantifier": "all value sequences, values and conditions", "why_tests_cant": "every sequence, with and without repetitions", "anchors": ["src/estd/internal/variadic/integer_sequence.h:values", "src/estd/internal/variadic/selector.h:value_selector"]}
{"id": "C232", "title": "tuple::visit reports acceptance of the first element, or of none", "statement": "tuple.visit(f) returns true when the first element was accepted and false when none was.", "quantifier": "all tuples and all functors", "why_tests_cant": "depends on which element is accepted", "anchors": ["src/estd/internal/tuple.h:tuple::visit"]}
{"id": "C233", "title": "swapping a pair of integers with itself changes nothing", "statement": "swap(p,p) leaves a pair of integers unchanged.", "quantifier": "all pairs over totally ordered members, all pairs of objects, including a pair with itself", "why_tests_cant": "all pairs and triples", "anchors": ["src/estd/utility.h:pair"]}
{"id": "C234", "title": "get of a null shared_ptr", "statement": "get() of a null layer3 shared_ptr gives null.", "quantifier": "all reachable states, all pointers", "why_tests_cant": "The count is only right if every earlier operation kept it right.", "anchors": ["src/estd/memory.h: shared_ptr2_base::use_count, get"]}
{"id": "C235", "title": "A slow sink never corrupts a bip-buffered stream buffer in any history", "statement": "Whatever part the wrapped stream buffer takes, writing and syncing stays defined, a character that does not fit is refused, and sputn counts exactly the characters stored.", "quantifier": "all sinks, all histories", "why_tests_cant": "The failing cases need a full buffer and a sink that takes part or nothing at that moment.", "anchors": ["src/estd/internal/impl/streambuf/bipbuf.h: out_buffered_bipbuf::sync, overflow", "src/estd/streambuf.h: sputn"]}
{"id": "C236", "title": "Reading characters beyond ASCII through a bip-buffered stream buffer", "statement": "sgetc answers the unsigned value of a character that is not ASCII.", "quantifier": "all texts, all chunkings of the source, all histories", "why_tests_cant": "Chunk boundaries and wrap-around combine in ways tests sample only a few of.", "anchors": ["src/estd/internal/impl/streambuf/bipbuf.h: in_buffered_bipbuf", "src/estd/internal/impl/streambuf/helpers.h: sbumpc"]}
{"id": "C237", "title": "Copies of empty functions and functions that are not nullable test true only if they can be called", "statement": "The conversion to bool of a function is true only if calling it is defined, also for a copy of an empty function, and one declared not nullable that was moved from.", "quantifier": "every history; both values of the nullable parameter", "why_tests_cant": "empty functions arise by moves and copies in particular orders", "anchors": ["src/estd/functional.h: operator bool"]}
{"id": "C238", "title": "A copy of an inline function calls its own callable", "statement": "A copy of an inline_function runs its own functor, also after the original is gone.", "quantifier": "every history of constructions, copies, calls and destructions of inline functions", "why_tests_cant": "the base pointer of a copy still refers to the original object", "anchors": ["src/estd/functional.h: inline_function"]}
{"id": "C239", "title": "After clear() a string stream that was read is empty", "statement": "After clear() a read reports end of file, wherever the reading position was.", "quantifier": "every reachable string stream buffer", "why_tests_cant": "depends on how far the stream had been read before", "anchors": ["src/estd/internal/impl/streambuf/string.h: clear"]}
{"id": "C240", "title": "isspace(ch) accepts all six white space characters", "statement": "isspace(int) is true for each of the six white space characters.", "quantifier": "every integer argument", "why_tests_cant": "every value of int", "anchors": ["src/estd/cctype.h", "src/estd/internal/cctype.h"]}
{"id": "C241", "title": "Readings of a wrapping clock keep the order of the instants", "statement": "Of two readings of an unsigned clock less than a period apart, the later compares later.", "quantifier": "every pair of representations and periods, every pair of values", "why_tests_cant": "all pairs of units with all values", "anchors": ["src/estd/internal/chrono/time_point.h: time_point", "src/estd/internal/chrono/operators.hpp: operator+, operator-, operator<"]}
{"id": "C242", "title": "A time point advances by small steps", "statement": "t += w for w of another unit moves t by w, also if w is shorter than a tick of t, or the steps add up to one.", "quantifier": "every pair of representations and periods, every value", "why_tests_cant": "all pairs of units with all values", "anchors": ["src/estd/internal/chrono/time_point.h: time_point", "src/estd/internal/chrono/operators.hpp: operator+, operator-, operator<"]}
{"id": "C243", "title": "A duration times a number of any type", "statement": "d * k is k times d whenever the exact product fits, and otherwise reported; a negative duration times an unsigned number is negative.", "quantifier": "every representation, every value, every type of factor", "why_tests_cant": "all types and all values, overflow included", "anchors": ["src/estd/internal/chrono/operators.hpp: operator*", "src/estd/internal/chrono/duration.h: operator*="]}
{"id": "C244", "title": "A message queue is one queue under every schedule", "statement": "However tasks and interrupts that share a message queue are scheduled, the sends, receives and counts that completed, with their answers, are those of a single first-in first-out queue used by one task at a time; every task completes its operations in program order; nothing accepted is lost, repeated or overtaken, and no more than the capacity is held.", "quantifier": "every capacity, every number of tasks and programs, every schedule and every choice of which waits time out", "why_tests_cant": "all interleavings", "anchors": ["src/estd/port/freertos/queue.h", "src/estd/port/freertos/wrapper/queue.h"]}
{"id": "C245", "title": "Messages of one producer arrive in order", "statement": "What a producer sent and was accepted is received in the order in which it was sent, the rest waits in the queue in that order; a producer that waits for room without a timeout has no message refused.", "quantifier": "every capacity, program and schedule, with several producers and consumers", "why_tests_cant": "all interleavings", "anchors": ["src/estd/port/freertos/queue.h: send, receive"]}
{"id": "C246", "title": "Producers and consumers do not block each other for ever", "statement": "With a queue of at least one place, tasks that only send or only receive, without timeouts, and as many sends as receives in all, at every moment some task can go on or all have finished; and every schedule that gives each task a turn in every round delivers all messages in at most as many rounds as there are operations.", "quantifier": "every capacity, program and schedule", "why_tests_cant": "liveness: ranges over all fair schedules", "anchors": ["src/estd/port/freertos/queue.h: send, receive"]}
{"id": "C247", "title": "A received object owns what was sent", "statement": "An object of class type sent through a queue and received is usable after the sent object is gone, each may be destroyed, and what the receiving variable owned before is released.", "quantifier": "every object and every resource", "why_tests_cant": "double destruction shows only with particular types and orders", "anchors": ["src/estd/port/freertos/queue.h: send, receive"]}
{"id": "C248", "title": "Copying a queue object", "statement": "A copy of a queue object may be destroyed and the other still used.", "quantifier": "every queue, both orders of destruction", "why_tests_cant": "the failure is in another object at a later time", "anchors": ["src/estd/port/freertos/queue.h: ~queue", "src/estd/port/freertos/wrapper/queue.h: free"]}
{"id": "C249", "title": "sleep_for sleeps in whole ticks", "statement": "sleep_for(d) returns at most d after the call, and less than two ticks before that, if the conversion to ticks is in range and no other task delays it.", "quantifier": "every tick rate, unit, duration and moment of the call between two ticks", "why_tests_cant": "all units, values and phases", "anchors": ["src/estd/port/freertos/thread.h: sleep_for"]}
{"id": "C250", "title": "sleep_for sleeps at least the duration", "statement": "sleep_for(d) returns no earlier than d after the call.", "quantifier": "every tick rate, unit, duration and moment of the call between two ticks", "why_tests_cant": "all units, values and phases", "anchors": ["src/estd/port/freertos/thread.h: sleep_for"]}
{"id": "C251", "title": "Flags are sets", "statement": "The operators |, &, ^ and ~ on flags are union, intersection, symmetric difference and complement of sets of flags, a set is true as a condition exactly if it is not empty, and equality is that of the sets; so a flag that was set tests true, one that was cleared tests false, the others are unchanged, and toggling twice restores the set.", "quantifier": "every underlying type of 8 to 64 bits, signed or not, every two values", "why_tests_cant": "all pairs of values of all types", "anchors": ["src/estd/flags.h: flags"]}
{"id": "C252", "title": "Byte operations", "statement": "to_byte keeps the low eight bits, to_integer gives the value back, | joins the bits, b << s and b >>= s move them by s places, as long as s is less than 32 and b * 2^s less than 2^32.", "quantifier": "every byte, every shift count, every integer type", "why_tests_cant": "all values with all counts", "anchors": ["src/estd/internal/raw/cstddef.h: byte, operator<<, operator>>=, operator|, to_integer, to_byte"]}
{"id": "C253", "title": "A byte may be shifted by any count below 32", "statement": "b << s gives the low eight bits of b * 2^s for every s less than 32, as for std::byte.", "quantifier": "every byte and every shift count", "why_tests_cant": "all values with all counts", "anchors": ["src/estd/internal/raw/cstddef.h: operator<<"]}
{"id": "C254", "title": "numeric_limits tells the range", "statement": "min() and max() of the integer types are the ends of the range, digits and digits10 the numbers of binary and decimal digits that always fit, the latter as large as possible; and no numeral in base 10 or 16 of any value, or in base 8 of a type of 8 or 32 bits, is longer than length<base>.", "quantifier": "every integer type of 8 to 64 bits, every value", "why_tests_cant": "all values of all types", "anchors": ["src/estd/limits.h: numeric_limits", "src/estd/internal/limits/integer.h: integer_limits", "src/estd/internal/limits/traits.h: uint_strlen"]}
{"id": "C255", "title": "length<8> is enough for every integer", "statement": "No octal numeral of a value of the type is longer than length<8>.", "quantifier": "every integer type of 8 to 64 bits, every value", "why_tests_cant": "all values of all types", "anchors": ["src/estd/internal/limits/traits.h: uint_strlen"]}
{"id": "C256", "title": "A non-owning function runs the callable it names, with the state its earlier calls left", "statement": "For every sequence of making and ending models (functors, bound methods of objects, plain functions with a context, functors destroyed by their call), making functions on them, copying, assigning, testing and ending functions, in which a function is called only while it is non-null and its model exists, thisify_functions are not copied as such, one static_function is made per functor type, and a self-destroying functor is called once and its model not ended: every call returns what the callable named by the function returns for that argument in the state left by all earlier calls of that callable through any function; a bound method acts on its object and on no other; a context is passed unchanged each time; operator bool tells whether a callable is named; and each functor's destructor runs at most once, exactly where the rules say.", "quantifier": "all histories of operations, all functors, objects, methods, contexts and arguments", "why_tests_cant": "the callable reached depends on the whole history of copies and assignments and the state on all earlier calls through any copy", "anchors": ["src/estd/internal/functional.h: detail::function, thisify_function, contextify_function", "src/estd/internal/impl/functional/fnptr1.h", "src/estd/internal/impl/functional/fnptr2.h", "src/estd/internal/impl/functional.h: function_context_provider::model", "src/estd/exp/functional.h: static_function"]}
{"id": "C257", "title": "A copy of a thisify_function is a function of its own", "statement": "A copy of a thisify_function (also one made by returning it by value) can be called after the original has ended.", "quantifier": "all states, objects, methods and arguments", "why_tests_cant": "whether the dangling model still reads as before is up to the memory", "anchors": ["src/estd/internal/functional.h: thisify_function"]}
{"id": "C258", "title": "A static_function calls the functor it was made with", "statement": "After static_function k(f), calling k runs f, for every functor f.", "quantifier": "all functors, types and arguments, and static_functions made before", "why_tests_cant": "shows only when two functors of one type with different states are used", "anchors": ["src/estd/exp/functional.h: static_function"]}
{"id": "C259", "title": "Functions whose model destroys the functor after the call can be used like the others", "statement": "A function over a model of function_fnptr2_opt can be called more than once, and its model can end after the call, without undefined behaviour.", "quantifier": "all states, functors and arguments", "why_tests_cant": "a trivially destructible functor hides it", "anchors": ["src/estd/internal/impl/functional/fnptr2.h: function_fnptr2_opt"]}
{"id": "C260", "title": "Calling an empty or stale non-owning function is defined", "statement": "Calling a function that is null, or whose model has ended, has a defined outcome.", "quantifier": "all states, models and arguments", "why_tests_cant": "undefined behaviour can look like any outcome", "anchors": ["src/estd/internal/functional.h: detail::function::operator()"]}
{"id": "C261", "title": "A handle-based virtual memory keeps every region's contents", "statement": "For every sequence of allocate, free, maint, total_free and byte loads and stores through live handles, in which each allocation leaves a chunk at least as large as a header or uses up a chunk that is not first in the free list, finds a free handle when it finds memory, loads read bytes that were stored, and maint is not called again right after one that reordered or merged chunks: no call is undefined, allocate is first fit over the free list and returns the lowest free handle or none, total_free counts the free bytes and chunks, and every load returns what was last stored there since the region was allocated.", "quantifier": "all storage and header sizes, handle counts and histories of operations", "why_tests_cant": "the free list lives inside the bytes handed out, so any earlier allocation, free or merge can damage any region", "anchors": ["src/estd/exp/memory/memory_pool2.h: virtual_memory::allocate, free, total_free, maint"]}
{"id": "C262", "title": "The regions of a virtual memory are disjoint, large enough and account for all memory", "statement": "After every such sequence the regions of the handles in use lie inside the storage, no byte belongs to two of them, and the free total plus their sizes is the size of the storage; an allocation returns a handle that was free, whose region has the size asked for (or a header's size if that is more), and changes no other handle.", "quantifier": "all storage and header sizes, handle counts and histories of operations", "why_tests_cant": "an overlap depends on the order of all earlier allocations, frees and merges", "anchors": ["src/estd/exp/memory/memory_pool2.h: virtual_memory::allocate, free, total_free, maint"]}
{"id": "C263", "title": "An allocation that just uses up a chunk succeeds", "statement": "allocate(n) where the first free chunk large enough has exactly n bytes returns a handle to it.", "quantifier": "all histories and sizes", "why_tests_cant": "the uninitialised pointer can hold anything", "anchors": ["src/estd/exp/memory/memory_pool2.h: virtual_memory::allocate"]}
{"id": "C264", "title": "An allocation may leave a chunk of any size", "statement": "After an allocation that leaves a chunk smaller than a header, writing within the region returned leaves the allocator working.", "quantifier": "all sizes of storage and remainder", "why_tests_cant": "needs a remainder below the header size and a later walk of the list", "anchors": ["src/estd/exp/memory/memory_pool2.h: virtual_memory::allocate"]}
{"id": "C265", "title": "Running out of handles is reported", "statement": "allocate with enough memory but every handle in use returns no handle.", "quantifier": "all histories that use up the handles", "why_tests_cant": "undefined behaviour can look like any outcome", "anchors": ["src/estd/exp/memory/memory_pool2.h: virtual_memory::get_free_handle, allocate"]}
{"id": "C266", "title": "maint can be called any number of times", "statement": "Calling maint again after maint has a defined outcome in every state.", "quantifier": "all histories that leave two chunks of which maint moves or merges one", "why_tests_cant": "depends on the maintenance state left by the earlier call", "anchors": ["src/estd/exp/memory/memory_pool2.h: virtual_memory::maint, maint_compact"]}
{"id": "C267", "title": "Maintenance loses no memory", "statement": "maint never changes the number of free bytes that total_free reports.", "quantifier": "all histories", "why_tests_cant": "needs a merge followed by a move in the next call", "anchors": ["src/estd/exp/memory/memory_pool2.h: virtual_memory::maint, maint_compact"]}
{"id": "C268", "title": "The handle-based memory pool hands out each block to one owner", "statement": "For every N from 1 to below 2^31 and every sequence of allocate, construct, deallocate, destroy and writes in which only live blocks are given back, written or destroyed and construct is called while a block is free: no call is undefined; allocate returns null exactly when N blocks are live and otherwise a block of the pool that is not live; each live block holds what its owner last put there; blocks given back are reused last in first out; and count_free is N minus the number of live blocks.", "quantifier": "all pool sizes, element types and histories of calls", "why_tests_cant": "a lost or doubled block shows only after particular orders of allocation and release; the end marker must be distinct from every handle at every size", "anchors": ["src/estd/exp/memory/memory_pool.h: memory_pool_1, memory_pool_internal::allocate, construct, deallocate, destroy, count_free", "src/estd/internal/deduce_fixed_size.h", "src/estd/forward_list.h: push_front, pop_front"]}
{"id": "C269", "title": "The second linked-list memory pool hands out each block to one owner", "statement": "For every N and every sequence of allocate, deallocate and writes in which only live blocks are given back or written: no call is undefined; allocate returns null exactly when N blocks are live and otherwise a block of the pool that is not live; each live block holds what its owner last put there; and blocks given back are reused last in first out.", "quantifier": "all pool sizes, element types and histories of calls", "why_tests_cant": "the link of a free block shares its bytes with the value, so any earlier write or release can damage the list", "anchors": ["src/estd/exp/memory/memory_pool2.h: memory_pool<linked_list>::allocate, deallocate"]}
{"id": "C270", "title": "count_free of the second pool is the number of free blocks", "statement": "count_free() returns N minus the number of live blocks after every history.", "quantifier": "all pool sizes and histories", "why_tests_cant": "the answer is right as long as blocks are only allocated", "anchors": ["src/estd/exp/memory/memory_pool2.h: memory_pool<linked_list>::count_free"]}
{"id": "C271", "title": "construct on a pool that is used up is reported", "statement": "memory_pool_1::construct with no free block has a defined outcome.", "quantifier": "all pool sizes and histories that use up the pool", "why_tests_cant": "undefined behaviour can look like any outcome", "anchors": ["src/estd/exp/memory/memory_pool.h: memory_pool_internal::construct"]}
{"id": "C272", "title": "The blocks of the handle-based pool are aligned for their type", "statement": "Every block of memory_pool_1<T, N> is at an address that is a multiple of alignof(T), wherever the pool is.", "quantifier": "all addresses, sizes and alignments", "why_tests_cant": "depends on where the pool happens to be; many processors forgive it", "anchors": ["src/estd/exp/memory/memory_pool.h: memory_pool_base::item", "src/estd/internal/value_evaporator.h: raw_instance_provider"]}
{"id": "C273", "title": "fromString converts the number a text begins with", "statement": "For every text that begins with a decimal number (blanks, an optional sign, digits), whatever follows it, internal::fromString<int>, <unsigned char>, <unsigned short> and <unsigned long> return that number whenever it fits the type; when the text begins with no number they return 0.", "quantifier": "all texts, numbers in range, and contents of the memory after the text", "why_tests_cant": "every length and content of the text; the conversion goes through wider types", "anchors": ["src/estd/internal/string_convert.h: fromString"]}
{"id": "C274", "title": "validateString<int> accepts exactly the decimal digit texts", "statement": "For every ASCII text, validateString<int> and <unsigned char> return null exactly when the text is one or more decimal digits, and then fromString returns the number it spells if that fits the type.", "quantifier": "all ASCII texts and contents of the memory after them", "why_tests_cant": "every length and content", "anchors": ["src/estd/internal/string_convert.cpp: validateString<int>", "src/estd/internal/string_convert.h: validateString<unsigned char>, fromString"]}
{"id": "C275", "title": "validateString<char> accepts texts of at most one character", "statement": "validateString<char> returns null exactly for texts of length 0 or 1, and fromString<char> of a text of length 1 is its character.", "quantifier": "all texts", "why_tests_cant": "every length", "anchors": ["src/estd/internal/string_convert.cpp: validateString<char>", "src/estd/internal/string_convert.h: fromString<char>"]}
{"id": "C276", "title": "A text that passed validation converts to the number it spells", "statement": "If validateString<T> accepts a text, fromString<T> of it is defined and returns the number the text spells.", "quantifier": "all accepted texts", "why_tests_cant": "fails only for long numbers", "anchors": ["src/estd/internal/string_convert.cpp: validateString<int>", "src/estd/internal/string_convert.h: fromString<int>, fromString<unsigned char>"]}
{"id": "C277", "title": "validateString<int> accepts the text of every int", "statement": "Every text that fromString<int> converts to the number it spells is accepted by validateString<int>.", "quantifier": "all ints", "why_tests_cant": "2^32 values", "anchors": ["src/estd/internal/string_convert.cpp: validateString<int>"]}
{"id": "C278", "title": "validateString<unsigned short> accepts only numbers of that type", "statement": "validateString<unsigned short> accepts a text only if it is the decimal number of an unsigned short.", "quantifier": "all texts", "why_tests_cant": "infinitely many texts", "anchors": ["src/estd/internal/string_convert.cpp: validateString<unsigned short>"]}
{"id": "C279", "title": "Validation is defined for every text", "statement": "validateString<int> has a defined result for every text.", "quantifier": "all texts, including ones that are not ASCII", "why_tests_cant": "undefined behaviour can look like any outcome", "anchors": ["src/estd/internal/string_convert.cpp: validateString<int>"]}
{"id": "C280", "title": "The older from_chars converts what stands in its range", "statement": "For every base from 2 to 36 and every NUL-terminated text that is an optional minus sign, digits and then something that is no digit (and, in base 16, no x after a lone 0), legacy::from_chars over the text returns the number with ptr just after the last digit if it fits long, result_out_of_range with the same ptr if it does not, and invalid_argument with ptr at the start if there is no digit.", "quantifier": "all bases, texts, widths of long", "why_tests_cant": "every length, content and base", "anchors": ["src/estd/internal/string_convert.cpp: legacy::from_chars"]}
{"id": "C281", "title": "The older from_chars reads only its range", "statement": "legacy::from_chars(first, last, ...) reads nothing outside [first, last) and returns a ptr in it.", "quantifier": "all ranges and what follows them", "why_tests_cant": "the bytes after a range are often not digits", "anchors": ["src/estd/internal/string_convert.cpp: legacy::from_chars"]}
{"id": "C282", "title": "The older from_chars accepts only the pattern of from_chars", "statement": "legacy::from_chars rejects blanks, a plus sign and a 0x prefix, as from_chars must.", "quantifier": "all texts", "why_tests_cant": "infinitely many texts", "anchors": ["src/estd/internal/string_convert.cpp: legacy::from_chars"]}
{"id": "C283", "title": "The older from_chars leaves the value alone on failure", "statement": "When legacy::from_chars reports an error the value argument keeps what it held.", "quantifier": "all texts and old values", "why_tests_cant": "every old value; tests rarely look at the value after an error", "anchors": ["src/estd/internal/string_convert.cpp: legacy::from_chars"]}
{"id": "C284", "title": "maxStringLength is enough for every value of a fixed-width type", "statement": "For int8_t to uint64_t, on 64-bit and 32-bit desktops, 32-bit ARM Linux and bare-metal 32-bit targets other than ARM, the decimal numeral of every value, with its sign, has at most maxStringLength<T>() characters; for all but uint64_t, and unsigned int on ARM, some value needs them all.", "quantifier": "all values of the eight types, four kinds of platform", "why_tests_cant": "up to 2^64 values per type", "anchors": ["src/estd/internal/string_convert.h: legacy::maxStringLength"]}
{"id": "C285", "title": "maxStringLength and string_convert_traits are enough for every integer type", "statement": "maxStringLength<T>() is enough for every value of every integer type T of the language, and string_convert_traits<char, int16_t>::max_size() for every int16_t.", "quantifier": "all integer types and values, per platform", "why_tests_cant": "which types are covered depends on the platform's typedefs", "anchors": ["src/estd/internal/string_convert.h: legacy::maxStringLength", "src/estd/internal/to_string.h: string_convert_traits"]}
{"id": "C286", "title": "The log shows exactly the enabled messages, in order, at the current writer", "statement": "For every sequence of esp_log_set_vprintf and esp_log_write calls whose tags contain no percent sign and whose formats find their arguments: each message of level info or more severe gives one line, level letter, tag, colon, message, newline, to the writer set last; the others give nothing; and esp_log_set_vprintf returns the writer it replaces.", "quantifier": "all call sequences, tags, formats and arguments", "why_tests_cant": "histories of any length", "anchors": ["src/estd/internal/utility.cpp: esp_log_write, esp_log_write_header, esp_log_set_vprintf", "src/estd/port/esp-idf/fake/esp_log.h"]}
{"id": "C287", "title": "A log tag may be any text", "statement": "esp_log_write is defined for every tag.", "quantifier": "all tags", "why_tests_cant": "needs a percent sign in a tag", "anchors": ["src/estd/internal/utility.cpp: esp_log_write_header"]}
{"id": "C288", "title": "Reading into a string takes the next word", "statement": "On a good stream over a fixed text, in >> value skips the blanks, makes value the longest run of other characters (when it fits value), leaves the stream just behind it and sets eofbit exactly if the text ends there; with only blanks left value becomes empty and failbit and eofbit are set.  Blocking and non-blocking streams behave alike.", "quantifier": "all texts, positions, string sizes and kinds, both policies, both character traits; streams over texts of fewer than 65536 characters, none of them (char)-1 if the library's own traits are used (C193)", "why_tests_cant": "every text and position", "anchors": ["src/estd/internal/istream_runtimearray.hpp: operator >>, do_input", "src/estd/istream.h: ws"]}
{"id": "C289", "title": "A loop over in >> value sees the words of the text", "statement": "while(in >> value) runs exactly once for each word (maximal run of non-blank characters) of the text from the stream's position, in order, and then ends, for every text whose words fit value.", "quantifier": "all texts and positions; streams over texts of fewer than 65536 characters, none of them (char)-1 if the library's own traits are used (C193)", "why_tests_cant": "texts of any number of words; the end of the loop depends on which bits the last word left", "anchors": ["src/estd/internal/istream_runtimearray.hpp: operator >>, do_input", "src/estd/internal/ios.h: operator bool"]}
{"id": "C290", "title": "A failed read leaves the value alone", "statement": "in >> value on a stream that is not good changes neither value nor which of eofbit and badbit is set.", "quantifier": "all streams and values", "why_tests_cant": "every state and value", "anchors": ["src/estd/internal/istream_runtimearray.hpp: operator >>, do_input"]}
{"id": "C291", "title": "A word that does not fit is reported", "statement": "in >> value with a word longer than value can hold stops at value's capacity or sets a failure bit.", "quantifier": "all strings and longer words", "why_tests_cant": "every capacity and length", "anchors": ["src/estd/internal/istream_runtimearray.hpp: do_input"]}
{"id": "C292", "title": "Reading a word keeps all its characters", "statement": "in >> value makes value the word, whatever characters it contains.", "quantifier": "all words", "why_tests_cant": "all contents", "anchors": ["src/estd/internal/istream_runtimearray.hpp: do_input"]}
{"id": "C293", "title": "A word interrupted by missing input can be read again", "statement": "On a non-blocking stream whose source may still deliver (in_avail() is 0 at the end of what has arrived), in >> value that runs out of input sets nodatabit and puts the characters of the unfinished word back; after clear(), and with more text, the same call reads the whole word.", "quantifier": "all texts, all points at which the input is interrupted, all continuations; streams over texts of fewer than 65536 characters, none of them (char)-1 if the library's own traits are used (C193)", "why_tests_cant": "every interruption point and continuation", "anchors": ["src/estd/internal/istream_runtimearray.hpp: do_input", "src/estd/internal/ios_policy.h: on_nodata"]}
{"id": "C294", "title": "Reading a character takes the next one that is not a blank", "statement": "in >> ch skips the blanks and stores the next character (with the standard traits: unless it is 0); with only blanks left ch keeps its value and failbit and eofbit are set.", "quantifier": "all texts and positions; streams over texts of fewer than 65536 characters, none of them (char)-1 if the library's own traits are used (C193)", "why_tests_cant": "every text and position", "anchors": ["src/estd/istream.h: operator >>(basic_istream&, char&)"]}
{"id": "C295", "title": "Reading a character stores it whatever it is", "statement": "in >> ch stores the next non-blank character, the character 0 included.", "quantifier": "all texts", "why_tests_cant": "needs a zero character in the text", "anchors": ["src/estd/istream.h: operator >>(basic_istream&, char&)"]}
{"id": "C296", "title": "Nobody waits for flags that are there", "statement": "With any number of tasks using one event group, a task whose wait_bits or sync cannot return waits for flags that are not (all, or any) set at that moment; and the flags a call answers contain what it asked for exactly if its time did not run out. A call with no time to wait returns at once, one that waits for ever never for lack of time, and any other one that waits returns when its time is over, with the flags set then and without changing them.", "quantifier": "all programs of the tasks, all schedules, all times to wait", "why_tests_cant": "every interleaving", "anchors": ["src/estd/port/freertos/event_groups.h: wait_bits, sync", "src/estd/port/freertos/wrapper/event_groups.h"]}
{"id": "C297", "title": "Flags are neither lost nor invented", "statement": "After every step a flag of an event group is set exactly if it was set before or the operation that started sets it, and no operation that completed in this step takes it (clear_bits, a wait that clears on exit, a sync that met); a set releases every task that waits for what is set then, with those flags as its answer.", "quantifier": "all programs, schedules and flags", "why_tests_cant": "every interleaving of sets, clears and waits", "anchors": ["src/estd/port/freertos/event_groups.h", "src/estd/port/freertos/wrapper/event_groups.h: set_bits, clear_bits"]}
{"id": "C298", "title": "Tasks that call sync stay together", "statement": "n tasks that each call sync(own flag, all flags) again and again have at every moment come back from the same number of calls, whatever the schedule, and until all calls are done some task can run.", "quantifier": "all numbers of tasks and rounds, all choices of flags in which each task has one of its own, all schedules", "why_tests_cant": "every interleaving and number of rounds", "anchors": ["src/estd/port/freertos/event_groups.h: sync", "src/estd/port/freertos/wrapper/event_groups.h: sync"]}
{"id": "C299", "title": "One set of a flag releases one task", "statement": "When several tasks wait for a flag and clear it on exit, one set_bits of it lets one of them go on.", "quantifier": "all programs and schedules", "why_tests_cant": "every interleaving", "anchors": ["src/estd/port/freertos/event_groups.h: wait_bits"]}
{"id": "C300", "title": "Event group objects live and die with their group", "statement": "As long as event_group objects are created with success and not copied, every use of a live object is defined and a group of the operating system exists exactly as long as its object.", "quantifier": "all sequences of creations, uses and destructions", "why_tests_cant": "every history", "anchors": ["src/estd/port/freertos/event_groups.h: event_group<false>, event_group<true>"]}
{"id": "C301", "title": "Every event_group object can be used and destroyed", "statement": "An event_group object, also a copy of another or one whose creation found no memory, can be used and destroyed at any time of its life.", "quantifier": "all histories", "why_tests_cant": "every history", "anchors": ["src/estd/port/freertos/event_groups.h: event_group<false>, event_group<true>"]}
{"id": "C302", "title": "Careful timers are safe", "statement": "A program that uses its timers while they live, does not copy them, whose creations and destructors' commands succeed, and in which a timer<true> keeps its storage until the timer task has worked off its queue, never touches a deleted timer, whatever the interleaving with the timer task; and a heap timer is freed once its object is gone and the queue is empty.", "quantifier": "all programs, all interleavings with the timer task and with time", "why_tests_cant": "every interleaving", "anchors": ["src/estd/port/freertos/timer.h: timer<false>, timer<true>", "src/estd/port/freertos/wrapper/timer.h"]}
{"id": "C303", "title": "A destroyed timer falls silent", "statement": "In such a program, once the timer task has worked off its queue after a timer's destructor ran, the callback of this timer never runs again.", "quantifier": "all programs, all interleavings", "why_tests_cant": "every interleaving and all later times", "anchors": ["src/estd/port/freertos/timer.h: ~timer"]}
{"id": "C304", "title": "A stopped timer falls silent", "statement": "In such a program, once the timer task has worked off its queue after stop() was accepted, the timer is dormant and its callback does not run until the program gives the timer another command.", "quantifier": "all programs, all interleavings", "why_tests_cant": "every interleaving and all later times", "anchors": ["src/estd/port/freertos/wrapper/timer.h: internal::timer::stop"]}
{"id": "C305", "title": "A started timer calls back on time and as often as due", "statement": "After start() or reset() of a dormant timer of period p (given at creation or by period()) at time a, and no other command to it, the callback has run at time a + d at most d/p times (auto-reload) or at most once and not before p (one-shot); and exactly so often whenever the timer task has nothing left to do.", "quantifier": "all programs, periods, interleavings and times", "why_tests_cant": "every interleaving and number of periods", "anchors": ["src/estd/port/freertos/wrapper/timer.h: internal::timer::start, reset", "src/estd/port/freertos/timer.h"]}
{"id": "C306", "title": "No callback after stop or destruction", "statement": "When stop() or the destructor of a timer has returned, its callback does not run.", "quantifier": "all programs and interleavings", "why_tests_cant": "every interleaving", "anchors": ["src/estd/port/freertos/timer.h: ~timer", "src/estd/port/freertos/wrapper/timer.h: internal::timer::stop"]}
{"id": "C307", "title": "The destructor of a timer deletes it", "statement": "After the destructor of a timer has run its callback runs only finitely often, also when the timer task's queue was full for the 100 ms the destructor waits.", "quantifier": "all programs and interleavings", "why_tests_cant": "needs a full queue", "anchors": ["src/estd/port/freertos/timer.h: ~timer"]}
{"id": "C308", "title": "A timer in static storage can be destroyed at any time", "statement": "A timer<true> object can be destroyed whenever no call on it is in progress.", "quantifier": "all programs and interleavings", "why_tests_cant": "every interleaving", "anchors": ["src/estd/port/freertos/timer.h: timer<true>"]}
{"id": "C309", "title": "Every timer object can be used and destroyed", "statement": "A timer object, also a copy of another or one whose creation found no memory, can be used and destroyed.", "quantifier": "all programs", "why_tests_cant": "every history", "anchors": ["src/estd/port/freertos/timer.h: timer<false>, timer<true>"]}
{"id": "C310", "title": "Setting the period leaves a dormant timer dormant", "statement": "period(p, block_time) of a timer that is not running changes its period and does not start it.", "quantifier": "all states and periods", "why_tests_cant": "every state", "anchors": ["src/estd/port/freertos/wrapper/timer.h: internal::timer::period"]}
{"id": "C311", "title": "A timer is active after start", "statement": "When start() has been accepted, active() answers true until the timer is stopped or expires.", "quantifier": "all states and interleavings", "why_tests_cant": "every interleaving", "anchors": ["src/estd/port/freertos/wrapper/timer.h: internal::timer::active, start"]}
{"id": "C312", "title": "Iterators and elements are places of a list", "statement": "Every program that uses begin(), end(), the arithmetic, comparisons and dereferencing of iterators, v[i], front(), back(), elements kept in variables, erase(it), insert(it, x) and the other operations of a fixed-capacity vector or string, within its size and capacity, observes what the same program observes of an ideal list in which an iterator is a place, and leaves the same elements (erase: one-byte elements or the last one; null-terminated strings: no 0 written).", "quantifier": "all programs, contents, capacities, size types", "why_tests_cant": "arbitrary programs and contents", "anchors": ["src/estd/internal/container/iterator.h: locking_iterator", "src/estd/internal/container/traditional_accessor.h", "src/estd/internal/container/locking_accessor.h", "src/estd/internal/runtime_array.h: begin, end, operator[], front, back", "src/estd/internal/dynamic_array.h: erase, insert"]}
{"id": "C313", "title": "A loop over a container visits every element once and in order", "statement": "for(auto& x : v) visits the elements of a fixed-capacity vector or string from first to last, each once, ends, and assigning to x changes exactly this element; a loop from end() with --it visits them from last to first.", "quantifier": "all contents, all functions of an element", "why_tests_cant": "arbitrary contents", "anchors": ["src/estd/internal/container/iterator.h: locking_iterator", "src/estd/internal/runtime_array.h: begin, end"]}
{"id": "C314", "title": "Erasing while iterating", "statement": "for(it = v.begin(); it != v.end();) if(bad(*it)) it = v.erase(it); else ++it; ends and leaves exactly the elements that are not bad, in order, for one-byte elements.", "quantifier": "all contents, all predicates", "why_tests_cant": "arbitrary contents", "anchors": ["src/estd/internal/dynamic_array.h: erase", "src/estd/internal/container/iterator.h: locking_iterator"]}
{"id": "C315", "title": "Assigning one element to another", "statement": "v[i] = v[j] gives element i the value of element j.", "quantifier": "all contents and positions", "why_tests_cant": "every pair of elements", "anchors": ["src/estd/internal/container/traditional_accessor.h: operator=", "src/estd/internal/runtime_array.h: operator[]"]}
{"id": "C316", "title": "An array behaves as a list of fixed length and a window as a view of it", "statement": "Every program that creates arrays from as many values as they have elements, copies, fills, compares (== and !=, also arrays of different sizes), indexes and iterates them, and reads and writes them through layer2 and layer3 array windows over their first elements, inside their bounds and reading only elements that have a value, observes what the same program observes of lists of fixed length in which a window shares the elements.", "quantifier": "all programs, element types, sizes and contents", "why_tests_cant": "arbitrary programs, sizes and aliasing windows", "anchors": ["src/estd/internal/array.h", "src/estd/array.h", "src/estd/internal/legacy/array.h: layer2::array, layer3::array", "src/estd/algorithm.h: copy, fill_n, equal"]}
{"id": "C317", "title": "An array takes an initializer list of any length", "statement": "array<T, N> a { ... } with more than N values is rejected without touching other memory, and with fewer gives the other elements the value T() as for a built-in array.", "quantifier": "all sizes and lists", "why_tests_cant": "every length of list", "anchors": ["src/estd/internal/array.h: traditional_array"]}
{"id": "C318", "title": "A small map finds the first pair with the key", "statement": "m[key] of a layer1, layer2 or layer3 map points to the value beside the first pair whose key equals key and is null if there is none; writing through it changes this value and nothing else; layer2 and layer3 maps share the pairs with the buffer they were made of and a layer1 map has its own copy.", "quantifier": "all buffers, keys, histories of lookups, writes and changes of the buffer", "why_tests_cant": "arbitrary histories and repeated keys", "anchors": ["src/estd/map.h: layer1::map, layer2::map, layer3::map"]}
{"id": "C319", "title": "A layer1 map with fewer pairs than it can hold", "statement": "In a layer1 map made of fewer pairs than its size, looking for a key that is not among them gives null.", "quantifier": "all sizes, pairs and keys", "why_tests_cant": "the outcome depends on memory that was never written", "anchors": ["src/estd/map.h: layer1::map", "src/estd/internal/array.h: traditional_array"]}
{"id": "C320", "title": "A stack is last in, first out", "statement": "Every history of push, pop, top, assignment to top(), size, empty and iteration of a layer1 stack that keeps within its capacity and takes only from a stack that is not empty observes what a list with the top at its head observes; iteration goes from the bottom to the top.", "quantifier": "all histories, element types, capacities and size types", "why_tests_cant": "arbitrary histories", "anchors": ["src/estd/stack.h", "src/estd/internal/dynamic_array.h: push_back, pop_back", "src/estd/internal/runtime_array.h: back"]}
{"id": "C321", "title": "top() of a const stack", "statement": "top() of a stack that is not empty gives the last element pushed also if the stack is const.", "quantifier": "all histories", "why_tests_cant": "every history", "anchors": ["src/estd/stack.h: top() const"]}
{"id": "C322", "title": "A growing container behaves as a list", "statement": "Every program over any number of vectors and strings whose memory comes from an allocator that grants every request - append, push_back, emplace_back, pop_back, insert, erase, clear, resize, reserve of at least size(), shrink_to_fit, append of a container (also of itself), assign of another, v[i] = a, size, empty, v[i], iteration, == - observes what the same program observes of lists, whether a reallocation moves the memory or not and however much spare room is added; size() never exceeds capacity().", "quantifier": "all programs, element types (one-byte elements for erase), contents and choices of the allocator", "why_tests_cant": "every history with every placement of every reallocation", "anchors": ["src/estd/internal/dynamic_array.h", "src/estd/internal/impl/dynamic_array.h", "src/estd/allocators/handle_desc.h", "src/estd/internal/impl/handle_desc.h", "test/catch/mem.h: _allocator"]}
{"id": "C323", "title": "Growing gives the old memory back", "statement": "At every moment of such a program each block of memory the allocator gave out and was not given back is held by exactly one container and has capacity() elements: growing, shrinking and moving neither leak nor share memory.", "quantifier": "all programs and choices of the allocator", "why_tests_cant": "a leak shows only in the sum over a history", "anchors": ["src/estd/internal/dynamic_array.h: reserve, shrink_to_fit", "src/estd/allocators/handle_desc.h"]}
{"id": "C324", "title": "A growing container gives its memory back when it goes out of scope", "statement": "When a container whose memory came from an allocator is destroyed, its memory is given back to the allocator.", "quantifier": "all histories", "why_tests_cant": "every history", "anchors": ["src/estd/internal/dynamic_array.h: dynamic_array", "src/estd/internal/impl/handle_desc.h"]}
{"id": "C325", "title": "A refused allocation leaves the container as it was", "statement": "If the allocator refuses memory, push_back and reserve leave the container as it was.", "quantifier": "all histories and points where the allocator refuses", "why_tests_cant": "failure at every point of every history", "anchors": ["src/estd/internal/dynamic_array.h: grow, ensure_additional_capacity, reserve", "src/estd/allocators/handle_desc.h: reallocate", "src/estd/internal/impl/handle_desc.h: reallocate"]}
{"id": "C326", "title": "reserve of less than the size", "statement": "reserve(n) with n smaller than size() keeps all elements.", "quantifier": "all histories and n", "why_tests_cant": "every history and size", "anchors": ["src/estd/internal/dynamic_array.h: reserve"]}
{"id": "C327", "title": "Pushing an element of the container while there is room", "statement": "v.push_back(v[j]) appends the value of v[j] if size() is less than capacity().", "quantifier": "all histories, positions and choices of the allocator", "why_tests_cant": "every history", "anchors": ["src/estd/internal/dynamic_array.h: push_back, append"]}
{"id": "C328", "title": "Pushing an element of the container when it is full", "statement": "v.push_back(v[j]) appends the value of v[j] also if size() is capacity().", "quantifier": "all histories, positions and choices of the allocator", "why_tests_cant": "depends on whether the reallocation moves", "anchors": ["src/estd/internal/dynamic_array.h: push_back, append"]}
{"id": "C329", "title": "A copy of a growing container is independent", "statement": "After copy construction of a growing container, changing one of the two does not change the other.", "quantifier": "all histories, elements and choices of the allocator", "why_tests_cant": "every history", "anchors": ["src/estd/internal/runtime_array.h: allocated_array", "src/estd/internal/impl/handle_desc.h"]}
{"id": "C330", "title": "insert and erase return iterators to the right elements", "statement": "For a growing container with room for another element insert(begin() + j, std::move(a)) returns an iterator that refers to the inserted element, and erase of an element that is not the last returns one that refers to the element that followed it.", "quantifier": "all histories, positions and choices of the allocator", "why_tests_cant": "every history and position", "anchors": ["src/estd/internal/dynamic_array.h: insert, erase", "src/estd/internal/runtime_array.h: create_iterator"]}
{"id": "C331", "title": "insert returns a usable iterator also when the container had to grow", "statement": "insert(begin() + j, std::move(a)) returns an iterator that refers to the inserted element also if size() is capacity().", "quantifier": "all histories, positions and choices of the allocator", "why_tests_cant": "depends on whether the reallocation moves", "anchors": ["src/estd/internal/dynamic_array.h: insert"]}
{"id": "C332", "title": "Element proxies lock, act and unlock", "statement": "Every history of proxies for elements of lockable memory - assignment of a value, conversion to the value, comparison with a value, copying and moving the proxy forward and back, inside the blocks - acts on exactly the element each proxy stands for, never uses a reference to memory that moved, and leaves every block unlocked, whichever unlocked blocks the allocator moves at each of its calls.", "quantifier": "all histories, contents and choices of the allocator", "why_tests_cant": "every history with every movement of memory", "anchors": ["src/estd/internal/container/accessor.h: accessor_shared, accessor, accessor_stateless", "src/estd/internal/container/locking_accessor.h", "src/estd/traits/allocator_traits.h: locking_allocator_traits"]}
{"id": "C333", "title": "Assigning one element proxy to another copies the value", "statement": "t = u for two proxies gives the element t stands for the value of the element u stands for.", "quantifier": "all histories and proxies", "why_tests_cant": "every history", "anchors": ["src/estd/internal/container/accessor.h: accessor::operator="]}
{"id": "C334", "title": "Iterators and locking accessors leave memory unlocked", "statement": "After a conversion of a locking_accessor to its value, and after an iterator over lockable memory went out of scope, the memory has as many locks as before.", "quantifier": "all memories and numbers of dereferences", "why_tests_cant": "every number of dereferences", "anchors": ["src/estd/internal/container/locking_accessor.h: operator->, operator locked_type", "src/estd/internal/container/iterator.h: ~locking_iterator, operator*"]}
{"id": "C335", "title": "Handle offsets compute exactly", "statement": "For a size type narrower than int or as wide as ptrdiff_t, adding, subtracting and taking the difference of handle offsets that stay in range gives the exact numbers, and <, >, >= and == order the offsets of one handle as numbers.", "quantifier": "all widths, offsets and distances", "why_tests_cant": "all values of all widths", "anchors": ["src/estd/internal/container/handle_with_offset.h"]}
{"id": "C336", "title": "The difference of handle offsets is exact for every size type", "statement": "The difference of two handle offsets is the difference of the numbers.", "quantifier": "all widths and offsets", "why_tests_cant": "all values of all widths", "anchors": ["src/estd/internal/container/handle_with_offset.h: operator-"]}
{"id": "C337", "title": "Comparisons of handle offsets agree", "statement": "a >= b of two handles with offset is a > b or a == b.", "quantifier": "all handles and offsets", "why_tests_cant": "all values", "anchors": ["src/estd/internal/container/handle_with_offset.h: operator>=, operator=="]}
{"id": "C338", "title": "A notification reaches every observer once, in order", "statement": "For every composition of a subject (references to observers, stored observers, proxies holding subjects, nested to any depth) and every run of notifications: each notification calls, from left to right and looking into proxies that forward its type, every observer that handles the type, once for each time it is listed, and nobody else; each observer ends in the state of having been handed exactly those, and objects not listed are untouched. With a context, the context left by one observer is given to the next, for subjects none of whose observers has both a handler with and one without context for that type; only then does it compile.", "quantifier": "all subjects, observer classes, notifications and contexts", "why_tests_cant": "every composition and every history", "anchors": ["src/estd/exp/observer.h: layer0::subject::notify, notify_helper, observer_proxy, stateless_subject"]}
{"id": "C339", "title": "Subjects keep their own copies of stored observers", "statement": "In every history of notifying, copying and making proxies from a collection of subjects, an observer stored in a subject hears what was sent to that subject and nothing else, an object referred to by several subjects is shared, and an object none refers to is untouched.", "quantifier": "all collections of subjects and histories", "why_tests_cant": "every history", "anchors": ["src/estd/exp/observer.h: layer0::subject, observer_proxy"]}
{"id": "C340", "title": "No notification an observer could handle is lost", "statement": "A notification of a type for which an observer has a handler calls that observer.", "quantifier": "all subjects and notifications", "why_tests_cant": "every composition", "anchors": ["src/estd/exp/observer.h: notify_helper"]}
{"id": "C341", "title": "Proxies forward the context", "statement": "A notification with a context reaches the observers behind a proxy with the context.", "quantifier": "all subjects, notifications and contexts", "why_tests_cant": "every composition", "anchors": ["src/estd/exp/observer.h: observer_proxy, notify_helper"]}
{"id": "C342", "title": "A proxy made from a subject notifies the observers of that subject", "statement": "What is sent through a proxy made from a subject is heard by the observers stored in that subject.", "quantifier": "all collections of subjects and histories", "why_tests_cant": "every history", "anchors": ["src/estd/exp/observer.h: observer_proxy::observer_proxy(TSubject&)"]}
{"id": "C343", "title": "Input from a device comes in order", "statement": "Every history of sgetc, sbumpc, snextc, in_avail, sgetn, get, peek, read and clear on an Arduino stream does what the same history does on a queue of the bytes received, whatever arrives when: each byte comes out once, in order, as the char with its bits; no character is taken for the end of input, which is reported exactly when nothing is waiting; peek waits as long as nothing arrives. The bytes are other than 255 where char is signed.", "quantifier": "all histories of operations and arrivals", "why_tests_cant": "every history and every timing of arrivals", "anchors": ["src/estd/port/arduino/streambuf.h: arduino_streambuf", "src/estd/streambuf.h: streambuf", "src/estd/internal/istream.h: get, peek, read", "src/estd/internal/ios_policy.h: istream_blocking_policy"]}
{"id": "C344", "title": "Every byte can be read from a device", "statement": "A received byte is not reported as the end of input, whatever its value.", "quantifier": "all bytes and histories", "why_tests_cant": "every byte value on every platform", "anchors": ["src/estd/port/arduino/streambuf.h: sbumpc, underflow", "src/estd/traits/char_traits.h"]}
{"id": "C345", "title": "Output to a device goes in order and failures are reported", "statement": "Every history of sputn, sputc, write and put on an Arduino or stdio stream sends the characters the device takes, in order, returns how many (or whether) it took, and sets failbit (write) or eofbit (put) exactly when it did not take all. On Arduino with a signed char the characters are other than (char)-1.", "quantifier": "all histories and all choices of the device", "why_tests_cant": "every history and every number of accepted characters", "anchors": ["src/estd/port/arduino/streambuf.h: arduino_ostreambuf", "src/estd/port/posix/streambuf.cpp: xsputn, sputc", "src/estd/streambuf.h: sputn", "src/estd/internal/ostream.h: write, put"]}
{"id": "C346", "title": "A character that was sent is not reported as failed", "statement": "put of any character the device takes leaves the stream good.", "quantifier": "all characters and states", "why_tests_cant": "every character value on every platform", "anchors": ["src/estd/port/arduino/streambuf.h: sputc", "src/estd/internal/ostream.h: put"]}
{"id": "C347", "title": "A blocking stream waits for characters", "statement": "get on a blocking stream waits until a character arrives.", "quantifier": "all states and arrivals", "why_tests_cant": "every timing of arrivals", "anchors": ["src/estd/internal/istream.h: get", "src/estd/port/arduino/istream.h"]}
{"id": "C348", "title": "A write with time-out sends the caller's characters only", "statement": "With time-outs enabled, write(s, n) sends a prefix of the n characters, whatever the device takes in each round.", "quantifier": "all texts and all choices of the device", "why_tests_cant": "every sequence of partial writes", "anchors": ["src/estd/internal/ostream.h: write_timeout"]}
{"id": "C349", "title": "A write that ran out of time is reported", "statement": "With time-outs enabled, write(s, n) that ran out of time before all was sent leaves the stream not good.", "quantifier": "all texts and all choices of the device", "why_tests_cant": "every sequence of partial writes", "anchors": ["src/estd/internal/ostream.h: write_timeout"]}
{"id": "C350", "title": "A write with time-out resumes where the device stopped", "statement": "With time-outs enabled, when the device takes at most what is left in each round and all of it before the time is up, write(s, n) sends exactly the n characters, in order.", "quantifier": "all texts and all such choices of the device", "why_tests_cant": "every sequence of partial writes", "anchors": ["src/estd/internal/ostream.h: write_timeout"]}
{"id": "C351", "title": "A string in program memory reads as its text", "statement": "For a null-terminated string of at most 256 characters or a string of fixed length below 65536 in program memory: size, indexing, front, back and a loop give its characters; copy from its start copies min(count, size) of them and append adds them all to a string with room; operator<< writes them in order and leaves state, flags and fill alone (field width at most 1, room for them, no character that reads as eof); for a text without NUL, compare orders it against any other text by length and then by the first difference, and compare == 0 and operator== hold exactly for the same text.", "quantifier": "all contents of program memory, addresses, texts, destinations and texts compared with", "why_tests_cant": "every text at every place in memory", "anchors": ["src/estd/exp/pgm/string.h", "src/estd/exp/pgm/impl.h", "src/estd/exp/pgm/policy.h", "src/estd/exp/pgm/accessor.h", "src/estd/internal/runtime_array.h: at, copy", "src/estd/internal/string.h: compare"]}
{"id": "C352", "title": "A string in program memory has any length", "statement": "Size, loops, copies and comparison of a null-terminated string in program memory cover the whole string.", "quantifier": "all null-terminated strings", "why_tests_cant": "every length", "anchors": ["src/estd/exp/pgm/policy.h: size", "src/estd/exp/pgm/string.h"]}
{"id": "C353", "title": "Copying from the middle stops at the end", "statement": "copy(dest, count, pos) of a string or array in program memory copies at most the size - pos elements from pos on.", "quantifier": "all texts, counts and positions", "why_tests_cant": "every count and position", "anchors": ["src/estd/exp/pgm/string.h: copy_to", "src/estd/internal/runtime_array.h: copy"]}
{"id": "C354", "title": "Comparison covers the whole string", "statement": "Strings of fixed length in program memory compare equal only if all their characters are equal.", "quantifier": "all texts", "why_tests_cant": "every text", "anchors": ["src/estd/exp/pgm/string.h: compare_to", "src/estd/internal/string.h: compare"]}
{"id": "C355", "title": "An array in program memory reads as written", "statement": "For an array of any integer type in program memory, size, indexing, front, back and a loop give the initial values, and copy from the start their representation. For a test_container a loop gives them, and so does indexing for one-byte types (and index 0 for all).", "quantifier": "all element types, values and addresses", "why_tests_cant": "every value of every type at every place in memory", "anchors": ["src/estd/exp/pgm/array.h: pgm_array, test_container", "src/estd/exp/pgm/read.h: pgm_read", "src/estd/exp/pgm/accessor.h"]}
{"id": "C356", "title": "Indexing a test_container gives the element", "statement": "test_container[i] of any element type gives the i-th element.", "quantifier": "all element types, values and indices", "why_tests_cant": "every index of every type", "anchors": ["src/estd/exp/pgm/array.h: test_container::operator[]"]}
{"id": "C357", "title": "A field width applies to a string in program memory", "statement": "After setw(w), operator<< of a string in program memory writes it padded to w characters.", "quantifier": "all texts, widths and fill characters", "why_tests_cant": "every text and width", "anchors": ["src/estd/exp/pgm/string.h: operator<<", "src/estd/internal/ostream_basic_string.hpp"]}
{"id": "C358", "title": "Qualifiers, references, extents and pointers are removed and added", "statement": "For every type: remove_const, remove_volatile, remove_cv, remove_reference, remove_cvref, remove_extent and remove_pointer give the type the standard names (also for arrays of qualified elements, qualified pointers and functions with qualifiers); add_const, add_volatile and add_cv give an object type or void the qualifier and change nothing else.", "quantifier": "all types of the language", "why_tests_cant": "infinitely many types; a test names some", "anchors": ["src/estd/internal/raw/type_traits.h"]}
{"id": "C359", "title": "Types are classified as in the standard", "statement": "For every type: is_void, is_integral, is_floating_point, is_arithmetic, is_array, is_pointer, is_const, is_volatile, is_signed, is_reference, is_lvalue_reference, is_rvalue_reference, is_member_pointer and is_same answer as the standard has it, with any qualifiers.", "quantifier": "all types and platforms", "why_tests_cant": "infinitely many types", "anchors": ["src/estd/internal/raw/type_traits.h", "src/estd/type_traits.h", "src/estd/internal/llvm_type_traits.h", "src/estd/internal/type_traits/is_member.h", "src/estd/internal/llvm/is_void.h"]}
{"id": "C360", "title": "Functions, classes and enumerations are recognised where they are", "statement": "is_function is right for every type but C-style variadic functions without noexcept; is_class for every type but unions; is_enum for every type but those functions, nullptr_t and pointers to members; is_unsigned for arithmetic types; is_member_function_pointer and is_member_object_pointer for pointers to anything but such functions and for all other types.", "quantifier": "all types with the stated exceptions", "why_tests_cant": "infinitely many types", "anchors": ["src/estd/internal/type_traits/is_function.h", "src/estd/internal/type_traits/is_member.h", "src/estd/internal/llvm_type_traits.h: is_enum", "src/estd/type_traits.h: is_class, is_unsigned"]}
{"id": "C361", "title": "A variadic function is a function", "statement": "is_function holds for C-style variadic function types such as that of printf, is_enum does not, and pointers to such members are member function pointers.", "quantifier": "all function types", "why_tests_cant": "infinitely many types", "anchors": ["src/estd/internal/type_traits/is_function.h: FEATURE_CPP_AMBIGUOUS_ELLIPSES"]}
{"id": "C362", "title": "A union is a union", "statement": "is_union holds for every union and is_class for none.", "quantifier": "all union types", "why_tests_cant": "every union type of every program", "anchors": ["src/estd/type_traits.h: is_union, is_class"]}
{"id": "C363", "title": "Only enumerations are enumerations", "statement": "is_enum holds for enumerations alone.", "quantifier": "all types", "why_tests_cant": "infinitely many types", "anchors": ["src/estd/internal/llvm_type_traits.h: is_enum"]}
{"id": "C364", "title": "Only arithmetic types are unsigned", "statement": "is_unsigned holds for unsigned arithmetic types alone.", "quantifier": "all types", "why_tests_cant": "infinitely many types", "anchors": ["src/estd/type_traits.h: is_unsigned"]}
{"id": "C365", "title": "References, pointers and decay", "statement": "add_lvalue_reference and add_rvalue_reference collapse references as the standard has it for every type with a reference (and void, for the former); declval<T>() has the standard type for every T; forward keeps an lvalue an lvalue and an rvalue an rvalue; move gives an rvalue; add_pointer and decay give the standard type for every type but functions that are noexcept, C-style variadic or have qualifiers.", "quantifier": "all types with the stated exceptions", "why_tests_cant": "infinitely many types", "anchors": ["src/estd/internal/raw/type_traits.h", "src/estd/internal/llvm_type_traits.h", "src/estd/internal/utility/declval.h", "src/estd/internal/utility/forward.h"]}
{"id": "C366", "title": "Types without a reference stay as they are", "statement": "add_lvalue_reference and add_rvalue_reference of void, of qualified void and of functions with qualifiers give the type itself.", "quantifier": "all types that have no reference", "why_tests_cant": "infinitely many types", "anchors": ["src/estd/internal/raw/type_traits.h: add_lvalue_reference, add_rvalue_reference"]}
{"id": "C367", "title": "Every function decays to a pointer", "statement": "decay of a function, or a reference to one, gives a pointer to it and add_pointer a pointer to it; for functions with qualifiers both give the type itself.", "quantifier": "all function types", "why_tests_cant": "infinitely many types", "anchors": ["src/estd/internal/llvm_type_traits.h: add_pointer, decay", "src/estd/internal/type_traits/is_function.h"]}
{"id": "C368", "title": "make_signed gives the signed type", "statement": "For every integral type but bool and every enumeration, on every platform, make_signed gives the signed type the standard names: the type itself, its signed partner, or the signed type of least rank of the same size; qualifiers are kept.", "quantifier": "all integral and enumeration types, all platforms", "why_tests_cant": "every platform has other sizes", "anchors": ["src/estd/type_traits.h: make_signed", "src/estd/internal/llvm_type_traits.h"]}
{"id": "C369", "title": "make_unsigned gives an unsigned type of the same size", "statement": "For the five signed and five unsigned integer types, without qualifiers, on every platform make_unsigned gives an unsigned integer type of the same size.", "quantifier": "the ten integer types on all platforms", "why_tests_cant": "every platform has other sizes", "anchors": ["src/estd/internal/type_traits/make_unsigned.h", "src/estd/internal/integer.h"]}
{"id": "C370", "title": "make_unsigned gives the unsigned type", "statement": "make_unsigned gives the unsigned partner of every signed integer type, and a type for char, wchar_t, enumerations and qualified types.", "quantifier": "all integral and enumeration types, all platforms", "why_tests_cant": "every platform has other sizes", "anchors": ["src/estd/internal/type_traits/make_unsigned.h"]}
{"id": "C371", "title": "is_base_of tells bases", "statement": "For types that are not unions is_base_of<B, D> holds exactly if B and D are classes and B is D or a base of it, whatever their qualifiers and whether or not the base is accessible or ambiguous.", "quantifier": "all class hierarchies and all pairs of types", "why_tests_cant": "every hierarchy", "anchors": ["src/estd/internal/type_traits/is_base_of.h"]}
{"id": "C372", "title": "A union is no base", "statement": "is_base_of does not hold for unions.", "quantifier": "all union types", "why_tests_cant": "every union type", "anchors": ["src/estd/internal/type_traits/is_base_of.h", "src/estd/type_traits.h: is_class"]}
{"id": "C373", "title": "Conjunction and disjunction stop where they are decided", "statement": "conjunction and disjunction of any number of traits have the value of the first that decides and do not instantiate those behind it; if none decides that of the last, true or false for none at all.", "quantifier": "all lists of traits", "why_tests_cant": "lists of every length", "anchors": ["src/estd/type_traits.h: conjunction, disjunction"]}
{"id": "C374", "title": "function_traits knows the signature", "statement": "For every return type and parameter list, function_traits of a function type, a reference to a function, an estd function, a pointer to a const or plain member function, and an object with one const or plain call operator gives the return type, the number of parameters, each parameter type (and none beyond), whether it is a method, and the class.", "quantifier": "all signatures and all classes", "why_tests_cant": "infinitely many signatures", "anchors": ["src/estd/internal/functional/function_traits.h"]}
{"id": "C375", "title": "function_traits knows every callable", "statement": "function_traits gives the signature of every function type, pointer to function, pointer to member function and object with one call operator.", "quantifier": "all callable types", "why_tests_cant": "infinitely many signatures", "anchors": ["src/estd/internal/functional/function_traits.h"]}
{"id": "C376", "title": "common_type of arithmetic types", "statement": "For any number of arithmetic types, on every platform, common_type exists and is arithmetic; it does not depend on qualifiers, references, the order of the types or repetitions; of integral types it holds every value of each of them, but for the negative values of signed ones where it is unsigned.", "quantifier": "all lists of arithmetic types and all platforms", "why_tests_cant": "lists of any length; every platform has other sizes", "anchors": ["src/estd/internal/common_type.h", "src/estd/internal/fwd/common_type.h"]}
{"id": "C377", "title": "The common type holds all values", "statement": "common_type of integral types can hold every value of each of them.", "quantifier": "all lists of integral types and all platforms", "why_tests_cant": "every platform has other sizes", "anchors": ["src/estd/internal/common_type.h"]}
{"id": "C378", "title": "div gives quotient and remainder", "statement": "For every integer type and all values but division by zero and the least value by -1, div<Int>::eval(x, y) gives q and r with x = y * q + r, |r| < |y| and r of the sign of x; div<long> without <cstdlib> for values of int.", "quantifier": "all integer types, platforms and values", "why_tests_cant": "every pair of values", "anchors": ["src/estd/internal/cstdlib.h: div"]}
{"id": "C379", "title": "div is right for every value of the type", "statement": "div<Int>::eval gives quotient and remainder for every type and every pair of its values whose division is defined.", "quantifier": "all integer types, platforms and values", "why_tests_cant": "every pair of values", "anchors": ["src/estd/internal/cstdlib.h: div"]}
{"id": "C380", "title": "Errors are neither success nor each other", "statement": "On every platform with positive errno numbers no errc is equal to success (0); if the platform has all the numbers and they differ, different errors are different, and if it has only EDOM and ERANGE, unless ERANGE is 10, 20, 30 or 40 above EDOM.", "quantifier": "all errno numberings and all pairs of errors", "why_tests_cant": "every platform numbers them differently", "anchors": ["src/estd/system_error.h: errc", "src/estd/internal/enum.h"]}
{"id": "C381", "title": "Different errors are different on every platform", "statement": "Two different errc are never equal where EDOM and ERANGE differ.", "quantifier": "all errno numberings", "why_tests_cant": "every platform numbers them differently", "anchors": ["src/estd/system_error.h: errc"]}
{"id": "C382", "title": "Text containers over memory that moves", "statement": "For any containers of characters whose memory belongs to an allocator that may, at every call, move memory nobody has locked (and memory being reallocated), every program of their operations and of lock, data(), unlock, loads and stores through locked addresses, in which searched texts occur, positions are within the text, containers read from have memory, strings grow with padding, and addresses are used only while locked and not outgrown, gives the answers and texts of ideal sequences and never uses an address of moved memory; it leaves exactly the locks the user holds. With counted locks this holds for all these programs; with uncounted locks, for those that call no operation on a container the user holds locked, use null-terminated strings only for operations that do not need their size while they hold an address, and no container as both operands.", "quantifier": "all programs, contents, moments at which the allocator moves memory, contents of new memory, paddings", "why_tests_cant": "whether memory moves at one call of a history depends on the allocator and cannot be forced by a test; histories have any length", "anchors": ["src/estd/internal/runtime_array.h: allocated_array", "src/estd/internal/dynamic_array.h", "src/estd/internal/container/specializer.h", "src/estd/internal/string.h", "src/estd/internal/impl/dynamic_array.h", "src/estd/internal/impl/handle_desc.h"]}
{"id": "C383", "title": "Operations give their locks back", "statement": "With counted locks, in any state, every operation of a text container but lock, data() and unlock that ends leaves the number of locks of every piece of memory as it was.", "quantifier": "all states, operations and arguments", "why_tests_cant": "a lock that is left over shows only when memory runs out later", "anchors": ["src/estd/internal/runtime_array.h", "src/estd/internal/dynamic_array.h", "src/estd/internal/container/specializer.h", "src/estd/internal/string.h"]}
{"id": "C384", "title": "A locked address stays good with any allocator", "statement": "An address obtained from a container, by the user or by the container for its own use, stays good until it is unlocked, also when the allocator does not count locks.", "quantifier": "all allocators, strings and operations", "why_tests_cant": "whether memory moves at one call of a history depends on the allocator", "anchors": ["src/estd/internal/impl/dynamic_array.h: size", "src/estd/internal/dynamic_array.h: _erase", "src/estd/internal/string.h: find", "src/estd/internal/container/specializer.h: copy_to"]}
{"id": "C385", "title": "A container inserted into itself over moving memory", "statement": "s.insert(pos, s) inserts the old content of s at pos over every allocator.", "quantifier": "all allocators, contents and positions", "why_tests_cant": "whether memory moves when it grows depends on the allocator", "anchors": ["src/estd/internal/string.h: insert"]}
{"id": "C386", "title": "data() leaves the memory movable", "statement": "After data(), as after any other reading operation, the memory of a string is locked no more than before.", "quantifier": "all states and programs", "why_tests_cant": "a lock that is left over shows only when memory runs out later", "anchors": ["src/estd/internal/string.h: data"]}
{"id": "C387", "title": "A container without memory can be used", "statement": "Searching, comparing, copying, erasing, filling from a braced list and appending nothing are defined for a container that has had no memory yet, and find it empty.", "quantifier": "all allocators and operations", "why_tests_cant": "locking an invalid handle is undefined and happens to work with some allocators", "anchors": ["src/estd/internal/runtime_array.h", "src/estd/internal/string.h", "src/estd/internal/container/specializer.h"]}
{"id": "C388", "title": "Short decimals are read as the nearest number", "statement": "Reading a float or double from a stream over a text whose next word is an optional minus, digits and perhaps a point and digits gives the number of the type nearest to the number written (ties to the even significand), provided the digits, read as one integer, are at most 2^24 (float) or 2^53 (double) and there are at most 10 or 22 places. Exactly the characters of the number are consumed; eofbit is set if nothing follows, otherwise the state does not change.", "quantifier": "all such texts, positions, blanks before and texts after, both character traits, both formats; streams over texts of fewer than 65536 characters, none of them (char)-1 if the library's own traits are used (C193)", "why_tests_cant": "the digit texts cannot be enumerated, and a test compares with the rounding of the same machine", "anchors": ["src/estd/internal/locale/iterated/num_get.h: raise_and_add, nominal, finalize, get", "src/estd/internal/locale/num_get.h: get_signed_number, get_float", "src/estd/istream.h: operator>>"]}
{"id": "C389", "title": "Any decimal is read with a bounded error", "statement": "Reading any decimal of at most 254 places whose digits as one integer and whose power of ten stay below a quarter of 2^emax, and which is zero or not below 2^(3-emax), gives a finite number that differs from the number written by at most two roundings for each digit, one for the division and one for each place. Exactly the characters of the number are consumed.", "quantifier": "all such texts, positions, blanks before and texts after, both character traits, both formats; streams over texts of fewer than 65536 characters, none of them (char)-1 if the library's own traits are used (C193)", "why_tests_cant": "errors accumulate with the number of digits; the worst case is not found by trying texts", "anchors": ["src/estd/internal/locale/iterated/num_get.h: raise_and_add, nominal, finalize, get", "src/estd/internal/locale/num_get.h: get_signed_number, get_float"]}
{"id": "C390", "title": "Reading a floating point number where there is none", "statement": "If what follows the blanks is nothing, or no digit, minus or point, failbit is set, the value is 0 and only the blanks are consumed.", "quantifier": "all texts, positions and blanks, both character traits, both formats; streams over texts of fewer than 65536 characters, none of them (char)-1 if the library's own traits are used (C193)", "why_tests_cant": "the texts cannot be enumerated", "anchors": ["src/estd/internal/locale/iterated/num_get.h: get", "src/estd/internal/locale/num_get.h: get_signed_number"]}
{"id": "C391", "title": "A number ends before a second point", "statement": "Reading a floating point number stops before a second decimal point, with the value of what precedes it.", "quantifier": "all texts with two points", "why_tests_cant": "the texts cannot be enumerated", "anchors": ["src/estd/internal/locale/iterated/num_get.h: nominal"]}
{"id": "C392", "title": "The number of decimal places does not matter", "statement": "Zeros after the point shift the value read, however many there are.", "quantifier": "all numbers of places", "why_tests_cant": "a counter that wraps around shows only with texts longer than tests use", "anchors": ["src/estd/internal/locale/iterated/num_get.h: _state, raise_and_add, finalize"]}
{"id": "C393", "title": "A number too large for the type sets failbit", "statement": "Reading a number beyond the range of float or double sets failbit and gives the largest finite value.", "quantifier": "all texts and both formats", "why_tests_cant": "the texts cannot be enumerated", "anchors": ["src/estd/internal/locale/iterated/num_get.h: raise_and_add"]}
{"id": "C394", "title": "Numbers in range are read as finite numbers near them", "statement": "A number within the range of the type is read as a finite number near it, however many digits it is written with.", "quantifier": "all texts and both formats", "why_tests_cant": "the texts cannot be enumerated; intermediate overflow depends on the number of digits, not on the value", "anchors": ["src/estd/internal/locale/iterated/num_get.h: raise_and_add, finalize"]}
{"id": "C395", "title": "Scientific notation is understood", "statement": "A number followed by e or E and an exponent is read with it.", "quantifier": "all texts", "why_tests_cant": "the texts cannot be enumerated", "anchors": ["src/estd/internal/locale/iterated/num_get.h: nominal"]}
{"id": "C396", "title": "A floating point number has a digit", "statement": "Reading a text that starts with a minus, a point, or both, but without a digit sets failbit.", "quantifier": "all texts", "why_tests_cant": "the texts cannot be enumerated", "anchors": ["src/estd/internal/locale/iterated/num_get.h: nominal, get"]}
{"id": "C397", "title": "Every decimal is read as the nearest number", "statement": "The value read is the number of the type nearest to the number written, whatever the number of digits.", "quantifier": "all texts and both formats", "why_tests_cant": "the texts cannot be enumerated", "anchors": ["src/estd/internal/locale/iterated/num_get.h: raise_and_add"]}
{"id": "C398", "title": "Elements moved into a vector live until pop_back", "statement": "If elements of a class type are added to a vector only by push_back of a temporary, emplace_back or insertion of a temporary at the end, assigned in place, and removed by pop_back, and the vector never holds more than its capacity (for a vector over an allocator: what was reserved, or the first block), then it behaves as a list, the constructor runs exactly once for each element added, the destructor exactly once for each element popped and for nothing else, so that there are always as many objects as elements.", "quantifier": "all element classes, capacities, histories of these calls and values", "why_tests_cant": "histories are unbounded, and a lost or doubled destructor call is silent for the types tests use", "anchors": ["src/estd/internal/dynamic_array.h: push_back, emplace_back, pop_back, insert, grow, raw_insert", "src/estd/internal/impl/handle_desc.h: construct, destroy", "src/estd/internal/array.h: uninitialized_array", "src/estd/vector.h: layer1::vector"]}
{"id": "C399", "title": "Every element of a vector is destroyed", "statement": "Elements still in a vector when it goes out of scope, and elements removed by clear, by resize to a smaller size or by erase, are destroyed.", "quantifier": "all element classes, capacities and histories", "why_tests_cant": "missing destructor calls are silent for the types tests use", "anchors": ["src/estd/internal/dynamic_array.h: clear, resize, erase, dynamic_array"]}
{"id": "C400", "title": "Elements of class type can be copied into a vector", "statement": "push_back(const T&), append, insertion of a range and the initializer list construct copies in a vector with storage of its own, and insert moves the later elements, for every element class.", "quantifier": "all element classes, capacities, histories and positions", "why_tests_cant": "assigning to memory without an object happens to work for many types", "anchors": ["src/estd/internal/dynamic_array.h: append, push_back, raw_insert, move_assist, copy_assist", "src/estd/internal/container/specializer.h: copy_from", "src/estd/internal/runtime_array.h: allocated_array"]}
{"id": "C401", "title": "Insertion of elements that can only be move constructed", "statement": "Inserting a temporary before any element of a vector with storage of its own, within its capacity, gives the list with the value inserted there, for element classes that can be move constructed but not move assigned, whatever a move leaves behind; also mixed with push_back, emplace_back, pop_back and assignments.", "quantifier": "all such classes, capacities, histories, positions and values", "why_tests_cant": "histories and positions are unbounded", "anchors": ["src/estd/internal/dynamic_array.h: raw_insert, move_assist, insert"]}
{"id": "C402", "title": "Insertion destroys what it moves from", "statement": "Inserting an element constructs one object more than it destroys.", "quantifier": "all classes that can only be move constructed, histories and positions", "why_tests_cant": "missing destructor calls are silent for the types tests use", "anchors": ["src/estd/internal/dynamic_array.h: raw_insert, move_assist"]}
{"id": "C403", "title": "Copying into a vector over the caller's objects", "statement": "A vector over an array of objects of the caller (layer2, layer3), used with push_back(const T&), append, insertion of ranges, assignment to elements, resize to a smaller size and clear, within the size of the array, behaves as a list and neither constructs nor destroys any object, so that at its end each object of the array is destroyed exactly once.", "quantifier": "all copy assignable element classes, arrays, histories, positions and values", "why_tests_cant": "histories are unbounded", "anchors": ["src/estd/internal/dynamic_array.h: append, push_back, raw_insert, copy_assist, resize, clear", "src/estd/vector.h: layer2::vector, layer3::vector"]}
{"id": "C404", "title": "Every operation keeps the caller's objects alive", "statement": "Also pop_back, push_back of a temporary and emplace_back leave exactly one live object in each place of the caller's array.", "quantifier": "all element classes, arrays and histories", "why_tests_cant": "missing and doubled destructor calls are silent for the types tests use", "anchors": ["src/estd/internal/dynamic_array.h: pop_back, push_back, emplace_back", "src/estd/vector.h: layer2::vector, layer3::vector"]}
{"id": "C405", "title": "Copies and grown vectors hold objects", "statement": "A copy of a layer1 vector, and a vector over an allocator after its block had to be moved, hold usable elements of every element class.", "quantifier": "all element classes, capacities and histories", "why_tests_cant": "moving the bytes of an object happens to work for many types", "anchors": ["src/estd/internal/runtime_array.h: allocated_array", "src/estd/internal/dynamic_array.h: reserve, grow", "src/estd/internal/impl/handle_desc.h: reallocate"]}
{"id": "C406", "title": "resize adds elements, erase removes any element", "statement": "resize to a larger size adds usable elements, and erase removes any element, for every element class.", "quantifier": "all element classes, capacities, histories and positions", "why_tests_cant": "bytes where no object is look like an object", "anchors": ["src/estd/internal/dynamic_array.h: resize, _erase, erase"]}
{"id": "C407", "title": "from_chars without overflow builtins reads numbers that fit", "statement": "On tool chains without the overflow builtins, from_chars reads every number that fits the type exactly, for all bases and standard widths, except a negative number followed by other characters and the least value of int and wider types; a text that starts with no digit is an invalid argument.", "quantifier": "all texts, bases 2 to 36, standard integer types", "why_tests_cant": "the configuration is not the one tests build, and the texts are unbounded", "anchors": ["src/estd/internal/raise_and_add.h: raise_and_add", "src/estd/internal/charconv/from_chars.hpp: from_chars_integer", "src/estd/internal/feature/toolchain.h"]}
{"id": "C408", "title": "Stream extraction without overflow builtins reads numbers that fit", "statement": "On tool chains without the overflow builtins, operator>> reads every number that fits the type, consumes exactly its text and sets at most eofbit; where no number stands it sets failbit and stores 0.", "quantifier": "all texts, positions, leading whitespace, the three bases, standard integer types; streams over texts of fewer than 65536 characters, none of them (char)-1 if the library's own traits are used (C193)", "why_tests_cant": "the configuration is not the one tests build, and the texts are unbounded", "anchors": ["src/estd/internal/raise_and_add.h: raise_and_add, raise_and_sub", "src/estd/internal/locale/iterated/num_get.h: num_get", "src/estd/internal/locale/num_get.h: get_signed_number", "src/estd/istream.h: operator>>"]}
{"id": "C409", "title": "Numbers are read modulo a power of two without overflow builtins", "statement": "On tool chains without the overflow builtins, a number of any length read into an unsigned type or a type narrower than int is stored modulo two to the width of the type, and its text is consumed exactly, by from_chars (unless it is negative and other characters follow) and by operator>>.", "quantifier": "all texts, numbers of any length, bases, unsigned and narrow types; streams over texts of fewer than 65536 characters, none of them (char)-1 if the library's own traits are used (C193)", "why_tests_cant": "numbers are unbounded", "anchors": ["src/estd/internal/raise_and_add.h: raise_and_add, raise_and_sub", "src/estd/internal/charconv/from_chars.hpp: from_chars_integer", "src/estd/internal/locale/iterated/num_get.h: num_get"]}
{"id": "C410", "title": "from_chars reports numbers that do not fit on every tool chain", "statement": "Also without the overflow builtins from_chars answers result_out_of_range for a number that does not fit and leaves the value alone, and reads the least value of every type.", "quantifier": "all texts, bases and standard integer types", "why_tests_cant": "the configuration is not the one tests build", "anchors": ["src/estd/internal/raise_and_add.h: raise_and_add", "src/estd/internal/charconv/from_chars.hpp: from_chars_integer"]}
{"id": "C411", "title": "Stream extraction reports numbers that do not fit on every tool chain", "statement": "Also without the overflow builtins operator>> sets failbit for a number that does not fit the type.", "quantifier": "all texts, bases and standard integer types", "why_tests_cant": "the configuration is not the one tests build", "anchors": ["src/estd/internal/raise_and_add.h: raise_and_add, raise_and_sub", "src/estd/internal/locale/iterated/num_get.h: num_get"]}
{"id": "C412", "title": "unordered_map keeps objects of class type alive exactly while they are elements", "statement": "With mapped values of a class with a destructor, after any history of insert, emplace and try_emplace of new keys, erase by key, and assignment to m[k] for a present key, within the bounds of C25 on table size and bucket load, find gives the element put under each key; each insertion made one object, each successful erasure destroyed one, no object was destroyed twice, and those not destroyed are the elements.", "quantifier": "all key and mapped types with trivial keys, hash functions, table sizes up to 64 slots in buckets of 4, and histories of any length", "why_tests_cant": "histories are unbounded, and a leak or a double destruction is not visible in the values", "anchors": ["src/estd/internal/container/unordered_map.h: insert, emplace, try_emplace, erase, operator[]", "src/estd/internal/container/unordered/base.h: destruct", "src/estd/internal/container/unordered/traits.h: meta"]}
{"id": "C413", "title": "Elements of unordered_map are destroyed by clear and with the map", "statement": "clear() destroys every element, and so does the end of the map's life.", "quantifier": "all histories, mapped values of class type", "why_tests_cant": "histories are unbounded", "anchors": ["src/estd/internal/container/unordered_map.h: clear, destruct", "src/estd/internal/container/unordered/base.h: destruct"]}
{"id": "C414", "title": "m[k] for a new key makes an element of class type", "statement": "For a key that is not present, m[k] and try_emplace(k) put in an element whose mapped value can be read, assigned and erased.", "quantifier": "all histories, keys, mapped values of class type", "why_tests_cant": "the missing constructor call is not visible with trivial types", "anchors": ["src/estd/internal/container/unordered_map.h: operator[], try_emplace"]}
{"id": "C415", "title": "insert_or_assign on a present key loses no object", "statement": "With mapped values of class type, insert_or_assign for a present key assigns to the object there or destroys it.", "quantifier": "all histories, keys and values", "why_tests_cant": "the lost object is not visible in the values", "anchors": ["src/estd/internal/container/unordered_map.h: insert_or_assign"]}
{"id": "C416", "title": "gc_active and erase_and_gc move elements of class type", "statement": "With mapped values of class type, gc_active and erase_and_gc may be called on every element.", "quantifier": "all histories and elements", "why_tests_cant": "histories are unbounded", "anchors": ["src/estd/internal/container/unordered_map.h: gc_active_ll, erase_and_gc", "src/estd/internal/container/unordered/base.h: erase_and_gc_ll", "src/estd/internal/container/unordered/traits.h: swap"]}
{"id": "C417", "title": "unordered_map has keys of class type", "statement": "With keys of a class with a destructor, every key object is destroyed once, and erase may be called.", "quantifier": "all histories and keys", "why_tests_cant": "histories are unbounded", "anchors": ["src/estd/internal/container/unordered_map.h: insert, erase, destruct", "src/estd/internal/container/unordered/traits.h: set_null"]}
{"id": "C418", "title": "gcount is the number of characters delivered", "statement": "Whatever it was before, gcount() is 0 on a new stream and after peek() and unget(), the number of characters delivered after readsome (before the end of input) and after a read(s, n) for which n characters are left, and after getline the number of characters stored before the terminating zero, for a line that fits.", "quantifier": "all texts shorter than 2^16 (and the limits of C47, C50 and C62), positions, stream states, counts and earlier values of gcount", "why_tests_cant": "texts, positions and counts are unbounded in combination", "anchors": ["src/estd/internal/istream.h: gcount, peek, unget, readsome, read, getline"]}
{"id": "C419", "title": "gcount after get", "statement": "After get(), gcount() is 1 if a character was extracted and 0 at end of input, and any number of characters can be read with get().", "quantifier": "all streams and numbers of calls", "why_tests_cant": "the number of calls is unbounded; the overflow needs 2^31 of them", "anchors": ["src/estd/internal/istream.h: get, gcount"]}
{"id": "C420", "title": "gcount is the number of characters extracted", "statement": "After ignore(n), ignore(n, delim), a read(s, n) at which input ends, and getline, gcount() is the number of characters that the call extracted.", "quantifier": "all texts, positions, counts and delimiters", "why_tests_cant": "counts and texts are unbounded", "anchors": ["src/estd/internal/istream.h: ignore, read, getline, gcount"]}
{"id": "C421", "title": "Formatted input does not alter gcount", "statement": "ws and operator>> into an integer or a character leave gcount() as it was.", "quantifier": "all streams and earlier values of gcount", "why_tests_cant": "all streams and earlier calls", "anchors": ["src/estd/istream.h: ws, operator>>", "src/estd/internal/istream.h: peek, gcount"]}
{"id": "C422", "title": "Linked lists hold the values put in", "statement": "A forward_list or list that allocates its own nodes, traversed after any history of the operations of C82 and C42, gives, in the order of those properties, for each element the value it was put in with, also when the node had held another value before; one object is made per value put in, and none in any other operation.", "quantifier": "all value types, histories, values and sequences of storage given by the allocator", "why_tests_cant": "histories and reuse of storage are unbounded", "anchors": ["src/estd/traits/list_node.h: allocate, alloc_emplace, alloc_move, ValueNode", "src/estd/forward_list.h: push_front, insert_after, pop_front, erase_after", "src/estd/list.h: push_front, push_back, insert"]}
{"id": "C423", "title": "Elements taken out of a linked list are destroyed", "statement": "pop_front and erase_after run the destructor of the element taken out, and the end of a forward_list or list runs those of its elements and gives their nodes back.", "quantifier": "all histories", "why_tests_cant": "histories are unbounded", "anchors": ["src/estd/forward_list.h: pop_front, erase_after", "src/estd/traits/list_node.h: deallocate, destroy"]}
{"id": "C424", "title": "A copy of a forward_list is a list of its own", "statement": "After a forward_list with nodes of its own is copied, operations on one of the two leave the other usable and unchanged.", "quantifier": "all lists with at least one element", "why_tests_cant": "histories before the copy are unbounded", "anchors": ["src/estd/forward_list.h: forward_list, pop_front", "src/estd/internal/list_node.h: m_front"]}
{"id": "C425", "title": "Iterating over a stream buffer gives its characters", "statement": "An istreambuf_iterator made on a stream buffer over a span that has characters left gives exactly those, in order: *it and ++it give their int values, *it++ the characters themselves; the iterator equals the end iterator exactly when the last character has been passed, incrementing it further changes nothing, and distance(it, end) is the number of characters left.", "quantifier": "all texts shorter than 2^16 (with the library's own traits: without the character -1), positions and numbers of increments", "why_tests_cant": "texts, positions and numbers of increments are unbounded in combination", "anchors": ["src/estd/internal/istreambuf_iterator.h: istreambuf_iterator, proxy", "src/estd/iterator.h: operator==, operator!=", "src/estd/internal/iterator_standalone.h: distance"]}
{"id": "C426", "title": "An iterator on an exhausted stream buffer is the end", "statement": "An istreambuf_iterator made on a stream buffer with nothing left to read equals the end iterator.", "quantifier": "all texts", "why_tests_cant": "all texts and ways of reaching their end", "anchors": ["src/estd/internal/istreambuf_iterator.h: istreambuf_iterator"]}
{"id": "C427", "title": "Iterating over a stream buffer ends for every text", "statement": "The loop for(it(buf); it != end; ++it) ends for every text, also with the library's own character traits.", "quantifier": "all texts", "why_tests_cant": "texts are unbounded; non-termination has no finite witness", "anchors": ["src/estd/internal/istreambuf_iterator.h: operator++", "src/estd/traits/char_traits.h: to_int_type, eof"]}
{"id": "C428", "title": "Writing through an ostreambuf_iterator stores the characters in order", "statement": "Writing characters through an ostreambuf_iterator on a stream buffer over a span stores, in order, as many as there is room for, and changes nothing else; a default constructed one stores nothing and has not failed.", "quantifier": "all buffers, positions, traits and texts", "why_tests_cant": "texts and buffers are unbounded", "anchors": ["src/estd/iterator.h: ostreambuf_iterator"]}
{"id": "C429", "title": "ostreambuf_iterator::failed tells whether a write failed", "statement": "failed() is true exactly if a character written through the iterator was not stored.", "quantifier": "all buffers, positions and characters", "why_tests_cant": "all buffers and histories", "anchors": ["src/estd/iterator.h: ostreambuf_iterator, failed"]}
{"id": "C430", "title": "filter_iterator gives the function's value of each element", "statement": "The elements shown by a filter_iterator over an array are, in order, the function's values of the array's elements; postfix increment answers the iterator as it was.", "quantifier": "all element types, functions, arrays and positions", "why_tests_cant": "arrays and functions are unbounded", "anchors": ["src/estd/iterator.h: filter_iterator"]}
{"id": "C431", "title": "filter_iterator shows the elements the predicate accepts", "statement": "Going over an array with a filter_iterator shows exactly the elements for which the predicate is true.", "quantifier": "all predicates and arrays", "why_tests_cant": "arrays and predicates are unbounded", "anchors": ["src/estd/iterator.h: filter_iterator"]}
{"id": "C432", "title": "Inserting a double prints it with two decimals", "statement": "Inserting a double x into a stream with room prints the sign and integer part of x, a point and two digits; together they differ from x by less than a hundredth, are x exactly if x is a whole number of hundredths, and are k/100 or (k-1)/100 if x is the double nearest to k/100 (signs aside). This for 100(|x|+1) at most 2^53 and x not strictly between -1 and 0.", "quantifier": "all such doubles, stream states with one adjustment flag, buffers with room and contents of uninitialised memory", "why_tests_cant": "2^64 doubles; the rounding of x*100 differs from number to number", "anchors": ["src/estd/internal/units/ostream.h: operator<<"]}
{"id": "C433", "title": "The sign of a double is printed", "statement": "A negative double is printed with a minus sign.", "quantifier": "all negative doubles that do not print as zero", "why_tests_cant": "2^63 doubles", "anchors": ["src/estd/internal/units/ostream.h: operator<<"]}
{"id": "C434", "title": "A double read from two decimals prints as those", "statement": "The double nearest to a number with two decimals is printed as that number.", "quantifier": "all numbers with two decimals", "why_tests_cant": "which ones are off depends on rounding", "anchors": ["src/estd/internal/units/ostream.h: operator<<"]}
{"id": "C435", "title": "Every double can be inserted into a stream", "statement": "Inserting a double into a stream is defined for every double.", "quantifier": "all doubles", "why_tests_cant": "all values, also those no test prints", "anchors": ["src/estd/internal/units/ostream.h: operator<<"]}
{"id": "C436", "title": "A field width is for the whole double", "statement": "A double inserted with a field width is padded, as a whole, to that width.", "quantifier": "all widths and doubles", "why_tests_cant": "widths and doubles vary together", "anchors": ["src/estd/internal/units/ostream.h: operator<<", "src/estd/internal/ostream/integer.h: write_filled_buffer"]}
{"id": "C437", "title": "Inserting a double keeps the stream's base", "statement": "Inserting a double into a stream leaves the base in which it prints integers as it was.", "quantifier": "all stream states and doubles", "why_tests_cant": "all stream states and doubles", "anchors": ["src/estd/internal/units/ostream.h: operator<<", "src/estd/ios.h: dec"]}
{"id": "C438", "title": "Shared objects in a pool give their blocks back", "statement": "With a memory_pool_1 of layer1 shared pointers used as its tests use it (make_shared or construct twice, layer3 pointers, reset; never pool.destroy of a pointer that has had an object), every call is defined, each new object gets a block that nobody owns, use_count() is the number of owners, every owner can reach its object, and a block is free again exactly when the last owner of its object has gone; count_free() says so. This where what make_shared writes to a block before constructing the pointer there survives the construction, and under the rules of shared pointers (no copy of a layer3 pointer whose pool pointer was reset, at most 65535 owners, no assignment to itself).", "quantifier": "all pool sizes below 2^31 and all histories of such calls", "why_tests_cant": "all histories; the order in which owners go away varies", "anchors": ["src/estd/exp/memory/memory_pool.h: memory_pool_1, memory_pool_item_traits, make_shared", "src/estd/memory.h: layer1::shared_ptr, layer3::shared_ptr"]}
{"id": "C439", "title": "Objects shared from a pool are destroyed", "statement": "When the last owner of an object made by make_shared(pool) goes away, the object's destructor is called.", "quantifier": "all histories", "why_tests_cant": "all histories", "anchors": ["src/estd/exp/memory/memory_pool.h: memory_pool_item_traits::control_block::Deleter"]}
{"id": "C440", "title": "A pool pointer knows its pool", "statement": "The last owner of an object of a pool may go away on every conforming implementation.", "quantifier": "all histories, implementations that do not keep what was in an object's memory before its constructor ran", "why_tests_cant": "on one compiler the bytes survive", "anchors": ["src/estd/exp/memory/memory_pool.h: memory_pool_item_traits::construct"]}
{"id": "C441", "title": "pool.destroy gives back a shared pointer", "statement": "pool.destroy(p) of a shared pointer of the pool gives its block back once, and other owners keep the object.", "quantifier": "all histories and pointers that own an object", "why_tests_cant": "the damage shows only in later allocations", "anchors": ["src/estd/exp/memory/memory_pool.h: memory_pool_internal::destroy"]}
{"id": "C442", "title": "make_shared reports that the pool is used up", "statement": "make_shared on a pool without free blocks reports it.", "quantifier": "all histories after which no block is free", "why_tests_cant": "all histories", "anchors": ["src/estd/exp/memory/memory_pool.h: make_shared, memory_pool_internal::construct"]}
{"id": "C443", "title": "A pool block without owners is given back", "statement": "A block of the pool whose pointer was reset and which nobody owns goes back to the pool.", "quantifier": "all histories", "why_tests_cant": "all histories", "anchors": ["src/estd/exp/memory/memory_pool.h: memory_pool_internal::construct", "src/estd/memory.h: reset"]}
{"id": "C444", "title": "A copied owner keeps the block of a pool", "statement": "A copy of a layer3 pointer keeps the object it refers to, and its block, from being given back.", "quantifier": "all histories", "why_tests_cant": "the reset may be anywhere before the copy", "anchors": ["src/estd/memory.h: layer3::shared_ptr", "src/estd/exp/memory/memory_pool.h: make_shared"]}
{"id": "C445", "title": "The output position of a string buffer is the length of its text", "statement": "After any history of writes, and after any seek, the position that an output-only string buffer answers (what tellp gives) is the number of characters written.", "quantifier": "all histories, seek offsets and directions", "why_tests_cant": "histories are unbounded", "anchors": ["src/estd/internal/impl/streambuf/string.h: out_stringbuf::seekoff", "src/estd/internal/ostream.h: tellp"]}
{"id": "C446", "title": "Seeking moves where an output stream writes next", "statement": "After seeking the output position of an output-only string buffer the next character is written at that position.", "quantifier": "all histories, seek offsets and directions", "why_tests_cant": "histories and positions are unbounded", "anchors": ["src/estd/internal/impl/streambuf/string.h: out_stringbuf::seekoff"]}
{"id": "C447", "title": "The date of a day number is near the Gregorian one", "statement": "For every day from 1970 on whose year is below 32767, year_month_day(day).year() is at most one off the Gregorian year of that day and never goes back as the days go on; .day() is from 1 to 31 (up to day 1342177); .month() is from 1 to 13.", "quantifier": "every day number from 0", "why_tests_cant": "there are millions of days", "anchors": ["src/estd/internal/chrono/formatter.hpp: year_month_day", "src/estd/internal/chrono/duration.h: days, months, years"]}
{"id": "C448", "title": "erase at an iterator of an unordered_map returns the next element", "statement": "After any history of C25 and with another element behind it in the order of iteration, erasing an element that is not of bucket 0 at its iterator returns the iterator of the next element, leaves that element as it is, removes the key and changes no other lookup.", "quantifier": "all histories of calls, keys, hash functions and tables of up to 64 slots in buckets of four", "why_tests_cant": "which slots are empty, and marked, depends on the history", "anchors": ["src/estd/internal/container/unordered_map.h: erase(iterator)", "src/estd/internal/container/unordered/base.h: skip_empty"]}
{"id": "C449", "title": "The last element of an unordered_map can be erased at its iterator", "statement": "Erasing the element that comes last in the order of iteration, at its iterator, returns end().", "quantifier": "all histories of C25 and elements that come last", "why_tests_cant": "in a table that ends in a non-empty neighbouring object the read past the end goes unnoticed", "anchors": ["src/estd/internal/container/unordered_map.h: erase(iterator)"]}
{"id": "C450", "title": "bucket_size and count of an unordered_map", "statement": "After any history of C25, bucket_size(n) is the number of keys in the map whose bucket is n, for every slot number n of the table, and count(k) is 1 if k is in the map and 0 if not.", "quantifier": "all histories of insertions and erasures, keys and bucket numbers, tables of up to 64 slots in buckets of four", "why_tests_cant": "erased slots inside a bucket make the walk skip", "anchors": ["src/estd/internal/container/unordered_map.h: bucket_size", "src/estd/internal/container/unordered/base.h: count, begin(n)"]}
{"id": "C451", "title": "erase_and_gc of the last key of a bucket", "statement": "After any history of C25, erase_and_gc at the iterator of a key that has no key of its own bucket behind it empties that slot and changes no other slot; the key is gone and no other lookup changes.", "quantifier": "all histories and such keys, tables of up to 64 slots in buckets of four", "why_tests_cant": "all histories", "anchors": ["src/estd/internal/container/unordered_map.h: erase_and_gc", "src/estd/internal/container/unordered/base.h: erase_and_gc_ll"]}
{"id": "C452", "title": "erase_and_gc keeps the other keys of the bucket", "statement": "erase_and_gc at the iterator of a key removes that key only.", "quantifier": "all buckets of three or more keys and keys in the middle, with an even mapped value", "why_tests_cant": "the lost keys still show up when iterating", "anchors": ["src/estd/internal/container/unordered_map.h: erase_and_gc"]}
{"id": "C453", "title": "reserve and shrink_to_fit over fixed storage", "statement": "On a vector or string of fixed capacity reserve(n) succeeds when n fits and reports failure when it does not, and shrink_to_fit() has no effect.", "quantifier": "all contents, histories and capacities", "why_tests_cant": "a build with assertions and one without fail differently", "anchors": ["src/estd/internal/dynamic_array.h: reserve, shrink_to_fit", "src/estd/allocators/fixed.h: reallocate"]}
{"id": "C454", "title": "ok() of a date", "statement": "ok() of a year_month_day given by its fields holds for every date of the calendar, and only for months from 1 to 12 and days from 1 to 31; ok() of a year_month_day_last says whether the month and the year are valid.", "quantifier": "all years of 16 bits but the least, months and days of 8 bits", "why_tests_cant": "all fields", "anchors": ["src/estd/internal/chrono/formatter.hpp: year_month_day<void>, year_month_day_last"]}
{"id": "C455", "title": "ok() refuses days that a month does not have", "statement": "ok() of a year_month_day given by its fields is false for a date that is not in the calendar.", "quantifier": "all years, months and days from the length of the month to 31", "why_tests_cant": "only some dates are wrong", "anchors": ["src/estd/internal/chrono/formatter.hpp: year_month_day<void>"]}
{"id": "C456", "title": "sleep_for on Arduino", "statement": "this_thread::sleep_for of a duration that is not negative and fits the counter sleeps at least its whole milliseconds: for a whole number of milliseconds at least the duration, otherwise less than a millisecond shorter.", "quantifier": "all durations, periods and moments", "why_tests_cant": "all durations", "anchors": ["src/estd/port/arduino/thread.h: sleep_for", "src/estd/port/arduino/chrono.h: arduino_clock"]}
{"id": "C457", "title": "sleep_for on Arduino sleeps at least as long as asked", "statement": "this_thread::sleep_for(d) blocks for at least d.", "quantifier": "all durations that are no whole number of milliseconds", "why_tests_cant": "tests use whole milliseconds", "anchors": ["src/estd/port/arduino/thread.h: sleep_for"]}
{"id": "C458", "title": "sleep_for of a negative duration returns at once", "statement": "this_thread::sleep_for of a negative duration does not block, on FreeRTOS and Arduino.", "quantifier": "all durations with a 64 bit count from minus 2^31 ticks to minus one tick", "why_tests_cant": "the call does not come back within a test", "anchors": ["src/estd/port/freertos/thread.h: sleep_for", "src/estd/port/arduino/thread.h: sleep_for"]}
{"id": "C459", "title": "operator== of unordered containers whose keys differ in order", "statement": "operator== of two unordered_maps or unordered_sets is false when their keys, in the order of iteration, are not the same.", "quantifier": "all tables, of any sizes and contents", "why_tests_cant": "the difference may be anywhere in the order", "anchors": ["src/estd/internal/container/unordered/base.h: operator=="]}
{"id": "C460", "title": "operator== of equal unordered containers is true", "statement": "An unordered_map or unordered_set compares equal to itself, to its copy and to every container with the same keys in the same order.", "quantifier": "all tables", "why_tests_cant": "the read past the end goes unnoticed when a non-empty object follows", "anchors": ["src/estd/internal/container/unordered/base.h: operator==, skip_empty"]}
{"id": "C461", "title": "operator== of unordered sets does not depend on the order of insertion", "statement": "Two unordered_sets of the same keys are equal.", "quantifier": "all pairs of keys that share a bucket", "why_tests_cant": "keys of a test rarely collide", "anchors": ["src/estd/internal/container/unordered/base.h: operator=="]}
{"id": "C462", "title": "A deque made by moving another has its size", "statement": "Move construction of a layer1::deque of trivially copyable elements, after any history of C19, is defined, and the new deque answers size() and empty() as the old one did.", "quantifier": "all histories, capacities, element types without destructor", "why_tests_cant": "all histories", "anchors": ["src/estd/queue.h: deque(deque&&), size, empty"]}
{"id": "C463", "title": "A deque made by moving another owns its elements", "statement": "A layer1::deque or queue made by move construction holds the elements of the deque moved from, in its own storage: front() is the old front, also after the deque moved from is gone, and any deque can be moved.", "quantifier": "all histories, element types, and what moving leaves behind", "why_tests_cant": "a test that keeps the deque moved from, with elements that copy, sees the right values", "anchors": ["src/estd/queue.h: deque(deque&&), queue(queue&&), front, push_back, pop_front"]}
{"id": "C464", "title": "A deque made by moving another is circular", "statement": "A deque made by move construction from one that is not full can be pushed to and popped from any number of times.", "quantifier": "all histories, contents and numbers of rounds", "why_tests_cant": "a short test ends before the end of the array is reached", "anchors": ["src/estd/queue.h: deque(deque&&), evaluate_rollover"]}
{"id": "C465", "title": "Sleeping on the Pico lasts as long as asked", "statement": "this_core::sleep_for of a duration that is not negative sleeps for at least its whole microseconds, so for all of it if it is a whole number of them; this_core::sleep_until of a time after boot returns at that time or later in the same sense, and may return at once if the time has passed. The conversion must compile and not overflow 64 bits.", "quantifier": "all integer duration types, counts and times of call", "why_tests_cant": "all duration types and values, and the passing of time", "anchors": ["src/estd/port/rpi/pico/chrono.h: this_core::sleep_for, sleep_until", "src/estd/internal/chrono/duration.h: duration"]}
{"id": "C466", "title": "Sleeping on the Pico for a negative time returns at once", "statement": "this_core::sleep_for of a negative duration, or sleep_until of a time point before boot, returns at once.", "quantifier": "all negative 64 bit durations of whole microseconds", "why_tests_cant": "a test would have to wait for the year 294247", "anchors": ["src/estd/port/rpi/pico/chrono.h: this_core::sleep_for, sleep_until"]}
{"id": "C467", "title": "An std::chrono duration or time point becomes an estd one truncated to whole ticks, and comes back as it was", "statement": "A duration constructed from an std::chrono::duration, a time_point constructed from an std::chrono::time_point of a clock of the same epoch, and duration_cast of an std::chrono::duration are the same length of time truncated toward zero to whole ticks, when that count is representable, the count times the numerator of the quotient of the periods does not overflow 64 bits and, for the cast, a negative count is not cast to an unsigned type and the products of numerators and denominators are representable. The std::chrono::duration made of an estd duration is the same length of time, and made back into an estd duration is the same duration.", "quantifier": "all integer representations, positive periods and counts", "why_tests_cant": "all pairs of types and all 64 bit counts", "anchors": ["src/estd/internal/chrono/duration.h: duration", "src/estd/internal/chrono/duration.hpp: convert_from", "src/estd/internal/chrono/time_point.h: time_point", "src/estd/port/std/chrono.h: duration_cast"]}
{"id": "C468", "title": "Construction from an std::chrono duration is defined and exact whenever the result is representable", "statement": "A duration constructed from an std::chrono::duration whose whole ticks are representable is they; one whose whole ticks are not representable is not taken for another.", "quantifier": "all integer representations, positive periods and counts", "why_tests_cant": "all pairs of types and all 64 bit counts", "anchors": ["src/estd/internal/chrono/duration.hpp: convert_from"]}
{"id": "C469", "title": "An std::chrono time point moves by an estd duration", "statement": "Adding an estd duration to an std::chrono::time_point or subtracting it gives the time point as much later or earlier, exactly, when both and the result are representable in the common type. += and -= do the same in place for a duration whose tick is a whole number of ticks of the time point, when it and the result are representable, and give back the same instant; for any other duration they do not compile.", "quantifier": "all integer representations, positive periods, counts and time points", "why_tests_cant": "all pairs of types and all 64 bit counts", "anchors": ["src/estd/port/std/chrono.h: operator+, operator-, operator+=, operator-="]}
{"id": "C470", "title": "An std::chrono time point moves by an estd duration from any instant", "statement": "Adding an estd duration to an std::chrono::time_point gives the time point as much later, for every time point and duration.", "quantifier": "all time points and durations", "why_tests_cant": "all pairs of types and all 64 bit counts", "anchors": ["src/estd/port/std/chrono.h: operator+"]}
{"id": "C471", "title": "Every character put into a buffered output is delivered", "statement": "sputc(c) on a buffered output buffer delivers c to the wrapped buffer by the next pubsync, for every character c, or answers end of file.", "quantifier": "all characters, buffer contents and character traits; char is signed", "why_tests_cant": "the characters that look like end of file or like false are two of 256 and depend on the traits", "anchors": ["src/estd/internal/impl/streambuf/buffer.h:overflow,sputc", "src/estd/traits/char_traits.h:not_eof"]}
{"id": "C472", "title": "A buffered output notices what the wrapped buffer refuses", "statement": "If the buffer wrapped by a buffered output buffer takes only part of what it is handed, the rest stays buffered, or pubsync or the sputc that flushed it reports failure.", "quantifier": "all contents of the buffer and all amounts the wrapped buffer takes", "why_tests_cant": "it depends on how much the wrapped buffer takes each time", "anchors": ["src/estd/internal/impl/streambuf/buffer.h:ll_sync,sync,overflow"]}
{"id": "C473", "title": "The storage of a container has room for its values", "statement": "In a variant, optional, expected, layer1::vector, layer1::unordered_map, layer1::bipbuf, fixed pool, layer1::shared_ptr and (with alignas) aligned_storage, every value the container may hold has all its bytes inside the container; no two elements, entries or blocks share a byte, and none shares a byte with the container's index, flag, length, list head or control block. The length field of a layer1::vector of N elements can hold every length up to N.", "quantifier": "all element types (sizes and alignments), counts, alternatives and addresses", "why_tests_cant": "every size and alignment of the element type is another layout; an overlap shows only when both values are in use", "anchors": ["src/estd/internal/variant/storage.h variant_union", "src/estd/internal/variadic.h largest_type", "src/estd/internal/array.h uninitialized_array", "src/estd/internal/memory/v1/pool.h", "src/estd/internal/container/unordered/traits.h meta", "src/estd/internal/bip/buffer.h layer1::bipbuf"]}
{"id": "C474", "title": "Values are aligned where the container's own alignment provides for it", "statement": "Wherever the compiler may put the container, the value is at an address suitable for its type in: a variant, optional or expected whose alternatives are all trivial; a variant whose alternative is no more strictly aligned than std::size_t; a layer1::vector of integers, or of a type no more strictly aligned than the vector's length field; a typed_pool or layer1::shared_ptr of a type no more strictly aligned than a pointer; aligned_storage with alignas.", "quantifier": "all element types, counts and addresses", "why_tests_cant": "depends on where the object happens to be; many processors forgive it", "anchors": ["src/estd/internal/variant/storage.h variant_union", "src/estd/internal/variant.h index_", "src/estd/allocators/fixed.h layer1::allocator", "src/estd/internal/memory/v1/pool.h typed_pool", "src/estd/internal/raw/type_traits.h aligned_storage"]}
{"id": "C475", "title": "A container put at a suitable address keeps its values aligned", "statement": "The value of a variant, optional and expected and the header of a layer1::bipbuf begin at the object's own address; if a layer1::vector is at an address suitable for its elements then every element is, and if a layer1::unordered_map is at an address suitable for its pairs then every key and every mapped value is.", "quantifier": "all element types, counts, positions and addresses", "why_tests_cant": "positions and alignments are unbounded", "anchors": ["src/estd/internal/array.h uninitialized_array", "src/estd/internal/container/unordered/traits.h align_value", "src/estd/internal/variant/storage.h get", "src/estd/internal/bip/buffer.h layer1::bipbuf"]}
{"id": "C476", "title": "The value of an optional, expected or variant is aligned", "statement": "Wherever the compiler may put an optional<T>, an expected<T, E> or a variant, the value is at an address suitable for its type.", "quantifier": "all types and addresses", "why_tests_cant": "depends on where the object happens to be; many processors forgive it", "anchors": ["src/estd/internal/variant/storage.h variant_union", "src/estd/internal/optional.h optional_value_provider", "src/estd/internal/expected.h expected"]}
{"id": "C477", "title": "The elements of fixed containers are aligned", "statement": "Wherever the compiler may put a layer1::vector, layer1::unordered_map, layer1::bipbuf, typed_pool or layer1::shared_ptr, its elements (its header, its object) are at addresses suitable for their type.", "quantifier": "all element types, counts, positions and addresses", "why_tests_cant": "depends on where the object happens to be; many processors forgive it", "anchors": ["src/estd/internal/array.h uninitialized_array", "src/estd/internal/container/unordered/fwd.h unordered_map", "src/estd/internal/bip/buffer.h backing_buffer_", "src/estd/internal/memory/v1/pool.h typed_pool"]}
{"id": "C478", "title": "aligned_storage without alignas holds a value of its type", "statement": "Where the compiler has no alignas, aligned_storage<sizeof(T), alignof(T)>::type has room for a T and is at an address suitable for it.", "quantifier": "all types and addresses", "why_tests_cant": "a value larger than its alignment overwrites what follows, which need not show", "anchors": ["src/estd/internal/raw/type_traits.h aligned_storage"]}
{"id": "C479", "title": "A copy of a fixed pool is a pool of its own", "statement": "After copying a pool with a free block, the copy never hands out a block the original hands out, whatever is done with the original.", "quantifier": "all histories before the copy", "why_tests_cant": "the two lists part only after some calls", "anchors": ["src/estd/internal/memory/v1/pool.h pool"]}
{"id": "C480", "title": "The Arduino operators on strings", "statement": "s += F(text) makes the string the concatenation of what it held and the text, if that fits; in every case it does what append(text, strlen(text)) does; and with asserts on it stops in an assert if the sum of the lengths exceeds the storage and size_type can express it. Print << s sends exactly the characters of the string.", "quantifier": "every text in flash and every string (sized or null terminated) after any history within its capacity", "why_tests_cant": "all contents, lengths and histories", "anchors": ["src/estd/port/arduino/string.h:operator+=(basic_string&, const __FlashStringHelper*)", "src/estd/port/arduino/string.h:operator<<(Print&, const dynamic_array&)"]}
{"id": "C481", "title": "s += F(text) with a text that does not fit", "statement": "With asserts on, s += F(text) with a text that does not fit the string stops in an assert, whatever the length of the text.", "quantifier": "every string after any history and every text", "why_tests_cant": "needs lengths beyond the range of a narrow size_type", "anchors": ["src/estd/port/arduino/string.h:operator+=(basic_string&, const __FlashStringHelper*)", "src/estd/internal/dynamic_array.h:ensure_total_size"]}
{"id": "C482", "title": "gc_active and erase_and_gc of class values where nothing has to move", "statement": "With mapped values of class type, after any history of insertions, erasures and stores of present keys: gc_active of an element with no free slot before it in its bucket changes nothing; erase_and_gc of an element with a free slot right behind it destroys that element's value exactly once, frees its slot and changes no other element.", "quantifier": "all key and value types, hashes, histories and elements", "why_tests_cant": "all histories and positions in a bucket", "anchors": ["src/estd/internal/container/unordered/base.h:gc_active_ll", "src/estd/internal/container/unordered/base.h:erase_and_gc_ll"]}
{"id": "C483", "title": "exchange, and the values of a new pair", "statement": "exchange(obj, x) returns the old value of obj and gives obj the value of x; x keeps its value if it is an lvalue and is moved from if not; no other object changes. pair(a, b) and make_pair(a, b) hold the values of a and b, and pair(a, b) leaves a and b, and every other object, as they were. A pair that is copied, moved or assigned from another has its values; moving a pair into a new one copies neither element, copying moves neither. Swapping two pairs exchanges both elements. get<0> and get<1> are first and second.", "quantifier": "all class types, values and value categories, for distinct objects", "why_tests_cant": "all values and what a move leaves behind", "anchors": ["src/estd/utility.h:exchange", "src/estd/utility.h:pair", "src/estd/utility.h:make_pair"]}
{"id": "C484", "title": "A pair made of temporaries moves them", "statement": "pair(std::move(a), std::move(b)) and make_pair(std::move(a), std::move(b)) move a and b into the pair without copying them; so do assignment from a temporary pair and swap for the elements of the pairs.", "quantifier": "all class types and values", "why_tests_cant": "holds for every class type or none; a test counts copies for one", "anchors": ["src/estd/utility.h:pair", "src/estd/utility.h:make_pair"]}
{"id": "C485", "title": "predefined durations have the lengths of their names", "statement": "A tick of nanoseconds to years has the length of its name; the literals s, ms, us and ns have the number written as long as it is at most max(); converting to a predefined duration whose tick goes evenly into this one's is exact where the result can be represented, and converting back gives the old value; min() and max() are the ends of the range and zero() is no time; with full precision all but years reach 292 years, the days, weeks and months 40000.", "quantifier": "both precisions, every predefined duration and pair of them, every count and literal", "why_tests_cant": "all counts, all pairs of units", "anchors": ["src/estd/internal/chrono/duration.h", "src/estd/internal/fwd/chrono.h", "src/estd/port/chrono.h"]}
{"id": "C486", "title": "every duration literal and conversion to a finer unit keeps its value", "statement": "A literal is always the number written, a conversion between predefined durations whose ticks divide evenly always keeps the length, and years cover 40000 years as the days do.", "quantifier": "both precisions, every literal and pair of predefined durations", "why_tests_cant": "all counts, all pairs of units", "anchors": ["src/estd/internal/chrono/duration.h", "src/estd/internal/fwd/chrono.h", "src/estd/port/chrono.h"]}
{"id": "C487", "title": "holders give back the value last set where they keep it", "statement": "However holders are made, copied, set, pointed to other variables and read, value() gives what was last set: in the holder itself if it has a value of its own (which it shares with no copy), in the variable it refers to if it holds a reference or pointer (whoever set it), and its constant if the value is evaporated.", "quantifier": "every history of holders and variables in which references are used while their variable lives", "why_tests_cant": "all histories", "anchors": ["src/estd/internal/value_evaporator.h"]}
{"id": "C488", "title": "every holder gives back the value it was given", "statement": "value() of a holder is the value it was made with or was last given, whichever way the holder is configured and whatever became of the variable or temporary it was made with.", "quantifier": "every history of holders and variables", "why_tests_cant": "all histories", "anchors": ["src/estd/internal/value_evaporator.h"]}
{"id": "C489", "title": "sputc on a buffered output answers the character it was given", "statement": "sputc(c) on a buffered output buffer that takes c answers c, as std::basic_streambuf::sputc does.", "quantifier": "all characters, buffer contents, capacities and character traits", "why_tests_cant": "a test that compares the answer with end of file passes, and so does one that puts '*'", "anchors": ["src/estd/internal/impl/streambuf/buffer.h: out_buffered_stringbuf::sputc, overflow"]}
