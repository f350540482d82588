{"id": "C01", "title": "SPSC FIFO is a bounded FIFO queue for every call history, across index wrap-around", "statement": "For any sequence of put/get/get_move/get_or_default/remove_first/reset/num_free/num_filled/full/empty calls on a LockFreeFifoSpsc of capacity 2^k, every returned value is the one a bounded FIFO queue of that capacity would return: put fails exactly when capacity items are queued, get returns the oldest unread item or nothing, the counters are exact. This keeps holding after the internal size_t counters wrap past 2^W, and no call ever accesses outside the buffer.", "quantifier": "every capacity 2^k (k < W), every size_t width W, every item type, every finite history of calls, every starting counter value", "why_tests_cant": "Tests run a few dozen operations from counter value 0; the wrap of a 32- or 64-bit counter and all histories cannot be enumerated.", "anchors": ["util/lockfree_fifo_spsc.hh: LockFreeFifoSpsc::put,get,get_move,get_or_default,remove_first,reset,num_free,num_filled,full,empty"]}
{"id": "C02", "title": "SPSC FIFO is linearizable under every producer/consumer interleaving", "statement": "With one producer thread calling put and one consumer thread calling get/get_move/remove_first, under every interleaving of their individual shared-memory accesses (sequential consistency), the history of calls and returns is linearizable to a bounded FIFO queue: each call appears to take effect at one instant between its invocation and its return, nothing is lost, duplicated or reordered, and the producer is never writing the slot the consumer is reading.", "quantifier": "every schedule of the two threads, every sequence of calls, every capacity 2^k, every counter starting value", "why_tests_cant": "A test observes a handful of schedules; the claim is about all of them.", "anchors": ["util/lockfree_fifo_spsc.hh: put, get, get_move, remove_first"]}
{"id": "C03", "title": "SPSC FIFO hand-off is data-race free under the C++ memory model (violated: consumer loads head_ relaxed)", "statement": "The user relies on items published by put being fully visible to get. Under a release/acquire view semantics, get()/get_move() as written load head_ with memory_order_relaxed and an execution exists where the consumer's buffer read races with (and does not see) the producer's write; if that load were an acquire, every execution would be race free and every get would return the item put.", "quantifier": "all executions of the view-based release/acquire machine with one producer and one consumer", "why_tests_cant": "On x86 test machines relaxed loads behave as acquires, so no test on the CI host can exhibit the race.", "anchors": ["util/lockfree_fifo_spsc.hh: get (line 69), get_move (line 83)", "util/lockfree_fifo_spsc_dyn.hh: get, get_move"]}
{"id": "C04", "title": "reset() by the producer concurrently with get() (documented as allowed) breaks the FIFO", "statement": "The header says reset can be done by consumer or producer. When the producer calls reset() while the consumer is inside get(), the consumer's stale tail store can undo the reset: for every capacity above 1 there is a schedule after which num_filled is twice the capacity less 1 and put still succeeds, overwriting unread items without reporting full. When only the consumer resets, the FIFO stays a bounded FIFO under all interleavings.", "quantifier": "existence of a schedule for the violation; every schedule for the consumer-only guarantee", "why_tests_cant": "The failing schedule needs a preemption between two adjacent instructions.", "anchors": ["util/lockfree_fifo_spsc.hh: reset, get, put", "util/lockfree_fifo_spsc_dyn.hh: reset"]}
{"id": "C05", "title": "Dynamically sized SPSC FIFO: bounded FIFO until the counters wrap; wrap breaks non-power-of-two sizes", "statement": "LockFreeFifoSpscDyn with any capacity (including 0) behaves as a bounded FIFO queue for every call history in which the write counter does not wrap, and for every history when the capacity divides 2^W; resize empties it and gives it exactly the new capacity. For a capacity that does not divide 2^W there is a history crossing the wrap in which get returns an item other than the oldest one.", "quantifier": "every capacity, every history of calls including resize, every size_t width", "why_tests_cant": "Reaching the wrap takes 2^32 puts on the embedded target (a day of audio samples); tests never get there.", "anchors": ["util/lockfree_fifo_spsc_dyn.hh: LockFreeFifoSpscDyn::put,get,get_move,remove_first,reset,resize"]}
{"id": "C06", "title": "Read/write offset constructors and set_read_offset give exactly the documented delay", "statement": "Constructing with head offset n <= capacity makes the first n gets return default items before the first put item. set_read_offset(n), n <= capacity and n <= items ever put, makes the next n gets return the last n items put, in order, whether or not they were already read; with n larger than the number of items put since construction it is ignored. With n > capacity (and not above the items put) it is accepted: the FIFO reports n items, more than it can hold, and the next put still succeeds.", "quantifier": "every capacity, offset and history of puts and gets", "why_tests_cant": "The claim ranges over all histories before the call and all offsets.", "anchors": ["util/lockfree_fifo_spsc.hh: LockFreeFifoSpsc(size_t), set_read_offset, set_read_pos, set_write_pos"]}
{"id": "C07", "title": "CircularBuffer / CircularBufferOpt are overwriting FIFO queues", "statement": "For any sequence of put/get/remove_first/reset/count/num_filled/full/empty/peek calls, CircularBuffer and CircularBufferOpt return what a queue of capacity N that drops its oldest item on overflow returns: get gives the oldest of the last N unread items (or the default value / nullopt when empty), count is exact and never exceeds N, peek(i) is the i-th oldest unread item, and no access is out of bounds.", "quantifier": "every power-of-two capacity, item type and finite history", "why_tests_cant": "Histories are unbounded and the full/empty ambiguity of head==tail only shows on particular ones.", "anchors": ["util/circular_buffer.hh: CircularBuffer", "util/circular_buffer_opt.hh: CircularBufferOpt"]}
{"id": "C08", "title": "CircularBuffer::set_head makes the buffer hold exactly the requested delay", "statement": "On a buffer that is not full, set_head(h) with h < N makes count() equal the distance from the read position to h modulo N, and the following gets return the stored slots in order; h >= N makes the next put write outside the buffer. On a full buffer count() stays N after set_head, and one get then drops it to the distance between the positions.", "quantifier": "every reachable state and every h", "why_tests_cant": "All states and all h.", "anchors": ["util/circular_buffer.hh: set_head, put, count", "util/circular_buffer_opt.hh: set_head"]}
{"id": "C09", "title": "CircularStack is a bounded stack that forgets its oldest elements", "statement": "For any sequence of push_back/pop_back/pop_back_or_zero/back/size/empty/clear, CircularStack<T,N> returns what a list-based stack keeping only the N most recent unpopped elements returns; size never exceeds N and no access is out of bounds.", "quantifier": "every N > 0, item type and finite history", "why_tests_cant": "Wrap positions of top and bottom combined with full/empty flag give unboundedly many histories.", "anchors": ["util/circular_stack.hh: CircularStack"]}
{"id": "C10", "title": "CircularBufferAccess reads and writes cyclically and in bounds", "statement": "With both positions inside the buffer, read returns the n consecutive elements starting at rd_pos modulo size and advances rd_pos by n modulo size, read_reverse does the same downwards, write/write_reverse store every element at consecutive positions modulo size, the returned flag is true exactly when the position wrapped, and both positions stay inside the buffer forever.", "quantifier": "every buffer size > 0, every position, every block length including longer than the buffer, every call history", "why_tests_cant": "All sizes/positions/lengths and histories.", "anchors": ["util/circular_buffer_ext.hh: read, read_reverse, write, write_reverse, clear, rd_pos, wr_pos"]}
{"id": "C11", "title": "CircularBufferAccess crossing detectors report exactly when the marker was passed", "statement": "For blocks no longer than the buffer and a marker inside it, read_check_crossed returns true exactly when the element at the marker index was read; read_reverse_check_crossed exactly when the element after the marker (cyclically) was read; write_check_crossed exactly when the element before the marker (cyclically) was written.", "quantifier": "every size, position, marker and block length up to the size", "why_tests_cant": "All combinations of position, length and marker, including wraps landing exactly on the marker.", "anchors": ["util/circular_buffer_ext.hh: read_check_crossed, read_reverse_check_crossed, write_check_crossed"]}
{"id": "C12", "title": "CircularBufferBlock::write copies the block cyclically (only for one-byte elements)", "statement": "For one-byte element types and blocks no longer than the buffer, write(block,pos) stores block[i] at index (pos+i) mod SIZE and leaves every other element unchanged. For larger element types it copies only a fraction of the block.", "quantifier": "every power-of-two size, position, block length and element size", "why_tests_cant": "All lengths and positions; the tests only use char.", "anchors": ["util/circular_buffer_block.hh: CircularBufferBlock::write"]}
{"id": "C13", "title": "FixedVector behaves as a bounded list", "statement": "For any sequence of push_back/pop_back/insert/erase/erase-range/resize/resize_for_overwrite/clear/back/size/available calls, FixedVector<T,N> has the contents and return values of a list capped at N: a rejected push_back or insert changes nothing, insert shifts the tail up by one, erase shifts it down, resize pads or truncates, size never exceeds N.", "quantifier": "every capacity, element type and finite history", "why_tests_cant": "All histories and indices.", "anchors": ["util/fixed_vector.hh: FixedVector"]}
{"id": "C14", "title": "DoubleBufferStream transmits every accepted element exactly once, in order", "statement": "For every interleaving of transmit and tx_done_callback calls, with a hardware function that accepts every buffer, the concatenation of the buffers handed to the hardware followed by the queued data equals the concatenation of all words for which transmit returned true; a rejected word leaves no trace, at most one transmission is outstanding, and after enough callbacks everything accepted has been handed over.", "quantifier": "every buffer size, every sequence of transmit and callback calls", "why_tests_cant": "All call orders and word sizes.", "anchors": ["util/doublebuf_stream.hh: transmit, tx_done_callback, start_tx"]}
{"id": "C15", "title": "SequentialMap operator[]/find/contains/erase implement a bounded map", "statement": "As long as no insertion is attempted when full, any history of operator[] assignments, erase, find, contains, size, clear behaves as a finite map with keys in insertion order. On overflow operator[] replaces the most recently stored key and returns its old value slot.", "quantifier": "every capacity > 0, key and value type, finite history", "why_tests_cant": "All histories.", "anchors": ["util/sequential_map.hh: operator[], find, contains, erase, clear, size"]}
{"id": "C16", "title": "SequentialMap::insert stores the value (violated: the value is never stored)", "statement": "The user relies on insert({k,v}) making a lookup of k yield v. The code stores only the key: for a new key the looked-up value is whatever the slot held before. Everything else about insert (return flag, size, key presence, refusal when full or present) is as for std::map.", "quantifier": "every map state, key and value", "why_tests_cant": "The repository marks insert as lacking unit tests; the claim is over all states.", "anchors": ["util/sequential_map.hh: insert"]}
{"id": "C17", "title": "SeqMap written only through overwrite is a map with FIFO eviction", "statement": "Using overwrite/get/key_exists/size only, SeqMap<K,V,N> is a map holding the N most recently first-written keys: overwrite of a present key changes only its value, of a new key on a full map evicts the key whose first write is oldest; get returns the last value written for a present key and nothing otherwise.", "quantifier": "every N > 0, key/value type with decidable equality, finite history", "why_tests_cant": "All eviction orders and histories.", "anchors": ["util/seq_map.hh: overwrite, get, key_exists, size"]}
{"id": "C18", "title": "SeqMap::insert, remove and remove_last act on the first matching entry and leave holes", "statement": "insert appends without checking for an existing key, so a duplicate insert returns true while get still returns the older value; remove resets the first matching entry to the default key without shrinking, so afterwards the default key is found; remove_last drops the entry stored last in storage order, which is the newest one only while no overwrite has evicted anything. All are memory safe.", "quantifier": "every state reachable by any history of insert/overwrite/remove/remove_last", "why_tests_cant": "All histories.", "anchors": ["util/seq_map.hh: insert, remove, remove_last, get, key_exists"]}
{"id": "C19", "title": "StaticString always holds the longest fitting prefix, null-terminated, in bounds", "statement": "After any copy or construction from a C string or string_view, StaticString<N> (N >= 1) holds the first min(length, N) characters followed by a terminator, never writes outside its N+1 bytes, and length()+available() = N. For N = 0 the string_view overload writes outside the object.", "quantifier": "every capacity, every source string (including embedded zeros in string_view), every history of copies/clears", "why_tests_cant": "All lengths around the capacity and all contents.", "anchors": ["util/static_string.hh: copy, clear, length, available, operator==, is_equal"]}
{"id": "C20", "title": "Pool never hands out a slot twice and recycles exactly the destroyed ones", "statement": "For any history of create/create_for_overwrite/destroy, Pool returns distinct slots for live objects, returns null exactly when all entries are live, create yields a default-constructed object, destroy succeeds exactly on live pool objects, and other objects' data are untouched.", "quantifier": "every pool size and history", "why_tests_cant": "All histories.", "anchors": ["util/pool.hh: Pool::create, create_for_overwrite, destroy"]}
{"id": "C21", "title": "ThreadSafePool gives mutual exclusion of slots under all schedules", "statement": "With any number of threads calling create and destroy (each destroying only indices it owns), under every interleaving of the atomic operations no index is ever owned by two threads at once; a nullopt from create means every slot was observed in use at some moment during that call; indices are in range.", "quantifier": "any number of threads, every schedule, every pool size", "why_tests_cant": "Unbounded threads and schedules.", "anchors": ["util/thread_safe_pool.hh: create, destroy, is_used"]}
{"id": "C22", "title": "CompactBinaryParser is memory safe and terminates on every input blob", "statement": "For every byte string, key and unsigned size type narrower than size_t, get, get_node, get_size and get_size_and_offset terminate, never read outside the blob, and any node returned lies inside the blob.", "quantifier": "every byte string, every key width, every unsigned size-field width below the size_t width", "why_tests_cant": "Adversarial blobs cannot be enumerated.", "anchors": ["util/compact_binary_parser.hh: get, get_node, get_size_and_offset, advance, as"]}
{"id": "C23", "title": "Parser returns the first entry with the requested key of a well-formed blob", "statement": "On a blob that is the concatenation of [key][size][data] records, get_node(k) returns the data of the first record whose key matches k (and nothing if there is none), get<T>(k) additionally requires the size to equal sizeof(T) and returns those bytes, and records after a missing key are never misparsed.", "quantifier": "every list of records whose data lengths fit the size field, every key", "why_tests_cant": "All record lists.", "anchors": ["util/compact_binary_parser.hh: get, get_node, get_size"]}
{"id": "C24", "title": "Serializer and parser round-trip arbitrary nested objects", "statement": "For every description tree of fields, raw blocks and nested objects whose sizes fit the size field, serializing into a large enough buffer then following a key path with get_node/get returns exactly the value described for that path (first match), and serialize's return value equals measure's.", "quantifier": "every tree depth and shape, every key/value", "why_tests_cant": "Trees are unbounded.", "anchors": ["util/compact_binary_serializer.hh: Measurer, WriterBase, SpanWriter, serialize, measure, stream", "util/compact_binary_parser.hh: get, get_node"]}
{"id": "C25", "title": "Serializer/writer never write past the buffer and truncate consistently", "statement": "serialize writes only inside the given buffer; the bytes written are a prefix of the full encoding, bytes past the encoding are untouched, the returned count is the full encoding length even on overflow, and stream emits exactly the same bytes.", "quantifier": "every tree and buffer length", "why_tests_cant": "All tree/buffer-length pairs.", "anchors": ["util/compact_binary_serializer.hh: SpanWriter::emit, SinkWriter::emit, serialize, stream"]}
{"id": "C26", "title": "CompactBinaryWriter with back-patching produces the same bytes as the serializer", "statement": "For every tree no deeper than MaxDepth, driving CompactBinaryWriter with field/raw/begin_object/end_object in a large enough buffer leaves exactly the bytes CompactBinarySerializer produces and size() equals measure; in a smaller buffer it never writes outside and leaves the truncated encoding (up to unpatched sizes); an unmatched end_object is ignored.", "quantifier": "every tree, MaxDepth, buffer length", "why_tests_cant": "All shapes; back-patching across nesting.", "anchors": ["util/compact_binary_writer.hh: field, raw, begin_object, end_object, write_at"]}
{"id": "C27", "title": "Oversized data corrupts the encoding (size field truncation is unchecked)", "statement": "A raw block or object longer than the size field can express is written with its size reduced modulo 2^bits; the parser then misparses. The round trip holds exactly when all sizes fit.", "quantifier": "every length and size-field width", "why_tests_cant": "Tests use small blocks only.", "anchors": ["util/compact_binary_serializer.hh: write_size", "util/compact_binary_writer.hh: write_size, end_object"]}
{"id": "C28", "title": "String keys: padding is ignored, lookup never reads past the key's terminator", "statement": "With char-array keys, a stored key matches a lookup key exactly when both agree up to and including the first terminator (or over the full width), bytes after the terminator are ignored, and comparison never reads the lookup key beyond its terminator; written keys are zero-padded after the terminator and read the source only up to it.", "quantifier": "every key width and pair of byte strings", "why_tests_cant": "All strings.", "anchors": ["util/compact_binary_parser.hh: compare_nullterm_array", "util/compact_binary_serializer.hh: write_key", "util/compact_binary_writer.hh: write_key"]}
{"id": "C29", "title": "get_node is unsafe when the size field is as wide as size_t", "statement": "With a size field as wide as size_t (uint32_t on the 32-bit targets), a blob exists whose size field wraps the bounds check so that get_node returns a view extending outside the blob.", "quantifier": "existence, for every word width W >= 8", "why_tests_cant": "Needs an adversarial header.", "anchors": ["util/compact_binary_parser.hh: get_node"]}
{"id": "C30", "title": "Wear leveling: a successful write is what the next read returns", "statement": "On storage where a written cell reads back, is_writeable means blank and erase blanks every cell, for any history of writes, reads and restarts, read returns the last data successfully written, and restarting (constructing a new WearLeveler on the same storage) does not change that.", "quantifier": "every number of cells, every history of writes/restarts/reads", "why_tests_cant": "All histories across erase cycles and restarts.", "anchors": ["util/wear_level.hh: WearLeveler, WearLevel (constructor, read, write)"]}
{"id": "C31", "title": "Wear leveling: crash during a write loses at most that write, except while wrapping", "statement": "If power is lost at any point during a write that does not need an erase, leaving the target cell blank, torn (not validating) or written, then after restart read returns either the previous or the new data. If the write needs an erase, there is a crash point after which nothing is readable.", "quantifier": "every history followed by a crash at any point of a write, any torn cell content that fails validation", "why_tests_cant": "All crash points in all histories.", "anchors": ["util/wear_level.hh: write, constructor, read"]}
{"id": "C32", "title": "Wear leveling: cells are used in order, one erase per N writes", "statement": "Consecutive successful writes on good storage use cells 0,1,...,N-1 cyclically with exactly one erase before each return to cell 0, so every cell is written equally often; write terminates and erases at most once on any storage.", "quantifier": "every N > 0 and number of writes", "why_tests_cant": "Unbounded histories.", "anchors": ["util/wear_level.hh: write"]}
{"id": "C33", "title": "WearLevel: failed erase makes later reads address cells outside the block", "statement": "In WearLevel (unlike WearLeveler) a failing erase leaves the cell counter beyond the block, so the next read asks the storage for a cell index >= N; WearLeveler resets it and instead forgets readable data until restart.", "quantifier": "existence for WearLevel; every history for the WearLeveler bound", "why_tests_cant": "Needs an erase failure at the right point.", "anchors": ["util/wear_level.hh: WearLevel::write, WearLevel::read, WearLeveler::write"]}
{"id": "C34", "title": "int_to_str renders decimal exactly when no digit after the first is zero (contract violated otherwise)", "statement": "For every int32 value other than INT_MIN and every buffer large enough, int_to_str writes an optional minus sign, then the non-zero decimal digits of the magnitude in order, then a terminator; hence the output is the decimal rendering iff the value is 0 or has no zero digit. It returns false iff the true rendering plus terminator does not fit (zero excepted).", "quantifier": "all int32 values and all buffer lengths", "why_tests_cant": "2^32 values times buffer sizes; the tests use no value containing a zero digit.", "anchors": ["util/int_to_str.cc: int_to_str, _digit, num_digits"]}
{"id": "C35", "title": "int_to_str writes only inside the buffer (violated for value 0)", "statement": "For every non-zero value other than INT_MIN and every buffer, int_to_str never writes outside the buffer and leaves bytes after the terminator untouched. For value 0 it writes two bytes even into a buffer of length 0 or 1.", "quantifier": "all values and buffer lengths", "why_tests_cant": "All lengths.", "anchors": ["util/int_to_str.cc: int_to_str"]}
{"id": "C36", "title": "int_to_str_chop output characterisation (contract violated)", "statement": "The documented contract is the decimal rendering with most significant digits dropped to fit. The code compares with > instead of >=, so it yields non-digit characters (10 renders as ':') and drops digits; it always terminates the string inside the buffer and writes nothing for buffers of length <= 1.", "quantifier": "all values and buffer lengths", "why_tests_cant": "2^32 values.", "anchors": ["util/int_to_str.cc: int_to_str_chop, digit"]}
{"id": "C37", "title": "num_digits counts decimal digits for every unsigned value", "statement": "num_digits(v) is the length of the decimal rendering of v for every 32-bit unsigned v.", "quantifier": "all unsigned values", "why_tests_cant": "2^32 values.", "anchors": ["util/int_to_str.cc: num_digits"]}
{"id": "C38", "title": "print renders integers and hex exactly", "statement": "print<putc>(int) emits exactly the decimal rendering of every int32 other than INT_MIN (where the negation overflows), and print<putc>(Hex) exactly the upper-case hexadecimal rendering without leading zeros of every uint32.", "quantifier": "all 32-bit values", "why_tests_cant": "2^32 values each.", "anchors": ["util/print.hh: printone(int32_t), printone(Hex), print_digit"]}
{"id": "C39", "title": "print of a string_view ignores the view's length", "statement": "Printing a C string emits its characters up to the terminator. Printing a string_view emits characters up to the first zero byte in memory, which equals the view only if the view is followed by a terminator and contains none.", "quantifier": "every string", "why_tests_cant": "All strings.", "anchors": ["util/print.hh: printone(const char*), printone(std::string_view)"]}
{"id": "C40", "title": "contains_word finds exactly whole space-delimited words, case-insensitively", "statement": "contains_word(name, word) is true iff word occurs in name, ignoring ASCII case, at a position preceded by the start or a space and followed by the end or a space.", "quantifier": "all pairs of ASCII strings", "why_tests_cant": "All pairs.", "anchors": ["util/contains_word.hh: contains_word"]}
{"id": "C41", "title": "less_ci is a strict weak order whose equivalence is equal_ci", "statement": "less_ci is irreflexive, transitive and total up to equal_ci; equal_ci is an equivalence and holds iff the lower-cased strings are equal; so less_ci can key ordered containers.", "quantifier": "all strings", "why_tests_cant": "All triples.", "anchors": ["util/string_compare.hh: less_ci, equal_ci"]}
{"id": "C42", "title": "ReplaceString::replace_all is correct for equal-length and suitable longer replacements (contract violated otherwise)", "statement": "When find is non-empty and find and replace have equal length, replace_all replaces every non-overlapping occurrence left to right. The same holds for a longer replacement if its part beyond find's length does not hold find's first character. With a replacement shorter by k, the k characters after each replaced occurrence are not examined (so deleting c from a run of n c's leaves n/2 of them). With a replacement that contains find at an offset of at least its length (and with an empty find) it never terminates on a matching input.", "quantifier": "all strings", "why_tests_cant": "Non-termination and all strings.", "anchors": ["util/string_util.hh: ReplaceString::replace_all"]}
{"id": "C43", "title": "tokenize_string yields exactly the maximal delimiter-free runs", "statement": "tokenize_string appends, in order, the maximal non-empty runs of non-delimiter characters; joining them accounts for every non-delimiter character of the input and no token contains a delimiter.", "quantifier": "all strings and delimiter sets", "why_tests_cant": "All strings.", "anchors": ["util/string_util.hh: tokenize_string"]}
{"id": "C44", "title": "Version parsing recovers the fields of canonical strings", "statement": "Parsing the text a.b.c of numbers 0..255 (leading zeros allowed), optionally followed by -suffix without a dot, gives exactly those fields and is_normal iff there is no dash; missing fields are 0. A dotted pre-release suffix (1.0.0-rc.1) is reported as a normal release.", "quantifier": "all field values and suffixes", "why_tests_cant": "All strings.", "anchors": ["util/version_tools.hh: Version(std::string_view), set_field"]}
{"id": "C45", "title": "Version comparison is a total order consistent with equality; host compatibility is a preorder", "statement": "operator<=> is a total order (trichotomous, transitive, antisymmetric with ==), orders by major, minor, revision, then pre-release before release; is_later is its strict part; can_host_version is reflexive and transitive and ignores revision.", "quantifier": "all triples of versions", "why_tests_cant": "All triples.", "anchors": ["util/version_tools.hh: operator<=>, operator==, is_later, can_host_version"]}
{"id": "C46", "title": "is_power_of_2, log2_floor and next_power_of_2 are exact", "statement": "For every 32-bit v: is_power_of_2(v) iff v is a power of two; log2_floor(v) is the floor of log2 (0 for 0); next_power_of_2 returns the least power of two >= v, or 0 if it does not fit, for 8-, 16- and 32-bit types. For 64-bit types it returns wrong results because is_power_of_2 truncates its argument. bipolar_type_range gives the largest value of a signed type of up to 4 bytes, and 2^32-1 instead of 2^63-1 for 8-byte types.", "quantifier": "all values of the types", "why_tests_cant": "2^32 and 2^64 values.", "anchors": ["util/math.hh: is_power_of_2, log2_floor, next_power_of_2, ipow"]}
{"id": "C47", "title": "wrap reduces into range by whole multiples of the range", "statement": "wrap(v,min,max) terminates for min <= max and returns the unique value in [min,max] congruent to v modulo the range size (when no intermediate overflows); wrap<Max>(v) is v mod Max.", "quantifier": "all integers", "why_tests_cant": "All triples.", "anchors": ["util/math.hh: wrap"]}
{"id": "C48", "title": "Byte swaps are involutions with the right byte order", "statement": "swap_bytes16/32 reverse the byte order (hence are their own inverse); swap_bytes_and_combine(a,b) is swap16(a) in the high half and swap16(b) in the low half.", "quantifier": "all 16/32-bit values", "why_tests_cant": "2^32 values.", "anchors": ["util/math.hh: swap_bytes16, swap_bytes32, swap_bytes_and_combine"]}
{"id": "C49", "title": "Saturation and clamping stay in range and are identity inside it", "statement": "signed_saturate(v,n) is the nearest value in [-2^(n-1), 2^(n-1)-1], unsigned_saturate the nearest in [0, 2^n - 1], constrain the nearest in [min,max]; abs_diff and diff return the distance; between returns the offset inside the interval only; array_adj_diff returns the differences of neighbours, undefined when one does not fit int.", "quantifier": "all values and widths", "why_tests_cant": "All values.", "anchors": ["util/cortex_math.hh: signed_saturate, unsigned_saturate", "util/math.hh: constrain, abs_diff, diff, between, min, max", "util/colors.hh: __USAT"]}
{"id": "C50", "title": "Integer interpolate is exact for non-negative inputs and wrong for negative ones", "statement": "interpolate<PhaseMax>(a,b,p) equals floor((a*(PhaseMax-p)+b*p)/PhaseMax) and lies between a and b when inputs are non-negative and products fit; for a negative result it returns a large wrong value because the division is unsigned.", "quantifier": "all int32 inputs", "why_tests_cant": "2^96 inputs.", "anchors": ["util/math.hh: interpolate<PhaseMax>"]}
{"id": "C51", "title": "plateau removes exactly the dead zone", "statement": "When the dead zone's edges center-width/2 and center+width/2 are int32 values, plateau(v,w,c) is 0 within w/2 of c and otherwise the signed distance to the nearer edge of the dead zone; it is monotone in v and continuous (steps of 0 or 1 per unit). If the upper edge exceeds int32 it wraps, and plateau(c,w,c) overflows instead of being 0.", "quantifier": "all int32 values, widths and centres", "why_tests_cant": "All 32-bit triples.", "anchors": ["util/math.hh: plateau"]}
{"id": "C52", "title": "Toggler events: each edge is reported exactly once", "statement": "For any sequence of samples and queries, is_just_pressed returns true iff at least one low-to-high transition was registered since it last returned true (and likewise for releases), is_high is the last sample, and pending events survive until read.", "quantifier": "all sample/query histories", "why_tests_cant": "All histories.", "anchors": ["util/debouncer.hh: Toggler", "util/debouncer_compact.hh: TogglerCompact"]}
{"id": "C53", "title": "transfer_events moves every pending event (violated when both edges are pending)", "statement": "The user relies on transfer_events moving all pending events. When the source has both a rising and a falling event pending, the rising one is silently lost; otherwise all events are moved and the source is left empty.", "quantifier": "all pairs of toggler states", "why_tests_cant": "All state pairs.", "anchors": ["util/debouncer.hh: update_state, transfer_events", "util/debouncer_compact.hh"]}
{"id": "C54", "title": "Debouncer reports an edge exactly on its sample pattern", "statement": "With single-bit samples and a mask of n ones, Debouncer reports a rising (falling) edge at a sample exactly when the n most recent samples equal the rising (falling) pattern. With the default patterns two reported edges are never less than 11 samples apart, so contact bounce gives a single event; but a single glitch sample after 11 steady ones is reported at once. is_high is the last raw sample or the debounced state according to the template flag. process() inherited from Toggler bypasses the debouncing.", "quantifier": "all sample histories interleaved with queries; all patterns and mask lengths", "why_tests_cant": "All histories.", "anchors": ["util/debouncer.hh: Debouncer, DebouncerCounter"]}
{"id": "C55", "title": "PollEvent fires at the right times except when the clock wraps between polls", "statement": "While the clock does not wrap, poll fires exactly when at least period ticks have elapsed since the last firing. Across a wrap it fires correctly iff last+period also wraps; otherwise it misses the expiry and stays silent until the clock catches up.", "quantifier": "all poll-time sequences and periods, every unsigned clock width", "why_tests_cant": "Needs the clock at its wrap with particular phases; the tests poll every tick only.", "anchors": ["util/poll_event.hh: PollEvent::poll"]}
{"id": "C56", "title": "PollChange samples at its period and latches every observed change", "statement": "poll samples the state iff at least update_ticks (modulo 2^32, so wrap-safe) passed since the last sample; take_change returns true exactly when an observed sample differed from the previously observed one (or reset was called) since the last true result. force_next_poll forces only if the clock is already >= update_ticks.", "quantifier": "all call histories and clock values", "why_tests_cant": "All histories.", "anchors": ["util/poll_change.hh: PollChange"]}
{"id": "C57", "title": "Edge, change and parameter detectors report exactly the changes that happened", "statement": "RisingEdgeDetector/FallingEdgeDetector/EdgeStateDetector report an edge at a sample iff it differs accordingly from the previous one; ChangeDetector::changed, Parameter::isChanged report true iff some change happened since the last call; RefParameter::isChanged compares with the value at the last true report.", "quantifier": "all histories", "why_tests_cant": "All histories.", "anchors": ["util/edge_detector.hh", "util/change_detector.hh", "util/parameter.hh"]}
{"id": "C58", "title": "Quadrature encoder reports motion exactly on complete detent sequences", "statement": "get_motion returns CW (CCW) exactly when the four most recent distinct pin states form the clockwise (counter-clockwise) sequence ending at the detent; repeated states never report; the inverted encoder on inverted pins behaves identically; k full clockwise turns from the detent report exactly k CW.", "quantifier": "all pin-state streams", "why_tests_cant": "All streams.", "anchors": ["util/quadrature_encoder.hh: get_motion"]}
{"id": "C59", "title": "RotaryMotion conserves motion", "statement": "Over any history of add_motion/transfer_motion/use_motion without int32 overflow, motion consumed plus motion pending equals motion received, transferring empties the source, and abs_pos is the running sum of everything received.", "quantifier": "all histories", "why_tests_cant": "All histories.", "anchors": ["util/rotary_motion.hh"]}
{"id": "C60", "title": "Schmitt triggers implement hysteresis without chatter", "statement": "The output goes high only on a sample above high, low only on a sample below low, holds otherwise; samples staying between the thresholds (or NaN) never change it; RisingSchmittTrigger reports exactly the low-to-high transitions.", "quantifier": "all sample streams including NaN", "why_tests_cant": "All streams of floats.", "anchors": ["util/schmitt_trigger.hh"]}
{"id": "C61", "title": "hysteresis_gate switches on at turn_on (violated: it switches at the midpoint)", "statement": "The documentation says the input must exceed turn_on to switch on and fall below turn_off to switch off. In exact arithmetic the code switches on at the midpoint of the thresholds and off at turn_off.", "quantifier": "all thresholds and inputs", "why_tests_cant": "All reals.", "anchors": ["util/math.hh: hysteresis_gate, hysteresis_feedback"]}
{"id": "C62", "title": "RGB565 conversions round-trip and keep the top bits", "statement": "Color(x).Rgb565() == x for every 16-bit x; converting a Color to RGB565 and back keeps the top 5/6/5 bits of each channel and clears the rest; RGB565 construction from channels or from 0xRRGGBB, raw(), red(), green(), blue() agree.", "quantifier": "all 16-bit values and all 24-bit colours", "why_tests_cant": "2^24 colours.", "anchors": ["util/colors.hh: Color(uint16_t), Rgb565", "util/colors_rgb565.hh: RGB565"]}
{"id": "C63", "title": "8-bit colour blend is the exact floored weighted mean", "statement": "blend(that, phase:uint8) gives in each channel floor((that*phase + this*(255-phase))/255), hence this at 0, that at 255, and always between the two; combine saturates at 255; operator+ wraps modulo 256; adjust by 128 is identity and saturates.", "quantifier": "all colour pairs and phases", "why_tests_cant": "2^56 combinations.", "anchors": ["util/colors.hh: blend, combine, operator+, adjust"]}
{"id": "C64", "title": "Packed RGB565 blend is the per-channel floored interpolation", "statement": "The branch-free blend(uint16,uint16,alpha) gives in each channel c1 + floor((c2-c1)*a/32) with a=(alpha+4)/8, with no carry or borrow between channels; alpha < 4 returns colour 1 and alpha >= 252 colour 2.", "quantifier": "all colour pairs and alphas", "why_tests_cant": "2^40 combinations.", "anchors": ["util/colors.hh: Color::blend(uint16_t,uint16_t,uint8_t)"]}
{"id": "C65", "title": "HSV to RGB: value is the maximum channel, zero saturation is grey", "statement": "For every h,s,v the brightest RGB channel equals v, s = 0 gives grey v, and otherwise the darkest channel is floor(v*(255-s)/256). Full saturation at hues 0, 86 and 172 gives pure red, green and blue.", "quantifier": "all 2^24 HSV triples", "why_tests_cant": "2^24.", "anchors": ["util/hsv.hh"]}
{"id": "C66", "title": "MovingAverage returns the floored mean of the last Size samples", "statement": "After any stream of samples below 2^InputValueBits, add_val returns floor(sum of the last Size samples (zero-padded) / Size); the accumulator never overflows. Oversampler returns the floored mean of the last complete block of Size samples.", "quantifier": "all streams, all power-of-two sizes passing the static assertion", "why_tests_cant": "Unbounded streams.", "anchors": ["util/filter.hh: MovingAverage, Oversampler"]}
{"id": "C67", "title": "Oscillators: phase arithmetic, triangle shape, down-counter termination", "statement": "After n updates the phase is the start plus n increments modulo 2^32; the triangle output is a continuous piecewise linear function of the phase covering 0..2^32-1; DownCounter is non-increasing, stays at 0 once there and reaches 0 after ceil(phase/increment) updates. set_phase restarts from the given phase. set_period_ms below 1000 divides by zero.", "quantifier": "all phases, increments and numbers of updates", "why_tests_cant": "2^64 combinations.", "anchors": ["util/oscs.hh: TriangleOscillator, PhaseAccum, DownCounter"]}
{"id": "C68", "title": "Monotonic allocator hands out disjoint in-arena blocks", "statement": "Between resets all non-null blocks lie inside the arena and are pairwise disjoint, free_space decreases by exactly the allocated sizes; allocate fails iff size >= free_space, so an exactly fitting request is refused.", "quantifier": "all arenas and request histories", "why_tests_cant": "All histories.", "anchors": ["util/monotonic_allocator.hh"]}
{"id": "C69", "title": "AlignedAllocator requests enough memory (violated on overflow)", "statement": "When n*sizeof(T) does not overflow, the size passed to aligned_alloc is the least multiple of Alignment >= n*sizeof(T). If it overflows a too small block is requested and returned.", "quantifier": "all n, sizes and alignments", "why_tests_cant": "All n.", "anchors": ["util/aligned_allocator.hh: allocate"]}
{"id": "C70", "title": "SmallestUnsignedInt/SmallestSignedInt pick the least sufficient type", "statement": "The selected type represents every value of the requested range and no narrower standard type does.", "quantifier": "all 64-bit bounds for which the template compiles", "why_tests_cant": "2^64 and 2^128 parameters.", "anchors": ["util/smallest_integer.hh"]}
{"id": "C71", "title": "zip/countzip iterate exactly the common prefix", "statement": "A range-for over zip(c1..cn) visits exactly the tuples of elements at indices 0..min length-1, in order; countzip additionally supplies the index; no container is read out of bounds. Of no containers at all the loop never ends, and == between zip iterators is not transitive.", "quantifier": "any number of containers of any lengths", "why_tests_cant": "All lengths.", "anchors": ["util/zip.hh", "util/countzip.hh", "util/iterator_helpers.hh: any_match"]}
{"id": "C72", "title": "MemTest detects every aliasing fault and accepts every good memory", "statement": "check returns true on memory that reads back what was last written, and false whenever two tested words fewer than 2^32 apart share storage, or any word reads back differently; the test pattern does not repeat within 2^32 words.", "quantifier": "every region length, every alias map", "why_tests_cant": "2^32-periodic pattern.", "anchors": ["util/mem_test.hh: MemTest::check"]}
{"id": "C73", "title": "ByteBlock emits little-endian bytes that decode to the value", "statement": "printU8/16/32 append exactly 1/2/4 bytes which read as little-endian give back the value; printRaw appends the given bytes; order of calls is preserved.", "quantifier": "all values and call histories", "why_tests_cant": "2^32 values.", "anchors": ["util/byte_block.hh"]}
{"id": "C74", "title": "Partition places every element exactly once and balances sums greedily", "statement": "For at most MaxElements values, every index appears in exactly one part exactly once; the sum difference between any two parts is at most the largest value (no initial values, no overflow), whatever order the unstable sort gives to equal values. More initial values than partitions write out of bounds; extra elements are dropped.", "quantifier": "all value lists, partition counts, and sort outcomes", "why_tests_cant": "All lists.", "anchors": ["util/partition.hh: calc_partitions"]}
{"id": "C75", "title": "InterpParam reaches its target after the configured number of steps", "statement": "In exact arithmetic, after set_new_value(v) and num_updates calls of next the value is v and intermediate values are equally spaced; FilteredInterpArray outputs exactly the filtered target from the num_updates-th read on, until its 32-bit counter wraps; before the first mark_new_data_ready it outputs zero.", "quantifier": "all values, step counts and call histories", "why_tests_cant": "All histories.", "anchors": ["util/interp_param.hh", "util/filtered_interp_array.hh"]}
{"id": "C76", "title": "Geometry: intersection test (x direction violated) and concavity test", "statement": "y_intersects holds iff the closed intervals overlap and is symmetric; x_intersects misses the case of one rectangle spanning the other, so is_intersecting is not symmetric; is_poly_concave is true iff both a left and a right turn occur, when the coordinates are integers and nothing overflows; with fractional coordinates turns smaller than one are ignored.", "quantifier": "all rectangles and point lists", "why_tests_cant": "All coordinates.", "anchors": ["util/geometry.hh"]}
{"id": "C77", "title": "Calibrators recover linear calibrations in exact arithmetic", "statement": "After calibrate_chan with distinct measurements and targets, adjust maps the low/high measurements to the low/high targets and reverse_calibrate is its inverse (in single precision it is not exactly, and equal targets can make every adjusted value NaN). VoctCalibrator recovers slope and offset of any linear response from two distinct octaves and keeps a measured C0 as offset.", "quantifier": "all rational values", "why_tests_cant": "All values.", "anchors": ["util/calibrator.hh", "util/voct_calibrator.hh"]}
{"id": "C78", "title": "PeakMeter tracks exact extrema for integers (violated for floating point negatives)", "statement": "For integer samples min and max are the exact extrema since reset. For float signals whose samples are all negative the reported maximum is a positive number never seen.", "quantifier": "all streams", "why_tests_cant": "All streams.", "anchors": ["util/analyzed_signal.hh: PeakMeter, AnalyzedSig"]}
{"id": "C79", "title": "FunctionSized destroys a captured object exactly once (violated by copying)", "statement": "Constructing from a callable and destroying runs the callable's destructor exactly once and calls forward to the callable; copying a FunctionSized duplicates the bytes without running a constructor, so one constructed object is destroyed twice; assigning a callable to a FunctionSized leaves it holding an object already destroyed. Calling an empty FunctionSized is undefined.", "quantifier": "all construct/copy/destroy histories", "why_tests_cant": "All histories.", "anchors": ["util/callable.hh: FunctionSized"]}
{"id": "C80", "title": "InputBuffer/OutputBuffer stop at capacity", "statement": "InputBuffer keeps exactly the first N items put since reset and ignores the rest; OutputBuffer yields its N elements in order then default values; both stay in bounds.", "quantifier": "all histories", "why_tests_cant": "All histories.", "anchors": ["util/input_output_buffer.hh"]}
{"id": "C81", "title": "LookupTable and InterpArray interpolate inside the table", "statement": "In exact arithmetic lookup returns the table value at sample points, is linear between them, clamps outside the range and never reads outside the table; interp/interp_wrap read only valid indices for the documented phases.", "quantifier": "all tables and arguments", "why_tests_cant": "All arguments.", "anchors": ["util/lookup_table.hh", "util/interp_array.hh"]}
{"id": "C82", "title": "CircularBufferAccess::write with phase 1 stores the data unchanged (violated)", "statement": "The user relies on write(data) storing data. Because it computes d*1+old*0 in float, integers are rounded to the nearest float (no odd number above 2^24 is stored, the 64 largest ints are undefined) and a buffer slot holding infinity or NaN can never be cleared by writing.", "quantifier": "all float values; existence for the violations", "why_tests_cant": "Needs special values.", "anchors": ["util/circular_buffer_ext.hh: write, write_reverse"]}
{"id": "C83", "title": "RgbLed flash lasts the requested time (violated: truncated frequency)", "statement": "flash_once_ms(c, ms) shows the flash colour for ms milliseconds of updates only if 1000/ms is a whole number; for ms > 1000 it never shows at all. With no animation the LED shows the calibrated base colour.", "quantifier": "all durations and colours", "why_tests_cant": "All durations.", "anchors": ["util/rgbled.hh", "util/oscs.hh: DownCounter"]}
{"id": "C84", "title": "CircularBufferOpt::fill_buffer fills the whole buffer (violated for multi-byte elements)", "statement": "The user relies on fill_buffer(v) setting every element to v and fill_buffer(array) copying the array. Both pass the element count as a byte count: for one-byte elements the buffer is filled, for elements of two or more bytes only the first N bytes change (each to the low byte of v) and the rest keeps its old contents.", "quantifier": "all element sizes, capacities, previous contents and values", "why_tests_cant": "Ranges over all element sizes and contents.", "anchors": ["util/circular_buffer_opt.hh: fill_buffer"]}
{"id": "C85", "title": "CircularStack constructed from elements contains them (violated: it is empty)", "statement": "The user relies on CircularStack{a,b,c} holding a, b, c. The constructor stores the elements but leaves both indices at 0, so every later call answers as on an empty stack.", "quantifier": "all element lists and all following histories", "why_tests_cant": "Ranges over all histories.", "anchors": ["util/circular_stack.hh: variadic constructor"]}
{"id": "C86", "title": "get_node is unsafe when the size field is signed", "statement": "The template accepts any integral size type. With a signed one, a blob whose size field reads as -1 passes the bounds check and get_node returns a view of SIZE_MAX bytes.", "quantifier": "existence, for every key type and every signed size type up to the width of size_t", "why_tests_cant": "Needs a hostile size value for each width.", "anchors": ["util/compact_binary_parser.hh: CompactBinaryParser::get_node"]}
{"id": "C87", "title": "WearLeveler::read ignores a failing storage read (violated)", "statement": "The user relies on read(data) returning true only if data came from storage. read() does not look at the result of storage.read: if every storage read fails and leaves data untouched, and data happened to validate before the call, read returns true with the caller's own old data.", "quantifier": "every storage type, every leveler with a non-zero counter, every valid-looking caller object", "why_tests_cant": "Needs storage that fails after construction.", "anchors": ["util/wear_level.hh: WearLeveler::read, WearLevel::read"]}
{"id": "C88", "title": "Version parsing reads the last number past the end of the view (contract violated)", "statement": "Version(std::string_view) reads numbers with strtol from the view's memory without regard to the view's length: digits that follow the view in memory become part of the last field, and a view that ends where its memory ends is read out of bounds. Text followed in memory by a NUL is always parsed safely.", "quantifier": "all views of digit fields and what follows them in memory", "why_tests_cant": "All memory contents after the view.", "anchors": ["util/version_tools.hh: Version(std::string_view)"]}
{"id": "C89", "title": "Oversized version numbers wrap modulo 2^32 before the range check (contract violated)", "statement": "A first field whose value is v is read as min(v, LONG_MAX) mod 2^32 and dropped (left 0) if that exceeds 255; so with a 64-bit long the number 2^32*m+k with k <= 255 is accepted as k, while with a 32-bit long every value above 255 is dropped. White space and a sign before the number are accepted; a minus sign negates it modulo 2^32 and marks the version as a pre-release.", "quantifier": "all numbers of any length, any width of long above 9 bits", "why_tests_cant": "All numbers.", "anchors": ["util/version_tools.hh: Version(std::string_view), set_field"]}
{"id": "C90", "title": "wrap<Max> on a signed negative value is wrong unless Max divides 2^32 (contract violated)", "statement": "wrap<Max, int>(v) returns v mod Max for v >= 0 (and for every v if Max divides 2^32); for a negative v and any other Max it returns (v + 2^32) mod Max, which is not congruent to v modulo Max, because comparison and subtraction are done in unsigned arithmetic.", "quantifier": "all int32 values and all Max up to 2^31", "why_tests_cant": "All values.", "anchors": ["util/math.hh: wrap<Max, T>"]}
{"id": "C91", "title": "Integer map_value maps the input range onto the output range monotonically", "statement": "When the intermediate differences and the product fit the type, map_value(x,i0,i1,o0,o1) for x in [i0,i1] is the truncated linear interpolation, lies between o0 and o1, maps i0 to o0 and i1 to o1 and is monotone; an empty input range is undefined behaviour.", "quantifier": "all argument values, any width of the arithmetic", "why_tests_cant": "All argument tuples.", "anchors": ["util/math.hh: map_value"]}
{"id": "C92", "title": "randomNumber stays in range (violated on 32-bit long by overflow)", "statement": "With a 64-bit long, randomNumber<int>(lo,hi) is in [lo,hi] whatever std::rand returns, and hi is returned only when rand returns RAND_MAX. With a 32-bit long the product overflows as soon as rand()*(hi-lo) reaches 2^31.", "quantifier": "all results of rand and all int ranges narrower than 2^31", "why_tests_cant": "All results of rand.", "anchors": ["util/math.hh: randomNumber"]}
{"id": "C93", "title": "Debouncer drops an unread press when the release is detected (contract violated)", "statement": "Toggler keeps both a pending press and a pending release until they are read. Debouncer does not: detecting an edge discards an unread event of the opposite kind, so a press and release between two reads reports the release only.", "quantifier": "all histories", "why_tests_cant": "All histories.", "anchors": ["util/debouncer.hh: register_rising_edge, register_falling_edge, Debouncer::register_state"]}
{"id": "C94", "title": "TogglerCounter counts steady samples (violated for samples above 1)", "statement": "Fed with samples 0 and 1, TogglerCounter reports the same events as Toggler and steady_state_count is the number of samples equal to their predecessor since the last change, modulo 2^32. Fed with a sample of 2 or more it reports a press on every call and the count stays 0.", "quantifier": "all histories of samples", "why_tests_cant": "All histories.", "anchors": ["util/debouncer.hh: TogglerCounter"]}
{"id": "C95", "title": "DebouncerCounter counts the samples since the last edge", "statement": "The steady-state counter of DebouncerCounter is the number of samples registered since the last detected edge (since the start if there was none), modulo 2^32, whatever queries are made in between.", "quantifier": "all histories; all patterns and mask lengths", "why_tests_cant": "All histories.", "anchors": ["util/debouncer.hh: DebouncerCounter"]}
{"id": "C96", "title": "LatchedParam accepts exactly the large enough changes (integer thresholds below 1 vanish)", "statement": "For integer values whose difference fits the type, store_changed(x) accepts x and returns true iff |x - current value| is at least the threshold, the value is the last accepted or assigned one, and did_change returns true iff a value was accepted since it last returned true. For integer types the threshold is an integer quotient, so a fractional threshold is 0 and storing the same value counts as a change.", "quantifier": "all histories of store, assign and query; all thresholds", "why_tests_cant": "All histories.", "anchors": ["util/parameter.hh: LatchedParam"]}
{"id": "C97", "title": "Rectangle centres lie inside (violated by overflow for far-away rectangles)", "statement": "For a non-empty rectangle, center_x and center_y lie between its edges, both in the corner form (as long as the sum of the two edges is representable) and in the width/height form (as long as the right/bottom edge is representable). The corner form overflows when the sum of the edges exceeds int, although the centre itself is representable. Centres are within half a unit of the exact middle, both forms agree on width and height, and the corner form's width overflows for rectangles wider than int.", "quantifier": "all rectangles", "why_tests_cant": "All coordinates.", "anchors": ["util/geometry.hh: RectC, Rect"]}
{"id": "C98", "title": "RGB565 from float components clamps (violated below 0 and far above 1)", "statement": "For components in [0,1] the stored channel is floor(component * levels), at most levels-1. The constructor looks as if it clamped other components, but it converts to uint16_t first: a component of -1/32 (green: -1/64) or less, or of 2048 (green: 1024) or more, is an undefined conversion.", "quantifier": "all component values, in exact arithmetic", "why_tests_cant": "All reals.", "anchors": ["util/colors_rgb565.hh: RGB565(float, float, float)"]}
{"id": "C99", "title": "Blending a colour with itself gives that colour (violated by float phases)", "statement": "With an 8-bit or 32-bit phase a colour blended with itself is unchanged, for every phase. The half/half blend clears the lowest bit of odd channels. With a float phase strictly between 0 and 1 rounding can darken a channel by one; at exactly 0 and 1 the float blend returns the first and the second colour.", "quantifier": "all colours and phases; existence for the float violation", "why_tests_cant": "All colours and phases.", "anchors": ["util/colors.hh: blend"]}
{"id": "C100", "title": "32-bit phase blend is the floored weighted mean with 256 steps (never reaching the second colour)", "statement": "blend(that, phase:uint32) gives floor((this*(256-k) + that*k)/256) in each channel, k the top byte of the phase. Even at the largest phase a brighter second colour is never reached.", "quantifier": "all colour pairs and phases", "why_tests_cant": "All colours and phases.", "anchors": ["util/colors.hh: blend(Color, uint32_t)"]}
{"id": "C101", "title": "Neighbouring hues give neighbouring colours", "statement": "For fixed saturation and value, hues h and h+1 give colours differing by at most 6 in every channel; from hue 255 back to 0 the difference is at most 16.", "quantifier": "all hues, saturations and values", "why_tests_cant": "2^24 inputs.", "anchors": ["util/hsv.hh"]}
{"id": "C102", "title": "SmoothOversampler: mean of complete blocks; its overflow assertion is too weak", "statement": "SmoothOversampler::add_val returns float(sum)/float(Size) of the last complete block of Size samples (0 before), provided Size samples of maximum value fit 32 bits. The static assertion uses floor(log2 Size), so for sizes that are not powers of two it admits sample widths for which the sum wraps: three equal 31-bit samples report a mean far below each of them.", "quantifier": "all sizes, all sample streams", "why_tests_cant": "the overflow depends on the sum of a whole block of extreme samples", "anchors": ["util/filter.hh: SmoothOversampler"]}
{"id": "C103", "title": "ResizingOversampler returns the mean of the last complete block across size changes", "statement": "For any interleaving of add_val and set_size with positive sizes, val() is the single precision mean of the last complete block, where setting a size not above the number of samples collected so far completes the block early; before the first block it is 0. set_size(0) between two blocks makes val() NaN, and infinite after the next positive sample.", "quantifier": "all histories of add_val and set_size calls", "why_tests_cant": "depends on the interleaving of resizes and samples", "anchors": ["util/filter.hh: ResizingOversampler"]}
{"id": "C104", "title": "Non-linear one-pole filters: hysteresis projects, quadratic overshoots beyond its divisor", "statement": "In exact arithmetic HysteresisFilter moves its output to the nearest point within flat of the input. QuadraticOnePoleLp moves its output by the fraction |input-state|/Divisor of the distance: for distances up to Divisor the output stays between old output and input, beyond Divisor it overshoots, and beyond twice Divisor it ends farther from the input than it was (divergence).", "quantifier": "all states, inputs and positive divisors", "why_tests_cant": "a statement over all rational inputs", "anchors": ["util/filter.hh: NonLinearOnePoleLp, HysteresisFilter, QuadraticOnePoleLp"]}
{"id": "C105", "title": "CascadingFilter::val() is not a pure query", "statement": "CascadingFilter::add_val feeds only the first filter; each val() call feeds the first filter's value to the second one, so that two calls of val() with no sample between them can return different values.", "quantifier": "all pairs of filters, all histories", "why_tests_cant": "depends on the number of val() calls between samples", "anchors": ["util/filter.hh: CascadingFilter"]}
{"id": "C106", "title": "SineOscillator::val() advances the phase", "statement": "SineOscillator::val() returns the table value at the phase advanced by one increment and keeps the advanced phase: two val() calls advance twice, and update() followed by val() also advances twice, unlike TriangleOscillator.", "quantifier": "all phases, increments", "why_tests_cant": "holds for every phase and table", "anchors": ["util/oscs.hh: SineOscillator"]}
{"id": "C107", "title": "OneShot lasts ceil(width/increment) updates (violated for long pulses in single precision)", "statement": "In exact arithmetic the n-th update() after start (counted from 0) returns true iff n increments are less than the width. In single precision a pulse of 600 s at 48 kHz never ends, because subtracting the increment does not change the width; nor does any pulse with 2^c <= width and increment at most 2^(c-26).", "quantifier": "all widths, rates and numbers of updates", "why_tests_cant": "never ending is a statement about infinitely many updates", "anchors": ["util/oscs.hh: OneShot"]}
{"id": "C108", "title": "Oscillator frequency: exact drift per second", "statement": "After set_frequency(freq), UpdateRateHz updates bring the phase back to its value minus freq*(1 + (2^32-1) mod UpdateRateHz) phase units modulo 2^32, as long as freq*(2^32-1)/UpdateRateHz fits 32 bits: the oscillator is slow by that exact amount. The constructor starts at phase 0 with the same increment. After set_period_sec(sec), UpdateRateHz*sec updates bring the phase back minus 1 + (2^32-1) mod (UpdateRateHz*sec); set_period_ms drops the part below a whole second, and a period of 2^32 or more updates stops the oscillator.", "quantifier": "all rates, frequencies and phases", "why_tests_cant": "quantifies over all rates and frequencies", "anchors": ["util/oscs.hh: TriangleOscillator::set_frequency, PhaseAccum::set_frequency"]}
{"id": "C109", "title": "MemTest writes past the end of a region that is not a whole number of words", "statement": "MemTest::check tests the word at every 4-byte step below stop. If the length is not a multiple of 4 the last tested word starts before stop and ends after it: up to three bytes outside the requested region are overwritten.", "quantifier": "all regions, all memories", "why_tests_cant": "depends on the length modulo the word size and on what lies behind the region", "anchors": ["util/mem_test.hh: MemTest::check"]}
{"id": "C110", "title": "PaddedAligned fills whole alignment blocks", "statement": "For every object size and power-of-two alignment, data plus padding is the least multiple of the alignment that holds the data, so the object never shares an alignment block (cache line) with another one; the padding is shorter than the alignment. When the size already is a multiple the padding array has length 0, which ISO C++ does not allow.", "quantifier": "all object sizes and power-of-two alignments", "why_tests_cant": "all sizes and alignments", "anchors": ["util/padded_aligned.hh: PaddedAligned"]}
{"id": "C111", "title": "Readings marked as new are never lost, whatever the interleaving", "statement": "When one context replaces the readings and calls FilteredInterpArray::mark_new_data_ready while another calls add_new_readings again and again, then whenever the second is between two calls and no mark is pending, every lane was last given a reading at least as new as the last one marked; and once the first context pauses, 2N+2 accesses of the second are enough to get there.", "quantifier": "all interleavings of the single accesses to shared memory, any number of lanes (sequential consistency)", "why_tests_cant": "Concurrency: the orderings cannot be enumerated by tests.", "anchors": ["util/filtered_interp_array.hh: mark_new_data_ready, add_new_readings"]}
{"id": "C112", "title": "InterpParam over integer types (target missed, downward ramps jump up)", "statement": "InterpParam<int> ends num_updates calls at the target minus the truncated remainder of the distance by num_updates; InterpParam<unsigned> with a target below the current value first jumps up; InterpParamVariable<int> with zero updates divides by zero.", "quantifier": "all values and step counts", "why_tests_cant": "All values.", "anchors": ["util/interp_param.hh"]}
{"id": "C113", "title": "AudioFrame sign extension", "statement": "AudioFrame::sign_extend of a sample whose UsedBits low bits hold a two's complement number returns that number: it lies in the UsedBits range and agrees with the sample in the low bits. (With an unsigned SampleType the result is converted to a huge unsigned number.)", "quantifier": "every sample value, every number of used bits and every sample width", "why_tests_cant": "All 2^32 samples and all widths.", "anchors": ["util/audio_frame.hh:sign_extend"]}
{"id": "C114", "title": "AudioFrame signed samples and floats", "statement": "For signed samples of up to 24 used bits, scaleInput gives exactly v/2^(UsedBits-1) and scaleOutput of it gives v back. When the sample fills its type, scaleOutput is the scaled value clamped to the sample's range and truncated, for every finite or infinite float; quantisation loses less than one step; louder is never smaller; writing a channel leaves the others alone. Violated expectations: a wider type is not clamped before the conversion (u in w bits: undefined from 2^(w-u) on, 256.0 for 24 in 32 bits; with fewer than 24 used bits, values from 1.0 on leave the used range), 32 used bits at full scale are undefined, and NaN is undefined.", "quantifier": "every sample, every float, every number of used bits up to 24 and every sample width", "why_tests_cant": "All floats times all widths; rounding at the clamp edge.", "anchors": ["util/audio_frame.hh:scaleInput", "util/audio_frame.hh:scaleOutput", "util/audio_frame.hh:set_scaled_output"]}
{"id": "C115", "title": "AudioFrame unsigned samples (round trip violated)", "statement": "For unsigned samples of up to 24 used bits scaleOutput maps -1 and below to 0, 1 and above to 2^UsedBits-1, keeps the order and never leaves the range. Expected but violated: scaleInput is its inverse (every sample in the upper half comes back as full scale, sample 0 comes back as mid scale), and 32 used bits at full scale are defined.", "quantifier": "every float and every sample, every number of used bits up to 24", "why_tests_cant": "All floats, all samples.", "anchors": ["util/audio_frame.hh:scaleInput", "util/audio_frame.hh:scaleOutput"]}
{"id": "C116", "title": "soft_neon lane semantics (accumulator and NaN behaviour violated)", "statement": "The soft_neon stand-ins compute each lane as the instruction of the same name: load, duplicate, multiply, subtract, multiply-accumulate, pairwise add, halves, lanes, maximum. Violated: vmlaq_f32 also overwrites its accumulator argument, and vmaxq_f32 drops a NaN in the first operand.", "quantifier": "every lane value including NaN and infinities", "why_tests_cant": "All floats in every lane.", "anchors": ["util/soft_neon.hh", "util/math.hh:max"]}
{"id": "C117", "title": "bitfield() and OR() (OR violated)", "statement": "bitfield(args...) has exactly the bits set in some argument, does not depend on order or repetition, and stays within the type. Expected but violated: OR({...}) does the same (its accumulator is never initialised, so every call is undefined).", "quantifier": "every number of arguments and every value", "why_tests_cant": "Any number of arguments; an uninitialised variable often happens to be zero in a test.", "anchors": ["util/bitfield.hh"]}
{"id": "C118", "title": "Float classification under fast-math", "statement": "is_finite_fastmath is true exactly for the bit patterns that IEEE 754 assigns to numbers, and is_inf_fastmath exactly for the two infinities (NaN is not infinite).", "quantifier": "all 2^32 bit patterns", "why_tests_cant": "All bit patterns.", "anchors": ["util/math.hh:is_finite_fastmath", "util/math.hh:is_inf_fastmath"]}
{"id": "C119", "title": "Float interpolation (interpolate3 end point violated)", "statement": "interpolate(a, b, phase) returns a at 0 and b at 1 for finite ends, stays within [-2^e, 2^e] when a and b do and phase is in [0, 1], and is within 5*2^(e-25) of the exact value; interpolate3 is within 3*2^(e-24). Expected but violated: interpolate3(a, b, 1) = b (it is 0 whenever b is below a times 2^-26), and interpolate(a, b, 0) = a when b is infinite.", "quantifier": "all finite floats and all phases in [0, 1]", "why_tests_cant": "All floats; rounding errors.", "anchors": ["util/math.hh:interpolate", "util/math.hh:interpolate3"]}
{"id": "C120", "title": "f_abs and faster_sine in single precision", "statement": "f_abs returns the absolute value of every finite float (a negative zero keeps its sign). For every x in [0, 1] faster_sine stays in [-1, 1], is within 5*2^-24 of the parabolic arcs 4(t - t|t|), t = 2x-1, is exact at the quarter points, and is within 0.06 of minus the sine of 2 pi x.", "quantifier": "every float in the range", "why_tests_cant": "All floats; the maximum of the parabola is where rounding could exceed 1.", "anchors": ["util/math.hh:f_abs", "util/math.hh:faster_sine"]}
{"id": "C121", "title": "Hysteresis gates in single precision (turn-on threshold violated)", "statement": "hysteresis_gate and hysteresis_feedback return exactly 0 or 1 for every input including NaN, and a larger input never turns the gate off. For signals and thresholds on a 22-bit grid, a gate that is on stays on exactly while the input is above turn_off. hysteresis_feedback turns on exactly above thresh and, on a 24-bit grid, stays on exactly above thresh - coef. Expected but violated: a gate that is off turns on only above turn_on (it turns on half way between the thresholds).", "quantifier": "all floats; all 22-bit grid values for the threshold statements", "why_tests_cant": "All floats and thresholds.", "anchors": ["util/math.hh:hysteresis_gate", "util/math.hh:hysteresis_feedback"]}
{"id": "C122", "title": "Table sine and cosine (any argument violated)", "statement": "sin(x) for 0 <= x <= 2^23, sin01(x) for 0 <= x < 2^21 and cos(x) for -1.57 <= x <= 2^23 stay in [-1, 1] and are within 2.2e-6 (sin, sin01) or 2.3e-6 (cos) plus the rounding of the argument of the mathematical value; cos_close is within 3.2e-3. Just below these ranges (sin01 above -1/2048, sin from -0.0030679, cos from -1.5738) they are still as accurate. Expected but violated: the functions accept any argument (one from -1/2048, -0.0030680 or -1.5739 down, a very large or a non-finite one is an undefined conversion).", "quantifier": "every float in the ranges", "why_tests_cant": "All floats; the error comes from 2048 table entries, the interpolation and the rounding of every step.", "anchors": ["util/math.hh:sin", "util/math.hh:sin01", "util/math.hh:cos", "util/math.hh:cos_close", "util/math_tables.hh:sinTable"]}
{"id": "C123", "title": "pow2 and setPitchMultiple (negative and huge exponents violated)", "statement": "pow2(x) is within a relative error of 1.6e-6 + 5e-8 x of 2^x for 0 <= x <= 127, and within 1.1e-5 for -0.0024425 <= x <= 0. setPitchMultiple(v) is within a relative error of 1.6e-6 of 2^(5v) with v clamped to [-1, 1], is in [1/32, 32], at least 1 for v >= 0 and at most 1 for v < 0. Expected but violated: pow2 of a negative exponent (undefined conversion from -0.002443 down) and that pow2 always returns (it is infinite from 2^128 on and loops forever from 83886096 up, for infinity and for NaN).", "quantifier": "every float in the ranges", "why_tests_cant": "All floats and every number of loop turns.", "anchors": ["util/math.hh:pow2", "util/math.hh:setPitchMultiple", "util/math_tables.hh:exp5Table"]}
{"id": "C124", "title": "audioFreqToNorm is a logarithmic map of 20 Hz - 20 kHz onto 0 - 1", "statement": "audioFreqToNorm(f) is in [0, 1] for every finite f and approximates ln(f/20)/ln(1000) with f clamped to [20, 20000]: never more than 3e-6 above it and never more than min(6e-3, 3e-6 + 6/f^2) below it.", "quantifier": "every finite float, the infinities and NaN", "why_tests_cant": "All floats; the interpolation error is largest where the logarithm bends most.", "anchors": ["util/math.hh:audioFreqToNorm", "util/math_tables.hh:logTable"]}
{"id": "C125", "title": "Table tangent (sign near pi/2 and negative arguments violated)", "statement": "tan(x) is within 1.2e-5 and tan_close(x) within 5.4e-3 of the tangent for 0 <= x <= 1, within 3e-4 and 5.6e-2 up to 1.4, and within 4.4e-3 and 0.36 up to 1.5; for -0.0015339 <= x <= 0 tan is as accurate and tan_close is 0. Expected but violated: tan has the sign of the tangent just below pi/2 (it returns less than -10^6 for 1.5695 <= x <= 1.5707), and accepts negative arguments (undefined conversion from -0.001534 down).", "quantifier": "every float in the ranges", "why_tests_cant": "All floats; the wrong interval is narrow.", "anchors": ["util/math.hh:tan", "util/math.hh:tan_close", "util/math_tables.hh:tanTable"]}
{"id": "C126", "title": "Exponential and power tables (ninth power violated)", "statement": "Reading exp5Table or exp10Table with interp at phase p in [0, 1] gives 2^(5p) within a relative error of 1.5e-6 and 2^(10p) within 3e-6, and stays in [1, 32] and [1, 1024]. The entries of pow9Table are within 6.2e-7 of (i/2047)^8.8. Expected but violated: they are the ninth power of the position.", "quantifier": "every float phase and every entry", "why_tests_cant": "All phases and all entries.", "anchors": ["util/math_tables.hh:exp5Table", "util/math_tables.hh:exp10Table", "util/math_tables.hh:pow9Table", "util/interp_array.hh"]}
{"id": "C127", "title": "Float outputs of the oscillators (ramp below 1 violated)", "statement": "process_float of the phase accumulator is within 2^-25 of phase/2^32 and in [0, 1]; process_float of the triangle is in [0, 1] and within 4e-8 of the triangle wave; process_bipolar, process_unipolar and process of the sine oscillator stay in [-1, 1], [0, 1] and [0, 2^32-256] and are within 2.4e-6, 1.3e-6 and 6200 units of the sine of the phase. Expected but violated: the ramp stays below 1 (it is exactly 1 for the last 128 phases).", "quantifier": "every phase and every increment", "why_tests_cant": "2^32 phases times 2^32 increments.", "anchors": ["util/oscs.hh:PhaseAccum", "util/oscs.hh:TriangleOscillator", "util/oscs.hh:SineOscillator"]}
{"id": "C128", "title": "Float frequency and period setters (very long and very short periods violated)", "statement": "set_frequency(float) of the triangle and set_period_ms of the down counter set the increment of the exact frequency within 1 + 2e-7 (3e-7) of it, as long as that fits 32 bits; otherwise the conversion is undefined. Expected but violated: set_period_ms of a long period gives a long period (above the limit the increment is 0 and the counter expires at once), and a period shorter than one update, or 0, is accepted.", "quantifier": "every update rate, every float frequency, every 32-bit period", "why_tests_cant": "All rates, frequencies and periods.", "anchors": ["util/oscs.hh:TriangleOscillator::set_frequency", "util/oscs.hh:DownCounter::set_period_ms"]}
{"id": "C129", "title": "Float parameter interpolation follows the straight line (arrival and small changes violated)", "statement": "InterpParam<float, N>: with values up to 2^e, the value after k of the N updates following set_new_value is within (k+4) 2^(e-24) of the point k/N of the way from the old value to the target, and the values never turn back. Expected but violated: after N updates the target is reached exactly (0 to 1 in ten updates ends at 1 + 2^-23), and a small change happens at all (when a step is below the current value times 2^-26 the value never moves, e.g. from 1 to 1 + 2^-16 in 1024 updates).", "quantifier": "all old values, targets, N up to 2^22 and k up to N", "why_tests_cant": "All floats; rounding errors accumulate over every number of steps.", "anchors": ["util/interp_param.hh:InterpParam"]}
{"id": "C130", "title": "Float table lookup is close to the piecewise linear curve", "statement": "LookupTable::lookup of a value within the range, and InterpArray::interp of a phase in [0, 1], differ from the exact piecewise linear curve through the table entries by at most a stated bound: 5 2^-24 times the table length times the largest step between neighbours plus 3 2^(e-24) for lookup, 2^-24 times length times step plus 5 2^(e-25) for interp. interp never exceeds the range of its entries' magnitudes.", "quantifier": "all tables of 2 to 2^24 finite entries up to 2^e, all ranges and values", "why_tests_cant": "All tables and arguments.", "anchors": ["util/lookup_table.hh:lookup", "util/interp_array.hh:interp"]}
{"id": "C131", "title": "Float hysteresis and quadratic filters (settling violated)", "statement": "HysteresisFilter<float>: an input within Numerator/Divisor of the state leaves it unchanged; otherwise the state moves to the input minus the dead zone within 3 2^(e-24), in the direction of the input and not beyond it; after any inputs the state is bounded and within the dead zone (plus rounding) of the last input. QuadraticOnePoleLp<float>: with the input closer than Divisor the state moves by |d| d / Divisor within 13 2^(e-24), towards the input and not beyond it. Expected but violated: the quadratic filter reaches a constant input (it stalls at 1 for input 513/512), and settles at all when the input is further away than Divisor (it swings between 0 and 256 for input 128).", "quantifier": "all states, inputs, histories and template parameters up to 2^24", "why_tests_cant": "All floats and histories.", "anchors": ["util/filter.hh:NonLinearOnePoleLp", "util/filter.hh:TransferQuadratic", "util/filter.hh:TransferHysteresis"]}
{"id": "C132", "title": "Float calibration hits the line and can be reversed", "statement": "In single precision, a channel calibrated from two (measured, target) pairs gives readings within 12 2^-24 (|slope| (|raw| + |low|) + |target|) of the exact line, reverse_calibrate is within 7 2^-24 of the exact inverse (relative to the sizes of its terms), and reversing an adjusted reading gives the reading back within 27 2^-24 (|raw| + |low| + |target/slope|), up to 2^-60.", "quantifier": "all finite calibration points and readings up to 2^60, slopes between 2^-30 and 2^30", "why_tests_cant": "All floats: four calibration values and a reading.", "anchors": ["util/calibrator.hh:Calibrator"]}
{"id": "C133", "title": "Float oversamplers report the mean of the last block within rounding", "statement": "ResizingOversampler with samples up to 2^e and blocks of up to 2^20: after any sequence of samples and size changes the value is within (n+2) 2^(e-24) of the exact mean of the last complete block of n samples. SmoothOversampler: the value is the exact mean of the last complete block with a relative error of at most 2.1 2^-24.", "quantifier": "all sample and resize histories", "why_tests_cant": "All histories; rounding errors accumulate.", "anchors": ["util/filter.hh:ResizingOversampler", "util/filter.hh:SmoothOversampler"]}
{"id": "C135", "title": "DoubleBufferStream interrupted in the middle of transmit (violated)", "statement": "Expected but violated: a word accepted by transmit is handed to the hardware even if the end of the running transfer interrupts transmit. Elements stored after the interruption are never handed over although transmit reports success, whatever is called later. The interruption is harmless before the first element when nothing is waiting, and after the last element it equals a callback after transmit, for all later histories. A word that does not fit when transmit starts is refused even if the callback makes room meanwhile, and then only the callback has an effect.", "quantifier": "all histories before, all words and interruption points, all histories after", "why_tests_cant": "Interruption points times histories.", "anchors": ["util/doublebuf_stream.hh:transmit", "util/doublebuf_stream.hh:tx_done_callback"]}
{"id": "C137", "title": "BigBuffer owns its storage (copies violated)", "statement": "BigBuffer variables that are not copied behave like arrays held by value: the same results and the same undefined cases (reads of elements never set, indices out of range), no two share storage, and the blocks allocated are exactly those of the living variables. Expected but violated: the class can be copied safely. Destroying a copy and the original deletes one block twice, writing to a copy changes the original, and assignment leaks the block of the left side.", "quantifier": "all sequences of definitions, destructions, reads and writes", "why_tests_cant": "All histories of many variables.", "anchors": ["util/big_buffer.hh:BigBuffer"]}
{"id": "C134", "title": "Float colour blending is the rounded-down mixture (phases above 1 violated)", "statement": "Color::blend(that, phase) with a float phase in [0, 1] gives, in every channel, an 8-bit value that is at most 2^-14 above the exact mixture and less than 1 + 2^-14 below it; phases 0 and 1 give the two colours exactly. Expected but violated: a phase outside [0, 1] saturates (the conversion is undefined as soon as one channel's exact mixture is at least 257 or at most -2).", "quantifier": "all pairs of colours, all float phases in [0, 1]", "why_tests_cant": "2^48 pairs of colours times 2^30 phases.", "anchors": ["util/colors.hh:Color::blend"]}
{"id": "C136", "title": "The running average of AnalyzedSig (arrival and coefficient 1 violated)", "statement": "With a coefficient c in [0, 1 - 2^-22] the average stays within every interval that holds the start value and all samples, one update is within 3 2^(e-24) of avg + c (v - avg), and for a constant sample v the distance after k updates is at most (1-c)^k times the first distance plus 3 2^(e-24)/c. AnalyzedSignal<n> uses 1/n rounded. Expected but violated: a constant sample is reached (when the first step is below the average times 2^-26 it never moves; AnalyzedSignal<64> stays at 1 for samples 1 + 2^-20), and AnalyzedSignal<1> follows its samples exactly (any sample below the average times 2^-26 gives 0).", "quantifier": "all sample sequences, start values and coefficients", "why_tests_cant": "All floats and all histories.", "anchors": ["util/analyzed_signal.hh:AnalyzedSig", "util/analyzed_signal.hh:AnalyzedSignal"]}
{"id": "C138", "title": "VoctCalibrator<float> gives the line through the last two measurements within rounding", "statement": "After any sequence of resets and measurements, when the last two measurements since reset are of different notes and different values, slope() is the exact slope through them with a relative error of 2.1 2^-24 (plus 2^-150), and offset() is within 68 2^-24 (|m0| + |m1|) (plus 2^-140) of the exact value at C0, unless C0 was measured: then offset() is exactly the last measurement of C0.", "quantifier": "all histories of resets, notes and float measurements up to 2^100", "why_tests_cant": "All histories and floats.", "anchors": ["util/voct_calibrator.hh:VoctCalibrator"]}
{"id": "C139", "title": "LockFreeFifoSpsc constructed from a block of elements (violated)", "statement": "Expected but violated: a FIFO constructed from a span of elements holds those elements. Whatever the block, it starts empty. When the write position is then moved to the end of the block it is a full queue of the block only for one-byte elements: for wider elements only the elements that lie in the first capacity bytes are there, the later ones read as zero.", "quantifier": "all capacities 2^k, element sizes, blocks and histories of operations", "why_tests_cant": "All blocks, element sizes and histories.", "anchors": ["util/lockfree_fifo_spsc.hh:LockFreeFifoSpsc", "util/lockfree_fifo_spsc.hh:set_write_pos"]}
{"id": "C140", "title": "MixedRgbLed::set_color with a brightness (full integer brightness and float above 1 violated)", "statement": "An integer brightness b gives every driver floor(channel * b / 256). A float brightness b >= 0 for which no product exceeds 255 gives every driver the product rounded down, within 2^-17, never more than the channel if b <= 1, and the colour itself if b = 1. Expected but violated: full integer brightness 255 shows the colour (each channel that is on is one step lower); a float brightness saturates (the conversion is undefined as soon as one channel's product is at least 256 or at most -1).", "quantifier": "all colours, all integer brightnesses, all float brightnesses", "why_tests_cant": "2^24 colours times 2^31 floats.", "anchors": ["util/rgbled.hh:MixedRgbLed::set_color"]}
{"id": "C141", "title": "A consumer that asks num_filled first is safe with the memory orders of the source", "statement": "If the consumer takes at most as many items (get, get_move) as its last num_filled() reported, then, with the memory orders as written, there is no data race in any execution, a count never announces more items than are there, every get of an announced item succeeds with the oldest item, and puts never exceed the capacity; remove_first may be called at any time. A consumer that takes one item more than announced can race.", "quantifier": "all capacities, counter widths and start values, all interleavings, all choices of visible values at every load", "why_tests_cant": "Interleavings times stale reads allowed by the C++ memory model.", "anchors": ["util/lockfree_fifo_spsc.hh:num_filled", "util/lockfree_fifo_spsc.hh:empty", "util/lockfree_fifo_spsc.hh:get", "util/lockfree_fifo_spsc.hh:get_move", "util/lockfree_fifo_spsc.hh:put", "util/lockfree_fifo_spsc.hh:remove_first"]}
{"id": "C142", "title": "What ThreadSafePool::is_used tells a thread (reading the element afterwards violated)", "statement": "is_used may return an old value. Called by any thread at any time it never disturbs the owners: there is still no data race. A thread that holds an index is always told it is used; used is reported only of an index some create returned before; a single thread gets the exact answer; a read of the newest value is exact, and if it says free all accesses of earlier owners happen before. Expected but violated: after is_used said used the element can be read without a race, or after it said free.", "quantifier": "all pool sizes, any number of threads, all interleavings, all values the memory model lets each load read", "why_tests_cant": "Interleavings times stale reads.", "anchors": ["util/thread_safe_pool.hh:is_used", "util/thread_safe_pool.hh:create", "util/thread_safe_pool.hh:destroy"]}
{"id": "C143", "title": "Fading and breathing of an RGB LED (reaching the breathing colour and negative frequencies violated)", "statement": "After fade_once_ms every update shows a colour between the fade colour and the base colour in every channel, later updates are never further from the base colour than earlier ones, the share of the fade colour is the remaining part of the countdown, and once the countdown is over the base colour is shown again. Breathing shows at each update the mixture given by a triangle of the phase, always between base and breathing colour; the phase advances by freq times the units of 1 Hz within 2^-22. A flash hides the breathing for its time and does not disturb it. Expected but violated: breathing reaches its full colour (a channel that has to rise never does); a negative frequency is accepted (the conversion is undefined).", "quantifier": "all histories of calls, colours, calibrations, durations up to 2^24 ms, update rates and numbers of updates", "why_tests_cant": "Every history and every number of updates.", "anchors": ["util/rgbled.hh", "util/oscs.hh: TriangleOscillator, DownCounter"]}
{"id": "C144", "title": "Packed RGB565 colours blended with a float weight, and a colour times a float (weights out of range violated)", "statement": "For a float weight in [0, 1] Color::slow_blend and Color::blend of packed colours are defined and differ from the exact mixture by less than 5/4 and 9/4 of a step in each channel and from each other by at most one step; weights 0 and 1 give the two colours exactly. A colour times p in [0, 1] has no channel brighter than before and each channel is p times the old one rounded down within 2^-14. Expected but violated: weights are clamped, or a factor above 1 saturates (both conversions are undefined).", "quantifier": "all packed colours, colours and float weights", "why_tests_cant": "2^32 pairs of colours times 2^30 weights.", "anchors": ["util/colors.hh:Color::slow_blend", "util/colors.hh:Color::blend", "util/colors.hh:Color::operator*"]}
{"id": "C145", "title": "Wear leveling through any number of power failures (loss limited to the interrupted write violated)", "statement": "Whatever is stored at first and however many power failures interrupt writes, with a restart after each, the device behaves as a register: an interrupted write that does not erase the block leaves the old or the new data, reads return only data that was written once or was there at first, and no life gets stuck. Expected but violated: a power failure loses at most the write it hits; a write that erases the block, when interrupted, may bring back any older data of the block.", "quantifier": "all storages with the stated contract, block counts, counter widths, histories and crash points", "why_tests_cant": "Every history with every choice of crash points.", "anchors": ["util/wear_level.hh: WearLevel (constructor, read, write)"]}
{"id": "C146", "title": "Polling from a main program what an interrupt handler feeds: buttons, rotary motion, parameters (partly violated)", "statement": "Wherever a handler interrupts them, Toggler::is_just_pressed and is_just_released take effect at one moment when the handler only registers, and register_state does when the handler only polls: no event is lost or reported twice. The motion used plus the pending motion is the motion reported except for exactly what was reported between the two accesses of use_motion; abs_pos is always right. Whoever reads a LatchedParam whenever did_change is true ends up with the value held, whichever side is interrupted; for a Parameter this holds if nothing is set between the two accesses of isChanged. Expected but violated: two pollers share events; TogglerCompact polls are interruptible (all calls made during the assignment are undone); a registered press cancels an unread release at once; transfer_events loses nothing; use_motion loses no motion and motion is not counted twice; Parameter::isChanged reports every change, and setValue announces only what is already readable.", "quantifier": "all interleavings of any number of calls with handler calls before every access to the object", "why_tests_cant": "Every placement of interrupts in every history.", "anchors": ["util/debouncer.hh: Toggler", "util/debouncer_compact.hh: TogglerCompact", "util/rotary_motion.hh: RotaryMotion", "util/parameter.hh: Parameter, LatchedParam"]}
{"id": "C147", "title": "A circular buffer shared with an interrupt handler", "statement": "A handler that puts into a circular buffer only while count() is below max_size() - 1, and a main program that calls get and remove_first, may share the buffer without a lock: wherever the handler interrupts, each call acts as one on a queue that loses and repeats nothing. Without the guard that is false: a put into a full or nearly full buffer during get makes two items vanish. count() interrupted by a put can answer with a huge number. With the roles exchanged it is false from the first item on: an item put by the main program and taken by the handler before put ends leaves the buffer counting as full of stale items.", "quantifier": "every power of two capacity, every index width, every start position, every history of calls and every placing of the handler's calls between the memory accesses of the main program", "why_tests_cant": "the failing windows are one instruction wide", "anchors": ["util/circular_buffer_opt.hh: CircularBufferOpt::put, get, remove_first, empty, count", "util/circular_buffer.hh: CircularBuffer"]}
{"id": "C148", "title": "An object pool shared with an interrupt handler", "statement": "A main program that creates objects may be interrupted anywhere by a handler that reads, writes and destroys live objects of the same pool: create answers with a slot that was free at one moment during the call, and with null only if none was. A main program that destroys an object may be interrupted by a handler doing anything else than destroying the same object. Two things are not safe: a handler that creates during create can be given the same slot, and an object destroyed by both is reported as destroyed to both.", "quantifier": "every pool size, content and state, every sequence of handler calls and every placing of them between the memory accesses of the interrupted call", "why_tests_cant": "the windows are one instruction wide and depend on which slots are free", "anchors": ["util/pool.hh: Pool::create, create_for_overwrite, destroy"]}
{"id": "C149", "title": "A ramp whose number of updates changes at run time", "statement": "In InterpParamVariable, set_new_value starts a straight line from the present value whose slope is fixed by the number of updates then in force, whatever happened before. Calls of set_num_updates in the middle of a ramp change only later ramps. After exactly that many calls of next the value is the target. It does not stop there: every further call moves it by the same step beyond the target. In single precision the value stays within a small bound of the line. With zero updates in force a new value makes the parameter infinite or not a number at the next update, and no later call of set_num_updates, set_new_value and next makes it finite again.", "quantifier": "every history of set_new_value, set_num_updates, next and stores to cur_val, every number of updates and every value", "why_tests_cant": "the effect of a call depends on the whole history before it, and a poisoned value shows only later", "anchors": ["util/interp_param.hh: InterpParamVariable"]}
{"id": "C150", "title": "A fixed vector shared with an interrupt handler", "statement": "When a main program calls a FixedVector and an interrupt handler that only looks (size, available, back, element access, iteration) runs at any points inside the call, every call that moves no element (push_back, pop_back, clear, resize, setting an element, inserting or erasing at the end) acts at a single moment: each look sees the vector before or after the call, in that order. Inserting or erasing before the end still does what it should and nothing is undefined; each look sees a list of the old or the new length made of old elements and the inserted one. What does not hold: a look during such an insertion can miss the last element and during such an erasure can see it twice; when the handler itself pushes or pops during a push or pop, a pushed element can be lost although both calls return true, an element can be popped twice, and the main program can read outside the array.", "quantifier": "every capacity and element type, every content, every call and every placement of any number of handler calls between the accesses of the interrupted call", "why_tests_cant": "the outcome depends on the instruction at which the interrupt arrives", "anchors": ["util/fixed_vector.hh: FixedVector"]}
{"id": "C151", "title": "Maps shared with an interrupt handler", "statement": "When a main program calls a SeqMap or SequentialMap and an interrupt handler that only looks up keys, lists or counts entries runs at any points inside the call, a call that neither brings in a key (except SeqMap insert) nor removes an entry (except the last one) acts at a single moment. During every call of SeqMap, and during m[k]=v, reading m[k] and insert of SequentialMap, keys that the call is not about and that it keeps are found with their value at every moment. What does not hold: while a new key is brought in, a key that was removed earlier can be found again with its old value, and the new key can be found with the value of the entry that was in its place; during SeqMap remove the default key is found with the removed value; during SequentialMap erase another key can be found with the value of the erased one.", "quantifier": "every key and value type, capacity and content, every call and every placement of any number of handler calls between the accesses of the interrupted call", "why_tests_cant": "the outcome depends on the instruction at which the interrupt arrives", "anchors": ["util/seq_map.hh: SeqMap", "util/sequential_map.hh: SequentialMap"]}
{"id": "C152", "title": "CircularBufferAccess is a delay line", "statement": "A CircularBufferAccess constructed with an initial offset D over a buffer of n elements, and then used only by read and write of blocks of any lengths in any order, delivers first the first D elements of the buffer and then everything written, in order, with nothing lost or doubled, as long as no read exceeds the elements waiting and no write the places free. When after every written block as many elements are read, the output is the input delayed by exactly D elements, whatever the block lengths. The limit is not checked: one element written too many makes the next read return the newest element instead of the oldest one.", "quantifier": "every element type, buffer, offset below the size and history of block reads and writes", "why_tests_cant": "the order of elements depends on the whole history and on every way blocks can straddle the end of the buffer", "anchors": ["util/circular_buffer_ext.hh: CircularBufferAccess, read, write"]}
{"id": "C153", "title": "A StaticString shared with an interrupt handler", "statement": "When a main program copies a text into a StaticString or clears it and an interrupt handler that only looks (length, available, text, comparison) runs at any points inside the call, and the last character of the array is NUL, then the text becomes the one asked for, nothing is undefined, the last character stays NUL and each look shows the characters stored so far followed by those the array held behind them. When the main program looks and the handler copies and clears, nothing is undefined for any terminated string and the text seen has at most the capacity, each character being the one at its place at some moment. What does not hold: a look can show a new text continued by the rest of a text overwritten long before; a string made by the default constructor on memory that was not zeroed has no terminator during its first copy, so that a look reads beyond the array; a look of the main program can show the first part of an old text and the rest of a new one.", "quantifier": "every capacity, array content, text and call and every placement of any number of handler calls between the accesses to the characters", "why_tests_cant": "the outcome depends on the instruction at which the interrupt arrives and on characters behind the terminator that no call shows", "anchors": ["util/static_string.hh: StaticString, copy, clear, length, operator=="]}
{"id": "C154", "title": "An interpolated parameter shared with an interrupt handler", "statement": "When a main program calls set_new_value of an InterpParamVariable (or InterpParam) and an interrupt handler calls next at any points inside the call, the call acts at a single moment if no next comes between its reading of the present value and its storing of the slope. In general the ramp that follows runs along the straight line from the value read to the target, shifted by one old step for each next in between, so that a parameter already in motion can end beside its target. When the main program calls next and the handler sets values and numbers of updates, the call acts at a single moment unless the handler comes between the reading of the slope and the storing of the value; then too the ramp ends beside the target by the old step. A value stored into cur_val by the handler during next is lost, and so is one of two steps made at the same time.", "quantifier": "every arithmetic for the single-moment claims and exact arithmetic for the line, every state, target and placement of any number of handler calls between the accesses of the interrupted call", "why_tests_cant": "the outcome depends on the instruction at which the interrupt arrives and shows only at the end of the ramp", "anchors": ["util/interp_param.hh: InterpParamVariable, InterpParam"]}
{"id": "C155", "title": "A referenced parameter shared with an interrupt handler", "statement": "When a main program polls a RefParameter (reads the value whenever isChanged says so) and an interrupt handler sets values at any points inside and between these calls, a final poll leaves the main program with the value held, provided nothing is set between the moment isChanged takes note of the value and the reading of it. When the main program sets values and the handler polls, every call acts at a single moment and the handler ends up with the value held, without any condition. Without the condition a change is missed for good: after a value set just before the reading and then set back, the main program keeps the wrong one.", "quantifier": "every history of polls and sets with handler calls at any points between the accesses of the interrupted call", "why_tests_cant": "the outcome depends on the instruction at which the interrupt arrives and nothing signals the missed change", "anchors": ["util/parameter.hh: RefParameter"]}
{"id": "C156", "title": "A CircularBufferAccess read and written on two sides of an interrupt", "statement": "When a main program reads (or writes) blocks of a CircularBufferAccess, forwards, in reverse or with a marker check, and an interrupt handler uses only the other position at any points inside the call, nothing is accessed out of bounds, the call's position and flag are those of the call made alone, and everything is as if its elements had been transferred one by one between the handler's calls. A read is exactly what it would be without interrupts if the handler writes only to cells that are not among those read. But whenever a block reaches the end of the buffer there is a moment at which rd_pos or wr_pos gives a position outside, and a handler that uses the same side at that moment accesses outside the buffer; and during every write wr_pos passes each element before it is stored.", "quantifier": "every size, element type, crossfade function, state with positions inside, block call and placement of any number of handler calls between its accesses", "why_tests_cant": "the outcome depends on the instruction at which the interrupt arrives", "anchors": ["util/circular_buffer_ext.hh: CircularBufferAccess"]}
{"id": "C157", "title": "Containers of elements that own something (removing releases violated)", "statement": "Whatever moving from an element leaves behind in it, FixedVector behaves as the bounded list of C13. But an element removed from a container stays in its storage and keeps what it owns alive: of elements erased from a FixedVector exactly those are released that a later element was moved over, so erasing the last element, pop_back, clear and shrinking release nothing, and of an erased range that is longer than what follows it the end stays; Pool::destroy releases nothing; what was put into a CircularBuffer or LockFreeFifoSpsc stays there after get, remove_first and reset until as many further elements were put as it has places (get_move excepted).", "quantifier": "every element type with any moved-from value, size, state and history", "why_tests_cant": "which elements stay depends on the position and on all later calls; nothing observable through the container shows it", "anchors": ["util/fixed_vector.hh: FixedVector", "util/pool.hh: Pool::destroy", "util/circular_buffer.hh: CircularBuffer", "util/lockfree_fifo_spsc.hh: LockFreeFifoSpsc"]}
{"id": "C158", "title": "DoubleBufferStream called from inside its hardware function", "statement": "When the function that DoubleBufferStream calls to start a transfer itself calls transmit or tx_done_callback of the same object before it returns, and the transfers started by those calls do so too, to any depth, the state and all results are those of the same calls made one after the other in the order in which they began: everything accepted is handed over once and in order and never while a transfer is running. In particular with hardware that reports its end before the function returns, every word that fits a buffer is handed over at once.", "quantifier": "every element type, size and history of calls with any tree of inner calls, hardware that accepts", "why_tests_cant": "the number and nesting of inner calls is unbounded", "anchors": ["util/doublebuf_stream.hh: DoubleBufferStream::transmit, tx_done_callback, start_tx"]}
{"id": "C159", "title": "A CircularStack shared with an interrupt handler", "statement": "If the handler only looks (back, size, empty, max_size), a main program that pushes, pops, looks and clears gets the answers of a plain bounded stack, nothing is undefined, and every look during a call is answered as before or as after that call, with two exceptions: while the element that fills the stack is pushed the handler can find the stack empty, and while an empty stack is cleared it can find elements in it. A handler that pushes, pops or clears can make pop_back, pop_back_or_zero and back of the main program read in front of the array; popping on both sides can leave a stack that seems to hold all but one of its places, and pushing on both sides can lose the main program's element and leave an old one on top.", "quantifier": "every element type, capacity, contents, history of calls and position of the interrupts", "why_tests_cant": "the outcome depends on the access at which the interrupt arrives", "anchors": ["util/circular_stack.hh: CircularStack"]}
{"id": "C160", "title": "set_read_offset while the producer puts", "statement": "If the consumer calls set_read_offset(k) only with k not above what num_filled() returns at the call, then under every schedule of the accesses of the two threads the history of all calls is that of one bounded queue in which the call drops all items present at one moment of it but the last k; only when the producer's counter has wrapped may it do nothing instead. The two threads never access the same slot. Moving back over items already read is not safe: for every capacity, a put during the call makes num_filled() exceed the capacity and later puts overwrite unread items, and a put begun before the call writes the very slot the next get reads. After the wrap, for every capacity from four up, the call can do nothing although it should drop an item.", "quantifier": "every element type, capacity, counter value, choice of calls and interleaving of single memory accesses", "why_tests_cant": "the outcome depends on the schedule and on the counter's distance from its wrap", "anchors": ["util/lockfree_fifo_spsc.hh: LockFreeFifoSpsc::set_read_offset, put", "util/lockfree_fifo_spsc_dyn.hh: LockFreeFifoSpscDyn::set_read_offset, put"]}
{"id": "C161", "title": "set_read_offset by a polling consumer under the C++ memory model", "statement": "A consumer that takes, and asks set_read_offset to keep, at most as many items as it was told are there (by num_filled(), or because it just kept them), against a producer that calls put at any time: with the memory orders as written every execution is free of data races and of accesses outside the buffer. set_read_offset(k) drops all but the last k of the items its load found and keeps all items put later, and those k items can then be taken without asking again, each get succeeding with the oldest item. It does nothing only when the producer's counter has wrapped. With a relaxed load, at every capacity above 1, or with a relaxed store or one item more than it was told, a data race is possible.", "quantifier": "every element type, capacity, counter value, interleaving and choice of visible values at every load", "why_tests_cant": "the visible values and the interleaving are chosen by the hardware", "anchors": ["util/lockfree_fifo_spsc.hh: LockFreeFifoSpsc::set_read_offset, num_filled, put, get", "util/lockfree_fifo_spsc_dyn.hh: LockFreeFifoSpscDyn::set_read_offset, num_filled, put, get"]}
{"id": "C162", "title": "Arguments that refer into the object itself", "statement": "raw(key, data) of the compact binary writer (and of the serializer's SpanWriter) may be given bytes of the very buffer it writes: if they lie entirely before the write position or start behind the new record's key and size fields, the record holds them as they were before the call and nothing else changes. If they start earlier and reach the write position, the data written repeats the record's own key and size bytes instead. copy() of a string given a view of part of its own text leaves exactly that part as its text. insert() and overwrite() of the sequential map given a reference to a value stored in it act as if given a copy, even when that value is the one evicted. printRaw of a ByteBlock given a pointer into its own data appends those bytes if they overfill the vector by at most one; otherwise it goes on reading storage that the vector has freed.", "quantifier": "every buffer, write position, key, offset and length; every string and part of it; every map state and stored value", "why_tests_cant": "whether source and destination overlap depends on positions and lengths, and the loops read each byte only when its turn comes", "anchors": ["util/compact_binary_writer.hh: CompactBinaryWriter::raw", "util/compact_binary_serializer.hh: SpanWriter::raw", "util/static_string.hh: StaticString::copy", "util/seq_map.hh: SeqMap::insert, overwrite", "util/byte_block.hh: ByteBlock::printRaw"]}
{"id": "C163", "title": "Wear leveling on storage that wears out", "statement": "On a block where some cells can no longer be written and some writes fail, every read in every history, restarts included, returns what the writes so far left: a write the storage kept is read back if its data validates; a write the storage did not keep, or whose data does not validate, leaves the data from before it, unless that write erased the block, in which case there is none. As long as an erase leaves at least one cell that can be written, no write is refused. A cell whose write failed is not tried again until the block has been erased. When no cell is left, a write returns false but has erased the block first: the data that could still be read before is gone, also after a restart.", "quantifier": "every storage with such cells, block size, initial contents, data type and history of writes, reads and restarts, for both classes", "why_tests_cant": "which cells wear out and when is not under the test's control and histories are unbounded", "anchors": ["util/wear_level.hh: WearLeveler, WearLevel"]}
{"id": "C164", "title": "Handing readings to FilteredInterpArray between threads under the C++ memory model", "statement": "One thread stores new readings and calls FilteredInterpArray::mark_new_data_ready while another calls add_new_readings again and again. If read_fn reads relaxed atomics, nothing is undefined, every reading taken is no older than what had been marked when the call found the mark, and no lane ever goes back to an older reading. Nothing marked is lost as long as no mark falls between the load of the flag and the store of false in add_new_readings (or if the two were one exchange): between two calls with no mark pending every lane was last given a reading at least as new as the last one marked. But as the code is written such a mark can be lost, from any state between two calls: all lanes keep an older reading and no later call takes the marked one (under sequential consistency this cannot happen, C111). If read_fn reads ordinary memory, a producer that writes only before its first mark is safe, and writing again a lane that has been read is a data race whenever it happens.", "quantifier": "every number of lanes, every interleaving of the two threads and every choice of visible values the memory model allows", "why_tests_cant": "the visible values are chosen by the hardware and the compiler", "anchors": ["util/filtered_interp_array.hh: FilteredInterpArray::mark_new_data_ready, add_new_readings"]}
{"id": "C165", "title": "Relaying a button from one toggler to another", "statement": "One toggler samples a button (register_state or edges from a debouncer), its events are moved to a second toggler with transfer_events, and the second is asked for presses and releases. If the level changes at most once between two transfers, the second toggler answers every question, in every history, as if it had sampled the button itself at the transfers. Otherwise, after any samples and a transfer, its level is that of the last sample, nothing is left pending at the first, a release among the samples is reported, and a press is reported only if there was no release among them. update_state in place of transfer_events reports a pending press again after every call.", "quantifier": "every history of samples, transfers and questions; every state of the two togglers and every list of samples", "why_tests_cant": "histories are unbounded and the number of samples between two transfers depends on timing", "anchors": ["util/debouncer.hh: Toggler::transfer_events, update_state, register_state, is_just_pressed, is_just_released", "util/debouncer_compact.hh: TogglerCompact::transfer_events, update_state"]}
{"id": "C166", "title": "OneShot through rate changes, stops and restarts", "statement": "In exact arithmetic, whatever calls came before start(width), and however set_update_rate_hz changes the rate afterwards, update() returns true exactly if less time than the width has passed since the start, counting for each update the time per update in force when it was called. Single precision gives the same answers if the rates are powers of two up to 2^A and the widths multiples of 2^-A, at most 2^24 of them. In single precision update() returns false before the first start, from a stop to the next start, and from the first false answer to the next start; set_update_rate_hz ignores rates that are zero, negative or NaN. The constructor does not: with a negative rate a pulse never ends, and with rate 0 every pulse lasts one update.", "quantifier": "all histories of start, update, stop and rate changes, all rates and widths", "why_tests_cant": "quantifies over all histories and over unbounded numbers of updates", "anchors": ["util/oscs.hh: OneShot"]}
