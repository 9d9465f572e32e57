{"id": "C01", "title": "UTF-8 round trip", "statement": "Writing any sequence of characters, each below 2^31, through the UTF-8 output iterator and reading the bytes back with the UTF-8 input iterator yields the same sequence and consumes exactly the bytes written.", "quantifier": "all sequences of 32-bit characters below 2^31, of any length", "why_tests_cant": "2^31 characters per position and unbounded sequences; a test samples a few encodings only", "anchors": ["utf8.h:Utf8Bytes", "utf8.h:Utf8SequenceBytes", "utf8.h:utf8in_iterator", "utf8.h:utf8out_iterator"]}
{"id": "C02", "title": "UTF-8 length functions agree with the encoder", "statement": "The two length formulas used for sizing (the portable bounds table and the x86 bit-scan formula) agree for every 32-bit value; for every character (a value below 2^31) they equal the number of bytes the encoder emits, and the leading byte alone tells the decoder the same length.", "quantifier": "all 32-bit values for the formulas, all 256 leading bytes, all characters below 2^31 and all arrays of them for the encoder (values above: C03)", "why_tests_cant": "2^32 inputs, two implementations selected at compile time", "anchors": ["utf8.h:Utf8Bytes", "utf8.h:Utf8SequenceBytes", "utf8.h:utf8out_iterator"]}
{"id": "C03", "title": "UTF-8 round trip for the whole character type", "statement": "Writing any wchar_t value through the UTF-8 output iterator and reading it back gives that value.", "quantifier": "all 32-bit character values", "why_tests_cant": "the failing values lie in the upper half of the range, outside Unicode, where nobody tests", "anchors": ["utf8.h:utf8out_iterator::operator="]}
{"id": "C04", "title": "String serialisation round trip", "statement": "Writing any string to a stream and reading it back from the written bytes gives an equal string and leaves the read position exactly after it.", "quantifier": "all strings, any bytes, length below 2^31", "why_tests_cant": "unbounded content and lengths crossing every UTF-8 length-prefix boundary", "anchors": ["ustring.cc:string::write", "ustring.cc:string::read", "ustring.cc:string::stream_size"]}
{"id": "C05", "title": "Reported stream size equals bytes written", "statement": "stream_size_of an object equals the number of bytes that writing it at an aligned position produces, for strings, memory blocks, and containers of integers or strings.", "quantifier": "all values of those types", "why_tests_cant": "sizing and writing are separate code; agreement must hold for all values or the buffer allocated from one overflows in the other", "anchors": ["ustring.cc:string::stream_size", "cmemlink.h:stream_size", "uctrstrm.h:container_stream_size", "strmsize.h:stream_size_of"]}
{"id": "C06", "title": "Container serialisation round trip", "statement": "Writing any container of integers (any power-of-two width) or strings at a 4-aligned position and reading it back into any container gives an equal container and leaves the stream 4-aligned just after it.", "quantifier": "all element sequences, all element widths 1,2,4,8", "why_tests_cant": "padding depends on the position, the width and the count; all combinations are needed", "anchors": ["uctrstrm.h:container_read", "uctrstrm.h:container_write", "uctrstrm.h:nr_container_read", "uctrstrm.h:nr_container_write"]}
{"id": "C07", "title": "Memory streams never leave their buffer", "statement": "For every sequence of bounds-checked operations on an input or output memory stream, no byte outside the buffer is read or written and the position stays within the buffer; a request that does not fit transfers nothing, sets the fail bit and, when masked, throws.", "quantifier": "all buffers and all histories of operations", "why_tests_cant": "over all operation histories, sizes and exception masks", "anchors": ["mistream.cc:istream::read", "mistream.h:istream::verify_remaining", "mistream.h:ostream", "uios.h:ios_base::set_and_throw"]}
{"id": "C08", "title": "Reading a zero-terminated string is bounded", "statement": "Reading a zero-terminated string from a memory stream never moves the position past the end of the stream.", "quantifier": "all buffers and positions, including ones with no terminator", "why_tests_cant": "the failing case needs an unterminated tail at the very end of a buffer", "anchors": ["mistream.cc:istream::read_strz"]}
{"id": "C09", "title": "lower_bound / upper_bound / equal_range / binary_search", "statement": "On every sorted range lower_bound returns the first position whose element is not less than the value, upper_bound the first position whose element is greater, equal_range the pair of both, and binary_search is true exactly if an equivalent element is present; no element outside the range is read.", "quantifier": "all sorted ranges over any total order, all values", "why_tests_cant": "off-by-one faults show up at particular lengths and positions only; all are needed", "anchors": ["ualgo.h:lower_bound", "ualgo.h:upper_bound", "ualgo.h:equal_range", "ualgo.h:binary_search", "upredalgo.h:lower_bound", "upredalgo.h:upper_bound"]}
{"id": "C10", "title": "binary_search with a comparator", "statement": "binary_search with a comparator is true exactly if an element equivalent to the value is present.", "quantifier": "all sorted ranges, comparators and values", "why_tests_cant": "a range containing a larger element but no equal one is needed", "anchors": ["upredalgo.h:binary_search"]}
{"id": "C11", "title": "set behaves as a mathematical set", "statement": "After every history of insertions, erasures and clears, a set holds exactly the inserted and not erased values, once each, in ascending order; find and count answer membership, and insert reports the position of the value.", "quantifier": "all operation histories over any element type with a strict weak order whose == holds exactly between equivalent elements", "why_tests_cant": "unbounded histories", "anchors": ["uset.h:set", "ualgo.h:lower_bound", "uvector.h:insert", "uvector.h:erase"]}
{"id": "C12", "title": "multiset behaves as a bag", "statement": "After every history of insertions and erasures a multiset holds every value with its exact multiplicity, in ascending order, equivalent values in the order of their insertion; count returns the multiplicity, erasing a value removes all of its occurrences and nothing else.", "quantifier": "all operation histories over any element type with a strict weak order", "why_tests_cant": "unbounded histories with duplicates", "anchors": ["umultiset.h:multiset", "ualgo.h:upper_bound", "ualgo.h:equal_range"]}
{"id": "C13", "title": "map behaves as a finite map", "statement": "After every history of inserts, subscript assignments and erasures, lookup in a map returns the value a finite map would hold, keys are unique and ascending, insert never overwrites an existing value and subscript assignment always does, keeping the stored key.", "quantifier": "all operation histories, any key type with a strict weak order whose == holds exactly between equivalent keys; histories that insert no more than 2^31 bytes of pairs in total (beyond that see C35)", "why_tests_cant": "unbounded histories", "anchors": ["umap.h:map"]}
{"id": "C14", "title": "multimap keeps all pairs", "statement": "After every history of inserts and erasures a multimap holds for each key exactly the values inserted since that key was last erased, in insertion order, keys ascending; count and equal_range report exactly them.", "quantifier": "all operation histories, any key type with a strict weak order", "why_tests_cant": "unbounded histories with duplicate keys", "anchors": ["umultimap.h:multimap"]}
{"id": "C15", "title": "Heap algorithms", "statement": "make_heap yields a heap with the same elements; push_heap extends a heap by the last element; pop_heap moves a largest element to the end and leaves a heap before it; sort_heap turns a heap into an ascending sequence; is_heap is true exactly for heaps.", "quantifier": "all arrays and all strict weak orders", "why_tests_cant": "all sizes and shapes of the implicit tree", "anchors": ["uheap.h:is_heap", "uheap.h:trickle_down_heap", "uheap.h:make_heap", "uheap.h:push_heap", "uheap.h:pop_heap", "uheap.h:sort_heap"]}
{"id": "C16", "title": "priority_queue returns the largest element", "statement": "For every history of pushes and pops with the default comparator, top is a largest of the elements in the queue and pop removes exactly one such element.", "quantifier": "all operation histories", "why_tests_cant": "unbounded histories", "anchors": ["uheap.h:priority_queue"]}
{"id": "C17", "title": "priority_queue honours its comparator", "statement": "For every comparator and every history, top is a largest element with respect to that comparator.", "quantifier": "all comparators and histories", "why_tests_cant": "needs a comparator other than less and a history with pops", "anchors": ["uheap.h:priority_queue::pop"]}
{"id": "C18", "title": "stable_sort sorts stably", "statement": "stable_sort permutes the range into ascending order and keeps equivalent elements in their original order.", "quantifier": "all ranges of iterators other than pointers (for pointers see C87 and C88), all strict weak orders", "why_tests_cant": "all inputs; stability is invisible with distinct keys", "anchors": ["ualgo.h:stable_sort", "ualgo.h:lower_bound", "ualgo.h:rotate"]}
{"id": "C19", "title": "stable_partition", "statement": "stable_partition places all elements satisfying the predicate first, keeps relative order inside both groups and returns the boundary.", "quantifier": "all ranges and predicates (iterators other than pointers; for pointers see C87 and C88)", "why_tests_cant": "recursion over halves and rotations; all sizes", "anchors": ["upredalgo.h:stable_partition", "upredalgo.h:partition"]}
{"id": "C20", "title": "rotate and reverse", "statement": "reverse reverses the range; rotate moves the second part in front of the first, preserving both orders.", "quantifier": "all ranges and split points", "why_tests_cant": "all lengths and split points", "anchors": ["ualgo.h:rotate", "ualgo.h:reverse", "ualgo.h:rotate_copy", "ualgo.h:reverse_copy"]}
{"id": "C21", "title": "Byte block moves are correct at every address", "statement": "The byte-block primitives copy, backward copy and rotate give the result of the plain loop for every length and every address alignment and touch no byte outside the given ranges.", "quantifier": "all lengths, all source and destination addresses", "why_tests_cant": "behaviour depends on address alignment modulo 4/16 and tail lengths that a test allocation never has", "anchors": ["ualgobase.cc:copy_n_fast", "ualgobase.cc:copy_backward_fast", "ualgobase.cc:rotate_fast", "ualgobase.cc:fill_n8_fast"]}
{"id": "C22", "title": "merge and inplace_merge", "statement": "merge and inplace_merge of two sorted ranges give a sorted sequence with exactly the elements of both.", "quantifier": "all pairs of sorted ranges", "why_tests_cant": "all interleavings of two ranges", "anchors": ["ualgo.h:merge", "ualgo.h:inplace_merge"]}
{"id": "C23", "title": "merge is stable", "statement": "merge keeps, among equivalent elements, those of the first range before those of the second.", "quantifier": "all pairs of sorted ranges", "why_tests_cant": "needs distinguishable equivalent elements", "anchors": ["ualgo.h:merge"]}
{"id": "C24", "title": "Sorted set operations", "statement": "set_union, set_intersection, set_difference and set_symmetric_difference of sorted ranges give sorted output in which each value occurs max(n,m), min(n,m), max(n-m,0) and |n-m| times; includes is true exactly if every value occurs at least as often in the first range.", "quantifier": "all pairs of sorted ranges with duplicates", "why_tests_cant": "multiplicity behaviour over all duplicates patterns", "anchors": ["upredalgo.h:set_union", "upredalgo.h:set_intersection", "upredalgo.h:set_difference", "upredalgo.h:set_symmetric_difference", "upredalgo.h:includes"]}
{"id": "C25", "title": "Permutation generation", "statement": "next_permutation turns a sequence into the lexicographically next permutation and returns true, or, if there is none, into the first and returns false; prev_permutation is the mirror image.", "quantifier": "all sequences over any total order, with duplicates", "why_tests_cant": "n! orders and duplicates; 'nothing lies strictly between' is a universal claim", "anchors": ["upredalgo.h:next_permutation", "upredalgo.h:prev_permutation"]}
{"id": "C26", "title": "unique, remove and copy filters", "statement": "unique keeps the first of every run of equal elements; remove and remove_if keep exactly the elements not selected, in order; copy_if keeps exactly the selected ones; replace changes exactly the selected ones.", "quantifier": "all ranges, values and predicates", "why_tests_cant": "all inputs", "anchors": ["ualgo.h:unique_copy", "ualgo.h:unique", "ualgo.h:remove", "ualgo.h:remove_copy", "upredalgo.h:remove_copy_if", "upredalgo.h:copy_if", "upredalgo.h:unique_copy"]}
{"id": "C27", "title": "Searching ranges", "statement": "find, find_if, adjacent_find, mismatch, search, search_n and find_first_of return the first position at which their condition holds, or the end if there is none.", "quantifier": "all ranges and patterns", "why_tests_cant": "'first' and 'none' are universal claims over positions", "anchors": ["ualgo.h:find", "ualgo.h:adjacent_find", "ualgo.h:mismatch", "ualgo.h:equal", "upredalgo.h:search", "upredalgo.h:search_n", "upredalgo.h:find_first_of"]}
{"id": "C28", "title": "find_end finds the last occurrence", "statement": "find_end returns the start of the last occurrence of the second range in the first, or the end if there is none.", "quantifier": "all ranges and patterns", "why_tests_cant": "fails only if the sole occurrence is at the very beginning", "anchors": ["upredalgo.h:find_end"]}
{"id": "C29", "title": "Lexicographic comparison is a total order", "statement": "lexicographical_compare is the lexicographic strict order; for strings, compare is zero exactly on equal contents, antisymmetric and transitive, and ==, <, > agree with it.", "quantifier": "all pairs and triples of sequences", "why_tests_cant": "order laws quantify over triples", "anchors": ["upredalgo.h:lexicographical_compare", "ustring.cc:string::compare", "ustring.h:operator<", "ustring.h:operator=="]}
{"id": "C30", "title": "queue is first-in first-out", "statement": "For every history of pushes and pops a queue delivers the values in insertion order and reports the number of values not yet delivered.", "quantifier": "all operation histories", "why_tests_cant": "compaction happens at history-dependent moments", "anchors": ["uqueue.h:queue"]}
{"id": "C31", "title": "Copying a queue copies its content", "statement": "A copy of a queue delivers the same values as the original.", "quantifier": "all histories before the copy", "why_tests_cant": "needs a copy between a pop and the next compaction", "anchors": ["uqueue.h:queue(const queue&)"]}
{"id": "C32", "title": "bitset is an array of bits", "statement": "After every history of set, reset, flip and assignment of bits, reading a bit gives the value last written and other bits are unchanged; and, or, xor and not act bit by bit; conversion to a string and back is the identity.", "quantifier": "all sizes, histories and positions", "why_tests_cant": "word boundaries and all positions", "anchors": ["ubitset.h:bitset", "ubitset.cc:convert_to_bitstring", "ubitset.cc:convert_from_bitstring"]}
{"id": "C33", "title": "bitset::count counts the bits of the bitset", "statement": "count is the number of set bits at positions below the size; any and none agree with it.", "quantifier": "all sizes and histories", "why_tests_cant": "fails only for sizes that are not word multiples, after set() or flip()", "anchors": ["ubitset.h:bitset::count", "ubitset.h:bitset::set", "ubitset.h:bitset::flip"]}
{"id": "C34", "title": "Memory block storage invariant", "statement": "After every history of operations on a memory block its size never exceeds its allocated storage, a block never frees or writes memory it is only linked to, and the content is what the operations say.", "quantifier": "all operation histories with sizes below 2^31", "why_tests_cant": "unbounded histories; ownership transfer between linked and owned states", "anchors": ["memblock.cc:memblock", "memlink.cc:memlink", "cmemlink.cc:cmemlink"]}
{"id": "C35", "title": "Growing a block always yields the requested capacity", "statement": "After reserve(n) succeeds the capacity is at least n, whatever n is.", "quantifier": "all sizes representable in size_t", "why_tests_cant": "only fails at sizes no test allocates", "anchors": ["memblock.cc:memblock::reserve", "uutility.h:NextPow2"]}
{"id": "C36", "title": "Strings are always zero terminated", "statement": "After every history of modifying operations an owned string has a zero byte at position size(), inside its allocation.", "quantifier": "all operation histories", "why_tests_cant": "unbounded histories", "anchors": ["ustring.cc:string", "ustring.h:string"]}
{"id": "C37", "title": "String editing functions", "statement": "assign, append, insert, erase, replace, resize, push_back, pop_back and substr give the content defined by the corresponding sequence operation, with positions beyond the end clamped.", "quantifier": "all strings, positions and lengths, including npos", "why_tests_cant": "all positions and lengths, including beyond the end", "anchors": ["ustring.cc:string::assign", "ustring.cc:string::append", "ustring.cc:string::insert", "ustring.cc:string::erase", "ustring.cc:string::replace", "ustring.cc:string::resize"]}
{"id": "C38", "title": "Forward searching in strings", "statement": "find, find_first_of and find_first_not_of return the smallest position at or after the start at which the pattern, a listed byte, or an unlisted byte occurs, or npos if there is none.", "quantifier": "all strings, patterns and start positions", "why_tests_cant": "skip search must not miss overlapping occurrences; universal over texts and patterns", "anchors": ["ustring.cc:string::find", "ustring.cc:string::find_first_of", "ustring.cc:string::find_first_not_of"]}
{"id": "C39", "title": "Backward searching in strings", "statement": "rfind, find_last_of and find_last_not_of return the largest position at or before the start at which the pattern or byte occurs, or npos if there is none, without reading outside the string.", "quantifier": "all strings, patterns and start positions", "why_tests_cant": "fails for occurrences at the very beginning and for empty strings only", "anchors": ["ustring.cc:string::rfind", "ustring.cc:string::find_last_of", "ustring.cc:string::find_last_not_of"]}
{"id": "C40", "title": "Numeric algorithms", "statement": "accumulate, inner_product, partial_sum and iota compute the sums they document, and power(x,n) is x multiplied n times.", "quantifier": "all ranges, all exponents", "why_tests_cant": "all inputs", "anchors": ["unumeric.h:accumulate", "unumeric.h:inner_product", "unumeric.h:partial_sum", "unumeric.h:power"]}
{"id": "C41", "title": "adjacent_difference", "statement": "adjacent_difference terminates and produces the differences of neighbours.", "quantifier": "all ranges", "why_tests_cant": "non-termination on every range of two or more elements", "anchors": ["unumeric.h:adjacent_difference"]}
{"id": "C42", "title": "power with a custom operation", "statement": "power(x,n,op) applies op to n copies of x for every associative op.", "quantifier": "all exponents and associative operations", "why_tests_cant": "multiplication hides the fault", "anchors": ["unumeric.h:power"]}
{"id": "C43", "title": "Integer utilities", "statement": "Align and AlignDown give the nearest multiple of the grain in their direction, DivRU is the ceiling quotient, gcd and lcm are the greatest common divisor and least common multiple, NextPow2 gives the least power of two that is at least its argument, FirstBit is the index of the highest set bit, byte swapping and rotations are involutions or mutual inverses, and pack_type fills the wide value with copies of the small one.", "quantifier": "all values of the integer type", "why_tests_cant": "2^32 and more inputs, faults at extremes", "anchors": ["uutility.h:Align", "uutility.h:DivRU", "uutility.h:gcd", "uutility.h:lcm", "uutility.h:NextPow2", "uutility.h:FirstBit", "uutility.h:Rol", "uutility.h:bswap", "uutility.h:pack_type"]}
{"id": "C44", "title": "Bit counting", "statement": "popcount of a 32 or 64 bit word is the number of its one bits.", "quantifier": "all 2^32 and 2^64 words", "why_tests_cant": "domain too large to enumerate", "anchors": ["ualgobase.cc:popcount"]}
{"id": "C45", "title": "Rational arithmetic", "statement": "ratio normalises to lowest terms with positive denominator; sum, difference, product, quotient and comparisons of ratios agree with rational numbers.", "quantifier": "all numerators and non-zero denominators whose intermediate products fit", "why_tests_cant": "all pairs", "anchors": ["uratio.h:ratio", "uratio.h:ratio_add", "uratio.h:ratio_less"]}
{"id": "C46", "title": "Matrix algebra", "statement": "Transposing swaps indices and twice is the identity; multiplying by the identity is the identity; matrix product computes the sum of products, and is associative; load_identity puts ones exactly on the diagonal.", "quantifier": "all square dimensions, all entries", "why_tests_cant": "all dimensions and entries", "anchors": ["umatrix.h:matrix", "ulaalgo.h:load_identity", "ulaalgo.h:operator*", "ulaalgo.h:transpose"]}
{"id": "C47", "title": "shared_ptr lifetime", "statement": "For every history of creating, copying, moving, swapping, resetting and destroying shared pointers, the object is destroyed exactly when its last owner goes away, never twice, and use_count is the number of owners.", "quantifier": "all histories over any number of pointers and objects", "why_tests_cant": "unbounded histories of aliasing pointers", "anchors": ["umemory.h:shared_ptr"]}
{"id": "C48", "title": "Unique ownership", "statement": "For every history over unique_ptr, auto_ptr and unique_resource, every object has at most one owner and is released exactly once, or exactly zero times if explicitly released.", "quantifier": "all histories", "why_tests_cant": "unbounded histories with moves, resets and self-assignment", "anchors": ["umemory.h:unique_ptr", "umemory.h:auto_ptr", "umemory.h:unique_resource", "umemory.h:scope_exit"]}
{"id": "C49", "title": "File reads and writes are complete in spite of partial transfers", "statement": "For every sequence of results the operating system may return (short transfers, interruptions, would-block), fstream::write and fstream::read transfer the bytes in order without loss or duplication and report completion only if every byte was transferred.", "quantifier": "all sequences of system call results, all buffer sizes", "why_tests_cant": "schedules of short transfers and signals are not reproducible in tests", "anchors": ["fstream.cc:fstream::write", "fstream.cc:fstream::read", "fstream.cc:fstream::readsome"]}
{"id": "C50", "title": "Buffered output preserves the byte stream", "statement": "Whatever sequence of writes and flushes is issued and however the file accepts partial writes, the bytes written to the file followed by the bytes still buffered are the bytes issued, in order.", "quantifier": "all histories, all partial write schedules", "why_tests_cant": "schedule dependent", "anchors": ["ofstream.cc:ofstream::overflow", "ofstream.cc:ofstream::flush", "sostream.cc:ostringstream::write"]}
{"id": "C51", "title": "ostringstream appends exactly what is written", "statement": "Writing any sequence of byte blocks to an ostringstream, across any number of buffer growths, yields their concatenation.", "quantifier": "all sequences of blocks and initial capacities", "why_tests_cant": "growth moments depend on sizes", "anchors": ["sostream.cc:ostringstream::write", "sostream.cc:ostringstream::overflow"]}
{"id": "C52", "title": "Format width is passed on", "statement": "The width or precision set on a stream appears as the same decimal number in the generated format.", "quantifier": "all widths and precisions", "why_tests_cant": "wrong only for multi-digit values", "anchors": ["sostream.cc:ostringstream::encode_dec", "sostream.cc:ostringstream::fmtstring"]}
{"id": "C53", "title": "istringstream line and word reading", "statement": "getline returns the bytes up to the delimiter and consumes the delimiter; words are split at delimiters; get reads at most the number of bytes asked.", "quantifier": "all texts and delimiters", "why_tests_cant": "all texts", "anchors": ["sistream.cc:istringstream::getline", "sistream.cc:istringstream::iread"]}
{"id": "C54", "title": "vector behaves as a sequence", "statement": "After every history of push_back, pop_back, insert, erase, resize, assign and clear, a vector holds the elements the same operations on a mathematical sequence give; capacity never drops below size.", "quantifier": "all operation histories", "why_tests_cant": "unbounded histories across reallocations", "anchors": ["uvector.h:vector"]}
{"id": "C55", "title": "list operations", "statement": "list push_front, pop_front, remove, unique, merge, splice and reverse act as the corresponding sequence operations; merge of sorted lists is sorted with the elements of both.", "quantifier": "all lists", "why_tests_cant": "all lists and positions", "anchors": ["ulist.h:list"]}
{"id": "C56", "title": "Equality of linked memory", "statement": "Two memory links compare equal exactly if sizes and bytes agree; write then read of a block gives an equal block.", "quantifier": "all blocks", "why_tests_cant": "all contents and sizes, including padding", "anchors": ["cmemlink.cc:cmemlink::operator==", "cmemlink.cc:cmemlink::write", "memlink.cc:memlink::read", "memblock.cc:memblock::read"]}
{"id": "C57", "title": "Editing a string does not modify memory it is only linked to", "statement": "Modifying a string that was created from a character literal or by linking never changes the linked memory.", "quantifier": "all editing operations and arguments", "why_tests_cant": "needs specific lengths: the fault is silent when the memory is writable", "anchors": ["ustring.cc:string::replace", "memblock.cc:memblock::copy_link"]}
{"id": "C58", "title": "Passing a vector one of its own elements", "statement": "push_back(v[i]) appends and insert(pos,v[i]) inserts the value v[i] had before the call.", "quantifier": "all vectors, positions, elements and capacities", "why_tests_cant": "depends on reallocation and on the relative position of the element", "anchors": ["uvector.h:push_back", "uvector.h:insert"]}
{"id": "C59", "title": "Memory blocks neither leak nor free twice", "statement": "If link and manage are only called on a memory block that owns nothing, then after any history and the destructors every block of memory allocated is freed exactly once.", "quantifier": "all histories over any number of blocks, including copies, moves, swaps and copy-on-write", "why_tests_cant": "unbounded histories; ownership moves between blocks", "anchors": ["memblock.cc:memblock::reserve", "memblock.cc:memblock::deallocate", "memblock.cc:memblock::unlink", "memblock.h:swap"]}
{"id": "C60", "title": "Character counts and positions in UTF-8 strings", "statement": "For a string holding the UTF-8 encoding of any character sequence, length() is the number of characters and wiat(i) is the position at which character i starts.", "quantifier": "all character sequences below 2^31 per character, all i up to the length", "why_tests_cant": "ranges over unboundedly many strings and all characters; iterators start on the last byte of a character, so errors only show for particular mixes of lengths", "anchors": ["ustring.h: length", "ustring.cc: wiat", "utf8.h: utf8in_iterator::operator-, base"]}
{"id": "C61", "title": "Nested containers and maps survive serialisation", "statement": "For every type built from integers, strings, pairs, tuples, arrays and containers, writing a value into a buffer of stream_size bytes succeeds, and reading those bytes back gives an equal value.", "quantifier": "all such types, nested to any depth, and all values", "why_tests_cant": "unboundedly many types; the failures need particular alignments of particular element types", "anchors": ["uspecial.h:operator<<(pair)", "uspecial.h:operator>>(pair)", "uspecial.h:stream_size_of(pair)", "uctrstrm.h:container_read", "uctrstrm.h:container_write", "uctrstrm.h:container_stream_size", "strmsize.h:stream_align_of"]}
{"id": "C62", "title": "Reading a string from untrusted bytes is safe", "statement": "Reading a string from a memory stream with any content either gives a terminated string made of bytes of the stream just before the new position, or reports stream_bounds; it never has undefined behaviour.", "quantifier": "all stream contents, positions and previous contents of the string", "why_tests_cant": "all byte sequences, including malformed length prefixes", "anchors": ["ustring.cc:string::read", "uutf8.h:Utf8SequenceBytes", "uutf8.h:utf8in_iterator", "mistream.h:istream::verify_remaining"]}
{"id": "C63", "title": "bitset equality", "statement": "Two bitsets compare equal exactly if all their bits agree.", "quantifier": "all sizes, all histories", "why_tests_cant": "depends on bits no operation can read, left by earlier operations", "anchors": ["ubitset.h:bitset::operator==", "ubitset.h:bitset::set", "ubitset.h:bitset::flip"]}
{"id": "C64", "title": "bitset ranges", "statement": "at (first, last) is the number whose bits are those of the range; after set (first, last, v) it is v and the other bits are unchanged.", "quantifier": "all sizes, ranges within a word, values and histories", "why_tests_cant": "all positions and earlier contents", "anchors": ["ubitset.h:bitset::set", "ubitset.h:bitset::at"]}
{"id": "C65", "title": "stack is LIFO", "statement": "For every history of push, pop, top, size and empty, a stack returns what the last-in first-out sequence of the history returns, without undefined behaviour (pop and top of an empty stack excluded).", "quantifier": "all element sizes and histories", "why_tests_cant": "every history, every growth of the underlying vector", "anchors": ["ustack.h:stack"]}
{"id": "C66", "title": "queue retention", "statement": "A queue keeps at most as many popped but not yet destroyed elements as it has live ones.", "quantifier": "all histories", "why_tests_cant": "depends on how pushes and pops interleave over all histories", "anchors": ["uqueue.h:queue::pop"]}
{"id": "C67", "title": "queue equality", "statement": "Two queues compare equal exactly if they would deliver the same sequence of elements.", "quantifier": "all pairs of histories", "why_tests_cant": "two queues with the same contents can have different pasts", "anchors": ["uqueue.h:queue::operator=="]}
{"id": "C68", "title": "vector equality", "statement": "Two vectors (lists, sets, maps, stacks) compare equal exactly if they have the same number of elements and the elements are equal pairwise.", "quantifier": "all element types and contents", "why_tests_cant": "depends on the representation of the elements, not only on their values", "anchors": ["uvector.h:vector::operator==", "cmemlink.h:cmemlink::operator=="]}
{"id": "C69", "title": "tuple and array operations", "statement": "Arithmetic on tuples and arrays is done element by element; a tuple made from fewer values repeats the last (from an initialiser list: T()); == is equality of all elements, < is the lexicographic order; swap exchanges the contents; operations with an initialiser list use only the elements of the list.", "quantifier": "all sizes, element types and values", "why_tests_cant": "all sizes and values", "anchors": ["utuple.h:tuple", "uarray.h:array"]}
{"id": "C70", "title": "packed operations", "statement": "The packed operations padd, psub, pand, por, pxor, psubs, padds, pmin, pmax, pavg replace each destination element by the operation (modular, saturating, minimum, maximum, average rounded up) on the corresponding elements; psqrt, precip and the other packed operations of one operand replace each element by the function of it; the specialised (MMX) and the generic versions agree.", "quantifier": "all sizes and element values", "why_tests_cant": "all values, including overflow and sign combinations, for each specialisation", "anchors": ["simd.h:packop", "simd.h:MMX_PKOP2_SPEC", "simd.h:fpadds", "simd.h:fpsubs", "simd.h:fpavg"]}
{"id": "C71", "title": "shared_ptr counting under threads", "statement": "When several threads copy and drop shared pointers to one object, in every interleaving the object is deleted exactly once, after the last owner is gone, and no thread touches the count after that.", "quantifier": "all numbers of threads and pointers, all schedules", "why_tests_cant": "the outcome depends on the interleaving; the failing ones are rare", "anchors": ["umemory.h:shared_ptr::reset", "uatomic.h:atomic::operator--", "uatomic.h:atomic::operator T"]}
{"id": "C72", "title": "flush() delivers, or reports the error", "statement": "When flush() of an output file stream returns, every byte issued before is in the file; when the file fails, flush() ends with the stream marked as failed and without using more memory.", "quantifier": "all histories, all results of the system", "why_tests_cant": "needs failing files at every point of the history", "anchors": ["ofstream.cc:ofstream::flush", "ofstream.cc:ofstream::overflow", "sostream.cc:ostringstream::overflow"]}
{"id": "C73", "title": "End of file is reported only at the end", "statement": "fstream::read and readsome set eofbit only when the file has no more bytes.", "quantifier": "all file contents, all sizes, all schedules of short reads and interruptions", "why_tests_cant": "schedules and sizes are unbounded", "anchors": ["fstream.cc:fstream::read", "fstream.cc:fstream::readsome"]}
{"id": "C74", "title": "Single characters of a text stream", "statement": "get() returns the next character or EOF at the end; peek() returns it without moving; ungetc() undoes get(); ignore(n,d) takes at most n characters, through d, and gcount() is their number; reading a bool takes exactly the word true or false.", "quantifier": "all texts, all positions, all n and d", "why_tests_cant": "texts and positions are unbounded; the end of the text is a boundary for each operation", "anchors": ["sistream.h:istringstream::get", "sistream.h:istringstream::peek", "sistream.cc:istringstream::ignore", "sistream.cc:istringstream::iread(bool&)", "mistream.h:istream::ungetc"]}
{"id": "C75", "title": "Integers written as text are read back", "statement": "Reading the decimal notations of integers of the variable's type, separated by delimiters, gives these integers, and text that is not a number is reported; only the text of the stream is looked at.", "quantifier": "all sequences of integers, all types, all delimiters", "why_tests_cant": "all integers and all texts", "anchors": ["sistream.cc:istringstream::read_number", "sistream.h:istringstream::iread"]}
{"id": "C76", "title": "ifstream reads the content of the file", "statement": "However the operating system splits the content into portions and whatever the buffer size, reading lines, words, characters and numbers from a file gives the same as reading them from its content in memory.", "quantifier": "all contents, all buffer sizes, all schedules of short and interrupted reads, all sequences of requests", "why_tests_cant": "the portions a read delivers are decided by the operating system", "anchors": ["ofstream.cc:ifstream::underflow", "sistream.cc:istringstream::getline", "sistream.cc:istringstream::read"]}
{"id": "C77", "title": "Durations convert exactly or truncate towards zero", "statement": "duration_cast gives the number of whole ticks of the target unit in the duration, for every representable result; converting to a finer unit and back is the identity; casts preserve order; the implicit conversion exists exactly when the target unit divides the source unit, and is exact.", "quantifier": "all periods (positive fractions), all 64-bit counts", "why_tests_cant": "all counts and all pairs of units, including those where intermediate products overflow", "anchors": ["uchrono.h:duration_cast", "uchrono.h:duration", "uratio.h:ratio_divide"]}
{"id": "C78", "title": "High resolution times add, subtract and compare", "statement": "hrtime_t values with a proper nanosecond part add, subtract, multiply by a non-negative number, decrement and compare as the nanosecond counts they stand for, and results have a proper nanosecond part again; an integer number of nanoseconds survives conversion to hrtime_t and back.", "quantifier": "all times within +-2^62 seconds, all factors and divisors whose result is representable", "why_tests_cant": "carries and borrows at every boundary value", "anchors": ["uchrono.h:hrtime_t"]}
{"id": "C79", "title": "Clock readings convert to integer durations", "statement": "Casting a timespec-based time to nanoseconds, microseconds, milliseconds, seconds or multiples of a second rounds down to whole ticks, so that clocks keep their order; casting whole seconds to a timespec-based time is exact.", "quantifier": "all times, all units that divide the second or are a whole number of seconds", "why_tests_cant": "all times and units", "anchors": ["uchrono.h:__duration_cast_impl", "uchrono.h:steady_clock::now", "uchrono.h:time_point_cast"]}
{"id": "C80", "title": "High resolution time: increment, division, negation", "statement": "++ gives the time one nanosecond later, / the quotient and unary - the negated time, all with a proper nanosecond part; * is defined whenever its result is representable.", "quantifier": "all times, all divisors", "why_tests_cant": "carries at every boundary value, all divisors", "anchors": ["uchrono.h:hrtime_t"]}
{"id": "C81", "title": "Any integer duration converts to a timespec-based one", "statement": "Casting an integer duration of any unit to a timespec-based duration gives the same time, and casting back to any unit gives the whole ticks.", "quantifier": "all units, all counts", "why_tests_cant": "all times and units", "anchors": ["uchrono.h:__duration_cast_impl", "uchrono.h:time_point_cast"]}
{"id": "C82", "title": "Walking through adapted iterators", "statement": "From rbegin to rend every element is seen once, in the reverse order; rit[n], *rit, ++, --, + n, - n, < and == of a reverse iterator agree with its position in the reversed sequence; copying through move iterators yields the sequence; indexv_to_iteratorv turns every index into the iterator at that index.", "quantifier": "all sequences, all positions and steps that stay in them, all index containers", "why_tests_cant": "unbounded sequences and all positions; reverse iterators point one past what they read, so off-by-one errors show only at the ends", "anchors": ["uiterator.h:reverse_iterator", "uiterator.h:move_iterator", "uiterator.h:index_iterate", "uiterator.h:indexv_to_iteratorv"]}
{"id": "C83", "title": "Differences and offsets of adapted iterators", "statement": "i - j of two reverse, move or index iterators is the number of steps from j to i, so algorithms that take the distance of their arguments work over them; it + n of a move iterator is n steps forward.", "quantifier": "all pairs of positions, all sequences", "why_tests_cant": "the operators compile and are harmless for equal positions; which algorithms are affected depends on whether they subtract iterators", "anchors": ["uiterator.h:reverse_iterator::operator-", "uiterator.h:move_iterator::operator+", "uiterator.h:index_iterate::operator-"]}
{"id": "C84", "title": "Insert iterators", "statement": "Copying elements through back_inserter appends them in order; through front_inserter puts them in front in reverse order; through inserter(v, pos) puts them before pos in order. The other elements keep their order.", "quantifier": "all vectors produced by any sequence of operations, all positions, all copied sequences within 2^31 bytes", "why_tests_cant": "the vector reallocates at history-dependent points while the iterator holds a position into it", "anchors": ["uiterator.h:back_insert_iterator", "uiterator.h:front_insert_iterator", "uiterator.h:insert_iterator"]}
{"id": "C85", "title": "sort sorts", "statement": "sort leaves a permutation of the range in ascending order of the comparison class and changes nothing outside the range; after nth_element nothing before the position is greater and nothing after it less than the element there.", "quantifier": "all ranges, all strict weak orders given by a default constructed comparison object, all qsort functions with the ISO C contract", "why_tests_cant": "all inputs and all conforming C libraries; whether the adapter's three-way result is a consistent order depends on the comparison class", "anchors": ["ualgo.h:sort", "ualgo.h:qsort_adapter", "upredalgo.h:nth_element"]}
{"id": "C86", "title": "sort uses the comparator it is given", "statement": "sort(first, last, comp) orders by comp, whatever comp's type and state; list::sort keeps the order of equal elements.", "quantifier": "all comparators, all ranges", "why_tests_cant": "stateless function objects, the only ones tests use, hide the ignored argument; instability depends on the C library", "anchors": ["ualgo.h:sort", "ualgo.h:qsort_adapter", "ulist.h:list::sort"]}
{"id": "C87", "title": "stable_sort and stable_partition on vectors and arrays", "statement": "On a vector, an array or any range of pointers stable_sort permutes the range into ascending order keeping equivalent elements in their order (elements of two bytes or more), and stable_partition puts the elements that satisfy the predicate first, both groups in their original order, and returns the boundary (element sizes divisible by four); nothing outside the range changes.", "quantifier": "all element values, sizes, ranges, block addresses divisible by four, all strict weak orders and predicates", "why_tests_cant": "for pointers the algorithms move raw bytes with assembler whose behaviour depends on address and length", "anchors": ["ualgo.h:stable_sort", "upredalgo.h:stable_partition", "ualgo.h:rotate", "ualgobase.cc:rotate_fast"]}
{"id": "C88", "title": "Sorting and partitioning of bytes and shorts", "statement": "stable_sort, stable_partition and partial_sort_copy work on vectors and arrays of one and two byte elements.", "quantifier": "all values, addresses and lengths", "why_tests_cant": "most lengths and alignments work; the failing ones depend on position modulo four", "anchors": ["ualgo.h:stable_sort", "upredalgo.h:partial_sort_copy", "ualgobase.cc:copy_backward_fast"]}
{"id": "C89", "title": "fill of shorts and ints", "statement": "fill and fill_n of n two- or four-byte integers set exactly these n elements.", "quantifier": "all values, all addresses and all lengths up to half (shorts) or three quarters (ints) of the address", "why_tests_cant": "2^64 addresses and lengths, a vectorised loop with head and tail", "anchors": ["ualgobase.cc:fill_n_fast", "ualgobase.h:unrolled_fill"]}
{"id": "C90", "title": "fill of large arrays at low addresses", "statement": "fill and fill_n of n two- or four-byte integers write nothing outside the n elements, also for ranges larger than their address.", "quantifier": "all addresses and lengths", "why_tests_cant": "needs arrays of megabytes at low addresses (static data of programs that are not position independent)", "anchors": ["ualgobase.cc:fill_n_fast"]}
{"id": "C91", "title": "Container algorithms on vectors", "statement": "remove, remove_if, remove of a sorted list of iterators, unique, reverse, rotate, sort, stable_sort, random_shuffle, replace, replace_if, transform, fill and generate, called on a vector in any order and mixed with any vector operations, each leave exactly the result their documentation describes for the sequence held before. After a sort, lower_bound, upper_bound, equal_range and binary_search of the vector find exactly the elements equivalent to the value.", "quantifier": "all histories, all element values, predicates, orders, all random number sequences, all conforming qsorts", "why_tests_cant": "unbounded histories; the algorithms write in place while they read and then shrink the vector", "anchors": ["uctralgo.h:remove", "uctralgo.h:unique", "uctralgo.h:rotate", "uctralgo.h:sort", "uctralgo.h:random_shuffle", "uctralgo.h:fill", "uctralgo.h:generate", "uctralgo.h:equal_range", "uctralgo.h:binary_search"]}
{"id": "C92", "title": "string::format stores exactly the formatted text", "statement": "After s.format(...) the string consists of exactly the text the conversion produces, whatever it held before and however much was allocated; the return value is its length; c_str() is terminated inside the allocation; other strings, linked memory and the caller's memory are untouched; at most two conversions are made. This holds anywhere in a history of string operations.", "quantifier": "all histories over any number of strings of the 29 operations of C36 and of format, all texts below 2^31-1 bytes, all strings with less than 2^31 bytes allocated (and, for an empty text, with storage of their own), all allocators that succeed", "why_tests_cant": "the number of conversions and the buffer arithmetic depend on the relation between text length and capacity, at every length and history", "anchors": ["ustring.cc: string::vformat, string::format", "ustring.cc: string::resize"]}
{"id": "C93", "title": "string::format always returns and stays in bounds", "statement": "s.format(...) returns for every string and text, and touches no memory outside the string, also when the conversion fails.", "quantifier": "all strings (empty, linked, with any amount reserved) and all formats", "why_tests_cant": "non-termination can only be refuted for all numbers of rounds", "anchors": ["ustring.cc: string::vformat", "ustring.cc: string::resize"]}
{"id": "C94", "title": "string::hash separates strings that differ in one byte", "statement": "hash is a 32-bit number that depends on the bytes only; two strings that differ in exactly one byte have different hashes; appending the same text to two strings keeps their hashes equal or different; leading zero bytes do not change the hash.", "quantifier": "all byte strings of any length", "why_tests_cant": "a statement about all pairs of strings", "anchors": ["ustring.cc: string::hash", "ustring.h: hash_value"]}
{"id": "C95", "title": "Open modes mean what they say", "statement": "For every open mode that contains in or out, the flags given to open(2) permit reading iff in was asked for and writing iff out was; they create the file iff out was asked for and nocreate was not; they truncate iff trunc, append iff app or ate, and set O_NONBLOCK and O_NOCTTY iff asked for.", "quantifier": "all values of the mode", "why_tests_cant": "all combinations of the bits, and the arithmetic that turns in/out into the access mode", "anchors": ["fstream.cc: fstream::om_to_flags"]}
{"id": "C96", "title": "File descriptors are closed exactly once", "statement": "In any history of open, close, detach, exceptions, clear and destruction over any number of fstreams, interleaved with other threads opening files, every open fstream holds a descriptor of its own to a file still open; no file is closed twice and nobody else's file is closed; after all fstreams are destroyed, every file any of them opened has been closed, or detached to the caller, exactly once. An open that fails sets badbit and holds nothing.", "quantifier": "all histories, all numbers of fstreams, all answers of open and close, where close is not interrupted (or, where it is, the kernel keeps the descriptor) and a failing close does not throw", "why_tests_cant": "histories, failures and interleavings are unbounded; a descriptor closed twice only shows when another thread got its number", "anchors": ["fstream.cc: fstream::open, attach, close, detach, ~fstream"]}
{"id": "C97", "title": "Opening and closing never disturb others' descriptors nor the stream's own facts", "statement": "The guarantees of C95 and C96 hold also when close is interrupted or fails with exceptions on; name() is the name of the open file; ate positions at the end of the file once; a mode without in or out opens the file in a usable way.", "quantifier": "all histories and schedules", "why_tests_cant": "needs an interrupted close with another thread opening a file in between", "anchors": ["fstream.cc: fstream::close", "fstream.cc: fstream::attach", "fstream.cc: fstream::om_to_flags"]}
{"id": "C98", "title": "write_file and read_file round trip, at every crash point", "statement": "In any history of memory block operations, write_file and read_file over any number of blocks and files, each file holds exactly the bytes of the block last written to it, each block read holds exactly the bytes of the file, other blocks and the caller's memory are untouched, however the kernel splits or interrupts the transfers. If the process dies at any system call of write_file, the file is as before or holds a prefix of the new data. If write_file returns without a would-block answer, the file holds the data. If read_file throws, no other memory was touched and the block keeps its size and stays readable (unless it was linked to more bytes than the file has).", "quantifier": "all histories, all contents below 2^31 bytes, all sequences of answers of the kernel, all crash points", "why_tests_cant": "partial transfers, interruptions and crash points are chosen by the system and are unbounded", "anchors": ["cmemlink.cc: cmemlink::write_file", "memblock.cc: memblock::read_file", "fstream.cc: fstream::write, fstream::read"]}
{"id": "C99", "title": "write_file never reports success for a partial file; read_file leaves a valid object", "statement": "When write_file returns, the whole block is in the file; a crash leaves the old or the new contents; a string that reads a file is terminated; a block whose read_file throws is still valid.", "quantifier": "all kernel answers, crash points and blocks", "why_tests_cant": "needs EAGAIN, a crash or a failing read at the right moment", "anchors": ["cmemlink.cc: cmemlink::write_file", "fstream.cc: fstream::write", "memblock.cc: memblock::read_file"]}
{"id": "C100", "title": "An exception survives being written to and read from a stream", "statement": "Writing any exception of the library (exception, bad_alloc, error_message, system/libc exception, file_exception, stream_bounds_exception) at a position aligned to 8 writes exactly stream_size() bytes, a multiple of 8; bytes 4-7 hold the size of what follows; nothing else in the buffer changes; and reading those bytes into an object of the same class gives the same data, the same frames and the same names.", "quantifier": "every exception class, message text, backtrace of at most 64 frames, buffer contents and aligned position", "why_tests_cant": "The layout depends on the length of the texts and number of frames through alignment; a test fixes these.", "anchors": ["uexception.cc: exception::read, write; error_message::read, write", "ustdxept.cc: file_exception::read, write; stream_bounds_exception::read, write", "bktrace.cc: CBacktrace::read, write, stream_size"]}
{"id": "C101", "title": "Reading a damaged exception stays inside the object and the stream", "statement": "Whatever bytes are in a stream, reading a backtrace from it either succeeds or throws stream_bounds_exception, and touches no memory outside the stream and the object.", "quantifier": "every content of the stream and every position", "why_tests_cant": "All byte strings are to be considered.", "anchors": ["bktrace.cc: CBacktrace::read"]}
{"id": "C102", "title": "The backtrace names every frame", "statement": "If every frame is described as \"file(function+offset) [address]\" with neither '(' nor '+' in the file and no '+' in the function, an exception's backtrace shows each frame's address and the name of its function (demangled when possible, cut to 255 bytes), in order, one line each.", "quantifier": "every list of at most 64 frames, every description of that form, every demangler", "why_tests_cant": "Paths and names are arbitrary.", "anchors": ["bktrace.cc: extract_abi_name, CBacktrace::GetSymbols, text_write"]}
{"id": "C103", "title": "Constructing an exception is safe whatever the program's path and functions are called", "statement": "Constructing an exception never reads or writes outside its buffers, whatever the program's file and functions are called.", "quantifier": "every description of a frame and every demangled name", "why_tests_cant": "The failing names depend on where the program is installed.", "anchors": ["bktrace.cc: extract_abi_name"]}
{"id": "C104", "title": "Copies of an exception show the same and leak nothing", "statement": "A copy of an exception shows the same frames and names as the original; in a program that creates, copies and destroys exceptions (without assigning them), when all are destroyed all their memory is freed.", "quantifier": "every exception with symbols, every sequence of creations, copies and destructions", "why_tests_cant": "All histories are to be considered.", "anchors": ["bktrace.cc: CBacktrace::CBacktrace, operator=, ~CBacktrace"]}
{"id": "C105", "title": "Exceptions can be copied and assigned in every state", "statement": "Copying an exception is safe even if there was no memory for its names, and assigning one exception to another leaks nothing.", "quantifier": "every exception, every answer of the allocator", "why_tests_cant": "Needs allocation failures at particular points.", "anchors": ["bktrace.cc: CBacktrace::operator=, GetSymbols"]}
{"id": "C106", "title": "A vector is unchanged by an operation that ran out of memory", "statement": "When an allocation fails, the vector operation that needed it throws and leaves the vector's contents as they were; the vector remains fully usable, and no element object is leaked or destroyed twice. Operations throw exactly as often as allocations are refused.", "quantifier": "every program of vector operations that may branch on exceptions, every pattern of failing allocations, every element type of 4k bytes, up to 2^31 bytes", "why_tests_cant": "Every allocation of every history may fail.", "anchors": ["uvector.h: push_back, insert, erase, resize, assign, reserve, shrink_to_fit, clear", "memblock.cc: reserve, resize, insert, shrink_to_fit"]}
{"id": "C107", "title": "Vectors of elements that throw: assignment, resize, erase", "statement": "If constructing or assigning an element throws during assign, operator=, resize, erase, clear, reserve, shrink_to_fit or pop_back, the vector afterwards holds size() constructed elements: the old ones or, in an assignment, the new ones up to some point; the program can go on. If the operation does not lengthen the vector nothing is leaked.", "quantifier": "every program of these operations that may branch on exceptions, every pattern of throwing elements and failing allocations", "why_tests_cant": "The exception may come from any element of any operation.", "anchors": ["uvector.h: assign, resize, erase, pop_back, clear", "umemory.h: uninitialized_fill, uninitialized_default_construct, destroy"]}
{"id": "C108", "title": "Vectors of elements that throw: push_back, insert, construction", "statement": "If constructing an element throws in push_back, insert, resize or a constructor, the vector is left in a valid state and everything constructed is destroyed in the end.", "quantifier": "every vector, every value, every element that throws", "why_tests_cant": "The exception may come from any element of any operation.", "anchors": ["uvector.h: append_hole, push_back, insert_hole, insert, resize, vector(const vector&)"]}
{"id": "C109", "title": "Calls on an atomic object are indivisible under every interleaving", "statement": "When any number of threads call load, store, exchange, compare_exchange_strong, fetch_op and op_fetch on one atomic<T>, the values returned and the final value are those of the calls made one at a time in some order that respects every thread's program; in particular no addition is lost, and fetch_add(1) hands out every number exactly once.", "quantifier": "every number of threads, every program of calls per thread, every interleaving, every integer width and initial value", "why_tests_cant": "The number of interleavings is exponential and a test run sees a handful of them.", "anchors": ["uatomic.h: atomic::store, load, exchange, compare_exchange_strong, fetch_add, fetch_sub, fetch_and, fetch_or, fetch_xor, add_fetch, sub_fetch, and_fetch, or_fetch, xor_fetch"]}
{"id": "C110", "title": "The compare_exchange loop is an atomic update and is lock-free", "statement": "Updating an atomic<T> by any function f with the usual loop (load, then compare_exchange_weak until it succeeds) has, under every interleaving and with any spurious failures, the effect of applying the functions one at a time in some order; without spurious failures N updates by n threads need at most N(n+1)+n turns of unfinished threads in total, so the threads cannot keep each other spinning.", "quantifier": "every number of threads, every list of update functions per thread, every schedule and every pattern of spurious failures", "why_tests_cant": "Lost updates and livelocks depend on rare schedules.", "anchors": ["uatomic.h: atomic::compare_exchange_weak, atomic::operator T"]}
{"id": "C111", "title": "atomic_flag gives a correct spin lock", "statement": "Threads that bracket accesses to a plain variable by  while (f.test_and_set());  and  f.clear()  are never inside at the same time, their updates have the effect of being executed one after another, and from every reachable state all of them can finish.", "quantifier": "every number of threads, every list of critical sections, every schedule", "why_tests_cant": "Mutual exclusion is a property of all schedules.", "anchors": ["uatomic.h: atomic_flag::test_and_set, atomic_flag::clear"]}
{"id": "C112", "title": "v = ++a gives every thread its own value", "statement": "When several threads execute v = ++a (or --a, a += n) on an atomic<T>, the values they get are those of the increments, so two threads incrementing once each get different values.", "quantifier": "every number of threads and every interleaving", "why_tests_cant": "The second access is separated from the first only in rare schedules.", "anchors": ["uatomic.h: atomic::operator++, operator--, operator+=, operator T"]}
{"id": "C113", "title": "compare_exchange_weak accepts every memory order with one argument", "statement": "a.compare_exchange_weak(expected, desired, order) is defined for every order that a read-modify-write operation accepts, including memory_order_acq_rel and memory_order_release.", "quantifier": "every value and every order", "why_tests_cant": "The compiler accepts the call; whether the order passed on is permitted is a matter of the builtin's contract.", "anchors": ["uatomic.h:42-43 atomic::compare_exchange_weak"]}
{"id": "C114", "title": "bad_alloc leaves memory blocks as they were", "statement": "Whichever allocations fail, an operation on a memory block that throws bad_alloc leaves every block, its size, bytes and storage, as before; the program can catch the exception and go on; no memory is leaked, and there are exactly as many exceptions as failed allocations.", "quantifier": "every program (branching on exceptions) over any number of blocks and every pattern of failing allocations", "why_tests_cant": "Allocation failures at every point of every history cannot be enumerated.", "anchors": ["memblock.cc: memblock::reserve, resize, assign, insert, erase, shrink_to_fit, copy_link, manage"]}
{"id": "C115", "title": "bad_alloc leaves strings as they were", "statement": "Whichever allocations fail, a string operation other than assign(n,c) that throws bad_alloc leaves all strings, their contents and terminators, as before; a constructor that throws leaves no memory behind; the program can go on.", "quantifier": "every program (branching on exceptions) over any number of strings and every pattern of failing allocations", "why_tests_cant": "Allocation failures at every point of every history cannot be enumerated.", "anchors": ["ustring.cc: string::resize, assign, append, insert, erase, replace, string(const string&), string(n,c)", "memblock.cc: memblock::reserve"]}
{"id": "C116", "title": "string::assign(n,c) that throws leaves the string as it was", "statement": "If s.assign(n, c) cannot allocate and throws, s has its old contents.", "quantifier": "every string and every n", "why_tests_cant": "Needs a failing allocation at the right moment.", "anchors": ["ustring.h:120 string::assign(size_type, value_type)"]}
{"id": "C117", "title": "Wide-character edits of strings insert the UTF-8 encoding at the right place", "statement": "For any history over any number of strings that mixes insert(pos,n,wc), insert(pos,first,last,n), append(n,wc), push_back(wc), += wc and assign(n,wc) with the other string operations, every string has the size and bytes of a byte sequence into which the standard UTF-8 encodings were inserted (positions cut off at the end), is terminated, the caller's memory is unchanged and no allocation is lost. When the edits are made at character positions (located with wiat), reading the string back as UTF-8 gives exactly the characters of a sequence of wide characters edited the same way and length() is their number.", "quantifier": "all histories, all characters below 2^31, all repeat counts, all positions, results below 2^31 bytes and byte moves among those C21 covers", "why_tests_cant": "the byte position of a character, the room made and the bytes written depend on the encoded length of every character before it; tests only try a few characters and positions", "anchors": ["ustring.cc: string::insert(pos_type,size_type,wvalue_type), string::insert(pos_type,const wvalue_type*,const wvalue_type*,size_type)", "ustring.h: append, push_back, assign, operator+= (wvalue_type)", "utf8.h: utf8out_iterator, Utf8Bytes"]}
{"id": "C118", "title": "Inserting any wide character anywhere keeps the rest of the text (violated)", "statement": "insert(pos,n,wc) keeps the bytes before and after the position for every character, position and length. Violated: inserting a four byte character after five of fourteen bytes moves the wrong bytes (C21), and a wchar_t with the top bit set is undefined behaviour although Utf8Bytes says it takes seven bytes.", "quantifier": "all strings, positions and wchar_t values", "why_tests_cant": "the failing combinations depend on position, length and encoded size together", "anchors": ["ustring.cc: string::insert(pos_type,size_type,wvalue_type)", "utf8.h: utf8out_iterator::operator=", "ualgobase.cc: rotate_fast"]}
{"id": "C119", "title": "The comparison functors and operators sort and compare as their names say", "statement": "For any strict weak ordering <: stable_sort with greater gives descending order, with mem_var_less (&T::m) ascending order of the member, with dereference (less) ascending order of the pointees, each a stable permutation that leaves the surrounding memory alone; compare returns -1, 0 or 1 with the sign of the order, changes sign with its arguments and is transitive; >, <=, >= and the functors of these names agree with <.", "quantifier": "all orders, element types, members and array contents", "why_tests_cant": "ranges over all orders and arrays; a swapped argument is visible only with suitable elements", "anchors": ["ufunction.h:greater", "ufunction.h:compare", "ufunction.h:mem_var_less", "ufunction.h:dereference", "uutility.h:189-207 operator> operator<= operator>=", "ualgo.h:stable_sort"]}
{"id": "C120", "title": "pair's < is lexicographic and sorts by first, then second", "statement": "Where == of the first type holds exactly when neither value is less, pair::operator< is the lexicographic strict weak ordering (total, with == equality, if the halves' are), and stable_sort of pairs orders them by first, and those with equivalent first by second.", "quantifier": "all component types with such orders, all arrays of pairs", "why_tests_cant": "all orders and arrays", "anchors": ["upair.h:36 pair::operator==", "upair.h:37 pair::operator<", "upair.h:38 pair::swap"]}
{"id": "C121", "title": "pair's < is a strict weak ordering whenever its halves' are (violated)", "statement": "If < of both halves is a strict weak ordering then so is < of the pair, and sorting pairs works. Violated: upair.h:37 uses == of the first half, so if == is finer than the equivalence of < (names compared without case, equality with case) the order of pairs is none and sorting leaves (a,1) (A,5) (a,0) as it is.", "quantifier": "all component types whose < is a strict weak ordering", "why_tests_cant": "needs a type whose == and < disagree", "anchors": ["upair.h:37 pair::operator<"]}
{"id": "C122", "title": "Binders, negators, members and compositions call the function with the right arguments", "statement": "count_if with bind2nd (less, v) counts the elements less than v, with bind1st (less, v) those greater than v, and with the negator all others; find_if with mem_var_equal_to (&T::m, v) finds the first object whose member is v; transform with compose1 and compose2 applies the inner functions to every element and the outer one to the results.", "quantifier": "all functions, values and ranges", "why_tests_cant": "all functions and ranges", "anchors": ["ufunction.h:bind1st", "ufunction.h:bind2nd", "ufunction.h:unary_negator", "ufunction.h:compose1", "ufunction.h:compose2", "ufunction.h:mem_var_equal_to"]}
{"id": "C123", "title": "make_pair gives the values of its arguments", "statement": "Whatever mixture of temporaries, variables and constants make_pair is given, the pair reads as the arguments' values, and a pair of values constructed from it keeps them whatever happens to the variables later.", "quantifier": "all argument categories, values and later memory contents", "why_tests_cant": "nine combinations of argument categories, all later histories", "anchors": ["upair.h:61 make_pair(T1&&,T2&&)", "upair.h:67 make_pair(const T1&,const T2&)", "upair.h:31 pair(const pair<T3,T4>&)", "upair.h:49 pair(pair<T3,T4>&&)"]}
{"id": "C124", "title": "make_pair copies its arguments (violated)", "statement": "auto p = make_pair (x, y) is independent of x and y afterwards. Violated: the template arguments are not decayed, so for a variable the half is a reference: changing x changes p.first and assigning to p.first changes x (and a pair of locals that is returned dangles).", "quantifier": "all variables and values", "why_tests_cant": "the existing uses convert at once to a pair of values; the alias shows only when the variable changes later", "anchors": ["upair.h:61 make_pair(T1&&,T2&&)"]}
{"id": "C125", "title": "Copying from an istream_iterator over text visits every delimited item", "statement": "If every word of a text (or every integer, separated by one of the default delimiters) is followed by a delimiter, iterating with istream_iterator from the stream to the default-constructed iterator gives exactly the words (the integers' values) in order, for istringstream and for ifstream however read(2) splits the file.", "quantifier": "all texts without quotes, escapes, all delimiter sets of fewer than 15 characters, all read portions, all sequences of 64-bit integers", "why_tests_cant": "all texts and all read(2) splits", "anchors": ["mistream.h:istream_iterator", "mistream.h:istream_iterator::Read", "mistream.h:stream_at_eof", "sistream.cc:istringstream::iread"]}
{"id": "C126", "title": "An istream_iterator visits the last item too (violated)", "statement": "Iterating over a text visits its last word (number) also when no delimiter follows it. Violated: reading it reaches eof, and Read ends the iteration after reading (mistream.h:161), so exactly the last item is dropped.", "quantifier": "all texts whose last character is not a delimiter", "why_tests_cant": "all texts", "anchors": ["mistream.h:istream_iterator::Read", "mistream.h:stream_at_eof"]}
{"id": "C127", "title": "A binary istream_iterator copies all values and steps both ways", "statement": "Over an istream whose exceptions() are off, iterating to the end gives all the fixed-width integers in the data, leaving a tail shorter than one; += k goes to the value k further, -= k back to where it was and -- to the previous value.", "quantifier": "all widths, values, tails, positions and step counts", "why_tests_cant": "all data and step counts", "anchors": ["mistream.h:istream_iterator::operator+=", "mistream.h:istream_iterator::operator-=", "mistream.h:istream_iterator::operator--", "mistream.h:istream_iterator::Read"]}
{"id": "C128", "title": "A binary istream_iterator ends at the end of the data (violated)", "statement": "Iterating over an istream as constructed ends when the data does. Violated: exceptions() is allbadbits by default, so the underflow call in Read throws stream_bounds at the end of every buffer.", "quantifier": "all data", "why_tests_cant": "all data; the existing tests do not iterate to the end", "anchors": ["mistream.h:istream_iterator::Read", "mistream.cc:istream::underflow"]}
{"id": "C129", "title": "The difference of two istream_iterators is the number of steps between them (violated)", "statement": "For iterators j reached from i by n steps on the same stream, j - i is n. Violated: both read the position of the one stream they share, so the difference is always 0 (and any two live iterators compare equal).", "quantifier": "all streams, positions and iterators", "why_tests_cant": "all iterators", "anchors": ["mistream.h:istream_iterator::operator-", "mistream.h:istream_iterator::operator=="]}
{"id": "C130", "title": "fstream reads and writes at its offset", "statement": "For every history of write, read, readsome, seek, tell and size on an fstream: each write replaces exactly the bytes from the current offset on (zeros fill a gap beyond the end), each read gives bytes found there, each moves the offset by what it transferred, a seek goes to n from the beginning, the offset or the end or, before the beginning, fails and changes nothing, and tell and size tell offset and size; what is written at p is read back from p. Nothing is undefined, whatever read(2) and write(2) answer.", "quantifier": "all file contents, exception masks, histories and sequences of system call results", "why_tests_cant": "all histories and all short, interrupted or failing transfers", "anchors": ["fstream.cc:fstream::seek", "fstream.cc:fstream::pos", "fstream.cc:fstream::read", "fstream.cc:fstream::readsome", "fstream.cc:fstream::write", "fstream.cc:fstream::size"]}
{"id": "C131", "title": "ofstream output goes where its seeks say", "statement": "For every history of formatted or raw output, flush, seekp and tellp on an ofstream, with the file as it will be once the buffer is flushed: each output replaces exactly the bytes from the position on, seekp goes to n from the beginning, the position or the end, and tellp tells the position, however much was buffered at each point; after flush the file is exactly that.", "quantifier": "all file contents, histories with valid seeks, allocation results and sequences of successful, short, interrupted or EAGAIN write(2) results", "why_tests_cant": "all histories and write splits", "anchors": ["ofstream.cc:ofstream::seekp", "ofstream.h:ofstream::tellp", "ofstream.cc:ofstream::flush", "ofstream.cc:ofstream::overflow"]}
{"id": "C132", "title": "ifstream reads from where seekg went, and tellg is the offset of the next character", "statement": "For every history of lines, words and character arrays read, tellg, seekg and clear() on an ifstream: each read gives what the file's text from the current position on gives, tellg is the offset of the next unread character, however far the stream has read ahead, and seekg from the beginning or the end, made before the end was hit or after clear(), goes there.", "quantifier": "all files, buffer sizes, delimiter sets, histories and divisions of the file into portions by read(2)", "why_tests_cant": "all histories and read splits", "anchors": ["ofstream.cc:ifstream::seekg", "ofstream.h:ifstream::tellg", "ofstream.cc:ifstream::underflow", "ofstream.h:ifstream::clear"]}
{"id": "C133", "title": "After seekg on an ifstream the characters there can be read (violated)", "statement": "seekg makes what is at its target readable. Violated three ways: eofbit is kept, so after the end of the file was hit nothing can be read after a seek; seekg (n, cur) is relative to the read-ahead offset of the file rather than to the position; the buffer is one byte long after a seek, so numbers of several digits are misread.", "quantifier": "all files read to the end; the other two: given files", "why_tests_cant": "all files", "anchors": ["ofstream.cc:ifstream::seekg", "ofstream.cc:ifstream::underflow"]}
{"id": "C134", "title": "A character put back into an ifstream is read next", "statement": "After any requests, reading one character c and putting back x, the following requests see the text with x in the place of c, wherever the buffer was refilled.", "quantifier": "all files, buffer sizes, read(2) portions, requests before and after, and characters", "why_tests_cant": "all positions of the buffer boundary", "anchors": ["ofstream.h:ifstream::putback", "sistream.h:istringstream::get", "mistream.h:istream::ungetc"]}
{"id": "C135", "title": "Seeking in memory streams from the beginning or the position", "statement": "seekg and seekp from the beginning or the current position go exactly to the target if it lies in the buffer; otherwise position and data are unchanged, failbit is set and stream_bounds is thrown exactly if exceptions() asks for it.", "quantifier": "all streams, offsets and exception masks", "why_tests_cant": "all offsets, including negative ones that wrap", "anchors": ["mistream.h:istream::seekg", "mistream.h:istream::seek", "mostream.h:ostream::seekp", "mostream.h:ostream::seek"]}
{"id": "C136", "title": "A seek from the end means the same in memory and in files (violated)", "statement": "seekg (n, end) and seekp (n, end) go to size + n, as lseek does for the file streams. Violated: the memory streams go to size - n, so end - 1 fails and end + 1 goes to the last byte.", "quantifier": "all non-empty buffers", "why_tests_cant": "all buffers", "anchors": ["mistream.h:istream::seekg", "mostream.h:ostream::seekp"]}
{"id": "C137", "title": "putback that is impossible leaves the text alone (violated)", "statement": "If no character can be put back, putback fails and changes nothing. Violated: at the beginning of the buffer, as after a seek, it sets failbit but overwrites the character to be read next.", "quantifier": "a given file", "why_tests_cant": "depends on the state of the buffer", "anchors": ["ofstream.h:ifstream::putback"]}
{"id": "C138", "title": "Typelist algorithms work on the list of types", "statement": "For the typelist of any types T1..Tn: Length is n, TypeAt and TypeAtNonStrict give the i-th type (the default past the end), IndexOf the first position or -1; Append concatenates, Erase and Replace change the first occurrence only, EraseAll and ReplaceAll every one, Reverse reverses, NoDuplicates keeps the first of each; MostDerived picks a class derived from the given one that nothing in the list is derived from, and DerivedToFront rearranges the types so that none follows a type it is derived from.", "quantifier": "all lists of types of any length, all class hierarchies (reflexive, transitive, antisymmetric); Append and Reverse of types that are neither NullType nor typelists", "why_tests_cant": "typelists of any length and any types", "anchors": ["typelist.h:tl::Length", "typelist.h:tl::Append", "typelist.h:tl::NoDuplicates", "typelist.h:tl::DerivedToFront", "typet.h:IsSameType"]}
{"id": "C139", "title": "Typelists of any types (violated)", "statement": "Seq of no types is the empty list, and the algorithms of C138 treat NullType and typelists as elements like any other. Violated: Seq<> has one element, NullType; Append drops a NullType and takes a typelist apart, and so does Reverse.", "quantifier": "given lists", "why_tests_cant": "concerns all types as elements", "anchors": ["typelist.h:tl::Seq", "typelist.h:tl::Append", "typelist.h:tl::Reverse"]}
{"id": "C140", "title": "Type traits say what the type is", "statement": "Removing const, volatile or both leaves no such qualifier and changes nothing else, also through arrays; rank, extent, remove_extent and remove_all_extents follow the dimensions; decay always gives a type by value and is idempotent; every type, however qualified, is in exactly one primary category and that is its own; is_arithmetic, is_fundamental, is_scalar and is_object are unions of the right ones; make_signed and make_unsigned give the type of the same size with the asked sign.", "quantifier": "all types built from the fundamental types, classes, enums, pointers, member pointers, references, functions and arrays, to any depth and with any qualifiers, except pointers to const member functions for the categories, and wchar_t and qualified types for make_signed", "why_tests_cant": "infinitely many types", "anchors": ["uttraits.h:remove_cv", "uttraits.h:decay", "uttraits.h:is_integral", "uttraits.h:is_scalar", "uttraits.h:rank", "uttraits.h:make_signed"]}
{"id": "C141", "title": "Type traits as in the standard (violated)", "statement": "is_signed holds for the arithmetic types with negative values only, is_unsigned for the others of them only; const member function pointers are function pointers; add_pointer adds one; make_unsigned is unsigned; TypeTraits knows all arithmetic types. Violated: is_signed<signed char> and <double> are false, is_unsigned holds for classes, pointers, signed char and float; a pointer to a const member function is classed as pointer to object; add_pointer<T*> is T*, add_pointer<T&> does not compile; make_unsigned<wchar_t> and make_signed<const unsigned> change nothing; TypeTraits<long long> is not integral, TypeTraits<long double> not arithmetic.", "quantifier": "the types named", "why_tests_cant": "the claim ranges over all types", "anchors": ["uttraits.h:is_signed", "uttraits.h:is_unsigned", "uttraits.h:is_member_function_pointer", "uttraits.h:add_pointer", "traits.h:TypeTraits"]}
{"id": "C142", "title": "numeric_limits bounds, is_negative, sign; TypeTraits categories", "statement": "min() and max() of numeric_limits bound exactly the values of the type, is_signed says whether it has negative ones, is_negative(x) holds iff x < 0 and sign(x) is -1, 0 or 1 accordingly. TypeTraits tells integral, floating and arithmetic types through const, volatile and references.", "quantifier": "all integer types but wchar_t, all their values; all fundamental types but long long and long double, with any qualifiers and reference", "why_tests_cant": "all 64-bit values", "anchors": ["ulimits.h:numeric_limits", "uutility.h:is_negative", "uutility.h:sign", "traits.h:TypeTraits"]}
{"id": "C143", "title": "numeric_limits as in the standard (violated)", "statement": "numeric_limits<T>::min/max bound the values of every integer type, digits is the number of non-sign bits, digits10 the number of decimal digits that any value can have, and is_integer holds for every integer type. Violated: wchar_t is said to be unsigned with min 0, so that is_negative and sign miss its negative values; digits counts the sign bit; digits10 is one too high for every type; bool is not an integer.", "quantifier": "the integer types", "why_tests_cant": "all values of the types", "anchors": ["ulimits.h:numeric_limits", "ulimits.h:__limits_digits", "ulimits.h:__limits_digits10"]}
{"id": "C144", "title": "Arrays, tuples, matrices and bitsets round trip through a stream in exactly stream_size bytes", "statement": "Writing an array, tuple, matrix or bitset to an ostream at a suitably aligned position with stream_size bytes of room writes exactly stream_size bytes (for integers: the little-endian bytes of the elements in order), and reading them at the same position, into any object of the type, gives the same value and ends just behind. This also holds for a _long4grain integer at any multiple of 4, for tuples and arrays of any storable nested type, and for bitsets after any history of operations. The functors ios::align and ios::skip never use more than the stream_size they report, and reading the padding skips exactly what writing it produced.", "quantifier": "all element widths, lengths, values, nested storable types, bitset histories, buffers, positions, flags and exception masks", "why_tests_cant": "round trips must hold for every value, length, nesting and position", "anchors": ["uarray.h:66-69", "utuple.h:74-77", "ubitset.h:124-128", "uspecial.h:128-139,175-196", "uiosfunc.h:19-57", "uctrstrm.h:27-59"]}
{"id": "C145", "title": "Containers of arrays of 8 byte integers can be written", "statement": "A vector<array<uint64_t,N>> can be written to any sufficiently large, 8-byte aligned ostream in a debug build.", "quantifier": "all values of the type", "why_tests_cant": "depends on the alignment bookkeeping of every nested type", "anchors": ["strmsize.h:33-38", "uctrstrm.h:63-88", "mostream.h:213-224"]}
{"id": "C146", "title": "Transfers between memory streams move everything or nothing", "statement": "is.write(os), os.read(is) and os.write(os2) append all unread (written) bytes to the destination if they fit, change nothing else in it, and os.read(is) leaves the input at its end; if they do not fit, no byte of the destination and no position changes, the fail bit is set, and stream_bounds_exception is thrown if the fail bit is in the exception mask - then the input is unchanged, too. An istream made from an ostream gives exactly what was written.", "quantifier": "all stream contents, positions, states and exception masks", "why_tests_cant": "all contents and positions, including exact fits", "anchors": ["mistream.cc:26-39", "mistream.cc:100-104", "mostream.h:73", "mostream.h:193-203"]}
{"id": "C147", "title": "A failed transfer without exceptions loses nothing", "statement": "With exceptions disabled, os.read(is) into too little space leaves the unread bytes of is readable.", "quantifier": "all streams with too little space", "why_tests_cant": "all contents and positions", "anchors": ["mistream.cc:100-104"]}
{"id": "C148", "title": "ostream insert and erase edit the written bytes", "statement": "os.insert(start,n) with start in the written part and n bytes of space puts n bytes at start, moves what was written behind it and advances the position by n; os.erase(start,n) of written bytes removes them and moves the position back by n; nothing else written changes. (For offsets where the byte rotation is sound: start and middle word aligned, or the shorter part in front.)", "quantifier": "all buffers, positions, start offsets and lengths in that range", "why_tests_cant": "all sizes and offsets; the rotation works in 4, 8 and 16 byte units", "anchors": ["mistream.cc:113-124", "memlink.h:75-93", "ualgo.h:218-223"]}
{"id": "C149", "title": "ostream insert and erase keep the position inside the buffer", "statement": "After any insert or erase whose asserted preconditions hold, the position is inside the buffer, so the next write either fits or is refused; erase behind the position does not change what was written.", "quantifier": "all buffers, positions and arguments that satisfy the asserts", "why_tests_cant": "all combinations of position and length", "anchors": ["mistream.cc:113-124"]}
{"id": "C150", "title": "is >> char gives the characters that are not delimiters, in order", "statement": "Reading characters with >> from a text stream, over memory or over a file, gives the characters of the text that are not delimiters, each once and in order; after the last one the next read gives 0 and sets eofbit and failbit.", "quantifier": "all texts, all delimiter sets of up to 14 characters, all numbers of reads, all file sizes and behaviours of read(2)", "why_tests_cant": "all texts and all ways a file's data can arrive in the buffer", "anchors": ["sistream.h:33", "sistream.cc:skip_delimiters"]}
{"id": "C151", "title": "Bitsets survive being written and read as text", "statement": "Reading a bitset of any size from text sets the bits from the highest down from the characters that are not delimiters ('1' sets, anything else clears); when the text is too short the remaining bits keep their values and the stream is no longer good. Writing a bitset to a text stream and reading the text into another bitset of the same size gives equal bits and leaves the stream good.", "quantifier": "all sizes, bitset values, texts and delimiter sets", "why_tests_cant": "all sizes and texts, including those cut off inside the bitset", "anchors": ["uspecial.h:117-123", "ubitset.h:126"]}
{"id": "C152", "title": "Wide characters survive being written and read as text", "statement": "Wide characters below 2^31 that are not delimiters, written to a text stream, are read back from its text as the same characters; delimiters between them are skipped; a character cut off by the end of the text sets failbit and the stream stays in front of it.", "quantifier": "all sequences of characters, all delimiters between them, all cut positions", "why_tests_cant": "all character values and all positions of the end of the text", "anchors": ["sistream.cc:110-122", "sostream.cc:106-111"]}
{"id": "C153", "title": "Wide characters are read from a file as from memory", "statement": "Reading the wide characters of a file gives the same values however read(2) splits the file into portions.", "quantifier": "all files and all portions returned by read(2)", "why_tests_cant": "depends on how the system splits a read, which tests of regular files do not exercise", "anchors": ["sistream.cc:110-122", "fstream.cc / ifstream underflow"]}
{"id": "C154", "title": "Writing a value to a text stream gives its text", "statement": "os << v writes integers in decimal, bool as true/false, containers and pairs as their elements separated by commas in parentheses, matrices as parenthesised rows, bytes in containers quoted when printable and otherwise as numbers, to any nesting depth, and str() then returns exactly that text.", "quantifier": "all types built from integers, bool, char, string, pair, matrix and containers, and all their values", "why_tests_cant": "all nesting depths and all values", "anchors": ["uctrstrm.h:112-130", "uspecial.h:71-76, 140-167", "sostream.h:28-50, 129-143"]}
{"id": "C155", "title": "Different values have different texts", "statement": "Two different values of the same type have different texts, when the type is built without string and without containers of char; the text also cannot be confused when followed by something that is not a digit.", "quantifier": "all such types and all pairs of their values", "why_tests_cant": "all pairs of values", "anchors": ["uctrstrm.h:118-130", "uspecial.h:71-76, 140-167"]}
{"id": "C156", "title": "Different lists of strings have different texts", "statement": "Two different containers of strings have different texts.", "quantifier": "all pairs of containers of strings", "why_tests_cant": "all pairs of values", "anchors": ["uctrstrm.h:112-130", "sostream.h:43"]}
{"id": "C157", "title": "close() that leaves an ofstream good has delivered everything", "statement": "For every sequence of files opened and closed in turn with one ofstream, whatever write(2) and close(2) answered (short writes, interruptions, would-block, errors, with clear() in between) and wherever the memory ran out: if close() returned and the stream is good, the file holds exactly the bytes issued between its open() and its close(), nothing of another file's and nothing twice.", "quantifier": "all sequences of files, all operations on each, all answers of the system, all points at which memory runs out", "why_tests_cant": "unbounded histories and every schedule of the operating system's answers", "anchors": ["ofstream.cc:ofstream::close", "ofstream.cc:ofstream::flush", "ofstream.h:ofstream::open", "fstream.cc:fstream::attach", "fstream.cc:fstream::close"]}
{"id": "C158", "title": "The destructor of an ofstream delivers what is pending", "statement": "If write(2) accepts data (possibly a part at a time and with interruptions), destroying an ofstream writes everything issued and not yet written, in order and once, and closes its descriptor exactly once; a descriptor 0, 1 or 2 is left open. This holds even if the flush then runs out of memory.", "quantifier": "all histories of operations, all schedules of partial writes and interruptions, all memory limits", "why_tests_cant": "every schedule and every history", "anchors": ["ofstream.cc:ofstream::~ofstream", "ofstream.cc:ofstream::flush", "fstream.cc:fstream::~fstream"]}
{"id": "C159", "title": "open() that fails leaves the ofstream bad and without a file", "statement": "For every state of an ofstream, if open() fails then either it throws (only if exceptions were asked for), or the stream's state has badbit and no file is open, the earlier one having been closed.", "quantifier": "all states of the stream, all answers of close(2)", "why_tests_cant": "all states", "anchors": ["ofstream.h:ofstream::open", "fstream.cc:fstream::attach"]}
{"id": "C160", "title": "What the life of an ofstream does not guarantee", "statement": "Bytes written while a file is attached (or while none is) never reach another file; an error of close(2) reaches the stream's state; close() gives the descriptor back even if the file fails; the destructor closes every file the stream opened.", "quantifier": "all histories", "why_tests_cant": "all histories", "anchors": ["ofstream.h:ofstream::open", "ofstream.cc:ofstream::close", "ofstream.cc:ofstream::~ofstream"]}
{"id": "C161", "title": "An ifstream that is used for several files delivers each file's lines", "statement": "If each file is read to its end before the next open(), the lines obtained after each open() are exactly the lines of that file, whatever portions read(2) delivers and however small the buffer.", "quantifier": "all sequences of files, contents, buffer sizes, schedules of partial reads and interruptions", "why_tests_cant": "every schedule and content", "anchors": ["ofstream.h:ifstream::open", "ofstream.cc:ifstream::underflow"]}
{"id": "C162", "title": "Reopening or closing an ifstream ends the old file", "statement": "After open() the stream delivers the new file's bytes, and after close() none.", "quantifier": "all states of the stream", "why_tests_cant": "all states", "anchors": ["ofstream.h:ifstream::open", "ofstream.h:ifstream::close"]}
{"id": "C163", "title": "ifstream::sync() returns 0 if and only if it succeeded", "statement": "sync() returns 0 on success and -1 on failure, and does not lose input.", "quantifier": "all readable files and states", "why_tests_cant": "all files", "anchors": ["ofstream.cc:ifstream::sync"]}
{"id": "C164", "title": "Comparing a string with a C string or a character", "statement": "s == p, s != p, s < p, s > p and p == s, p != s, p < s, p > s, for a string s and a C string p, answer by the byte order of the two texts, from either side; a null p compares equal exactly to the empty string; comparison with a character compares with the one-character text.", "quantifier": "all strings, all C strings (pointers into any array ending in a 0), all characters", "why_tests_cant": "all pairs of texts", "anchors": ["ustring.h:operator==", "ustring.h:PTR_STRING_CMP", "ustring.cc:string::operator=="]}
{"id": "C165", "title": "<= and >= between a string and a C string", "statement": "s <= p and s >= p answer by the order of the texts, as s < p does, and < and > accept the null pointers that == accepts.", "quantifier": "all strings and C strings", "why_tests_cant": "all pairs", "anchors": ["ustring.h:PTR_STRING_CMP", "ustring.h:string::operator const char*", "uutility.h:operator<="]}
{"id": "C166", "title": "Concatenation with +", "statement": "a + b and \"c\" + b yield a string whose text is the text of the left operand followed by that of the right one and leave every other string unchanged.", "quantifier": "all histories of a family of strings, all operands (also the same string twice)", "why_tests_cant": "all histories", "anchors": ["ustring.h:operator+", "ustring.h:string::operator+="]}
{"id": "C167", "title": "Conversions between numbers and text", "statement": "stoi, stol, stoul (and the long long ones) of a text that starts, after blanks, with a number in the given base that fits the type give that number and the index just past it; to_string gives the decimal text; converting back gives the number.", "quantifier": "all texts, all bases from 2 to 36, all numbers of the type", "why_tests_cant": "all numbers and bases", "anchors": ["ustring.h:stoi", "ustring.h:stol", "ustring.h:stoul", "ustring.h:to_string"]}
{"id": "C168", "title": "Conversions that cannot be done are reported", "statement": "stoi and its relatives report a text without a number and a number that does not fit.", "quantifier": "all texts", "why_tests_cant": "all texts", "anchors": ["ustring.h:stoi", "ustring.h:stol", "ustring.h:stoul"]}
{"id": "C169", "title": "Comparing and copying parts of a string", "statement": "compare with positions and lengths compares the parts, cut off at the ends; copy copies the part and returns its length, touching nothing else; copyto copies at most n-1 characters and a terminator, touching nothing else.", "quantifier": "all strings, positions and lengths whose sum does not wrap; n at least 2 for copyto", "why_tests_cant": "all positions and lengths", "anchors": ["ustring.h:string::compare", "ustring.cc:string::copy", "ustring.cc:string::copyto"]}
{"id": "C170", "title": "copyto with a tiny buffer, compare to the end", "statement": "copyto(p, n) stays within n bytes for every n, and compare(start, npos-like length, s) compares up to the end.", "quantifier": "all strings and n", "why_tests_cant": "all n", "anchors": ["ustring.cc:string::copyto", "ustring.h:string::compare"]}
{"id": "C171", "title": "Durations and time points in different units", "statement": "Where it compiles and the right operand fits the left one's unit, comparing, adding and subtracting durations or time points of different units answers by the times they stand for; a time point moved by a duration is exactly that far away and moving it back restores it; time_point_cast never runs backwards.", "quantifier": "all periods, all counts whose conversion and result fit 64 bits", "why_tests_cant": "all counts and units", "anchors": ["uchrono.h:duration::operator<", "uchrono.h:duration::operator+", "uchrono.h:time_point"]}
{"id": "C172", "title": "Any two durations can be compared", "statement": "Durations of different units can be compared from either side, as the comment in uchrono.h promises, and every two representable durations can be compared.", "quantifier": "all units and counts", "why_tests_cant": "all counts", "anchors": ["uchrono.h:duration::operator<", "uchrono.h:duration::operator=="]}
{"id": "C173", "title": "The text of times and durations", "statement": "The text of a time from the epoch on is its exact number of seconds with nine decimals, and different times have different texts; a duration is written as its count followed by its unit, different for each unit.", "quantifier": "all normalised times that are not negative (or whole seconds), all counts", "why_tests_cant": "all values", "anchors": ["uchrono.h:hrtime_t::text_write", "uchrono.h:duration::text_write"]}
{"id": "C174", "title": "The text of times before the epoch; min()", "statement": "The text of every time is its value, and hrtime_t::min() is the least time.", "quantifier": "all times", "why_tests_cant": "all values", "anchors": ["uchrono.h:hrtime_t::text_write", "uchrono.h:duration_values<hrtime_t>::min"]}
{"id": "C175", "title": "Memory mapped files, ioctl and fcntl through fstream", "statement": "For every history of mmap, munmap, msync, ioctl, set_nonblock and clear and every answer of the system: only the stream's own mappings are ever unmapped, each at most once; as long as no error is reported every link obtained is empty or usable; errors are reported in failbit or thrown; set_nonblock changes O_NONBLOCK and nothing else.", "quantifier": "all histories, all answers of the system", "why_tests_cant": "all histories and answers", "anchors": ["fstream.cc:fstream::mmap", "fstream.cc:fstream::munmap", "fstream.cc:fstream::msync", "fstream.cc:fstream::ioctl", "fstream.cc:fstream::set_nonblock"]}
{"id": "C176", "title": "What mappings do not guarantee", "statement": "A file opened for reading can be mapped; a failed mmap gives no usable looking link; a failed munmap keeps the link; set_nonblock reports errors like the other calls.", "quantifier": "all states", "why_tests_cant": "all states", "anchors": ["fstream.cc:fstream::mmap", "fstream.cc:fstream::munmap", "fstream.cc:fstream::set_nonblock"]}
{"id": "C177", "title": "Manipulators", "statement": "After any sequence of manipulators at most one base, one float notation and one alignment is set, the last one inserted; other flags stay once set; the conversion used for numbers is the one asked for last; width, fill and precision are the last ones set and touch no flag.", "quantifier": "all sequences of manipulators, all number types", "why_tests_cant": "all sequences", "anchors": ["sostream.h:ostringstream::iwrite(fmtflags_bits)", "sistream.h:istringstream::iread(fmtflags_bits)", "sostream.h:setw", "sostream.h:setiosflags"]}
{"id": "C178", "title": "setf with a mask; flags that should matter", "statement": "setf(flags, mask) returns the previous flags and changes only flags in the mask; fixed, showpoint, right and internal affect the output.", "quantifier": "all flags", "why_tests_cant": "all flags", "anchors": ["sostream.h:ostringstream::setf", "sostream.cc:ostringstream::fmtstring"]}
{"id": "C179", "title": "TestAndSet is atomic", "statement": "For any number of threads calling TestAndSet on one variable in any interleaving (owners setting it back to 0): at most one thread at a time has had true returned without setting it back; a call returns true exactly if there is no such thread.", "quantifier": "all numbers of threads, all schedules", "why_tests_cant": "every schedule", "anchors": ["uutility.h:TestAndSet"]}
{"id": "C180", "title": "TestAndSet on other processors", "statement": "TestAndSet is atomic on every processor.", "quantifier": "all schedules", "why_tests_cant": "every schedule", "anchors": ["uutility.h:TestAndSet"]}
{"id": "C181", "title": "A vector linked to an array of numbers behaves as a sequence and touches the array only through assignments made while linked", "statement": "For a vector of numbers linked with link (p, n) to the first n of the caller's numbers, with at least one more number behind them: the vector shows those n numbers; after any sequence of push_back, pop_back, insert, erase, resize, assign, clear, reserve (of no less than it shows), shrink_to_fit, deallocate, copy_link and element assignments with valid positions, the vector holds what a sequence under the same operations would hold; the caller's array differs from what it was only at positions assigned through the vector while it was still linked; from the first operation that needs storage on, array and vector are independent; the destructor leaves the array alone.", "quantifier": "every array, every n below its length (at most 2^31 bytes), every element size, every finite sequence of operations and arguments", "why_tests_cant": "the moment at which the vector stops being linked depends on the whole history, and so does which of two places an assignment reaches", "anchors": ["uvector.h:vector<T>::link", "memblock.cc:memblock::reserve", "memblock.cc:memblock::copy_link", "uvector.h:vector<T>::resize"]}
{"id": "C182", "title": "A linked vector leaves the linked objects to their owner", "statement": "A vector linked to an array of objects does not destroy those objects, does not end up releasing what the array still refers to, never reads outside the array, and reserve never loses elements.", "quantifier": "every linked vector and every operation", "why_tests_cant": "needs every element type and position of the array end", "anchors": ["uvector.h:vector<T>::pop_back", "uvector.h:vector<T>::erase", "memblock.cc:memblock::reserve"]}
{"id": "C183", "title": "Programs with several sets and maps keep every one of them correct", "statement": "For several sets (or maps) and every history of default, copy and move construction, copy assignment (also to itself), move assignment, swap, erase by iterator and by iterator range, reading by position, and all set (map) operations on any of them: every call returns what mathematical sets (finite maps) say, each variable holds exactly its own set in strictly ascending order, and an operation changes only the variables it names; a move leaves an empty container in a newly constructed pair and exchanges contents on assignment. An element of the container itself may be passed to insert (nothing changes) and to erase (that element goes).", "quantifier": "every number of variables, every history and argument, every strict weak order, element sizes divisible by 4 and sizes up to 2^31 bytes", "why_tests_cant": "aliasing and leftovers of earlier operations show only in particular histories", "anchors": ["uset.h:set<T,Comp>::operator=", "uset.h:set<T,Comp>::erase", "umap.h:map<K,V,Comp>::operator=", "umap.h:map<K,V,Comp>::erase", "uvector.h:vector<T>::operator="]}
{"id": "C184", "title": "An element of a multiset or multimap can be inserted into it once more", "statement": "m.insert (m.begin()[i]) adds one more copy of that element.", "quantifier": "every multiset and multimap, every element, every capacity", "why_tests_cant": "the failure depends on the capacity, that is on the history of the container", "anchors": ["umultiset.h:multiset<T,Comp>::insert", "umultimap.h:multimap<K,V,Comp>::insert", "uvector.h:vector<T>::insert"]}
{"id": "C185", "title": "Moving a UTF-8 iterator and measuring distances", "statement": "For text that is the encoding of any characters: a utf8in iterator at the beginning moved on by i shows the character with index i (the terminator after the last), base() is the position where that character starts, and b - a is the number of characters from a to b if b is at the end or at a character of one byte.", "quantifier": "all character sequences below 2^31, all indices", "why_tests_cant": "all sequences; every mix of lengths", "anchors": ["utf8.h:utf8in_iterator::operator+=", "utf8.h:utf8in_iterator::base", "utf8.h:utf8in_iterator::operator-"]}
{"id": "C186", "title": "The difference of two UTF-8 iterators is the number of characters between them (violated)", "statement": "For any two utf8in iterators a <= b over valid text, b - a is the number of characters from a to b.", "quantifier": "all character sequences and pairs of positions", "why_tests_cant": "the fault needs a multi-byte character at the second iterator; the end of the text hides it", "anchors": ["utf8.h:utf8in_iterator::operator-"]}
{"id": "C187", "title": "Reading damaged UTF-8 text", "statement": "Reading all characters of a string with any bytes other than FE and FF through utf8in, and its length(), never touches memory outside the string, gives only characters below 2^31, and not more of them than there are bytes. Stray continuation bytes between characters show as one character each and leave the characters around them intact.", "quantifier": "all byte strings without FE and FF; all characters and stray bytes in any order", "why_tests_cant": "all byte strings", "anchors": ["utf8.h:utf8in_iterator::Read", "utf8.h:Utf8SequenceBytes", "ustring.h:length"]}
{"id": "C188", "title": "Damaged UTF-8 text always shows as something, with any bytes (violated)", "statement": "Text with any bytes can be read through utf8in without undefined behaviour, and a malformed character shows as some strange characters.", "quantifier": "all byte strings", "why_tests_cant": "needs particular damage", "anchors": ["utf8.h:utf8in_iterator::Read"]}
{"id": "C189", "title": "UTF-8 iterators over memory input streams", "statement": "With exceptions off for failbit and eofbit, copying from utf8in (is) to the end iterator gives exactly the characters whose encoding the stream holds. With any exceptions, an iterator moved on by n shows the n-th character and leaves the stream just after it, whatever follows.", "quantifier": "all character sequences, all stream states, anything after the text", "why_tests_cant": "all sequences", "anchors": ["mistream.h:utf8in", "mistream.h:istream_iterator::Read", "utf8.h:utf8in_iterator::Read"]}
{"id": "C190", "title": "Copying to a stream through ostream_iterator", "statement": "Copying integers of any width to a memory stream through ostream_iterator puts their bytes there one after another and nothing else changes; if there is too little room, exactly the whole values that fit are written, failbit is set, and stream_bounds is thrown (if exceptions are on) or the rest is dropped (if off).", "quantifier": "all values, widths, buffers and positions", "why_tests_cant": "all buffers and boundaries", "anchors": ["mostream.h:ostream_iterator", "mostream.h:ostream::iwrite"]}
{"id": "C191", "title": "Writing UTF-8 to a stream and reading it back", "statement": "Copying characters to utf8out (os) over a memory stream with enough room puts exactly their encoding there, and utf8in over the same bytes gives the characters back.", "quantifier": "all character sequences below 2^31, buffers and positions", "why_tests_cant": "all sequences", "anchors": ["mostream.h:utf8out", "utf8.h:utf8out_iterator::operator=", "mistream.h:utf8in"]}
{"id": "C192", "title": "Function objects with a memory: for_each, generate, transform, accumulate", "statement": "for_each, generate, generate_n, transform (one and two ranges; in place or to a range before or after) and accumulate call the function object once for each element, from the first to the last, all on one object, so that it sees the effects of its earlier calls; for_each gives it back as it has become. If a call throws, the elements before have been processed, those after have not been touched, and nothing outside the ranges ever changes.", "quantifier": "all function objects with any state and effects, throwing at any call; all ranges and surroundings", "why_tests_cant": "all function objects and all points at which they may throw", "anchors": ["ualgobase.h:for_each", "ualgo.h:generate", "ualgo.h:generate_n", "ualgo.h:transform", "unumeric.h:accumulate"]}
{"id": "C193", "title": "Predicates with a memory: find_if, count_if, copy_if, remove_if, replace_if", "statement": "count_if, copy_if, remove_copy_if, remove_if and replace_if ask the predicate exactly once about each element in order and act on that answer (\"every third element\" works); find_if asks up to the first yes. If the predicate throws, the elements asked about before have been handled and the rest is as it was.", "quantifier": "all predicates with any state and effects, throwing at any call; all ranges", "why_tests_cant": "all predicates and all points at which they may throw", "anchors": ["upredalgo.h:find_if", "upredalgo.h:count_if", "upredalgo.h:copy_if", "upredalgo.h:remove_copy_if", "upredalgo.h:remove_if", "upredalgo.h:replace_if"]}
{"id": "C194", "title": "Construction and destruction in raw storage", "statement": "uninitialized_copy, _move, _fill, _default_construct, _value_construct and their _n forms turn exactly the raw cells of the destination into objects with the right values, one constructor call each (two for value construction), in order, and return the iterator after the last; the sources of a move are left as the move leaves them; destroy and destroy_n end exactly the objects of the range, once each. Nothing else in memory changes. If the k+1st constructor throws, exactly the first k objects have been built. Empty ranges do nothing, also at the null pointer.", "quantifier": "all values, ranges, placements in the lower half of the address space, constructors throwing at any call", "why_tests_cant": "all sizes and all points at which a constructor may throw", "anchors": ["umemory.h:uninitialized_copy", "umemory.h:uninitialized_move", "umemory.h:uninitialized_fill", "umemory.h:uninitialized_default_construct", "umemory.h:uninitialized_value_construct", "umemory.h:destroy"]}
{"id": "C195", "title": "A construction in raw storage that throws leaves the storage raw (violated)", "statement": "If a constructor throws, uninitialized_copy, _move, _fill and _default_construct destroy the objects they have built, so that the destination is raw as before.", "quantifier": "all ranges and throwing points", "why_tests_cant": "the fault needs a constructor that throws at the second object or later", "anchors": ["umemory.h:uninitialized_copy", "umemory.h:uninitialized_fill", "umemory.h:uninitialized_move", "umemory.h:uninitialized_default_construct"]}
{"id": "C196", "title": "The comparator alone decides which elements of a set are the same (violated)", "statement": "In set<T,Comp> and multiset<T,Comp> two values are the same element exactly if neither is before the other under Comp: insert, count, lower_bound, upper_bound, find and erase agree on that, whatever operator== says.", "quantifier": "all histories, elements, strict weak orders and equality operators", "why_tests_cant": "all orders and equalities; needs a comparator coarser than ==", "anchors": ["uset.h:find", "uset.h:erase", "uset.h:insert", "umultiset.h:find", "umultiset.h:erase"]}
{"id": "C197", "title": "The harmless members a set or map inherits from vector", "statement": "pop_back() of a set or map removes its greatest element, front() and back() are the least and the greatest, reserve and shrink_to_fit change nothing that can be seen, deallocate empties it; after any mixture of these with the container's own operations it still is the set or map it should be and every call returns the right thing.", "quantifier": "all histories of own and inherited operations, all strict weak orders", "why_tests_cant": "all histories", "anchors": ["uvector.h:pop_back", "uvector.h:front", "uvector.h:back", "uvector.h:reserve", "uvector.h:shrink_to_fit", "uset.h:set", "umap.h:map"]}
{"id": "C198", "title": "map::find_data", "statement": "find_data(x, first, last) returns the first position of [first, last) whose value is == x, or last if there is none; without last, or without both, it goes to the end and starts at the beginning of the map.", "quantifier": "all histories of a map, values, equality operators and subranges", "why_tests_cant": "all maps and ranges", "anchors": ["umap.h:find_data"]}
{"id": "C199", "title": "A set can only be brought into states in which it is a set (violated)", "statement": "Whatever public members are called, a set is in strictly ascending order and holds no element twice.", "quantifier": "all public operations including the constructors and those inherited from vector", "why_tests_cant": "all sequences of public calls", "anchors": ["uset.h:set", "uset.h:begin", "uvector.h:resize", "uvector.h:front"]}
{"id": "C200", "title": "A string keeps its text whatever the program does with the array it was made from (violated)", "statement": "A string holds its text itself: overwriting or freeing, later, the character array it was constructed, assigned or appended from does not change what the string contains.", "quantifier": "all histories of string operations, all later writes to and frees of the program's own memory", "why_tests_cant": "all histories and all later states of the program's memory", "anchors": ["ustring.cc:string", "ustring.h:string", "ustring.cc:assign", "ustring.cc:append"]}
{"id": "C201", "title": "scope_exit and unique_resource on every path through a program", "statement": "In any program of nested blocks, loops, calls, returns and exceptions, with guards that are moved, assigned, released and reset, every callback given to a scope_exit (deleter given to a unique_resource) is called exactly once or given up by release() exactly once; a guard the rest of its block does not mention acts as a finally clause, and the guards of a block fire in the reverse order of their declaration however the block ends.", "quantifier": "all programs over blocks, loops, calls, return, throw, try and guard operations; callbacks that do not throw for the order and finally clauses", "why_tests_cant": "all programs and all paths through them", "anchors": ["umemory.h:scope_exit", "umemory.h:unique_resource", "umemory.h:make_scope_exit", "umemory.h:make_unique_resource_checked"]}
{"id": "C202", "title": "An exception thrown by a callback reaches the program (violated)", "statement": "If the function of a scope_exit or the deleter of a unique_resource throws when no other exception is under way, the exception propagates to the nearest handler (the noexcept specifications of the destructors and of reset() are conditional on the function).", "quantifier": "all guards, all rests of blocks, all handlers", "why_tests_cant": "needs a throwing callback and a handler around it", "anchors": ["umemory.h:scope_exit", "umemory.h:unique_resource", "uttraits.h:declval"]}
{"id": "C203", "title": "SIMD tuple and matrix operations store exactly their result and disturb nothing else", "statement": "Constructing, swapping, copying, adding and otherwise combining, and rounding the SIMD-accelerated tuples and 4x4 matrices, and the block copy behind copy(), store exactly the element-wise result, write no other memory, do not depend on what the surrounding code had in the vector registers or does to them between two steps, leave the x87 unit usable, and (but for C204) leave every register the program may rely on as it was. This holds also when the operands are the same object.", "quantifier": "all register contents, memory contents, addresses (the same or disjoint objects), all element operations and all behaviours of the surrounding compiled code", "why_tests_cant": "What the compiler keeps in registers depends on the whole surrounding program and its version; a test sees one register allocation.", "anchors": ["simd.h: packop, passign, ipassign, pconvert", "utuple.h: tuple<4,float>", "umatrix.h: tuple<16,float>", "ualgobase.cc: simd_block_copy", "uutility.h: reset_mmx"]}
{"id": "C204", "title": "Values of the program survive packed float operations and load_identity (violated)", "statement": "A SIMD operation changes no register besides those it tells the compiler about. Violated: the packed operations on four floats (padd, psub, pmul, pdiv, pand, por, pxor, pmin, pmax, and tuple += etc.) load their operand into xmm1 but declare only xmm0; load_identity of a 4x4 float matrix overwrites the register it declared as an input only, and gives the identity only if the compiler happened to clear the upper lanes of that register.", "quantifier": "all register contents and addresses", "why_tests_cant": "Whether the clobbered register is in use depends on the caller's compiled code.", "anchors": ["simd.h: STD_SSE_ARGS, SSE_PKOP2_SPEC", "ulaalgo.h: load_identity"]}
{"id": "C205", "title": "Multi-statement SIMD operations do not depend on compiler scheduling (violated)", "statement": "fill() of large blocks and the product of a vector or matrix with a 4x4 float matrix give their result whatever the compiler does with the registers between their asm statements. Violated: the fill value is left in mm0 by one statement and stored by another that does not name it as input; the product leaves the matrix in xmm4..xmm7 and the vector in xmm0 the same way. If the code in between leaves mm0 alone, the blocks are all filled.", "quantifier": "all behaviours of the code between the statements, all values, addresses and block counts", "why_tests_cant": "Depends on the compiler's choice of registers between the statements.", "anchors": ["ualgobase.cc: build_block, simd_block_store, simd_block_fill_loop", "ulaalgo.h: _sse_load_matrix, _sse_transform_to_vector, operator*"]}
{"id": "C206", "title": "A value argument may be an element of the sequence: where it works", "statement": "fill with, and replacing other elements by, an element of the very range; t + t[k] and the like on tuples, arrays and matrices; and, as long as the capacity suffices, v.resize(n,v[i]), v.assign(n,v[i]) with i < n, v.assign of a prefix of v, and inserting elements of v that lie before the insertion point: all use the value the element had before the call.", "quantifier": "all ranges, element positions, values, operations, vectors and capacities", "why_tests_cant": "The function reads the argument again after writing; whether it still has its value depends on the relative positions and the capacity.", "anchors": ["ualgobase.h:fill", "ualgo.h:replace", "upredalgo.h:replace_if", "utuple.h:operator+", "uarray.h:operator+", "umatrix.h:operator+", "uvector.h:resize", "uvector.h:assign", "uvector.h:insert"]}
{"id": "C207", "title": "A value argument may be an element of the sequence (violated)", "statement": "t *= t[k], t /= t[k] (tuple, array, matrix), replace(first,last,a[k],w), v.resize(n,v[i]), v.assign(n,v[i]), v.assign(v.begin()+i,v.begin()+j), v.insert(pos,n,v[i]) and v.insert(pos,v.begin()+i,v.begin()+j) use the value the element had before the call. Violated: dividing by the first element sets it to 1 and leaves all others as they are; replace stops replacing at a[k]; the vector functions read freed memory when they reallocate, destroyed objects when they shrink, and raw storage or the wrong elements when the hole is made in front of them.", "quantifier": "all ranges, element positions, values, operations, vectors and capacities", "why_tests_cant": "The function reads the argument again after writing; whether it still has its value depends on the relative positions and the capacity.", "anchors": ["utuple.h:operator/=", "uarray.h:operator/=", "umatrix.h:operator/=", "ualgo.h:replace", "uvector.h:resize", "uvector.h:assign", "uvector.h:insert"]}
{"id": "C208", "title": "What an exception says about itself", "statement": "An error of any class made with a text returns that text from what(), whatever becomes of the argument afterwards, and info() gives \"<class>: <text>\" (or the caller's format filled in); constructing one never throws - without memory or with a null argument the text is empty. A system_error describes itself as \"<operation>: <message of the error number>\" as long as the operation's text exists, a file_exception as \"<operation> <file>: <message>\" with the first 4095 bytes of the file name, which is always terminated. A copy of an exception says the same.", "quantifier": "all classes, texts, formats without further conversions, error numbers, file names of any length, contents of memory before and after, and both outcomes of the allocation", "why_tests_cant": "The exception is read long after it was made, when the arguments may be gone, and made exactly when memory may be short.", "anchors": ["ustdxept.cc:error_message::error_message", "ustdxept.cc:error_message::info", "ustdxept.cc:system_error::system_error", "ustdxept.cc:file_exception::file_exception", "ustdxept.h:what", "uexception.cc:exception::info"]}
{"id": "C209", "title": "A system_error keeps the name of its operation, what() tells which error, and format() its class (violated)", "statement": "A system_error, file_exception or stream_bounds_exception keeps the name of the operation it was made with; what() tells different errors apart; format() identifies the class also when made from an error code. Violated: the name is a link to the argument, so that one made from a temporary string reads freed memory - as does every copy - or shows whatever is there now; what() is always \"system error\"; a system_error made from an error code carries the format number of error_message, and what it writes fails the assertion of the system_error that reads it.", "quantifier": "all error numbers, operations, contents of memory before and after", "why_tests_cant": "The effect depends on when the exception is read and on what has become of the argument.", "anchors": ["ustdxept.h:system_error", "ustdxept.cc:system_error::system_error", "ustring.cc:string::string", "uexception.cc:exception::read"]}
{"id": "C210", "title": "Numbers in the texts of bad_alloc and stream_bounds_exception", "statement": "bad_alloc names the number of bytes requested (below 2 GB) in decimal; stream_bounds_exception names the type, the operation, the offset in hexadecimal and the numbers of bytes needed and available (each below 4 GB).", "quantifier": "all sizes below the limits, all type names of up to 255 bytes with a readable form of up to 255, all operations", "why_tests_cant": "There are 2^31 and 2^96 combinations.", "anchors": ["uexception.cc:bad_alloc::info", "ustdxept.cc:stream_bounds_exception::info", "uexception.cc:demangle_type_name"]}
{"id": "C211", "title": "Numbers in the texts of bad_alloc and stream_bounds_exception (violated)", "statement": "The texts name the right numbers for every size, and any type name can be shown. Violated: %d, %u and %X print the lower 32 bits of the 64-bit values: a failed allocation of 4 GB is reported as 0 bytes, one of 3 GB as a negative number, and no size of 2 GB or more is ever reported correctly; a type whose readable name has more than 255 characters makes __cxa_demangle reallocate an array on the stack.", "quantifier": "all sizes from 2^31 to 2^64, all offsets from 2^32, all type names", "why_tests_cant": "The wrong texts begin at sizes tests do not allocate.", "anchors": ["uexception.cc:bad_alloc::info", "ustdxept.cc:stream_bounds_exception::info", "uexception.cc:demangle_type_name"]}
{"id": "C212", "title": "Error codes and error conditions", "statement": "error_code and error_condition hold the number they are given - through make_error_code, default_error_condition, equivalent and a system_error - are true exactly if it is not 0, and compare equal, in every combination, exactly if the numbers are the same. Every errc name other than not_supported has the number the C++ standard gives it (Linux), and no two have the same one except operation_would_block and resource_unavailable_try_again (and not_supported, see C213).", "quantifier": "all numbers, categories and names", "why_tests_cant": "Quantifies over all numbers and all pairs of names.", "anchors": ["uerror.h:error_code", "uerror.h:error_condition", "uerror.h:error_category", "uerror.h:errc"]}
{"id": "C213", "title": "errc::not_supported and error categories (violated)", "statement": "errc::not_supported is ENOTSUP, and errors of different categories differ. Violated: not_supported is EINVAL, so that an operation failing with ENOTSUP is not recognised as not_supported and every invalid argument is; and categories are not stored, so that equal numbers are equal errors. (Besides, comparing an error_code with an errc enumerator does not compile: both conversions apply.)", "quantifier": "all numbers and categories", "why_tests_cant": "A wrong constant in a table of 78.", "anchors": ["uerror.h:errc", "uerror.h:error_category"]}
{"id": "C214", "title": "min, max, clamp, minmax and VectorElement", "statement": "min and max return one of their arguments, no larger (smaller) than either; clamp(v,l,h) with l not above h returns v if it lies between them and the nearer bound otherwise; minmax(a,b) refers to both variables, the smaller first; minmax of a list (with or without a comparison) returns two of its elements such that none is smaller than the first or larger than the second; min and max of integers of two types give the smaller and larger number if both types are signed or both unsigned or no number is negative, and the first type can represent it (always the case for the minimum of numbers that are not negative); VectorElement never leaves its array.", "quantifier": "all strict weak orders, values, non-empty lists; all pairs of integer types of 8 to 64 bits and all their values; all array sizes and indexes", "why_tests_cant": "All orders and all pairs of types and values.", "anchors": ["uutility.h:min", "uutility.h:max", "uutility.h:VectorElement", "ualgo.h:clamp", "ualgo.h:minmax"]}
{"id": "C215", "title": "min, max and minmax: mixed types and equal elements (violated)", "statement": "max(a,b) of two integers is the larger one, and of equal elements min and max return the first, minmax keeps the order, and minmax of a list returns the first smallest and the last largest, as in the standard. Violated: a larger second argument that the first one's type cannot represent comes out wrapped (max of an unsigned char 5 and 300 is 44); a negative number against an unsigned one of at least its width counts as huge; min and max return the second, minmax exchanges the two, a list's smallest is the last one, and with a comparison its largest the first.", "quantifier": "all pairs of integer types of 8 to 64 bits and all their values; all orders in which the elements are equal", "why_tests_cant": "Needs particular pairs of types, or elements that are equal but distinguishable.", "anchors": ["uutility.h:min", "uutility.h:max", "ualgo.h:minmax"]}
{"id": "C216", "title": "Rounding floating point numbers to integers", "statement": "simd::fround and simd::pround give the integer nearest to the number, of two equally near ones the even one: float to every integer type but uint32_t, double to int32_t, whenever that integer fits. pround of a container rounds element by element and leaves the rest of the target alone; the accelerated pround of four floats gives the same.", "quantifier": "all floating point values (mantissa and exponent) whose nearest integer fits in the type; containers of any size", "why_tests_cant": "All values, among them the ties.", "anchors": ["simd.h:fround", "simd.h:pround", "simd.h:pconvert"]}
{"id": "C217", "title": "Rounding to uint32_t and rounding doubles (violated)", "statement": "simd::fround and simd::pround give the nearest integer whenever it fits in the type. Violated: floats from 2^31 up are rounded to uint32_t with a signed 32-bit instruction and all become 2^31; a double rounded to any type other than int32_t goes through float first: 16777217.0 becomes 16777216, and a double just below 32767.5 overflows int16_t, which is undefined.", "quantifier": "all floating point values whose nearest integer fits in the type", "why_tests_cant": "Needs large or particular values.", "anchors": ["simd.h:fround"]}
{"id": "C218", "title": "Moving a range within a list by splice", "statement": "l.splice(ip, l, first, last) with the list itself as source and ip behind the range moves the range in front of the element at ip and keeps all others in order, provided the list has room for size() + (last - first) elements.", "quantifier": "all lists, ranges and later positions; element sizes that are multiples of four", "why_tests_cant": "All ranges and capacities; tests splice different lists.", "anchors": ["ulist.h:splice", "uvector.h:insert", "memblock.cc:insert"]}
{"id": "C219", "title": "Merging a list with itself, moving a range forward (violated)", "statement": "l.merge(l) gives every element twice, and l.splice(ip, l, first, last) moves the range wherever ip is outside it. Violated: l.merge(l) puts size() default elements in front; moving a range to an earlier place moves the elements in front of the range instead (or is undefined, if ip is nearer than the length of the range), and any splice of own elements that needs more memory reads freed memory.", "quantifier": "all lists, ranges and positions", "why_tests_cant": "Needs the same list as source and target.", "anchors": ["ulist.h:merge", "ulist.h:splice"]}
{"id": "C220", "title": "Programs with several vectors", "statement": "Any program over several vectors - operations of one vector, container algorithms, copy assignment, copy and move construction, swap, append, insertion and assignment of another vector's range, copy_if / remove_copy / remove_copy_if through back_inserter, copy / unique_copy / transform to a position of another vector, fill, find, count and the binary searches - reads and leaves what the same program on mathematical sequences would, and never changes a vector that a statement does not name.", "quantifier": "all finite programs over any number of vectors, all element values, all equivalence and strict weak order arguments", "why_tests_cant": "The interplay of operations on several objects (aliasing of storage after copy, move and swap) depends on the history; tests use short histories.", "anchors": ["uvector.h:operator=", "uvector.h:swap", "uctralgo.h:copy", "uctralgo.h:transform"]}
{"id": "C221", "title": "Room reserved in advance keeps pointers valid; growth is amortised", "statement": "After reserve (or at any point where capacity() already suffices) a memblock, string or vector that is edited keeps its data() and capacity() as long as no statement needs more than that capacity and none replaces the object's storage on purpose (swap, move, link, manage, deallocate, shrink_to_fit): pointers and iterators into it stay valid. Filling an empty vector with push_back calls realloc at most 1 + log2 (bytes) times, for less than four times the bytes of the result altogether.", "quantifier": "All histories before and after the point, all numbers of objects, all element sizes and values, all capacities up to 2^31 bytes.", "why_tests_cant": "A test sees one sequence of edits and one allocator; whether some sequence moves the storage needs every sequence.", "anchors": ["memblock.cc:reserve", "memblock.cc:resize", "uvector.h:push_back", "ustring.h:push_back"]}
{"id": "C222", "title": "Appending to a string character by character is amortised (violated)", "statement": "Building a string of n characters with push_back or += allocates in proportion to n.", "quantifier": "All n and all characters.", "why_tests_cant": "Cost over all lengths is a statement about every n.", "anchors": ["ustring.h:push_back", "ustring.cc:resize", "memblock.h:resize"]}
{"id": "C223", "title": "Objects that own each other through shared_ptr are deleted when the last way to them goes", "statement": "In a program whose objects have shared_ptr members that point to other objects (trees, lists, shared sub-structures), built and changed by make_shared, copying, moving (swapping) and resetting pointers at any place reached through any chain of members: no object is deleted while it can be reached from a variable, none is deleted twice, and, as long as the pointers form no cycle, each operation deletes at once exactly the objects that it makes unreachable; the destructors of whole structures may run inside each other.", "quantifier": "every program over any number of variables and objects with any number of members, at any depth, and every place named by a path of members", "why_tests_cant": "The set of possible object graphs and programs is infinite; a test sees one graph, and a count that is off by one shows only in the history that drops the last owner.", "anchors": ["umemory.h:shared_ptr", "umemory.h:make_shared", "uatomic.h:atomic"]}
{"id": "C224", "title": "Moving a shared_ptr lets go of the old object; every unreachable object is deleted (violated)", "statement": "After p = move(q) for shared_ptrs the object p held before has lost that owner and q is empty, so that for example head = move(head->next) drops the first element of a list; and every object that becomes unreachable is deleted. Violated: move assignment swaps, so q keeps the old object of p alive; head = move(head->next) makes the first element own itself and leaks it for good; objects that own each other in a cycle are never deleted.", "quantifier": "every program as in C223, and every continuation of it", "why_tests_cant": "That an object is never deleted is a statement about all continuations of the program.", "anchors": ["umemory.h:shared_ptr"]}
{"id": "C225", "title": "Algorithms on two integer ranges give numeric answers when the first type can hold all the numbers", "statement": "search, find_first_of, includes, set_union, set_intersection, set_difference, set_symmetric_difference and lexicographical_compare, called without a comparison object on two ranges of integers that may have different types, answer by the numbers in the ranges (the first place where the second range stands in the first, the first element that is in the second, multiset inclusion, union, intersection and difference, dictionary order), provided that the element type of the first range can represent every number of both.", "quantifier": "all integer types of 8 to 64 bits, signed or not, all ranges of any length with numbers in the range of the first type (in order for the set operations)", "why_tests_cant": "The number of pairs of ranges and types is unbounded; a test picks a few pairs, usually of one type.", "anchors": ["ualgo.h:search", "ualgo.h:find_first_of", "ualgo.h:includes", "ualgo.h:set_union", "ualgo.h:set_intersection", "ualgo.h:set_difference", "ualgo.h:set_symmetric_difference", "ualgo.h:lexicographical_compare", "ufunction.h:equal_to", "ufunction.h:less"]}
{"id": "C226", "title": "Algorithms on two integer ranges compare the numbers in the ranges (violated)", "statement": "The algorithms of C225 answer by the numbers in the two ranges whatever the two types. Violated: the comparison object is made for the element type of the first range, so that each number of the second range is first converted to it; for every number v that the first type cannot represent there is a different number w that is reported as equal to v: find_first_of, search and search_n find v in a range that holds only w, includes says that v is in {w}, set_difference removes w because of v, set_union drops v.", "quantifier": "all integer types of 8 to 64 bits, every number that the first type cannot represent", "why_tests_cant": "The failure needs two ranges of different types with a number outside the first; tests use one type.", "anchors": ["ualgo.h:search", "ualgo.h:search_n", "ualgo.h:find_first_of", "ualgo.h:includes", "ualgo.h:set_union", "ualgo.h:lexicographical_compare", "ufunction.h:equal_to"]}
{"id": "C227", "title": "A shared_ptr operation that runs out of memory changes nothing", "statement": "In any history of shared_ptr operations in which any of the allocations of the count block fail, a failing constructor or reset throws bad_alloc, deletes nothing and leaves every shared_ptr as it was; all other operations do what they would do in the program without the failed ones, and every object that a successful operation took over is deleted exactly once or still owned.", "quantifier": "every history of operations on any number of shared_ptrs, and every choice of allocations that fail", "why_tests_cant": "The failing allocations can be any subset of those of any history; tests run with memory.", "anchors": ["umemory.h:shared_ptr"]}
{"id": "C228", "title": "An object given to a shared_ptr is deleted even if there is no memory for its count (violated)", "statement": "shared_ptr<T>(p), reset(p) and make_shared<T>() take over the object: if they throw bad_alloc for want of the count block, the object is deleted. Violated: an object that was given only to operations that failed is never deleted, whatever the program does next; for make_shared no one even has its address.", "quantifier": "every history as in C227 and every object given to failing operations only", "why_tests_cant": "That an object is never deleted is a statement about every continuation, and the failure needs an allocation to fail between two.", "anchors": ["umemory.h:shared_ptr", "umemory.h:make_shared"]}
{"id": "C229", "title": "Smart pointers compare by the address of what they point to (violated)", "statement": "== on smart pointers tells whether they hold the same object (or both none), < orders them by its address and the conversion to bool tells whether there is one, in every state of a program; for a shared_ptr it makes no difference which count block an object has or whether a null has one. Holds for shared_ptr and unique_ptr; violated for auto_ptr, whose < is the reverse of the order of the addresses.", "quantifier": "all states of programs with any number of pointers, all objects and addresses", "why_tests_cant": "The states and pairs of addresses are unbounded, and which of two objects has the lower address is not in the test's control.", "anchors": ["umemory.h:shared_ptr", "umemory.h:unique_ptr", "umemory.h:auto_ptr"]}
{"id": "C230", "title": "The 3DNow! product of a vector and a matrix is the portable one", "statement": "On a processor with 3DNow! and without SSE, tuple<4,float> * matrix<4,4,float> gives the four numbers that the same product gives without processor extensions, whatever the rounding of addition and multiplication as long as x*y is y*x; it changes nothing else in memory, changes no register that it does not declare to change, and leaves the x87 unit usable.", "quantifier": "all vectors, matrices, addresses, register contents and commutative multiplications", "why_tests_cant": "The inputs are unbounded and the statement has to hold whatever the compiler keeps in registers; the code is built only for processors that no test machine has.", "anchors": ["ulaalgo.h:operator*"]}
{"id": "C231", "title": "A string converts to its C string", "statement": "After every history of modifying operations, the conversions of a string to const char* and to char* (which assert that the string is terminated) succeed and give a C string with the string's bytes up to its first zero; for a string without zeros, exactly its text. Only a string that was moved from, and is empty, is excepted.", "quantifier": "every history of operations on any number of strings", "why_tests_cant": "The conversions read one byte beyond the string, which the history has to have put there; histories are unbounded.", "anchors": ["ustring.h:string"]}
{"id": "C232", "title": "A string that was moved from is still an empty C string (violated)", "statement": "After string t (move(s)) or a swap with such a string, s can be used where a char* is wanted, as an empty string. Violated: the conversion to char* fails its assertion and the one to const char* gives a null pointer, which no function for C strings accepts, though the default constructor gives the literal \"\".", "quantifier": "the strings that were moved from in any history", "why_tests_cant": "A test of moving checks the target; what the source is good for depends on the rest of the program.", "anchors": ["ustring.h:string"]}
{"id": "C233", "title": "Small tuples handled as one integer are still tuples of elements", "statement": "The tuples of four and eight bytes that are default constructed, copied, converted, swapped and added as one integer behave as tuples of elements do: zero elements, the source's elements converted to the target's signedness, elements exchanged (also of a tuple with itself), the element sums wrapped; and no byte outside the tuples changes.", "quantifier": "all element sizes and counts, all memory contents, all addresses, all operations of two elements", "why_tests_cant": "That nothing outside changes, and that byte order and sign never mix up elements, is a claim about all memory contents.", "anchors": ["utuple.h:LONG_TUPLE_SPECS", "utuple.h:UINT32_TUPLE_SPECS"]}
{"id": "C234", "title": "str() gives the text before the position, wherever seekp moved it", "statement": "In every history of writes, flushes, clears, seeks (from the beginning or the position, to a place before the position) and str() calls on a new ostringstream, every str() gives exactly the text before the position: what was written, with everything beyond a seek's target cut off and replaced by what was written after it. Given memory and texts below 2^31 bytes.", "quantifier": "every history of operations and every text", "why_tests_cant": "Positions, buffer sizes and the str() calls in between combine without bound.", "anchors": ["sostream.h:ostringstream", "mostream.h:ostream::seekp"]}
{"id": "C235", "title": "Going back in an ostringstream loses no text (violated)", "statement": "Moving the position back and forth, and looking at the text with str(), changes nothing. Violated: str() after seekp (0) is empty; a str() there writes a zero over the byte at the position, which shows after a seek to the end; and after a formatted number the end is one byte beyond the text, so that a seek to the end inserts a zero byte.", "quantifier": "every history with a seek", "why_tests_cant": "The losses depend on the order of seeks, str() calls and formatted writes.", "anchors": ["sostream.h:ostringstream", "sostream.cc:ostringstream::overflow"]}
{"id": "C236", "title": "str (s) replaces the text of a stream, and writing continues behind it", "statement": "Whatever was written to a new ostringstream, sought in it and asked of it before, os.str (v) for a string v other than its own buffer makes its text that of v, and in every history after that the stream behaves as one with that text: str() gives it, what is written is appended to it. Given memory and texts below 2^31 bytes.", "quantifier": "every history before and after, every string", "why_tests_cant": "The buffer the text is copied to has whatever size and origin the history before left it with.", "anchors": ["sostream.h:ostringstream", "sostream.cc:ostringstream::str"]}
{"id": "C237", "title": "An istringstream is a text with a position", "statement": "In every history of getline, >> string, get (p, n), get (), peek (), unget (), tellg (), seekg (), str (), str (s) and clear () on an istringstream over a text, each call gives exactly what it gives of a text and a position in it: lines and words up to the delimiters set, the next character, the position, the whole text; seekg goes to the place named (counting backwards from the end), str (s) replaces the text and goes to its beginning. Asked for are characters where there are some and places within the text; clear () comes before going back after a read that may have met the end; words are read from texts without quotes.", "quantifier": "every text, delimiter list and history of calls", "why_tests_cant": "The position after a read depends on the text; reads, seeks and new texts combine without bound.", "anchors": ["sistream.h:istringstream", "mistream.h:istream::seekg"]}
{"id": "C238", "title": "Going back in an istringstream makes it good again (violated)", "statement": "After a read met the end of the text, seekg to a place before the end leaves a stream that says good () and eof () false, since characters can be read (as in standard C++ since 2011 for eof). Violated: the position moves, but eofbit and failbit stay until clear () is called, so a loop while (is.good ()) reads nothing though text is left.", "quantifier": "every text, every place before its end", "why_tests_cant": "The flags left by a read that met the end show only in the history after it.", "anchors": ["mistream.h:istream::seekg", "mistream.cc:istream::underflow"]}
{"id": "C239", "title": "The string from istringstream::str () is a text of its own (violated)", "statement": "The string that str () of an istringstream returns can be used as any string, in particular converted to const char*. Violated: it is linked to the memory the stream reads, which has no zero after the text unless the memory came from a string; the conversion then reads the byte after the text (outside the block when the text ends it) and asserts that it is zero.", "quantifier": "every text and every memory after it", "why_tests_cant": "What follows the text in memory is not part of the text a test looks at.", "anchors": ["sistream.h:istringstream", "ustring.h:string"]}
{"id": "C240", "title": "A copy of an ostringstream is a stream of its own (violated)", "statement": "ostringstream can be copied; the copy has the original's text, and what is done with one does not affect the other. Violated: the copy's view points to the original's buffer. A character written to the copy while there is room lands in the original's memory, appears in the original's text when its position moves on, and is undefined behaviour once the original is destroyed; and after seekp () and str () on the original not even its text is copied.", "quantifier": "every history of the original that leaves room, every character", "why_tests_cant": "Whether the copy writes to the original's memory depends on the room the original's history left.", "anchors": ["sostream.h:ostringstream", "memlink.h:memlink"]}
{"id": "C241", "title": "swap exchanges two ostringstreams (violated)", "statement": "a.swap (b) of two ostringstreams exchanges their texts. Violated: swap is ostream's and exchanges the views and positions but not the buffers: str () of the first then gives as many bytes of its own text as the other had written, and each writes into the other's buffer.", "quantifier": "every history of the streams", "why_tests_cant": "The loss shows only in what is written and asked for after the exchange.", "anchors": ["mostream.h:ostream::swap", "sostream.h:ostringstream"]}
{"id": "C242", "title": "A copy of an fstream does not close the original's file (violated)", "statement": "fstream can be copied, and each of the two closes only what it has opened. Violated: the implicit copy constructor copies the descriptor number; the destructor of the copy closes the descriptor, after which the original still says is_open (); the original's destructor then closes it again, which fails its assertion, or, if another file was opened in between, closes that file.", "quantifier": "every descriptor table, every open fstream and every answer of close(2)", "why_tests_cant": "What the second close hits depends on the files opened in between.", "anchors": ["fstream.h:fstream", "fstream.cc:fstream::~fstream"]}
{"id": "C243", "title": "An ostringstream returned from a function goes on where it was", "statement": "Moving an ostringstream (returning it from a function, pushing it into a container) gives a stream with the same text, position and state; after the one it was moved from is destroyed, every further history of writes, seeks and str () gives what it would have given on the original. Given memory and texts below 2^31 bytes.", "quantifier": "every history before and after the move", "why_tests_cant": "The position, buffer and room at the move are any a history can leave.", "anchors": ["sostream.h:ostringstream", "ustring.h:string"]}
{"id": "C244", "title": "A moved-from ostringstream has no part in the new one (violated)", "statement": "After an ostringstream was moved from, writing to it does not affect the stream it was moved to. Violated: the view is copied, not taken: while there is room, what is written to the moved-from stream lands in the memory that now belongs to the other, and appears in its text.", "quantifier": "every history that leaves room, every character", "why_tests_cant": "Needs room in the buffer, which the history before decides.", "anchors": ["sostream.h:ostringstream", "memlink.h:memlink"]}
{"id": "C245", "title": "With copies of an ofstream each byte is written once (violated)", "statement": "ofstream can be copied; what was written before the copy goes to the file once. Violated: the copy has the same view of the original's buffer and the same descriptor: both write the pending text when they are flushed or destroyed, and writing moves the bytes in the memory that is the other's, which then writes garbage.", "quantifier": "every text pending when a copy is made", "why_tests_cant": "Depends on what is pending and on the room in the buffer at the time of the copy.", "anchors": ["ofstream.h:ofstream", "ofstream.cc:ofstream::~ofstream"]}
{"id": "C246", "title": "A value declared with LOOKUP_TEXT_STREAMABLE prints as its name", "statement": "With a table that has at least one name, writing a value of a type declared LOOKUP_TEXT_STREAMABLE to an ostringstream prints Names[value]; a value that is negative or not less than nNames prints the last name; no value reads outside the table, and a sequence of values prints its names one after the other.", "quantifier": "every non-empty table, every sequence of 64-bit values, every stream", "why_tests_cant": "The values out of range and the negative ones are 2^64 - n.", "anchors": ["strmsize.h:LOOKUP_TEXT_STREAMABLE", "sostream.h:ostringstream::iwrite"]}
{"id": "C247", "title": "LOOKUP_TEXT_STREAMABLE is safe for every table (violated)", "statement": "Printing a value never reads outside of the table of names. Violated for the empty table: nNames-1 becomes the largest offset.", "quantifier": "every value, with the empty table", "why_tests_cant": "Needs an argument about all values.", "anchors": ["strmsize.h:LOOKUP_TEXT_STREAMABLE"]}
