{
 "C10": {
  "note": "The full claim is false of the code (C10_..._refuted: upredalgo.h:227 tests comp(*found,value)); the _partial theorem states what it computes for every sorted range."
 },
 "C17": {
  "note": "False of the code: pop() uses operator< (uheap.h:145). C16 proves the property for the default comparator."
 },
 "C23": {
  "note": "False of the code: on ties the second range goes first; the _partial theorem gives the exact order for all inputs."
 },
 "C28": {
  "note": "False of the code: an occurrence at the start of the range is missed. Proved for all other positions; missing exactly position 0 (and the empty pattern)."
 },
 "C21": {
  "note": "False of the code on x86: copy_backward_fast corrupts or crashes on short misaligned ranges, and so does rotate_fast, which string::insert/erase and memlink use. Proved for copy_n, fill_n, and rotation in the good cases (all 4-aligned ranges) and for the memmove build."
 },
 "C41": {
  "note": "False of the code: unumeric.h adjacent_difference never advances first, so it writes past the output for every range of two or more elements (undefined behaviour for every input). The _partial theorem covers ranges of at most one element."
 },
 "C42": {
  "note": "False of the code: power(x,n,op) starts from the integer 1 rather than op's identity, so even n is wrong when 1 is not a left identity of op. The _partial theorem covers every odd n and every op with 1 as left identity."
 },
 "C43": {
  "note": "NextPow2(1)=2, Rol/Ror by 0 (undefined shift) and pack_type of a negative value refute parts; the rest proved for all values."
 },
 "C54": {
  "note": "False of the code on x86 for element sizes that are not multiples of 4 (C21): inserting into vector<char> corrupts or crashes. Proved for every history over elements of size 4k, and for any size when insert/erase are not used or their byte moves avoid the faulty cases; total size at most 2^31 bytes (beyond: C35)."
 },
 "C58": {
  "note": "False of the code: the reference is read after the storage was reallocated or shifted. The _partial theorem covers push_back within capacity."
 },
 "C11": {
  "note": "proved for every element type of two bytes or more, up to 2^31 bytes; set<char> refuted (C21), sized constructor refuted; any strict weak order"
 },
 "C12": {
  "note": "proved for element sizes divisible by 4, up to 2^31 bytes; erase of 2-byte elements refuted; any strict weak order"
 },
 "C13": {
  "note": "all histories up to 2^31 bytes of pairs (beyond that C35); any strict weak order"
 },
 "C14": {
  "note": "proved for pair sizes divisible by 4, up to 2^31 bytes; erase of 2-byte pairs refuted; any strict weak order"
 },
 "C34": {
  "note": "proved for every history over any number of blocks with sizes up to 2^31; refuted: copy-on-write of a link reads one byte past it, reserve below the size of a linked block, byte moves of insert (C21)"
 },
 "C35": {
  "note": "False of the code above 2^31 (NextPow2 wraps to 1) and for string::reserve(SIZE_MAX); proved for all other n and every block"
 },
 "C56": {
  "note": "equality for all blocks; write/read round trip between any two blocks of any history, and into links to the caller's memory"
 },
 "C59": {
  "note": "proved with sizes up to 2^31 for memory blocks and strings; without the restriction on link it is refuted"
 },
 "C29": {
  "note": "sequences: proved; strings: proved below 2^31 bytes, refuted from 2^31 on (length difference converted to int)"
 },
 "C36": {
  "note": "proved for all histories of 29 operations within the stated preconditions; refuted: shrink_to_fit, reserve on a moved-from string, c_str() of a moved-from string"
 },
 "C37": {
  "note": "proved for all histories within preconditions (distinct arguments, below 2^31, erase starting inside, byte moves that C21 gets right); refuted: insert(pos, string), assign/append of itself, erase beyond the end, insert hitting C21; a length of SIZE_MAX (npos of the standard library) with a position inside the string wraps, and substr writes through a null pointer"
 },
 "C38": {
  "note": "proved; strings below 2^31 bytes; refuted for the empty pattern (npos)"
 },
 "C39": {
  "note": "byte and set searches proved for non-empty strings; rfind of a string refuted (misses starts 0 and 1, matches ending after pos, empty pattern); empty string refuted (reads out of bounds)"
 },
 "C57": {
  "note": "proved for histories that do not write in place to linked strings; refuted for equal-length replace and at()=. Memory blocks: C34's theorem"
 },
 "C02": {
  "note": "both length formulas proved equal for all 32 bit values; agreement with the encoder for all characters below 2^31 (above, the encoder is undefined: C03)"
 },
 "C03": {
  "note": "False of the code: the encoder shifts by 36 bits"
 },
 "C04": {
  "note": "all texts below 2^31 bytes, target string with any history, any stream flags"
 },
 "C06": {
  "note": "False for 8-byte elements in a buffer not aligned to 8 (ostream aligns addresses, istream positions); proved for all element sequences otherwise, as sequences and into vectors with any history"
 },
 "C08": {
  "note": "False of the code: without a terminator the position advances by one even past the end, and later reads are undefined. Proved when a terminator is present."
 },
 "C61": {
  "note": "Strings have alignment 1 (uspecial.h:236). False for a pair whose half with the greater alignment is itself a pair without a half of alignment 4 (pair<pair<string,uint8_t>,uint8_t>), for pairs with 8-byte integers and for nested containers of them (four witnesses); proved for all storable types, nested to any depth, including tuples and arrays nested anywhere"
 },
 "C62": {
  "note": "False for lead bytes FE/FF (shift overflow) and for quiet streams at their end (uninitialised length); proved otherwise"
 },
 "C33": {
  "note": "False of the code when Size is not a multiple of 32: set() and flip() touch the unused bits, which count, any and none include. Proved for histories that leave them alone."
 },
 "C63": {
  "note": "False of the code for the same reason as C33; one direction holds for all histories, the other for tidy ones"
 },
 "C64": {
  "note": "at is right; set only adds bits (refuted), right if the range was zero. Ranges ending at a word boundary fail the assertion."
 },
 "C30": {
  "note": "Proved for all histories over any number of queues (copies excluded: C31); restriction: twice the elements fit 2^31 bytes (C35)."
 },
 "C31": {
  "note": "False of the code: the copy constructor copies the popped elements still in the vector but resets _front, so they are delivered again. Proved when nothing was popped from the source, or it is empty."
 },
 "C55": {
  "note": "all operations including sort (of qsort only the ISO C contract is assumed); False for list<char> insertion and remove(l.front())"
 },
 "C65": {
  "note": "Proved for all histories, total size at most 2^31 bytes (C35)."
 },
 "C66": {
  "note": "Proved for all histories without copies (C31)."
 },
 "C67": {
  "note": "False of the code: equality compares the vectors including the popped elements and _front. Proved when neither queue has been popped since its construction."
 },
 "C46": {
  "note": "Proved for every dimension and element type (associativity and identity for commutative rings) in the generic code. False of the code for matrix<4,4,float> on x86: the SSE transform shuffles with $0x66 instead of $0x55, so columns 0 and 2 use element 2 in place of element 1. Non-square load_identity also sets elements off the diagonal. Float rounding is not modelled."
 },
 "C68": {
  "note": "False of the code for elements with several representations of one value (vector<string>): equality compares the raw bytes. Proved for element types with one representation per value."
 },
 "C69": {
  "note": "Proved except: array op= initialiser list reads N elements of a shorter list."
 },
 "C70": {
  "note": "False of the code: generic psubs of signed elements does not saturate upwards, signed pavg is wrong in both versions, the one-operand operations discard their results. Proved: modular and bit operations for all types, everything for unsigned types, the MMX saturating/min/max operations for signed types. The three-operand versions do not compile when instantiated; float lanes are not modelled."
 },
 "C47": {
  "note": "Every history over any number of variables; the count wraps at 2^64 owners, hence the hypothesis. Move assignment swaps (umemory.h:194), so the old object lives on in the moved-from pointer: the specification counts that as an owner. Copy assignment (umemory.h:195) does not compile and is not modelled. bad_alloc in shared_ptr (p) is not modelled."
 },
 "C48": {
  "note": "Holds for auto_ptr, unique_ptr, unique_resource, scope_exit. Refuted for unique_ptr<T[]> with assertions on: reset asserts p != _p without the exception for null that unique_ptr has, so moving a null pointer into a null one aborts."
 },
 "C71": {
  "note": "Refuted: --refs and the test for zero are two atomic operations (uatomic.h:73 returns a reference, 68 loads from it), so two threads can both see zero. Proved for every schedule: never deleted early, never leaked; and for the schedules without two overlapping releases: no undefined behaviour."
 },
 "C49": {
  "note": "For every schedule; a schedule that ends is a system call that never returns."
 },
 "C50": {
  "note": "Proved for every history and schedule when the stream does not throw on errors (the default). False with exceptions(failbit): bytes accepted before the error are written again. Blocks limited to 2^30 bytes; text of a formatted number is given."
 },
 "C51": {
  "note": "Proved for every history from a default-constructed stream. False for ostringstream(\"literal\") (writes to the literal) and for a linked stream after str() (stale copy)."
 },
 "C72": {
  "note": "Delivery proved; the error part is false: the file's error never reaches the stream state and flush doubles the buffer until bad_alloc."
 },
 "C73": {
  "note": "read proved; readsome proved for n > 0; readsome(p,0) sets eof|fail in the middle of the file."
 },
 "C52": {
  "note": "False of the code in general: ostringstream::fmtstring (sostream.cc:35-67) writes the digits of width and precision reversed (setw(12) asks for 21, setw(10) for zero padding to 1) and puts the flags after the width. Proved: the format always fits its 16-byte buffer, and it is the intended conversion exactly for widths/precisions that read the same in both directions without flags after a width; and the exact reversed meaning in general. What the C library then prints is not modelled."
 },
 "C53": {
  "note": "Proved for every text, delimiter set (fewer than 15) and sequence of requests: lines (with gcount), words of plain characters, characters into arrays; and for every sequence of words and quoted strings with escapes, separated by any delimiters (C53_tokens_partial). Refuted: an escaped backslash makes the next character escaped too (sistream.cc:158-167); get(p,0) writes a byte; the last unterminated line or word is read with failbit set."
 },
 "C74": {
  "note": "get/ungetc/peek proved at every position before the end, ignore for every n and delimiter, bool before a delimiter. Refuted: at the end peek() steps back and get() gives 0, not EOF (read() falls back on get(p,1,0)); gcount() after ignore(); bool at the end of the text leaves its last character."
 },
 "C75": {
  "note": "Proved for all sequences of integers in the range of long separated by default delimiters with a terminating NUL after the text, and for the conversions to the narrower types. Refuted: unsigned long >= 2^63 is clamped; 010 is octal; text that is no number is read as 0 with the stream good and not moved; strtol reads beyond a view that is not NUL-terminated. Floating point is not modelled."
 },
 "C76": {
  "note": "Lines, words and characters proved for every content, buffer size and schedule without errors. Refuted: read(p,n) with unread bytes in the buffer overwrites them (ofstream.cc:141 br = oldPos); a number at the end of a portion is replaced by what follows."
 },
 "C77": {
  "note": "Proved for every pair of units one of which is a multiple of the other, and as partial correctness for all; false in general: count*num overflows although the result is representable (weeks to months). Floating point representations are not modelled."
 },
 "C78": {
  "note": "Stated for seconds within +-2^62, where sums cannot overflow."
 },
 "C79": {
  "note": "Units between (such as 1.5 s) are C81."
 },
 "C80": {
  "note": "False of the code: ++ does not carry at 999999999 ns (uchrono.h:193 tests >), / adds the remainder of the seconds undivided (uchrono.h:235), unary - leaves a negative nanosecond part, * overflows early. The _partial theorems state the inputs on which each is right."
 },
 "C81": {
  "note": "False of the code for negative counts, counts whose nanosecond product overflows, units finer than a nanosecond, and targets such as 1.5 s; _partial: non-negative counts of units of whole nanoseconds without overflow."
 },
 "C82": {
  "note": "iterators are positions in an array; a position outside [0, size] is undefined behaviour"
 },
 "C83": {
  "note": "violated: the differences have the wrong sign, reverse() over reverse iterators does nothing, lower_bound over them is undefined, and + and - of move_iterator are exchanged"
 },
 "C84": {
  "note": "element size a multiple of 4 (the byte mover for others is C54's subject); below 2^31 bytes, enough memory"
 },
 "C85": {
  "note": "the C library's qsort is universally quantified over functions meeting the ISO C contract (QsortSpec.v)"
 },
 "C86": {
  "note": "violated: the argument is ignored and a default constructed object used instead; a function pointer is then indeterminate; not stable for some conforming qsort"
 },
 "C87": {
  "note": "the pointer overload of rotate runs the byte-level model of C21; proved equal to the generic code for these sizes"
 },
 "C88": {
  "note": "violated: stable_sort of four chars a c d b crashes at every aligned address, stable_partition of shorts and partial_sort_copy into chars or shorts crash"
 },
 "C89": {
  "note": "the bound holds for every array in a position independent program; beyond it see C90"
 },
 "C90": {
  "note": "violated: count %= 32 counts elements although a block is 32 bytes, so up to 24 elements past the end are overwritten"
 },
 "C91": {
  "note": "element sizes divisible by four, sizes up to 2^31 bytes, enough memory; arguments are not references into the vector (C55)"
 },
 "C18": {
  "note": "The generic code; the overloads that pointers select are C87 and C88."
 },
 "C19": {
  "note": "The generic code; the overloads that pointers select are C87 and C88."
 },
 "C92": {
  "note": "C92_format is the history theorem, C92_format_result the call (return value, bytes, terminator). The excluded cases are C93."
 },
 "C93": {
  "note": "Refuted three ways. An empty text on a string without own storage (a new string, or one linked to a literal): resize(0) allocates nothing, so 0 >= capacity() forever. A string that reserved more than 2^30 bytes: capacity() = 2^31 is a negative int, so rv >= wcap forever. A failing conversion: rv = -1, resize(size_t(-1)) wraps in reserve and the terminator is written at data()[-1]."
 },
 "C94": {
  "note": "C94_one_byte: every step is injective in the running value (a rotation by 7 plus a constant) and in the byte."
 },
 "C95": {
  "note": "Proved for every integer mode; flags are those of Linux on x86. Modes without in or out are in C97."
 },
 "C96": {
  "note": "Proved. The two conditions on the schedule are the ones C97 shows to be needed. The kernel gives the lowest free number, as POSIX asks."
 },
 "C97": {
  "note": "Refuted, each part. On Linux close(2) interrupted by a signal has already released the descriptor, so the retry closes what another thread opened meanwhile. With exceptions on, a failed close while reopening leaks the new descriptor and leaves the old, released number to be closed again. Reopening clears the new name. ate becomes O_APPEND, so writing after seek(0) goes to the end. app or ate alone gives access mode 3, with which neither reading nor writing is possible."
 },
 "C98": {
  "note": "Proved. A crash is of the process, not of the machine. The cases excluded are in C99."
 },
 "C99": {
  "note": "Refuted, each part: fstream::write returns a short count on EAGAIN without setting a state bit and write_file ignores the count; the file is truncated before it is written; memblock::read_file calls memblock::resize, which is not virtual, so a string gets no terminator; reserve() on a linked block keeps a size larger than the storage until the final resize, which an exception skips."
 },
 "C100": {
  "note": "Proved for total sizes below 2^32. The type name in stream_bounds_exception is written as a pointer value, so it has a meaning only in the process that wrote it."
 },
 "C101": {
  "note": "Proved with exceptions on, streams below 4 GB and a frame count of at most 64. Refuted otherwise: the count is not checked against the array of 64 frames, and with exceptions off a text size of 2^32-1 wraps the size of the allocation to 0."
 },
 "C102": {
  "note": "Proved; names without zero bytes and newlines, the text below 4 GB. What happens with other descriptions is in C103."
 },
 "C103": {
  "note": "Refuted. With a '+' before the '(' (for example a program in /usr/g++/) the length of the name is negative and is converted to an unsigned size; a name that demangles to more than 255 characters makes __cxa_demangle reallocate a local array."
 },
 "C104": {
  "note": "Proved. Assignment and exceptions without symbols are in C105."
 },
 "C105": {
  "note": "Refuted: operator= passes _symbols, which is null when malloc failed or there is no execinfo.h, to strdup; and does not free the old block."
 },
 "C106": {
  "note": "Proved. The element sizes and the 2^31 bytes limit are those of C54."
 },
 "C107": {
  "note": "Proved. push_back, insert and leaks are in C108."
 },
 "C108": {
  "note": "Refuted: append_hole and insert_hole change the size before the element is constructed, so afterwards the vector contains a hole that its destructor destroys; resize and the constructors do not destroy what they have constructed."
 },
 "C109": {
  "note": "Linearizability for all interleavings of any programs of calls; sums and tickets as corollaries. The gcc builtins are taken with the contract of the gcc manual; one memory seen by all threads."
 },
 "C110": {
  "note": "Linearizability with arbitrary spurious failures; bound on the number of turns for every schedule without spurious failures."
 },
 "C111": {
  "note": "Default memory order (seq_cst): one memory seen by all threads."
 },
 "C112": {
  "note": "False of the code: the operators return the object, and its conversion to T loads it again (uatomic.h:68-78)."
 },
 "C113": {
  "note": "False of the code: the one order is also passed as failure order, for which the builtin forbids release and acq_rel."
 },
 "C114": {
  "note": "For the histories of C34 (same restrictions on positions, sizes up to 2^31 and the byte moves of C21)."
 },
 "C115": {
  "note": "For the histories of C36/C37 (same restrictions)."
 },
 "C116": {
  "note": "False of the code: it clears the string before append asks for memory. C115 states what is left: an empty string."
 },
 "C117": {
  "note": "History refinement on bytes and on characters; the byte-move hypothesis is the one of C37 (C21)."
 },
 "C118": {
  "note": "Two refutations."
 },
 "C119": {
  "note": "proved; pointers are functions into memory, null pointers not modelled"
 },
 "C120": {
  "note": "proved"
 },
 "C121": {
  "note": "refuted by a computed example"
 },
 "C122": {
  "note": "proved"
 },
 "C123": {
  "note": "proved for a model of overload resolution over argument categories"
 },
 "C124": {
  "note": "refuted for every variable and value"
 },
 "C125": {
  "note": "Texts without quotes and escapes; up to 14 delimiters as the array has room for; numbers in the long range (others are clamped by strtol)."
 },
 "C126": {
  "note": "The theorems give what is visited instead: all but the last item."
 },
 "C127": {
  "note": "Little-endian integers of any width; buffers under 2^62 bytes."
 },
 "C130": {
  "note": "A regular file used by nobody else, not opened with O_APPEND; offsets do not overflow."
 },
 "C131": {
  "note": "No write fails or returns 0, exceptions off (the default), seeks not to before the beginning, not O_APPEND; memory may run out (bad_alloc)."
 },
 "C132": {
  "note": "Words without quotes or escapes; numbers are C133."
 },
 "C133": {
  "note": "The eof theorem is for every file without a line end; the others are instances."
 },
 "C134": {
  "note": "Directly after reading a character; otherwise C137. Words without quotes or escapes."
 },
 "C135": {
  "note": "Buffers and offsets under 2^61."
 },
 "C136": {
  "note": "For all non-empty buffers under 2^61 bytes."
 },
 "C137": {
  "note": "An instance."
 },
 "C138": {
  "note": "Proved for the template programs read as functions on type terms. The class hierarchy is a parameter of which only the order laws are assumed. Seq is proved for lists that do not end in NullType (its default arguments cannot tell)."
 },
 "C139": {
  "note": "Refuted on concrete lists."
 },
 "C140": {
  "note": "Template pattern matching is modelled by functions over type terms; what 'T const' means for arrays, references and functions is the language's and modelled as such. Unions are not modelled (is_class is the compiler's __is_class)."
 },
 "C141": {
  "note": "Refuted at the types named."
 },
 "C142": {
  "note": "x86-64 Linux sizes."
 },
 "C143": {
  "note": "Refuted; digits for every signed type, digits10 for every integer type."
 },
 "C144": {
  "note": "Proved for one-dimensional element lists; an array of arrays is a nested TArr. Element types with the alignment problems of C61/C145 are excluded by 'storable'."
 },
 "C145": {
  "note": "Violated: the alignment reported for an array is 4 whatever its elements need, so the element is written at offset 4 and the alignment assert fails; a tuple of the same element works."
 },
 "C146": {
  "note": "The buffers of the two streams are assumed not to overlap."
 },
 "C147": {
  "note": "Violated for every such pair of streams: write() refuses, and the input is then moved to its end unconditionally."
 },
 "C148": {
  "note": "The contents of the inserted gap are whatever was at the end of the buffer. Other offsets run into the rotation defect (C149_odd_refuted)."
 },
 "C149": {
  "note": "Violated: only start+n <= end is asserted; pos+n may pass the end (remaining() wraps, the next write is out of bounds), pos-n may wrap below 0, and erasing unwritten bytes takes n bytes from the written ones."
 },
 "C150": {
  "note": "Both stream classes."
 },
 "C152": {
  "note": "Streams over memory; C153 is about files."
 },
 "C153": {
  "note": "Refuted: when the first portion ends inside a character, asking for the rest replaces the bytes of the first portion in the buffer."
 },
 "C154": {
  "note": "Default formatting flags; memory assumed sufficient."
 },
 "C155": {
  "note": "C156 is about types with strings."
 },
 "C156": {
  "note": "Refuted: strings are written without quotes or escapes."
 },
 "C157": {
  "note": "Exceptions are off (the default of ofstream)."
 },
 "C160": {
  "note": "False on all counts: see the five refutations."
 },
 "C162": {
  "note": "False: the unread bytes in the buffer are delivered first (C162_old_bytes_first says exactly which) and also after close()."
 },
 "C163": {
  "note": "False: it returns -good(), i.e. -1 exactly when the stream is good, and discards what was read ahead."
 },
 "C165": {
  "note": "False: both operators compile to a comparison of the two addresses; < and > read through a null pointer."
 },
 "C167": {
  "note": "strtol and strtoul are modelled after ISO C. Floating point is not modelled."
 },
 "C168": {
  "note": "False: the value is clamped, truncated, negated or 0, silently."
 },
 "C170": {
  "note": "False for n = 0 and 1, and for the length SIZE_MAX."
 },
 "C172": {
  "note": "False: with the coarser unit on the left it does not compile, and a long duration compared with one of a finer unit overflows."
 },
 "C173": {
  "note": "printf is modelled after ISO C; the stream has its default settings."
 },
 "C174": {
  "note": "False for every negative time with a fraction; min() is nearly a second above the least time."
 },
 "C176": {
  "note": "False on all counts."
 },
 "C178": {
  "note": "False on all counts."
 },
 "C179": {
  "note": "x86, where xchgl is one step; sequentially consistent memory."
 },
 "C180": {
  "note": "False: the version for processors other than x86 is a load and a store."
 },
 "C181": {
  "note": "Built-in element types (destroy does nothing for them). The array is larger than the linked part; see C182 for the case without a byte to spare, and for reserve of less than the linked size."
 },
 "C182": {
  "note": "All four fail. pop_back and erase destroy the caller's objects; after push_back the vector destroys bitwise copies of objects the caller still has; reserve (1) on a linked vector of three ints leaves size() 3 over a four byte block; a vector linked to the whole of an array reads one byte behind it when it first grows."
 },
 "C183": {
  "note": "The order of the elements in the specification means nothing; the k-th element is the one with k smaller ones."
 },
 "C184": {
  "note": "False whenever the insertion reallocates: the reference dangles. True while the capacity suffices (the position is always behind the element)."
 },
 "C185": {
  "note": "For b at a longer character see C186."
 },
 "C186": {
  "note": "False: one too many whenever b is at a character of more than one byte and a is before it."
 },
 "C187": {
  "note": "FE and FF: C188."
 },
 "C188": {
  "note": "False: FE or FF starts a sequence of 7 or 8 bytes whose value does not fit into a wchar_t (signed shift overflow), and a character cut off by the end of the string is not visited at all."
 },
 "C189": {
  "note": "With exceptions on, reaching the end throws (C128)."
 },
 "C190": {
  "note": "Positions are multiples of the width when assertions are on."
 },
 "C191": {
  "note": "Characters from 2^31 on: C03."
 },
 "C192": {
  "note": "The function object does not touch the arrays except through its argument."
 },
 "C193": {
  "note": "replace_copy_if has no return statement (undefined)."
 },
 "C194": {
  "note": "Pod types: default construction gives zero bytes and cannot throw."
 },
 "C195": {
  "note": "False: the objects stay alive and the caller cannot tell how many there are. A caller who does know can destroy them (C195_recoverable_partial)."
 },
 "C196": {
  "note": "False for find and set::erase(v), which ask operator== (uset.h:49, umultiset.h:51): with an order that ignores case insert(\"A\") refuses because \"a\" is there, find(\"A\") is end() and erase(\"A\") does nothing. Everything else is right (the _partial theorems). map and multimap use Comp throughout (C13, C14)."
 },
 "C197": {
  "note": "pop_back, front and back need a container that is not empty."
 },
 "C199": {
  "note": "False: set(n) holds n equal default elements (n >= 2) and count() says n; begin() of a non-const set gives a plain T*, front(), back(), at() and operator[] plain references, so a store puts it out of order; then find misses elements that are there."
 },
 "C200": {
  "note": "True of every string that has its own storage, in particular after assign (p, n) and append (the _partial theorems). False of string (const char*) and of copies of such a string: they link to the array, so the text changes with the array and reading it after the array is gone is undefined."
 },
 "C201": {
  "note": "The loops have fixed counts and the programs no conditions: a run of a program with conditions is a run of one without. The order of destruction is the language's."
 },
 "C202": {
  "note": "False: the condition is noexcept (declval<F>()), which asks whether making an F throws, not whether calling one does, and is always true; the program ends in std::terminate."
 },
 "C203": {
  "note": "Each asm statement is a list of instructions of a small machine plus its clobber list."
 },
 "C204": {
  "note": "Refuted, with the identity proved for a register holding 1 0 0 0."
 },
 "C205": {
  "note": "Refuted; the fill with quiet gaps is proved by induction on the number of blocks."
 },
 "C206": {
  "note": "Unlinked vectors; element sizes that are multiples of 4 for insert (see C21, C54)."
 },
 "C207": {
  "note": "Exact results are proved for every case; C207_compound_partial says exactly when compound assignment is right. What is missing is the claim itself, which is false."
 },
 "C208": {
  "note": "That string::format yields the text of its format is C92; strerror is an arbitrary function."
 },
 "C209": {
  "note": "Exact results for every argument; the read failure for a concrete exception."
 },
 "C210": {
  "note": "__cxa_demangle is an arbitrary function; printf as in XTextModel."
 },
 "C211": {
  "note": "Exact wrong values for every size."
 },
 "C212": {
  "note": "errno numbers of Linux, x86."
 },
 "C214": {
  "note": "minmax(a,b,comp) of two variables does not compile: an identical overload is deleted."
 },
 "C216": {
  "note": "Infinities and NaN are not modelled; default rounding mode."
 },
 "C218": {
  "note": "Element sizes that are multiples of four (others: C55)."
 },
 "C220": {
  "note": "Element sizes that are multiples of four (others: C55). Sources of the two-vector operations are distinct from the target except where stated (own ranges: C181 ff.)."
 },
 "C224": {
  "note": "umemory.h:194: operator= (shared_ptr&&) swaps, so the moved-from pointer keeps the old object; popping a list by head = move(head->next) leaks the node."
 },
 "C226": {
  "note": "ualgo.h:488-588: the default comparison is equal_to/less of the first range's value type, so the elements of the second range (or the value of search_n) are narrowed first: find_first_of on bytes {66,65} with ints {321} finds the 65."
 },
 "C228": {
  "note": "umemory.h:177, 187, 211: when new container(p) throws, p is not deleted; make_shared leaks the object it just made."
 },
 "C229": {
  "note": "umemory.h:54: auto_ptr::operator< returns p._p < _p, so a < b holds when a's address is the higher."
 },
 "C232": {
  "note": "ustring.h:221 and memblock.h:53: the move constructor leaves s with a null pointer, not linked to \"\"; ustring.h:277 asserts end(), so (char*) s aborts, and (const char*) s is null."
 },
 "C235": {
  "note": "sostream.h:70-71: flush() resizes the buffer to pos(), so str() after seekp (0) is \"\" and the byte there is overwritten with 0; sostream.cc:121-139 and 160-171: vformat() asks overflow() for one byte more than the text, so seekp (0, ios_base::end) goes one place too far."
 },
 "C238": {
  "note": "mistream.h:181-206: seek () and seekg () set only the position; eofbit and failbit set by a read at the end (mistream.cc:69 istream::underflow) stay, good () is false with characters remaining."
 },
 "C239": {
  "note": "sistream.h:55: str () links the result to the stream's memory; ustring.h:268-272: operator const_pointer asserts that the byte after the text is 0. With a stream over a memory block without terminator the assert fails or the read is out of bounds."
 },
 "C240": {
  "note": "sostream.h:19-88 with memlink.h:44: the implicit copy constructor copies the view (pointer and size) of the original and deep-copies _buffer without relinking the view to it. os2 (os1); os2 << 'x' writes to os1's buffer; after ~os1 to freed memory. The string copy takes only _buffer.size () bytes, which str () and flush () had set to an earlier position."
 },
 "C241": {
  "note": "mostream.h:80: swap () exchanges the memlink and _pos; ostringstream does not override it, so _buffer, _flags and the state stay where they were."
 },
 "C242": {
  "note": "fstream.h:23-68 declares a destructor that closes, but neither forbids nor defines copying: fstream g (f) shares _fd; both destructors close it (fstream.cc:48-54), the second one asserts or closes a stranger's descriptor. ofstream and ifstream contain an fstream and copy it likewise."
 },
 "C244": {
  "note": "memlink.h:44: memlink has a copy constructor and so no move constructor; the implicit move of ostringstream leaves the view and position of the source as they were, while _buffer (ustring.h:221) is taken from it."
 },
 "C245": {
  "note": "ofstream.h:18-43 declares a virtual destructor that flushes, but no copy constructor: a copy of cout with \"hi\" pending prints it twice; with a number pending the second flush prints a zero byte and the first digit, because ostream::erase (mistream.cc:119) of the copy rotated the original's buffer."
 },
 "C247": {
  "note": "strmsize.h:88: min(uoff_t(v),uoff_t(nNames-1)) with nNames 0 is v itself: Names[v] is read from an empty table."
 }
}