# Formal model of msharov/ustl in Rocq (Coq 8.16.1)

## Trusted base

* Coq's kernel (`coqc` 8.16.1, `vm_compute` included) and the reading of the
  statements in `rocq/theories/P_*.v` together with the specification files
  (`*Spec.v`, `Order.v`, and the outcome type of `Base.v`).
* `Print Assumptions` is run beneath every property theorem; the result for
  every one of them is "Closed under the global context" (no axiom at all).
  The only libraries used are Coq's own standard library modules (`ZifyBool`
  imports Coq's bundled ssreflect; its `under` lemmas are not used by any theorem,
  as `Print Assumptions` confirms).
* The correspondence between the C++ text and the Gallina definitions.  It is
  by reading: every definition cites file and lines.  It is not machine-checked.

## How C++ is represented

* `outcome` (Base.v): `Ok` normal return, `UB` undefined behaviour (reading or
  writing outside the storage the model gives to the code, over-wide shifts),
  `Exn e` a C++ exception, `NoFuel` the model's loop bound ran out.  Theorems
  conclude `= Ok ...`, so they exclude UB, exceptions and non-termination.
* Iterators/pointers are indices into a flat array; a range inside it is
  written `pre ++ l ++ post` with arbitrary `pre` and `post`, so every such
  theorem also says that nothing outside the range is read (otherwise the
  result would depend on it or be UB) or changed.
* Forward-only algorithms work on the list of the elements still to be read.
* Fixed-width integers are `Z` (or `N`) values with explicit wrapping.
* Templates are modelled once, polymorphically: element type `A`, comparison
  `lt : A -> A -> bool`, predicate `A -> bool`.
* The operating system (file I/O) is an arbitrary sequence of results
  (universally quantified).
* Theorem files `P_*.v` contain the property theorems, `Print Assumptions`
  beneath each, and non-vacuity `Example`s; lemmas are in `*Proofs.v`, `*Facts.v`,
  `*Run.v` and the like.  Counterexamples to claims
  the code violates are theorems `..._refuted`; weaker true claims `..._partial`.

## Modelled and not modelled

The machine is x86-64 with gcc, `config.h.in` as configured there (`__x86__`,
MMX/SSE paths where the preprocessor selects them, `WANT_UNROLLED_COPY`),
`-std=c++14`, assertions on unless a theorem says otherwise.

| source | model files | left out |
|---|---|---|
| ualgo.h, upredalgo.h | RangeModel, ArrayModel | for_each, generate |
| uheap.h | HeapModel | |
| unumeric.h, uutility.h, ualgobase.cc (popcount) | NumericModel, UtilModel | |
| ualgobase.h/.cc (byte moves) | ByteModel | the fills with stores that bypass the cache are modelled as plain stores |
| uvector.h, umemory.h construct/destroy | StoreModel, VectorModel, VecEqModel | elements whose constructors throw (see VecExcModel) |
| uset.h, umultiset.h, umap.h, umultimap.h | AssocModel | iterators as objects |
| cmemlink, memlink, memblock | MemModel | mmap; read_file, write_file are in DiskModel |
| ustring.h/.cc | StringModel, StringFindModel, StrFmtModel | wide inserts |
| utf8.h | Utf8Model | |
| mistream, mostream, uctrstrm.h, strmsize.h | StreamModel, SerialModel | ostream::insert/erase |
| ubitset.h, uspecial.h | BitsetModel | text form of a bitset |
| uqueue.h, ustack.h | QueueModel | |
| ulist.h | ListModel | |
| umatrix.h, ulaalgo.h | MatrixModel | float rounding |
| utuple.h, uarray.h, simd.h | TupleModel | float lanes |
| umemory.h smart pointers, uatomic.h | PtrModel | |
| fstream.cc | FileModel, FdModel | seek, ioctl, mmap |
| sostream, ofstream | OStrModel, FmtModel | what vsnprintf prints for a number |
| sistream, ofstream (input) | IstrModel | strtod; wchar_t input |
| uchrono.h | ChronoModel | floating point representations, text form, system calls |
| uiterator.h | IterModel | iterator_traits |
| ualgo.h, upredalgo.h (sort, nth_element) | QsortModel | qsort itself: assumed to do what ISO C says |
| ualgo.h, upredalgo.h on pointers | PtrAlgoModel | |
| ualgobase.cc fill_n16_fast, fill_n32_fast | FillModel | movntq as plain stores |
| uctralgo.h | CtrModel (and ListModel) | fill on a container (C89) |
| ustring.cc:321-347, 386-393 (vformat, format, hash) | StrFmtModel | what vsnprintf prints: its C99 contract |
| fstream.cc 19-127, uios.h 41-55 | FdModel | |
| cmemlink.cc 50-57, memblock.cc 144-154 | DiskModel | |
| uexception.cc, uexception.h, ustdxept.cc, ustdxept.h, bktrace.cc | ExcModel | |
| uvector.h, umemory.h, memblock.cc with exceptions | VecExcModel | elements whose destructors throw |
| uatomic.h | AtomicModel | orders weaker than seq_cst across several objects; post-increment (does not compile in C++14: it returns a non-copyable object by value) |
| memblock.cc, ustring.cc, ustring.h with failing allocations | MemExcModel | |
| ustring.cc:144-167, ustring.h:105, 111, 121, 140, utf8.h:180-193 | WideModel | the bytes of one character are stored at once |
| ufunction.h:50-83,134-462; upair.h:35-37,61-72; uutility.h:189-207; umap.h:12-20 | FuncModel | mem_fun adaptors, ptr_fun (calls of the user's function) |
| mistream.h:107-167 istream_iterator | IsIterModel | value types other than words and fixed-width integers |
| fstream.cc:131-143,191-211, ofstream.cc:70-76,171-178, ofstream.h:28,55-61 | PosModel | O_APPEND, pipes, other users of the file |
| typelist.h, typet.h | TypelistModel | the compiler's overload test behind SuperSubclass (a parameter) |
| uttraits.h, traits.h, ulimits.h, uutility.h:95-117 | TraitModel | floating limits, the traits that ask the compiler (is_pod, has_*), common_type, enable_if |
| mistream.cc:26-30,36-39,100-104,113-124, mostream.h:73, memlink.h:75-93, uiosfunc.h:19-57, ubitset.h:124-128 | XferModel | streams that share a buffer |
| sistream.h:33, sistream.cc:110-122, sostream.cc:106-111, uspecial.h:117-123, ubitset.h:126 | WTextModel | - |
| uctrstrm.h:112-130, uspecial.h:71-76, 140-167, sostream.h:28-50, 111-117, 129-143, sostream.cc:113-118, ualgobase.cc:284 | CtxtModel | floating point, wchar_t, pointers; formatting flags other than the default |
| ofstream.cc:47-60; ofstream.h:22,27; fstream.cc:64-80,110-128 | LifeModel | names, descriptor table (FdModel), other writers of the descriptor |
| ofstream.h:50,51; ofstream.cc:91-97,162-168; sistream.h:71 | LifeInModel | failures of close(2), exceptions |
| ustring.cc:99-105,123-127; ustring.h:112-126,131,146-156,281-287,300-310,322-364 | StrOpsModel | floating point conversions, locale |
| uchrono.h:36-38,91-118,126-128,143-171,246,252-257,283-311 | ChronoOpsModel | floating point representations, ctime |
| fstream.cc:214-263 | SysModel | contents of mappings, offsets, sizes of files |
| sostream.h:23-27,119-125,179-211; sistream.h:27-31,87-93; uios.h:17-36 | ManipModel | - |
| uutility.h:228-244 | TasModel | weak memory orders, sparc |
| uvector.h:74-104, 126-183, 225-309 on linked vectors; memblock.cc:57-95 | VecLinkModel | link (vector), a second link on an owning vector |
| uset.h:37-41, 64-74; umap.h:54-58, 84-90; uvector.h:89, 110-112, 201-254 | AssocFamModel | hints (ignored by the code), emplace |
| utf8.h:106-117, 126-147; mistream.h:277-285; mostream.h:107-145 | Utf8Model, Utf8IterModel | iterators of different streams (positions are compared, C129) |
| ualgobase.h:119-125; ualgo.h:96-122, 157-176; upredalgo.h:16-39, 85-107, 133-156; unumeric.h:24-30, again with effects | FunObjModel | function objects that change the arrays behind the algorithm's back |
| umemory.h:307-409, 440-502 | RawModel | get_temporary_buffer (alloca); iterators that are not pointers |
| uvector.h:50, 78-86, 134-137, 179-198 as inherited by uset.h, umap.h; umap.h:73-74, 116-122; the sized constructors | AssocVecModel | erase, insert and iteration as inherited are those of VectorModel |
| umemory.h:216-300 in programs with exceptions; uttraits.h:271 | ScopeModel | Callbacks are numbers and an exception; local variables only |
AsmModel
AsmModel
AsmModel

Not modelled anywhere: overload resolution, `typeinfo`, localised messages,
`cout/cin/cerr` globals, operator new replacement (`unew.cc`), the build system.

## Property by property

| id | model | proof |
|---|---|---|
| C01-C03 | utf8.h encoder/decoder iterators over byte lists, 32-bit wrap explicit | arithmetic per length class; induction over the sequence; C03 refuted by a witness above 2^31 |
| C04-C06 | ustring.cc, cmemlink.cc, uctrstrm.h write/read over the stream model | induction over elements; alignment lemmas |
| C07-C08 | mistream.h/.cc, mostream.h: position/size arithmetic with bounds checks | invariant over all operation histories; C08 refuted |
| C09, C10 | `lower_bound`, `upper_bound`, `equal_range`, both `binary_search` (ArrayModel.v) | binary search invariant on partitioned ranges; C10 refuted with a witness and characterised |
| C11-C14 | uset.h, umultiset.h, umap.h, umultimap.h on sorted vectors | refinement to an abstract set/bag/map over operation histories |
| C15-C17 | uheap.h (HeapModel.v) | heap-with-a-hole invariant; history refinement to a bag; C17 refuted |
| C18-C20, C22, C23, C25 | ArrayModel.v | loop invariants on `pre ++ l ++ post` |
| C21 | ualgobase.cc byte moves with addresses | case analysis on alignment; refuted for short misaligned ranges |
| C24, C26, C27, C28, C29 | RangeModel.v, ArrayModel.v | induction over ranges |
| C30, C31, C65-C67 | uqueue.h, ustack.h | history refinement to a list; C31, C67 refuted |
| C32, C33, C63, C64 | ubitset.h on 32-bit words | bit-level lemmas over `Z.testbit`; refuted for sizes not multiple of 32 |
| C34, C35, C54, C56-C59 | cmemlink, memlink, memblock, uvector.h as a heap-cell model | invariant over histories over any number of blocks |
| C36-C39 | ustring.h/.cc on the block model | per-operation specification + invariant over histories |
| C40-C42 | unumeric.h | induction; C41, C42 refuted |
| C43, C44 | uutility.h, ualgobase.cc popcount | arithmetic over Z; bit-sliced induction for popcount |
| C45 | uratio.h | rational arithmetic over Z |
| C46 | umatrix.h, ulaalgo.h | sums over any ring-like element operations; SSE version refuted |
| C47, C48, C71 | umemory.h, uatomic.h with a heap of counters | invariant over histories; all interleavings of atomic steps for C71 |
| C49, C50, C72, C73 | fstream.cc, ofstream.cc with an arbitrary OS schedule | induction over the schedule, invariant over histories |
| C51, C52 | sostream | invariant over histories; C52: digits by induction, the C library's format parser as specification |
| C53, C74, C75 | sistream | each read is compared with a function of the text not yet read; induction over texts and requests |
| C76 | ifstream | the same, with the text = unread part of the buffer ++ rest of the file; invariant of underflow |
| C55 | ulist.h | refinement to sequences |
| C60 | ustring.h, utf8.h character counts and positions | induction over sequences of characters |
| C61, C62 | uctrstrm.h, strmsize.h, utf8 lengths | induction over types (nesting) and values |
| C68 | vector/operator== on raw bytes | representation relation |
| C69, C70 | utuple.h, uarray.h, simd.h (generic and MMX) | lane-wise arithmetic |
| C77-C81 | uchrono.h: duration_cast, hrtime_t, casts between them, 64-bit overflow as UB | arithmetic over Z with truncating division; refuted: ++, /=, unary -, casts of negative and of sub-nanosecond times |
| C82, C83 | uiterator.h adaptors as positions in an array, stepping outside it is UB | induction over the walk; C83 refuted for every pair of distinct positions |
| C84 | insert iterators over the vector model of C54 | invariant of C54 kept by each assignment; induction over the copied sequence |
| C85, C86 | sort as a call of an arbitrary qsort with the adapter as callback | the adapter of a strict weak order is consistent in the sense of ISO C; C86 refuted |
| C87, C88 | the algorithms with the pointer overloads of rotate and copy_backward over the byte model of C21 | simulation: every call of the byte-level rotate equals the generic one; C88 refuted |
| C89, C90 | fill_n_fast for 2- and 4-byte values as byte stores, with the misplaced parenthesis of the source | exact number of elements written for every address and length; C90: more than n from some lengths on |
| C91 | uctralgo.h over the vector model; sort through an arbitrary conforming qsort | one lemma per algorithm that the vector invariant of C54 is kept and the result is right; induction over the history with a relational specification |
| C92-C94 | StrFmtModel: vformat as a fuelled loop over the contract of vsnprintf (C99 7.19.6.12); the loop is shown to end in two rounds by the capacity after resize; the failing conversions loop for every fuel or are UB; hash_step is shown to be a bijection of the 32-bit numbers for a fixed byte, and injective in the byte | StrFmtModel, StrFmtProofs, P_StrFmt |
| C95 | om_to_flags with the Linux constants; the 9 relevant bits are separated from the rest, then all 512 values are computed | FdModel, FdSpec, FdProofs, P_Fd |
| C96 | a kernel table of descriptors with ghost lists of files opened, closed and detached by fstreams; schedules of answers; invariant over histories | FdModel, FdSpec, FdProofs, P_Fd |
| C98 | files as byte lists, a schedule that answers every system call and whose end is a crash; the memory block histories of C34 extended by write_file and read_file | DiskModel, DiskSpec, DiskProofs, P_Disk |
| C100 | Byte-exact model of write/read of every exception class on the stream model; round trip by composing chunk lemmas (ExcProofs wch_seq/rch_seq) | ExcModel, ExcSpec, ExcProofs, P_Exc |
| C101 | Safety of reading arbitrary bytes; two counterexample families | ExcModel, ExcSymProofs, P_Exc |
| C102 | Model of extract_abi_name, GetSymbols and text_write with backtrace_symbols and __cxa_demangle as arbitrary functions | ExcModel, ExcSymProofs, P_Exc |
| C103 | Counterexample families | ExcModel, ExcSymProofs, P_Exc |
| C104 | State machine of variables owning symbol blocks, invariant live = owned | ExcModel, ExcSymProofs, P_Exc |
| C105 | Counterexamples | ExcModel, P_Exc |
| C106, C107, C108 | The vector of C54 in a state-and-exception monad: a schedule answers every allocation and every construction or assignment of an element; programs are trees that branch on exceptions; one lemma per operation for arbitrary storage behind the elements | VecExcModel, VecExcSpec, VecExcProofs, P_VecExc |
| C109-C113 | uatomic.h as builtins of gcc on a shared memory, threads as state machines taking turns in any order | linearizability by an invariant with the order found so far; lock freedom by a potential function; mutual exclusion by the invariant that the flag is set iff exactly one thread is inside | AtomicModel, AtomicSpec, AtomicProofs, AtomicLockProofs, P_Atomic |
| C114-C116 | memblock and string operations in a state-and-exception form; a schedule answers every realloc; programs are trees branching on exceptions | one lemma per operation: it has the result of the model of C34/C36 or throws and changes nothing; then the invariants of C34/C36 by induction over the program | MemExcModel, MemExcSpec, MemExcProofs, MemExcStr, P_MemExc |
| C117 | wide edits as room + stores of the encoder's bytes in the string's memory; simulation against byte lists, then against character lists through the encoding | Wide*, P_Wide |
| C118 | computed counterexample; general proof of undefined behaviour for the upper half | Wide*, P_Wide |
| C119-C122 | functors as functions over an arbitrary < and ==; pair::operator< as written | order laws by case analysis; composed with the sorting and searching theorems | FuncModel, FuncSpec, FuncProofs, P_Func |
| C123, C124 | argument categories, halves that own or refer; memory as a list of variables | case analysis | FuncModel, P_Func |
| C125-C129 | istream_iterator over the text streams and the binary istream: the whole loop from stream to end iterator | IsIterModel, IsIterSpec, IsIterProofs, IsIterNum, P_IsIter |
| C130-C137 | positions: the file is its bytes and an offset (PosSpec); the transfers are those of FileModel, placed at the offset; ofstream and ifstream on top with their buffers | PosModel, PosProg, PosSpec, PosInSpec, PosProofs, PosOut, PosIn, P_Pos, P_PosIn |
| C138, C139 | The typelist templates as recursive functions over type terms, list functions as the specification | TypelistModel, TypelistSpec, TypelistProofs, P_Meta |
| C140-C143 | C++ types as terms with qualifiers; the traits' partial specialisations as functions; numeric_limits against two's complement value sets | TraitModel, TraitSpec, P_Meta |
| C144 | c_array/c_bitset/c_long4 codecs over the stream model; round trip from the generic 'good codec' lemma, bitsets through the history invariant of C32 | SerialModel, XferModel, XferProofs, P_Xfer |
| C145 | same codecs; counterexample vector<array<uint64_t,1>> {{5}} | P_Xfer |
| C146 | both streams as a pair of states in the io monad | XferModel, XferProofs, P_Xfer |
| C147 | general refutation over C146's model | P_Xfer |
| C148 | rotate_cells (the SIMD rotation model of C18) on the stream's buffer | XferModel, XferProofs, P_Xfer |
| C149 | general refutation for insert, counterexamples for erase | P_Xfer |
| C150 | iterated reads over the stream invariants of C74/C76 | WTextModel, WTextSpec, WTextProofs, P_WText |
| C151 | induction over the bits left, composed with C51 for what was written | WTextModel, WTextProofs, P_WText |
| C152 | induction over the characters with the UTF-8 facts of C25 | WTextModel, WTextProofs, P_WText |
| C153 | counterexample with a read(2) that returns the euro sign in two portions | P_WText |
| C154 | induction over the type, composed with C51 | CtxtModel, CtxtSpec, CtxtProofs, P_Ctxt |
| C155 | unique decoding of the text by induction over the type | CtxtSpec, CtxtProofs, P_Ctxt |
| C156 | counterexample | P_Ctxt |
| C157 | LifeModel adds open, close and the destructor to the ofstream of OStrModel; invariant between files: nothing pending; inside a file the invariant of C50 with the answers extended | LifeModel, LifeSpec, LifeProofs, P_Life |
| C158 | one round of flush on an accepting file delivers everything, even if the memory then runs out; the file stays accepting along the history (LifeKeep) | LifeKeep, P_Life |
| C159 | case analysis of open and close for an arbitrary state | P_Life |
| C160 | counterexample runs of LifeModel | P_Life |
| C161 | the ifstream invariant of C76 re-established by open() when nothing is buffered | LifeInModel, LifeInSpec, LifeInProofs, P_LifeIn |
| C162 | counterexamples and the general statement of what is read after open() | P_LifeIn |
| C163 | sync computed for every stream satisfying the ifstream invariant | P_LifeIn |
| C164 | StrOpsModel writes the operators as the code does (strlen, compare); the specification is bytewise lexicographic order | StrOpsModel, StrOpsSpec, StrOpsProofs, P_StrOps |
| C165 | the overload that the compiler finds is modelled: the built-in comparison of addresses | P_StrOps |
| C166 | copy construction and += of StringModel composed, invariant of C36 | StrPlus, P_StrOps |
| C167 | strtol as digit loop with the base, value specified by place value | StrNumProofs, P_StrOps |
| C168 | counterexample families | P_StrOps |
| C169 | the functions against slices | StrOpsProofs, P_StrOps |
| C170 | counterexample families | P_StrOps |
| C171 | the overload that remains is the one for one unit with the implicit conversion; cross multiplication | ChronoOpsModel, ChronoOpsSpec, ChronoOpsProofs, P_ChronoOps |
| C172 | counterexample families | P_ChronoOps |
| C173 | decimal notation specified by place value | ChronoOpsProofs, P_ChronoOps |
| C174 | counterexample families | P_ChronoOps |
| C175 | kernel with a mapping table and a schedule of answers; invariant: every link is empty, failed, or a live mapping of its own | SysModel, SysSpec, SysProofs, P_Sys |
| C176 | counterexamples | P_Sys |
| C177 | bits of the flags, induction on the sequence; composed with the format of C52 | ManipModel, ManipSpec, P_Manip |
| C178 | counterexamples | P_Manip |
| C179 | transition system, invariant: the variable is 0 iff nobody owns it | TasModel, P_Tas |
| C180 | schedule of two threads | P_Tas |
| C181 | The vector is VectorModel's plus the caller's array and a flag; the taking over of the linked bytes is memblock::reserve; refinement to a pair (array, sequence) by induction over the operations | VecLinkModel, VecLinkSpec, VecLinkProofs, P_VecLink |
| C182 | Counterexamples, for any element type where possible | VecLinkModel, P_VecLink |
| C183 | Generic family of strictly ascending vectors over the container's own step function; Forall2 invariant; ranks | AssocFamModel, AssocFamSpec, AssocFamProofs, P_AssocFam |
| C184 | From the reallocation test of insert_hole | AssocFamModel, AssocFamProofs, P_AssocFam |
| C185 | Characters as a list with the terminator as one more; induction on the distance | Utf8Model, Utf8IterModel, Utf8IterProofs, P_Utf8Iter |
| C186 | Exact value computed for every pair | Utf8IterModel, Utf8IterProofs, P_Utf8Iter |
| C187 | Bound on the accumulated value by the number of bytes left; the terminator stops every sequence; items | Utf8IterSpec, Utf8BadProofs, P_Utf8Iter |
| C188 | Executions for every text before and after the damage | Utf8BadProofs, P_Utf8Iter |
| C189 | The stream iterator's value is the last byte read; invariant on the position | Utf8IterModel, Utf8BadProofs, P_Utf8Iter |
| C190 | Induction on the values; as many as room / width fit | Utf8IterModel, OIterProofs, P_Utf8Iter |
| C191 | Reduction to C190 with bytes, and C189 | Utf8IterModel, OIterProofs, P_Utf8Iter |
| C192 | The function object is a transition on an arbitrary world with a result or an exception; induction on the range | FunObjModel, FunObjSpec, FunObjProofs, P_FunObj |
| C193 | As C192; for remove_if the invariant kept ++ gap ++ rest | FunObjModel, FunObjSpec, FunObjProofs, P_FunObj |
| C194 | Cells that are raw or alive; the loops by signed comparison of addresses; induction | RawModel, RawSpec, RawProofs, P_Raw |
| C195 | Executions; recovery by C194 | RawModel, RawProofs, P_Raw |
| C196 | Exact results for any equality; the operations not using == are those of C11, C12 | AssocModel, AssocVecSpec, AssocVecProofs, P_AssocVec |
| C197 | The relation of C11/C13 kept by each inherited operation | AssocVecModel, AssocVecSpec, AssocVecProofs, P_AssocVec |
| C198 | Induction on the range, after any history of C13 | AssocVecModel, AssocVecProofs, P_AssocVec |
| C199 | Executions from any reachable set | AssocVecModel, AssocVecProofs, P_AssocVec |
| C200 | Frame property of the heap invariant of C18; executions for any array contents | MemModel, StringModel, StrAliasProofs, P_StrAlias |
| C201 | Counting invariant by induction on the program; the stack place of an untouched guard | ScopeModel, ScopeSpec, ScopeProofs, P_Scope |
| C202 | Executions for any callback that throws, any rest of the block and any handler | ScopeModel, ScopeSpec, ScopeProofs, P_Scope |
a machine with vector registers, memory and the x87 state; statements as instruction lists; frame lemma for any statement whose writes are in its clobber list; effects by symbolic execution for all states
as C203
as C203, with a register-changing function before each statement
RefArgModel: an argument is a variable or element k; each loop iteration reads it again. Invariants: the argument keeps its value while only other positions (or the same value) are written.
RefArgModel; exact result of every call.
XTextModel: the caller's memory is a function from addresses to texts that may have changed when the exception is read; a string either has a copy or a link; printf with the conversions used.
XTextModel; the stream part uses ExcModel.
XTextModel.render; the digits denote the number by the positional value of StrOpsSpec.numeral.
XTextModel.render with the x86-64 reading of the lower half of the argument.
ErrModel: the classes and the whole table; the standard's table is written out separately in ErrSpec.
ErrModel against the table of ErrSpec.
MinMaxModel: the functions over any comparison; integer types with the usual arithmetic conversions.
MinMaxModel; exact results.
RoundModel: floats as m * 2^e; the conversion instructions by round-to-nearest-even on integers.
RoundModel; exact results.
ListOwnModel: insertion of own elements (RefArgModel) and erase in the same list; the result is stated with the list cut in four.
ListOwnModel; exact results.
MVecModel: a program over a list of vectors; refinement (MVecProofs) to lists by induction over the program.
Model: MemModel/StringModel/VectorModel programs and GrowModel (vectors on the byte heap, so that realloc calls are counted as new heap blocks). Spec: GrowSpec (m_within, s_within, v_within: the sizes asked for, computed on the specification only). Proof: every operation that comes back with a size within the capacity leaves pointer and capacity; growth by the invariant capacity = 2^k, blocks <= k, bytes <= 2 capacity - 1.
Model: GrowModel.str_pushes over StringModel.str_push_back. The refutation counts the heap blocks: n blocks, n (n + 3) / 2 bytes; after reserve (n) none (C222_reserved_partial).
Own*: a heap of counted cells whose members are pointers, with the recursive destruction of umemory.h modelled step by step; the specification is a graph in which nothing is ever deleted. Invariant: each count is the number of pointers from variables, live objects and the operation itself.
Own*: counterexamples, with a general theorem that an unreachable object that was not deleted at once never is.
DefCmpModel: the predicate versions (RangeModel, ArrayModel) with equal_to and less of the first range's type, whose const T& parameters convert. Proved from C24 and C27 with the specification in multiplicities and order of numbers.
DefCmpModel: for every type and every number outside it, the counterexample.
PtrOomModel: PtrModel's shared_ptr with an oracle for new container; refinement of a specification in which a failing operation does nothing.
PtrOomModel: conservation: what is deleted or owned was given to an operation that succeeded.
PtrOomModel: comparisons on the states of PtrModel.
AsmDnowModel: the statement on AsmModel's machine; the stored cells computed symbolically.
StrConvModel: the conversions with their assertions, on the states of StringModel; from the histories theorem of C36/C37.
StrConvModel: the state after a move, evaluated.
PackTupleModel: integer loads and stores on a memory of bytes, little endian; elements as converted loads.
OSeekModel: seekp and str() added to the operations of OStrModel; OSeekSpec: the text as a list cut by seeks; by the invariant of C51.
OSeekModel: for every text (first part), the others evaluated.
OStrModel's str (s) between two histories of OSeekModel; invariant of C51, the assignment lemma of C36.
IHistModel: seekg, str (), str (s), clear () added to the reads of IstrModel; IHistSpec: a list and a position; induction on the history.
IHistModel: for every text and every seek within it.
MemModel and StrConvModel: holds when a zero follows (partial), refuted when another byte or the end of the block follows.
OCopyModel: the implicit copy constructor and the destructor on the byte heap; for every history (OInv), the last part evaluated.
OCopyModel: for every history and every other stream whose position is not greater.
FCopyModel: the implicit copy on FdModel's descriptor table; for every table and schedule.
OCopyModel: the implicit move constructor; OInv carries over.
OCopyModel: for every history that leaves room.
OCopyModel: the implicit copy on the byte heap with FileModel's file; evaluated.
LookModel.lookup_name with the unsigned minimum; composed with the history theorem of ostringstream (C51).
LookModel, for all values.

## Findings (properties the code violates; theorems `_refuted`)

Algorithms
* C10 `binary_search(first,last,value,comp)` returns true for absent values.
* C17 `priority_queue::pop` ignores the comparator.
* C23 `merge` is not stable.
* C28 `find_end` misses an occurrence at the start of the range.
* C41 `adjacent_difference` never advances its input (undefined for two or more elements).
* C42 `power` starts from the integer 1, not from the identity of the operation.
* C43 `NextPow2(1)` is 2, above 2^31 it is 1; `Rol`/`Ror` by 0 shift by 32; `pack_type` of a negative
  value sign-extends it instead of repeating its bytes.
* C21 `copy_backward_fast` and `rotate_fast` corrupt or crash on short misaligned
  byte ranges; hence C11 (set of 1-byte elements), C12/C14 (2-byte erase), C37,
  C54 (vector<char> insert) and C55 (list<char> insert).

Memory and containers
* C34 copying a linked block reads one byte past it; `reserve` below its size.
* C35 `reserve` above 2^31 bytes gives capacity 1 and loses the contents;
  `string::reserve(SIZE_MAX)` does nothing.
* C58 `v.push_back(v[0])` reads the element after its storage is gone.
* C59 `link` on a block that owns memory leaks it.
* C11 `set(n)` (sized constructor) makes equal elements.
* C31, C67 copying a queue revives popped elements; equality compares them.
* C33, C63, C64 bits beyond the size are set by `set()`/`flip()` and counted;
  range `set` only adds bits and asserts at word boundaries.
* C55 `l.remove(l.front())` compares with an element that is overwritten.
* C68 equality of vectors of strings compares pointers.
* C69 `array += {..}` reads N elements of a shorter list.
* C46 the SSE 4x4 transform uses shuffle 0x66 for 0x55; non-square identity.
* C70 saturation of signed generic `psubs`, signed `pavg`, one-operand operations.
* C48 `unique_ptr<T[]>::reset` asserts when null is moved into null.
* C71 `shared_ptr`: two threads can both see the count reach zero.

Strings
* C29 `compare` from 2^31 bytes on. C36 `shrink_to_fit` drops the terminator;
  `reserve` and `c_str` on a moved-from string. C37 `insert(pos, string)` inserts
  size() copies; assign/append of itself; erase past the end.
* C38 empty pattern; C39 `rfind` misses starts 0 and 1, reads out of bounds on
  the empty string. C57 equal-length `replace` and `at()=` write to linked memory.
* C03 the encoder shifts by 36 above 2^31.

Streams
* C06, C61 alignment differs between writing (addresses) and reading (positions).
* C08 `read_strz` without terminator runs past the end.
* C62 lead bytes FE/FF; uninitialised length at the end of a quiet stream.
* C50 with exceptions on, bytes are written twice after an error.
* C72 flush after a file error doubles the buffer until memory runs out.
* C73 `readsome(p,0)` reports the end of the file.
* C51 `ostringstream("literal")` writes to the literal; stale `str()`.
* C52 digits of width and precision reversed; flags after the width.
* C53 escaped backslash; `get(p,0)`; failbit on the last unterminated line.
* C74 `peek()` at the end steps back; `gcount()` after `ignore()`; bool at the end.
* C75 unsigned >= 2^63; 010; non-numbers are 0 without error; reads past the view.
* C76 `ifstream::read` with unread bytes in the buffer loses them; numbers across
  portions.

Time
* C77 weeks to months overflows on the way. C80 `++hrtime_t` at 999999999 ns is not
  carried; `hrtime_t / n` adds the remainder of the seconds undivided (1 s / 2 = 1 s);
  `-t` is not normalised and compares wrong. C81 casts to `hrtime_t` of negative
  seconds, of 3 million hours, and of picoseconds.
* **uiterator.h:270, 313, 457** (C83): `operator-` of reverse_iterator subtracts the underlying iterators in their own order, and that of move_iterator and index_iterate subtracts them the wrong way round (`distance (i, j)` is j - i): all three have the wrong sign.  `reverse (v.rbegin(), v.rend())` does nothing, `lower_bound` over reverse iterators computes an address outside the array.  **uiterator.h:310-311**: `+` and `-` of move_iterator are exchanged.
* **ualgo.h:432-451** (C86): `sort (first, last, comp)` ignores `comp` and compares with a default constructed `Compare`: a function pointer is called uninitialised, a stateful comparator loses its state.  `list::sort` is not stable.
* **ualgobase.cc:138-158 through ualgo.h:472, upredalgo.h:548, 567** (C88): `stable_sort` of the chars `1 5 6 3` crashes (a rotation of three bytes makes copy_backward_fast's count wrap); `partial_sort_copy` into chars or shorts crashes as soon as the first two inputs are in order; `stable_partition` of shorts crashes on `2 1 3 5 4 6 7 9` (even first).
* **ualgobase.cc:198, 204** (C89, C90): `Align(dest) - dest / sizeof(T)` lacks parentheses, which hides that `count %= MMX_BS` counts elements instead of bytes: filling 4194304 ints at 0x404040 (static data of a non-PIE program) writes past its end (up to 96 bytes for other lengths).
C93: `string s; s.format ("");` never returns (ustring.cc:331-335: resize(0) keeps capacity() 0 and the loop ends only when rv < capacity); likewise for strings that reserved over 2^30 bytes; and a failing conversion (vsnprintf returns -1) writes before the buffer.
- **C97**: fstream::close retries after EINTR although Linux has already released the descriptor (fstream.cc:120-125), and so can close another thread's file; attach() (fstream.cc:64-73) leaks the new descriptor when the close of the old one throws, and always loses the new file name when a file was open (close() calls detach(), which clears it); `ate` is mapped to O_APPEND (fstream.cc:89); a mode without in/out yields access mode 3.
- **C99**: write_file ignores the count returned by fstream::write, so EAGAIN truncates silently (cmemlink.cc:55, fstream.cc:180-183); string::read_file leaves the string unterminated (memblock.cc:153 calls the non-virtual memblock::resize); a linked block whose read_file throws has size() > capacity() (memblock.cc:150-151).
- **C101**: CBacktrace::read takes the number of frames from the stream and reads that many into an array of 64; the text size + 1 is computed in 32 bits.
- **C103**: extract_abi_name looks for '+' from the start of the description, not after '('; and passes a local array to __cxa_demangle, which may realloc it.
- **C105**: CBacktrace::operator= calls strdup on a null pointer when the source has no symbols (out of memory, exactly when bad_alloc is thrown), and leaks the old symbols.
- **C108**: push_back and insert of an element whose copy constructor throws leave an unconstructed element inside the vector, whose destructor then has undefined behaviour; resize and the copying constructors leak the elements already constructed.
* C112 `v = ++a` on an atomic: the operators return a reference, reading the value is a second access; two threads can get the same value.
* C113 `compare_exchange_weak(e,d,order)` passes `order` on as failure order: acq_rel and release are not allowed there.
* C116 `string::assign(n,c)` clears the string before it allocates: bad_alloc loses the contents.
* C118 `s.insert(5,1,L'\U0001F600')` on fourteen ASCII characters corrupts the text behind the insertion (through rotate_fast, C21); a negative wchar_t makes the encoder shift a 32 bit value by 36.
* C121 upair.h:37 uses == of the first half; the order of pairs is not transitive when == is finer than <.
* C124 upair.h:61 make_pair keeps references to variables (no decay).
* C126: istream_iterator drops the last word or number of a text that does not end with a delimiter: Read checks for eof after the read that got it (mistream.h:160-162).
* C128: with the default exceptions(), istream_iterator over a binary istream throws stream_bounds at the end instead of becoming the end iterator (mistream.h:156, mistream.cc:68-72).
* C129: istream_iterator's difference (and ==, <) compare the position of the shared stream with itself: always 0 / equal (mistream.h:147-149).
* C133: ifstream::seekg keeps eofbit (clear (_file.rdstate())), so a file read to its end cannot be reread without clear(); seekg (n, cur) does not subtract remaining(); _buffer.clear() leaves a one-byte buffer, after which 12345 is read as 0 (ofstream.cc:171-178).
* C136: istream::seekg and ostream::seekp (n, end) seek to size() - n, the opposite sign of the file streams (mistream.h:204, mostream.h:182).
* C137: ifstream::putback writes _buffer[pos()] even if ungetc() failed (ofstream.h:67), replacing the next character.
* C139 Seq<> is a list of one NullType; typelists as elements are flattened by Append and Reverse, NullTypes lost.
* C141 is_signed<signed char> false, is_unsigned<any class or pointer> true, pointers to const member functions classified as object pointers, add_pointer<T*> = T*, make_unsigned<wchar_t> signed, TypeTraits without long long and long double.
* C143 numeric_limits<wchar_t> says unsigned (it is signed on Linux), digits counts the sign bit, digits10 is one too high, bool is not is_integer.
* C145 vector<array<uint64_t,N>>: stream_align_of an array is 4, so writing fails the alignment assert of iwrite<uint64_t>.
* C147 ostream::read(istream&) with exceptions off and too little room writes nothing but seeks the input to its end.
* C149 ostream::insert(start,n) with pos+n > size leaves the position behind the end: remaining() wraps and the next write is outside the buffer; erase(start,n) with n > pos wraps the position below 0; erase behind the position shortens the written part; insert(1,1) into a 4 byte buffer writes outside it (rotate defect).
* C153 `ifstream >> wchar_t` (sistream.cc:116): when a read ends inside a character, `underflow(cs)` puts the next portion over the unread bytes, and the character comes out wrong.
* C156 strings in containers are written without quotes: {"a","b"} and {"a,b"} have the same text.
* C160 `ofstream::open()` on an open stream does not flush: the old file's pending bytes go into the new file, with every call returning and the stream good (ofstream.h:22). Bytes written before any open() are not an error and go into the file opened later. A close(2) failure (EIO on NFS, quota) sets bits only inside the private fstream; the ofstream stays good (ofstream.cc:59). close() on a failing file takes all the memory, throws bad_alloc and leaves the descriptor open. The destructor leaks a file the stream itself opened if it got descriptor 0-2.
* C162 `ifstream::open()` and `close()` keep the buffer (ofstream.h:50-51): the old file's unread bytes are delivered before the new file's, and after close(), with the stream good.
* C163 `ifstream::sync()` returns `-good()` (ofstream.cc:167): -1 on success, 0 on failure, for every readable file; and it discards the lines that were read ahead.
* C165 `s <= "text"` and `s >= "text"` (and the mirrored forms) compare the addresses, not the texts: string has no member taking const char*, the templates of uutility.h need both sides of one type, so the conversion to const char* of ustring.h:131 makes it a pointer comparison; PTR_STRING_CMP of ustring.h:305,307 does the same. `s < p` with p null dereferences it though `s == p` accepts null.
* C168 stoi truncates (stoi("4294967295") is -1), stol clamps, stoul("-1") is 2^64-1, and a text without a number gives 0 with index 0: no invalid_argument or out_of_range as in the standard (ustring.h:322-337).
* C170 copyto(p, 1) fails the assertion of copy (n > 0), copyto(p, 0) copies everything and writes the terminator past it (n-1 wraps); compare(start, SIZE_MAX, s) with start > 0 wraps around and compares an inverted range (ustring.h:124).
* C172 the comparison templates of uchrono.h:95-118 can never be used (their parameter Rep2 can not be deduced): seconds(1) < milliseconds(5) does not compile, milliseconds(5) < seconds(1) does; nanoseconds(0) < hours(2562048) overflows (undefined).
* C174 half a second before the epoch, {-1, 500000000}, is written "-1.500000000"; hrtime_t(-5) is written "0.-00000005"; duration_values<hrtime_t>::min() is {lowest, 999999999}, so {lowest, 0} is smaller (uchrono.h:246, 254-255).
* C176 fstream::mmap always asks for PROT_WRITE and MAP_SHARED, so it fails with EACCES on a file opened with ios::in; without exceptions the failed call returns a link of n bytes at address -1; a failed munmap empties the link, losing the mapping; set_nonblock is noexcept but calls fcntl, which throws if failbit exceptions are on, ending the program (fstream.cc:231-256).
* C178 setf(f, mask) returns the flags after the mask was cleared, so restoring them with flags() loses the old base; it sets bits outside the mask; boolalpha, showpoint, unitbuf, fixed, right and internal never change the format of a number (sostream.h:27, sostream.cc:73-103).
* C180 the portable TestAndSet (uutility.h:240-242) is a plain load and store: two threads can both get true.
* C182 — vectors linked to arrays: memblock::reserve copies size()+1 bytes of a linked block (memblock.cc:91), one byte beyond an array linked in full; reserve of less than the linked size cuts the copy but not size(); pop_back (uvector.h:83) and erase (uvector.h:304) run destructors on the caller's objects, and after any operation that takes the block over the vector's destructor destroys bitwise copies of objects the caller still owns.
* C184 — multiset::insert (umultiset.h:61) and multimap::insert (umultimap.h:64) of an element of the container itself read freed memory whenever the vector has to grow, e.g. {1, 3}.insert (first element) with int elements.
* C186 — `b - a` for utf8in iterators (utf8.h:140-146) counts from the last byte of a's character up to the last byte of b's, so the character at b is counted too if it has more than one byte: in "A\u00e9" the distance between the two characters is 2.
* C188 — utf8in_iterator::Read (utf8.h:126-134): bytes FE and FF are taken as the start of 7 and 8 byte sequences, and shifting six of their bytes into a 32 bit signed wchar_t overflows (undefined). A truncated character at the end of a string silently vanishes from copy (utf8in (begin), utf8in (end), ...): its iterator compares equal to the end, although the class comment promises strange characters.
* C195 — none of the uninitialized_ algorithms (umemory.h:334-362, 440-502) destroys what it has built when a constructor throws; the objects are leaked.
* C196 — set::find, set::erase(v) and multiset::find compare with operator== (uset.h:49, umultiset.h:51) what insert and count compare with Comp. With a comparator coarser than == an element can be present for insert and count and absent for find and erase.
* C199 — set(size_type n) (uset.h:38; also map(n)) makes a set of n equal elements, and non-const iterators and references of a set are writable (uset.h:44, uvector.h:74-81), unlike std::set.
* C200 — string (const char*) (ustring.h:63, ustring.cc:33-38) links to its argument instead of copying it, and the copy constructor of a linked string links too (ustring.cc:21-30). A string made from a local buffer changes when the buffer does and dangles after it, unlike std::string.
* C202 — ~scope_exit, ~unique_resource and unique_resource::reset (umemory.h:224, 250, 255) are declared noexcept (noexcept (declval<F>())) where noexcept (declval<F>()()) was meant: always true, so a throwing callback terminates the program.
simd.h:391-395 xmm1 is not in the clobber list; ulaalgo.h:68-85 shufps into the input operand %4, upper lanes of a scalar "x"(1.0f) assumed zero
values passed between asm statements in registers that are not operands (ualgobase.cc:85-94,166-184; ulaalgo.h:88-121)
t /= t[0] sets t[0] to 1 and leaves the rest unchanged; v.assign(v.begin()+i, v.begin()+j) with 0 < i < j always copies from destroyed elements.
system_error(ec, string("...")) links _operation to the temporary string: info(), name() and Operation() read freed memory. system_error(ec, op) does not call set_format(xfmt_SystemError).
bad_alloc::info prints a size_t with %d: every failed allocation of 2 GB or more - the typical one - is reported with a wrong, often negative, number.
errc::not_supported = EINVAL instead of ENOTSUP.
min/max return their first argument's type: max(uint8_t(5), 300) is 44.
fround<float,uint32_t> gives 0x80000000 for every value from 2^31 up; fround<double,D> rounds to float first.
list::merge with itself prepends default elements; list::splice within one list to an earlier place moves the wrong range.
string::resize calls memblock::resize with its default bExact = true, so every push_back / += of a character reallocates to exactly size + 2: n characters cost n realloc calls and n (n + 3) / 2 bytes; vector does not have this problem (reserve rounds up to a power of two).

Seen while reading, outside the theorems (mostly code that does not compile when
instantiated): `queue::swap`, `stack::swap` and their move assignment;
`shared_ptr` copy assignment; `atomic` postfix increments in C++14; the
three-operand packed operations; `auto_ptr::operator<` is reversed; `list::merge`
does not empty its argument; `replace_copy` does not return a value;
`partial_sum` (unumeric.h:76) is unsequenced.
