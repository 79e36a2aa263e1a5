# Formal model of mevid93/flbwt in Rocq (Coq 8.16.1)

## Shape of the model

* Everything is a total, computable Gallina function in a result monad
  `res A = Ok a | Err e`; the error says *which* bad thing happened: out-of-bounds
  access, read of an uninitialised cell, null dereference, `__builtin_clzl(0)`, C++ exception,
  non-termination (fuel exhausted).  So `f x = Ok y` means: terminates, no memory
  error, no exception, and returns y.
* Arrays are `{ alen ; adata : PositiveMap }`: an index outside `[0,alen)` is
  `OutOfBounds`, an absent entry is `Uninit`.
* The content of fresh memory is an explicit parameter (`env`): bytes obtained by
  `realloc` for the hash buffer are `option byte` (None = indeterminate, reading it is
  an error), words of a fresh PackedArray are arbitrary 64-bit numbers, the result of a
  shift by >= 64 is arbitrary.  All theorems quantify over `env`.
* `std::sort` is a parameter `srt` with the contract `std_sort` of Spec.v (a permutation,
  sorted if the comparison is a strict weak order).  The call is an error in the model if
  the comparison of any two elements is an error.
* Width variants.  The 32- and 64-bit programs use plain cells and are one definition
  (M_Sais.v, M_Induce.v) parametrised by the cell width W (cells store `swrap W v`).  The
  40-, 48- and 56-bit programs keep every cell in two or three separate arrays; M_Split.v
  models them over those arrays, through their own read / write / zero-test accessors
  (M_Cells.v), and P_Split.v proves by a simulation that each of them gives the same
  result, or the same error, as the W-bit program; C20, C22 and C31 are stated about them.
* The operating system as seen by `bwt_file` is the record `io` (does fopen succeed, what
  does ftell return, which bytes can fread deliver, does malloc succeed, how many bytes does
  the output device accept).

## Files (rocq/theories)

    Base.v            result monad, arrays, loops, machine words, wp rules
    M_PackedArray.v   packed_array.cpp, utility.hpp, get2 of sais*.cpp
    M_Queue.v         queue.cpp
    M_HashTable.v     hashtable.cpp
    M_Cells.v         set/get_40/48/56bit_value
    M_Sais.v          sais{32,64}bit.cpp (plain cells)
    M_Split.v         sais{40,48,56}bit.cpp (cells split over 2 or 3 arrays)
    M_Induce.v        induce{32,40,48,56,64}bit.cpp, container.hpp
    M_Flbwt.v         flbwt.cpp (all but bwt_file), container.cpp
    M_File.v          flbwt.cpp: bwt_file
    M_Fs.v            bwt_file as system calls on a shared file system; examples/bwt.cpp
    M_Heap.v          queue.cpp over a heap: linked qblocks, new/malloc/delete/free, the destructor
    M_HeapProg.v      bwt_string and bwt_file with every allocation and release on the heap of M_Heap.v
    P_Size.v          bytes of a heap; budgets
    Threads.v         trees of heap operations, running them alone and in a pool
    Pool.v            programs over several queues: driver, abstract pool, allocators; heap comparison
    Spec.v            lexicographic order, BWT, S* substrings, decoding, file format: no reference to the model
    TermSpec.v        the bytes that may stand behind the text (C34)
    SortSpec.v        sorting algorithms as decision trees, their time (C48)
    M_SaisCost.v, M_Cost.v   the programs with a counter of steps (C47, C48)
    LoadSpec.v        how full the buckets of the hash table are, walks along the chains (C48)
    BlockSpec.v       layout of the string buffer as a function of the text (C46), bucket of a string (C32)
    Histories.v       drivers that run sequences of API calls, and the abstract objects they are compared with
    P_*.v, Text.v, Count.v, Induced.v, Keys.v    proofs
    Properties.v      the property theorems, each closed by `exact lemma`, with Print Assumptions and a concrete case

## Plan per property

C01 top-level refinement: P_Flbwt composes C13, C17-C20, C24 into "bwt_string = Ok r and r is the BWT (Spec.v)".
C02 model of bwt_file over an I/O environment; byte-level statement of the output.
C03 inverse BWT function in Spec.v, proved left inverse of the specification; composed with C01/C02.
C04 n >= 3 by C01, n = 0 / NULL by computation; n = 1, 2 proved to dereference NULL.
C05 case analysis on the I/O environment of bwt_file.
C06 is the `= Ok` part of C01 (every access is checked in the model); stated separately.
C07 two runs with different fresh memory agree unless unwritten_length (BlockSpec, C46_exact) holds of the text; counterexample by computation otherwise.
C08 quantification over table size and sort function in C01.
C09 corollary of C01 + Spec.
C10, C11, C29 bit-level proof with Z.testbit; set_value and get_value are also given as programs that log the amount of each shift
    they execute (M_PackedArray; C29_log: without the log they are the same functions); the oversized shift is characterised and proved harmless.
C12 refinement to a list for every op history; width 64 and dequeue on an empty queue are stated as the code behaves.
C13-C16, C27, C32, C36 representation invariant of the hash buffer (chains of blocks).
    C13_unwritten and C13_exact: the insertions over zeroed memory leave an unwritten length byte in each record that begins a block and
    has a length divisible by 256 (P_Long.insert_marks); the run over unwritten memory agrees with it up to the first such byte (P_DictUninit).
    C13 holds for every history in which no string that begins a block (BlockSpec.store_in) has a length divisible by 256, or over zeroed fresh memory.
C17 loop invariant of extract_LMS_strings.
C18, C28 comparison = lexicographic order with end marker 256; sortedness.
C19 loop invariant of create_shortened_string.
C20, C21 generic induced sorting lemma (rank functions), naming lemma, strong induction on n.
C22 arithmetic; the split programs of C20 by the simulation of P_Split.v.  C23 bounds on buffer size and selection of W.
C24 the queue contents are images of ranked positions; BWT rows written at their ranks.
C25 Z.log2.  C26 free_T is a parameter of the model.  C30, C35, C37 from the I/O environment.
C31 corollary of C20/C24 (results determined by the specification).
C38 separation-style invariant (each queue owns its blocks, the rest of the heap is unchanged), refinement of
    the linked queue to the block-list queue of C12; every allocator is a parameter.
C39, C40 forward simulation: whenever the value-level model (C01) succeeds, the heap-level program does and owns
    exactly the listed blocks (P_HeapSim, P_HeapInduce, P_HeapProg).
C41 congruence: a run with a failing allocator is the run with an allocator that continues it, up to the first
    failed allocation (P_Oom, P_OomProg).  The simulation of C39 is relative to a bound on the heaps in which an
    allocation is assumed to succeed (size, and the caller's blocks unchanged), and that bound is decidable, so the
    request that failed was made in such a heap.
C42 the simulation of C39 carries a budget: every allocation of the run fits (P_Size, P_Buffer: size of the string
    buffer for every successful run; number of elements in the queues bounds their blocks).
C43 the depth bound (fuel) of the model's recursion: every call works on at most half of the characters (number of LMS
    positions), so n < 2^fuel suffices (P_Sais, P_Props3); M_Flbwt uses the constant DEPTH = 64.
C44 case analysis over M_Fs.main and the theorems on bwt_file (P_Fs).
C45 invariant over all reachable states of a small-step semantics, one step per system call, of any number of calls on one
    file system (M_Fs, P_Fs); termination by a decreasing measure; in-place, race and torn read: explicit schedules.
C46 relational: the run over indeterminate memory equals the run over any concrete memory up to the first use of an
    indeterminate value (P_Uninit); the first record of a hash block with a length divisible by 256 is such a use, for
    every sort of the standard library that compares something (Spec.comparison_sort). The record of an S* substring of
    512 bytes or more always begins a block, and so does the text's head record (P_Long). In general the block layout is a
    fold over the S* substrings from right to left (BlockSpec); the rest array of the table follows it step by step
    (P_Blocks.rooms), which gives the exact set of texts, 256-byte substrings included (C46_exact, C46_file_exact).
    All other properties of bwt_string and bwt_file are proved under `fresh memory is zero, or ~ unwritten_length`, which is
    therefore the weakest possible condition for indeterminate memory.
C47 the programs of M_Sais/M_Split with a step counter (M_SaisCost); erasing the counter gives the programs (P_SaisCost);
    per-stage bounds, sums of run lengths and of LMS substring lengths <= n, m <= n/2 in the recursion (P_SaisLinear);
    the split variants take as many steps as the plain one (relation, P_SaisCost).
C48 the whole program with a step counter (M_Cost), chain walking weighted by pw; erasure (P_Cost); upper bounds phase by
    phase (P_CostInduce, P_CostBranch, P_CostHash, P_CostSort, P_CostFlbwt); worst case: counters are nonnegative (P_CostNN),
    a chain without the string is walked to its end (P_CostLower), texts whose S* substrings are different and collide exist by the
    pigeonhole principle for any hash function (P_CostText, P_CostWorst). Comparisons of the sort: each is paid by one of the two strings, the
    lengths of the different S* substrings add up to at most n and their number (P_CostSort); merge sort as an instance (P_MergeSort).
    Chains in terms of the load of the buckets: the nodes of a chain are different S* substrings of the text that hash there, and
    every step of a walk reads a record or crosses a pointer, each at most once (P_CostBucket, C48_buckets).
C49 bit-level: the word in which the element begins receives v shifted without a mask (P_PackedWide).
C50 a client language over the heap model (Client), an abstract machine that only counts texts, results and lost blocks, and
    a simulation whose invariant is block ownership (P_Client); built on C01, C05, C39, C40.
C51 a thread is the tree of its heap operations (Threads); every function of the heap model is turned into such a tree, which also
    ends on every heap (P_Reify); a thread that is right alone under every allocator is right in every pool: rely-guarantee style
    invariant of disjoint private blocks and read-only shared blocks (P_Thread), well-founded descent for termination.
C52 the program of C50 under an allocator that fails at will: the invariant keeps only the blocks the variables own, next to
    anything that was lost (P_ClientOom, from C41).  The pool of C51 with failing allocations: each thread carries two specifications (with and
    without failures) and a second copy of its heap in which the shared texts have another kind, so that releasing one would be an error.
C33 combinatorics of LMS positions.  C34 inversion of a successful run; the proof of C01 with the order of the S*
    substrings (star_order) as its only use of the byte T[n], which P_Term.v derives from TermSpec.terminator_ok; witness by computation.

Properties that are false of the code as a user would expect them (C04 n = 1, 2; C07; C14; C29; C30; C34;
C35; C37; C40; C41; C46; C48; C49; the empty and 64-bit queues of C12) are stated as what the code really does, and the expected stronger statement is refuted by a
`_refuted` theorem or is contradicted by the proved theorem itself.

## Trusted base

* Coq 8.16.1's kernel (including its virtual machine, used by `vm_compute` in examples and
  counterexamples) and the OCaml runtime below it.
* Axioms: none.  `Print Assumptions` is run in Properties.v for every property theorem and
  answers "Closed under the global context" for each.  (Loading `Lia`/`ZifyBool` pulls in
  `Coq.ssr.ssrunder`, whose module type contains seven parameters that the checker lists as
  `Coq.ssr.ssrunder.Under_rel.*`; no theorem here depends on them.)
* The model itself, i.e. that the definitions in M_*.v render the cited C++ lines faithfully, and
  Spec.v / Histories.v, i.e. that they say what the English says.

### What is modelled
Every function of src/ and include/ that takes part in bwt_string and bwt_file: packed_array, queue, hashtable,
the five sais and induce variants, container construction, extract_LMS_strings, sort_LMS_strings,
create_shortened_string, bwt_is, bwt_string, bwt_file, position_of_msb.

### What is not, or is simplified
* Deallocation is modelled in M_Heap.v (queues, C38), in M_HeapProg.v (everything bwt_string and bwt_file
  allocate or open, C39/C40), in M_Sais.v/M_Split.v (a deleted bucket array cannot be used) and by `free_T`
  (C26).  In M_HeapProg.v the non-queue blocks are tracked by address, kind and size; their contents are the arrays
  of the other model files.  That the blocks are alive is checked by `uses` at the start or end of each phase that
  works on them (each scan step of extract_LMS_strings, both halves of each sais call, the phases of induce), and a
  null or released block there is an error.  `uses` also compares the size of each block with the bytes of the array that
  lives in it (`huse`): a block that is smaller than the array the program works on is an error, so a wrong size in a malloc,
  realloc or new[] is one even if the value-level model has arrays of the right length.
* File system (C45): system calls are atomic, reads and writes are cut into pieces arbitrarily, a read does not fail,
  data reaches the file in the order written (no loss of page cache on a crash of the machine), files are not removed or
  renamed while open.  examples/bwt.cpp: argc, the call and the exit code; the text printed is not modelled.
* Steps (C47): cell accesses, character reads, loop tests, new[]/delete[] count 1 each; arithmetic on locals, calls and
  returns are attributed to the neighbouring access.  A character read from a PackedArray touches at most two words.
* Steps (C48): as C47, and one step for each operation with a constant bound (reading or writing a length, name or pointer field, a
  PackedArray or Queue operation, position_of_msb), each allocator call and the call of std::sort. To the latter the steps of the comparisons it makes are
  added (C48_sorted; the sort is the decision tree of its comparisons, SortSpec.v, and its moves of elements are attributed to them) or not
  (`untimed`, the other theorems). The steps do not include time inside the allocator; the bytes that realloc copies if it moves the block at every call are counted separately (M_Moves.v; C48_realloc: at most L^2/1024 + L with L = min(512h + 27n, 267n); C48_realloc_quadratic: that order is reached).  bwt_file (C48_file): fread and fwrite count one step per byte, other library calls one.
* Sizes (C42): LP64 (qblock 24, PackedArray 32, Queue 56, HashTable 64, Container 12472 bytes).  FILE objects and
  their buffers count 0; allocator overhead, the stack and memory used inside std::sort are not counted.
* Allocation failure (C41): an allocator is any function from the heap and a size to an address or nothing; the heap includes a clock of all its changes, (failed allocations tick it too), so the choice may depend on the history (free lists) and not only on the live blocks.  `new`
  throws (Err BadAlloc); of the heap at the throw C41 says that every block of the caller is there, unchanged; what
  else is in it is lost, since the code has no handlers and only raw pointers
  (the throw of bwt_file's own `new` after the output was opened is the outcome "empty output file"); `malloc` gives a null pointer,
  and the model ends with Err NullDeref at the first use of it (for s, T1, BWT_result and the results of realloc this
  is placed directly after the allocation).  `realloc` is modelled as a fresh allocation and release of the old block,
  and the one of sort_LMS_strings is executed after the values are computed.  A PackedArray is an object and its
  block of words.
* Pointer identity: pointers are offsets into their block; `bwp_base = min_ptr - 1` may be -1, which
  is formally undefined in C++ and harmless in the model.
* The character locals of sais (c0, c1, prev) have their C types.  A store into a suffix array or bucket cell of
  a value that the cell's type cannot hold is the error Overflow (M_Sais.v, M_Split.v, the loops of bwt_is), so the
  correctness theorems include that no cell is ever truncated.  The row counters of induce have their types: M2, M3, C2, last are
  reduced modulo 2^64, cc and m are int64_t, and m++ beyond 2^63 - 1 is the error Overflow.  The other `int64_t` locals of sais
  are unbounded integers (each is an array index that was checked, such an index plus one, or a value that is
  stored in a cell, where it is checked); arithmetic in hashtable, packed_array, flbwt is reduced modulo 2^64 where the code can exceed it.
* Statistics counter `collisions` of the hash table; unused Container fields M2, M3, C2 (locals of induce).
* In M_Queue.v (used by the induce proofs) queue blocks are a list of packed arrays; M_Heap.v has the linked
  blocks and P_Heap.v proves that they refine the list.
* The hash table size 67777 is a parameter (1 .. 2^48) in most theorems.  Texts have up to 2^58 bytes (the README promises
  2^58 bits): the string buffer has at most 512 * (table size) + 27 n bytes (P_Insert), so no offset exceeds 2^63.
* Text mode "r" of fopen is taken as binary (POSIX).
* Threads (C51, C52): a step is one heap operation (allocation, load, access, store or release of a block of the heap model); what a
  thread computes between two of them is atomic, which is sound because it touches only values that no other thread can reach: the code has
  no mutable global or static variable, shared texts are only read, and std::sort and the file system (C45) are not interleaved. Allocations do
  not fail in C51 and may fail in C52; a thread that fails (uncaught bad_alloc, null pointer) stops and the others go on, which
  describes them up to the end of the process.  The allocator itself is assumed thread-safe (as C++ requires).
* Clients (C50): a text is written once, when it is obtained (later calls see the same bytes: bwt_string leaves the text alone,
  C01); results are values, their blocks are in the heap; the client does not write into results.
