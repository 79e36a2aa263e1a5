{"id": "C01", "title": "bwt_string returns the exact Burrows-Wheeler transform", "statement": "For a byte buffer T[0..n] with n >= 3 and T[n] = 0, bwt_string(T,n,free_T) returns a result whose BWT array has n+1 entries; sorting the n+1 suffixes of T followed by a unique smallest terminator, row r of BWT is the byte that precedes the r-th smallest suffix, for every row except row `last`, and `last` is the row of the whole string T.", "quantifier": "every byte string of length 3..2^58 over the full 0..255 alphabet (zero bytes and 255 included), every correct std::sort, every content of uninitialised memory such that the content of fresh memory is zero, or neither the head up to the first S* position nor an S* substring whose record begins a block of the hash table has a length divisible by 256 (the exact set of texts on which the library reads no byte it did not write, see C46) (C07 shows that this condition cannot be dropped)", "why_tests_cant": "Inputs are unbounded byte strings; a unit test samples a handful, and the interesting behaviour (ties between repeated substrings, recursion depth, block boundaries) appears only for particular long inputs.", "anchors": ["src/flbwt.cpp: bwt_string, bwt_is", "src/induce32bit.cpp: induce_bwt_32bit", "src/sais32bit.cpp: sais_32bit"]}
{"id": "C02", "title": "bwt_file writes an 8 byte big-endian rank followed by the BWT without the terminator row", "statement": "When the input file opens, is non-empty and is fully read, and bwt_string succeeds on its content, the output file holds exactly n+8 bytes: the rank `last` in big-endian order, then the n entries of BWT with row `last` removed, in order.", "quantifier": "every file content of length 3..2^58 under the memory condition of C01, every table size", "why_tests_cant": "The three fwrite branches and the byte order must be right for every rank value up to 2^64, not just for the sampled files.", "anchors": ["src/flbwt.cpp: bwt_file"]}
{"id": "C03", "title": "The output of bwt_file determines the input", "statement": "There is a decoding function that recovers the input file from the output file of bwt_file; in particular two different inputs never produce the same output.", "quantifier": "every pair of input byte strings of length 3..2^58 under the memory condition of C01", "why_tests_cant": "Injectivity is a statement about all pairs of inputs.", "anchors": ["src/flbwt.cpp: bwt_file, bwt_string"]}
{"id": "C04", "title": "bwt_string: which parameters are rejected, crash, or are accepted", "statement": "bwt_string throws invalid_argument when T is NULL or n = 0; for n = 1 and n = 2 it dereferences a null pointer (defect: the user expects a result); for every valid T with n >= 3 it returns a result and throws nothing.", "quantifier": "every T and every n in 0..2 ; every valid input (C01) with n >= 3", "why_tests_cant": "The claim covers every buffer of every length.", "anchors": ["src/flbwt.cpp: bwt_string, extract_LMS_strings, sort_LMS_strings"]}
{"id": "C05", "title": "bwt_file failure reporting", "statement": "bwt_file throws invalid_argument if the input cannot be opened, runtime_error if memory for it cannot be obtained or nothing can be read, invalid_argument if the output cannot be opened; whenever an exception is thrown the output file is neither created nor truncated. (For files of one or two bytes there is no exception: the call crashes, C05_tiny.)", "quantifier": "every combination of I/O outcomes and every file content", "why_tests_cant": "I/O failures at every point of the call cannot be produced by unit tests.", "anchors": ["src/flbwt.cpp: bwt_file"]}
{"id": "C06", "title": "bwt_string never reads or writes outside its allocations", "statement": "On a valid input (C01) every array and buffer access made by bwt_string, including the hash table buffer, packed arrays, queues, suffix array workspace and bucket counters, is inside the allocation it belongs to, and no loop runs forever.", "quantifier": "every valid input and every access of the execution", "why_tests_cant": "Memory errors are silent on most inputs; only a proof over all executions excludes them.", "anchors": ["src/flbwt.cpp", "src/hashtable.cpp", "src/sais32bit.cpp", "src/induce32bit.cpp", "src/queue.cpp", "src/packed_array.cpp"]}
{"id": "C07", "title": "Dependence of the result on uninitialised memory", "statement": "If neither the head nor any S* substring whose record begins a block of the hash table has a length divisible by 256 (C46), the result of bwt_string is the same whatever the fresh memory returned by malloc/realloc/new contains. Without that condition the result does depend on it: for 255 times 'a' the transform is right over zeroed memory, wrong over bytes 1, and out-of-bounds over bytes 255.", "quantifier": "every valid input without such a length, every pair of contents of fresh memory; one counterexample otherwise", "why_tests_cant": "Tests run with one allocator whose fresh pages are usually zero; the unchanged code leaves the low bytes of a length that is a multiple of 256 unwritten.", "anchors": ["src/hashtable.cpp: set_length, insert_string", "src/flbwt.cpp: sort_LMS_strings"]}
{"id": "C08", "title": "The result does not depend on hash collisions or on the sorting routine", "statement": "For every hash table size and every correct std::sort, bwt_string returns the same transform.", "quantifier": "every hash table size >= 1, every sorting function meeting the std::sort contract, every input", "why_tests_cant": "Collision patterns and introsort choices are not controllable from a test.", "anchors": ["src/hashtable.cpp: insert_string, find_name, hash_function", "src/flbwt.cpp: sort_LMS_strings"]}
{"id": "C09", "title": "The transform is a rearrangement of the input", "statement": "The n bytes written after the rank are a permutation of the n input bytes.", "quantifier": "every valid input", "why_tests_cant": "Inputs are unbounded byte strings; a unit test samples a handful, and the interesting behaviour (ties between repeated substrings, recursion depth, block boundaries) appears only for particular long inputs.", "anchors": ["src/flbwt.cpp: bwt_file"]}
{"id": "C10", "title": "PackedArray behaves as an array of b-bit integers", "statement": "After any sequence of set_value calls with index < length and value < 2^b, get_value(i) returns the last value stored at i, and storing at i changes no other element.", "quantifier": "every width b in 1..64, every length, every sequence of stores, every initial memory content", "why_tests_cant": "Values straddling 64-bit words occur for index/width combinations that tests only sample.", "anchors": ["src/packed_array.cpp: set_value, get_value", "include/packed_array.hpp: BIT_MASK"]}
{"id": "C11", "title": "PackedArray accesses stay inside its allocation", "statement": "For index < length, set_value and get_value touch only words of the allocated array.", "quantifier": "every width, length and index", "why_tests_cant": "The last element of every (width, length) pair has to be considered.", "anchors": ["src/packed_array.cpp: PackedArray, set_value, get_value"]}
{"id": "C12", "title": "Queue is a double-ended-insert FIFO queue", "statement": "A Queue of element width 1..63 behaves as a double-ended list: dequeue returns elements from the front, enqueue appends, enqueue_left prepends, is_empty says whether it is empty. At width 64 the same holds but dequeue returns values of 2^63 or more as negative numbers. dequeue on an empty queue is not guarded: it dereferences a null pointer or returns a value that is no element, and is_empty() is false afterwards.", "quantifier": "every history of operations with values that fit, every width 1..64, every content of fresh memory", "why_tests_cant": "Block boundaries (1024 elements) and mixtures of both insert ends give unboundedly many histories.", "anchors": ["src/queue.cpp: enqueue, enqueue_l, dequeue, is_empty"]}
{"id": "C13", "title": "HashTable is a dictionary from substrings to names", "statement": "After any sequence of insert_string calls with lengths >= 3, insert_string returns 1 exactly for strings not inserted before and 0 for duplicates; afterwards a walk over all buckets visits every distinct inserted string exactly once; after names have been set, find_name returns the name of every inserted string and throws runtime_error for every other string. The condition on the lengths is exact: if a string that begins a block has a length divisible by 256, then inserting the strings and reading them back reads a byte of the buffer that was never written.", "quantifier": "every history of insertions in which no string that begins a block has a length divisible by 256 (or fresh memory is zero), every table size >= 1, every block size >= 13 (the code uses 512; 12 overflows) and every hash collision pattern", "why_tests_cant": "Chains that overflow a block and continue in another one appear only in long histories.", "anchors": ["src/hashtable.cpp: insert_string, find_name", "src/flbwt.cpp: sort_LMS_strings"]}
{"id": "C14", "title": "HashTable length field: what get_length returns after set_length", "statement": "After set_length(p, m) with m >= 1, get_length(p) returns m plus the number formed by the old bytes in the positions of m's trailing zero bytes; so it returns m for every m not divisible by 256 and for every m over zeroed memory, and a wrong value for a multiple of 256 over a dirty buffer. No byte outside the field is changed.", "quantifier": "every 64-bit length and every previous content of the buffer", "why_tests_cant": "Only lengths that are multiples of 256 misbehave, and only when the buffer is dirty.", "anchors": ["src/hashtable.cpp: set_length, get_length, calculate_lenlen"]}
{"id": "C15", "title": "HashTable name field round trip", "statement": "get_name(p) returns the value passed to the preceding set_name(p, name) for every name that fits the table's name width, and set_name changes nothing but the name bytes; the name width chosen for input length n is sufficient for all names that bwt_string assigns.", "quantifier": "every record, every name, every n", "why_tests_cant": "Name width depends on n in steps at 2^8k boundaries.", "anchors": ["src/hashtable.cpp: HashTable, set_name, get_name"]}
{"id": "C16", "title": "HashTable block pointer round trip", "statement": "get_pointer(p) returns the value passed to the preceding set_pointer(p, v), for every 64-bit v, and set_pointer writes exactly ten bytes.", "quantifier": "every 64-bit pointer value", "why_tests_cant": "2^64 values.", "anchors": ["src/hashtable.cpp: set_pointer, get_pointer"]}
{"id": "C17", "title": "extract_LMS_strings reports correct statistics", "statement": "After extract_LMS_strings(T,n): M[c+1] is the number of occurrences of byte c, NL[c+1] the number of L-type occurrences, C[c+1] the number of S* (LMS) positions with byte c, num_of_substrings the number of LMS positions, num_of_unique_substrings the number of distinct S* substrings, head_string_end the first LMS position (n if there is none).", "quantifier": "every byte string with n >= 3", "why_tests_cant": "Inputs are unbounded byte strings; a unit test samples a handful, and the interesting behaviour (ties between repeated substrings, recursion depth, block boundaries) appears only for particular long inputs.", "anchors": ["src/flbwt.cpp: extract_LMS_strings"]}
{"id": "C18", "title": "sort_LMS_strings assigns order-preserving names", "statement": "Names 1..u are assigned to the u distinct S* substrings in strictly increasing order of (lexicographic order, a proper prefix being larger than its extension); the name stored with a substring is its index in the returned array.", "quantifier": "every byte string with n >= 3", "why_tests_cant": "Inputs are unbounded byte strings; a unit test samples a handful, and the interesting behaviour (ties between repeated substrings, recursion depth, block boundaries) appears only for particular long inputs.", "anchors": ["src/flbwt.cpp: sort_LMS_strings"]}
{"id": "C19", "title": "create_shortened_string yields the reduced string", "statement": "T1[0] is the head name, T1[i] for 1 <= i <= number of S* substrings is the name of the i-th S* substring of T from the left and the last element is 0; find_name never throws on this path.", "quantifier": "every byte string with n >= 3", "why_tests_cant": "Inputs are unbounded byte strings; a unit test samples a handful, and the interesting behaviour (ties between repeated substrings, recursion depth, block boundaries) appears only for particular long inputs.", "anchors": ["src/flbwt.cpp: create_shortened_string"]}
{"id": "C20", "title": "sais_XXbit computes the suffix array", "statement": "For a text of n >= 1 symbols in 0..k-1, sais_XXbit leaves in SA[0..n-1] the starting positions of all suffixes in increasing lexicographic order (a proper prefix is smaller).", "quantifier": "every text length, alphabet size, free space fs, element width (32, 40, 48, 56, 64) and initial content of SA", "why_tests_cant": "The recursion, the in-place reuse of SA as name buffer and the bucket placement have input dependent interactions at every depth.", "anchors": ["src/sais32bit.cpp: sais_32bit, induce_SA", "src/sais40bit.cpp: sais_40bit", "src/sais48bit.cpp", "src/sais56bit.cpp", "src/sais64bit.cpp"]}
{"id": "C21", "title": "sais_XXbit touches only its workspace", "statement": "sais_XXbit reads and writes only SA[0..n+fs-1], its own bucket arrays and its text, never reads a cell before it was written, and terminates.", "quantifier": "every text, alphabet size and fs", "why_tests_cant": "Every access of every recursion level.", "anchors": ["src/sais32bit.cpp", "src/sais40bit.cpp", "src/sais48bit.cpp", "src/sais56bit.cpp", "src/sais64bit.cpp"]}
{"id": "C22", "title": "Split 40/48/56-bit integer cells round trip", "statement": "get_Xbit_value(i) after set_Xbit_value(i,v) returns v for every signed X-bit v, other indices are unaffected.", "quantifier": "every v with -2^(X-1) <= v < 2^(X-1), X in 40,48,56", "why_tests_cant": "2^56 values.", "anchors": ["include/sais40bit.hpp", "include/sais48bit.hpp", "include/sais56bit.hpp"]}
{"id": "C23", "title": "The chosen suffix array width is sufficient", "statement": "bwt_string selects an element width such that every suffix-array value, complemented value and record pointer it stores is representable, so no value is truncated.", "quantifier": "every input length", "why_tests_cant": "Inputs around 2^31, 2^39, 2^47 bytes cannot be run in a test.", "anchors": ["src/flbwt.cpp: bwt_is, sort_LMS_strings"]}
{"id": "C24", "title": "induce_bwt_XXbit induces the BWT from the sorted S* suffixes", "statement": "Given the S* suffixes of T in lexicographic order (as record addresses) and the statistics of C17, induce_bwt_XXbit returns the BWT of T and the row of T, without popping an empty queue or any other memory error.", "quantifier": "every byte string with n >= 3", "why_tests_cant": "Inputs are unbounded byte strings; a unit test samples a handful, and the interesting behaviour (ties between repeated substrings, recursion depth, block boundaries) appears only for particular long inputs.", "anchors": ["src/induce32bit.cpp", "src/induce40bit.cpp", "src/induce48bit.cpp", "src/induce56bit.cpp", "src/induce64bit.cpp"]}
{"id": "C25", "title": "position_of_msb is the bit length", "statement": "position_of_msb(n) returns the number of significant bits of n for every n >= 1: 2^(r-1) <= n < 2^r.", "quantifier": "every 64-bit n >= 1", "why_tests_cant": "2^64 values.", "anchors": ["include/utility.hpp: position_of_msb"]}
{"id": "C26", "title": "free_T does not change the result", "statement": "bwt_string(T,n,true) and bwt_string(T,n,false) return equal results, and the input buffer is not read after it is freed.", "quantifier": "every valid input", "why_tests_cant": "Inputs are unbounded byte strings; a unit test samples a handful, and the interesting behaviour (ties between repeated substrings, recursion depth, block boundaries) appears only for particular long inputs.", "anchors": ["src/flbwt.cpp: bwt_is"]}
{"id": "C27", "title": "set_length terminates", "statement": "set_length and calculate_lenlen terminate for every length >= 1 (and diverge for 0, which no caller passes).", "quantifier": "every 64-bit length, every fuel bound", "why_tests_cant": "Divergence cannot be observed by a test, and termination must hold for all lengths.", "anchors": ["src/hashtable.cpp: set_length, calculate_lenlen"]}
{"id": "C28", "title": "The comparison passed to std::sort is a strict total order", "statement": "LMS_comparison is irreflexive, transitive and total on the distinct S* substrings stored in the table, so calling std::sort with it is well defined.", "quantifier": "every triple of stored substrings", "why_tests_cant": "std::sort has undefined behaviour when the comparison is not a strict weak order; needs all triples.", "anchors": ["src/flbwt.cpp: sort_LMS_strings LMS_comparison"]}
{"id": "C29", "title": "PackedArray shift amounts: where the oversized shift occurs and why it is harmless", "statement": "Every shift executed by PackedArray::get_value is by less than 64 bits; set_value executes a shift by exactly 64 bits if and only if the element ends at a word boundary (undefined behaviour in C++), and the stored words do not depend on what that shift yields.", "quantifier": "every width and index", "why_tests_cant": "An oversized shift gives the expected answer on common hardware, so tests pass; it is undefined behaviour in C++.", "anchors": ["src/packed_array.cpp: set_value", "include/packed_array.hpp: BIT_MASK"]}
{"id": "C30", "title": "bwt_file on inputs whose size cannot be determined", "statement": "When ftell fails (pipe, FIFO: it returns -1) and there is data to read, bwt_file writes past the end of a zero-sized allocation (defect: the user expects an exception).", "quantifier": "every non-empty content, every table size", "why_tests_cant": "Needs an environment in which ftell fails.", "anchors": ["src/flbwt.cpp: bwt_file"]}
{"id": "C31", "title": "All element widths compute the same result", "statement": "For an input acceptable to several width variants, the 32, 40, 48, 56 and 64 bit variants of sais and induce_bwt produce identical results.", "quantifier": "every input, every pair of widths", "why_tests_cant": "Variants above 32 bit are only reachable with inputs larger than 2 GB.", "anchors": ["src/flbwt.cpp: bwt_is", "src/sais*bit.cpp", "src/induce*bit.cpp"]}
{"id": "C32", "title": "hash_function is a function of the bytes and stays in range", "statement": "hash_function(m,p) is less than the table size and two calls on equal byte strings return equal values. The value is the polynomial with the bytes as coefficients, evaluated at 101 modulo 2^64, reduced modulo the table size.", "quantifier": "every string and table size >= 1", "why_tests_cant": "Unbounded strings with 64-bit wrap-around.", "anchors": ["src/hashtable.cpp: hash_function"]}
{"id": "C33", "title": "Number of S* substrings", "statement": "The number of S* substrings of T is at most n/2, and consecutive S* positions are at least two apart, so every S* substring stored in the table has length at least 3 and is never confused with a block pointer (length 2).", "quantifier": "every byte string", "why_tests_cant": "Inputs are unbounded byte strings; a unit test samples a handful, and the interesting behaviour (ties between repeated substrings, recursion depth, block boundaries) appears only for particular long inputs.", "anchors": ["src/flbwt.cpp: extract_LMS_strings", "src/hashtable.cpp: HashTable, insert_string"]}
{"id": "C34", "title": "The byte behind the text", "statement": "bwt_string reads T[n]: it returns normally only if T[n] is readable and initialised. T[n] need not be zero: the transform is right for every byte that is at most every byte of the text, and for every byte c such that each S* substring that begins like the last one (the text from its last S* position on) continues with a byte above c or ends there with c. With another byte it can be wrong.", "quantifier": "every buffer and every n >= 3, every byte at T[n], fresh memory zero or no S* substring and head of a length divisible by 256; one counterexample for another byte", "why_tests_cant": "Depends on a byte outside the documented string.", "anchors": ["src/flbwt.cpp: extract_LMS_strings, create_shortened_string", "include/flbwt.hpp: bwt_string"]}
{"id": "C35", "title": "Write errors are not reported by bwt_file", "statement": "If the output device accepts only the first k bytes, bwt_file still returns normally and leaves the truncated output (defect: the user expects an error).", "quantifier": "every valid input, every k", "why_tests_cant": "Needs a device that fills up at every possible byte.", "anchors": ["src/flbwt.cpp: bwt_file"]}
{"id": "C36", "title": "Memory bound of the hash table", "statement": "The buffer of the hash table never exceeds 531 bytes per S* substring plus n bytes, nor 512 bytes per bucket of the table plus 2 n bytes plus 50 bytes per S* substring (so at most 27 n bytes plus a constant of 35 MB).", "quantifier": "every valid input and every table size", "why_tests_cant": "The bound is over all inputs; worst cases are not known to a tester.", "anchors": ["src/hashtable.cpp: insert_string", "src/flbwt.cpp: extract_LMS_strings"]}
{"id": "C37", "title": "File size changes while bwt_file runs", "statement": "If the file grows between ftell and fread, bwt_file behaves as on the prefix whose length ftell reported; if it shrinks (short read), bwt_file uses indeterminate bytes (defect: the short read is not detected).", "quantifier": "every content, every reported size", "why_tests_cant": "A race between the file system and the program.", "anchors": ["src/flbwt.cpp: bwt_file"]}
{"id": "C38", "title": "Programs that use several queues: isolation, no leak, bounded memory", "statement": "Any program that creates, uses and deletes Queue objects properly gets from every queue what a double-ended sequence would return, never dereferences a null, dangling or foreign pointer, never frees a block twice or with the wrong deallocator, leaves all other heap blocks untouched, and after the last delete the heap is exactly what it was; while the queues live, a queue of length L holds at most 1 + 3 * ((L + 2046) / 1024) heap blocks.", "quantifier": "every program (any interleaving of operations on any number of queues), every behaviour of an allocator that does not fail (C41: failing ones), every initial heap", "why_tests_cant": "Aliasing and leaks depend on the interleaving of operations and on the addresses the allocator returns.", "anchors": ["src/queue.cpp: Queue, ~Queue, enqueue, enqueue_l, dequeue", "include/queue.hpp: qblock"]}
{"id": "C39", "title": "bwt_string and bwt_file release everything they allocate", "statement": "When bwt_string returns, the heap is the caller's heap plus exactly two blocks: the BWT_result (malloc) and its array BWT (new[]); the caller's text block is released if and only if free_T is true. When bwt_file returns normally the heap and the set of open files are exactly what they were. No block is released twice, after it was released, by a pointer into its middle, or with the wrong function, and no released or null block is used; every block is as large as the array the code keeps in it.", "quantifier": "every valid input (C01), every behaviour of an allocator that does not fail (C41: failing ones), every initial heap, all five cell widths", "why_tests_cant": "Leaks and double frees depend on the input and on the addresses the allocator returns; tests see a few of each.", "anchors": ["src/flbwt.cpp: bwt_is, bwt_string, bwt_file", "src/induce32bit.cpp: induce_bwt_32bit", "src/sais32bit.cpp: sais_32bit", "src/hashtable.cpp: ~HashTable, insert_string", "src/container.cpp: ~Container"]}
{"id": "C40", "title": "What bwt_file leaves behind when it throws", "statement": "If the input cannot be opened or memory for it cannot be obtained, bwt_file throws and leaks nothing. If nothing can be read it leaks the text block and the open input file; if the output cannot be opened it leaks the BWT_result and its array (defects: the user expects nothing to be lost).", "quantifier": "every environment of the four kinds, every allocator, every initial heap", "why_tests_cant": "Needs every failure point of the operating system, with every input.", "anchors": ["src/flbwt.cpp: bwt_file"]}
{"id": "C41", "title": "Memory exhaustion never yields a wrong result", "statement": "Whatever allocation fails, bwt_string, bwt_file and any program over Queue objects either give exactly the result they give with unlimited memory or end at a failed allocation: with std::bad_alloc, with bwt_file's exception for its checked allocation (nothing written), with std::bad_alloc and an empty output file if the allocation of the eight rank bytes fails, or with a use of the null pointer an unchecked malloc/realloc returned (a defect: the process is killed instead of reporting an error). They never return a result that differs from the transform. At the allocation that fails every block of the caller is still allocated and unchanged (the text too unless free_T was passed), and the memory in use including the request is within the bound of C42.", "quantifier": "every allocator, failing at any allocation or none, every valid input (C01), every initial heap", "why_tests_cant": "Each of the hundreds of allocations of a run, on each input, is a separate failure point.", "anchors": ["src/queue.cpp: Queue, enqueue", "src/flbwt.cpp: bwt_is, bwt_file", "src/hashtable.cpp: insert_string", "src/packed_array.cpp: PackedArray", "src/induce32bit.cpp: induce_bwt_32bit"]}
{"id": "C42", "title": "Memory needed is linear in the input", "statement": "bwt_string and bwt_file succeed, with the results and the heap of C39, whenever allocations succeed as long as the live blocks of the process stay within 60 n bytes plus 84 MB beyond what the caller holds; so the peak memory of a call is at most 60 n + 84 MB.", "quantifier": "every valid input of length n (C01), every allocator that fails only beyond that many live bytes, every initial heap", "why_tests_cant": "The peak depends on the input (hash collisions, growth of the string buffer, number of distinct substrings, lengths of the queues); tests measure a few inputs.", "anchors": ["src/flbwt.cpp: bwt_is, bwt_file, extract_LMS_strings, sort_LMS_strings", "src/hashtable.cpp: insert_string", "src/queue.cpp: enqueue, dequeue", "src/sais64bit.cpp: sais_64bit"]}
{"id": "C43", "title": "The recursion of suffix array construction is at most logarithmic", "statement": "sais_XXbit on a text of n characters never has more than log2(n) + 1 calls active at once, so the stack it needs is bounded; in particular the calls made by bwt_string never nest more than 64 deep.", "quantifier": "every text, every cell width, every alphabet (as in C20)", "why_tests_cant": "The depth depends on the text; a test measures the depth of the texts tried.", "anchors": ["src/sais32bit.cpp: sais_32bit", "src/sais40bit.cpp: sais_40bit", "src/sais48bit.cpp: sais_48bit", "src/sais56bit.cpp: sais_56bit", "src/sais64bit.cpp: sais_64bit"]}
{"id": "C44", "title": "Exit status of the command-line program", "statement": "The program examples/bwt exits with code -1 and does nothing if it is not given exactly two arguments; it exits with code 0 only after it has read the whole input and the output file holds the rank and the transform (up to the room on the device, C35), and does so whenever the operating system serves its requests; in all other cases an uncaught exception ends it and the output file is as it was.", "quantifier": "every number of arguments, every file content that is empty or valid (C02) and every combination of failing requests; files of one or two bytes crash (C44_tiny)", "why_tests_cant": "Every combination of content and failure point.", "anchors": ["examples/bwt.cpp: main", "src/flbwt.cpp: bwt_file"]}
{"id": "C45", "title": "Concurrent calls of bwt_file, and crashes", "statement": "When any number of bwt_file calls run at once and none writes a file another one reads or writes, then at every moment (so also after a crash) every file that is nobody's output is unchanged, every output file is as it was or a prefix of the right output for its own input, a call that returned normally has written its whole output (if the device has room) and one that threw has not touched its output file. The calls end after a bounded number of system calls and never wait for each other. Transforming a file in place is not crash safe: there is a moment at which the file is empty. Reading a file another call is writing can use indeterminate memory, or transform a text that was never in any file (the old beginning and the new end).", "quantifier": "every set of calls, every interleaving of their system calls, every way the streams cut the input into reads and the output into writes, every moment, every failing request", "why_tests_cant": "Every schedule and every crash point.", "anchors": ["src/flbwt.cpp: bwt_file"]}
{"id": "C46", "title": "A run that reads no uninitialised byte is right, whatever memory contains", "statement": "For every valid text, with no condition on the lengths of its substrings, either bwt_string reads a byte of its string buffer that it never wrote, or it returns the transform whatever the allocator left in fresh memory. The first case is real: it happens whenever the part of the text up to its first S* position has a length divisible by 256, and whenever some S* substring has a length of 512, 768, 1024, ... bytes. Exactly: it happens if and only if the length of the head, or of some S* substring whose record begins a block of the hash table, is divisible by 256, where which records begin a block follows from the text and the number of buckets alone. The same holds for bwt_file, which in the first case has not yet touched the output file.", "quantifier": "every byte string of length 3..2^58, every table size, every correct comparison sort, every content of fresh memory", "why_tests_cant": "Every text and every memory content; a test run has one memory content.", "anchors": ["src/hashtable.cpp: set_length, get_length", "src/flbwt.cpp: sort_LMS_strings"]}
{"id": "C47", "title": "The suffix sorter takes linear time", "statement": "A call sais_XXbit on a text of n symbols from an alphabet of size k executes at most 214*n + 30*k steps, over all levels of its recursion, for every text and every amount of extra workspace. A step is an access to a cell of the suffix array or of a bucket array, a read of a character, an evaluation of a loop condition, or an array new or delete.", "quantifier": "every text of n >= 1 symbols below k, every extra workspace fs, all five variants", "why_tests_cant": "A bound on every input; the loops that scan runs of equal characters and compare substrings are quadratic on their own and only linear because of a global counting argument.", "anchors": ["src/sais32bit.cpp: sais_32bit, induce_SA, get_counts, get_buckets", "src/sais40bit.cpp: sais_40bit", "src/sais48bit.cpp: sais_48bit", "src/sais56bit.cpp: sais_56bit", "src/sais64bit.cpp: sais_64bit"]}
{"id": "C48", "title": "Running time of a whole call", "statement": "Outside the walks along the chains of its hash table, bwt_string executes at most 564*n + 2058*h + 23140 steps on a text of n bytes (h = number of buckets, 67777 in the library), not counting the comparisons that std::sort makes and the time of the allocator. These comparisons take at most 7*n*d(n/2) steps together, if the sort compares k different elements so that each comparison can be charged to one of its two elements and no element is charged more than d(k) times, for example 7*n*log2(n/2) with merge sort. The buffer of the hash table, which realloc enlarges step by step, never exceeds L = min(512*h + 27*n, 267*n) bytes; realloc is called at most L/512 + 1 times and copies at most L*L/1024 + L bytes together if it moves the block every time, and on suitable texts this quadratic order is reached. The walks take at most 13*n*(55*n + 1024*h + 284) steps, at most 16*n*(2*c + 1) if no bucket of the table holds more than c different S* substrings, and the sum of 2*(3*|s| + 7)*(2*L(s) + 1) over the S* substrings s of the text in any case, L(s) being the number of different S* substrings in the bucket of s. But the quadratic order is reached: for every u there is a text of 31*u + 1 bytes on which the call takes at least u*(u-1)/2 steps. Hence the linear time of the algorithm that the README names does not hold for the implementation. One call of the comparison passed to std::sort is linear in the shorter string, and bwt_file adds a constant number of steps per byte.", "quantifier": "every text of 3 to 2^58 bytes, every hash table size, every std::sort, every initial memory", "why_tests_cant": "An upper bound on every input, and a family of worst cases that exists by the pigeonhole principle; random tests never hit it.", "anchors": ["src/flbwt.cpp: bwt_is, extract_LMS_strings, sort_LMS_strings, create_shortened_string", "src/hashtable.cpp: insert_string, find_name", "src/induce32bit.cpp: induce_bwt"]}
{"id": "C49", "title": "PackedArray::set_value does not mask its value", "statement": "Storing a value v that does not fit into the b bits of an element leaves v mod 2^b in that element, leaves later elements alone, and ors the excess bits into exactly those earlier elements that share the 64-bit word in which the element begins. So a value that is too wide silently changes neighbouring elements, also inside a Queue (defect: the user expects truncation or an error).", "quantifier": "every array length and element width 1..64, every history of stores of any 64-bit values, every index and 64-bit value", "why_tests_cant": "The effect depends on how the element lies relative to word boundaries and on all earlier stores; the tests only store values that fit.", "anchors": ["src/packed_array.cpp: set_value, get_value", "src/queue.cpp: enqueue"]}
{"id": "C50", "title": "Any program that uses the library correctly", "statement": "A program may obtain texts, call bwt_string on them any number of times (releasing the text or not), release results as the library does, and call bwt_file, in any order and with any number of results held at once. No such program meets undefined behaviour; each result still held is the transform of the text it was computed from, whatever was called or released in between; each bwt_file call has its specified outcome; and the heap consists at any point of the blocks there before, the texts and results still held and the blocks lost by failing bwt_file calls. A program that releases everything leaves the heap as it found it.", "quantifier": "every finite history of client operations, every number of texts and results held at once, every text of bytes of length 3..2^58, every allocator that does not fail, every content of fresh memory per call (or a text outside the exceptions of C46), every initial heap", "why_tests_cant": "The tests make one call per process state and release nothing; the claim ranges over all interleavings of calls and releases and all contents of reused memory.", "anchors": ["src/flbwt.cpp: bwt_string, bwt_file", "include/flbwt.hpp: BWT_result"]}
{"id": "C51", "title": "Threads that use the library at the same time", "statement": "Any number of threads may run such programs at the same time in one process, and may share texts that none of them releases or passes with free_T. Whatever the schedule and whatever addresses the allocator hands out, no thread meets undefined behaviour, each thread gets exactly the results its program gets alone, every schedule is finite and can be continued until all threads are finished, and the heap at the end is the initial one (with the shared texts) and the blocks the threads still hold or lost.", "quantifier": "every number of threads, every program per thread (histories of C50), every interleaving of their heap operations, every choice of free addresses, every set of shared texts, every initial heap", "why_tests_cant": "The tests are single-threaded; the interleavings and address choices are unbounded.", "anchors": ["src/flbwt.cpp: bwt_string, bwt_file, bwt_is", "src/queue.cpp: enqueue, dequeue, ~Queue", "src/container.cpp: ~Container"]}
{"id": "C52", "title": "Programs and threads when memory may run out", "statement": "The programs of C50 and the threads of C51 when any allocation may fail at any time. A program (or thread) none of whose allocations fails has exactly its results, whatever happens in the other threads. Otherwise each of its statements still gives the right transform, or a call of bwt_file throws an exception (leaving no output file or an empty one) and the program can go on, or it stops for lack of memory (std::bad_alloc, or a use of the null pointer of an unchecked malloc); never a wrong result or another failure. Blocks that were there before, including shared texts, stay allocated and unchanged at every moment, and everything the variables of a finished program refer to is allocated. Every schedule is finite.", "quantifier": "every allocator that may depend on the whole history and fail at any allocation, every history of calls, every number of threads, every interleaving, every set of failing allocations, every initial heap", "why_tests_cant": "No test makes an allocation fail; which allocation of which thread fails, and when, is unbounded.", "anchors": ["src/flbwt.cpp: bwt_string, bwt_file, bwt_is", "src/queue.cpp: Queue, enqueue, ~Queue", "src/container.cpp: Container, ~Container", "src/hashtable.cpp: HashTable, insert_string"]}
