{
 "claims": [
  {
   "property": "C01",
   "status": "proved",
   "theorems": [
    "C01_bwt_string",
    "C01_last_refuted"
   ],
   "note": "C01_last_refuted: the row of the terminator itself, BWT[last], is not part of the result (unwritten or unrelated byte). Precondition on fresh memory / lengths divisible by 256 is in the statement; C07_refuted shows it cannot be dropped."
  },
  {
   "property": "C02",
   "status": "proved",
   "theorems": [
    "C02_bwt_file",
    "C02_length"
   ],
   "note": ""
  },
  {
   "property": "C03",
   "status": "proved",
   "theorems": [
    "C03_decodable",
    "C03_injective"
   ],
   "note": ""
  },
  {
   "property": "C04",
   "status": "proved",
   "theorems": [
    "C04_null",
    "C04_zero",
    "C04_short",
    "C04_accepts"
   ],
   "note": "C04_short is the defect n = 1, 2."
  },
  {
   "property": "C05",
   "status": "proved",
   "theorems": [
    "C05_no_input",
    "C05_no_memory",
    "C05_nothing_read",
    "C05_no_output",
    "C05_tiny",
    "C05_untouched",
    "C05_exception"
   ],
   "note": ""
  },
  {
   "property": "C06",
   "status": "proved",
   "theorems": [
    "C06_safe"
   ],
   "note": "Every access is checked in the model, so an Ok outcome means no violation happened; this includes that no suffix array or bucket cell receives a value its type cannot hold (Overflow)."
  },
  {
   "property": "C07",
   "status": "proved",
   "theorems": [
    "C07_fresh",
    "C07_refuted"
   ],
   "note": "C07_refuted: concrete counterexample to independence without the length condition."
  },
  {
   "property": "C08",
   "status": "proved",
   "theorems": [
    "C08_independent"
   ],
   "note": ""
  },
  {
   "property": "C09",
   "status": "proved",
   "theorems": [
    "C09_permutation"
   ],
   "note": ""
  },
  {
   "property": "C10",
   "status": "proved",
   "theorems": [
    "C10_packed_array"
   ],
   "note": ""
  },
  {
   "property": "C11",
   "status": "proved",
   "theorems": [
    "C11_packed_safe"
   ],
   "note": ""
  },
  {
   "property": "C12",
   "status": "proved",
   "theorems": [
    "C12_queue",
    "C12_queue64",
    "C12_signed_refuted",
    "C12_dequeue_empty"
   ],
   "note": "C12_signed_refuted, C12_dequeue_empty: the two deviations from a plain deque."
  },
  {
   "property": "C13",
   "status": "proved",
   "theorems": [
    "C13_dictionary",
    "C13_dirty_refuted",
    "C13_unwritten",
    "C13_exact",
    "C13_block12_refuted"
   ],
   "note": "C13_block12_refuted: the block size bound is sharp. C13_dirty_refuted: a string of 256 bytes at the beginning of a dirty block is forgotten. C13_unwritten and C13_exact: the condition on the lengths is exact for memory that counts as unwritten until written."
  },
  {
   "property": "C14",
   "status": "proved",
   "theorems": [
    "C14_length_exact",
    "C14_length",
    "C14_refuted"
   ],
   "note": "C14_length_exact is the complete characterisation; C14_refuted shows the unconditional round trip is false."
  },
  {
   "property": "C15",
   "status": "proved",
   "theorems": [
    "C15_name",
    "C15_width"
   ],
   "note": ""
  },
  {
   "property": "C16",
   "status": "proved",
   "theorems": [
    "C16_pointer"
   ],
   "note": ""
  },
  {
   "property": "C17",
   "status": "proved",
   "theorems": [
    "C17_extract"
   ],
   "note": ""
  },
  {
   "property": "C18",
   "status": "proved",
   "theorems": [
    "C18_sort"
   ],
   "note": ""
  },
  {
   "property": "C19",
   "status": "proved",
   "theorems": [
    "C19_shortened"
   ],
   "note": ""
  },
  {
   "property": "C20",
   "status": "proved",
   "theorems": [
    "C20_sais",
    "C20_sais_40bit",
    "C20_sais_48bit",
    "C20_sais_56bit",
    "C20_sais_cells"
   ],
   "note": "C20_sais: plain cells (32/64), C20_sais_cells: the same with the text in an array of cells (cs = W); C20_sais_40bit/48bit/56bit: the programs over split arrays (M_Split.v), proved by simulation; hypothesis pa_bits p <> W because the code recognises its recursive calls by cs == W. The arrays may hold anything beforehand (a cell initialised in all its parts or in none); fuel is the number of nested calls allowed, log2 n + 1 are enough (C43)."
  },
  {
   "property": "C21",
   "status": "proved",
   "theorems": [
    "C21_sais_safe"
   ],
   "note": ""
  },
  {
   "property": "C22",
   "status": "proved",
   "theorems": [
    "C22_cells_2part",
    "C22_cells_3part"
   ],
   "note": "2-part cells: uw = 8 (40 bit), 16 (48 bit); 3-part cells: 56 bit."
  },
  {
   "property": "C23",
   "status": "proved",
   "theorems": [
    "C23_width"
   ],
   "note": ""
  },
  {
   "property": "C24",
   "status": "proved",
   "theorems": [
    "C24_induce"
   ],
   "note": ""
  },
  {
   "property": "C25",
   "status": "proved",
   "theorems": [
    "C25_msb",
    "C25_zero"
   ],
   "note": ""
  },
  {
   "property": "C26",
   "status": "proved",
   "theorems": [
    "C26_free"
   ],
   "note": ""
  },
  {
   "property": "C27",
   "status": "proved",
   "theorems": [
    "C27_set_length",
    "C27_calculate_lenlen",
    "C27_zero_diverges"
   ],
   "note": ""
  },
  {
   "property": "C28",
   "status": "proved",
   "theorems": [
    "C28_comparison",
    "C28_strict_total"
   ],
   "note": ""
  },
  {
   "property": "C29",
   "status": "proved",
   "theorems": [
    "C29_log",
    "C29_set_shifts",
    "C29_get_shifts",
    "C29_harmless",
    "C29_refuted"
   ],
   "note": "C29_refuted: the 64-bit shift occurs."
  },
  {
   "property": "C30",
   "status": "proved",
   "theorems": [
    "C30_unseekable"
   ],
   "note": "The theorem proves the defect for every input."
  },
  {
   "property": "C31",
   "status": "proved",
   "theorems": [
    "C31_widths"
   ],
   "note": ""
  },
  {
   "property": "C32",
   "status": "proved",
   "theorems": [
    "C32_hash",
    "C32_value"
   ],
   "note": ""
  },
  {
   "property": "C33",
   "status": "proved",
   "theorems": [
    "C33_half",
    "C33_gap",
    "C33_length"
   ],
   "note": ""
  },
  {
   "property": "C34",
   "status": "proved",
   "theorems": [
    "C34_terminator_read",
    "C34_terminator",
    "C34_least",
    "C34_terminator_zero"
   ],
   "note": "C34_terminator_zero is a concrete execution with a byte for which the condition fails."
  },
  {
   "property": "C35",
   "status": "proved",
   "theorems": [
    "C35_write_errors"
   ],
   "note": ""
  },
  {
   "property": "C36",
   "status": "proved",
   "theorems": [
    "C36_buffer",
    "C36_linear"
   ],
   "note": ""
  },
  {
   "property": "C37",
   "status": "proved",
   "theorems": [
    "C37_grown",
    "C37_shrunk"
   ],
   "note": ""
  },
  {
   "property": "C38",
   "status": "proved",
   "theorems": [
    "C38_pool"
   ],
   "note": ""
  },
  {
   "property": "C39",
   "status": "proved",
   "theorems": [
    "C39_string",
    "C39_file"
   ],
   "note": ""
  },
  {
   "property": "C40",
   "status": "proved",
   "theorems": [
    "C40_no_input",
    "C40_no_memory",
    "C40_nothing_read",
    "C40_no_output"
   ],
   "note": ""
  },
  {
   "property": "C41",
   "status": "proved",
   "theorems": [
    "C41_string",
    "C41_file",
    "C41_pool"
   ],
   "note": "C41_case: all three kinds of outcome occur for one concrete text."
  },
  {
   "property": "C42",
   "status": "proved",
   "theorems": [
    "C42_string",
    "C42_file"
   ],
   "note": "Sizes of an LP64 platform; stdio buffers, allocator overhead, the stack and memory used inside std::sort are not counted; realloc is counted as if old and new block coexist."
  },
  {
   "property": "C43",
   "status": "proved",
   "theorems": [
    "C43_depth",
    "C43_depth_2part",
    "C43_depth_56bit"
   ],
   "note": "In the model the recursion is by a depth bound (fuel); the theorems say that log2 n + 1 is enough, and C01 uses the constant 64."
  },
  {
   "property": "C44",
   "status": "proved",
   "theorems": [
    "C44_usage",
    "C44_exit",
    "C44_success",
    "C44_tiny",
    "C44_failure"
   ],
   "note": ""
  },
  {
   "property": "C45",
   "status": "proved",
   "theorems": [
    "C45_calls",
    "C45_end",
    "C45_inplace_refuted",
    "C45_race_refuted",
    "C45_torn_refuted"
   ],
   "note": "System calls are atomic; reads and writes are cut into pieces arbitrarily; a read does not fail; files are not removed or renamed while open. C45_inplace_refuted, C45_race_refuted and C45_torn_refuted show what happens without independence or in place."
  },
  {
   "property": "C46",
   "status": "proved",
   "theorems": [
    "C46_safe",
    "C46_dichotomy",
    "C46_head_refuted",
    "C46_long_refuted",
    "C46_file_long_refuted",
    "C46_exact",
    "C46_file_exact",
    "C46_file",
    "C46_file_refuted"
   ],
   "note": "C46_exact, C46_file_exact: both directions; the condition unwritten_length is in BlockSpec.v."
  },
  {
   "property": "C47",
   "status": "proved",
   "theorems": [
    "C47_steps",
    "C47_steps_40bit",
    "C47_steps_48bit",
    "C47_steps_56bit"
   ],
   "note": "C47_steps covers 32 and 64 bit (plain cells); the steps counted are listed in M_SaisCost.v; that erasing the counter gives the verified program is part of each theorem."
  },
  {
   "property": "C48",
   "status": "proved",
   "theorems": [
    "C48_steps",
    "C48_quadratic",
    "C48_linear_refuted",
    "C48_sorted",
    "C48_merge_sort",
    "C48_buckets",
    "C48_small_buckets",
    "C48_comparison",
    "C48_file",
    "C48_file_sorted",
    "C48_realloc",
    "C48_realloc_quadratic"
   ],
   "note": "C48_realloc and C48_realloc_quadratic count the bytes that realloc copies if it moves the block every time (M_Moves.v). C48_sorted adds the comparisons of any sorting algorithm, seen as a decision tree (SortSpec.v); C48_merge_sort instantiates it. C48_buckets bounds the chain walks by how full the buckets are (LoadSpec.v). The weight pw of chain steps separates the two parts (pw = 0: everything else). C48_quadratic and C48_linear_refuted give the worst case; the factor 2^46 is the largest for texts within the 2^58 bytes for which the program is verified."
  },
  {
   "property": "C49",
   "status": "proved",
   "theorems": [
    "C49_wide",
    "C49_truncates_refuted",
    "C49_queue_refuted"
   ],
   "note": "C49_truncates_refuted and C49_queue_refuted are concrete executions."
  },
  {
   "property": "C50",
   "status": "proved",
   "theorems": [
    "C50_history",
    "C50_clean"
   ],
   "note": ""
  },
  {
   "property": "C51",
   "status": "proved",
   "theorems": [
    "C51_threads",
    "C51_ends",
    "C51_tree"
   ],
   "note": ""
  },
  {
   "property": "C52",
   "status": "proved",
   "theorems": [
    "C52_program",
    "C52_threads",
    "C52_ends"
   ],
   "note": ""
  }
 ]
}