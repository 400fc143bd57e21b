{
 "claims": [
  {
   "property": "C01",
   "status": "proved",
   "theorems": [
    "C01_one_shot_is_blake2"
   ],
   "note": "Both crates, every back end, every message (no length bound). Default parameters."
  },
  {
   "property": "C02",
   "status": "proved",
   "theorems": [
    "C02_parameters_have_their_meaning"
   ],
   "note": "Every list of setter calls, refused ones included; the digest is that of the published function with the parameters the list means."
  },
  {
   "property": "C03",
   "status": "proved",
   "theorems": [
    "C03_incremental_is_one_shot"
   ],
   "note": "Any split into chunks, empty chunks included."
  },
  {
   "property": "C04",
   "status": "proved",
   "theorems": [
    "C04_finalize_is_pure",
    "C04_observers_leave_no_trace"
   ],
   "note": "Whole histories of a State: any sequence of operations with finalize, count, Debug inserted anywhere."
  },
  {
   "property": "C05",
   "status": "proved",
   "theorems": [
    "C05_last_node_any_time"
   ],
   "note": "The flag's value at the time of finalize is what counts, whatever was called before."
  },
  {
   "property": "C06",
   "status": "proved",
   "theorems": [
    "C06_count_is_bytes_fed",
    "C06_count_exact",
    "C06_count_debug_panic"
   ],
   "note": "Exact below the range of the counter; in general modulo 2^128 (2^64 for BLAKE2s). In a debug build a keyed state whose counter wrapped below one block panics; C06_count_debug_panic exhibits it."
  },
  {
   "property": "C07",
   "status": "proved",
   "theorems": [
    "C07_batch_updates_are_updates"
   ],
   "note": "All objects of the batch, in any states reachable by programs, any back end and iterator."
  },
  {
   "property": "C08",
   "status": "proved",
   "theorems": [
    "C08_batch_hashing_is_hashing",
    "C08_hash_alone_returns"
   ],
   "note": "Requests with arbitrary settings and messages, any back end per job."
  },
  {
   "property": "C09",
   "status": "proved",
   "theorems": [
    "C09_any_batches"
   ],
   "note": "Any sequence of batches over the same jobs."
  },
  {
   "property": "C10",
   "status": "proved",
   "theorems": [
    "C10_update_many_returns",
    "C10_hash_many_returns",
    "C10_pass_retires_a_job",
    "C10_parallel_returns"
   ],
   "note": "The loop of the model runs on fuel; exhaustion is the outcome Diverge. The theorems exclude it for the fuel that the functions use."
  },
  {
   "property": "C11",
   "status": "proved",
   "theorems": [
    "C11_hash",
    "C11_parallel_hash",
    "C11_histories",
    "C11_parallel_histories",
    "C11_programs"
   ],
   "note": "Digests, whole histories, whole programs; every pair of back ends supported by the CPU."
  },
  {
   "property": "C12",
   "status": "proved",
   "theorems": [
    "C12_single_lane",
    "C12_many_lanes",
    "C12_every_block_serial",
    "C12_every_block_strided",
    "C12_no_program_breaks"
   ],
   "note": "Raw reads outside of a slice are the outcome UB; it never occurs, and the offsets read are exactly the blocks."
  },
  {
   "property": "C13",
   "status": "proved",
   "theorems": [
    "C13_panics",
    "C13_before_wrapping",
    "C13_release"
   ],
   "note": "A call of a whole program panics exactly when the abstract machine of the documentation says so."
  },
  {
   "property": "C14",
   "status": "proved",
   "theorems": [
    "C14_parallel_hash_is_standard",
    "C14_one_shot"
   ],
   "note": "Any settings and any message."
  },
  {
   "property": "C15",
   "status": "proved",
   "theorems": [
    "C15_parallel_incremental_is_one_shot",
    "C15_any_history"
   ],
   "note": "Also inside arbitrary histories."
  },
  {
   "property": "C16",
   "status": "proved",
   "theorems": [
    "C16_parallel_count",
    "C16_parallel_count_exact"
   ],
   "note": "As C06, with the key block counted once per leaf."
  },
  {
   "property": "C17",
   "status": "proved",
   "theorems": [
    "C17_setters_accept_the_documented_range",
    "C17_parallel_setters"
   ],
   "note": "Acceptance and refusal of every argument, and what a refused call leaves behind."
  },
  {
   "property": "C18",
   "status": "proved",
   "theorems": [
    "C18_last_value_wins",
    "C18_zero_padded",
    "C18_commute",
    "C18_parallel"
   ],
   "note": "Arbitrary setter lists. The result depends on the last accepted value of each setting only."
  },
  {
   "property": "C19",
   "status": "proved",
   "theorems": [
    "C19_empty_key_is_no_key",
    "C19_key_is_one_leading_block"
   ],
   "note": "Also: a key is one zero-padded block in front of the message."
  },
  {
   "property": "C20",
   "status": "proved",
   "theorems": [
    "C20_parameter_block_injective",
    "C20_no_truncation"
   ],
   "note": "Equality of initial words if and only if all fields agree (salt and personalisation padded with zeros)."
  },
  {
   "property": "C21",
   "status": "proved",
   "theorems": [
    "C21_hash_is_its_calls",
    "C21_padding_unambiguous"
   ],
   "note": "The sequence of compression calls determines key, message and flag; C43 builds on it."
  },
  {
   "property": "C22",
   "status": "proved",
   "theorems": [
    "C22_equality_is_byte_equality",
    "C22_equivalence",
    "C22_tail_is_ignored"
   ],
   "note": "constant_time_eq is modelled by its result."
  },
  {
   "property": "C23",
   "status": "proved",
   "theorems": [
    "C23_length",
    "C23_live_states",
    "C23_array_roundtrip",
    "C23_parallel_length",
    "C23_parallel_states"
   ],
   "note": "Hash objects of every origin."
  },
  {
   "property": "C24",
   "status": "proved",
   "theorems": [
    "C24_hex",
    "C24_hex_injective"
   ],
   "note": "Both directions: to_hex decodes to the bytes and is injective."
  },
  {
   "property": "C25",
   "status": "proved",
   "theorems": [
    "C25_secrets"
   ],
   "note": "Two programs that differ in keys and message bytes only show the same Debug output."
  },
  {
   "property": "C26",
   "status": "proved",
   "theorems": [
    "C26_lane_counters",
    "C26_load_store",
    "C26_pass_counts",
    "C26_reachable_states",
    "C26_reachable_jobs"
   ],
   "note": "For the counters that occur (multiples of the block length); C26_reachable_* prove that no others do."
  },
  {
   "property": "C27",
   "status": "proved",
   "theorems": [
    "C27_write_is_update",
    "C27_parallel_write_is_update"
   ],
   "note": "write, write_all, flush of State and of the parallel State."
  },
  {
   "property": "C28",
   "status": "proved",
   "theorems": [
    "C28_detection_is_sound",
    "C28_detection_is_widest",
    "C28_degree",
    "C28_batch_size",
    "C28_dispatch",
    "C28_refuses"
   ],
   "note": "All combinations of compile-time and run-time features."
  },
  {
   "property": "C29",
   "status": "proved",
   "theorems": [
    "C29_states",
    "C29_parallel_states",
    "C29_jobs",
    "C29_clones"
   ],
   "note": "Programs over a store of objects with clone."
  },
  {
   "property": "C30",
   "status": "proved",
   "theorems": [
    "C30_update_order",
    "C30_hash_order",
    "C30_update_split",
    "C30_hash_split"
   ],
   "note": "Permutations and splits of batches."
  },
  {
   "property": "C31",
   "status": "proved",
   "theorems": [
    "C31_tree_by_hand"
   ],
   "note": "Unkeyed trees: a keyed root needs the key length in its parameter block without a key block, which Params cannot express. Leaves contribute full-length hashes (as_array), all lengths in release builds, the full length in debug builds."
  },
  {
   "property": "C32",
   "status": "proved",
   "theorems": [
    "C32_no_stale_bytes",
    "C32_parallel_no_stale_bytes"
   ],
   "note": "Equal bytes fed, equal behaviour forever, whatever the buffers contain."
  },
  {
   "property": "C33",
   "status": "proved",
   "theorems": [
    "C33_stdin",
    "C33_stdin_mmap",
    "C33_file",
    "C33_mmap",
    "C33_always"
   ],
   "note": "Every sequence of read results, interruptions included, files and memory maps."
  },
  {
   "property": "C34",
   "status": "proved",
   "theorems": [
    "C34_accepted",
    "C34_rejected",
    "C34_big_small",
    "C34_tree_with_parallel",
    "C34_malformed",
    "C34_out_of_range"
   ],
   "note": "From parsed options on; C49 is about the parsing that comes before."
  },
  {
   "property": "C35",
   "status": "proved",
   "theorems": [
    "C35_lines"
   ],
   "note": "One line per input in order, exit status 1 exactly if an input failed."
  },
  {
   "property": "C36",
   "status": "proved",
   "theorems": [
    "C36_update_many_pulls_once",
    "C36_hash_many_pulls_once",
    "C36_update_many_lazy",
    "C36_hash_many_lazy"
   ],
   "note": "The iterator is the list of answers of its next() calls, None allowed in the middle."
  },
  {
   "property": "C37",
   "status": "proved",
   "theorems": [
    "C37_to_hash_after_run"
   ],
   "note": "In a debug build to_hash panics exactly for the jobs that have not run; a keyed job with an empty message needs no run."
  },
  {
   "property": "C38",
   "status": "proved",
   "theorems": [
    "C38_portable",
    "C38_avx2_rows",
    "C38_sse41_rows",
    "C38_rows_are_the_kernel",
    "C38_sse41_rows_are_the_kernel",
    "C38_lanes",
    "C38_lanes_are_the_kernel"
   ],
   "note": "Explicit inverses of the rounds of all kernels."
  },
  {
   "property": "C39",
   "status": "proved",
   "theorems": [
    "C39_profiles",
    "C39_before_wrapping"
   ],
   "note": "Debug and release agree except where C13 names a panic."
  },
  {
   "property": "C40",
   "status": "proved",
   "theorems": [
    "C40_programs"
   ],
   "note": "Simulation of every public function by the abstract machine of Machine.v, for whole programs."
  },
  {
   "property": "C41",
   "status": "proved",
   "theorems": [
    "C41_update_many_interrupted",
    "C41_hash_many_interrupted",
    "C41_one_lane",
    "C41_update_many_ends",
    "C41_hash_many_ends",
    "C41_states_usable",
    "C41_batches_usable",
    "C41_covers_live",
    "C41_hash_right_or_refused_refuted"
   ],
   "note": "The stronger reading, that a job's hash is right or refused after an interrupted hash_many, is false of the code; C41_hash_right_or_refused_refuted is the counterexample."
  },
  {
   "property": "C42",
   "status": "proved",
   "theorems": [
    "C42_programs",
    "C42_width"
   ],
   "note": "Any width of usize of at least 16 bits."
  },
  {
   "property": "C43",
   "status": "proved",
   "theorems": [
    "C43_collision",
    "C43_parallel_collision",
    "C43_modes_are_separate"
   ],
   "note": "Stated for messages shorter than the range of the counter less one block. The second kind of collision (agreement in the bytes of the digest only) concerns the last use of each computation."
  },
  {
   "property": "C44",
   "status": "proved",
   "theorems": [
    "C44_portable_kernel",
    "C44_avx2_kernel",
    "C44_sse41_kernel",
    "C44_lanes_kernel",
    "C44_load_lanes_kernel",
    "C44_store_lanes_kernel",
    "C44_events_change_nothing",
    "C44_secret_independent",
    "C44_comparison",
    "C44_to_hex_refuted"
   ],
   "note": "Leakage of the source as modelled (jumps, positions, divisions, dispatch, kernels); what a compiler makes of it is outside. The kernels are opened in Asm.v: straight-line code over the intrinsics. to_hex and Debug of Hash leak the digest through a table lookup: C44_to_hex_refuted."
  },
  {
   "property": "C45",
   "status": "proved",
   "theorems": [
    "C45_work",
    "C45_stream",
    "C45_tree_stream",
    "C45_pace"
   ],
   "note": "Counts the blocks and the runs of compression kernels in the events of Leak.v. The exact number of blocks for every call; for the tree states the sum over a state's history, and a bound for each update. The pace excludes programs that force the portable back end."
  },
  {
   "property": "C46",
   "status": "proved",
   "theorems": [
    "C46_output",
    "C46_stdout",
    "C46_success",
    "C46_closed",
    "C46_progress"
   ],
   "note": "main with println!/eprintln! as the standard library does them (a 1024-byte LineWriter for standard output, nothing for standard error, a last flush on the way out). The panic message itself is left out of standard error."
  },
  {
   "property": "C47",
   "status": "proved",
   "theorems": [
    "C47_threads",
    "C47_alone",
    "C47_handover",
    "C47_handover_one_thread"
   ],
   "note": "Threads over one store, calls overlap. C47_threads: fixed owners; C47_handover: objects pass between threads, any history without conflicting overlapping calls equals the machine making the calls in the order of their ends. A call's writes are together at its end."
  },
  {
   "property": "C48",
   "status": "proved",
   "theorems": [
    "C48_blake2x",
    "C48_too_long"
   ],
   "note": "The specification is run on vectors of tests/blake2-kat.json in Tests.v."
  },
  {
   "property": "C49",
   "status": "proved",
   "theorems": [
    "C49_understood",
    "C49_order",
    "C49_refused",
    "C49_unknown",
    "C49_no_value",
    "C49_help",
    "C49_not_text",
    "C49_always",
    "C49_files",
    "C49_stdin"
   ],
   "note": "clap (structopt) is third-party code that is not in /repo: Args.v is a reading of its parsing loop, and the claim is about command lines in the documented style. Words may be any bytes; the finding is that words that are not UTF-8, names of files included, make the tool panic (main.rs:13 does not say parse(from_os_str))."
  },
  {
   "property": "C50",
   "status": "proved",
   "theorems": [
    "C50_docs_recorded",
    "C50_docs_compare",
    "C50_painted",
    "C50_fuzz_many",
    "C50_asserts",
    "C50_reference",
    "C50_against_reference",
    "C50_kernels",
    "C50_kernel_tests",
    "C50_batches",
    "C50_vectors",
    "C50_detection",
    "C50_fuzz_targets",
    "C50_tool_tests",
    "C50_tool_lines",
    "C50_answers",
    "C50_multiple_finalizes",
    "C50_setters",
    "C50_vector_files",
    "C50_sneves_vectors"
   ],
   "note": "Suite.v, Units.v, Vectors.v and Targets.v: the bodies of the tests and of the fuzz targets with the inputs, parameters, recorded texts and the list of vectors as arguments; Docs.v: the examples in the documentation; Inputs.v: the painting and drawing of the inputs, with the random generator as an argument. Reading the JSON is left out. Whether the recorded texts are right is not a matter of this property (Tests.v runs some). duct, tempfile and libfuzzer are taken as given."
  },
  {
   "property": "C51",
   "status": "proved",
   "theorems": [
    "C51_whole",
    "C51_files",
    "C51_stdin",
    "C51_refused",
    "C51_not_text",
    "C51_progress"
   ],
   "note": "main as a whole; the panic message and the wording of clap's messages are left out."
  },
  {
   "property": "C52",
   "status": "proved",
   "theorems": [
    "C52_offsets",
    "C52_one_shot",
    "C52_parallel",
    "C52_many",
    "C52_uncorrelated_refuted",
    "C52_pages",
    "C52_harness",
    "C52_harness_many",
    "C52_names",
    "C52_names_differ",
    "C52_substring_refuted"
   ],
   "note": "Bench.v: the inputs, the timed loops, the closures over this library and the choice by name. Clock, rates, worker processes and the other libraries are left out; addresses, random bytes and orders are arguments. C52_uncorrelated_refuted and C52_substring_refuted prove two comments of the benchmarks wrong."
  },
  {
   "property": "C53",
   "status": "proved",
   "theorems": [
    "C53_runner",
    "C53_both_configurations"
   ],
   "note": "Runner.v: main, run_cmd and run_cargo_cmd; cargo's answers are an argument, the printing and the environment variable are left out."
  },
  {
   "property": "C54",
   "status": "proved",
   "theorems": [
    "C54_blake2b",
    "C54_blake2bp",
    "C54_blake2sp",
    "C54_no_avx2",
    "C54_same_as_this_library",
    "C54_tables_in_bounds"
   ],
   "note": "Sneves.v, SnevesLoad.v, SnevesIntrinsics.v: blake2b, blake2bp and blake2sp of the vendored C library and their Rust wrappers, for the three compile-time strategies. The loads of a message block are checked as one read of the whole block (C54_tables_in_bounds for the tables). Left out: the return value (always 0), code under #if 0 and SUPERCOP, alignment of the local arrays, the C compiler."
  },
  {
   "property": "C55",
   "status": "proved",
   "theorems": [
    "C55_one",
    "C55_one_failure",
    "C55_all",
    "C55_all_failure",
    "C55_worker"
   ],
   "note": "The whole of main, worker, run_algo and rate_f32; f32 by its definition, tested against a processor. A process either prints the time its clock shows, dies before it prints, or cannot be started. std's sort is any function that meets its contract. (The closure given to sort_by answers Greater for equal rates, also of an element with itself; std asks only whether it answers Less, which is a strict weak order.)"
  },
  {
   "property": "C56",
   "status": "proved",
   "theorems": [
    "C56_read_back",
    "C56_success",
    "C56_newline_refuted"
   ],
   "note": "Proved for names without newlines; C56_newline_refuted shows that the restriction is needed: two files are reported in the same bytes as three."
  },
  {
   "property": "C57",
   "status": "proved",
   "theorems": [
    "C57_refused",
    "C57_accepted",
    "C57_hex",
    "C57_hex_fine",
    "C57_key",
    "C57_files",
    "C57_stdin_mmap"
   ],
   "note": "The texts of the operating system's errors are taken as given; the tool's own texts, hex's and the escaping of characters are modelled. Values out of range end the tool with a panic, see C59."
  },
  {
   "property": "C58",
   "status": "proved",
   "theorems": [
    "C58_jobs_left_half_way",
    "C58_length_extension",
    "C58_forgery",
    "C58_one_job_gives_the_key_away",
    "C58_job_never_run",
    "C58_jobs_stay",
    "C58_states_left_half_way",
    "C58_damage_stays",
    "C58_spliced",
    "C58_cut_nothing",
    "C58_one_state_forgets",
    "C58_one_state_collides"
   ],
   "note": "A finding: the comment in HashManyJob's Debug (many.rs:337) says that leaking the words would allow length extension, and to_hash leaks them for a job that a panic of the caller's iterator interrupted, in every build, and for a job that was never run, in release builds."
  },
  {
   "property": "C59",
   "status": "proved",
   "theorems": [
    "C59_setter",
    "C59_psetter",
    "C59_faithful",
    "C59_tool",
    "C59_problems",
    "C59_secret",
    "C59_length_only",
    "C59_to_hash"
   ],
   "note": "The text that the panic hook of std writes around the message (thread, place in the source) is left out."
  },
  {
   "property": "C60",
   "status": "proved",
   "theorems": [
    "C60_update_many",
    "C60_hash_many",
    "C60_deeds",
    "C60_job_deeds",
    "C60_made_on_the_fly"
   ],
   "note": "next() is a total function of the iterator's state and the objects: a next() that panics is C62's subject, one that does not return is left out."
  },
  {
   "property": "C61",
   "status": "proved",
   "theorems": [
    "C61_trees",
    "C61_defined",
    "C61_batched",
    "C61_positions"
   ],
   "note": "the tree-hashing program is a caller's (Trees.v), not code of /repo; arity at least 2 and at most 2^48 leaves for termination, fuel is the number of levels (at most 256, the range of node_depth)"
  },
  {
   "property": "C62",
   "status": "proved",
   "theorems": [
    "C62_update_many",
    "C62_hash_many",
    "C62_update_many_ends",
    "C62_hash_many_ends",
    "C62_deeds",
    "C62_job_deeds"
   ],
   "note": "next() is a total function of the iterator's state and the objects that may also panic; one that does not return is left out, and so is a process that aborts on panics."
  },
  {
   "property": "C63",
   "status": "proved",
   "theorems": [
    "C63_no_length_extension"
   ],
   "note": "the uses of the compression function are those RFC 7693 prescribes (Collisions.v); C21 proves that the code makes them. That a starting value is itself a digest (a preimage of a fixed value) cannot be excluded by collision resistance and is a case of the statement."
  },
  {
   "property": "C64",
   "status": "proved",
   "theorems": [
    "C64_no_repeat",
    "C64_blocks",
    "C64_limits"
   ],
   "note": "in a release build a buffer beyond the bound is filled with a counter that wraps; nothing is claimed about it."
  },
  {
   "property": "C65",
   "status": "proved",
   "theorems": [
    "C65_writers",
    "C65_parallel_writers",
    "C65_any_program",
    "C65_copy"
   ],
   "note": "the code of the standard library (write_all, write_fmt, io::copy, BufWriter) is modelled from its documentation and source, which are not in /repo; the loop of io::copy specialized to a BufWriter is left out."
  }
 ]
}