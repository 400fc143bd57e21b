{"id": "C01", "title": "One-shot hashing is BLAKE2", "statement": "blake2b(input) and blake2s(input) return exactly the digest that RFC 7693 defines for the same bytes with the default parameters, on every CPU back end.", "quantifier": "every byte string (any length), both crates, every detected back end", "why_tests_cant": "The test vectors cover inputs of at most a few blocks; the block loop, counter, padding and finalisation must be right for every length.", "anchors": ["blake2b/src/lib.rs:blake2b", "blake2s/src/lib.rs:blake2s", "blake2b/src/portable.rs:compress1_loop", "blake2s/src/portable.rs:compress1_loop"]}
{"id": "C02", "title": "Every parameter has its standard meaning", "statement": "Params::hash(input), with any combination of hash length, key, salt, personalisation, fanout, max depth, leaf length, node offset, node depth, inner hash length and last-node flag, equals the BLAKE2 specification applied to the standard parameter block, the zero-padded key block (only when the key is non-empty) and the message.", "quantifier": "every legal parameter combination, every key/salt/personalisation content and length, every message", "why_tests_cant": "One test exercises all parameters at once on a 3-byte message; the parameter space is astronomically large.", "anchors": ["blake2b/src/lib.rs:Params::hash", "blake2b/src/lib.rs:Params::to_words", "blake2s/src/lib.rs:Params::to_words"]}
{"id": "C03", "title": "Incremental hashing equals one-shot hashing", "statement": "Feeding a message to a State by any sequence of update calls (including empty ones) and then calling finalize gives the digest Params::hash gives for the concatenation of the pieces.", "quantifier": "every parameter set, every sequence of chunks of any sizes", "why_tests_cant": "Buffer-boundary bugs depend on the alignment of chunk boundaries against block boundaries; the number of splittings is unbounded.", "anchors": ["blake2b/src/lib.rs:State::update", "blake2b/src/lib.rs:State::finalize", "blake2s/src/lib.rs:State::update"]}
{"id": "C04", "title": "Finalizing is a pure observation", "statement": "finalize (and count) may be called at any time and any number of times; repeated calls with no update in between return the same Hash, and a later finalize still describes the whole input fed so far, exactly as if the earlier calls had never happened.", "quantifier": "every interleaving of update / finalize / count / set_last_node calls", "why_tests_cant": "Tests interleave a handful of calls; the claim is about every history.", "anchors": ["blake2b/src/lib.rs:State::finalize", "blake2b/src/lib.rs:State::count", "blake2b/src/blake2bp.rs:State::finalize"]}
{"id": "C05", "title": "The last-node flag may be set at any time", "statement": "set_last_node(b) called anywhere between creation and finalize has the same effect as Params::last_node(b); the most recent value before finalize wins, regardless of how updates interleave with it.", "quantifier": "every history of updates and flag changes", "why_tests_cant": "It must hold for all interleavings and input lengths; the flag only matters for the final block.", "anchors": ["blake2b/src/lib.rs:State::set_last_node", "blake2b/src/lib.rs:Params::last_node", "blake2s/src/lib.rs:State::set_last_node"]}
{"id": "C06", "title": "count reports the bytes fed so far", "statement": "State::count() equals the number of message bytes passed to update since creation (key bytes excluded) modulo 2^128 (BLAKE2b) or 2^64 (BLAKE2s). The only exception is a debug-build arithmetic-overflow panic, for a keyed state, when message length plus one block wraps the counter to less than one block.", "quantifier": "every history, keyed or not, both counter widths, debug and release builds", "why_tests_cant": "The wrap-around happens only after 2^64 or 2^128 bytes, which no test can feed.", "anchors": ["blake2b/src/lib.rs:State::count", "blake2s/src/lib.rs:State::count"]}
{"id": "C07", "title": "Batched updates equal individual updates", "statement": "many::update_many over any collection of (state, input) pairs leaves every State observationally equal to having called update on each pair separately: same finalize, same count, same behaviour under all further operations.", "quantifier": "every number of states, every input lengths, mixed parameters, mixed keys, mixed back ends", "why_tests_cant": "The scheduler's behaviour depends on the joint distribution of all input lengths; fuzzing samples a tiny part of it.", "anchors": ["blake2b/src/many.rs:update_many", "blake2s/src/many.rs:update_many"]}
{"id": "C08", "title": "Batched hashing equals individual hashing", "statement": "After many::hash_many, each job's to_hash equals Params::hash of that job's parameters and input.", "quantifier": "every number of jobs, every mix of lengths, parameters, keys and back ends", "why_tests_cant": "Jobs are evicted and replaced in SIMD lanes mid-stream in an order depending on all lengths jointly.", "anchors": ["blake2b/src/many.rs:hash_many", "blake2b/src/many.rs:HashManyJob", "blake2s/src/many.rs:hash_many"]}
{"id": "C09", "title": "Running hash_many again changes nothing", "statement": "A job that has already been run is skipped: calling hash_many repeatedly, or on a mixture of finished and unfinished jobs in any grouping, gives each job the hash it would have had by itself.", "quantifier": "every partition of jobs into successive hash_many calls with repetitions", "why_tests_cant": "Needs every history of batches, not one example.", "anchors": ["blake2b/src/many.rs:hash_many", "blake2s/src/many.rs:hash_many"]}
{"id": "C10", "title": "The batch scheduler always terminates", "statement": "hash_many, update_many and the BLAKE2bp/BLAKE2sp entry points return for every finite collection of jobs: each pass over the SIMD lanes retires at least one job, consumes part of every input and never gives input back, and a batch of n jobs asks its iterator n + 1 times, so that every job is taken up once (that it is also run exactly once is C07 and C08).", "quantifier": "every finite job collection, every back end, both strides", "why_tests_cant": "Termination is a statement about unbounded executions.", "anchors": ["blake2b/src/many.rs:compress_many", "blake2b/src/many.rs:fill_jobs_vec", "blake2b/src/many.rs:evict_finished", "blake2s/src/many.rs:compress_many"]}
{"id": "C11", "title": "All CPU back ends agree", "statement": "Hashes do not depend on whether the portable, SSE4.1 or AVX2 code runs: for each public entry point the result is the same for every back end.", "quantifier": "every input, every parameter set, every history, every back end, both crates", "why_tests_cant": "The SIMD code uses hand-scheduled shuffles per round and per-lane carries; equality must hold for all 2^1024 blocks and all counters.", "anchors": ["blake2b/src/avx2.rs:compress_block", "blake2b/src/avx2.rs:compress4_loop", "blake2b/src/sse41.rs:compress2_loop", "blake2s/src/sse41.rs:compress_block", "blake2s/src/sse41.rs:compress4_loop", "blake2s/src/avx2.rs:compress8_loop"]}
{"id": "C12", "title": "Unsafe code never reads outside its input", "statement": "No call sequence through the safe API makes the SIMD code read a message byte outside the slice it was given or leave any block of it unread: all raw-pointer accesses stay in bounds for every length, stride and lane combination.", "quantifier": "every input length, stride, number of lanes and mixture of lengths", "why_tests_cant": "An out-of-bounds read of a few bytes is invisible to output comparison tests and depends on exact lengths.", "anchors": ["blake2b/src/avx2.rs:compress1_loop", "blake2b/src/avx2.rs:compress4_loop", "blake2b/src/sse41.rs:compress2_loop", "blake2s/src/sse41.rs:compress1_loop", "blake2s/src/avx2.rs:compress8_loop"]}
{"id": "C13", "title": "The only panics are the documented ones", "statement": "In any program over the public API, a call that panics is a setter called with an argument outside of its documented range or, in a build with debug assertions only, to_hash on a job, as_array on a Hash, or a call that reports a byte count (count, Debug of a State); the last cannot happen while fewer than 2^128-512 (BLAKE2b) or 2^64-512 (BLAKE2s) bytes have been fed in all. No internal debug assertion, slice bound, fixed-capacity vector, small-integer overflow or 'unsupported' branch fires for any input or history.", "quantifier": "every history of API calls, debug and release builds, every back end", "why_tests_cant": "Internal assertions guard conditions that depend on all previous calls.", "anchors": ["blake2b/src/guts.rs:input_debug_asserts", "blake2b/src/lib.rs:State::fill_buf", "blake2b/src/blake2bp.rs:State::update", "blake2b/src/many.rs:fill_jobs_vec", "blake2b/src/guts.rs:compress4_loop"]}
{"id": "C14", "title": "BLAKE2bp and BLAKE2sp one-shot hashing is standard", "statement": "blake2bp(input)/blake2sp(input) and the corresponding Params::hash return the digest of the standard 4-way/8-way tree: leaf i hashes blocks i, i+D, i+2D, ... with node offset i, the last leaf carries the last-node flag, and the root hashes the concatenated full-length leaf hashes with node depth 1 and the last-node flag; with a key, each leaf hashes the key block first.", "quantifier": "every input length, hash length and key", "why_tests_cant": "Vectors stop at 255 bytes, less than one 512-byte stripe; interaction of stripes, partial blocks and empty leaves is unbounded.", "anchors": ["blake2b/src/blake2bp.rs:Params::hash", "blake2s/src/blake2sp.rs:Params::hash"]}
{"id": "C15", "title": "BLAKE2bp and BLAKE2sp incremental hashing equals one-shot", "statement": "Any sequence of updates on a blake2bp/blake2sp State followed by finalize yields the tree hash of the concatenation.", "quantifier": "every parameter set, every sequence of chunks", "why_tests_cant": "The double-stripe buffer has several compress-or-keep cases depending on fill level and input length.", "anchors": ["blake2b/src/blake2bp.rs:State::update", "blake2b/src/blake2bp.rs:State::finalize", "blake2s/src/blake2sp.rs:State::update"]}
{"id": "C16", "title": "BLAKE2bp and BLAKE2sp count is exact", "statement": "blake2bp/blake2sp State::count() equals the number of message bytes fed, modulo the counter width, keys excluded; the keyed debug-build underflow occurs only at counter wrap-around.", "quantifier": "every history", "why_tests_cant": "Derived from per-leaf counters times the degree plus the buffer fill; must hold at each point of every history.", "anchors": ["blake2b/src/blake2bp.rs:State::count", "blake2s/src/blake2sp.rs:State::count"]}
{"id": "C17", "title": "Setters accept exactly the documented range", "statement": "Each Params setter panics if and only if its argument is outside the documented range (hash length 1..=OUTBYTES, key <= KEYBYTES, salt <= SALTBYTES, personal <= PERSONALBYTES, inner hash length <= OUTBYTES, BLAKE2s node offset < 2^48), and a setter that panics leaves the Params unchanged; all other values are accepted.", "quantifier": "every argument value of every setter, both crates and both parallel variants", "why_tests_cant": "Boundary tests check three or four points.", "anchors": ["blake2b/src/lib.rs:Params", "blake2s/src/lib.rs:Params::node_offset", "blake2b/src/blake2bp.rs:Params"]}
{"id": "C18", "title": "Setters are independent and the last write wins", "statement": "Parameters built by any sequence of setters depend only on the last accepted value given to each setter: setters for different fields commute, re-setting key, salt or personalisation leaves no trace of the earlier value, and shorter salts/personalisations/keys are zero-padded.", "quantifier": "every sequence of setter calls with any arguments", "why_tests_cant": "Residue of an earlier longer value shows only for specific length pairs; sequences are unbounded.", "anchors": ["blake2b/src/lib.rs:Params::key", "blake2b/src/lib.rs:Params::salt", "blake2b/src/lib.rs:Params::personal"]}
{"id": "C19", "title": "An empty key is no key", "statement": "key(b\"\") gives exactly the same results as never calling key; a non-empty key always contributes exactly one leading block, also when the message is empty.", "quantifier": "every parameter set and message, all four hash functions, one-shot, incremental and batched", "why_tests_cant": "The keyed/unkeyed decision is taken in five places that must agree for every history.", "anchors": ["blake2b/src/lib.rs:Params::hash", "blake2b/src/lib.rs:State::with_params", "blake2b/src/many.rs:HashManyJob::new", "blake2b/src/blake2bp.rs:State::with_params"]}
{"id": "C20", "title": "The parameter block encoding is injective", "statement": "Two Params initialise the hash identically if and only if they agree on every parameter-block field (hash length, key length, fanout, depth, leaf length, node offset, node depth, inner length, salt, personalisation); in particular hash computations for different hash lengths start from different words, so that a shorter digest is not by construction a truncation of a longer one.", "quantifier": "every pair of legal parameter sets", "why_tests_cant": "A pairwise claim over the whole parameter space.", "anchors": ["blake2b/src/lib.rs:Params::to_words", "blake2s/src/lib.rs:Params::to_words"]}
{"id": "C21", "title": "Padding and keying are unambiguous", "statement": "The sequence of compression-function calls (chaining input, block, byte counter, finalisation flags) determines the parameters' domain, the padded key block and the message: two different (key, message, last-node) triples hashed under the same parameters never produce the same sequence of calls, so e.g. trailing zeros or splitting bytes between key and message cannot collide by construction.", "quantifier": "every pair of keys and messages shorter than the counter range", "why_tests_cant": "A pairwise claim over all messages.", "anchors": ["blake2b/src/portable.rs:compress1_loop", "blake2b/src/guts.rs:final_block", "blake2b/src/lib.rs:Params::hash"]}
{"id": "C22", "title": "Hash equality is byte equality", "statement": "Two Hash values compare equal if and only if they have the same length and the same bytes; a Hash equals a byte slice if and only if its bytes are that slice; equality is reflexive, symmetric and transitive, and bytes beyond the hash length never matter.", "quantifier": "every pair of hashes and slices, any lengths", "why_tests_cant": "Pairwise claim over all digests including unequal lengths with equal prefixes.", "anchors": ["blake2b/src/lib.rs:Hash", "blake2s/src/lib.rs:Hash"]}
{"id": "C23", "title": "Digest length and prefix", "statement": "as_bytes() of every Hash produced by the library has exactly the configured hash length; from([u8; OUTBYTES]) and as_array() are inverse for full-length hashes.", "quantifier": "every parameter set and message, every producer of a Hash", "why_tests_cant": "Has to hold for every producer and every length.", "anchors": ["blake2b/src/lib.rs:Hash::as_bytes", "blake2b/src/lib.rs:Hash::as_array", "blake2b/src/blake2bp.rs:finalize_root_words"]}
{"id": "C24", "title": "Hex output is canonical", "statement": "to_hex() is lower-case hexadecimal, two characters per byte, high nibble first; it decodes back to as_bytes(), so two hashes have the same hex string if and only if they are equal.", "quantifier": "every hash of every length", "why_tests_cant": "256^n digests.", "anchors": ["blake2b/src/lib.rs:Hash::to_hex", "blake2b/src/lib.rs:bytes_to_hex"]}
{"id": "C25", "title": "Debug output does not reveal keys or messages", "statement": "Two programs that differ only in the values, not in the lengths, of key bytes and message bytes show the same everywhere except where a digest is explicitly looked at (as_bytes, as_array, to_hex, Debug of Hash, comparison): in particular the Debug text of Params, State and HashManyJob, every count and every panic.", "quantifier": "every pair of equal-shape secrets and every history", "why_tests_cant": "A non-interference (two-run) property.", "anchors": ["blake2b/src/lib.rs:Params::fmt", "blake2b/src/lib.rs:State::fmt", "blake2b/src/many.rs:HashManyJob::fmt", "blake2b/src/blake2bp.rs:State::fmt"]}
{"id": "C26", "title": "SIMD counters carry correctly", "statement": "When many messages are hashed in SIMD lanes, the per-lane byte counter equals the wide counter used by the portable code, including across the wrap of the low word (4 GiB for BLAKE2s, 16 EiB for BLAKE2b) and for every final-block length.", "quantifier": "every counter value reachable through the API, every lane and final-block length", "why_tests_cant": "BLAKE2b's low-word carry needs 2^64 bytes to reach.", "anchors": ["blake2b/src/sse41.rs:add_to_counts", "blake2b/src/avx2.rs:add_to_counts", "blake2s/src/sse41.rs:add_to_counts", "blake2s/src/avx2.rs:add_to_counts"]}
{"id": "C27", "title": "Writing through io::Write is updating", "statement": "State's Write implementation consumes the entire buffer, never fails, and any sequence of write/write_all/flush calls equals the same sequence of updates, for all four hash functions.", "quantifier": "every sequence of writes and flushes", "why_tests_cant": "Every history.", "anchors": ["blake2b/src/lib.rs:Write for State", "blake2b/src/blake2bp.rs:Write for State"]}
{"id": "C28", "title": "Back-end selection is sound", "statement": "Detection only ever selects a back end whose instruction set the CPU (or compile-time target) provides, prefers the widest available, never reports a degree above MAX_DEGREE, and no dispatch reaches an instruction set that was not selected.", "quantifier": "every combination of target features, std availability and CPU features, every dispatch", "why_tests_cant": "CI machines have one CPU configuration each.", "anchors": ["blake2b/src/guts.rs:Implementation::detect", "blake2b/src/guts.rs:Implementation::degree", "blake2b/src/many.rs:degree", "blake2s/src/guts.rs:Implementation::detect"]}
{"id": "C29", "title": "Clones are independent", "statement": "A cloned State carries the same history, and from then on operations on either one (including batched updates that contain both) never affect the other.", "quantifier": "every program over any number of states with clone, update, update_many, set_last_node and finalize", "why_tests_cant": "Aliasing faults show only in particular multi-object histories.", "anchors": ["blake2b/src/lib.rs:State", "blake2b/src/many.rs:update_many"]}
{"id": "C30", "title": "Batch grouping and order are irrelevant", "statement": "Permuting the jobs of a batch, or splitting one batch into several, does not change any individual result.", "quantifier": "every permutation and every partition of every batch", "why_tests_cant": "Lane assignment depends on order; factorially many orders.", "anchors": ["blake2b/src/many.rs:compress_many", "blake2b/src/many.rs:evict_finished"]}
{"id": "C31", "title": "The tree hashes are expressible through the public tree parameters", "statement": "Without a key, blake2bp/blake2sp equals what a caller obtains by building the leaves and the root explicitly with Params (fanout, max_depth, node_offset, node_depth, inner_hash_length, last_node) and hashing the round-robin distributed blocks through the ordinary State API. (With a key the root's parameter block names a key length without a key block, which the public setters cannot express.)", "quantifier": "every input and hash length, no key", "why_tests_cant": "The reference test covers selected lengths only.", "anchors": ["blake2b/src/blake2bp.rs:Params::to_words", "blake2b/src/blake2bp.rs:finalize_root_words", "blake2s/src/blake2sp.rs"]}
{"id": "C32", "title": "Stale buffer bytes never influence results", "statement": "The digest depends only on the parameters and the bytes fed: unused or left-over bytes in the internal buffer (from earlier blocks, earlier keys or the initial key block) never enter a hash.", "quantifier": "every pair of histories feeding the same bytes", "why_tests_cant": "A two-run property over all histories.", "anchors": ["blake2b/src/lib.rs:State::fill_buf", "blake2b/src/guts.rs:final_block", "blake2b/src/blake2bp.rs:State::update"]}
{"id": "C33", "title": "Command-line hashing is independent of how input arrives", "statement": "The blake2 tool prints the hash of the exact bytes of the file or of standard input, however reads are split and however often they are interrupted; with --mmap it prints the same hash for a (non-empty, mappable) file; a read error is reported and no hash is printed for that input. Whatever the operating system answers, the tool neither panics nor goes on for ever, unless some input never ends.", "quantifier": "every byte content, every schedule of short reads, interruptions and errors", "why_tests_cant": "Operating-system read schedules cannot be enumerated by tests.", "anchors": ["blake2_bin/src/main.rs:read_write_all", "blake2_bin/src/main.rs:hash_file", "blake2_bin/src/main.rs:hash_stdin"]}
{"id": "C34", "title": "Command-line options reach the right parameter", "statement": "The options are accepted exactly if -b and -s are not both given, no tree option, salt or personalization is combined with -p, the hexadecimal is well-formed and every value is in its documented range; each accepted combination yields the hash under precisely those parameters. -b with -s, a tree option with -p, and malformed hex are rejected with an error message and status 1, a value out of range ends the tool with a panic, and in all of these cases no hash is printed.", "quantifier": "every combination of options and values", "why_tests_cant": "Fourteen options, unbounded values.", "anchors": ["blake2_bin/src/main.rs:make_params", "blake2_bin/src/main.rs:Opt"]}
{"id": "C35", "title": "Command-line exit status and output lines", "statement": "The tool prints one line per readable input, in argument order: '<hash>  <path>' if there are several inputs, else '<hash>'. It complains about each failing input and continues after it, and exits with failure if and only if some input failed.", "quantifier": "every list of inputs and every pattern of failures", "why_tests_cant": "All failure patterns.", "anchors": ["blake2_bin/src/main.rs:main"]}
{"id": "C36", "title": "A batch pulls its iterator lazily, in order and once", "statement": "update_many and hash_many take every item of the caller's iterator exactly once, in order, and stop at the first end-of-iterator signal, also for iterators that would yield again afterwards. They work while they pull: when the next item is asked for, all but fewer than degree() of the objects given so far are already in their final state and the remaining ones are untouched, so a batch over an iterator of any length keeps a bounded number of jobs in hand.", "quantifier": "every iterator behaviour, including non-fused ones", "why_tests_cant": "Depends on the caller's iterator, which is arbitrary code.", "anchors": ["blake2b/src/many.rs:compress_many", "blake2b/src/many.rs:update_many", "blake2b/src/many.rs:hash_many"]}
{"id": "C37", "title": "A job's hash is only available after it was run", "statement": "HashManyJob::to_hash in a debug build panics exactly when the job has neither been run nor was completed at creation (keyed job with empty input); otherwise it returns the hash.", "quantifier": "every job and every history of batches", "why_tests_cant": "All histories.", "anchors": ["blake2b/src/many.rs:HashManyJob::to_hash", "blake2b/src/many.rs:HashManyJob::new"]}
{"id": "C38", "title": "Rounds are invertible", "statement": "For a fixed block, counter and flags, the mixing performed by the compression function is a permutation of its internal state: no two distinct internal states are mixed to the same state, on each back end.", "quantifier": "every message block and every pair of 16-word states", "why_tests_cant": "2^1024 states.", "anchors": ["blake2b/src/portable.rs:g", "blake2b/src/portable.rs:round", "blake2s/src/portable.rs:round"]}
{"id": "C39", "title": "Results do not depend on build profile", "statement": "Debug builds (with debug assertions and overflow checks) and release builds show the same for every program in which no debug assertion fires; in particular for every program that feeds fewer bytes than the counter's range and does not use to_hash / as_array.", "quantifier": "every history, both profiles", "why_tests_cant": "A two-run property over all histories.", "anchors": ["blake2b/src/guts.rs:input_debug_asserts", "blake2b/src/lib.rs:State", "blake2b/src/blake2bp.rs:State"]}
{"id": "C40", "title": "The crate is the machine of its documentation", "statement": "Any program over the public API (Params, State, Hash, update_many, hash_many and the blake2bp/blake2sp counterparts) shows for each call exactly what an abstract machine shows whose Params are configurations, whose States are a configuration with the bytes fed so far, whose jobs are a configuration with a message and a flag, and whose Hashes are an array with a length.", "quantifier": "every finite sequence of calls over any number of objects, every argument, debug and release builds, every back end", "why_tests_cant": "The space of programs is infinite.", "anchors": ["blake2b/src/lib.rs", "blake2b/src/many.rs", "blake2b/src/blake2bp.rs", "blake2s/src/lib.rs", "blake2s/src/many.rs", "blake2s/src/blake2sp.rs"]}
{"id": "C41", "title": "A panicking iterator leaves every object either untouched, complete, or one of fewer than degree() known casualties", "statement": "If the iterator passed to update_many or hash_many (or the as_ref of one of its items) panics after yielding some items, the panic reaches the caller with no undefined behaviour; every object not yielded is unchanged; every yielded object is exactly as if the batch had ended normally after the yielded items, except for fewer than degree() (of the back end of the first item) yielded objects, which differ from that only in their chaining value. A State can be among these only if its input was longer than one block, a HashManyJob only if it had not been run before; with one lane there are none. All objects stay safe: however many batches panicked before, later updates, finalizations and batches return. It is not true that a casualty is recognisable: its to_hash returns a wrong hash without a panic even in a debug build (refuted by a counterexample).", "quantifier": "all histories of objects including earlier interrupted batches, all item lists, all points at which the iterator panics, both variants, all back ends, both build profiles", "why_tests_cant": "the crash point, the back end's lane count and the lengths of all inputs decide which objects are in flight; tests try a few crash points, and none in the repository makes an iterator panic", "anchors": ["blake2b/src/many.rs:update_many", "blake2b/src/many.rs:hash_many", "blake2b/src/many.rs:compress_many", "blake2s/src/many.rs:compress_many"]}
{"id": "C42", "title": "Length and offset arithmetic never overflows, on any word size", "statement": "For every program over the public API whose byte strings fit into the address space, no addition, subtraction or multiplication of lengths, offsets or indices (usize) in the crate overflows: a build with a usize of any width of at least 16 bits, in which an overflow would panic (debug) or wrap around (release), shows for every call exactly what the documentation's machine with unbounded numbers shows. In particular inputs of the largest length that a usize can express are handled, and 16-, 32- and 64-bit builds agree.", "quantifier": "all programs (lists of API calls), all maxima of usize from 2^16-1 up, all input lengths up to that maximum, both variants, all back ends, both build profiles", "why_tests_cant": "an overflow needs inputs near the end of the address space, which no test can allocate, and the result depends on the word size of the machine that runs the test", "anchors": ["blake2b/src/lib.rs:State::fill_buf", "blake2b/src/lib.rs:State::update", "blake2b/src/lib.rs:array_ref", "blake2b/src/portable.rs:compress1_loop", "blake2b/src/avx2.rs:compress4_loop", "blake2b/src/sse41.rs:compress2_loop", "blake2b/src/guts.rs:final_block", "blake2b/src/many.rs:compress_many", "blake2b/src/blake2bp.rs:State::update", "blake2s/src/blake2sp.rs:State::update"]}
{"id": "C43", "title": "A collision of any hash is a collision of the compression function", "statement": "If two hash computations of the same crate give the same digest, then either they have the same message, key, last-node flag and parameters (up to zero bytes at the end of salt and personalisation), or among the inputs of the compression function that the two computations use there are two different ones with the same result (for the last input of each computation: results that agree in the bytes of the digest). This holds between two BLAKE2b (BLAKE2s) hashes with any parameters, between two BLAKE2bp (BLAKE2sp) hashes, and between a BLAKE2b hash whose max depth is not 2 and a BLAKE2bp hash, which therefore never share a digest without such a collision. So padding, keying, tree layout and the parameter block add no collisions of their own.", "quantifier": "all pairs of settings lists, all pairs of messages shorter than 2^128 (2^64) bytes less one block, all back ends, both build profiles", "why_tests_cant": "a test cannot enumerate pairs of messages and parameters, and the absence of structural collisions is a statement about all pairs", "anchors": ["blake2b/src/lib.rs:Params::hash", "blake2b/src/lib.rs:Params::to_words", "blake2b/src/guts.rs:final_block", "blake2b/src/blake2bp.rs:Params::hash", "blake2s/src/lib.rs:Params::hash", "blake2s/src/blake2sp.rs:Params::hash"]}
{"id": "C44", "title": "Jumps, addresses and divisions do not depend on secret bytes", "statement": "For every program over the public API, the sequence of conditional jumps with their directions, of memory accesses with their positions and lengths, of divisions with their operands, of back-end choices, of compression-kernel runs and of formatted texts is the same for all keys, messages, digests and compared strings of the same lengths: it depends only on lengths, on the other parameters, on which objects are used and on the machine. In particular comparing a digest with a guess does the same steps however much of the guess is right. Inside the compression kernels there are no jumps, no divisions and no computed addresses at all. The exception is turning a digest into hexadecimal text (to_hex, and Debug of a Hash), which looks digits up in a table at addresses that depend on the digest; the claim is false for it.", "quantifier": "all pairs of programs (lists of API calls) that differ in the bytes of keys, messages, digests and compared strings only, both variants, all back ends, both build profiles, honest or dishonest feature detection", "why_tests_cant": "a test compares the timing of a few pairs of inputs, with noise; the claim is about all pairs of secrets and all call sequences", "anchors": ["blake2b/src/lib.rs:State::update", "blake2b/src/lib.rs:PartialEq for Hash", "blake2b/src/lib.rs:bytes_to_hex", "blake2b/src/guts.rs:final_block", "blake2b/src/portable.rs:compress1_loop", "blake2b/src/avx2.rs:compress4_loop", "blake2b/src/many.rs:compress_many", "blake2b/src/blake2bp.rs:State::update", "blake2s/src/lib.rs:State::update"]}
{"id": "C45", "title": "Every call does exactly the work its hash needs, and keeps the SIMD lanes busy", "statement": "Over any program of API calls, each call compresses exactly the blocks that the published definition of the hash has for it: a one-shot hash, a finalize, an update and a batch (hash_many, update_many) never compress a block twice, never compress one that is not needed, and other calls compress nothing; what a stream costs in total does not depend on how the message is cut. On a machine whose kernels have d lanes (degree()), d times the number of kernel runs exceeds the number of blocks only by a slack that does not grow with the number of messages (hash_many, beyond one run per state's own buffer for update_many) and, for BLAKE2bp/BLAKE2sp, not with the length of the message; updates of BLAKE2bp/BLAKE2sp use full lanes only.", "quantifier": "all programs (lists of API calls), all message lengths and batches, both variants, every honest machine, both build profiles", "why_tests_cant": "doing superfluous or serial work does not change any digest, so tests of outputs cannot see it; the bound ranges over all batches and cuts", "anchors": ["blake2b/src/many.rs:compress_many", "blake2b/src/many.rs:hash_many", "blake2b/src/many.rs:update_many", "blake2b/src/many.rs:degree", "blake2b/src/lib.rs:State::update", "blake2b/src/lib.rs:State::finalize", "blake2b/src/blake2bp.rs:State::update", "blake2b/src/blake2bp.rs:State::finalize", "blake2b/src/guts.rs:compress2_loop", "blake2s/src/blake2sp.rs:State::update"]}
{"id": "C46", "title": "The tool's output is never wrong when writing fails", "statement": "Whatever the operating system answers to the command-line tool's writes (short writes, interruptions, errors, or no answer at all: a pipe that nobody reads, a process that is killed), what is on standard output at any moment is a beginning of the lines it should have printed, and likewise on standard error. If the tool ends with an exit status, that is the status it should have, and all of its text was written; in particular, status 0 means that every input was read and every hash written. Otherwise it ends with a panic, which happens only if a write failed or took no byte, or it is still waiting for an answer. If the streams keep taking bytes, however few at a time, it ends. The exception is a stream that is not open: what should go there is lost, and the tool exits as if it had been written; a standard error that is not open changes nothing on standard output and nothing about the exit status.", "quantifier": "all options, inputs, read results and all sequences of write(2) answers on both streams, all texts of error messages", "why_tests_cant": "tests cannot enumerate the points at which a write falls short, fails or is never answered", "anchors": ["blake2_bin/src/main.rs:main", "blake2_bin/src/main.rs:hash_file"]}
{"id": "C47", "title": "Threads do not disturb each other", "statement": "Several threads may call the API at the same time, on objects of their own and on objects they share. As long as no object that one thread borrows mutably is used by another (what the borrow checker enforces), every thread sees, call by call, exactly what it would see if it ran alone after the common setup, on any machine: results, digests, panics and Debug output do not depend on the other threads, on the schedule, or on what CPU feature detection says in each call. Objects may also be handed from one running thread to another (a hasher behind a Mutex, a job sent through a channel): as long as no two calls that run at the same time conflict (one borrowing mutably what the other borrows), all threads together see what one thread sees that makes the same calls one at a time in the order in which they end.", "quantifier": "all setups, all numbers of threads, all race-free thread programs, all schedules including overlapping calls, every truthful answer of the feature detection in each call, both variants, both build profiles; all histories of beginnings, reads and ends of calls on any number of threads in which overlapping calls do not conflict", "why_tests_cant": "a test runs one schedule; interleavings of overlapping calls cannot be enumerated", "anchors": ["blake2b/src/lib.rs:State::update", "blake2b/src/lib.rs:Params", "blake2b/src/many.rs:hash_many", "blake2b/src/many.rs:update_many", "blake2b/src/guts.rs:Implementation::detect", "blake2b/src/blake2bp.rs:State::update"]}
{"id": "C48", "title": "BLAKE2X can be built from the public parameters", "statement": "The extendable-output functions BLAKE2Xb and BLAKE2Xs, built by a caller from Params (the XOF length in the upper half of node_offset, fanout and depth 0, max_leaf_length and inner_hash_length OUTBYTES) with the loop of the project's test suite, give exactly the published BLAKE2X output of the requested length, for every key and input. BLAKE2Xs requests of 2^16 bytes and more are refused by the node_offset setter instead of giving output for another length.", "quantifier": "all inputs, all keys, all output lengths (below 2^32 for BLAKE2Xb, 2^16 for BLAKE2Xs), every back end, both build profiles", "why_tests_cant": "the recorded vectors have one input, one key and lengths up to 256", "anchors": ["tests/vector_tests.rs:blake2x_test", "blake2b/src/lib.rs:Params::node_offset", "blake2s/src/lib.rs:Params::node_offset", "blake2b/src/lib.rs:Params::max_leaf_length"]}
{"id": "C49", "title": "The tool's command line means what its help says", "statement": "However the options are written (--name=value, --name value, letters one by one or together, before or after the inputs, in any order, inputs after --), the tool works with exactly the options and inputs that were given, and prints the hashes that these settings mean. An option given twice, an unknown option, an option without its value, a number that is malformed or does not fit its type are refused with a non-zero status; the parser panics only if some word is not UTF-8, and the numbers it yields fit their types. (Words that are not UTF-8 are never hashed wrongly, but they do make the tool panic, with nothing on standard output, even if they are the names of existing files.)", "quantifier": "all lists of options and inputs in all documented ways of writing them; for the absence of panics all lists of words, of any bytes", "why_tests_cant": "the tests run a handful of command lines; there are infinitely many arrangements, and a wrong name, letter, type or field is noticed only by the one that uses it", "anchors": ["blake2_bin/src/main.rs:Opt", "blake2_bin/src/main.rs:main", "blake2_bin/README.md"]}
{"id": "C50", "title": "The project's comparison tests pass on every input", "statement": "The tests that compare two ways of computing a hash pass whatever they are run on: the tree built by hand from BLAKE2b/BLAKE2s states against the parallel functions (one update, two updates, counts, one-shot, detected or portable back end); every back end's compression loops against the portable function applied block by block, for every length, stride, flag and count up to the end of the counter's range; batches against separate calls for any number of jobs, parameters and inputs. So they pass as they are run, on the buffers they paint, and the random ones for every random generator whose numbers lie in the range asked for, from every seed and for every number of cases. The tests against recorded answers accept the right answer and no other. Those over the file of vectors pass exactly on the files with 512 entries of their function (768 unkeyed ones for the vendored C library, which also needs AVX2), each with a key that is not too long and the digest its function gives. The tests of the setters pass, and with other arguments they would pass exactly when the argument is in the documented range. The detection tests pass on every target. The fuzz targets never find a failure. The tests of the command-line tool pass exactly when the recorded text is the digest that its command line asks for. The examples in the documentation pass whatever settings, pieces and numbers of jobs they are given, and panic only for settings that are refused; those that record a hash accept the right one and no other.", "quantifier": "all inputs, keys, parameters, numbers of jobs, lengths, strides, flags, counts, back ends, targets, temporary file names and ways in which the pipes accept bytes, random generators, seeds", "why_tests_cant": "they are the tests: each runs on one painted buffer, a list of lengths and counts, or a seeded random sample", "anchors": ["blake2b/src/blake2bp.rs:test_against_reference", "blake2s/src/blake2sp.rs:test_against_reference", "blake2b/src/guts.rs:exercise_compress1_loop", "blake2b/src/guts.rs:exercise_compress4_loop", "blake2s/src/guts.rs:exercise_compress8_loop", "tests/fuzz_many.rs:fuzz_blake2b_update_many", "blake2b/src/many.rs:test_degree", "tests/vector_tests.rs:blake2b_vectors", "blake2b/src/test.rs:test_update_state", "blake2b/fuzz/fuzz_targets/fuzz_updates.rs", "blake2s/fuzz/fuzz_targets/fuzz_updates.rs", "blake2_bin/tests/test.rs", "tests/vector_tests.rs:blake2x_test", "benches/blake2-avx2-sneves/src/lib.rs:test_vectors", "blake2b/src/test.rs:test_all_parameters", "blake2s/src/test.rs:test_multiple_finalizes", "blake2b/src/many.rs:test_hash_many", "tests/fuzz_many.rs:with_random_inputs_blake2b", "tests/fuzz_many.rs:random_params_blake2s", "blake2b/src/lib.rs, many.rs, blake2bp.rs: examples in the doc comments"]}
{"id": "C51", "title": "The tool's exit status 0 vouches for its output", "statement": "If blake2, run on a command line in the documented style that names files, exits with status 0, then the command line had a meaning, its options were in order, every named file was read to its end, and standard output has exactly one line with the digest of each file, in the order in which they were named (with the name if there are several), and nothing else; with no file named, the same holds for standard input, and --mmap was not given. A command line that is refused leaves standard output empty and the status is not 0. As long as the streams take bytes, a run whose command line has a meaning does end, with all of its text written. Whatever the streams do, standard output never has anything but a beginning of the right text.", "quantifier": "all command lines in the documented style, all files and read events, all sequences of answers of the system to the writes on both streams (short, interrupted, failing, unanswered), all machines", "why_tests_cant": "tests run a few command lines with streams that never fail", "anchors": ["blake2_bin/src/main.rs:main", "blake2_bin/src/main.rs:Opt", "blake2_bin/src/main.rs:hash_file", "blake2_bin/src/main.rs:make_params"]}
{"id": "C52", "title": "The benchmarks measure what they say they measure", "statement": "Wherever the allocator puts the buffers and whatever bytes and orders are drawn, the benchmarks of this library do not fail: every input that they hash lies within its buffer. The multi-process ones time 512 runs of 1000000 bytes in total each, as their rates assume, for every back end and number of simultaneous inputs, and get the right hashes; over the 512 timed runs each input starts exactly once at each address modulo 512. The nightly ones declare exactly the number of bytes that an iteration hashes, and start once at each page offset in every page's worth of iterations. A benchmark name selects the benchmark listed under it. Two comments of theirs are refuted: the inputs of a batch are not at uncorrelated offsets (in every run they all start at the same address modulo 512, because the shuffled input is thrown away), and an argument that is a substring of exactly one name is refused.", "quantifier": "all buffer addresses, contents, shuffles, page sizes, input lengths, numbers of iterations, back ends; both crates", "why_tests_cant": "there are no tests of the benchmarks; where an input starts depends on the allocator, and a wrong byte count or a repeated offset only shifts the reported rate", "anchors": ["benches/bench_multiprocess/src/main.rs:OffsetInput", "benches/bench_multiprocess/src/main.rs:VecIter", "benches/bench_multiprocess/src/main.rs:bench", "benches/bench_multiprocess/src/main.rs:blake2b_hash_many", "benches/bench_multiprocess/src/main.rs:get_hash_bench", "benches/bench.rs:RandomInput", "benches/bench.rs:bench_long_blake2b_many_4x"]}
{"id": "C53", "title": "The test runner's success means that everything was tested", "statement": "run_all_tests succeeds exactly if each of its commands could be started and succeeded, and it has then run all of them: the tests of both crates, of the root project and of the tool, each with and without default features, the root project's in release mode, blake2b's with portable code kept out of line, and a check of both fuzz crates. If a command fails, is killed or cannot be started, nothing after it is run and the runner does not succeed.", "quantifier": "all ways in which the commands can turn out", "why_tests_cant": "a runner that swallows a failure reports success in just the runs where it matters; it has no tests", "anchors": ["run_all_tests/src/main.rs:main", "run_all_tests/src/main.rs:run_cmd", "run_all_tests/src/main.rs:run_cargo_cmd"]}
{"id": "C54", "title": "The vendored C library computes the same hashes", "statement": "The C functions that the multi-process benchmarks compare this library with (blake2b, blake2bp and blake2sp of blake2-avx2-sneves, called through their Rust wrappers) return, for every input that a slice can hold, the published BLAKE2b, BLAKE2bp and BLAKE2sp hash, and so exactly what this library's one-shot functions return on any back end. They do so with each of the three strategies for loading a message that the C code can be compiled with, read and write nothing outside of the input, the output and their local arrays, terminate, and do not depend on what the uninitialised local buffer holds. If AVX2 is not detected, the wrappers panic before any C code runs.", "quantifier": "all inputs shorter than 2^63 bytes (the limit of a slice), all contents of uninitialised memory, all three compile-time strategies, all detection results and CPUs", "why_tests_cant": "the crate's test compares recorded vectors up to 256 bytes: less than one 512-byte stripe, so the vector loop never runs twice, no counter carries and most ends of the tail are never reached; an out-of-bounds read is silent", "anchors": ["benches/blake2-avx2-sneves/src/lib.rs:blake2b", "benches/blake2-avx2-sneves/src/lib.rs:blake2bp", "benches/blake2-avx2-sneves/src/lib.rs:blake2sp", "benches/blake2-avx2-sneves/src/lib.rs:check_avx2", "benches/blake2-avx2-sneves/blake2-avx2/blake2b.c:blake2b", "benches/blake2-avx2-sneves/blake2-avx2/blake2bp.c:blake2bp", "benches/blake2-avx2-sneves/blake2-avx2/blake2sp.c:blake2sp", "benches/blake2-avx2-sneves/build.rs:main"]}
{"id": "C55", "title": "The benchmark program reports what its workers measured", "statement": "Run with the name of an algorithm, the benchmark program starts 100 worker processes, each of which runs the function of that name, and prints one number: the bytes that these workers hash in their timed runs (100 * 512 * 1000000) divided by the sum of the nanoseconds they measured, correct up to half a thousandth and 3 parts in 2^24 (and \"inf\" if no time passed). Run without an argument it does so for every algorithm in turn, one line each, and then lists each algorithm once more with the same number, fastest first. With another argument it panics and starts nothing. If a worker cannot be started, dies before it prints, or prints something that is not a number below 2^128 with at most white space around it, the program panics, and the lines printed before are right; it never reports a number computed from fewer workers. A worker prints the time of the function it was asked for.", "quantifier": "all times that the workers can measure (durations of 64-bit seconds), all arguments and algorithm names, any failing worker process, builds with and without overflow checks, any sort that meets std's contract", "why_tests_cant": "the times are different in every run, and rounding, parsing and ordering have to be right for all of them; a process that dies cannot be scheduled by a test", "anchors": ["benches/bench_multiprocess/src/main.rs: main, worker, run_algo, rate_f32, get_hash_bench, ALGOS, WORKERS, OFFSET_PERIOD, BENCH_LEN"]}
{"id": "C56", "title": "The tool's output for several files can be read back", "statement": "If several files are named and no name contains a newline, then what the tool prints on standard output determines what it did: its lines, each split at the first blank, give exactly the names and the digests of the files that could be read, in the order of the command line; after exit status 0 that is one entry for each file. Names with blanks, or that look like digests or options, do no harm. (With newlines in names this fails: two files can be reported in the same bytes as three.)", "quantifier": "all lists of at least two files, all names without newlines, all contents and failures, all accepted options", "why_tests_cant": "the names and the contents are unbounded, and the tool's tests never name two files", "anchors": ["blake2_bin/src/main.rs:main"]}
{"id": "C57", "title": "The tool's error messages name the first thing that is wrong", "statement": "If the options are not in order, the tool writes exactly one line on standard error, \"blake2: \" and the first thing that is wrong in the order: -b with -s, the key, then the salt, the personalization and the tree options as listed in the help, malformed hexadecimal or \"... not supported\" with -p; nothing is written on standard output and the status is 1. Of a malformed hexadecimal value, such as a key, the message shows its odd length or the first character that is no digit and its position, and no other character. Of files that cannot be read, standard error has one line each, in the order of the command line, with the name and the reason; a run that ends with status 0 has none. --mmap without a file is reported as such. A stream that stops early has a beginning of this text.", "quantifier": "all options and values, all lists of files and patterns of failure, all schedules of writes", "why_tests_cant": "the combinations of wrong options and the values are unbounded, and the tool's tests look only at successful runs", "anchors": ["blake2_bin/src/main.rs:make_params", "blake2_bin/src/main.rs:hash_file", "blake2_bin/src/main.rs:hash_stdin", "blake2_bin/src/main.rs:main"]}
{"id": "C58", "title": "What objects left half way by an interrupted batch give away", "statement": "If the caller's iterator panics during hash_many, every job it gave out hands out the hash of its input, except for fewer than degree() of them; those hand out, with no panic in any build, the internal chaining value after the key and some whole blocks of the input (possibly none). With a full-length hash these bytes are enough to compute, without the key or any parameter, the hash of every message that begins with the same blocks; if no block of the input has been absorbed, of every non-empty message. That happens on every SIMD implementation with a single job, and without any iterator's panic for a job that has not been run, if debug assertions are off. No later batch repairs such a job. If the iterator panics during update_many, every State it gave out goes on as if fed its input, except for fewer than degree() of them; such a State, finalized next, shows a hash from which whole blocks of the new input (never its last block) have been left out, so that different inputs of one length can get the same hash; the same blocks are missing from every later hash of that State, while every other call on it shows what it should.", "quantifier": "all lists of jobs or of States with any settings, keys, inputs and histories, all points at which the iterator panics, all implementations, all continuations of the messages", "why_tests_cant": "the inputs, the points of the panic and the continuations are unbounded, and no test interrupts a batch", "anchors": ["blake2b/src/many.rs:compress_many", "blake2b/src/many.rs:HashManyJob::to_hash", "blake2b/src/many.rs:hash_many", "blake2b/src/many.rs:update_many", "blake2s/src/many.rs:HashManyJob::to_hash"]}
{"id": "C59", "title": "A panic's message names the value that is out of range and shows nothing of a key", "statement": "A builder method panics exactly if its value is out of range; the message is then \"Bad hash length: n\", \"Bad key length: n\", \"Bad salt length: n\", \"Bad personalization length: n\", \"Bad node offset: n\" or \"Bad inner hash length: n\" with the value, or the number of bytes, in decimal, and the builder is as before. The message depends on the length, not on the bytes, of a key, salt or personalization. In the command-line tool the first thing that is wrong decides, in the order -b with -s, length, key, salt, personalization, tree options: malformed or unsupported options give the error message of C57 and status 1, a value out of range ends it with the message above; if nothing is wrong in this sense, the options are accepted. Keys of the same length give the same messages. Asking a batch job for its hash before it was run gives the message \"job hasn't been run yet\" in builds with debug assertions.", "quantifier": "all values and byte strings, all combinations of the tool's options, both flavours, serial and parallel", "why_tests_cant": "the values are unbounded and the combinations of wrong options too many; that a message is independent of the secret is a statement about two runs", "anchors": ["blake2b/src/lib.rs:Params::hash_length, key, salt, personal, inner_hash_length", "blake2s/src/lib.rs:Params::node_offset", "blake2b/src/blake2bp.rs:Params::hash_length, key", "blake2b/src/many.rs:HashManyJob::to_hash", "blake2_bin/src/main.rs:make_params"]}
{"id": "C60", "title": "A batch may be given any iterator, also one that uses the library itself", "statement": "Handing a lazy iterator to update_many or hash_many has the same effect as collecting it first and handing over the collected references: whatever code its next() runs on objects that it has not handed out (feeding, finalizing, replacing or cloning States, making HashManyJobs, running batches of its own), in whatever moment of the batch it is called, every object ends with the same value, the iterator sees the same answers and is left in the same state, and it is asked once per item and once more. In particular jobs created by the iterator just before they are handed out give the hashes of their inputs.", "quantifier": "all iterators that obey the borrow checker (finite, not panicking), all objects a program can have, all parameters, inputs and implementations", "why_tests_cant": "the code calls next() in the middle of its work, at moments that depend on the number of lanes and the lengths of all inputs; the effects of the caller's code could be interleaved with the batch in unboundedly many ways", "anchors": ["blake2b/src/many.rs: compress_many, update_many, hash_many", "blake2s/src/many.rs: compress_many, update_many, hash_many"]}
{"id": "C61", "title": "Trees of any shape built from the tree parameters are as collision resistant as the compression function", "statement": "A caller who hashes a file as a tree by hand (leaves of a fixed size, every node one Params with hash length, inner hash length, node depth, node offset and last-node flag for its place and any further settings such as fanout, key or salt; the digests of any number of neighbours, which may depend on the level, concatenated for the level above; a level with one node is the root) gets a root digest that determines everything: if two such trees, of whatever shapes and settings and on whatever machines, have the same root digest, then the files, the leaves and all nodes with their parameters are the same, or two of the nodes contain different uses of the compression function with the same result. The program ends with a digest of the length asked for; hashing each level in one hash_many batch in any order gives the same digest; and no two nodes of a tree have the same depth and offset.", "quantifier": "all files shorter than the range of the counter with up to 2^48 leaves, all leaf sizes, arities per level (at least 2 for termination), inner and outer lengths, settings, flavours, implementations and batch orders", "why_tests_cant": "it is a statement about all pairs of files and tree shapes; a parameter that did not reach the hash would show only for two trees built to exploit it", "anchors": ["blake2b/src/lib.rs:Params::fanout, max_depth, max_leaf_length, node_offset, node_depth, inner_hash_length, last_node, hash", "blake2s/src/lib.rs:Params", "blake2b/src/many.rs:hash_many, HashManyJob"]}
{"id": "C62", "title": "A panic of an iterator that uses the library does what the panic of a plain one does", "statement": "If the iterator handed to update_many or hash_many runs code of its own on objects it has not handed out (feeding, finalizing, replacing or cloning States, making HashManyJobs, running batches) and then panics, the panic reaches the caller, everything the iterator did itself is kept, and the objects are left as if all that code had run first and a plain iterator had then given the same items and panicked: all objects handed out but fewer than the number of lanes have the value the finished batch gives them, the objects not handed out have the value the iterator's code gave them, and only objects given more than a block can be left half way. The same holds of a batch that ends normally, also for objects that an earlier panic left half way.", "quantifier": "all iterators that obey the borrow checker (finite), all points at which they panic, all objects a program can have including those left by earlier panics, all parameters, inputs and implementations", "why_tests_cant": "the code calls next() in the middle of its work, so the caller's effects, its panic point and the lanes in flight combine in unboundedly many ways", "anchors": ["blake2b/src/many.rs: compress_many, update_many, hash_many", "blake2s/src/many.rs: compress_many, update_many, hash_many"]}
{"id": "C63", "title": "A digest is of no use for hashing a longer message", "statement": "No digest that any of the four functions returns lets its holder go on hashing. Take any digest returned by one hash call (any settings, key or none, any digest length) and any other hash call of the same crate, for instance one over the first message with more bytes appended. If the second computation ever continues from a chaining value that begins with that digest, then either that value is one its computation starts from, which the parameters alone fix and no message byte has touched, or the compression function gives the same bytes (for a full-length digest: the same result) for two uses, one in each computation, of which one is marked as a last block and the other is not. So the length-extension attack on plain Merkle-Damgard hashes needs a collision of the compression function.", "quantifier": "all pairs of hash calls of BLAKE2b and BLAKE2bp (BLAKE2s and BLAKE2sp), all settings, keys and messages of any length, all digest lengths, every use of the compression function in the second computation, all back ends, both build profiles", "why_tests_cant": "a test can try one extension of one message; that no computation at all continues from a digest is a statement about all pairs of computations", "anchors": ["blake2b/src/lib.rs:State::finalize", "blake2b/src/lib.rs:Params::hash", "blake2b/src/guts.rs:Finalize", "blake2b/src/blake2bp.rs:Params::hash", "blake2s/src/lib.rs:Params::hash", "blake2s/src/blake2sp.rs:Params::hash"]}
{"id": "C64", "title": "The pattern painted into test inputs does not repeat", "statement": "The function with which both crates' tests fill their buffers (\"a byte pattern that won't repeat, so that we don't accidentally miss buffer offset bugs\") writes the same bytes whatever the buffer held, and no eight successive bytes of the result occur at two offsets; hence two stretches of eight or more bytes at different offsets are always different inputs, and a bug that reads a block at a wrong offset reads other bytes. Eight is the least such number: seven successive bytes occur twice in every buffer of 2048 bytes or more. Buffers may have up to 4 * (2^32 - 2) bytes; for longer ones the function panics in a debug build.", "quantifier": "all buffers, all pairs of offsets, all lengths of stretches, both build profiles", "why_tests_cant": "the claim is about all pairs of offsets of buffers of up to 16 GiB, and the function is itself only used by tests", "anchors": ["blake2b/src/lib.rs:paint_test_input", "blake2s/src/lib.rs:paint_test_input"]}
{"id": "C65", "title": "Nothing is lost or added between a writing program and the hash", "statement": "A program that hands bytes to one of the four States through the standard library's writers (write, write_all, write!, flush, io::copy from any reader, through any number of io::BufWriter layers of any capacities) gets the right answer from every call, never an error of the State's. At every moment the State has been given a prefix of the bytes handed over, and is behind by no more than the sum of the capacities. After a flush, or once the layers are taken off with into_inner, it has been given exactly the bytes handed over, in order, and hashes them and whatever comes next. A reader that fails half way gives an error, and the bytes it delivered before have been handed over. The same holds for any other program that uses nothing but write and flush of the writer, whatever it makes of their answers.", "quantifier": "every sequence of calls, every number of layers and capacities, every way a reader splits, interrupts or fails, all parameters, back ends and builds", "why_tests_cant": "Sequences of calls, capacities and splits are unbounded; a short count or a wrong order shows up only for particular lengths.", "anchors": ["blake2b/src/lib.rs:Write for State", "blake2b/src/blake2bp.rs:Write for State", "blake2s/src/lib.rs:Write for State", "blake2s/src/blake2sp.rs:Write for State"]}
