# Formal model of blake2_simd: design

Subject: `/repo` (the crates blake2b_simd, blake2s_simd and the tool blake2_bin) at the pinned commit.
Everything is in `rocq/theories/`, logical name `Verif`, Coq 8.16.1, standard library only.

## Files

| Role | Files |
|---|---|
| Specification, independent of the model | `Spec.v` (RFC 7693 hash, parameter block, BLAKE2bp/sp trees), `ApiSpec.v` (settings, configurations, digests), `CasualtySpec.v` (chaining values, digests with blocks left out), `Machine.v` (the abstract machine of the documentation, over whole programs), `History.v` (histories of one object), `BinSpec.v` (the command-line tool), `Crashes.v` (interrupted batches), `Calls.v` and `Collisions.v` (uses of the compression function), `LeakSpec.v` (programs that differ in secret bytes only), `WorkSpec.v` (blocks and kernel runs of a call), `OutSpec.v` (the tool's output streams), `ThreadsSpec.v` (borrows and data races), `XofSpec.v` (BLAKE2X), `TextSpec.v` (UTF-8), `ArgsSpec.v` (the tool's command line), `ReadSpec.v` (reading the tool's output), `BenchSpec.v` (inputs of the benchmarks), `BenchMainSpec.v` (their report), `PanicSpec.v` (messages of panics), `LazySpec.v`, `Deeds.v` and `BurstSpec.v` (iterators that do something themselves, and that panic), `TreeSpec.v` (trees of any shape), `Demo.v` (concrete objects for the examples) |
| Model of the code, no proofs | `Base.v` (machine vocabulary), `Guts.v`, `Portable.v`, `Intrinsics.v`, `Avx2b.v`, `Sse41s.v`, `Simd.v`, `Impl.v`, `Sched.v`, `Lib.v`, `Many.v`, `Par.v`, `Api.v` (programs over the public API), `Bin.v` (the tool), `Unwind.v` (batches whose iterator panics), `Lazy.v` (batches whose iterator uses the objects), `LazyUnwind.v` (and panics), `Usize.v` (the same code with machine-size lengths), `Leak.v` (the same code with its jumps, addresses and divisions), `Asm.v` (the kernels as lists of instructions), `Out.v` (the tool with failing writes), `Threads.v` (threads over one store of objects), `Xof.v` (the BLAKE2X loop of the test suite), `Utf8.v` and `Args.v` (the tool's argument parser), `Suite.v` (the project's comparison tests), `Units.v` (its other unit tests), `Docs.v` (the examples in its documentation), `Writers.v` (the standard library's writers in front of a State), `Vectors.v` (its tests over the file of vectors), `Tool.v` (the tool as a process), `Targets.v` (fuzz targets and the tool's own tests), `Bench.v` (the benchmarks), `BenchMain.v` (the program around them), `Panics.v` (messages of panics), `Runner.v` (the test runner), `Sneves.v`, `SnevesLoad.v` and `SnevesIntrinsics.v` (the vendored C library of the benchmarks) |
| Executions of specification and model on published vectors | `Tests.v` |
| The modelled intrinsics and f32 against the answers of a processor | `IntrinsicTests.v`, `FloatTests.v` |
| Proofs | `ByteLemmas` `KernelSpec` `LaneLemmas` `RowKernels` `Transposed` `Loops` `LaneLoops` `SchedProof` `StateProof` `ParamsProof` `FedProof` `ManyProof` `Stripe` `ParProof` `ParFed` `HashProof` `ApiProof` `RoundInv` `InjProof` `Runs` `HistoryProof` `BatchProof` `Words` `Laws` `ParLaws` `KernelLaws` `Views` `MachineProof` `ApiLaws` `BinProof` `UnwindProof` `UsizeProof` `CollisionProof` `LeakErase` `LeakProof` `AsmProof` `AsmRows` `AsmLanes` `WorkProof` `WorkSched` `WorkEven` `WorkLib` `WorkPar` `WorkApi` `WorkLaws` `OutProof` `ThreadsProof` `HandoverProof` `XofProof` `Utf8Proof` `ArgsProof` `SuiteProof` `BenchProof` `SnevesRows` `SnevesWide` `SnevesCount` `SnevesLoop` `SnevesPar` |
| Property theorems | `PropHash` (C01–C06, C17–C24, C27, C32), `PropMany` (C07–C10, C30, C36, C37), `PropPar` (C14–C16, C31), `PropKernel` (C11, C12, C26, C28, C38), `PropApi` (C11–C13, C25, C29, C39, C40), `PropBin` (C33–C35), `PropUnwind` (C36, C41), `PropLazy` (C60), `PropUsize` (C42), `PropCollide` (C43), `PropLeak` and `PropAsm` (C44), `PropWork` (C45), `PropOut` (C46), `PropThreads` (C47), `PropXof` (C48), `PropArgs` (C49), `PropSuite`, `PropTargets`, `PropUnits` and `PropVectors` (C50), `PropTool` (C51), `PropBench` (C52), `PropRunner` (C53), `PropSneves` (C54), `PropBenchMain` (C55), `PropRead` (C56), `PropCasualty` (C58), `PropMessages` (C57), `PropPanics` (C59), `PropTree` (C61), `PropBurst` (C62), `PropExtend` (C63), `PropInputs` (C50, C64), `PropDocs` (C50), `PropWriters` (C65), and whatever is listed in `_CoqProject` after them |

A property file holds only statements, each closed by a lemma of a proof file, followed by `Print Assumptions`; beside each
theorem an `Example` exhibits a concrete case that meets the hypotheses.

The two crates are textual copies of each other with different constants, so common code is modelled once,
indexed by `v : variant` (`V2b` / `V2s`); every theorem about `v` covers both crates. Code that differs (single-lane SIMD
kernels, `to_words`, `node_offset`) is modelled separately. The four transposed SIMD back ends repeat one text over four
register types; the text is modelled once (`Simd.v`) over a record of register operations, with four instances.

## Machine model

| Rust | Model |
|---|---|
| `u8` data | `Coq.Init.Byte.byte` (so no range hypotheses on messages) |
| `u32/u64/u128` | `N`, every operation reduced explicitly modulo `2^w` |
| `u8`/`u16` buffer lengths | `nat` with an explicit overflow check in debug mode and wrap in release mode |
| `usize` | `nat` in the main model; `Usize.v` repeats every function with lengths below `M + 1` where overflow panics or wraps, and C42 proves the two agree |
| slices, arrays | `list`; indexing that can fail returns `Panic`; raw-pointer reads that leave the slice return `UB` |
| `&mut` arguments | returned values; a `&mut [Word; 8]` inside a batch job is an index into a store of objects |
| panics, debug assertions, overflow checks | outcome `Panic`; the Boolean `e_dbg` selects debug or release semantics |
| unwinding | setters report the object as the panic leaves it; `Unwind.v` reports all objects of an interrupted batch |
| `loop` | fuel; exhaustion is the separate outcome `Diverge`, excluded by theorem |
| `__m128i/__m256i` | lists of 16/32 bytes; shuffles, blends, unpacks and shifts are byte permutations, arithmetic is per lane |
| CPU feature detection | `target`: what was compiled in and what detection reports; `env`: what the CPU really has. Running a SIMD function on a CPU without the feature is `UB` |
| the caller's iterator | the list of answers of its successive `next()` calls, `None`s allowed in the middle |
| operating system (tool) | a list of read events (bytes, interrupted, error), the answers of open, metadata and mmap |

## Trusted base

* Coq's kernel. No axiom is added, no kernel check is switched off; there is no `Admitted`, no functor, no module type, no
  plugin. `Print Assumptions` beneath every property theorem says "Closed under the global context": not even the standard
  library's axioms are used. (The context summary of `coqchk` also lists `Coq.ssr.ssrunder.Under_rel.*`, which is part
  of the standard library files that `lia` and `ssreflect` pull in; no theorem depends on it.)
* The reading of the Rust code (and, for C54, of the C code) into the model. Every definition cites the lines it models.
* The reading of RFC 7693, the BLAKE2 parameter block and the BLAKE2bp/sp trees into `Spec.v`. The constants of the
  specification are not copied from the code: the IV is computed from square roots of primes, the message schedule has
  ten rows used modulo ten, the tree distributes bytes by position. `Tests.v` runs it on published vectors. Apart from
  that, the specification was once run on all 3072 vectors of `/repo/tests/blake2-kat.json` (12 generated files, not
  part of the build), without a difference.
* The reading of Intel's intrinsics into `Intrinsics.v` and `SnevesIntrinsics.v`. It was tested against a processor: a C program
  that contains nothing of `/repo` (written by `hardware/gen.py`) ran every modelled intrinsic on random and extreme operands,
  with every value of every immediate, and the model gave the same 4540 results; `IntrinsicTests.v` keeps 216 of these pairs.
* The reading of IEEE 754 binary32 and of std's `{:.3}` in `BenchMain.v`: tested in the same way (`hardware/floats.c`, 3000 rates with
  zero, infinity, ties and the largest u128, no difference; `FloatTests.v` keeps 81 of them). The contract of std's `sort_by`
  (a permutation; sorted if the answers "less" are a strict weak order) is a hypothesis of C55, met by insertion sort.
* The reading of code outside of `/repo`: `constant_time_eq` (by its
  result, and in `Leak.v` as a loop over all bytes), `hex::decode` 0.4, `arrayvec` (push, pop_at), `arrayref`, std's `Peekable`, `Fuse`, `FlatMap`, `Filter`,
  `Write::write_all`, `Write::write_fmt`, `io::copy` and `BufWriter` (`Writers.v`, C65), the number formatting of `core::fmt`, the integers' `FromStr`, `Debug` for `char` (for the first 256 characters; releases before 1.54 also escape the double quote), `hex` 0.4's decoding and its two error messages, `failure`'s `{}` (the message given to `bail!`, or the `Display` of the error); the parsing loop of `clap` 2.33 as `structopt` 0.3 drives it
  (`Args.v`, C49: written from knowledge of that library, whose source is not in `/repo`; C49 speaks only of command lines in
  the documented style, so clap's treatment of `---name`, `--flag=value` and `--name==value` carries no claim). Which strings clap and structopt make with `to_str().expect(..)`, hence panic
  on if the bytes are not UTF-8, is part of that reading: it is where C49 says that such words make the tool panic.
* Assumption `honest` (a hypothesis of the theorems about whole programs, with an instance shown): feature detection tells
  the truth, a binary compiled for a feature runs only on CPUs that have it, and AVX2 implies SSE4.1.
* The rules of safe Rust: two `&mut` borrows in a batch are different objects (`borrowable`); a shared or mutable
  borrow is not invalidated; `Clone` derives copy all fields.

## Not modelled

Time in seconds and memory use (C44 is about the sequence of jumps, addresses and divisions of the source, not about
what a compiler or a CPU makes of them); inlining attributes; in
`benches/` the clock, `bench_blake2_bin.py`, `bench.c` and the calls of other libraries (but C54 covers the vendored C library; its return value, the code under `#if 0` and `SUPERCOP` and the C compiler are left out); in the tests the random generator, the JSON of the vector file and the recorded texts (C50 has them as arguments; that `libfuzzer` calls the target with the bytes or the derived
value, that `duct`'s `read` collects standard output and drops its last line ends, and that a temporary file holds what was written to it are taken as given); the texts of the operating system's
errors and of clap's usage message (taken as given; the tool's own messages are modelled, C57, and so are those of the panics that a caller can meet, C59, but not what std writes around them); endianness other than little endian for the SIMD back
ends (they are x86 only; the portable code is endian-independent and is modelled with explicit little-endian decoding).

## Properties: what is modelled, how it is proved

| Id | Model parts | Proof |
|---|---|---|
| C01, C02 | `Params::hash`, `to_words`, `compress1_loop`, all compression kernels | loop invariant: after `k` iterations the state is the specification's fold over `k` blocks; kernel equality round by round |
| C03, C04, C05, C32 | `State` operations, arbitrary histories | representation invariant linking (words, count, buffer) with the bytes fed; induction over the history |
| C06 | `State::count`, debug and release | same invariant, arithmetic modulo `2^2w`; the exceptional debug panic is characterised exactly and exhibited |
| C07, C08, C09, C30, C37 | `update_many`, `hash_many`, `HashManyJob`, `compress_many` | invariant of the scheduler: every object is pending, in the job vector or final; refinement to sequential processing |
| C10 | `compress_many` with fuel | each pass retires a job, measure = pending + in flight; fuel = number of items suffices |
| C11 | SSE4.1/AVX2 models on byte vectors | lane-wise homomorphism, message-schedule lemma per round by computation on symbolic blocks |
| C12 | raw reads return `UB` outside the slice | loop invariants; result is always `Ret`; the list of offsets read is exactly the list of blocks |
| C13 | all `Panic` outcomes, whole programs | simulation by the machine of `Machine.v`, whose panics are the documented ones |
| C14, C15, C16 | blake2bp/blake2sp `Params`, `State` | stride processing equals serial processing of the leaf's bytes; buffer invariant (two stripes) |
| C17, C18, C19 | setters | characterisation of the parameters produced by an arbitrary setter list |
| C20 | `to_words` | injectivity of the parameter block |
| C21 | the list of compression calls of the specification, refined by the model | the list determines key block and message |
| C22, C23, C24 | `Hash` | list reasoning, nibble table |
| C25 | whole programs | two-run equality on the abstract machine, transported by C40 |
| C26 | `add_to_counts` | carry lemma for block-aligned counters, refutation for unaligned ones, alignment is an invariant |
| C27 | `io::Write` impls | reduces to update |
| C28 | `detect`, `degree`, dispatch | case analysis over all feature combinations |
| C29 | programs over a store of objects | the machine's objects are independent logs; transported by C40 |
| C31 | public API composition | both sides equal the specification |
| C33, C34, C35 | `blake2_bin` | induction over read events and over inputs |
| C36 | iterator as a stream of optional items | the scheduler consumes exactly the prefix before the first end signal; a batch that stops after some items (`Unwind.v`) has finished all but fewer than degree() of them |
| C38 | `g`, `round`, the row kernels, the lanes | explicit inverse |
| C39 | `e_dbg` | both sides equal the same machine |
| C40 | `Api.v`: every public function | step-by-step simulation relation between the store of modelled objects and the machine's |
| C41 | `Unwind.v` | invariant of the interrupted scheduler: objects outside of the job vector are complete; the vector holds fewer than degree() |
| C42 | `Usize.v` | every function with machine-size lengths equals the unbounded one on inputs that fit; lifted to programs |
| C43 | `Params::hash` of all four functions, through C01, C14 and C21 | induction from the end of the two chains of calls; the last call carries the length; leaf messages determine the message |
| C44 | `Leak.v`: every function of the API with the events that an observer sees | erasing the events gives the model back; two runs whose secrets differ step through equal events (relational induction over every function); the kernels, which are single events there, are lists of instructions of a machine without jumps and without computed addresses, proved equal to the kernels of the model |
| C45 | `Leak.v`'s kernel events, counted | the number of blocks of a call follows the definition (WorkSpec.v); scheduler invariant: a pass leaves fewer lanes than degree() only when fewer messages are left; for equal jobs, lanes are labelled by the job they hold |

| C46 | `Out.v`: `main` with `println!`/`eprintln!` over the standard library's buffered standard output, for any answers of write(2) | what was written and what is buffered are together a beginning of the text; each operation keeps it so, uses up answers, and fails only on a broken one |
| C47 | `Threads.v`: threads that hold references into one store; each call has a beginning (it reads what it borrows and detects the CPU's features) and an end (it writes what it borrows mutably), and others run in between. A second runner takes histories: calls on any objects of the store begin, read again and end in any order, so that objects pass from thread to thread. Simplification: a call's writes are together at its end, where nothing but that call may look at what it writes; the standard library's cache of CPU features is any truthful answer in each call | a simulation between each thread's view of the store and the machine that runs the thread alone: a race-free call changes only objects that the other views do not hold. For histories: what a running call has read agrees with the store on what it borrows, so its end is a step of the machine (linearizability) |
| C48 | `Xof.v`: the loop of tests/vector_tests.rs with its u64 and i32 arithmetic | the two halves of the node offset are the two fields of the published block; induction over the output pieces |
| C49 | `Args.v`: the declarations of `Opt` and clap's loop over the words | what a written item leaves in the parser's matches, by induction over the way it is written; then the matches are read back item by item; std's test for UTF-8 against the encoding of scalar values, character by character |
| C50 | `Suite.v`: the bodies of the comparison tests, with the inputs that they paint, draw or read as arguments | the invariants of the states, trees and batches (C05–C09, C14); the block-by-block reference is the specification's chain of compressions; jobs of equal length all finish in one call of a multi-lane kernel; `Targets.v`: C01, C14, C05 for the fuzz targets, C49 and C51 for the tool's tests; `Units.v` and `Vectors.v`: induction over the entries, C48, C54 and the cases above; `Inputs.v`: painting and drawing give inputs in the range of those theorems; `Docs.v`: the same invariants for any pieces, settings and jobs |
| C51 | `Tool.v`: the whole of main from the words on the command line to the bytes on the streams: `Args.v`, `Bin.v` and `Out.v` put together, with clap's way of ending the process (a usage error goes to standard error and its result is dropped; help and version go to standard output) | composition of C46, C49, C34 and C33; the new cases by the lemmas about the streams |
| C52 | `Bench.v`: the inputs of both benchmark programs, their loops and closures over this library, the table of names; the allocator's addresses, the random bytes and the shuffles are arguments | invariant of the rotating index; a period's worth of consecutive numbers has every remainder once (injectivity and counting); C01, C08 and C14 for the hashes |
| C53 | `Runner.v`: the runner's commands in order and its reaction to each answer | the first answer that is not a success, by induction; then execution |
| C54 | `Sneves.v`, `SnevesLoad.v`, `SnevesIntrinsics.v`: the Rust wrappers and the C code of `benches/blake2-avx2-sneves` down to the intrinsics, for the three compile-time strategies; objects are lists of bytes and pointers are offsets into them, uninitialised arrays are arguments | kernels: lane by lane, against the same laws as this library's kernels (`SnevesRows`, `SnevesWide`); counters and final flags that are computed with vector comparisons, per lane (`SnevesCount`); the loops by invariants over whole stripes and then over the lanes of the rest (`SnevesLoop`, `SnevesPar`) |
| C55 | `BenchMain.v`: `main`, `worker`, `run_algo`, `rate_f32` of `benches/bench_multiprocess/src/main.rs` with the f32 arithmetic by its definition (the nearest representable number) and the worker processes as runs of the same program; what becomes of each process is an argument | printing and parsing of a number are inverse (induction over its digits); the relative error of one rounding, then of the quotient, in integers; the report by induction over the algorithms |
| C56 | `Tool.v` as for C51 | a hexadecimal digest has neither blank nor newline; induction over the files; two lists of names with the same output for the refutation |
| C57 | `Bin.v`: the reasons that `make_params`, `hash_file` and `hash_stdin` return; `Out.v`: what main prints of them | the chain of early returns yields the head of the list of all problems (BinSpec.v), by induction over the labelled options; then C46 and C49 |
| C58 | `Unwind.v` and `Many.v`, as for C41; vocabulary in `CasualtySpec.v` | the invariant of C41 strengthened: what a lane has under way is some number of steps of its own chain; then that the published function can be resumed from a chaining value (`CasualtyProof.v`), and that a State with other words goes on in step with the right one (`SplicedProof.v`) |
| C59 | `Panics.v`: the messages of the `assert!`s, and which of them ends `make_params` | case analysis per setter; the chain of early exits yields the head of the list of all faults (PanicSpec.v); linked to `make_params` of Bin.v by induction over the labelled options |
| C60 | `Lazy.v`: the scheduler with next() an arbitrary function on the iterator's state and the objects, called where the code calls it | simulation: the effects of the calls still to come commute with everything the batch does to objects that are out, so the lazy run and the run on the collected items stay related by "collect the rest"; the rules of the borrow checker (`borrows`, LazySpec.v) are proved for all iterators built from calls of the library (`LazyScript.v`) |
| C61 | `Trees.v`: a caller's program that hashes trees of any shape, node by node or one batch per level, over `Params`, `hash` and `hash_many` | induction over the levels from the root: the root's parameters fix its depth and the inner length, so the digests of the level below are determined and C43 applies node by node |
| C62 | `LazyUnwind.v`: the scheduler of `Lazy.v` with a next() that may also panic; unwinding keeps what was done | the simulation of C60 with a third answer, against the run of `Unwind.v` on the collected items; C41 then says what is left; the iterators built from calls of the library obey the rules (`lends`, BurstSpec.v) because they obey C60's |
| C63 | `Params::hash` of all four functions, through C01, C14 and C21; `ExtendSpec.v` lists the chains of compressions of a computation | every use of a chain but the first goes on from an earlier one, which never carries the last-block flag, whereas the use that gives a digest always does |
| C64 | `Inputs.v`: `paint_test_input` | loop invariant: what is painted so far is the pattern; a window of eight bytes at each of the 16 pairs of alignments: carries between successive counters contradict each other, or the aligned counters are equal |
| C65 | `Writers.v`: write_all, write_fmt, io::copy and io::BufWriter of the standard library (not in /repo) over the Write implementations; `WriterSpec.v`: calls, the bytes they hand over and the right answers | an invariant "the innermost writer has had this, the layers hold that" kept by every call, lifted through one layer of BufWriter and by induction through any number; the base is C27's |

Properties beyond C61 are described at the head of their `Prop*.v` file and in the table's continuation below, if any.

## Wrong programs

`seeded/LOG.jsonl` records edits of the model that stand for realistic bugs. Each edit was made in a copy outside of this
directory in two ways: the whole development was rebuilt, which names the first lemma that no longer holds; and the
conclusions of the property theorems were evaluated on concrete instances by extraction, which tells which property
*statements* become false, independently of how the proofs are organised. An edit after which everything still holds is
marked as equivalent, with the reason.
