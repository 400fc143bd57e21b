(** Model of the benchmarks: benches/bench_multiprocess/src/main.rs and benches/bench.rs.

    The rates, the printing and the worker processes are in BenchMain.v.  Left out: the clock, and the
    benchmarks of other people's libraries.  The allocator's addresses, the random bytes and the random orders are
    arguments.  What a run hashes, and where in memory that starts, is part of its result. *)
From Coq Require Import String.
From Coq Require Import Arith NArith List Bool.
From Coq Require Import Init.Byte.
From Verif Require Import Base Guts Impl Lib Many Par.
Import ListNotations.
Open Scope list_scope.
Open Scope nat_scope.
Local Notation length := List.length.

(** main.rs:47. *)
Definition OFFSET_PERIOD : nat := 512.
(** main.rs:49. *)
Definition BENCH_LEN : N := 1000000%N.

(** A Vec<u8> after fill_bytes: where it is, and its i-th byte (main.rs:269-270; bench.rs:28-30). *)
Record memory := { m_at : N; m_byte : nat -> byte }.
(** A slice that an input gives out: where it starts, and its bytes (main.rs:284-286; bench.rs:41-48). *)
Record served := { sv_at : N; sv_bytes : list byte }.

(** struct VecIter, main.rs:239-242. *)
Record vec_iter := { vi_vec : list nat; vi_i : nat }.
(** VecIter::next, main.rs:245-252. *)
Definition vi_next (it : vec_iter) : outcome (nat * vec_iter) :=
  match nth_error (vi_vec it) (vi_i it) with
  | None => Panic
  | Some item =>
      let i := vi_i it + 1 in
      Ret (item, {| vi_vec := vi_vec it; vi_i := if Nat.leb (length (vi_vec it)) i then 0 else i |})
  end.
(** VecIter::shuffle, main.rs:254-256. *)
Definition vi_shuffle (order : list nat -> list nat) (it : vec_iter) : vec_iter :=
  {| vi_vec := order (vi_vec it); vi_i := vi_i it |}.

(** struct OffsetInput, main.rs:261-265. *)
Record offset_input := { oi_mem : memory; oi_buf : list byte; oi_len : nat; oi_offsets : vec_iter }.
(** OffsetInput::new, main.rs:268-282. *)
Definition offset_input_new (m : memory) (len : nat) : offset_input :=
  let buf := map (m_byte m) (seq 0 (len + OFFSET_PERIOD)) in
  let adjustment := OFFSET_PERIOD - N.to_nat (N.modulo (m_at m) (N.of_nat OFFSET_PERIOD)) in
  let offsets := map (fun off => (off + adjustment) mod OFFSET_PERIOD) (seq 0 OFFSET_PERIOD) in
  {| oi_mem := m; oi_buf := buf; oi_len := len; oi_offsets := {| vi_vec := offsets; vi_i := 0 |} |}.
(** &buf[off..][..len], main.rs:285; bench.rs:47. *)
Definition window (m : memory) (buf : list byte) (off len : nat) : outcome served :=
  do tail <- slice_from buf off;
  do bytes <- slice tail 0 len;
  Ret {| sv_at := N.add (m_at m) (N.of_nat off); sv_bytes := bytes |}.
(** OffsetInput::get, main.rs:284-286. *)
Definition oi_get (input : offset_input) : outcome (served * offset_input) :=
  do '(off, it) <- vi_next (oi_offsets input);
  do x <- window (oi_mem input) (oi_buf input) off (oi_len input);
  Ret (x, {| oi_mem := oi_mem input; oi_buf := oi_buf input; oi_len := oi_len input; oi_offsets := it |}).

(** The timed loop, main.rs:74-76. *)
Fixpoint timed {S R} (f : S -> outcome (R * S)) (n : nat) (s : S) : outcome (list R) :=
  match n with
  | O => Ret []
  | S n' => do '(x, s) <- f s; do xs <- timed f n' s; Ret (x :: xs)
  end.
(** bench, main.rs:69-79: a run that is not timed, then the timed ones, whose results these are. *)
Definition bench {S R} (f : S -> outcome (R * S)) (s : S) : outcome (list R) :=
  do '(_, s) <- f s; timed f OFFSET_PERIOD s.

(** struct RandomInput, bench.rs:17-22. *)
Record random_input := { ri_mem : memory; ri_buf : list byte; ri_len : nat; ri_offsets : list nat; ri_index : nat }.
(** RandomInput::new, bench.rs:25-39; [bytes] is the Bencher's count. *)
Definition random_input_new (page_size : nat) (order : list nat -> list nat) (m : memory) (bytes : N) (len : nat) : N * random_input :=
  (N.add bytes (N.of_nat len),
   {| ri_mem := m; ri_buf := map (m_byte m) (seq 0 (len + page_size)); ri_len := len;
      ri_offsets := order (seq 0 page_size); ri_index := 0 |}).
(** RandomInput::get, bench.rs:41-48. *)
Definition ri_get (input : random_input) : outcome (served * random_input) :=
  match nth_error (ri_offsets input) (ri_index input) with
  | None => Panic
  | Some off =>
      let i := ri_index input + 1 in
      let i := if Nat.leb (length (ri_offsets input)) i then 0 else i in
      do x <- window (ri_mem input) (ri_buf input) off (ri_len input);
      Ret (x, {| ri_mem := ri_mem input; ri_buf := ri_buf input; ri_len := ri_len input;
                 ri_offsets := ri_offsets input; ri_index := i |})
  end.

(** The functions in ALGOS, main.rs:51-65: those of this file by name, the other libraries' in one case. *)
Inductive algorithm := Blake2b_hash | Blake2b_hash_many | Hash_blake2bp | Blake2s_hash | Blake2s_hash_many | Hash_blake2sp
  | Other (which : nat).
(** ALGOS, main.rs:51-65. *)
Definition ALGOS : list (string * algorithm) :=
  [ ("blake3", Other 0); ("blake2b_simd BLAKE2b", Blake2b_hash); ("blake2b_simd many", Blake2b_hash_many);
    ("blake2b_simd BLAKE2bp", Hash_blake2bp); ("blake2s_simd BLAKE2s", Blake2s_hash); ("blake2s_simd many", Blake2s_hash_many);
    ("blake2s_simd BLAKE2sp", Hash_blake2sp); ("sneves BLAKE2b", Other 1); ("sneves BLAKE2bp", Other 2); ("sneves BLAKE2sp", Other 3);
    ("libsodium BLAKE2b", Other 4); ("OpenSSL SHA-1", Other 5); ("OpenSSL SHA-512", Other 6) ]%string.
(** The loop of get_hash_bench and its expect, main.rs:290-297. *)
Fixpoint find_bench (name : string) (algos : list (string * algorithm)) : outcome algorithm :=
  match algos with
  | [] => Panic
  | (algo_name, f) :: r => if String.eqb name algo_name then Ret f else find_bench name r
  end.
(** get_hash_bench, main.rs:289-298. *)
Definition get_hash_bench (name : string) : outcome algorithm := find_bench name ALGOS.
(** The choice that main makes when it has an argument, main.rs:349-361. *)
Definition choose (arg : string) : outcome string :=
  match filter (fun name => String.eqb name arg) (map fst ALGOS) with
  | [name] => Ret name
  | _ => Panic
  end.

Section Benchmarks.
Variables (v : variant) (e : env) (t : target).

(** blake2b_hash, main.rs:81-86; s: 88-93. *)
Definition hash_bench (m : memory) : outcome (list (served * hash)) :=
  bench (fun input =>
    do '(x, input) <- oi_get input;
    do h <- blake2_default v e (detect t) (sv_bytes x);
    Ret ((x, h), input)) (offset_input_new m (N.to_nat BENCH_LEN)).
(** hash_blake2bp, main.rs:161-166; s: 168-173. *)
Definition p_hash_bench (m : memory) : outcome (list (served * hash)) :=
  bench (fun input =>
    do '(x, input) <- oi_get input;
    do h <- blake2p_default v e (detect t) (sv_bytes x);
    Ret ((x, h), input)) (offset_input_new m (N.to_nat BENCH_LEN)).

(** The for loop of the closure, main.rs:133-136, with ArrayVec's push; s: 153-156. *)
Fixpoint get_jobs (inputs : list offset_input) (jobs : list hash_many_job)
    : outcome (list hash_many_job * list served * list offset_input) :=
  match inputs with
  | [] => Ret (jobs, [], [])
  | input :: rest =>
      do '(x, input) <- oi_get input;
      do job <- hash_many_job_new v e (params_new v (detect t)) (sv_bytes x);
      do _ <- assert_ (Nat.ltb (length jobs) (max_degree v (t_x86 t)));
      do '(jobs, xs, rest) <- get_jobs rest (jobs ++ [job]);
      Ret (jobs, x :: xs, input :: rest)
  end.
(** The loop of blake2b_hash_many, main.rs:125-129; s: 145-149.  [ms] gives the memory of each allocation and
    [order] what each shuffle does: in every turn an input is made and shuffled, and another one is pushed. *)
Definition many_inputs (ms : nat -> memory) (order : nat -> list nat -> list nat) (degree bench_len : nat) : list offset_input :=
  map (fun i =>
    let offset_input := offset_input_new (ms (2 * i)) bench_len in
    let _shuffled := vi_shuffle (order i) (oi_offsets offset_input) in
    offset_input_new (ms (2 * i + 1)) bench_len) (seq 0 degree).
(** blake2b_hash_many, main.rs:121-139; s: 141-159. *)
Definition many_bench (ms : nat -> memory) (order : nat -> list nat -> list nat) : outcome (list (list served * list hash_many_job)) :=
  let degree := many_degree v t in
  let bench_len := N.to_nat (N.div BENCH_LEN (N.of_nat degree)) in
  bench (fun inputs =>
    do '(jobs, xs, inputs) <- get_jobs inputs [];
    do '(jobs, _) <- hash_many v e jobs (map (fun i => Some (i, tt)) (seq 0 (length jobs)));
    Ret ((xs, jobs), inputs)) (many_inputs ms order degree bench_len).

(** The closure of bench_oneblock_blake2b_avx2, bench.rs:54, and of bench.rs:65, 87 and 98, and with [p] and [hash] of
    bench.rs:74, 82, 107, 115 (params.hash). *)
Definition hash_closure (p : params) (input : random_input) : outcome ((served * hash) * random_input) :=
  do '(x, input) <- ri_get input; do h <- params_hash v e p (sv_bytes x); Ret ((x, h), input).
(** The parameters that these run on: blake2b is Params::new().hash (lib.rs:117-119), and the portable ones take
    benchmarks::force_portable (bench.rs:72-73, 80-81, 105-106, 113-114). *)
Definition portable_params : outcome params :=
  match force_portable (params_new v (detect t)) with (p, Ret _) => Ret p | (_, Panic) => Panic | (_, UB) => UB | (_, Diverge) => Diverge end.
(** The closures of bench_long_blake2bp and bench_long_blake2sp, bench.rs:120, 126. *)
Definition p_hash_closure (input : random_input) : outcome ((served * hash) * random_input) :=
  do '(x, input) <- ri_get input; do h <- blake2p_default v e (detect t) (sv_bytes x); Ret ((x, h), input).
(** The inputs of a benchmark, bench.rs:131-132, 146-149 and the like: [n] of them, one after the other. *)
Fixpoint random_inputs (page_size : nat) (ms : nat -> memory) (order : nat -> list nat -> list nat) (len : nat) (n : nat)
    (bytes : N) : N * list random_input :=
  match n with
  | O => (bytes, [])
  | S n' =>
      let '(bytes, input) := random_input_new page_size (order 0) (ms 0) bytes len in
      let '(bytes, rest) := random_inputs page_size (fun i => ms (S i)) (fun i => order (S i)) len n' bytes in
      (bytes, input :: rest)
  end.
(** The array of jobs, bench.rs:135-138, 152-157 and the like. *)
Fixpoint ri_jobs (p : params) (inputs : list random_input) : outcome (list hash_many_job * list served * list random_input) :=
  match inputs with
  | [] => Ret ([], [], [])
  | input :: rest =>
      do '(x, input) <- ri_get input;
      do job <- hash_many_job_new v e p (sv_bytes x);
      do '(jobs, xs, rest) <- ri_jobs p rest;
      Ret (job :: jobs, x :: xs, input :: rest)
  end.
(** The closure of bench_long_blake2b_many_2x, bench.rs:134-141, and of the other ones with many inputs
    (bench.rs:144-326): the number of inputs is that of the list. *)
Definition many_closure (p : params) (inputs : list random_input) : outcome ((list served * list hash) * list random_input) :=
  do '(jobs, xs, inputs) <- ri_jobs p inputs;
  do '(jobs, _) <- hash_many v e jobs (map (fun i => Some (i, tt)) (seq 0 (length jobs)));
  do hs <- mapM (to_hash v e) jobs;
  Ret ((xs, hs), inputs).
End Benchmarks.
