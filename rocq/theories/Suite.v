(** Model of the project's own tests that compare one way of computing a hash
    with another: the reference implementation of BLAKE2bp / BLAKE2sp and
    test_against_reference (blake2b/src/blake2bp.rs:483-570; s: blake2sp.rs:490-577), the tests of the
    compression loops (blake2b/src/guts.rs:262-560; s: guts.rs:260-557), the batch tests
    (many.rs:422-534 in each crate, tests/fuzz_many.rs), test_update_state, test_write and
    test_hash_from (blake2b/src/test.rs; s: test.rs) and the vector tests
    (tests/vector_tests.rs:25-151).

    A test is a computation that returns unit or panics.  Simplifications: the inputs that a
    test paints or draws at random are arguments here (Inputs.v has the painting and drawing); ArrayVec is a list (each has the capacity
    for what is pushed); the hex and JSON decoding of the vectors is left out; println! is left
    out.  "s:" gives the lines of the copy in the other crate. *)
From Coq Require Import String.
From Coq Require Import Arith NArith List Bool.
From Verif Require Import Base Guts Portable Simd Impl Sched Lib Many Par.
From Verif Require Import ApiSpec Api Xof.
Import ListNotations.
Open Scope list_scope.
Open Scope N_scope.
Local Notation length := List.length.

(** assert_eq! on two Hash objects, which uses PartialEq for Hash (blake2bp.rs:551, fuzz_many.rs:78). *)
Definition assert_same (a b : hash) : outcome unit := do r <- hash_eq a b; assert_ r.
(** assert_eq! on two counts (blake2bp.rs:558, fuzz_many.rs:105). *)
Definition assert_count (a b : N) : outcome unit := assert_ (N.eqb a b).
(** assert_eq! on the text of to_hex (test.rs:23, vector_tests.rs:41). *)
Definition assert_hex (v : variant) (h : hash) (out : string) : outcome unit :=
  do t <- to_hex v h; assert_ (String.eqb t out).
(** assert_eq! on two arrays of words (guts.rs:411, 484). *)
Definition assert_words (a b : list N) : outcome unit := assert_ (if list_eq_dec N.eq_dec a b then true else false).

(** A for loop whose body returns nothing (e.g. fuzz_many.rs:77-79). *)
Fixpoint each {A} (f : A -> outcome unit) (l : list A) : outcome unit :=
  match l with
  | [] => Ret tt
  | x :: r => do _ <- f x; each f r
  end.

(** l[i], which panics when out of range (e.g. guts.rs:484, fuzz_many.rs:78). *)
Definition at_index {A} (l : list A) (i : nat) : outcome A :=
  match nth_error l i with Some x => Ret x | None => Panic end.

(** slice::chunks(n) (core, not in /repo), used at blake2bp.rs:503: pieces of [n], the last one shorter.
    The fuel is the length. *)
Fixpoint chunks_loop (fuel n : nat) (l : list byte) : list (list byte) :=
  match l, fuel with
  | [], _ | _, O => []
  | _ :: _, S fuel => firstn n l :: chunks_loop fuel n (skipn n l)
  end.
(** As [chunks_loop] (core, not in /repo; used at blake2bp.rs:503; s: blake2sp.rs:510). *)
Definition chunks (n : nat) (l : list byte) : list (list byte) := chunks_loop (length l) n l.

Section Suite.
(** [imp] is what Implementation::detect() returns. *)
Variables (v : variant) (e : env) (imp : platform).

(** ** The parallel functions *)

(** The calls that make a leaf of the reference: blake2bp.rs:494-499; s: blake2sp.rs:501-506. *)
Definition reference_leaf (i : nat) : list setting :=
  [Fanout (as_u8 (par_degree v)); MaxDepth 2; NodeOffset (N.of_nat i); InnerHashLength (outbytes v)].
(** The calls that make the root of the reference: blake2bp.rs:506-511; s: blake2sp.rs:513-518. *)
Definition reference_root : list setting :=
  [Fanout (as_u8 (par_degree v)); MaxDepth 2; NodeDepth 1; InnerHashLength (outbytes v); LastNode true].
(** crate::Params::new(), a chain of calls, .to_state(): blake2bp.rs:494-499, 506-512. *)
Definition new_state (ss : list setting) : outcome state :=
  do p <- chain v (params_new v imp) ss; Ret (to_state v p).

(** The loop that deals out the chunks: blake2bp.rs:503-505; s: blake2sp.rs:510-512. *)
Fixpoint deal (i : nat) (cs : list (list byte)) (leaves : list state) : outcome (list state) :=
  match cs with
  | [] => Ret leaves
  | c :: r =>
      let k := (i mod par_degree v)%nat in
      do s <- at_index leaves k;
      do s <- update v e s c;
      deal (S i) r (set leaves k s)
  end.
(** The loop that feeds the root: blake2bp.rs:513-515; s: blake2sp.rs:520-522. *)
Fixpoint feed_root (root : state) (leaves : list state) : outcome state :=
  match leaves with
  | [] => Ret root
  | leaf :: r =>
      do h <- finalize v e leaf;
      do b <- as_bytes h;
      do root <- update v e root b;
      feed_root root r
  end.
(** blake2bp_reference, blake2bp.rs:490-517; blake2sp_reference, s: blake2sp.rs:497-524. *)
Definition par_reference (input : list byte) : outcome hash :=
  do leaves <- mapM (fun i => new_state (reference_leaf i)) (seq 0 (par_degree v));
  do last <- at_index leaves (par_degree v - 1);
  let leaves := set leaves (par_degree v - 1) (set_last_node true last) in
  do leaves <- deal 0 (chunks (blockbytes v) input) leaves;
  do root <- new_state reference_root;
  do root <- feed_root root leaves;
  finalize v e root.

(** The body of the loops of test_against_reference: blake2bp.rs:536-566; s: blake2sp.rs:543-573. *)
Definition against_reference (portable : bool) (input : list byte) : outcome unit :=
  let params := pparams_new v imp in
  do params <- (if portable then run p_force_portable params else Ret params);
  do expected <- par_reference input;
  do s <- p_to_state v params;
  do s <- p_update v e s input;
  do found <- p_finalize v e s;
  do _ <- assert_same expected found;
  do s <- p_to_state v params;
  let maybe_one := Nat.min 1 (length input) in
  do one <- slice input 0 maybe_one;
  do s <- p_update v e s one;
  do c <- p_count v e s;
  do _ <- assert_count (N.of_nat maybe_one) c;
  do _ <- p_finalize v e s;
  do rest <- slice_from input maybe_one;
  do s <- p_update v e s rest;
  do c <- p_count v e s;
  do _ <- assert_count (N.of_nat (length input)) c;
  do found <- p_finalize v e s;
  do _ <- assert_same expected found;
  do h <- blake2p_default v e imp input;
  assert_same expected h.
(** test_against_reference, on the buffer that it paints: blake2bp.rs:520-569; s: blake2sp.rs:527-576. *)
Definition test_against_reference (buf : list byte) : outcome unit :=
  each (fun num_blocks =>
    each (fun extra =>
      each (fun portable =>
        do input <- slice buf 0 (num_blocks * blockbytes v + extra);
        against_reference portable input)
      [false; true])
    [0; 1; blockbytes v - 1]%nat)
  (seq 0 21).

(** ** The compression loops *)

(** initial_test_words, guts.rs:349-353; s: 346-350. *)
Definition initial_test_words (i : nat) : outcome (list N) :=
  do p <- chain v (params_new v imp) [NodeOffset (N.of_nat i)]; Ret (to_words v p).

(** The while loop of reference_compression, guts.rs:367-385; s: 364-382. *)
Fixpoint reference_loop (fuel : nat) (input : list byte) (st : stride) (last_node finalize : bool)
    (words : list N) (count : N) (offset : nat) : outcome (list N) :=
  if Nat.eqb offset 0 || Nat.ltb offset (length input) then
    match fuel with
    | O => Diverge
    | S fuel =>
        let block_size := Nat.min (blockbytes v) (length input - offset) in
        let maybe_finalize :=
          if Nat.ltb (offset + padded_blockbytes v st) (length input) then false else finalize in
        do tail <- slice_from input offset;
        do block <- slice tail 0 block_size;
        do words <- portable_compress1_loop v (e_dbg e) block words count last_node maybe_finalize Serial;
        reference_loop fuel input st last_node finalize words
          (count_wrapping_add v count (N.of_nat (blockbytes v))) (offset + padded_blockbytes v st)
    end
  else Ret words.
(** reference_compression, guts.rs:357-387; s: 354-384. *)
Definition reference_compression (input : list byte) (st : stride) (last_node finalize : bool) (count : N)
    (input_index : nat) : outcome (list N) :=
  do words <- initial_test_words input_index;
  reference_loop (S (length input)) input st last_node finalize words count 0.

(** The closure of exercise_compress1_loop, guts.rs:398-412; s: 395-409.  [implementation] is the back end
    under test. *)
Definition exercise1 (implementation : platform) (input : list byte) (st : stride) (len : nat)
    (last_node finalize : bool) (count : N) : outcome unit :=
  do input <- slice input 0 len;
  do reference_words <- reference_compression input st last_node finalize count 0;
  do test_words <- initial_test_words 0;
  do test_words <- compress1_loop v e implementation input test_words count last_node finalize st;
  assert_words reference_words test_words.

(** The closures of exercise_compress2_loop and exercise_compress4_loop (guts.rs:453-487, 519-553), of
    exercise_compress4_loop and exercise_compress8_loop (s: 450-484, 516-550).  The jobs borrow test_words, which
    hold the jobs' words afterwards. *)
Definition exercise_many (loop : list job -> bool -> stride -> outcome (list job)) (n : nat)
    (inputs : list (list byte)) (st : stride) (len : nat) (last_node finalize : bool) (count : N) : outcome unit :=
  do reference_words <- mapM (fun i =>
       do x <- at_index inputs i;
       do x <- slice x 0 len;
       reference_compression x st last_node finalize
         (count_wrapping_add v count (N.of_nat (i * blockbytes v))) i) (seq 0 n);
  do test_words <- mapM initial_test_words (seq 0 n);
  do jobs <- mapM (fun '(i, words) =>
       do x <- at_index inputs i;
       do x <- slice x 0 len;
       Ret {| j_input := x; j_words := words;
              j_count := count_wrapping_add v count (N.of_nat (i * blockbytes v));
              j_last_node := last_node |}) (combine (seq 0 n) test_words);
  do jobs <- loop jobs finalize st;
  let test_words := map j_words jobs in
  each (fun i =>
    do r <- at_index reference_words i;
    do t <- at_index test_words i;
    assert_words r t) (seq 0 n).
(** exercise_compress2_loop's closure, guts.rs:453-487; s: exercise_compress4_loop's, 450-484. *)
Definition exercise_narrow (implementation : platform) :=
  exercise_many (compress_narrow_loop v e implementation) (narrow v).
(** exercise_compress4_loop's closure, guts.rs:519-553; s: exercise_compress8_loop's, 516-550. *)
Definition exercise_wide (implementation : platform) :=
  exercise_many (compress_wide_loop v e implementation) (wide v).

(** exercise_cases, guts.rs:299-347; s: 296-344. *)
Definition exercise_cases (f : stride -> nat -> bool -> bool -> N -> outcome unit) : outcome unit :=
  each (fun st =>
    each (fun len =>
      each (fun last_node =>
        each (fun finalize =>
          if negb finalize && (Nat.eqb len 0 || negb (Nat.eqb (len mod blockbytes v) 0)) then Ret tt
          else each (f st len last_node finalize)
                 [0; wmod v - N.of_nat (blockbytes v); cmod v - N.of_nat (blockbytes v)])
        [false; true])
      [false; true])
    (let b := blockbytes v in let p := padded_blockbytes v st in
     [0; 1; b - 1; b; b + 1; 2 * b - 1; 2 * b; 2 * b + 1; p - 1; p; p + 1; 2 * p - 1; 2 * p; 2 * p + 1]%nat))
  [Serial; Parallel].
(** test_compress1_loop_portable, _sse41 and _avx2 on the buffer painted (guts.rs:394-435; s: 391-432). *)
Definition test_compress1 (implementation : platform) (input : list byte) : outcome unit :=
  exercise_cases (exercise1 implementation input).
(** inputs, guts.rs:448-451, 514-517; s: 445-448, 511-514. *)
Definition overlapping (n : nat) (input : list byte) : outcome (list (list byte)) :=
  mapM (fun i => slice_from input i) (seq 0 n).
(** test_compress2_loop_sse41 and _avx2, guts.rs:443-504; s: test_compress4_loop_sse41 and _avx2, 440-501. *)
Definition test_narrow (implementation : platform) (input : list byte) : outcome unit :=
  do inputs <- overlapping (narrow v) input; exercise_cases (exercise_narrow implementation inputs).
(** test_compress4_loop_avx2, guts.rs:509-561; s: test_compress8_loop_avx2, 506-558. *)
Definition test_wide (implementation : platform) (input : list byte) : outcome unit :=
  do inputs <- overlapping (wide v) input; exercise_cases (exercise_wide implementation inputs).

(** ** Batches *)

(** fuzz_blake2b_hash_many's closure, fuzz_many.rs:62-80; s: 161-179.  The loop of test_hash_many
    (many.rs:471-482 in each crate) is the same but for the order of computing the two. *)
Definition fuzz_hash_many (params : list Lib.params) (inputs : list (list byte)) : outcome unit :=
  do expected <- mapM (fun '(p, x) => params_hash v e p x) (combine params inputs);
  do jobs <- mapM (fun '(x, p) => hash_many_job_new v e p x) (combine inputs params);
  do '(jobs, _) <- hash_many v e jobs (map (fun i => Some (i, tt)) (seq 0 (length jobs)));
  each (fun i =>
    do x <- at_index expected i;
    do j <- at_index jobs i;
    do h <- to_hash v e j;
    assert_same x h) (seq 0 (length jobs)).

(** states.iter_mut().zip(inputs.iter()), fuzz_many.rs:102-103; s: 201-202. *)
Definition zipped (states : list state) (inputs : list (list byte)) : list (option (nat * list byte)) :=
  map Some (combine (seq 0 (length states)) inputs).
(** fuzz_blake2b_update_many's closure, fuzz_many.rs:85-108; s: 184-207.  The loop of test_update_many
    (many.rs:513-531 in each crate) is the same but for the order.  2 * len is a multiplication of Count. *)
Definition fuzz_update_many (params : list Lib.params) (inputs : list (list byte)) : outcome unit :=
  do expected <- mapM (fun '(p, x) =>
       do s <- update v e (to_state v p) x;
       do s <- update v e s x;
       finalize v e s) (combine params inputs);
  let states := map (to_state v) params in
  do '(states, _) <- update_many v e states (zipped states inputs);
  do '(states, _) <- update_many v e states (zipped states inputs);
  each (fun i =>
    do x <- at_index inputs i;
    do s <- at_index states i;
    do c <- count v e s;
    do _ <- assert_count (2 * N.of_nat (length x)) c;
    do want <- at_index expected i;
    do h <- finalize v e s;
    assert_same want h) (seq 0 (length states)).

(** ** One-shot and incremental *)

(** The loop body of test_update_state that feeds one byte at a time: test.rs:41-45; s: 37-41. *)
Fixpoint byte_by_byte (s : state) (n : N) (input : list byte) : outcome state :=
  match input with
  | [] => Ret s
  | b :: r =>
      do s <- update v e s [b];
      let n := n + 1 in
      do c <- count v e s;
      do _ <- assert_count n c;
      byte_by_byte s n r
  end.
(** The three loop bodies of test_update_state: test.rs:20-48; s: 16-44. *)
Definition update_state (input : list byte) (output : string) : outcome unit :=
  do h <- blake2_default v e imp input;
  do _ <- assert_hex v h output;
  let s := to_state v (params_new v imp) in
  let split := Nat.div (length input) 2 in
  do x <- slice input 0 split;
  do s <- update v e s x;
  do c <- count v e s;
  do _ <- assert_count (N.of_nat split) c;
  do y <- slice_from input split;
  do s <- update v e s y;
  do c <- count v e s;
  do _ <- assert_count (N.of_nat (length input)) c;
  do h <- finalize v e s;
  do _ <- assert_hex v h output;
  do s <- byte_by_byte (to_state v (params_new v imp)) 0 input;
  do h <- finalize v e s;
  assert_hex v h output.
(** test_write, test.rs:65-72; s: 61-68. *)
Definition write_state (input : list byte) (output : string) : outcome unit :=
  do s <- write_all (write v e) (to_state v (params_new v imp)) input;
  do h <- finalize v e s;
  assert_hex v h output.
(** test_hash_from, test.rs:204-208; s: 211-215. *)
Definition hash_from_array (input : list byte) : outcome unit :=
  do h <- blake2_default v e imp input;
  do a <- as_array v e h;
  do _ <- assert_same h (hash_from v a);
  do a <- as_array v e h;
  assert_same h (hash_from v a).

(** ** Vectors *)

(** The loop body of blake2b_vectors and blake2s_vectors for a decoded case: vector_tests.rs:33-47, 97-111. *)
Definition vector_case (input key : list byte) (out : string) : outcome unit :=
  do p <- (match key with [] => Ret (params_new v imp) | _ => run (Lib.key v key) (params_new v imp) end);
  do h <- params_hash v e p input;
  do _ <- assert_hex v h out;
  do s <- update v e (to_state v p) input;
  do h <- finalize v e s;
  do _ <- assert_hex v h out;
  do c <- count v e s;
  assert_count (N.of_nat (length input)) c.
(** The loop body of blake2bp_vectors and blake2sp_vectors for a decoded case: vector_tests.rs:65-79, 129-143. *)
Definition p_vector_case (input key : list byte) (out : string) : outcome unit :=
  do p <- (match key with [] => Ret (pparams_new v imp) | _ => run (p_set_key v key) (pparams_new v imp) end);
  do h <- p_hash v e p input;
  do _ <- assert_hex v h out;
  do s <- p_to_state v p;
  do s <- p_update v e s input;
  do h <- p_finalize v e s;
  do _ <- assert_hex v h out;
  do c <- p_count v e s;
  assert_count (N.of_nat (length input)) c.
End Suite.

(** ** Detection *)

(** is_x86_feature_detected! (std, not in /repo): true at once for a feature the target was built with
    (guts.rs:273, 283, many.rs:436-441). *)
Definition detected (built cpu : bool) : bool := built || cpu.
(** Are two platforms equal (derived PartialEq, guts.rs:15-22)? *)
Definition same_platform (a b : platform) : bool :=
  match a, b with
  | Portable, Portable | SSE41, SSE41 | AVX2, AVX2 => true
  | _, _ => false
  end.
(** assert_eq!(p, x.unwrap().0), guts.rs:275-282. *)
Definition assert_some (p : platform) (x : option platform) : outcome unit :=
  match x with Some q => assert_ (same_platform p q) | None => Panic end.
(** assert!(x.is_none()), guts.rs:285, 292-293. *)
Definition assert_none (x : option platform) : outcome unit :=
  match x with Some _ => Panic | None => Ret tt end.
(** test_detection, guts.rs:267-297; s: 265-294. *)
Definition test_detection (t : target) : outcome unit :=
  if t_x86 t && t_std t then
    if detected (t_tf_avx2 t) (t_cpu_avx2 t) then
      do _ <- assert_ (same_platform AVX2 (detect t));
      do _ <- assert_some AVX2 (avx2_if_supported t);
      assert_some SSE41 (sse41_if_supported t)
    else if detected (t_tf_sse41 t) (t_cpu_sse41 t) then
      do _ <- assert_ (same_platform SSE41 (detect t));
      do _ <- assert_none (avx2_if_supported t);
      assert_some SSE41 (sse41_if_supported t)
    else
      do _ <- assert_ (same_platform Portable (detect t));
      do _ <- assert_none (avx2_if_supported t);
      assert_none (sse41_if_supported t)
  else Ret tt.
(** test_degree, many.rs:430-443 in each crate. *)
Definition test_degree (v : variant) (t : target) : outcome unit :=
  do _ <- assert_ (Nat.leb (many_degree v t) (max_degree v (t_x86 t)));
  if t_x86 t && t_std t then
    do _ <- (if detected (t_tf_avx2 t) (t_cpu_avx2 t)
             then assert_ (Nat.leb (wide v) (many_degree v t)) else Ret tt);
    if detected (t_tf_sse41 t) (t_cpu_sse41 t)
    then assert_ (Nat.leb (narrow v) (many_degree v t)) else Ret tt
  else Ret tt.
