(** Model of how the tests of the two crates make their inputs: paint_test_input (blake2b/src/lib.rs:662-676; s:
    lib.rs:654-668) with the tests that use it, and the drawing of parameters and inputs in tests/fuzz_many.rs.
    A test is a computation that returns unit or panics, as in Suite.v.  The random generator (the crates rand and
    rand_chacha, not in /repo) is an argument: any state with three operations.  "s:" gives the lines in blake2s. *)
From Coq Require Import String.
From Coq Require Import Arith NArith List Bool.
From Coq Require Import Init.Byte.
From Verif Require Import Base Guts Portable Simd Impl Sched Lib Many Par.
From Verif Require Import ApiSpec Api Xof Suite.
Import ListNotations.
Open Scope list_scope.
Open Scope N_scope.
Local Notation length := List.length.

(** ** Painting *)

(** counter += 1 on a u32: lib.rs:673; s: 665. *)
Definition next_counter (dbg : bool) (counter : N) : outcome N :=
  if counter + 1 <? 2 ^ 32 then Ret (counter + 1)
  else if dbg then Panic else Ret ((counter + 1) mod 2 ^ 32).
(** The loop of paint_test_input, lib.rs:668-675; s: 660-667. *)
Fixpoint paint_loop (fuel : nat) (dbg : bool) (buf : list byte) (offset : nat) (counter : N) : outcome (list byte) :=
  if (offset <? length buf)%nat then
    match fuel with
    | O => Diverge
    | S fuel =>
        let bytes := to_le 4 counter in
        let take := Nat.min (length bytes) (length buf - offset) in
        do piece <- slice bytes 0 take;
        do buf <- copy_into buf offset piece;
        do counter <- next_counter dbg counter;
        paint_loop fuel dbg buf (offset + take) counter
    end
  else Ret buf.
(** paint_test_input, lib.rs:665-676; s: 657-668. *)
Definition paint_test_input (dbg : bool) (buf : list byte) : outcome (list byte) :=
  paint_loop (length buf) dbg buf 0 1.

(** ArrayVec::push (the arrayvec crate, not in /repo; used at fuzz_many.rs:47): panics when full. *)
Definition push {A} (cap : nat) (l : list A) (x : A) : outcome (list A) :=
  if (length l <? cap)%nat then Ret (l ++ [x]) else Panic.

Section Inputs.
(** [imp] is what Implementation::detect() returns. *)
Variables (v : variant) (e : env) (imp : platform).

(** exercise_compress1_loop, guts.rs:394-413; s: 391-410. *)
Definition exercise_compress1_loop (implementation : platform) : outcome unit :=
  do input <- paint_test_input (e_dbg e) (zeros (100 * blockbytes v));
  test_compress1 v e imp implementation input.
(** exercise_compress2_loop, guts.rs:443-488; s: exercise_compress4_loop, 440-485. *)
Definition exercise_narrow_loop (implementation : platform) : outcome unit :=
  do input_buffer <- paint_test_input (e_dbg e) (zeros (100 * blockbytes v));
  test_narrow v e imp implementation input_buffer.
(** exercise_compress4_loop, guts.rs:509-554; s: exercise_compress8_loop, 506-551. *)
Definition exercise_wide_loop (implementation : platform) : outcome unit :=
  do input_buffer <- paint_test_input (e_dbg e) (zeros (100 * blockbytes v));
  test_wide v e imp implementation input_buffer.
(** if let Some(imp) = ..: guts.rs:424, 432, 493, 502, 559; s: 421, 429, 490, 499, 556. *)
Definition if_some (o : option platform) (test : platform -> outcome unit) : outcome unit :=
  match o with Some implementation => test implementation | None => Ret tt end.
(** The six tests of the compression loops, guts.rs:415-435, 490-505, 556-562; s: 412-432, 487-502, 553-559, one
    after the other.  On other architectures than x86 only the first one is compiled. *)
Definition kernel_tests (t : target) : outcome unit :=
  do _ <- exercise_compress1_loop Portable;
  if negb (t_x86 t) then Ret tt else
  do _ <- if_some (sse41_if_supported t) exercise_compress1_loop;
  do _ <- if_some (avx2_if_supported t) exercise_compress1_loop;
  do _ <- if_some (sse41_if_supported t) exercise_narrow_loop;
  do _ <- if_some (avx2_if_supported t) exercise_narrow_loop;
  if_some (avx2_if_supported t) exercise_wide_loop.
(** test_against_reference, blake2bp.rs:519-569; s: blake2sp.rs:526-576. *)
Definition painted_against_reference : outcome unit :=
  do buf <- paint_test_input (e_dbg e) (zeros (21 * blockbytes v));
  test_against_reference v e imp buf.

(** inputs[i] for i in 0..LEN: many.rs:455-459, 497-501. *)
Definition chunk_inputs (len start_offset : nat) (input : list byte) : outcome (list (list byte)) :=
  mapM (fun i => slice input 0 (((i + start_offset) mod len) * blockbytes v)) (seq 0 len).
(** params: many.rs:461-470, 503-512. *)
Definition numbered_params (len : nat) : outcome (list Lib.params) :=
  mapM (fun i =>
    do p <- chain v (params_new v imp) [NodeOffset (N.of_nat i)];
    if Nat.eqb (i mod 2) 1 then chain v p [LastNode true; Key [x66; x6f; x6f]] else Ret p) (seq 0 len).
(** The two tests of many.rs:445-484 and 487-533 around their loop bodies, which are those of fuzz_many.rs (Suite.v). *)
Definition painted_many (x86 : bool) (body : list Lib.params -> list (list byte) -> outcome unit) : outcome unit :=
  let len := (2 * max_degree v x86 - 1)%nat in
  do input <- paint_test_input (e_dbg e) (zeros (len * blockbytes v));
  each (fun start_offset =>
    do inputs <- chunk_inputs len start_offset input;
    do params <- numbered_params len;
    body params inputs) (seq 0 len).
(** test_hash_many, many.rs:445-484. *)
Definition test_hash_many (x86 : bool) : outcome unit := painted_many x86 (fuzz_hash_many v e).
(** test_update_many, many.rs:487-533. *)
Definition test_update_many (x86 : bool) : outcome unit := painted_many x86 (fuzz_update_many v e).

(** ** Drawing *)
(** A random generator: fill_bytes, gen_range on usize and gen::<bool> (rand 0.7, not in /repo; used at
    fuzz_many.rs:21-27, 37). *)
Variables (R : Type) (fill_bytes : R -> nat -> list byte * R) (range : R -> nat -> nat -> nat * R) (gen : R -> bool * R).

(** gen_range(low, high), which panics unless low < high: fuzz_many.rs:21, 23, 43, 46; s: 120, 122, 142, 145. *)
Definition gen_range (r : R) (low high : nat) : outcome (nat * R) :=
  if (low <? high)%nat then Ret (range r low high) else Panic.
(** random_params_blake2b, fuzz_many.rs:15-29; random_params_blake2s, s: 114-128. *)
Definition random_params (r : R) : outcome (Lib.params * R) :=
  let params := params_new v imp in
  do '(n, r) <- gen_range r 1 (outbytes v + 1);
  do params <- chain v params [HashLength n];
  let '(keyed, r) := gen r in
  do '(params, r) <- (if keyed : bool then
      do '(len, r) <- gen_range r 1 (keybytes v + 1);
      let key_buf := repeat x01 (keybytes v) in
      do key <- slice key_buf 0 len;
      do params <- chain v params [Key key];
      Ret (params, r)
    else Ret (params, r));
  let '(last_node, r) := gen r in
  do params <- chain v params [LastNode last_node];
  Ret (params, r).

(** BLAKE2B_MAX_LEN and BLAKE2B_MAX_N, fuzz_many.rs:12-13; s: 111-112. *)
Definition fuzz_max_len : nat := 3 * blockbytes v.
Definition fuzz_max_n (x86 : bool) : nat := 2 * max_degree v x86.

(** rng.fill_bytes(input) for each of the [n] buffers, fuzz_many.rs:35-38; s: 134-137. *)
Fixpoint fill_bufs (n : nat) (r : R) : list (list byte) * R :=
  match n with
  | O => ([], r)
  | S n => let '(b, r) := fill_bytes r fuzz_max_len in
           let '(bs, r) := fill_bufs n r in (b :: bs, r)
  end.
(** The slices of random lengths, fuzz_many.rs:44-48; s: 143-147. *)
Fixpoint draw_inputs (cap : nat) (bufs : list (list byte)) (is : list nat) (inputs : list (list byte)) (r : R)
  : outcome (list (list byte) * R) :=
  match is with
  | [] => Ret (inputs, r)
  | i :: rest =>
      do '(len, r) <- gen_range r 0 (fuzz_max_len + 1);
      do buf <- at_index bufs i;
      do x <- slice buf 0 len;
      do inputs <- push cap inputs x;
      draw_inputs cap bufs rest inputs r
  end.
(** The random Params objects, fuzz_many.rs:51-54; s: 150-153. *)
Fixpoint draw_params (cap n : nat) (ps : list Lib.params) (r : R) : outcome (list Lib.params * R) :=
  match n with
  | O => Ret (ps, r)
  | S n => do '(p, r) <- random_params r;
           do ps <- push cap ps p;
           draw_params cap n ps r
  end.
(** The loop over the test cases, fuzz_many.rs:40-57; s: 139-156. *)
Fixpoint fuzz_cases (tests : nat) (x86 : bool) (bufs : list (list byte))
    (f : list Lib.params -> list (list byte) -> outcome unit) (r : R) : outcome unit :=
  match tests with
  | O => Ret tt
  | S tests =>
      do '(num_inputs, r) <- gen_range r 0 (fuzz_max_n x86 + 1);
      do '(inputs, r) <- draw_inputs (fuzz_max_n x86) bufs (seq 0 num_inputs) [] r;
      do '(params, r) <- draw_params (fuzz_max_n x86) num_inputs [] r;
      do _ <- f params inputs;
      fuzz_cases tests x86 bufs f r
  end.
(** with_random_inputs_blake2b, fuzz_many.rs:31-58; s: with_random_inputs_blake2s, 130-157, with the generator's seed
    state and NUM_TESTS (fuzz_many.rs:7-10) as arguments. *)
Definition with_random_inputs (tests : nat) (x86 : bool) (f : list Lib.params -> list (list byte) -> outcome unit) (r : R)
  : outcome unit :=
  let '(bufs, r) := fill_bufs (fuzz_max_n x86) r in
  fuzz_cases tests x86 bufs f r.
End Inputs.
