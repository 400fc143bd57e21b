(** Model of the examples in the documentation of the two crates, which rustdoc runs as tests: blake2b/src/lib.rs:24-42
    (again in blake2b/README.md:24-42), 110-116, 132-144 and 377-387; blake2b/src/blake2bp.rs:9-21, 45-51, 65-68 and
    205-216; blake2b/src/many.rs:21-43 (again at 190-212) and 359-385.  "s:" gives the lines in blake2s/src.  An example
    is a computation that returns unit or panics, as in Suite.v.  Its literals (byte strings, lengths, recorded texts) and
    the numbers of calls and of jobs are arguments here. *)
From Coq Require Import String.
From Coq Require Import Arith NArith List Bool.
From Coq Require Import Init.Byte.
From Verif Require Import Base Guts Impl Lib Many Par ApiSpec Api Xof Suite Units.
Import ListNotations.
Open Scope list_scope.
Open Scope N_scope.
Local Notation length := List.length.

Section Docs.
(** [imp] is what Implementation::detect() returns. *)
Variables (v : variant) (e : env) (imp : platform).

(** The first half of the example of the crate, which is also that of the one-shot function: lib.rs:27-30, 112-115;
    s: lib.rs:27-29, 102-104. *)
Definition doc_one_shot (input : list byte) (expected : string) : outcome unit :=
  do h <- blake2_default v e imp input;
  assert_hex v h expected.
(** The second half of the example of the crate: lib.rs:32-41; s: lib.rs:31-40. *)
Definition doc_builder (ss : list setting) (pieces : list (list byte)) (expected : string) : outcome unit :=
  do p <- chain v (params_new v imp) ss;
  do s <- update_all v e (to_state v p) pieces;
  do h <- finalize v e s;
  assert_hex v h expected.
(** The example of Params, which asserts nothing: lib.rs:134-143; s: lib.rs:123-132. *)
Definition doc_params (ss : list setting) (input : list byte) : outcome (hash * state) :=
  do p <- chain v (params_new v imp) ss;
  do h <- params_hash v e p input;
  Ret (h, to_state v p).
(** The example of State: lib.rs:380-386; s: lib.rs:372-378.  [before] is what the state has been given. *)
Fixpoint doc_state_loop (before : list byte) (s : state) (pieces : list (list byte)) : outcome unit :=
  match pieces with
  | [] => Ret tt
  | x :: r =>
      do s <- update v e s x;
      do a <- blake2_default v e imp (before ++ x);
      do b <- finalize v e s;
      do _ <- assert_same a b;
      doc_state_loop (before ++ x) s r
  end.
(** As [doc_state_loop], from a new State: lib.rs:380; s: lib.rs:372. *)
Definition doc_state (pieces : list (list byte)) : outcome unit :=
  doc_state_loop [] (to_state v (params_new v imp)) pieces.

(** The example of the module many and of update_many: many.rs:24-42, 193-211; s: many.rs:24-42, 193-211. *)
Definition doc_update_many (inputs : list (list byte)) : outcome unit :=
  let states := map (fun _ => to_state v (params_new v imp)) inputs in
  do '(states, _) <- update_many v e states (zipped states inputs);
  each (fun '(s, input) =>
    do a <- blake2_default v e imp input;
    do b <- finalize v e s;
    assert_same a b) (combine states inputs).
(** The example of hash_many: many.rs:362-384; s: many.rs:362-384. *)
Definition doc_hash_many (ss : list setting) (inputs : list (list byte)) : outcome unit :=
  do p <- chain v (params_new v imp) ss;
  do jobs <- mapM (hash_many_job_new v e p) inputs;
  do '(jobs, _) <- hash_many v e jobs (map (fun i => Some (i, tt)) (seq 0 (length jobs)));
  each (fun '(input, job) =>
    do expected <- params_hash v e p input;
    do h <- to_hash v e job;
    assert_same expected h) (combine inputs jobs).

(** The example of blake2bp::blake2bp: blake2bp.rs:47-50; s: blake2sp.rs:47-49. *)
Definition doc_p_one_shot (input : list byte) (expected : string) : outcome unit :=
  do h <- blake2p_default v e imp input;
  assert_hex v h expected.
(** The examples of the module blake2bp, of its Params (no pieces, and it stops at the state) and of its State (no
    settings): blake2bp.rs:12-20, 67, 208-215; s: blake2sp.rs:12-20, 66, 216-222. *)
Definition doc_p_builder (ss : list psetting) (pieces : list (list byte)) (expected : string) : outcome unit :=
  do p <- p_chain v (pparams_new v imp) ss;
  do s <- p_to_state v p;
  do s <- p_update_all v e s pieces;
  do h <- p_finalize v e s;
  assert_hex v h expected.
End Docs.
