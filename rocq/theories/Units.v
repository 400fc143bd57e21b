(** Model of the remaining unit tests of the two crates (blake2b/src/test.rs:51-62, 91-201; blake2s/src/test.rs:47-58,
    87-208): several finalizes of one State, the tests that set every parameter, and the tests of what the setters
    accept.  A test is a computation that returns unit or panics, as in Suite.v; a test marked #[should_panic] passes
    if it panics.  "s:" gives the lines in blake2s. *)
From Coq Require Import String.
From Coq Require Import Arith NArith List Bool.
From Coq Require Import Init.Byte.
From Verif Require Import Base Guts Impl Lib Par ApiSpec Api Xof Suite.
Import ListNotations.
Open Scope list_scope.
Open Scope N_scope.

(** #[should_panic] of the test harness (not in /repo; used at test.rs:145): the test passes if its body panics. *)
Definition should_panic {A} (body : outcome A) : outcome unit :=
  match body with
  | Panic => Ret tt
  | Ret _ => Panic
  | UB => UB
  | Diverge => Diverge
  end.
(** A test whose body returns a value that it drops (test.rs:175-177). *)
Definition should_pass {A} (body : outcome A) : outcome unit := do _ <- body; Ret tt.

Section Units.
(** [imp] is what Implementation::detect() returns. *)
Variables (v : variant) (e : env) (imp : platform).

(** assert_eq!(&state.finalize().to_hex(), out), [n] times: test.rs:54-56 and 58-60; s: 50-52 and 54-56. *)
Fixpoint finalize_times (n : nat) (s : state) (out : string) : outcome unit :=
  match n with
  | O => Ret tt
  | S n =>
      do h <- finalize v e s;
      do _ <- assert_hex v h out;
      finalize_times n s out
  end.
(** test_multiple_finalizes, test.rs:51-62; s: 47-58, with the numbers of finalizes (3 and 3), the input (b"abc") and
    the recorded texts as arguments. *)
Definition multiple_finalizes (n m : nat) (input : list byte) (empty_hash input_hash : string) : outcome unit :=
  let s := to_state v (params_new v imp) in
  do _ <- finalize_times n s empty_hash;
  do s <- update v e s input;
  finalize_times m s input_hash.

(** test_all_parameters, test.rs:92-119; s: 88-116, with the chain of setter calls, the input and the recorded text
    as arguments. *)
Definition all_parameters (ss : list setting) (input : list byte) (out : string) : outcome unit :=
  do p <- chain v (params_new v imp) ss;
  do s <- update v e (to_state v p) input;
  do h <- finalize v e s;
  do _ <- assert_hex v h out;
  do h <- params_hash v e p input;
  assert_hex v h out.
(** A chain of setter calls on blake2bp::Params::new(), test.rs:125-129; s: 121-125. *)
Fixpoint p_chain (p : pparams) (ss : list psetting) : outcome pparams :=
  match ss with
  | [] => Ret p
  | s :: r => do p <- run (call_psetter v s) p; p_chain p r
  end.
(** test_all_parameters_blake2bp, test.rs:123-142; s: test_all_parameters_blake2sp, 119-138. *)
Definition p_all_parameters (ss : list psetting) (input : list byte) (out : string) : outcome unit :=
  do p <- p_chain (pparams_new v imp) ss;
  do s <- p_to_state v p;
  do s <- p_update v e s input;
  do h <- p_finalize v e s;
  do _ <- assert_hex v h out;
  do h <- p_hash v e p input;
  assert_hex v h out.

(** Params::new().setter(x), the body of the tests of the setters: test.rs:147-183; s: 143-179. *)
Definition call_one (s : setting) : outcome Lib.params := run (call_setter v s) (params_new v imp).
(** blake2bp::Params::new().setter(x): test.rs:188-201; s: 184-197. *)
Definition p_call_one (s : psetting) : outcome pparams := run (call_psetter v s) (pparams_new v imp).
(** [0; n], e.g. test.rs:159. *)
Definition zeros (n : nat) : list byte := repeat x00 n.
(** The tests of the setters in their order: test.rs:145-201; s: 141-208 (the last two are in blake2s only, under
    names that say blake2sp). *)
Definition setter_tests : list (outcome unit) :=
  [should_panic (call_one (HashLength 0));
   should_panic (call_one (HashLength (outbytes v + 1)));
   should_panic (call_one (Key (zeros (keybytes v + 1))));
   should_panic (call_one (Salt (zeros (saltbytes v + 1))));
   should_panic (call_one (Personal (zeros (personalbytes v + 1))));
   should_pass (call_one (MaxDepth 0));
   should_panic (call_one (InnerHashLength (outbytes v + 1)));
   should_panic (p_call_one (PHashLength 0));
   should_panic (p_call_one (PHashLength (outbytes v + 1)));
   should_panic (p_call_one (PKey (zeros (keybytes v + 1))))] ++
  match v with
  | V2b => []
  | V2s => [should_pass (call_one (NodeOffset (N.shiftl 1 48 - 1))); should_panic (call_one (NodeOffset (N.shiftl 1 48)))]
  end.
End Units.
(** sanity_check_count_size, guts.rs:564-566; s: 561-563: size_of::<Count>() against twice size_of::<Word>(), in bits here. *)
Definition sanity_check_count_size (v : variant) : outcome unit := assert_ (N.eqb (cmod v) (wmod v * wmod v)).
