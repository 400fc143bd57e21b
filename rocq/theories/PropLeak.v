(** Property C44: what an observer of time and memory traffic learns.

    Vocabulary: [run_program_lk] (Leak.v) runs a program over the public API
    and gives, for every call, its leakage events (jumps, addresses, divisions,
    dispatches, kernels run, texts formatted) and its observation.  [same_shape]
    (LeakSpec.v) relates two calls that differ in secret bytes only.  The inside
    of the kernels is in PropAsm.v. *)
From Coq Require Import String Ascii.
From Coq Require Import Arith NArith List Bool Lia.
From Coq Require Import Init.Byte.
From Verif Require Import Base Guts KernelSpec Impl Lib Many Par.
From Verif Require Import Spec ApiSpec Machine Views LeakSpec.
From Verif Require Import Api Leak LeakErase LeakProof Demo.
Import ListNotations.
Open Scope list_scope.
Open Scope N_scope.
Local Notation length := List.length.

(** ** C44 *)

(** The programs with events are the programs of the crate: without the events
    they give the observations of the model, call by call. *)
Theorem C44_events_change_nothing (v : variant) (t : target) (e : env) (prog : list call) :
  map snd (run_program_lk v t e prog) = run_program v t e prog.
Proof. apply program_erase. Qed.
Print Assumptions C44_events_change_nothing.

(** Two programs that differ in the bytes of keys, messages and digests only
    have the same events, call by call, on any machine and in any build;
    except for the texts made of digests. *)
Theorem C44_secret_independent (v : variant) (t : target) (e : env) (prog prog' : list call) :
  Forall2 same_shape prog prog' ->
  forallb (fun c => negb (spells_digest c)) prog = true ->
  map fst (run_program_lk v t e prog) = map fst (run_program_lk v t e prog').
Proof. apply program_same. Qed.
Print Assumptions C44_secret_independent.

(** Two programs with different keys, messages and guesses. *)
Definition try_key (k : byte) (guess : byte) : list call :=
  [NewParams; Set_ 0 (Key [k; x01]); ToState 0; Update 0 (repeat guess 300); Finalize 0; EqSlice 0 (repeat guess 64);
   NewJob 0 [guess]; NewJob 0 [k; guess]; HashMany [Some 0%nat; Some 1%nat]; ToHash 1; EqHash 0 1;
   POneShot (repeat k 1000)].
Example C44_secret_independent_case :
  Forall2 same_shape (try_key x00 x07) (try_key x55 x12) /\
  forallb (fun c => negb (spells_digest c)) (try_key x00 x07) = true.
Proof. split; [|reflexivity]. repeat constructor. Qed.

(** The observer is not blind: a second block shows. *)
Example C44_length_shows (e : env) :
  map fst (run_program_lk V2b old_target e [OneShot (repeat x00 128)]) <>
  map fst (run_program_lk V2b old_target e [OneShot (repeat x00 129)]).
Proof. destruct e as [[] a b]; lazy; discriminate. Qed.

(** Comparing a digest with a guess takes the same steps for every guess of
    the same length, however much of it is right. *)
Theorem C44_comparison (h : hash) (b b' : list byte) :
  length b = length b' -> fst (hash_eq_slice_lk h b) = fst (hash_eq_slice_lk h b').
Proof. intros H. apply (hash_eq_slice_same h h b b'); [split; reflexivity|exact H]. Qed.
Print Assumptions C44_comparison.

(** Without the exception the claim is false: to_hex looks its digits up in a
    table, at addresses that depend on the digest. *)
Theorem C44_to_hex_refuted (v : variant) (t : target) (e : env) :
  exists prog prog', Forall2 same_shape prog prog' /\
    map fst (run_program_lk v t e prog) <> map fst (run_program_lk v t e prog').
Proof.
  exists [HashFrom (repeat x00 (outbytes v)); ToHex 0], [HashFrom (repeat x10 (outbytes v)); ToHex 0].
  split; [destruct v; repeat constructor|]. destruct v; lazy; discriminate.
Qed.
Print Assumptions C44_to_hex_refuted.
