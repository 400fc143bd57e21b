(** C42: the arithmetic on lengths, offsets and indices never overflows.

    The model of the other files computes lengths and offsets in natural
    numbers.  Usize.v models the same code again on a machine whose [usize] goes
    up to [M]: an addition, subtraction or multiplication that leaves the range
    0 .. M panics in a debug build and wraps around in a release build, and
    nothing says beforehand that this does not happen.  [slices_fit M] says that
    the byte strings given to a call have at most [M] bytes; Rust guarantees
    half of that (a slice has at most isize::MAX bytes). *)
From Coq Require Import String Ascii.
From Coq Require Import Arith NArith List Bool Lia.
From Coq Require Import Init.Byte.
From Verif Require Import Base Guts KernelSpec Simd Impl Loops Sched Lib Many Par.
From Verif Require Import Spec ApiSpec Machine History.
From Verif Require Import Api ApiProof Runs Demo Usize UsizeProof PropKernel.
Import ListNotations.
Open Scope list_scope.
Open Scope N_scope.
Local Notation length := List.length.

(** Rust requires usize to have at least 16 bits. *)
Theorem C42_programs (M : N) (v : variant) (t : target) (e : env) (prog : list call) :
  65535 <= M -> honest t e -> Forall (well_typed (fl v)) prog -> Forall (slices_fit M) prog ->
  run_program_usz M v t e prog = behaviour (fl v) (e_dbg e) prog.
Proof.
  intros B H T F. rewrite (program_usz M B v t e prog H T F). apply program_refines; auto.
Qed.
Print Assumptions C42_programs.

(** A 32-bit and a 64-bit build show the same for every program that both can run. *)
Theorem C42_width (M M' : N) (v : variant) (t t' : target) (e e' : env) (prog : list call) :
  65535 <= M -> 65535 <= M' -> honest t e -> honest t' e' -> e_dbg e = e_dbg e' ->
  Forall (well_typed (fl v)) prog -> Forall (slices_fit M) prog -> Forall (slices_fit M') prog ->
  run_program_usz M v t e prog = run_program_usz M' v t' e' prog.
Proof. intros. rewrite !C42_programs by assumption. congruence. Qed.
Print Assumptions C42_width.

Lemma demo_fits : Forall (slices_fit 65535) demo_program.
Proof.
  unfold demo_program, slices_fit. repeat (apply Forall_cons; [cbn -[N.le demo_msg]; repeat constructor; cbn; discriminate|]).
  apply Forall_nil.
Qed.
Example C42_example v : 65535 <= 65535 /\ honest demo_target (demo_env true) /\
  Forall (well_typed (fl v)) demo_program /\ Forall (slices_fit 65535) demo_program.
Proof.
  split; [lia|]. split; [apply demo_honest|]. split; [exact (proj2 (proj2 (proj2 (proj2 (proj2 (proj2 (C11_example v)))))))|].
  exact demo_fits.
Qed.

(** The arithmetic of Usize.v does fail when it leaves the range. *)
Example C42_arithmetic_can_fail :
  uadd 999 true 900 100 = Panic /\ uadd 999 false 900 100 = Ret 0%nat /\ uadd 999 true 900 99 = Ret 999%nat /\
  usub 999 true 3 5 = Panic /\ usub 999 false 3 5 = Ret 998%nat /\ umul 999 true 40 25 = Panic.
Proof. repeat split; reflexivity. Qed.
