(** What the benchmarks (Bench.v) are expected to do: C52. *)
From Coq Require Import Arith NArith List Bool Lia Permutation FinFun.
From Coq Require Import Init.Byte.
From Verif Require Import Base Guts KernelSpec Impl Loops LaneLoops Lib Many Par.
From Verif Require Import Spec ApiSpec Machine.
From Verif Require Import Api ApiProof Runs Laws Bench.
Import ListNotations.
Open Scope nat_scope.

(** It is [len] bytes of the memory [m], within the [size] bytes that were allocated. *)
Definition lies_in (m : memory) (size len : nat) (x : served) : Prop :=
  exists off, off + len <= size /\ sv_at x = N.add (m_at m) (N.of_nat off) /\ sv_bytes x = map (m_byte m) (seq off len).
(** Where inputs start, relative to a period. *)
Definition starts (period : N) (xs : list served) : list N := map (fun x => N.modulo (sv_at x) period) xs.
(** The bytes of some inputs together. *)
Definition total (xs : list served) : N := fold_right N.add 0%N (map (fun x => N.of_nat (length (sv_bytes x))) xs).
(** These hashes are the BLAKE2 hashes of these inputs. *)
Definition hashes_of (v : variant) (xs : list served) (hs : list hash) : Prop :=
  Forall2 (fun x h => as_bytes h = Ret (rfc7693 (fl v) (max_out (fl v)) [] (sv_bytes x))) xs hs.
Definition p_hashes_of (v : variant) (xs : list served) (hs : list hash) : Prop :=
  Forall2 (fun x h => as_bytes h = Ret (blake2p (fl v) (max_out (fl v)) [] (sv_bytes x))) xs hs.
