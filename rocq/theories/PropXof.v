(** C48: BLAKE2X over the public API.  [xof v e imp len key m] (Xof.v) is the loop
    of the project's test suite: Params with a node offset that carries the XOF
    length, one hash for the input and one for each piece of output.  XofSpec.v is
    BLAKE2X as published. *)
From Coq Require Import Arith NArith List Bool Lia.
From Coq Require Import Init.Byte.
From Verif Require Import Base KernelSpec Impl Loops Lib.
From Verif Require Import Spec ApiSpec XofSpec Xof XofProof Demo.
Import ListNotations.
Open Scope N_scope.

(** For every key, input and output length that fits the XOF length field it returns BLAKE2X's output. *)
Theorem C48_blake2x (v : variant) (e : env) (imp : platform) (len : nat) (key m : list byte) :
  supported e imp -> (length key <= max_out (fl v))%nat -> N.of_nat len < xof_limit (fl v) ->
  xof v e imp len key m = Ret (blake2x (fl v) len key m) /\ length (blake2x (fl v) len key m) = len.
Proof.
  intros S K L. split; [exact (xof_is_blake2x v e imp len key m S K L)|]. apply blake2x_length. now apply limit_32 with v.
Qed.
Print Assumptions C48_blake2x.
(** BLAKE2Xs has 16 bits for the length; longer outputs are refused, not silently given for another length. *)
Theorem C48_too_long (e : env) (imp : platform) (len : nat) (key m : list byte) :
  (length key <= 32)%nat -> 2 ^ 16 <= N.of_nat len < 2 ^ 32 -> xof V2s e imp len key m = Panic.
Proof. exact (xof_too_long e imp len key m). Qed.
Print Assumptions C48_too_long.
Example C48_example : supported (demo_env true) SSE41 /\ (length (demo_msg 30) <= max_out F2s)%nat /\ N.of_nat 1000 < xof_limit F2s /\
  2 ^ 16 <= N.of_nat (N.to_nat 65536) < 2 ^ 32 /\
  xof V2s (demo_env true) SSE41 1000 (demo_msg 30) (demo_msg 77) = Ret (blake2x F2s 1000 (demo_msg 30) (demo_msg 77)).
Proof.
  split; [apply demo_supported|]. split; [cbn; lia|]. split; [reflexivity|]. split; [rewrite N2Nat.id; split; [discriminate|reflexivity]|].
  apply (C48_blake2x V2s); [apply demo_supported|cbn; lia|reflexivity].
Qed.
