(** What a collision of the hash functions is made of: the uses of the
    compression function by one computation, and two different uses with the
    same result.  Specification only. *)
From Coq Require Import Arith NArith List Bool.
From Coq Require Import Init.Byte.
From Verif Require Import Spec ApiSpec Calls.
Import ListNotations.
Open Scope N_scope.

(** One use of the compression function: all that it is applied to. *)
Definition use : Type := list N * fcall.
Definition result (f : flavour) (x : use) : list N :=
  F f (fst x) (fc_block (snd x)) (fc_count (snd x)) (fc_last_block (snd x)) (fc_last_node (snd x)).

(** The uses of a chain of calls that starts with the words [h]. *)
Fixpoint uses_from (f : flavour) (h : list N) (cs : list fcall) : list use :=
  match cs with [] => [] | c :: r => (h, c) :: uses_from f (result f (h, c)) r end.

(** The uses of BLAKE2b / BLAKE2s. *)
Definition uses (f : flavour) (c : config) (msg : list byte) : list use :=
  uses_from f (initial_state f (c_params c)) (calls f (c_key c) msg (c_last_node c)).

(** The uses of BLAKE2bp / BLAKE2sp: those of the leaves, then those of the root. *)
Definition leaf_uses (f : flavour) (c : pconfig) (msg : list byte) (i : nat) : list use :=
  uses_from f (initial_state f (tree_node f (pc_hash_length c) (length (pc_key c)) (N.of_nat i) 0))
    (calls f (pc_key c) (leaf_message f i msg) (Nat.eqb i (leaves f - 1))).
Definition root_uses (f : flavour) (c : pconfig) (msg : list byte) : list use :=
  uses_from f (initial_state f (tree_node f (pc_hash_length c) (length (pc_key c)) 0 1))
    (calls f [] (flat_map (leaf_hash f (pc_hash_length c) (pc_key c) msg) (seq 0 (leaves f))) true).
Definition puses (f : flavour) (c : pconfig) (msg : list byte) : list use :=
  flat_map (leaf_uses f c msg) (seq 0 (leaves f)) ++ root_uses f c msg.

(** Two computations contain a collision of the compression function: different
    uses with the same result, or, when both are the last ones, with results
    that agree in the [n] bytes that are the digest. *)
Definition contain_collision (f : flavour) (n : nat) (us us' : list use) : Prop :=
  (exists x y, In x us /\ In y us' /\ x <> y /\ result f x = result f y) \/
  (exists pre pre' x y, us = pre ++ [x] /\ us' = pre' ++ [y] /\ x <> y /\
     firstn n (words_to_bytes f (result f x)) = firstn n (words_to_bytes f (result f y))).

(** The message and the key block, if any, are shorter than the range of the counter. *)
Definition countable (f : flavour) (msg : list byte) : Prop :=
  N.of_nat (length msg) + N.of_nat (block_len f) < 2 ^ (2 * bits f).

(** Two configurations are the same up to zero bytes at the end of salt and personalisation. *)
Definition same_config (f : flavour) (c c' : config) : Prop :=
  c_key c = c_key c' /\ c_last_node c = c_last_node c' /\
  same_fields f (salt_len f) (c_params c) (c_params c').
