(** BLAKE2X as published (Aumasson, Neves, O'Hearn, Winnerlein, "BLAKE2X", sections
    2.1 and 2.2): output of any length from BLAKE2b / BLAKE2s.  Specification only.
    The parameter block's node offset is divided: 32 bits of node offset, then the
    XOF digest length, of 32 bits for BLAKE2Xb and 16 bits for BLAKE2Xs. *)
From Coq Require Import Arith NArith List Bool.
From Coq Require Import Init.Byte.
From Verif Require Import Spec.
Import ListNotations.
Open Scope N_scope.

Definition xof_length_bytes (f : flavour) : nat := match f with F2b => 4 | F2s => 2 end.

(** digest length, key length, fanout, maximal depth, leaf length, node offset, XOF digest length, node depth 0,
    inner hash length; the rest is zero. *)
Definition xof_block (f : flavour) (digest key fanout depth leaf offset xof inner : N) : list byte :=
  pad_to (8 * word_len f)
    (encode 1 digest ++ encode 1 key ++ encode 1 fanout ++ encode 1 depth ++ encode 4 leaf ++
     encode 4 offset ++ encode (xof_length_bytes f) xof ++ encode 1 0 ++ encode 1 inner).

(** BLAKE2 with a given parameter block. *)
Definition hash_with_block (f : flavour) (blk key msg : list byte) : list byte :=
  words_to_bytes f
    (hash_words f (xor_words (IV f) (map (word f blk) (seq 0 8))) (data f key msg) false).

(** The input is hashed to H0; output block i is the hash of H0 with node offset i.  The last block may be short. *)
Definition xof_root (f : flavour) (len : nat) (key msg : list byte) : list byte :=
  hash_with_block f
    (xof_block f (N.of_nat (max_out f)) (N.of_nat (length key)) 1 1 0 0 (N.of_nat len) 0) key msg.
Definition xof_piece (f : flavour) (len i : nat) (h0 : list byte) : list byte :=
  let n := Nat.min (max_out f) (len - i * max_out f) in
  firstn n
    (hash_with_block f
       (xof_block f (N.of_nat n) 0 0 0 (N.of_nat (max_out f)) (N.of_nat i) (N.of_nat len) (N.of_nat (max_out f))) [] h0).
Definition blake2x (f : flavour) (len : nat) (key msg : list byte) : list byte :=
  let h0 := xof_root f len key msg in
  flat_map (fun i => xof_piece f len i h0) (seq 0 ((len + max_out f - 1) / max_out f)).

(** The lengths that fit. *)
Definition xof_limit (f : flavour) : N := 2 ^ (8 * N.of_nat (xof_length_bytes f)).
