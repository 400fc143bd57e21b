(** The sequence of compression-function calls that BLAKE2 prescribes for a key
    and a message (RFC 7693 section 3.3), as data.  Specification only. *)
From Coq Require Import Arith NArith List Bool.
From Coq Require Import Init.Byte.
From Verif Require Import Spec.
Import ListNotations.
Open Scope N_scope.

(** The arguments of one call besides the chaining value: the block, the two
    counter words as one number, the two finalisation flags. *)
Record fcall := { fc_block : list byte; fc_count : N; fc_last_block : bool; fc_last_node : bool }.

Definition calls (f : flavour) (key msg : list byte) (last_node : bool) : list fcall :=
  let d := data f key msg in
  let n := num_blocks f d in
  let count (t : nat) := N.of_nat t mod 2 ^ (2 * bits f) in
  map (fun i => {| fc_block := block f d i; fc_count := count ((i + 1) * block_len f)%nat;
                   fc_last_block := false; fc_last_node := false |}) (seq 0 (n - 1))
  ++ [{| fc_block := block f d (n - 1); fc_count := count (length d);
         fc_last_block := true; fc_last_node := last_node |}].

(** Making the calls one after the other. *)
Definition make_calls (f : flavour) (h : list N) (cs : list fcall) : list N :=
  fold_left (fun h c => F f h (fc_block c) (fc_count c) (fc_last_block c) (fc_last_node c)) cs h.

(** The fields of two parameter blocks are the same; salts and
    personalisations are compared padded with zeros. *)
Definition same_fields (f : flavour) (salt_len : nat) (p q : params) : Prop :=
  digest_length p = digest_length q /\ key_length p = key_length q /\
  fanout p = fanout q /\ depth p = depth q /\ leaf_length p = leaf_length q /\
  node_offset p = node_offset q /\ node_depth p = node_depth q /\ inner_length p = inner_length q /\
  pad_to salt_len (salt p) = pad_to salt_len (salt q) /\
  pad_to salt_len (personal p) = pad_to salt_len (personal q).
