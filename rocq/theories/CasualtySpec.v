(** What C58 says about objects that an interrupted batch has left half way, in
    terms of the published function only (Spec.v, ApiSpec.v).  Nothing here
    mentions the model. *)
From Coq Require Import Arith NArith List Bool.
From Coq Require Import Init.Byte.
From Verif Require Import Spec ApiSpec.
Import ListNotations.
Open Scope N_scope.

(** The chaining value after the first [k] blocks of the data [d], none of them the last. *)
Definition absorb (f : flavour) (h : list N) (d : list byte) (k : nat) : list N :=
  fold_left (fun h i => F f h (block f d i) (N.of_nat ((i + 1) * block_len f)) false false) (seq 0 k) h.

(** How many blocks come before the message: that of the key, if there is one. *)
Definition key_blocks (c : config) : nat := match c_key c with [] => 0 | _ => 1 end.

(** The chaining value of a configuration after the first [k] blocks of a
    message, the key's block first. *)
Definition midstate (f : flavour) (c : config) (msg : list byte) (k : nat) : list N :=
  absorb f (initial_state f (c_params c)) (data f (c_key c) msg) (key_blocks c + k).

(** A digest in which the data blocks number [k] (the key's included) up to the
    last but one have been left out. *)
Definition cut_digest (f : flavour) (c : config) (msg : list byte) (k : nat) : list byte :=
  let d := data f (c_key c) msg in
  firstn (N.to_nat (digest_length (c_params c)))
    (words_to_bytes f
       (F f (absorb f (initial_state f (c_params c)) d k) (block f d (num_blocks f d - 1))
          (N.of_nat (length d)) true (c_last_node c))).

(** A digest from which the data blocks number [k] to [b - 1] have been left out. *)
Definition spliced_digest (f : flavour) (c : config) (msg : list byte) (k b : nat) : list byte :=
  let d := data f (c_key c) msg in
  let last := (num_blocks f d - 1)%nat in
  let h := fold_left (fun h i => F f h (block f d i) (N.of_nat ((i + 1) * block_len f)) false false)
             (seq b (last - b)) (absorb f (initial_state f (c_params c)) d k) in
  firstn (N.to_nat (digest_length (c_params c)))
    (words_to_bytes f (F f h (block f d last) (N.of_nat (length d)) true (c_last_node c))).

(** ** Going on from a chaining value, without the key *)
(** The words that some bytes spell. *)
Definition words_of (f : flavour) (bs : list byte) : list N := map (word f bs) (seq 0 8).

(** The digest of data of which [n] bytes (whole blocks) have led to the
    chaining value spelled by [leak], and of which [z] is the rest.  There is
    no key and no parameter among the arguments. *)
Definition go_on (f : flavour) (leak : list byte) (n : nat) (z : list byte) (last_node : bool) : list byte :=
  let last := (num_blocks f z - 1)%nat in
  let h := fold_left
             (fun h i => F f h (block f z i) (N.of_nat (n + (i + 1) * block_len f)) false false)
             (seq 0 last) (words_of f leak) in
  words_to_bytes f (F f h (block f z last) (N.of_nat (n + length z)) true last_node).
