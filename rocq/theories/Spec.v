(** BLAKE2 as published, written without reference to the model of the code:
    RFC 7693 (compression function, padding, key block), the BLAKE2 parameter
    block and last-node flag (BLAKE2 paper, section 2.8 and tree hashing), and
    BLAKE2bp / BLAKE2sp.  Executable; Tests.v runs it on published vectors. *)
From Coq Require Import Arith NArith List Bool.
From Coq Require Import Init.Byte Strings.Byte.
Import ListNotations.
Open Scope N_scope.

(** BLAKE2b or BLAKE2s (RFC 7693 section 2.1). *)
Inductive flavour := F2b | F2s.

Definition bits (f : flavour) : N := match f with F2b => 64 | F2s => 32 end.
Definition word_len (f : flavour) : nat := match f with F2b => 8 | F2s => 4 end.
Definition rounds (f : flavour) : nat := match f with F2b => 12 | F2s => 10 end.
Definition block_len (f : flavour) : nat := match f with F2b => 128 | F2s => 64 end.
Definition max_out (f : flavour) : nat := match f with F2b => 64 | F2s => 32 end.
Definition rot_consts (f : flavour) : N * N * N * N :=
  match f with F2b => (32, 24, 16, 63) | F2s => (16, 12, 8, 7) end.

(** RFC 7693 section 2.6: the first [bits] bits of the fractional parts of the
    square roots of the first eight primes: floor(sqrt(p) * 2^bits) mod 2^bits. *)
Definition primes : list N := [2; 3; 5; 7; 11; 13; 17; 19].
Definition IV (f : flavour) : list N :=
  map (fun p => N.sqrt (p * 2 ^ (2 * bits f)) mod 2 ^ bits f) primes.

(** RFC 7693 section 2.7. *)
Definition SIGMA : list (list nat) :=
  [[ 0;  1;  2;  3;  4;  5;  6;  7;  8;  9; 10; 11; 12; 13; 14; 15];
   [14; 10;  4;  8;  9; 15; 13;  6;  1; 12;  0;  2; 11;  7;  5;  3];
   [11;  8; 12;  0;  5;  2; 15; 13; 10; 14;  3;  6;  7;  1;  9;  4];
   [ 7;  9;  3;  1; 13; 12; 11; 14;  2;  6;  5; 10;  4;  0; 15;  8];
   [ 9;  0;  5;  7;  2;  4; 10; 15; 14;  1; 11; 12;  6;  8;  3; 13];
   [ 2; 12;  6; 10;  0; 11;  8;  3;  4; 13;  7;  5; 15; 14;  1;  9];
   [12;  5;  1; 15; 14; 13;  4; 10;  0;  7;  6;  3;  9;  2;  8; 11];
   [13; 11;  7; 14; 12;  1;  3;  9;  5;  0; 15;  4;  8;  6;  2; 10];
   [ 6; 15; 14;  9; 11;  3;  0;  8; 12;  2; 13;  7;  1;  4; 10;  5];
   [10;  2;  8;  4;  7;  6;  1;  5; 15; 11;  9; 14;  3; 12; 13;  0]]%nat.

(** Little-endian encodings. *)
Fixpoint decode (bs : list byte) : N :=
  match bs with [] => 0 | b :: r => Byte.to_N b + 256 * decode r end.

Definition byte_of (n : N) : byte :=
  match Byte.of_N (n mod 256) with Some b => b | None => x00 end.

Definition encode (len : nat) (x : N) : list byte :=
  map (fun i => byte_of (x / 256 ^ N.of_nat i)) (seq 0 len).

(** Rotation: the low [k] bits move to the top. *)
Definition rotr (w x k : N) : N := x / 2 ^ k + (x mod 2 ^ k) * 2 ^ (w - k).

(** RFC 7693 section 3.1: the mixing function G on four state words. *)
Definition G (f : flavour) (a b c d x y : N) : N * N * N * N :=
  let '(r1, r2, r3, r4) := rot_consts f in
  let w := bits f in
  let a := (a + b + x) mod 2 ^ w in
  let d := rotr w (N.lxor d a) r1 in
  let c := (c + d) mod 2 ^ w in
  let b := rotr w (N.lxor b c) r2 in
  let a := (a + b + y) mod 2 ^ w in
  let d := rotr w (N.lxor d a) r3 in
  let c := (c + d) mod 2 ^ w in
  let b := rotr w (N.lxor b c) r4 in
  (a, b, c, d).

(** One round: columns, then diagonals.  [m i] is the message word selected
    for position i by the schedule. *)
Definition mix (f : flavour) (m : nat -> N) (v : list N) : list N :=
  match v with
  | [v0; v1; v2; v3; v4; v5; v6; v7; v8; v9; v10; v11; v12; v13; v14; v15] =>
      let '(v0, v4,  v8, v12) := G f v0 v4  v8 v12 (m 0%nat) (m 1%nat) in
      let '(v1, v5,  v9, v13) := G f v1 v5  v9 v13 (m 2%nat) (m 3%nat) in
      let '(v2, v6, v10, v14) := G f v2 v6 v10 v14 (m 4%nat) (m 5%nat) in
      let '(v3, v7, v11, v15) := G f v3 v7 v11 v15 (m 6%nat) (m 7%nat) in
      let '(v0, v5, v10, v15) := G f v0 v5 v10 v15 (m 8%nat) (m 9%nat) in
      let '(v1, v6, v11, v12) := G f v1 v6 v11 v12 (m 10%nat) (m 11%nat) in
      let '(v2, v7,  v8, v13) := G f v2 v7  v8 v13 (m 12%nat) (m 13%nat) in
      let '(v3, v4,  v9, v14) := G f v3 v4  v9 v14 (m 14%nat) (m 15%nat) in
      [v0; v1; v2; v3; v4; v5; v6; v7; v8; v9; v10; v11; v12; v13; v14; v15]
  | _ => v
  end.

(** Word [i] of a block. *)
Definition word (f : flavour) (block : list byte) (i : nat) : N :=
  decode (firstn (word_len f) (skipn (i * word_len f) block)).

Definition schedule (f : flavour) (block : list byte) (r i : nat) : N :=
  word f block (nth i (nth (r mod 10) SIGMA []) 0%nat).

Definition xor_words (a b : list N) : list N :=
  map (fun p => N.lxor (fst p) (snd p)) (combine a b).

(** RFC 7693 section 3.2: the compression function F(h, m, t, f), with the
    second finalisation flag (last node) of the BLAKE2 tree mode. *)
Definition F (f : flavour) (h : list N) (block : list byte) (t : N)
    (last_block last_node : bool) : list N :=
  let w := bits f in
  let ones := 2 ^ w - 1 in
  let t0 := t mod 2 ^ w in
  let t1 := (t / 2 ^ w) mod 2 ^ w in
  let f0 := if last_block then ones else 0 in
  let f1 := if last_node then ones else 0 in
  let v := h ++ xor_words (IV f) [0; 0; 0; 0; t0; t1; f0; f1] in
  let v := fold_left (fun v r => mix f (schedule f block r) v) (seq 0 (rounds f)) v in
  xor_words (xor_words h (firstn 8 v)) (skipn 8 v).

(** The parameter block. *)
Record params := {
  digest_length : N; key_length : N; fanout : N; depth : N; leaf_length : N;
  node_offset : N; node_depth : N; inner_length : N;
  salt : list byte; personal : list byte }.

Definition pad_to (n : nat) (bs : list byte) : list byte :=
  bs ++ repeat x00 (n - length bs).

Definition param_block (f : flavour) (p : params) : list byte :=
  encode 1 (digest_length p) ++ encode 1 (key_length p) ++
  encode 1 (fanout p) ++ encode 1 (depth p) ++ encode 4 (leaf_length p) ++
  match f with
  | F2b => encode 8 (node_offset p) ++ encode 1 (node_depth p) ++
           encode 1 (inner_length p) ++ repeat x00 14 ++
           pad_to 16 (salt p) ++ pad_to 16 (personal p)
  | F2s => encode 6 (node_offset p) ++ encode 1 (node_depth p) ++
           encode 1 (inner_length p) ++
           pad_to 8 (salt p) ++ pad_to 8 (personal p)
  end.

Definition initial_state (f : flavour) (p : params) : list N :=
  xor_words (IV f) (map (word f (param_block f p)) (seq 0 8)).

(** The data hashed: the zero-padded key block, only if there is a key, then
    the message (RFC 7693 section 3.3). *)
Definition data (f : flavour) (key msg : list byte) : list byte :=
  match key with [] => msg | _ => pad_to (block_len f) key ++ msg end.

(** Number of blocks: at least one; the last one may be partial. *)
Definition num_blocks (f : flavour) (d : list byte) : nat :=
  Nat.max 1 ((length d + block_len f - 1) / block_len f).

Definition block (f : flavour) (d : list byte) (i : nat) : list byte :=
  pad_to (block_len f) (firstn (block_len f) (skipn (i * block_len f) d)).

(** All blocks but the last, then the last one with the finalisation flags. *)
Definition hash_words (f : flavour) (h0 : list N) (d : list byte) (last_node : bool) : list N :=
  let dd := num_blocks f d in
  let h := fold_left
             (fun h i => F f h (block f d i) (N.of_nat ((i + 1) * block_len f)) false false)
             (seq 0 (dd - 1)) h0 in
  F f h (block f d (dd - 1)) (N.of_nat (length d)) true last_node.

Definition words_to_bytes (f : flavour) (h : list N) : list byte :=
  flat_map (encode (word_len f)) h.

(** BLAKE2b / BLAKE2s with all parameters. *)
Definition blake2 (f : flavour) (p : params) (key msg : list byte) (last_node : bool) : list byte :=
  firstn (N.to_nat (digest_length p))
    (words_to_bytes f (hash_words f (initial_state f p) (data f key msg) last_node)).

(** Sequential mode (RFC 7693): fanout = depth = 1, everything else zero. *)
Definition sequential (nn kk : nat) : params :=
  {| digest_length := N.of_nat nn; key_length := N.of_nat kk; fanout := 1; depth := 1;
     leaf_length := 0; node_offset := 0; node_depth := 0; inner_length := 0;
     salt := []; personal := [] |}.

Definition rfc7693 (f : flavour) (nn : nat) (key msg : list byte) : list byte :=
  blake2 f (sequential nn (length key)) key msg false.

(** BLAKE2bp (4 leaves) and BLAKE2sp (8 leaves). *)
Definition leaves (f : flavour) : nat := match f with F2b => 4 | F2s => 8 end.

Definition tree_node (f : flavour) (nn kk : nat) (offset ndepth : N) : params :=
  {| digest_length := N.of_nat nn; key_length := N.of_nat kk;
     fanout := N.of_nat (leaves f); depth := 2; leaf_length := 0;
     node_offset := offset; node_depth := ndepth;
     inner_length := N.of_nat (max_out f); salt := []; personal := [] |}.

(** Leaf [i] receives the bytes whose block number is i modulo the number of leaves. *)
Definition leaf_message (f : flavour) (i : nat) (msg : list byte) : list byte :=
  map snd (filter (fun qb => Nat.eqb ((fst qb / block_len f) mod leaves f) i)
             (combine (seq 0 (length msg)) msg)).

(** Every leaf hashes the key block (if any) and its share of the message, and
    contributes its full-length chaining value; the last leaf and the root are
    last nodes; the root does not hash the key. *)
Definition leaf_hash (f : flavour) (nn : nat) (key msg : list byte) (i : nat) : list byte :=
  words_to_bytes f
    (hash_words f (initial_state f (tree_node f nn (length key) (N.of_nat i) 0))
       (data f key (leaf_message f i msg)) (Nat.eqb i (leaves f - 1))).

Definition blake2p (f : flavour) (nn : nat) (key msg : list byte) : list byte :=
  firstn nn
    (words_to_bytes f
       (hash_words f (initial_state f (tree_node f nn (length key) 0 1))
          (flat_map (leaf_hash f nn key msg) (seq 0 (leaves f))) true)).
