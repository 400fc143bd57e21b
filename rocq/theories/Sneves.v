(** Model of the vendored C library benches/blake2-avx2-sneves: the three functions blake2b,
    blake2bp and blake2sp that benches/bench_multiprocess calls, from the Rust wrappers of src/lib.rs
    down to the intrinsics.
    Paths below are relative to benches/blake2-avx2-sneves/.

    - A C object is the list of its bytes; a pointer is an object and an offset.  Reading, writing
      or moving a pointer outside of its object is [UB].
    - The loads of one message block together cover exactly that block, so they are checked once,
      by one read of the whole block ([fetch]).
    - Uninitialised memory (the arrays [buffer]) is a parameter: any content.  The registers v[8..15] of
      the wide kernels are assigned before they are read; they are not part of the initial state.
    - do-while loops run on fuel; running out is [Diverge].
    - size_t is 64 bits (nat here: no object is that large); uint64_t and uint32_t counters are N
      with explicit wrap-around.
    - The return value (always 0, ignored by the wrappers) is left out, and so are the parts under
      #if 0 and #ifdef SUPERCOP, the self tests and the commented-out blake2s.

    No proofs here. *)
From Coq Require Import Arith NArith List Bool.
From Verif Require Import Base Intrinsics SnevesIntrinsics SnevesLoad Simd Impl.
Import ListNotations.
Open Scope N_scope.

(** The preprocessor switch (blake2-avx2/blake2b.c:41-46, blake2bp.c:56-61, blake2sp.c:57-62).
    build.rs:14 defines PERMUTE_WITH_SHUFFLES; the other two strategies are the ones its comment
    names (build.rs:10-13). *)
Inductive permute := Shuffles | Gather | Neither.

(** ** Memory *)

(** A C pointer: uint8_t * and const uint8_t * of blake2-avx2/blake2b.c:164, blake2bp.c:434, 454, blake2sp.c:500, 524. *)
Record ptr := mkptr { p_obj : list byte; p_off : nat }.
(** p + n, p += n: at most one past the end (blake2-avx2/blake2b.c:173, 180, 183-184, blake2bp.c:185, 479, 498). *)
Definition padd (p : ptr) (n : nat) : outcome ptr :=
  if (p_off p + n <=? length (p_obj p))%nat then Ret (mkptr (p_obj p) (p_off p + n)) else UB.
(** A load of [n] bytes (the LOADU128, LOADU, LOADU64, LOADU32 and gathers of one message block, and
    the source of memcpy): blake2-avx2/blake2b.c:118-145, 172, blake2bp.c:133-160, 335, 383, 463, blake2sp.c:132-155, 362, 438, 527. *)
Definition fetch (p : ptr) (n : nat) : outcome (list byte) := raw_read (p_obj p) (p_off p) n.
(** A store of the bytes [src] at offset [off] (STOREU, STOREU128, memcpy, memset): blake2-avx2/blake2b.c:172-173,
    183-184, blake2bp.c:188-189, blake2sp.c:215-216. *)
Definition poke (dst : list byte) (off : nat) (src : list byte) : outcome (list byte) :=
  if (off + length src <=? length dst)%nat
  then Ret (firstn off dst ++ src ++ skipn (off + length src) dst) else UB.
(** memcpy(dst, p, n): blake2-avx2/blake2b.c:172, blake2bp.c:463, 490, blake2sp.c:527, 572.  (With n = 0 the C standard
    wants valid pointers even so; the wrappers pass the dangling pointer of an empty slice.  That is
    not distinguished here.) *)
Definition memcpy (dst : list byte) (p : ptr) (n : nat) : outcome (list byte) :=
  do bs <- fetch p n; poke dst 0 bs.
(** memset(dst + off, 0, n): blake2-avx2/blake2b.c:173, blake2bp.c:464, 491, blake2sp.c:528, 573. *)
Definition memset0 (dst : list byte) (off n : nat) : outcome (list byte) := poke dst off (repeat x00 n).
(** The memory image of registers (STOREU of blake2-avx2/blake2b.c:183-184; (void * )s, blake2bp.c:500; lanes.s, blake2sp.c:584). *)
Definition image (n : nat) (rs : list reg) : list byte := flat_map (fun r => bytes r 0 n) rs.

(** memcpy and memset into the buffer, shared text of blake2-avx2/blake2b.c:171-176, blake2bp.c:462-467, 489-494 and
    blake2sp.c:526-531, 571-576: a short remainder ([inlen < size]) is copied and zero padded; otherwise
    the input itself is used.  The result: the buffer, block_size and the pointer to compress. *)
Definition pad_block (buffer : list byte) (inp : ptr) (inlen size : nat)
    : outcome (list byte * nat * ptr) :=
  if (inlen <? size)%nat then
    do buffer <- memcpy buffer inp inlen;
    do buffer <- memset0 buffer inlen (size - inlen);
    Ret (buffer, inlen, mkptr buffer 0)
  else Ret (buffer, size, inp).

(** Row registers a, b, c, d (blake2-avx2/blake2b.c:148-162). *)
Definition rows : Type := reg * reg * reg * reg.

(** (uint64_t)-1: blake2-avx2/blake2b.c:169, blake2bp.c:186, 410, 497. *)
Definition minus1_64 : N := 2 ^ 64 - 1.
(** -1 as 32 bits: blake2-avx2/blake2sp.c:211, 476, 534, 580. *)
Definition minus1_32 : N := 2 ^ 32 - 1.

(** ** BLAKE2b, one message at a time (blake2b.c and the same text in blake2bp.c) *)

(** blake2b_IV: blake2-avx2/blake2b.c:10-15, blake2bp.c:10-15. *)
Definition blake2b_IV : list N :=
  [0x6A09E667F3BCC908; 0xBB67AE8584CAA73B; 0x3C6EF372FE94F82B; 0xA54FF53A5F1D36F1;
   0x510E527FADE682D1; 0x9B05688C2B3E6C1F; 0x1F83D9ABFB41BD6B; 0x5BE0CD19137E2179].
(** LOAD(&blake2b_IV[0]): blake2-avx2/blake2b.c:152, 167, blake2bp.c:167, 182. *)
Definition b_iv_lo : reg := load_words 8 (firstn 4 blake2b_IV).
(** LOAD(&blake2b_IV[4]): blake2-avx2/blake2b.c:154, 168, blake2bp.c:169, 183. *)
Definition b_iv_hi : reg := load_words 8 (skipn 4 blake2b_IV).

(** ROTATE16: blake2-avx2/blake2b-common.h:30-31. *)
Definition b_ROTATE16 : reg :=
  mm256_setr_epi8 [2; 3; 4; 5; 6; 7; 0; 1; 10; 11; 12; 13; 14; 15; 8; 9;
                   2; 3; 4; 5; 6; 7; 0; 1; 10; 11; 12; 13; 14; 15; 8; 9].
(** ROTATE24: blake2-avx2/blake2b-common.h:33-34. *)
Definition b_ROTATE24 : reg :=
  mm256_setr_epi8 [3; 4; 5; 6; 7; 0; 1; 2; 11; 12; 13; 14; 15; 8; 9; 10;
                   3; 4; 5; 6; 7; 0; 1; 2; 11; 12; 13; 14; 15; 8; 9; 10].
(** ADD: blake2-avx2/blake2b-common.h:36. *)
Definition b_ADD := mm256_add_epi64.
(** XOR: blake2-avx2/blake2b-common.h:39, blake2s-common.h:59. *)
Definition XOR := mm256_xor_si256.
(** AND: blake2-avx2/blake2b-common.h:40, blake2s-common.h:60. *)
Definition AND := mm256_and_si256.
(** ROT32: blake2-avx2/blake2b-common.h:43. *)
Definition b_ROT32 (x : reg) : reg := mm256_shuffle_epi32 x (MM_SHUFFLE 2 3 0 1).
(** ROT24: blake2-avx2/blake2b-common.h:44. *)
Definition b_ROT24 (x : reg) : reg := mm256_shuffle_epi8 x b_ROTATE24.
(** ROT16: blake2-avx2/blake2b-common.h:45. *)
Definition b_ROT16 (x : reg) : reg := mm256_shuffle_epi8 x b_ROTATE16.
(** ROT63: blake2-avx2/blake2b-common.h:46. *)
Definition b_ROT63 (x : reg) : reg := mm256_or_si256 (mm256_srli_epi64 x 63) (b_ADD x x).

(** BLAKE2B_G1_V1: blake2-avx2/blake2b.c:17-21, blake2bp.c:32-36. *)
Definition b_g1 (s : rows) (m : reg) : rows :=
  let '(a, b, c, d) := s in
  let a := b_ADD a m in
  let a := b_ADD a b in let d := XOR d a in let d := b_ROT32 d in
  let c := b_ADD c d in let b := XOR b c in let b := b_ROT24 b in
  (a, b, c, d).
(** BLAKE2B_G2_V1: blake2-avx2/blake2b.c:23-27, blake2bp.c:38-42. *)
Definition b_g2 (s : rows) (m : reg) : rows :=
  let '(a, b, c, d) := s in
  let a := b_ADD a m in
  let a := b_ADD a b in let d := XOR d a in let d := b_ROT16 d in
  let c := b_ADD c d in let b := XOR b c in let b := b_ROT63 b in
  (a, b, c, d).
(** BLAKE2B_DIAG_V1: blake2-avx2/blake2b.c:29-33, blake2bp.c:44-48. *)
Definition b_diag (s : rows) : rows :=
  let '(a, b, c, d) := s in
  let a := mm256_permute4x64_epi64 a (MM_SHUFFLE 2 1 0 3) in
  let d := mm256_permute4x64_epi64 d (MM_SHUFFLE 1 0 3 2) in
  let c := mm256_permute4x64_epi64 c (MM_SHUFFLE 0 3 2 1) in
  (a, b, c, d).
(** BLAKE2B_UNDIAG_V1: blake2-avx2/blake2b.c:35-39, blake2bp.c:50-54. *)
Definition b_undiag (s : rows) : rows :=
  let '(a, b, c, d) := s in
  let a := mm256_permute4x64_epi64 a (MM_SHUFFLE 0 3 2 1) in
  let d := mm256_permute4x64_epi64 d (MM_SHUFFLE 1 0 3 2) in
  let c := mm256_permute4x64_epi64 c (MM_SHUFFLE 2 1 0 3) in
  (a, b, c, d).

(** indices: blake2-avx2/blake2b.c:49-62, blake2bp.c:64-77. *)
Definition b_indices : list (list N) :=
  [[0; 2; 4; 6; 1; 3; 5; 7; 14; 8; 10; 12; 15; 9; 11; 13];
   [14; 4; 9; 13; 10; 8; 15; 6; 5; 1; 0; 11; 3; 12; 2; 7];
   [11; 12; 5; 15; 8; 0; 2; 13; 9; 10; 3; 7; 4; 14; 6; 1];
   [7; 3; 13; 11; 9; 1; 12; 14; 15; 2; 5; 4; 8; 6; 10; 0];
   [9; 5; 2; 10; 0; 7; 4; 15; 3; 14; 11; 6; 13; 1; 12; 8];
   [2; 6; 0; 8; 12; 10; 11; 3; 1; 4; 7; 15; 9; 13; 5; 14];
   [12; 1; 14; 4; 5; 15; 13; 10; 8; 0; 6; 9; 11; 7; 3; 2];
   [13; 7; 12; 3; 11; 14; 1; 9; 2; 5; 15; 8; 10; 0; 4; 6];
   [6; 14; 11; 0; 15; 9; 3; 8; 10; 12; 13; 1; 5; 2; 7; 4];
   [10; 8; 7; 1; 2; 4; 6; 5; 13; 15; 9; 3; 0; 11; 14; 12];
   [0; 2; 4; 6; 1; 3; 5; 7; 14; 8; 10; 12; 15; 9; 11; 13];
   [14; 4; 9; 13; 10; 8; 15; 6; 5; 1; 0; 11; 3; 12; 2; 7]].
(** LOAD128(&indices[r][k]): blake2-avx2/blake2b.c:66-73, blake2bp.c:81-88, blake2sp.c:82-89. *)
Definition index_reg (indices : list (list N)) (r k : nat) : reg :=
  load_words 4 (firstn 4 (skipn k (nth r indices []))).

(** DECLARE_MESSAGE_WORDS with PERMUTE_WITH_SHUFFLES: blake2-avx2/blake2b.c:118-127, blake2bp.c:133-142. *)
Definition b_message_regs (m : list byte) : regs8 :=
  (mm256_broadcastsi128_si256 (loadu_bytes 16 m 0), mm256_broadcastsi128_si256 (loadu_bytes 16 m 16),
   mm256_broadcastsi128_si256 (loadu_bytes 16 m 32), mm256_broadcastsi128_si256 (loadu_bytes 16 m 48),
   mm256_broadcastsi128_si256 (loadu_bytes 16 m 64), mm256_broadcastsi128_si256 (loadu_bytes 16 m 80),
   mm256_broadcastsi128_si256 (loadu_bytes 16 m 96), mm256_broadcastsi128_si256 (loadu_bytes 16 m 112)).
(** LOADU64: blake2-avx2/blake2b-common.h:24-28. *)
Definition LOADU64 (m : list byte) (off : nat) : N := from_le (bytes m off 8).
(** DECLARE_MESSAGE_WORDS, third variant: blake2-avx2/blake2b.c:129-145, blake2bp.c:144-160. *)
Definition b_message_words (m : list byte) : words16 :=
  (LOADU64 m 0, LOADU64 m 8, LOADU64 m 16, LOADU64 m 24, LOADU64 m 32, LOADU64 m 40, LOADU64 m 48,
   LOADU64 m 56, LOADU64 m 64, LOADU64 m 72, LOADU64 m 80, LOADU64 m 88, LOADU64 m 96, LOADU64 m 104,
   LOADU64 m 112, LOADU64 m 120).

(** The four vectors b0 of round [r]: blake2-avx2/blake2b.c:64-76, 85-97, blake2bp.c:79-91, 100-112. *)
Definition b_round_msgs (p : permute) (r : nat) (m : list byte) : reg * reg * reg * reg :=
  match p with
  | Shuffles => b_shuffles r (b_message_regs m)
  | Neither => b_simple r (b_message_words m)
  | Gather => (mm256_i32gather_epi64 m (index_reg b_indices r 0) 8,
               mm256_i32gather_epi64 m (index_reg b_indices r 4) 8,
               mm256_i32gather_epi64 m (index_reg b_indices r 8) 8,
               mm256_i32gather_epi64 m (index_reg b_indices r 12) 8)
  end.

(** BLAKE2B_ROUND_V1: blake2-avx2/blake2b.c:64-76, 85-97, blake2bp.c:79-91, 100-112. *)
Definition b_round_v1 (p : permute) (m : list byte) (s : rows) (r : nat) : rows :=
  let '(x1, x2, x3, x4) := b_round_msgs p r m in
  let s := b_g1 s x1 in
  let s := b_g2 s x2 in
  let s := b_diag s in
  let s := b_g1 s x3 in
  let s := b_g2 s x4 in
  b_undiag s.

(** BLAKE2B_COMPRESS_V1 (with BLAKE2B_ROUNDS_V1): blake2-avx2/blake2b.c:78-83, 99-112, 148-162, blake2bp.c:93-98,
    114-127, 163-177.  [m] is the message block. *)
Definition b_compress_v1 (p : permute) (a b : reg) (m : list byte) (t0 t1 f0 f1 : N) : reg * reg :=
  let iv0 := a in
  let iv1 := b in
  let c := b_iv_lo in
  let d := XOR b_iv_hi (mm256_set_epi64x f1 f0 t1 t0) in
  let '(a, b, c, d) := fold_left (b_round_v1 p m) (seq 0 12) (a, b, c, d) in
  let a := XOR a c in
  let b := XOR b d in
  let a := XOR a iv0 in
  let b := XOR b iv1 in
  (a, b).

(** The do-while loop of blake2b, blake2-avx2/blake2b.c:169-181. *)
Fixpoint blake2b_loop (p : permute) (fuel : nat) (buffer : list byte) (a b : reg) (counter : N)
    (inp : ptr) (inlen : nat) : outcome (reg * reg) :=
  match fuel with
  | O => Diverge
  | S fuel =>
      let flag := if (inlen <=? 128)%nat then minus1_64 else 0 in
      do '(buffer, block_size, inp) <- pad_block buffer inp inlen 128;
      let counter := (counter + N.of_nat block_size) mod 2 ^ 64 in
      do m <- fetch inp 128;
      let '(a, b) := b_compress_v1 p a b m counter 0 flag 0 in
      let inlen := (inlen - block_size)%nat in
      do inp <- padd inp block_size;
      if (0 <? inlen)%nat then blake2b_loop p fuel buffer a b counter inp inlen
      else Ret (a, b)
  end.

(** STOREU(out + 0, a); STOREU(out + 32, b): blake2-avx2/blake2b.c:183-184, blake2bp.c:188-189; with n = 16,
    STOREU128(out + 0, a); STOREU128(out + 16, b): blake2sp.c:215-216. *)
Definition store2 (n : nat) (out : list byte) (a b : reg) : outcome (list byte) :=
  do out <- poke out 0 (bytes a 0 n);
  poke out n (bytes b 0 n).

(** blake2b: blake2-avx2/blake2b.c:164-186.  [buffer] is the uninitialised array (166); the result is *out. *)
Definition c_blake2b (p : permute) (buffer out : list byte) (inp : ptr) (inlen : nat)
    : outcome (list byte) :=
  let parameter_block := mm256_set_epi64x 0 0 0 0x01010040 in
  let a := XOR b_iv_lo parameter_block in
  let b := b_iv_hi in
  do '(a, b) <- blake2b_loop p (S inlen) buffer a b 0 inp inlen;
  store2 32 out a b.

(** ** BLAKE2bp *)

(** blake2b_root: blake2-avx2/blake2bp.c:180-191. *)
Definition blake2b_root (p : permute) (out : list byte) (inp : ptr) : outcome (list byte) :=
  let parameter_block := mm256_set_epi64x 0 0x00004001 0 0x02040040 in
  let a := XOR b_iv_lo parameter_block in
  let b := b_iv_hi in
  do q <- padd inp 0; do m <- fetch q 128;
  let '(a, b) := b_compress_v1 p a b m 128 0 0 0 in
  do q <- padd inp 128; do m <- fetch q 128;
  let '(a, b) := b_compress_v1 p a b m 256 0 minus1_64 minus1_64 in
  store2 32 out a b.

(** blake2b_sigma, byte offsets into w: blake2-avx2/blake2bp.c:17-30. *)
Definition blake2b_sigma : list (list nat) :=
  [[0; 32; 64; 96; 128; 160; 192; 224; 256; 288; 320; 352; 384; 416; 448; 480];
   [448; 320; 128; 256; 288; 480; 416; 192; 32; 384; 0; 64; 352; 224; 160; 96];
   [352; 256; 384; 0; 160; 64; 480; 416; 320; 448; 96; 192; 224; 32; 288; 128];
   [224; 288; 96; 32; 416; 384; 352; 448; 64; 192; 160; 320; 128; 0; 480; 256];
   [288; 0; 160; 224; 64; 128; 320; 480; 448; 32; 352; 384; 192; 256; 96; 416];
   [64; 384; 192; 320; 0; 352; 256; 96; 128; 416; 224; 160; 480; 448; 32; 288];
   [384; 160; 32; 480; 448; 416; 128; 320; 0; 224; 192; 96; 288; 64; 256; 352];
   [416; 352; 224; 448; 384; 32; 96; 288; 160; 0; 480; 128; 256; 192; 64; 320];
   [192; 480; 448; 288; 352; 96; 0; 256; 384; 64; 416; 224; 32; 128; 320; 160];
   [320; 64; 256; 128; 224; 192; 32; 160; 480; 352; 288; 448; 96; 384; 416; 0];
   [0; 32; 64; 96; 128; 160; 192; 224; 256; 288; 320; 352; 384; 416; 448; 480];
   [448; 320; 128; 256; 288; 480; 416; 192; 32; 384; 0; 64; 352; 224; 160; 96]]%nat.

(** The statements of BLAKE2B_ROUND_V4 in order, in the notation of Simd.v ([AddM i k] is
    "v[i] = ADD(v[i], LOAD((uint8_t const * )(m) + blake2b_sigma[r][k]))", [Rot1] .. [Rot4] are
    ROT32, ROT24, ROT16, ROT63): blake2-avx2/blake2bp.c:214-328. *)
Definition b_round_v4_program : list stmt :=
  [AddM 0 0; AddM 1 2; AddM 2 4; AddM 3 6;
   Add 0 4; Add 1 5; Add 2 6; Add 3 7;
   Xor 12 0; Xor 13 1; Xor 14 2; Xor 15 3;
   Rot1 12; Rot1 13; Rot1 14; Rot1 15;
   Add 8 12; Add 9 13; Add 10 14; Add 11 15;
   Xor 4 8; Xor 5 9; Xor 6 10; Xor 7 11;
   Rot2 4; Rot2 5; Rot2 6; Rot2 7;
   AddM 0 1; AddM 1 3; AddM 2 5; AddM 3 7;
   Add 0 4; Add 1 5; Add 2 6; Add 3 7;
   Xor 12 0; Xor 13 1; Xor 14 2; Xor 15 3;
   Rot3 12; Rot3 13; Rot3 14; Rot3 15;
   Add 8 12; Add 9 13; Add 10 14; Add 11 15;
   Xor 4 8; Xor 5 9; Xor 6 10; Xor 7 11;
   Rot4 4; Rot4 5; Rot4 6; Rot4 7;
   AddM 0 8; AddM 1 10; AddM 2 12; AddM 3 14;
   Add 0 5; Add 1 6; Add 2 7; Add 3 4;
   Xor 15 0; Xor 12 1; Xor 13 2; Xor 14 3;
   Rot1 15; Rot1 12; Rot1 13; Rot1 14;
   Add 10 15; Add 11 12; Add 8 13; Add 9 14;
   Xor 5 10; Xor 6 11; Xor 7 8; Xor 4 9;
   Rot2 5; Rot2 6; Rot2 7; Rot2 4;
   AddM 0 9; AddM 1 11; AddM 2 13; AddM 3 15;
   Add 0 5; Add 1 6; Add 2 7; Add 3 4;
   Xor 15 0; Xor 12 1; Xor 13 2; Xor 14 3;
   Rot3 15; Rot3 12; Rot3 13; Rot3 14;
   Add 10 15; Add 11 12; Add 8 13; Add 9 14;
   Xor 5 10; Xor 6 11; Xor 7 8; Xor 4 9;
   Rot4 5; Rot4 6; Rot4 7; Rot4 4]%nat.

(** The operations in which BLAKE2B_ROUND_V4 and BLAKE2S_ROUND_V8 differ: blake2-avx2/blake2b-common.h:36-46, blake2s-common.h:56-66. *)
Record vops := { o_add : reg -> reg -> reg; o_rot1 : reg -> reg; o_rot2 : reg -> reg;
                 o_rot3 : reg -> reg; o_rot4 : reg -> reg }.
(** The aligned load LOAD((uint8_t const * )(w) + off) of one of the registers of w; the offsets are
    constants, multiples of 32 and inside w (C54_tables_in_bounds).  blake2-avx2/blake2bp.c:215-328, blake2sp.c:242-355. *)
Definition load_at (w : list reg) (off : nat) : reg := nth (off / 32) w [].
(** One statement of a wide round: blake2-avx2/blake2bp.c:215-328, blake2sp.c:242-355. *)
Definition exec_c (o : vops) (sigma : list nat) (w : list reg) (v : list reg) (s : stmt) : list reg :=
  let at_ i := nth i v [] in
  match s with
  | AddM i k => set v i (o_add o (at_ i) (load_at w (nth k sigma 0%nat)))
  | Add i j => set v i (o_add o (at_ i) (at_ j))
  | Simd.Xor i j => set v i (XOR (at_ i) (at_ j))
  | Rot1 i => set v i (o_rot1 o (at_ i))
  | Rot2 i => set v i (o_rot2 o (at_ i))
  | Rot3 i => set v i (o_rot3 o (at_ i))
  | Rot4 i => set v i (o_rot4 o (at_ i))
  end.
(** The operations of blake2bp.c: blake2-avx2/blake2b-common.h:36, 43-46. *)
Definition b_ops : vops :=
  {| o_add := b_ADD; o_rot1 := b_ROT32; o_rot2 := b_ROT24; o_rot3 := b_ROT16; o_rot4 := b_ROT63 |}.
(** BLAKE2B_ROUND_V4: blake2-avx2/blake2bp.c:214-328. *)
Definition b_round_v4 (w : list reg) (v : list reg) (r : nat) : list reg :=
  fold_left (exec_c b_ops (nth r blake2b_sigma []) w) b_round_v4_program v.

(** BLAKE2B_PACK_MSG_V4: blake2-avx2/blake2bp.c:343-377. *)
Definition b_pack_msg_v4 (m : list reg) : list reg :=
  let m_ i := nth i m [] in
  let t0 := mm256_unpacklo_epi64 (m_ 0%nat) (m_ 4%nat) in
  let t1 := mm256_unpackhi_epi64 (m_ 0%nat) (m_ 4%nat) in
  let t2 := mm256_unpacklo_epi64 (m_ 8%nat) (m_ 12%nat) in
  let t3 := mm256_unpackhi_epi64 (m_ 8%nat) (m_ 12%nat) in
  let w0 := mm256_permute2x128_si256 t0 t2 0x20 in
  let w2 := mm256_permute2x128_si256 t0 t2 0x31 in
  let w1 := mm256_permute2x128_si256 t1 t3 0x20 in
  let w3 := mm256_permute2x128_si256 t1 t3 0x31 in
  let t0 := mm256_unpacklo_epi64 (m_ 1%nat) (m_ 5%nat) in
  let t1 := mm256_unpackhi_epi64 (m_ 1%nat) (m_ 5%nat) in
  let t2 := mm256_unpacklo_epi64 (m_ 9%nat) (m_ 13%nat) in
  let t3 := mm256_unpackhi_epi64 (m_ 9%nat) (m_ 13%nat) in
  let w4 := mm256_permute2x128_si256 t0 t2 0x20 in
  let w6 := mm256_permute2x128_si256 t0 t2 0x31 in
  let w5 := mm256_permute2x128_si256 t1 t3 0x20 in
  let w7 := mm256_permute2x128_si256 t1 t3 0x31 in
  let t0 := mm256_unpacklo_epi64 (m_ 2%nat) (m_ 6%nat) in
  let t1 := mm256_unpackhi_epi64 (m_ 2%nat) (m_ 6%nat) in
  let t2 := mm256_unpacklo_epi64 (m_ 10%nat) (m_ 14%nat) in
  let t3 := mm256_unpackhi_epi64 (m_ 10%nat) (m_ 14%nat) in
  let w8 := mm256_permute2x128_si256 t0 t2 0x20 in
  let w10 := mm256_permute2x128_si256 t0 t2 0x31 in
  let w9 := mm256_permute2x128_si256 t1 t3 0x20 in
  let w11 := mm256_permute2x128_si256 t1 t3 0x31 in
  let t0 := mm256_unpacklo_epi64 (m_ 3%nat) (m_ 7%nat) in
  let t1 := mm256_unpackhi_epi64 (m_ 3%nat) (m_ 7%nat) in
  let t2 := mm256_unpacklo_epi64 (m_ 11%nat) (m_ 15%nat) in
  let t3 := mm256_unpackhi_epi64 (m_ 11%nat) (m_ 15%nat) in
  let w12 := mm256_permute2x128_si256 t0 t2 0x20 in
  let w14 := mm256_permute2x128_si256 t0 t2 0x31 in
  let w13 := mm256_permute2x128_si256 t1 t3 0x20 in
  let w15 := mm256_permute2x128_si256 t1 t3 0x31 in
  [w0; w1; w2; w3; w4; w5; w6; w7; w8; w9; w10; w11; w12; w13; w14; w15].

(** BLAKE2B_LOADMSG_V4: blake2-avx2/blake2bp.c:332-341 (gather), 379-386.  [m] is the 512-byte stripe. *)
Definition b_loadmsg_v4 (p : permute) (m : list byte) : list reg :=
  match p with
  | Gather => map (fun i => mm256_i32gather_epi64 (skipn (i * 8) m) (mm_set_epi32 48 32 16 0) 8)
                (seq 0 16)
  | Shuffles | Neither => b_pack_msg_v4 (map (fun i => loadu_bytes 32 m (i * 32)) (seq 0 16))
  end.

(** BLAKE2B_UNPACK_STATE_V4: blake2-avx2/blake2bp.c:389-407. *)
Definition b_unpack_state_v4 (v : list reg) : list reg :=
  let v_ i := nth i v [] in
  let t0 := mm256_unpacklo_epi64 (v_ 0%nat) (v_ 1%nat) in
  let t1 := mm256_unpackhi_epi64 (v_ 0%nat) (v_ 1%nat) in
  let t2 := mm256_unpacklo_epi64 (v_ 2%nat) (v_ 3%nat) in
  let t3 := mm256_unpackhi_epi64 (v_ 2%nat) (v_ 3%nat) in
  let u0 := mm256_permute2x128_si256 t0 t2 0x20 in
  let u2 := mm256_permute2x128_si256 t1 t3 0x20 in
  let u4 := mm256_permute2x128_si256 t0 t2 0x31 in
  let u6 := mm256_permute2x128_si256 t1 t3 0x31 in
  let t0 := mm256_unpacklo_epi64 (v_ 4%nat) (v_ 5%nat) in
  let t1 := mm256_unpackhi_epi64 (v_ 4%nat) (v_ 5%nat) in
  let t2 := mm256_unpacklo_epi64 (v_ 6%nat) (v_ 7%nat) in
  let t3 := mm256_unpackhi_epi64 (v_ 6%nat) (v_ 7%nat) in
  let u1 := mm256_permute2x128_si256 t0 t2 0x20 in
  let u3 := mm256_permute2x128_si256 t1 t3 0x20 in
  let u5 := mm256_permute2x128_si256 t0 t2 0x31 in
  let u7 := mm256_permute2x128_si256 t1 t3 0x31 in
  [u0; u1; u2; u3; u4; u5; u6; u7].

(** BLAKE2B_COMPRESS_V4: blake2-avx2/blake2bp.c:409-431.  [v] is v[0..7]; v[8..15] are dead afterwards. *)
Definition b_compress_v4 (p : permute) (v : list reg) (m : list byte) (counter flag : reg) : list reg :=
  let flag_mask := mm256_set_epi64x minus1_64 0 0 0 in
  let iv := v in
  let c i := mm256_set1_epi64x (nth i blake2b_IV 0) in
  let v := iv ++ [c 0%nat; c 1%nat; c 2%nat; c 3%nat;
                  XOR (c 4%nat) counter; c 5%nat; XOR (c 6%nat) flag; XOR (c 7%nat) (AND flag flag_mask)] in
  let w := b_loadmsg_v4 p m in
  let v := fold_left (b_round_v4 w) (seq 0 12) v in
  map (fun i => XOR (XOR (nth i v []) (nth (i + 8) v [])) (nth i iv [])) (seq 0 8).

(** x0 .. x4 and f0 of one iteration, blake2-avx2/blake2bp.c:457-460, 469-474: what the counters advance by, and the
    finalisation flags. *)
Definition b_delta (inlen : nat) : reg :=
  let c0 := mm256_set_epi64x 384 256 128 0 in
  let c2 := mm256_setzero_si256 in
  let c3 := mm256_set1_epi64x 128 in
  let x0 := mm256_set1_epi64x (N.of_nat inlen) in
  let x1 := mm256_cmpgt_epi64 x0 c0 in
  let x2 := mm256_blendv_epi8 c2 (mm256_sub_epi64 x0 c0) x1 in
  let x3 := mm256_cmpgt_epi64 x2 c3 in
  mm256_blendv_epi8 x2 c3 x3.
(** f0: blake2-avx2/blake2bp.c:458, 469, 474. *)
Definition b_flags (inlen : nat) : reg :=
  let c1 := mm256_set_epi64x (512 + 384 + 1) (512 + 256 + 1) (512 + 128 + 1) (512 + 1) in
  let x0 := mm256_set1_epi64x (N.of_nat inlen) in
  mm256_cmpgt_epi64 c1 x0.

(** The do-while loop of blake2bp, blake2-avx2/blake2bp.c:452-481.  The result: buffer, v, counter, in, inlen. *)
Fixpoint blake2bp_loop (p : permute) (fuel : nat) (buffer : list byte) (v : list reg) (counter : reg)
    (inp : ptr) (inlen : nat) : outcome (list byte * list reg * reg * ptr * nat) :=
  match fuel with
  | O => Diverge
  | S fuel =>
      do '(buffer, block_size, q) <- pad_block buffer inp inlen 512;
      let counter := mm256_add_epi64 counter (b_delta inlen) in
      do m <- fetch q 512;
      let v := b_compress_v4 p v m counter (b_flags inlen) in
      do inp <- padd inp block_size;
      let inlen := (inlen - block_size)%nat in
      if (512 <=? inlen)%nat then blake2bp_loop p fuel buffer v counter inp inlen
      else Ret (buffer, v, counter, inp, inlen)
  end.

(** The for loop over the lanes, blake2-avx2/blake2bp.c:485-499.  [lanes] are the lanes still to do, [counter] is
    counter.w. *)
Fixpoint blake2bp_tail (p : permute) (lanes : list nat) (buffer : list byte) (s : list reg)
    (counter : list N) (inp : ptr) (inlen : nat) : outcome (list reg) :=
  match lanes with
  | [] => Ret s
  | lane :: lanes =>
      if (inlen =? 0)%nat then Ret s else
      do '(buffer, block_size, q) <- pad_block buffer inp inlen 128;
      let counter := set counter lane ((nth lane counter 0 + N.of_nat block_size) mod 2 ^ 64) in
      do m <- fetch q 128;
      let '(a, b) := b_compress_v1 p (nth (lane * 2) s []) (nth (lane * 2 + 1) s []) m
                       (nth lane counter 0) 0 minus1_64 (if (lane =? 3)%nat then minus1_64 else 0) in
      let s := set (set s (lane * 2) a) (lane * 2 + 1) b in
      do inp <- padd inp block_size;
      blake2bp_tail p lanes buffer s counter inp (inlen - block_size)
  end.

(** v[0..7] before the loop: blake2-avx2/blake2bp.c:443-449. *)
Definition b_init_v4 : list reg :=
  let v := map mm256_set1_epi64x blake2b_IV in
  let v := set v 0 (XOR (nth 0 v []) (mm256_set1_epi64x 0x02040040)) in
  let v := set v 1 (XOR (nth 1 v []) (mm256_set_epi64x 3 2 1 0)) in
  let v := set v 2 (XOR (nth 2 v []) (mm256_set1_epi64x 0x00004000)) in
  v.

(** blake2bp: blake2-avx2/blake2bp.c:434-501. *)
Definition c_blake2bp (p : permute) (buffer out : list byte) (inp : ptr) (inlen : nat)
    : outcome (list byte) :=
  do '(buffer, v, counter, inp, inlen) <-
    blake2bp_loop p (S inlen) buffer b_init_v4 mm256_setzero_si256 inp inlen;
  let s := b_unpack_state_v4 v in
  do s <- blake2bp_tail p (seq 0 4) buffer s (store_words 8 4 counter) inp inlen;
  blake2b_root p out (mkptr (image 32 s) 0).

(** ** BLAKE2s, one message at a time (inside blake2sp.c) *)

(** blake2s_IV: blake2-avx2/blake2sp.c:13-18. *)
Definition blake2s_IV : list N :=
  [0x6A09E667; 0xBB67AE85; 0x3C6EF372; 0xA54FF53A;
   0x510E527F; 0x9B05688C; 0x1F83D9AB; 0x5BE0CD19].
(** LOAD128(&blake2s_IV[0]): blake2-avx2/blake2sp.c:162, 206. *)
Definition s_iv_lo : reg := load_words 4 (firstn 4 blake2s_IV).
(** LOAD128(&blake2s_IV[4]): blake2-avx2/blake2sp.c:164, 207. *)
Definition s_iv_hi : reg := load_words 4 (skipn 4 blake2s_IV).

(** ROTATE8128: blake2-avx2/blake2s-common.h:27. *)
Definition ROTATE8128 : reg := set_epi8 [12; 15; 14; 13; 8; 11; 10; 9; 4; 7; 6; 5; 0; 3; 2; 1].
(** ROTATE16128: blake2-avx2/blake2s-common.h:29. *)
Definition ROTATE16128 : reg := set_epi8 [13; 12; 15; 14; 9; 8; 11; 10; 5; 4; 7; 6; 1; 0; 3; 2].
(** ADD128: blake2-avx2/blake2s-common.h:32. *)
Definition ADD128 := mm_add_epi32.
(** XOR128: blake2-avx2/blake2s-common.h:35. *)
Definition XOR128 := mm_xor_si128.
(** ROT16128: blake2-avx2/blake2s-common.h:39. *)
Definition ROT16128 (x : reg) : reg := mm_shuffle_epi8 x ROTATE16128.
(** ROT12128: blake2-avx2/blake2s-common.h:40. *)
Definition ROT12128 (x : reg) : reg := mm_or_si128 (mm_srli_epi32 x 12) (mm_slli_epi32 x 20).
(** ROT8128: blake2-avx2/blake2s-common.h:41. *)
Definition ROT8128 (x : reg) : reg := mm_shuffle_epi8 x ROTATE8128.
(** ROT7128: blake2-avx2/blake2s-common.h:42. *)
Definition ROT7128 (x : reg) : reg := mm_or_si128 (mm_srli_epi32 x 7) (mm_slli_epi32 x 25).

(** BLAKE2S_G1_V1: blake2-avx2/blake2sp.c:33-37. *)
Definition s_g1 (s : rows) (m : reg) : rows :=
  let '(a, b, c, d) := s in
  let a := ADD128 a m in
  let a := ADD128 a b in let d := XOR128 d a in let d := ROT16128 d in
  let c := ADD128 c d in let b := XOR128 b c in let b := ROT12128 b in
  (a, b, c, d).
(** BLAKE2S_G2_V1: blake2-avx2/blake2sp.c:39-43. *)
Definition s_g2 (s : rows) (m : reg) : rows :=
  let '(a, b, c, d) := s in
  let a := ADD128 a m in
  let a := ADD128 a b in let d := XOR128 d a in let d := ROT8128 d in
  let c := ADD128 c d in let b := XOR128 b c in let b := ROT7128 b in
  (a, b, c, d).
(** BLAKE2S_DIAG_V1: blake2-avx2/blake2sp.c:45-49. *)
Definition s_diag (s : rows) : rows :=
  let '(a, b, c, d) := s in
  let d := mm_shuffle_epi32 d (MM_SHUFFLE 2 1 0 3) in
  let c := mm_shuffle_epi32 c (MM_SHUFFLE 1 0 3 2) in
  let b := mm_shuffle_epi32 b (MM_SHUFFLE 0 3 2 1) in
  (a, b, c, d).
(** BLAKE2S_UNDIAG_V1: blake2-avx2/blake2sp.c:51-55. *)
Definition s_undiag (s : rows) : rows :=
  let '(a, b, c, d) := s in
  let d := mm_shuffle_epi32 d (MM_SHUFFLE 0 3 2 1) in
  let c := mm_shuffle_epi32 c (MM_SHUFFLE 1 0 3 2) in
  let b := mm_shuffle_epi32 b (MM_SHUFFLE 2 1 0 3) in
  (a, b, c, d).

(** indices: blake2-avx2/blake2sp.c:65-78. *)
Definition s_indices : list (list N) :=
  [[0; 2; 4; 6; 1; 3; 5; 7; 8; 10; 12; 14; 9; 11; 13; 15];
   [14; 4; 9; 13; 10; 8; 15; 6; 1; 0; 11; 5; 12; 2; 7; 3];
   [11; 12; 5; 15; 8; 0; 2; 13; 10; 3; 7; 9; 14; 6; 1; 4];
   [7; 3; 13; 11; 9; 1; 12; 14; 2; 5; 4; 15; 6; 10; 0; 8];
   [9; 5; 2; 10; 0; 7; 4; 15; 14; 11; 6; 3; 1; 12; 8; 13];
   [2; 6; 0; 8; 12; 10; 11; 3; 4; 7; 15; 1; 13; 5; 14; 9];
   [12; 1; 14; 4; 5; 15; 13; 10; 0; 6; 9; 8; 7; 3; 2; 11];
   [13; 7; 12; 3; 11; 14; 1; 9; 5; 15; 8; 2; 0; 4; 6; 10];
   [6; 14; 11; 0; 15; 9; 3; 8; 12; 13; 1; 10; 2; 7; 4; 5];
   [10; 8; 7; 1; 2; 4; 6; 5; 15; 9; 3; 13; 11; 14; 12; 0];
   [0; 2; 4; 6; 1; 3; 5; 7; 8; 10; 12; 14; 9; 11; 13; 15];
   [14; 4; 9; 13; 10; 8; 15; 6; 1; 0; 11; 5; 12; 2; 7; 3]].

(** DECLARE_MESSAGE_WORDS with PERMUTE_WITH_SHUFFLES: blake2-avx2/blake2sp.c:132-137. *)
Definition s_message_regs (m : list byte) : regs4 :=
  (loadu_bytes 16 m 0, loadu_bytes 16 m 16, loadu_bytes 16 m 32, loadu_bytes 16 m 48).
(** LOADU32: blake2-avx2/blake2s-common.h:18-22. *)
Definition LOADU32 (m : list byte) (off : nat) : N := from_le (bytes m off 4).
(** DECLARE_MESSAGE_WORDS, third variant: blake2-avx2/blake2sp.c:139-155. *)
Definition s_message_words (m : list byte) : words16 :=
  (LOADU32 m 0, LOADU32 m 4, LOADU32 m 8, LOADU32 m 12, LOADU32 m 16, LOADU32 m 20, LOADU32 m 24,
   LOADU32 m 28, LOADU32 m 32, LOADU32 m 36, LOADU32 m 40, LOADU32 m 44, LOADU32 m 48, LOADU32 m 52,
   LOADU32 m 56, LOADU32 m 60).

(** The four vectors b0 of round [r]: blake2-avx2/blake2sp.c:80-92, 101-113. *)
Definition s_round_msgs (p : permute) (r : nat) (m : list byte) : reg * reg * reg * reg :=
  match p with
  | Shuffles => s_shuffles r (s_message_regs m)
  | Neither => s_simple r (s_message_words m)
  | Gather => (mm_i32gather_epi32 m (index_reg s_indices r 0) 4,
               mm_i32gather_epi32 m (index_reg s_indices r 4) 4,
               mm_i32gather_epi32 m (index_reg s_indices r 8) 4,
               mm_i32gather_epi32 m (index_reg s_indices r 12) 4)
  end.

(** BLAKE2S_ROUND_V1: blake2-avx2/blake2sp.c:80-92, 101-113. *)
Definition s_round_v1 (p : permute) (m : list byte) (s : rows) (r : nat) : rows :=
  let '(x1, x2, x3, x4) := s_round_msgs p r m in
  let s := s_g1 s x1 in
  let s := s_g2 s x2 in
  let s := s_diag s in
  let s := s_g1 s x3 in
  let s := s_g2 s x4 in
  s_undiag s.

(** BLAKE2S_COMPRESS_V1 (with BLAKE2S_ROUNDS_V1): blake2-avx2/blake2sp.c:94-99, 115-126, 158-172. *)
Definition s_compress_v1 (p : permute) (a b : reg) (m : list byte) (t0 t1 f0 f1 : N) : reg * reg :=
  let iv0 := a in
  let iv1 := b in
  let c := s_iv_lo in
  let d := XOR128 s_iv_hi (mm_set_epi32 f1 f0 t1 t0) in
  let '(a, b, c, d) := fold_left (s_round_v1 p m) (seq 0 10) (a, b, c, d) in
  let a := XOR128 a c in
  let b := XOR128 b d in
  let a := XOR128 a iv0 in
  let b := XOR128 b iv1 in
  (a, b).

(** ** BLAKE2sp *)

(** The loop of blake2s_root, blake2-avx2/blake2sp.c:209-214; [steps] are the values of i still to come. *)
Fixpoint blake2s_root_loop (p : permute) (steps : list nat) (a b : reg) (inp : ptr) : outcome (reg * reg) :=
  match steps with
  | [] => Ret (a, b)
  | i :: steps =>
      let counter := 64 * (N.of_nat i + 1) in
      let flag := if (i =? 3)%nat then minus1_32 else 0 in
      do m <- fetch inp 64;
      let '(a, b) := s_compress_v1 p a b m (N.land counter 0xFFFFFFFF) (N.shiftr counter 32) flag flag in
      do inp <- padd inp 64;
      blake2s_root_loop p steps a b inp
  end.
(** blake2s_root: blake2-avx2/blake2sp.c:204-218. *)
Definition blake2s_root (p : permute) (out : list byte) (inp : ptr) : outcome (list byte) :=
  let parameter_block := mm_set_epi32 0x20010000 0 0 0x02080020 in
  let a := XOR128 s_iv_lo parameter_block in
  let b := s_iv_hi in
  do '(a, b) <- blake2s_root_loop p (seq 0 4) a b inp;
  store2 16 out a b.

(** blake2s_sigma, byte offsets into w: blake2-avx2/blake2sp.c:20-31. *)
Definition blake2s_sigma : list (list nat) :=
  [[0; 32; 64; 96; 128; 160; 192; 224; 256; 288; 320; 352; 384; 416; 448; 480];
   [448; 320; 128; 256; 288; 480; 416; 192; 32; 384; 0; 64; 352; 224; 160; 96];
   [352; 256; 384; 0; 160; 64; 480; 416; 320; 448; 96; 192; 224; 32; 288; 128];
   [224; 288; 96; 32; 416; 384; 352; 448; 64; 192; 160; 320; 128; 0; 480; 256];
   [288; 0; 160; 224; 64; 128; 320; 480; 448; 32; 352; 384; 192; 256; 96; 416];
   [64; 384; 192; 320; 0; 352; 256; 96; 128; 416; 224; 160; 480; 448; 32; 288];
   [384; 160; 32; 480; 448; 416; 128; 320; 0; 224; 192; 96; 288; 64; 256; 352];
   [416; 352; 224; 448; 384; 32; 96; 288; 160; 0; 480; 128; 256; 192; 64; 320];
   [192; 480; 448; 288; 352; 96; 0; 256; 384; 64; 416; 224; 32; 128; 320; 160];
   [320; 64; 256; 128; 224; 192; 32; 160; 480; 352; 288; 448; 96; 384; 416; 0]]%nat.

(** The statements of BLAKE2S_ROUND_V8 in order ([Rot1] .. [Rot4] are ROT16, ROT12, ROT8, ROT7):
    blake2-avx2/blake2sp.c:241-355. *)
Definition s_round_v8_program : list stmt :=
  [AddM 0 0; AddM 1 2; AddM 2 4; AddM 3 6;
   Add 0 4; Add 1 5; Add 2 6; Add 3 7;
   Xor 12 0; Xor 13 1; Xor 14 2; Xor 15 3;
   Rot1 12; Rot1 13; Rot1 14; Rot1 15;
   Add 8 12; Add 9 13; Add 10 14; Add 11 15;
   Xor 4 8; Xor 5 9; Xor 6 10; Xor 7 11;
   Rot2 4; Rot2 5; Rot2 6; Rot2 7;
   AddM 0 1; AddM 1 3; AddM 2 5; AddM 3 7;
   Add 0 4; Add 1 5; Add 2 6; Add 3 7;
   Xor 12 0; Xor 13 1; Xor 14 2; Xor 15 3;
   Rot3 12; Rot3 13; Rot3 14; Rot3 15;
   Add 8 12; Add 9 13; Add 10 14; Add 11 15;
   Xor 4 8; Xor 5 9; Xor 6 10; Xor 7 11;
   Rot4 4; Rot4 5; Rot4 6; Rot4 7;
   AddM 0 8; AddM 1 10; AddM 2 12; AddM 3 14;
   Add 0 5; Add 1 6; Add 2 7; Add 3 4;
   Xor 15 0; Xor 12 1; Xor 13 2; Xor 14 3;
   Rot1 15; Rot1 12; Rot1 13; Rot1 14;
   Add 10 15; Add 11 12; Add 8 13; Add 9 14;
   Xor 5 10; Xor 6 11; Xor 7 8; Xor 4 9;
   Rot2 5; Rot2 6; Rot2 7; Rot2 4;
   AddM 0 9; AddM 1 11; AddM 2 13; AddM 3 15;
   Add 0 5; Add 1 6; Add 2 7; Add 3 4;
   Xor 15 0; Xor 12 1; Xor 13 2; Xor 14 3;
   Rot3 15; Rot3 12; Rot3 13; Rot3 14;
   Add 10 15; Add 11 12; Add 8 13; Add 9 14;
   Xor 5 10; Xor 6 11; Xor 7 8; Xor 4 9;
   Rot4 5; Rot4 6; Rot4 7; Rot4 4]%nat.

(** ROTATE8: blake2-avx2/blake2s-common.h:50-51. *)
Definition s_ROTATE8 : reg :=
  set_epi8 [12; 15; 14; 13; 8; 11; 10; 9; 4; 7; 6; 5; 0; 3; 2; 1;
            12; 15; 14; 13; 8; 11; 10; 9; 4; 7; 6; 5; 0; 3; 2; 1].
(** ROTATE16: blake2-avx2/blake2s-common.h:53-54. *)
Definition s_ROTATE16 : reg :=
  set_epi8 [13; 12; 15; 14; 9; 8; 11; 10; 5; 4; 7; 6; 1; 0; 3; 2;
            13; 12; 15; 14; 9; 8; 11; 10; 5; 4; 7; 6; 1; 0; 3; 2].
(** ADD and the four rotations of blake2sp.c: blake2-avx2/blake2s-common.h:56, 63-66. *)
Definition s_ops : vops :=
  {| o_add := mm256_add_epi32;
     o_rot1 := fun x => mm256_shuffle_epi8 x s_ROTATE16;
     o_rot2 := fun x => mm256_or_si256 (mm256_srli_epi32 x 12) (mm256_slli_epi32 x 20);
     o_rot3 := fun x => mm256_shuffle_epi8 x s_ROTATE8;
     o_rot4 := fun x => mm256_or_si256 (mm256_srli_epi32 x 7) (mm256_slli_epi32 x 25) |}.
(** BLAKE2S_ROUND_V8: blake2-avx2/blake2sp.c:241-355. *)
Definition s_round_v8 (w : list reg) (v : list reg) (r : nat) : list reg :=
  fold_left (exec_c s_ops (nth r blake2s_sigma []) w) s_round_v8_program v.

(** One half of BLAKE2S_PACK_MSG_V8, on m[k], m[k+2], .., m[k+14] (k = 0, then the same text with k = 1):
    blake2-avx2/blake2sp.c:375-402 and 404-431. *)
Definition s_pack_half (m : list reg) (k : nat) : list reg :=
  let m_ i := nth (i + k) m [] in
  let t0 := mm256_unpacklo_epi32 (m_ 0%nat) (m_ 2%nat) in
  let t1 := mm256_unpackhi_epi32 (m_ 0%nat) (m_ 2%nat) in
  let t2 := mm256_unpacklo_epi32 (m_ 4%nat) (m_ 6%nat) in
  let t3 := mm256_unpackhi_epi32 (m_ 4%nat) (m_ 6%nat) in
  let t4 := mm256_unpacklo_epi32 (m_ 8%nat) (m_ 10%nat) in
  let t5 := mm256_unpackhi_epi32 (m_ 8%nat) (m_ 10%nat) in
  let t6 := mm256_unpacklo_epi32 (m_ 12%nat) (m_ 14%nat) in
  let t7 := mm256_unpackhi_epi32 (m_ 12%nat) (m_ 14%nat) in
  let s0 := mm256_unpacklo_epi64 t0 t2 in
  let s1 := mm256_unpackhi_epi64 t0 t2 in
  let s2 := mm256_unpacklo_epi64 t4 t6 in
  let s3 := mm256_unpackhi_epi64 t4 t6 in
  let w0 := mm256_permute2x128_si256 s0 s2 0x20 in
  let w4 := mm256_permute2x128_si256 s0 s2 0x31 in
  let w1 := mm256_permute2x128_si256 s1 s3 0x20 in
  let w5 := mm256_permute2x128_si256 s1 s3 0x31 in
  let s0 := mm256_unpacklo_epi64 t1 t3 in
  let s1 := mm256_unpackhi_epi64 t1 t3 in
  let s2 := mm256_unpacklo_epi64 t5 t7 in
  let s3 := mm256_unpackhi_epi64 t5 t7 in
  let w2 := mm256_permute2x128_si256 s0 s2 0x20 in
  let w6 := mm256_permute2x128_si256 s0 s2 0x31 in
  let w3 := mm256_permute2x128_si256 s1 s3 0x20 in
  let w7 := mm256_permute2x128_si256 s1 s3 0x31 in
  [w0; w1; w2; w3; w4; w5; w6; w7].
(** BLAKE2S_PACK_MSG_V8: blake2-avx2/blake2sp.c:371-432. *)
Definition s_pack_msg_v8 (m : list reg) : list reg := s_pack_half m 0 ++ s_pack_half m 1.

(** BLAKE2S_LOADMSG_V8: blake2-avx2/blake2sp.c:359-368 (gather), 434-441. *)
Definition s_loadmsg_v8 (p : permute) (m : list byte) : list reg :=
  match p with
  | Gather => map (fun i => mm256_i32gather_epi32 (skipn (i * 4) m)
                              (mm256_set_epi32 112 96 80 64 48 32 16 0) 4) (seq 0 16)
  | Shuffles | Neither => s_pack_msg_v8 (map (fun i => loadu_bytes 32 m (i * 32)) (seq 0 16))
  end.

(** BLAKE2S_UNPACK_STATE_V8: blake2-avx2/blake2sp.c:444-473. *)
Definition s_unpack_state_v8 (v : list reg) : list reg :=
  let v_ i := nth i v [] in
  let t0 := mm256_unpacklo_epi32 (v_ 0%nat) (v_ 1%nat) in
  let t1 := mm256_unpackhi_epi32 (v_ 0%nat) (v_ 1%nat) in
  let t2 := mm256_unpacklo_epi32 (v_ 2%nat) (v_ 3%nat) in
  let t3 := mm256_unpackhi_epi32 (v_ 2%nat) (v_ 3%nat) in
  let t4 := mm256_unpacklo_epi32 (v_ 4%nat) (v_ 5%nat) in
  let t5 := mm256_unpackhi_epi32 (v_ 4%nat) (v_ 5%nat) in
  let t6 := mm256_unpacklo_epi32 (v_ 6%nat) (v_ 7%nat) in
  let t7 := mm256_unpackhi_epi32 (v_ 6%nat) (v_ 7%nat) in
  let s0 := mm256_unpacklo_epi64 t0 t2 in
  let s1 := mm256_unpackhi_epi64 t0 t2 in
  let s2 := mm256_unpacklo_epi64 t1 t3 in
  let s3 := mm256_unpackhi_epi64 t1 t3 in
  let s4 := mm256_unpacklo_epi64 t4 t6 in
  let s5 := mm256_unpackhi_epi64 t4 t6 in
  let s6 := mm256_unpacklo_epi64 t5 t7 in
  let s7 := mm256_unpackhi_epi64 t5 t7 in
  let u0 := mm256_permute2x128_si256 s0 s4 0x20 in
  let u1 := mm256_permute2x128_si256 s1 s5 0x20 in
  let u2 := mm256_permute2x128_si256 s2 s6 0x20 in
  let u3 := mm256_permute2x128_si256 s3 s7 0x20 in
  let u4 := mm256_permute2x128_si256 s0 s4 0x31 in
  let u5 := mm256_permute2x128_si256 s1 s5 0x31 in
  let u6 := mm256_permute2x128_si256 s2 s6 0x31 in
  let u7 := mm256_permute2x128_si256 s3 s7 0x31 in
  [u0; u1; u2; u3; u4; u5; u6; u7].

(** BLAKE2S_COMPRESS_V8: blake2-avx2/blake2sp.c:475-497. *)
Definition s_compress_v8 (p : permute) (v : list reg) (m : list byte) (t0 t1 f0 : reg) : list reg :=
  let flag_mask := mm256_set_epi32 minus1_32 0 0 0 0 0 0 0 in
  let iv := v in
  let c i := mm256_set1_epi32 (nth i blake2s_IV 0) in
  let v := iv ++ [c 0%nat; c 1%nat; c 2%nat; c 3%nat;
                  XOR (c 4%nat) t0; XOR (c 5%nat) t1; XOR (c 6%nat) f0; XOR (c 7%nat) (AND f0 flag_mask)] in
  let w := s_loadmsg_v8 p m in
  let v := fold_left (s_round_v8 w) (seq 0 10) v in
  map (fun i => XOR (XOR (nth i v []) (nth (i + 8) v [])) (nth i iv [])) (seq 0 8).

(** _mm256_not_si256: blake2-avx2/blake2sp.c:534. *)
Definition mm256_not_si256 (x : reg) : reg := mm256_xor_si256 x (mm256_set1_epi32 minus1_32).
(** _mm256_cmpge_epu32: blake2-avx2/blake2sp.c:535. *)
Definition mm256_cmpge_epu32 (x y : reg) : reg := mm256_cmpeq_epi32 x (mm256_max_epu32 x y).
(** _mm256_cmple_epu32: blake2-avx2/blake2sp.c:536. *)
Definition mm256_cmple_epu32 (x y : reg) : reg := mm256_cmpge_epu32 y x.
(** _mm256_cmpgt_epu32: blake2-avx2/blake2sp.c:537. *)
Definition mm256_cmpgt_epu32 (x y : reg) : reg := mm256_not_si256 (mm256_cmple_epu32 x y).
(** _mm256_cmplt_epu32: blake2-avx2/blake2sp.c:538. *)
Definition mm256_cmplt_epu32 (x y : reg) : reg := mm256_cmpgt_epu32 y x.

(** x0, x1, x2 of one iteration: blake2-avx2/blake2sp.c:540-543. *)
Definition s_low (inlen : nat) : reg := mm256_set1_epi32 (N.land (N.of_nat inlen) 0xFFFFFFFF).
(** x2, all ones iff inlen < 2^32: blake2-avx2/blake2sp.c:541-543. *)
Definition s_small (inlen : nat) : reg :=
  let x1 := mm256_set1_epi32 (N.of_nat inlen / 2 ^ 32) in
  mm256_cmpeq_epi32 x1 mm256_setzero_si256.
(** x5, what the counters advance by: blake2-avx2/blake2sp.c:544-552. *)
Definition s_delta (inlen : nat) : reg :=
  let x0 := s_low inlen in
  let x2 := s_small inlen in
  let x3 := mm256_cmpge_epu32 x0 (mm256_set_epi32 (448 + 1) (384 + 1) (320 + 1) (256 + 1) (192 + 1)
                                    (128 + 1) (64 + 1) (0 + 1)) in
  let x4 := mm256_and_si256 x3 (mm256_sub_epi32 x0 (mm256_set_epi32 448 384 320 256 192 128 64 0)) in
  mm256_xor_si256 (mm256_and_si256 x2 (mm256_min_epu32 x4 (mm256_set1_epi32 64)))
                  (mm256_andnot_si256 x2 (mm256_set1_epi32 64)).
(** f0: blake2-avx2/blake2sp.c:554-557. *)
Definition s_flags (inlen : nat) : reg :=
  let f0 := mm256_cmpge_epu32
              (mm256_set_epi32 (512 + 448) (512 + 384) (512 + 320) (512 + 256) (512 + 192)
                 (512 + 128) (512 + 64) (512 + 0)) (s_low inlen) in
  mm256_and_si256 f0 (s_small inlen).

(** The do-while loop of blake2sp, blake2-avx2/blake2sp.c:521-564. *)
Fixpoint blake2sp_loop (p : permute) (fuel : nat) (buffer : list byte) (v : list reg)
    (counterl counterh : reg) (inp : ptr) (inlen : nat)
    : outcome (list byte * list reg * reg * reg * ptr * nat) :=
  match fuel with
  | O => Diverge
  | S fuel =>
      do '(buffer, block_size, q) <- pad_block buffer inp inlen 512;
      let x5 := s_delta inlen in
      let counterl := mm256_add_epi32 counterl x5 in
      let counterh := mm256_sub_epi32 counterh (mm256_cmplt_epu32 counterl x5) in
      do m <- fetch q 512;
      let v := s_compress_v8 p v m counterl counterh (s_flags inlen) in
      do inp <- padd inp block_size;
      let inlen := (inlen - block_size)%nat in
      if (512 <=? inlen)%nat then blake2sp_loop p fuel buffer v counterl counterh inp inlen
      else Ret (buffer, v, counterl, counterh, inp, inlen)
  end.

(** The for loop over the lanes, blake2-avx2/blake2sp.c:568-583. *)
Fixpoint blake2sp_tail (p : permute) (lanes : list nat) (buffer : list byte) (s : list reg)
    (counterl counterh : list N) (inp : ptr) (inlen : nat) : outcome (list reg) :=
  match lanes with
  | [] => Ret s
  | lane :: lanes =>
      if (inlen =? 0)%nat then Ret s else
      do '(buffer, block_size, q) <- pad_block buffer inp inlen 64;
      let counterl := set counterl lane ((nth lane counterl 0 + N.of_nat block_size) mod 2 ^ 32) in
      let counterh := set counterh lane
        ((nth lane counterh 0 + (if nth lane counterl 0 <? N.of_nat block_size then 1 else 0)) mod 2 ^ 32) in
      do m <- fetch q 64;
      let '(a, b) := s_compress_v1 p (nth (lane * 2) s []) (nth (lane * 2 + 1) s []) m
                       (nth lane counterl 0) (nth lane counterh 0) minus1_32
                       (if (lane =? 7)%nat then minus1_32 else 0) in
      let s := set (set s (lane * 2) a) (lane * 2 + 1) b in
      do inp <- padd inp block_size;
      blake2sp_tail p lanes buffer s counterl counterh inp (inlen - block_size)
  end.

(** v[0..7] before the loop: blake2-avx2/blake2sp.c:513-519. *)
Definition s_init_v8 : list reg :=
  let v := map mm256_set1_epi32 blake2s_IV in
  let v := set v 0 (XOR (nth 0 v []) (mm256_set1_epi32 0x02080020)) in
  let v := set v 2 (XOR (nth 2 v []) (mm256_set_epi32 7 6 5 4 3 2 1 0)) in
  let v := set v 3 (XOR (nth 3 v []) (mm256_set1_epi32 0x20000000)) in
  v.

(** The union lanes: t[8] (256-bit) seen as s[16] (128-bit), blake2-avx2/blake2sp.c:503-506, 566, 580. *)
Definition union_t_s (t : list reg) : list reg := flat_map (fun r => [lo128 r; hi128 r]) t.

(** blake2sp: blake2-avx2/blake2sp.c:500-585. *)
Definition c_blake2sp (p : permute) (buffer out : list byte) (inp : ptr) (inlen : nat)
    : outcome (list byte) :=
  do '(buffer, v, counterl, counterh, inp, inlen) <-
    blake2sp_loop p (S inlen) buffer s_init_v8 mm256_setzero_si256 mm256_setzero_si256 inp inlen;
  let s := union_t_s (s_unpack_state_v8 v) in
  do s <- blake2sp_tail p (seq 0 8) buffer s (store_words 4 8 counterl) (store_words 4 8 counterh)
            inp inlen;
  blake2s_root p out (mkptr (image 16 s) 0).

(** ** The Rust wrappers *)

(** check_avx2: src/lib.rs:28-32.  is_x86_feature_detected! is true if the feature was enabled at
    compile time or the CPU reports it (see [target] in Impl.v). *)
Definition check_avx2 (t : target) : outcome unit :=
  if t_tf_avx2 t || t_cpu_avx2 t then Ret tt else Panic.

(** blake2b: src/lib.rs:1-8.  The C code is compiled with -mavx2 (build.rs:15-18), so running it on a CPU
    without AVX2 is undefined.  [buffer]: the uninitialised array inside the C function. *)
Definition sneves_blake2b (p : permute) (t : target) (e : env) (buffer input : list byte)
    : outcome (list byte) :=
  do _ <- check_avx2 t;
  let hash := zeros 64 in
  target_feature (e_avx2 e) (c_blake2b p buffer hash (mkptr input 0) (length input)).
(** blake2bp: src/lib.rs:10-17. *)
Definition sneves_blake2bp (p : permute) (t : target) (e : env) (buffer input : list byte)
    : outcome (list byte) :=
  do _ <- check_avx2 t;
  let hash := zeros 64 in
  target_feature (e_avx2 e) (c_blake2bp p buffer hash (mkptr input 0) (length input)).
(** blake2sp: src/lib.rs:19-26. *)
Definition sneves_blake2sp (p : permute) (t : target) (e : env) (buffer input : list byte)
    : outcome (list byte) :=
  do _ <- check_avx2 t;
  let hash := zeros 32 in
  target_feature (e_avx2 e) (c_blake2sp p buffer hash (mkptr input 0) (length input)).
