(** Model of the x86 intrinsics used by sse41.rs and avx2.rs of both crates,
    after Intel's Intrinsics Guide (core::arch, not part of /repo).

    A register (__m128i, __m256i, __m128) is the list of its 16 or 32 bytes,
    least significant byte first, which is also its memory image.  Operations
    that only move data are byte permutations; arithmetic acts on lanes of
    [w] bytes decoded little-endian. *)
From Coq Require Import Arith NArith List Bool.
From Verif Require Import Base.
Import ListNotations.
Open Scope N_scope.

(** __m128i, __m256i, __m128 (blake2b/src/avx2.rs:1-8). *)
Definition reg := list byte.

(** A byte of a register; a modelling device for core::arch, whose operations are cited below. *)
Definition getb (r : reg) (k : nat) : byte := nth k r x00.
(** A range of bytes of a register; a modelling device for core::arch, whose operations are cited below. *)
Definition bytes (r : reg) (off n : nat) : list byte := map (getb r) (seq off n).

(** Lane [i] of width [w] bytes, as a number (a modelling device for core::arch, cited below). *)
Definition lane (w : nat) (r : reg) (i : nat) : N := from_le (bytes r (i * w) w).
(** A register from its lanes; a modelling device for core::arch, whose operations are cited below. *)
Definition from_lanes (w : nat) (ls : list N) : reg := flat_map (to_le w) ls.

(** Number of values of a lane; a modelling device for core::arch, whose operations are cited below. *)
Definition lane_mod (w : nat) : N := 2 ^ (8 * N.of_nat w).

(** *** Lane-wise arithmetic, [n] lanes of [w] bytes. *)
(** Lane-wise arithmetic, [n] lanes of [w] bytes (a modelling device for core::arch, cited below). *)
Definition map_lanes (w n : nat) (f : N -> N) (a : reg) : reg :=
  from_lanes w (map (fun i => f (lane w a i)) (seq 0 n)).
(** Lane-wise binary operation; a modelling device for core::arch, whose operations are cited below. *)
Definition map2_lanes (w n : nat) (f : N -> N -> N) (a b : reg) : reg :=
  from_lanes w (map (fun i => f (lane w a i) (lane w b i)) (seq 0 n)).

(** Lane-wise addition; a modelling device for core::arch, whose operations are cited below. *)
Definition add_lanes (w n : nat) := map2_lanes w n (fun x y => (x + y) mod lane_mod w).
(** Lane-wise comparison; a modelling device for core::arch, whose operations are cited below. *)
Definition cmpeq_lanes (w n : nat) :=
  map2_lanes w n (fun x y => if N.eqb x y then lane_mod w - 1 else 0).
(** Lane-wise right shift; a modelling device for core::arch, whose operations are cited below. *)
Definition srli_lanes (w n : nat) (a : reg) (k : N) := map_lanes w n (fun x => N.shiftr x k) a.
(** Lane-wise left shift; a modelling device for core::arch, whose operations are cited below. *)
Definition slli_lanes (w n : nat) (a : reg) (k : N) :=
  map_lanes w n (fun x => N.shiftl x k mod lane_mod w) a.
(** Broadcast; a modelling device for core::arch, whose operations are cited below. *)
Definition set1_lanes (w n : nat) (x : N) : reg := from_lanes w (repeat x n).

(** _mm_add_epi32: blake2s/src/sse41.rs:31. *)
Definition mm_add_epi32 := add_lanes 4 4.
(** _mm_add_epi64: blake2b/src/sse41.rs:31. *)
Definition mm_add_epi64 := add_lanes 8 2.
(** _mm256_add_epi32: blake2s/src/avx2.rs:30. *)
Definition mm256_add_epi32 := add_lanes 4 8.
(** _mm256_add_epi64: blake2b/src/avx2.rs:36. *)
Definition mm256_add_epi64 := add_lanes 8 4.
(** _mm_cmpeq_epi32: blake2s/src/sse41.rs:36. *)
Definition mm_cmpeq_epi32 := cmpeq_lanes 4 4.
(** _mm_cmpeq_epi64: blake2b/src/sse41.rs:36. *)
Definition mm_cmpeq_epi64 := cmpeq_lanes 8 2.
(** _mm256_cmpeq_epi32: blake2s/src/avx2.rs:35. *)
Definition mm256_cmpeq_epi32 := cmpeq_lanes 4 8.
(** _mm256_cmpeq_epi64: blake2b/src/avx2.rs:41. *)
Definition mm256_cmpeq_epi64 := cmpeq_lanes 8 4.
(** _mm_srli_epi32: blake2s/src/sse41.rs:76, 81, 86 ... *)
Definition mm_srli_epi32 := srli_lanes 4 4.
(** _mm_srli_epi64: blake2b/src/sse41.rs:84, 89, 94 ... *)
Definition mm_srli_epi64 := srli_lanes 8 2.
(** _mm256_srli_epi32: blake2s/src/avx2.rs:77, 82, 87 ... *)
Definition mm256_srli_epi32 := srli_lanes 4 8.
(** _mm256_srli_epi64: blake2b/src/avx2.rs:88, 93, 98 ... *)
Definition mm256_srli_epi64 := srli_lanes 8 4.
(** _mm_slli_epi32: blake2s/src/sse41.rs:76, 81, 86 ... *)
Definition mm_slli_epi32 := slli_lanes 4 4.
(** _mm_slli_epi64: blake2b/src/sse41.rs:84, 89, 94 ... *)
Definition mm_slli_epi64 := slli_lanes 8 2.
(** _mm256_slli_epi32: blake2s/src/avx2.rs:77, 82, 87 ... *)
Definition mm256_slli_epi32 := slli_lanes 4 8.
(** _mm256_slli_epi64: blake2b/src/avx2.rs:88, 93, 98 ... *)
Definition mm256_slli_epi64 := slli_lanes 8 4.
(** _mm_set1_epi32: blake2s/src/sse41.rs:57. *)
Definition mm_set1_epi32 := set1_lanes 4 4.
(** _mm_set1_epi64x: blake2b/src/sse41.rs:57. *)
Definition mm_set1_epi64x := set1_lanes 8 2.
(** _mm256_set1_epi32: blake2s/src/avx2.rs:56. *)
Definition mm256_set1_epi32 := set1_lanes 4 8.
(** _mm256_set1_epi64x: blake2b/src/avx2.rs:62. *)
Definition mm256_set1_epi64x := set1_lanes 8 4.

(** setr: arguments in lane order (lane 0 first); set: reversed (_mm_setr_epi32, blake2s/src/sse41.rs:61-63). *)
Definition mm_setr_epi32 (a b c d : N) : reg := from_lanes 4 [a; b; c; d].
(** _mm256_setr_epi32: blake2s/src/avx2.rs:61. *)
Definition mm256_setr_epi32 (a b c d e f g h : N) : reg := from_lanes 4 [a; b; c; d; e; f; g; h].
(** _mm256_setr_epi64x: blake2b/src/avx2.rs:67. *)
Definition mm256_setr_epi64x (a b c d : N) : reg := from_lanes 8 [a; b; c; d].
(** _mm_set_epi64x: blake2b/src/sse41.rs:63. *)
Definition mm_set_epi64x (e1 e0 : N) : reg := from_lanes 8 [e0; e1].

(** *** Bitwise operations, byte by byte. *)
(** Bitwise operations, byte by byte (a modelling device for core::arch, cited below). *)
Definition bitwise (n : nat) (f : N -> N -> N) (a b : reg) : reg :=
  map (fun k => n2b (f (b2n (getb a k)) (b2n (getb b k)))) (seq 0 n).
(** _mm_xor_si128: blake2b/src/sse41.rs:52; blake2s/src/sse41.rs:52. *)
Definition mm_xor_si128 := bitwise 16 N.lxor.
(** _mm256_xor_si256: blake2b/src/avx2.rs:57; blake2s/src/avx2.rs:51. *)
Definition mm256_xor_si256 := bitwise 32 N.lxor.
(** _mm_or_si128: blake2b/src/sse41.rs:84, 89, 94 ..; blake2s/src/sse41.rs:76, 81, 86 ... *)
Definition mm_or_si128 := bitwise 16 N.lor.
(** _mm256_or_si256: blake2b/src/avx2.rs:88, 93, 98 ..; blake2s/src/avx2.rs:77, 82, 87 ... *)
Definition mm256_or_si256 := bitwise 32 N.lor.
(** _mm_and_si128: blake2b/src/sse41.rs:41; blake2s/src/sse41.rs:41. *)
Definition mm_and_si128 := bitwise 16 N.land.
(** _mm256_and_si256: blake2b/src/avx2.rs:46; blake2s/src/avx2.rs:40. *)
Definition mm256_and_si256 := bitwise 32 N.land.
(** andnot(a, b) = (not a) and b.
    _mm_andnot_si128: blake2b/src/sse41.rs:47; blake2s/src/sse41.rs:47. *)
Definition mm_andnot_si128 := bitwise 16 (fun x y => N.ldiff y x).
(** _mm256_andnot_si256: blake2b/src/avx2.rs:52; blake2s/src/avx2.rs:46. *)
Definition mm256_andnot_si256 := bitwise 32 (fun x y => N.ldiff y x).

(** *** Data movement. *)

(** Two-bit field [i] of an immediate (see _MM_SHUFFLE, blake2b/src/avx2.rs:71-75). *)
Definition sel2 (imm : N) (i : nat) : nat := N.to_nat (N.land (N.shiftr imm (2 * N.of_nat i)) 3).
(** Bit [i] of an immediate; a modelling device for core::arch, whose operations are cited below. *)
Definition bit (imm : N) (i : nat) : bool := N.testbit imm (N.of_nat i).

(** The sse41.rs/avx2.rs macro _MM_SHUFFLE (blake2b/src/avx2.rs:71-75 and copies). *)
Definition MM_SHUFFLE (z y x w : N) : N :=
  N.lor (N.lor (N.lor (N.shiftl z 6) (N.shiftl y 4)) (N.shiftl x 2)) w.

(** A 32-bit lane; a modelling device for core::arch, whose operations are cited below. *)
Definition dword (r : reg) (i : nat) := bytes r (4 * i) 4.
(** A 64-bit lane; a modelling device for core::arch, whose operations are cited below. *)
Definition qword (r : reg) (i : nat) := bytes r (8 * i) 8.
(** A 16-bit lane; a modelling device for core::arch, whose operations are cited below. *)
Definition word16 (r : reg) (i : nat) := bytes r (2 * i) 2.
(** The low half; a modelling device for core::arch, whose operations are cited below. *)
Definition lo128 (r : reg) := bytes r 0 16.
(** The high half; a modelling device for core::arch, whose operations are cited below. *)
Definition hi128 (r : reg) := bytes r 16 16.

(** Most 256-bit AVX2 data movements act on each 128-bit half separately (a modelling device for core::arch). *)
Definition halves1 (f : reg -> reg) (a : reg) : reg := f (lo128 a) ++ f (hi128 a).
(** Both halves separately, two operands; a modelling device for core::arch, whose operations are cited below. *)
Definition halves2 (f : reg -> reg -> reg) (a b : reg) : reg :=
  f (lo128 a) (lo128 b) ++ f (hi128 a) (hi128 b).

(** _mm_unpacklo_epi32: blake2s/src/sse41.rs:228, 292, 349 ... *)
Definition mm_unpacklo_epi32 (a b : reg) : reg := dword a 0 ++ dword b 0 ++ dword a 1 ++ dword b 1.
(** _mm_unpackhi_epi32: blake2s/src/sse41.rs:215, 223, 247 ... *)
Definition mm_unpackhi_epi32 (a b : reg) : reg := dword a 2 ++ dword b 2 ++ dword a 3 ++ dword b 3.
(** _mm_unpacklo_epi64: blake2s/src/sse41.rs:268, 274, 293 ... *)
Definition mm_unpacklo_epi64 (a b : reg) : reg := qword a 0 ++ qword b 0.
(** _mm_unpackhi_epi64: blake2s/src/sse41.rs:269, 273, 278 ... *)
Definition mm_unpackhi_epi64 (a b : reg) : reg := qword a 1 ++ qword b 1.
(** _mm256_unpacklo_epi32: blake2s/src/avx2.rs:299, 301, 303 ... *)
Definition mm256_unpacklo_epi32 := halves2 mm_unpacklo_epi32.
(** _mm256_unpackhi_epi32: blake2s/src/avx2.rs:300, 302, 304 ... *)
Definition mm256_unpackhi_epi32 := halves2 mm_unpackhi_epi32.
(** _mm256_unpacklo_epi64: blake2b/src/avx2.rs:178, 179, 187 ..; blake2s/src/avx2.rs:309, 311, 313 ... *)
Definition mm256_unpacklo_epi64 := halves2 mm_unpacklo_epi64.
(** _mm256_unpackhi_epi64: blake2b/src/avx2.rs:182, 183, 191 ..; blake2s/src/avx2.rs:310, 312, 314 ... *)
Definition mm256_unpackhi_epi64 := halves2 mm_unpackhi_epi64.

(** blend: a set bit selects from the second operand.
    _mm_blend_epi16: blake2s/src/sse41.rs:191, 193, 199 ... *)
Definition mm_blend_epi16 (a b : reg) (imm : N) : reg :=
  flat_map (fun i => if bit imm i then word16 b i else word16 a i) (seq 0 8).
(** _mm256_blend_epi32: blake2b/src/avx2.rs:180, 184, 189 ... *)
Definition mm256_blend_epi32 (a b : reg) (imm : N) : reg :=
  flat_map (fun i => if bit imm i then dword b i else dword a i) (seq 0 8).

(** alignr: the concatenation a:b (b least significant) shifted right by [k] bytes.
    _mm_alignr_epi8: blake2s/src/sse41.rs:262. *)
Definition mm_alignr_epi8 (a b : reg) (k : nat) : reg := bytes (bytes b 0 16 ++ bytes a 0 16) k 16.
(** _mm256_alignr_epi8: blake2b/src/avx2.rs:203, 211, 218 ... *)
Definition mm256_alignr_epi8 (a b : reg) (k : nat) : reg :=
  halves2 (fun x y => mm_alignr_epi8 x y k) a b.

(** _mm_shuffle_epi32: blake2s/src/sse41.rs:138, 139, 140 ... *)
Definition mm_shuffle_epi32 (a : reg) (imm : N) : reg :=
  flat_map (fun i => dword a (sel2 imm i)) (seq 0 4).
(** _mm256_shuffle_epi32: blake2b/src/avx2.rs:248, 312. *)
Definition mm256_shuffle_epi32 (a : reg) (imm : N) : reg :=
  halves1 (fun x => mm_shuffle_epi32 x imm) a.
(** _mm_shuffle_ps: blake2s/src/sse41.rs:176, 182. *)
Definition mm_shuffle_ps (a b : reg) (imm : N) : reg :=
  dword a (sel2 imm 0) ++ dword a (sel2 imm 1) ++ dword b (sel2 imm 2) ++ dword b (sel2 imm 3).
(** _mm_shufflehi_epi16: blake2s/src/sse41.rs:360. *)
Definition mm_shufflehi_epi16 (a : reg) (imm : N) : reg :=
  bytes a 0 8 ++ flat_map (fun i => word16 a (4 + sel2 imm i)) (seq 0 4).
(** _mm256_permute4x64_epi64: blake2b/src/avx2.rs:133, 134, 135 ... *)
Definition mm256_permute4x64_epi64 (a : reg) (imm : N) : reg :=
  flat_map (fun i => qword a (sel2 imm i)) (seq 0 4).

(** Whole-register byte shifts.
    _mm_slli_si128: blake2s/src/sse41.rs:200, 210, 216 ... *)
Definition mm_slli_si128 (a : reg) (k : nat) : reg := bytes (repeat x00 k ++ bytes a 0 16) 0 16.
(** _mm_srli_si128: blake2s/src/sse41.rs:235, 295, 301 ... *)
Definition mm_srli_si128 (a : reg) (k : nat) : reg := bytes (bytes a 0 16 ++ repeat x00 k) k 16.

(** _mm256_broadcastsi128_si256: blake2b/src/avx2.rs:162, 163, 164 ... *)
Definition mm256_broadcastsi128_si256 (a : reg) : reg := lo128 a ++ lo128 a.

(** permute2x128: control bits 1:0 and 5:4 select a half, bits 3 and 7 zero it (blake2b/src/avx2.rs:670-671). *)
Definition half_select (a b : reg) (c : N) : reg :=
  if N.testbit c 3 then repeat x00 16
  else match N.land c 3 with
       | 0 => lo128 a
       | 1 => hi128 a
       | 2 => lo128 b
       | _ => hi128 b
       end.
(** _mm256_permute2x128_si256: blake2b/src/avx2.rs:670, 671; blake2s/src/avx2.rs:276, 277. *)
Definition mm256_permute2x128_si256 (a b : reg) (imm : N) : reg :=
  half_select a b (N.land imm 15) ++ half_select a b (N.shiftr imm 4).

(** castps_si128 / castsi128_ps reinterpret the same 128 bits (blake2s/src/sse41.rs:176-190). *)
Definition mm_castps_si128 (a : reg) : reg := a.
(** _mm_castsi128_ps: blake2s/src/sse41.rs:177, 178, 183 ... *)
Definition mm_castsi128_ps (a : reg) : reg := a.

(** Unaligned load of a byte range that is statically inside its array
    (arrays of BLOCKBYTES bytes); [off] in bytes.  loadu: blake2b/src/avx2.rs:18-21, 30-32, 162-169, 746-780. *)
Definition loadu_bytes (n : nat) (mem : list byte) (off : nat) : reg := bytes mem off n.
(** Unaligned load of an array of words ([w] bytes each, x86 is little-endian): blake2b/src/avx2.rs:18-21, 702-723. *)
Definition load_words (w : nat) (ws : list N) : reg := from_lanes w ws.
(** Unaligned store or transmute to words: blake2b/src/avx2.rs:24-27, 726-743, 801-807, sse41.rs:282-286. *)
Definition store_words (w n : nat) (r : reg) : list N := map (lane w r) (seq 0 n).
