(** The x86 intrinsics that the vendored C library benches/blake2-avx2-sneves uses beyond those of
    Intrinsics.v, with the same representation of registers (paths below are relative to
    benches/blake2-avx2-sneves/).  As in Intrinsics.v, what an instruction does is taken from
    Intel's documentation and is part of the trusted base.  No proofs here. *)
From Coq Require Import ZArith NArith List Bool.
From Verif Require Import Base Intrinsics.
Import ListNotations.
Open Scope N_scope.

(** _mm_shuffle_epi8: byte k of the result is zero if bit 7 of control byte k is set, else the byte
    of [a] selected by its low four bits.  blake2-avx2/blake2s-common.h:39, 41. *)
Definition mm_shuffle_epi8 (a b : reg) : reg :=
  map (fun k => let c := b2n (getb b k) in
                if N.testbit c 7 then x00 else getb a (N.to_nat (N.land c 15))) (seq 0 16).
(** _mm256_shuffle_epi8, each half on its own: blake2-avx2/blake2b-common.h:44-45, blake2s-common.h:63, 65. *)
Definition mm256_shuffle_epi8 := halves2 mm_shuffle_epi8.

(** _mm256_setr_epi8, its 32 arguments as a list (byte 0 first): blake2-avx2/blake2b-common.h:30-34. *)
Definition mm256_setr_epi8 (l : list N) : reg := map n2b l.
(** _mm_set_epi8 and _mm256_set_epi8, the arguments as a list (byte 0 last):
    blake2-avx2/blake2s-common.h:27, 29, 50-54. *)
Definition set_epi8 (l : list N) : reg := map n2b (rev l).
(** _mm256_set_epi64x (lane 0 last): blake2-avx2/blake2b.c:155, 165, blake2bp.c:170, 181, 410, 448, 457-458. *)
Definition mm256_set_epi64x (e3 e2 e1 e0 : N) : reg := from_lanes 8 [e0; e1; e2; e3].
(** _mm_set_epi32 (lane 0 last): blake2-avx2/blake2bp.c:337, blake2sp.c:165, 205. *)
Definition mm_set_epi32 (e3 e2 e1 e0 : N) : reg := from_lanes 4 [e0; e1; e2; e3].
(** _mm256_set_epi32 (lane 0 last): blake2-avx2/blake2sp.c:364, 476, 518, 545, 548, 556. *)
Definition mm256_set_epi32 (e7 e6 e5 e4 e3 e2 e1 e0 : N) : reg :=
  from_lanes 4 [e0; e1; e2; e3; e4; e5; e6; e7].
(** _mm256_setzero_si256: blake2-avx2/blake2bp.c:451, 459, blake2sp.c:543. *)
Definition mm256_setzero_si256 : reg := repeat x00 32.

(** Lane-wise subtraction; a modelling device for the next two. *)
Definition sub_lanes (w n : nat) :=
  map2_lanes w n (fun x y => (x + (lane_mod w - y)) mod lane_mod w).
(** _mm256_sub_epi64: blake2-avx2/blake2bp.c:471. *)
Definition mm256_sub_epi64 := sub_lanes 8 4.
(** _mm256_sub_epi32: blake2-avx2/blake2sp.c:548, 560. *)
Definition mm256_sub_epi32 := sub_lanes 4 8.

(** A 64-bit lane as a signed number; for the comparison below (blake2-avx2/blake2bp.c:470-474). *)
Definition signed64 (x : N) : Z := if x <? 2 ^ 63 then Z.of_N x else (Z.of_N x - 2 ^ 64)%Z.
(** _mm256_cmpgt_epi64, a signed comparison: blake2-avx2/blake2bp.c:470, 472, 474. *)
Definition mm256_cmpgt_epi64 :=
  map2_lanes 8 4 (fun x y => if Z.ltb (signed64 y) (signed64 x) then lane_mod 8 - 1 else 0).
(** _mm256_blendv_epi8: bit 7 of a mask byte selects from the second operand
    (blake2-avx2/blake2bp.c:471, 473). *)
Definition mm256_blendv_epi8 (a b m : reg) : reg :=
  map (fun k => if N.testbit (b2n (getb m k)) 7 then getb b k else getb a k) (seq 0 32).
(** _mm256_max_epu32: blake2-avx2/blake2sp.c:535. *)
Definition mm256_max_epu32 := map2_lanes 4 8 N.max.
(** _mm256_min_epu32: blake2-avx2/blake2sp.c:551. *)
Definition mm256_min_epu32 := map2_lanes 4 8 N.min.

(** The gathers: lane i of the result is loaded from base + index(i) * scale.  [mem] is the memory
    at the base pointer.  Simplification: an index is read as unsigned; the ones used are constants
    below 2^31, and the loads they cause are inside the message block (C54_tables_in_bounds).
    _mm256_i32gather_epi64: blake2-avx2/blake2b.c:66-73, blake2bp.c:81-88, 335-339. *)
Definition mm256_i32gather_epi64 (mem : list byte) (vindex : reg) (scale : nat) : reg :=
  flat_map (fun i => bytes mem (N.to_nat (lane 4 vindex i) * scale) 8) (seq 0 4).
(** _mm_i32gather_epi32: blake2-avx2/blake2sp.c:82-89. *)
Definition mm_i32gather_epi32 (mem : list byte) (vindex : reg) (scale : nat) : reg :=
  flat_map (fun i => bytes mem (N.to_nat (lane 4 vindex i) * scale) 4) (seq 0 4).
(** _mm256_i32gather_epi32: blake2-avx2/blake2sp.c:362-366. *)
Definition mm256_i32gather_epi32 (mem : list byte) (vindex : reg) (scale : nat) : reg :=
  flat_map (fun i => bytes mem (N.to_nat (lane 4 vindex i) * scale) 4) (seq 0 8).
