(** The message-loading macros of the vendored C library
    benches/blake2-avx2-sneves (paths below are relative to that directory), one definition per
    macro, for the two header pairs its preprocessor switches choose between
    (blake2-avx2/blake2b.c:41-46, blake2bp.c:56-61, blake2sp.c:57-62).  The temporaries t0, t1 of
    the C macros are assigned before they are used in every macro, so they are local here; the
    macro's argument (b0, b1, buf), which it assigns last, is the result.  No proofs here. *)
From Coq Require Import NArith List.
From Verif Require Import Base Intrinsics SnevesIntrinsics.
Import ListNotations.
Open Scope N_scope.

(** m0 .. m7 of DECLARE_MESSAGE_WORDS, 256-bit registers: blake2-avx2/blake2b.c:118-127, blake2bp.c:133-142. *)
Definition regs8 : Type := reg * reg * reg * reg * reg * reg * reg * reg.
(** m0 .. m3 of DECLARE_MESSAGE_WORDS, 128-bit registers: blake2-avx2/blake2sp.c:132-137. *)
Definition regs4 : Type := reg * reg * reg * reg.
(** m0 .. m15 as integers: blake2-avx2/blake2b.c:129-145, blake2bp.c:144-160, blake2sp.c:139-155. *)
Definition words16 : Type := N * N * N * N * N * N * N * N * N * N * N * N * N * N * N * N.

(** ** blake2b-load-avx2.h: permutation by shuffles *)

(** BLAKE2B_LOAD_MSG_0_1: blake2-avx2/blake2b-load-avx2.h:4-8. *)
Definition b_shuffles_0_1 (m : regs8) : reg :=
  let '(m0, m1, m2, m3, m4, m5, m6, m7) := m in
  let t0 := mm256_unpacklo_epi64 m0 m1 in
  let t1 := mm256_unpacklo_epi64 m2 m3 in
  mm256_blend_epi32 t0 t1 0xF0.
(** BLAKE2B_LOAD_MSG_0_2: blake2-avx2/blake2b-load-avx2.h:10-15. *)
Definition b_shuffles_0_2 (m : regs8) : reg :=
  let '(m0, m1, m2, m3, m4, m5, m6, m7) := m in
  let t0 := mm256_unpackhi_epi64 m0 m1 in
  let t1 := mm256_unpackhi_epi64 m2 m3 in
  mm256_blend_epi32 t0 t1 0xF0.
(** BLAKE2B_LOAD_MSG_0_3: blake2-avx2/blake2b-load-avx2.h:17-22. *)
Definition b_shuffles_0_3 (m : regs8) : reg :=
  let '(m0, m1, m2, m3, m4, m5, m6, m7) := m in
  let t0 := mm256_unpacklo_epi64 m7 m4 in
  let t1 := mm256_unpacklo_epi64 m5 m6 in
  mm256_blend_epi32 t0 t1 0xF0.
(** BLAKE2B_LOAD_MSG_0_4: blake2-avx2/blake2b-load-avx2.h:24-29. *)
Definition b_shuffles_0_4 (m : regs8) : reg :=
  let '(m0, m1, m2, m3, m4, m5, m6, m7) := m in
  let t0 := mm256_unpackhi_epi64 m7 m4 in
  let t1 := mm256_unpackhi_epi64 m5 m6 in
  mm256_blend_epi32 t0 t1 0xF0.
(** BLAKE2B_LOAD_MSG_1_1: blake2-avx2/blake2b-load-avx2.h:31-36. *)
Definition b_shuffles_1_1 (m : regs8) : reg :=
  let '(m0, m1, m2, m3, m4, m5, m6, m7) := m in
  let t0 := mm256_unpacklo_epi64 m7 m2 in
  let t1 := mm256_unpackhi_epi64 m4 m6 in
  mm256_blend_epi32 t0 t1 0xF0.
(** BLAKE2B_LOAD_MSG_1_2: blake2-avx2/blake2b-load-avx2.h:38-43. *)
Definition b_shuffles_1_2 (m : regs8) : reg :=
  let '(m0, m1, m2, m3, m4, m5, m6, m7) := m in
  let t0 := mm256_unpacklo_epi64 m5 m4 in
  let t1 := mm256_alignr_epi8 m3 m7 8%nat in
  mm256_blend_epi32 t0 t1 0xF0.
(** BLAKE2B_LOAD_MSG_1_3: blake2-avx2/blake2b-load-avx2.h:45-50. *)
Definition b_shuffles_1_3 (m : regs8) : reg :=
  let '(m0, m1, m2, m3, m4, m5, m6, m7) := m in
  let t0 := mm256_unpackhi_epi64 m2 m0 in
  let t1 := mm256_blend_epi32 m5 m0 0x33 in
  mm256_blend_epi32 t0 t1 0xF0.
(** BLAKE2B_LOAD_MSG_1_4: blake2-avx2/blake2b-load-avx2.h:52-57. *)
Definition b_shuffles_1_4 (m : regs8) : reg :=
  let '(m0, m1, m2, m3, m4, m5, m6, m7) := m in
  let t0 := mm256_alignr_epi8 m6 m1 8%nat in
  let t1 := mm256_blend_epi32 m3 m1 0x33 in
  mm256_blend_epi32 t0 t1 0xF0.
(** BLAKE2B_LOAD_MSG_2_1: blake2-avx2/blake2b-load-avx2.h:59-64. *)
Definition b_shuffles_2_1 (m : regs8) : reg :=
  let '(m0, m1, m2, m3, m4, m5, m6, m7) := m in
  let t0 := mm256_alignr_epi8 m6 m5 8%nat in
  let t1 := mm256_unpackhi_epi64 m2 m7 in
  mm256_blend_epi32 t0 t1 0xF0.
(** BLAKE2B_LOAD_MSG_2_2: blake2-avx2/blake2b-load-avx2.h:66-71. *)
Definition b_shuffles_2_2 (m : regs8) : reg :=
  let '(m0, m1, m2, m3, m4, m5, m6, m7) := m in
  let t0 := mm256_unpacklo_epi64 m4 m0 in
  let t1 := mm256_blend_epi32 m6 m1 0x33 in
  mm256_blend_epi32 t0 t1 0xF0.
(** BLAKE2B_LOAD_MSG_2_3: blake2-avx2/blake2b-load-avx2.h:73-78. *)
Definition b_shuffles_2_3 (m : regs8) : reg :=
  let '(m0, m1, m2, m3, m4, m5, m6, m7) := m in
  let t0 := mm256_alignr_epi8 m5 m4 8%nat in
  let t1 := mm256_unpackhi_epi64 m1 m3 in
  mm256_blend_epi32 t0 t1 0xF0.
(** BLAKE2B_LOAD_MSG_2_4: blake2-avx2/blake2b-load-avx2.h:80-85. *)
Definition b_shuffles_2_4 (m : regs8) : reg :=
  let '(m0, m1, m2, m3, m4, m5, m6, m7) := m in
  let t0 := mm256_unpacklo_epi64 m2 m7 in
  let t1 := mm256_blend_epi32 m0 m3 0x33 in
  mm256_blend_epi32 t0 t1 0xF0.
(** BLAKE2B_LOAD_MSG_3_1: blake2-avx2/blake2b-load-avx2.h:87-92. *)
Definition b_shuffles_3_1 (m : regs8) : reg :=
  let '(m0, m1, m2, m3, m4, m5, m6, m7) := m in
  let t0 := mm256_unpackhi_epi64 m3 m1 in
  let t1 := mm256_unpackhi_epi64 m6 m5 in
  mm256_blend_epi32 t0 t1 0xF0.
(** BLAKE2B_LOAD_MSG_3_2: blake2-avx2/blake2b-load-avx2.h:94-99. *)
Definition b_shuffles_3_2 (m : regs8) : reg :=
  let '(m0, m1, m2, m3, m4, m5, m6, m7) := m in
  let t0 := mm256_unpackhi_epi64 m4 m0 in
  let t1 := mm256_unpacklo_epi64 m6 m7 in
  mm256_blend_epi32 t0 t1 0xF0.
(** BLAKE2B_LOAD_MSG_3_3: blake2-avx2/blake2b-load-avx2.h:101-106. *)
Definition b_shuffles_3_3 (m : regs8) : reg :=
  let '(m0, m1, m2, m3, m4, m5, m6, m7) := m in
  let t0 := mm256_alignr_epi8 m1 m7 8%nat in
  let t1 := mm256_shuffle_epi32 m2 (MM_SHUFFLE 1 0 3 2) in
  mm256_blend_epi32 t0 t1 0xF0.
(** BLAKE2B_LOAD_MSG_3_4: blake2-avx2/blake2b-load-avx2.h:108-113. *)
Definition b_shuffles_3_4 (m : regs8) : reg :=
  let '(m0, m1, m2, m3, m4, m5, m6, m7) := m in
  let t0 := mm256_unpacklo_epi64 m4 m3 in
  let t1 := mm256_unpacklo_epi64 m5 m0 in
  mm256_blend_epi32 t0 t1 0xF0.
(** BLAKE2B_LOAD_MSG_4_1: blake2-avx2/blake2b-load-avx2.h:115-120. *)
Definition b_shuffles_4_1 (m : regs8) : reg :=
  let '(m0, m1, m2, m3, m4, m5, m6, m7) := m in
  let t0 := mm256_unpackhi_epi64 m4 m2 in
  let t1 := mm256_unpacklo_epi64 m1 m5 in
  mm256_blend_epi32 t0 t1 0xF0.
(** BLAKE2B_LOAD_MSG_4_2: blake2-avx2/blake2b-load-avx2.h:122-127. *)
Definition b_shuffles_4_2 (m : regs8) : reg :=
  let '(m0, m1, m2, m3, m4, m5, m6, m7) := m in
  let t0 := mm256_blend_epi32 m3 m0 0x33 in
  let t1 := mm256_blend_epi32 m7 m2 0x33 in
  mm256_blend_epi32 t0 t1 0xF0.
(** BLAKE2B_LOAD_MSG_4_3: blake2-avx2/blake2b-load-avx2.h:129-134. *)
Definition b_shuffles_4_3 (m : regs8) : reg :=
  let '(m0, m1, m2, m3, m4, m5, m6, m7) := m in
  let t0 := mm256_alignr_epi8 m7 m1 8%nat in
  let t1 := mm256_alignr_epi8 m3 m5 8%nat in
  mm256_blend_epi32 t0 t1 0xF0.
(** BLAKE2B_LOAD_MSG_4_4: blake2-avx2/blake2b-load-avx2.h:136-141. *)
Definition b_shuffles_4_4 (m : regs8) : reg :=
  let '(m0, m1, m2, m3, m4, m5, m6, m7) := m in
  let t0 := mm256_unpackhi_epi64 m6 m0 in
  let t1 := mm256_unpacklo_epi64 m6 m4 in
  mm256_blend_epi32 t0 t1 0xF0.
(** BLAKE2B_LOAD_MSG_5_1: blake2-avx2/blake2b-load-avx2.h:143-148. *)
Definition b_shuffles_5_1 (m : regs8) : reg :=
  let '(m0, m1, m2, m3, m4, m5, m6, m7) := m in
  let t0 := mm256_unpacklo_epi64 m1 m3 in
  let t1 := mm256_unpacklo_epi64 m0 m4 in
  mm256_blend_epi32 t0 t1 0xF0.
(** BLAKE2B_LOAD_MSG_5_2: blake2-avx2/blake2b-load-avx2.h:150-155. *)
Definition b_shuffles_5_2 (m : regs8) : reg :=
  let '(m0, m1, m2, m3, m4, m5, m6, m7) := m in
  let t0 := mm256_unpacklo_epi64 m6 m5 in
  let t1 := mm256_unpackhi_epi64 m5 m1 in
  mm256_blend_epi32 t0 t1 0xF0.
(** BLAKE2B_LOAD_MSG_5_3: blake2-avx2/blake2b-load-avx2.h:157-162. *)
Definition b_shuffles_5_3 (m : regs8) : reg :=
  let '(m0, m1, m2, m3, m4, m5, m6, m7) := m in
  let t0 := mm256_alignr_epi8 m2 m0 8%nat in
  let t1 := mm256_unpackhi_epi64 m3 m7 in
  mm256_blend_epi32 t0 t1 0xF0.
(** BLAKE2B_LOAD_MSG_5_4: blake2-avx2/blake2b-load-avx2.h:164-169. *)
Definition b_shuffles_5_4 (m : regs8) : reg :=
  let '(m0, m1, m2, m3, m4, m5, m6, m7) := m in
  let t0 := mm256_unpackhi_epi64 m4 m6 in
  let t1 := mm256_alignr_epi8 m7 m2 8%nat in
  mm256_blend_epi32 t0 t1 0xF0.
(** BLAKE2B_LOAD_MSG_6_1: blake2-avx2/blake2b-load-avx2.h:171-176. *)
Definition b_shuffles_6_1 (m : regs8) : reg :=
  let '(m0, m1, m2, m3, m4, m5, m6, m7) := m in
  let t0 := mm256_blend_epi32 m0 m6 0x33 in
  let t1 := mm256_unpacklo_epi64 m7 m2 in
  mm256_blend_epi32 t0 t1 0xF0.
(** BLAKE2B_LOAD_MSG_6_2: blake2-avx2/blake2b-load-avx2.h:178-183. *)
Definition b_shuffles_6_2 (m : regs8) : reg :=
  let '(m0, m1, m2, m3, m4, m5, m6, m7) := m in
  let t0 := mm256_unpackhi_epi64 m2 m7 in
  let t1 := mm256_alignr_epi8 m5 m6 8%nat in
  mm256_blend_epi32 t0 t1 0xF0.
(** BLAKE2B_LOAD_MSG_6_3: blake2-avx2/blake2b-load-avx2.h:185-190. *)
Definition b_shuffles_6_3 (m : regs8) : reg :=
  let '(m0, m1, m2, m3, m4, m5, m6, m7) := m in
  let t0 := mm256_unpacklo_epi64 m4 m0 in
  let t1 := mm256_blend_epi32 m4 m3 0x33 in
  mm256_blend_epi32 t0 t1 0xF0.
(** BLAKE2B_LOAD_MSG_6_4: blake2-avx2/blake2b-load-avx2.h:192-197. *)
Definition b_shuffles_6_4 (m : regs8) : reg :=
  let '(m0, m1, m2, m3, m4, m5, m6, m7) := m in
  let t0 := mm256_unpackhi_epi64 m5 m3 in
  let t1 := mm256_shuffle_epi32 m1 (MM_SHUFFLE 1 0 3 2) in
  mm256_blend_epi32 t0 t1 0xF0.
(** BLAKE2B_LOAD_MSG_7_1: blake2-avx2/blake2b-load-avx2.h:199-204. *)
Definition b_shuffles_7_1 (m : regs8) : reg :=
  let '(m0, m1, m2, m3, m4, m5, m6, m7) := m in
  let t0 := mm256_unpackhi_epi64 m6 m3 in
  let t1 := mm256_blend_epi32 m1 m6 0x33 in
  mm256_blend_epi32 t0 t1 0xF0.
(** BLAKE2B_LOAD_MSG_7_2: blake2-avx2/blake2b-load-avx2.h:206-211. *)
Definition b_shuffles_7_2 (m : regs8) : reg :=
  let '(m0, m1, m2, m3, m4, m5, m6, m7) := m in
  let t0 := mm256_alignr_epi8 m7 m5 8%nat in
  let t1 := mm256_unpackhi_epi64 m0 m4 in
  mm256_blend_epi32 t0 t1 0xF0.
(** BLAKE2B_LOAD_MSG_7_3: blake2-avx2/blake2b-load-avx2.h:213-218. *)
Definition b_shuffles_7_3 (m : regs8) : reg :=
  let '(m0, m1, m2, m3, m4, m5, m6, m7) := m in
  let t0 := mm256_blend_epi32 m2 m1 0x33 in
  let t1 := mm256_alignr_epi8 m4 m7 8%nat in
  mm256_blend_epi32 t0 t1 0xF0.
(** BLAKE2B_LOAD_MSG_7_4: blake2-avx2/blake2b-load-avx2.h:220-225. *)
Definition b_shuffles_7_4 (m : regs8) : reg :=
  let '(m0, m1, m2, m3, m4, m5, m6, m7) := m in
  let t0 := mm256_unpacklo_epi64 m5 m0 in
  let t1 := mm256_unpacklo_epi64 m2 m3 in
  mm256_blend_epi32 t0 t1 0xF0.
(** BLAKE2B_LOAD_MSG_8_1: blake2-avx2/blake2b-load-avx2.h:227-232. *)
Definition b_shuffles_8_1 (m : regs8) : reg :=
  let '(m0, m1, m2, m3, m4, m5, m6, m7) := m in
  let t0 := mm256_unpacklo_epi64 m3 m7 in
  let t1 := mm256_alignr_epi8 m0 m5 8%nat in
  mm256_blend_epi32 t0 t1 0xF0.
(** BLAKE2B_LOAD_MSG_8_2: blake2-avx2/blake2b-load-avx2.h:234-239. *)
Definition b_shuffles_8_2 (m : regs8) : reg :=
  let '(m0, m1, m2, m3, m4, m5, m6, m7) := m in
  let t0 := mm256_unpackhi_epi64 m7 m4 in
  let t1 := mm256_alignr_epi8 m4 m1 8%nat in
  mm256_blend_epi32 t0 t1 0xF0.
(** BLAKE2B_LOAD_MSG_8_3: blake2-avx2/blake2b-load-avx2.h:241-246. *)
Definition b_shuffles_8_3 (m : regs8) : reg :=
  let '(m0, m1, m2, m3, m4, m5, m6, m7) := m in
  let t0 := mm256_unpacklo_epi64 m5 m6 in
  let t1 := mm256_unpackhi_epi64 m6 m0 in
  mm256_blend_epi32 t0 t1 0xF0.
(** BLAKE2B_LOAD_MSG_8_4: blake2-avx2/blake2b-load-avx2.h:248-253. *)
Definition b_shuffles_8_4 (m : regs8) : reg :=
  let '(m0, m1, m2, m3, m4, m5, m6, m7) := m in
  let t0 := mm256_alignr_epi8 m1 m2 8%nat in
  let t1 := mm256_alignr_epi8 m2 m3 8%nat in
  mm256_blend_epi32 t0 t1 0xF0.
(** BLAKE2B_LOAD_MSG_9_1: blake2-avx2/blake2b-load-avx2.h:255-260. *)
Definition b_shuffles_9_1 (m : regs8) : reg :=
  let '(m0, m1, m2, m3, m4, m5, m6, m7) := m in
  let t0 := mm256_unpacklo_epi64 m5 m4 in
  let t1 := mm256_unpackhi_epi64 m3 m0 in
  mm256_blend_epi32 t0 t1 0xF0.
(** BLAKE2B_LOAD_MSG_9_2: blake2-avx2/blake2b-load-avx2.h:262-267. *)
Definition b_shuffles_9_2 (m : regs8) : reg :=
  let '(m0, m1, m2, m3, m4, m5, m6, m7) := m in
  let t0 := mm256_unpacklo_epi64 m1 m2 in
  let t1 := mm256_blend_epi32 m2 m3 0x33 in
  mm256_blend_epi32 t0 t1 0xF0.
(** BLAKE2B_LOAD_MSG_9_3: blake2-avx2/blake2b-load-avx2.h:269-274. *)
Definition b_shuffles_9_3 (m : regs8) : reg :=
  let '(m0, m1, m2, m3, m4, m5, m6, m7) := m in
  let t0 := mm256_unpackhi_epi64 m6 m7 in
  let t1 := mm256_unpackhi_epi64 m4 m1 in
  mm256_blend_epi32 t0 t1 0xF0.
(** BLAKE2B_LOAD_MSG_9_4: blake2-avx2/blake2b-load-avx2.h:276-281. *)
Definition b_shuffles_9_4 (m : regs8) : reg :=
  let '(m0, m1, m2, m3, m4, m5, m6, m7) := m in
  let t0 := mm256_blend_epi32 m5 m0 0x33 in
  let t1 := mm256_unpacklo_epi64 m7 m6 in
  mm256_blend_epi32 t0 t1 0xF0.
(** BLAKE2B_LOAD_MSG_10_1: blake2-avx2/blake2b-load-avx2.h:283-288. *)
Definition b_shuffles_10_1 (m : regs8) : reg :=
  let '(m0, m1, m2, m3, m4, m5, m6, m7) := m in
  let t0 := mm256_unpacklo_epi64 m0 m1 in
  let t1 := mm256_unpacklo_epi64 m2 m3 in
  mm256_blend_epi32 t0 t1 0xF0.
(** BLAKE2B_LOAD_MSG_10_2: blake2-avx2/blake2b-load-avx2.h:290-295. *)
Definition b_shuffles_10_2 (m : regs8) : reg :=
  let '(m0, m1, m2, m3, m4, m5, m6, m7) := m in
  let t0 := mm256_unpackhi_epi64 m0 m1 in
  let t1 := mm256_unpackhi_epi64 m2 m3 in
  mm256_blend_epi32 t0 t1 0xF0.
(** BLAKE2B_LOAD_MSG_10_3: blake2-avx2/blake2b-load-avx2.h:297-302. *)
Definition b_shuffles_10_3 (m : regs8) : reg :=
  let '(m0, m1, m2, m3, m4, m5, m6, m7) := m in
  let t0 := mm256_unpacklo_epi64 m7 m4 in
  let t1 := mm256_unpacklo_epi64 m5 m6 in
  mm256_blend_epi32 t0 t1 0xF0.
(** BLAKE2B_LOAD_MSG_10_4: blake2-avx2/blake2b-load-avx2.h:304-309. *)
Definition b_shuffles_10_4 (m : regs8) : reg :=
  let '(m0, m1, m2, m3, m4, m5, m6, m7) := m in
  let t0 := mm256_unpackhi_epi64 m7 m4 in
  let t1 := mm256_unpackhi_epi64 m5 m6 in
  mm256_blend_epi32 t0 t1 0xF0.
(** BLAKE2B_LOAD_MSG_11_1: blake2-avx2/blake2b-load-avx2.h:311-316. *)
Definition b_shuffles_11_1 (m : regs8) : reg :=
  let '(m0, m1, m2, m3, m4, m5, m6, m7) := m in
  let t0 := mm256_unpacklo_epi64 m7 m2 in
  let t1 := mm256_unpackhi_epi64 m4 m6 in
  mm256_blend_epi32 t0 t1 0xF0.
(** BLAKE2B_LOAD_MSG_11_2: blake2-avx2/blake2b-load-avx2.h:318-323. *)
Definition b_shuffles_11_2 (m : regs8) : reg :=
  let '(m0, m1, m2, m3, m4, m5, m6, m7) := m in
  let t0 := mm256_unpacklo_epi64 m5 m4 in
  let t1 := mm256_alignr_epi8 m3 m7 8%nat in
  mm256_blend_epi32 t0 t1 0xF0.
(** BLAKE2B_LOAD_MSG_11_3: blake2-avx2/blake2b-load-avx2.h:325-330. *)
Definition b_shuffles_11_3 (m : regs8) : reg :=
  let '(m0, m1, m2, m3, m4, m5, m6, m7) := m in
  let t0 := mm256_unpackhi_epi64 m2 m0 in
  let t1 := mm256_blend_epi32 m5 m0 0x33 in
  mm256_blend_epi32 t0 t1 0xF0.
(** BLAKE2B_LOAD_MSG_11_4: blake2-avx2/blake2b-load-avx2.h:332-337. *)
Definition b_shuffles_11_4 (m : regs8) : reg :=
  let '(m0, m1, m2, m3, m4, m5, m6, m7) := m in
  let t0 := mm256_alignr_epi8 m6 m1 8%nat in
  let t1 := mm256_blend_epi32 m3 m1 0x33 in
  mm256_blend_epi32 t0 t1 0xF0.

(** ** blake2b-load-avx2-simple.h: permutation by _mm256_set_epi64x *)

(** BLAKE2B_LOAD_MSG_0_1: blake2-avx2/blake2b-load-avx2-simple.h:4. *)
Definition b_simple_0_1 (m : words16) : reg :=
  let '(m0, m1, m2, m3, m4, m5, m6, m7, m8, m9, m10, m11, m12, m13, m14, m15) := m in
  mm256_set_epi64x m6 m4 m2 m0.
(** BLAKE2B_LOAD_MSG_0_2: blake2-avx2/blake2b-load-avx2-simple.h:5. *)
Definition b_simple_0_2 (m : words16) : reg :=
  let '(m0, m1, m2, m3, m4, m5, m6, m7, m8, m9, m10, m11, m12, m13, m14, m15) := m in
  mm256_set_epi64x m7 m5 m3 m1.
(** BLAKE2B_LOAD_MSG_0_3: blake2-avx2/blake2b-load-avx2-simple.h:6. *)
Definition b_simple_0_3 (m : words16) : reg :=
  let '(m0, m1, m2, m3, m4, m5, m6, m7, m8, m9, m10, m11, m12, m13, m14, m15) := m in
  mm256_set_epi64x m12 m10 m8 m14.
(** BLAKE2B_LOAD_MSG_0_4: blake2-avx2/blake2b-load-avx2-simple.h:7. *)
Definition b_simple_0_4 (m : words16) : reg :=
  let '(m0, m1, m2, m3, m4, m5, m6, m7, m8, m9, m10, m11, m12, m13, m14, m15) := m in
  mm256_set_epi64x m13 m11 m9 m15.
(** BLAKE2B_LOAD_MSG_1_1: blake2-avx2/blake2b-load-avx2-simple.h:8. *)
Definition b_simple_1_1 (m : words16) : reg :=
  let '(m0, m1, m2, m3, m4, m5, m6, m7, m8, m9, m10, m11, m12, m13, m14, m15) := m in
  mm256_set_epi64x m13 m9 m4 m14.
(** BLAKE2B_LOAD_MSG_1_2: blake2-avx2/blake2b-load-avx2-simple.h:9. *)
Definition b_simple_1_2 (m : words16) : reg :=
  let '(m0, m1, m2, m3, m4, m5, m6, m7, m8, m9, m10, m11, m12, m13, m14, m15) := m in
  mm256_set_epi64x m6 m15 m8 m10.
(** BLAKE2B_LOAD_MSG_1_3: blake2-avx2/blake2b-load-avx2-simple.h:10. *)
Definition b_simple_1_3 (m : words16) : reg :=
  let '(m0, m1, m2, m3, m4, m5, m6, m7, m8, m9, m10, m11, m12, m13, m14, m15) := m in
  mm256_set_epi64x m11 m0 m1 m5.
(** BLAKE2B_LOAD_MSG_1_4: blake2-avx2/blake2b-load-avx2-simple.h:11. *)
Definition b_simple_1_4 (m : words16) : reg :=
  let '(m0, m1, m2, m3, m4, m5, m6, m7, m8, m9, m10, m11, m12, m13, m14, m15) := m in
  mm256_set_epi64x m7 m2 m12 m3.
(** BLAKE2B_LOAD_MSG_2_1: blake2-avx2/blake2b-load-avx2-simple.h:12. *)
Definition b_simple_2_1 (m : words16) : reg :=
  let '(m0, m1, m2, m3, m4, m5, m6, m7, m8, m9, m10, m11, m12, m13, m14, m15) := m in
  mm256_set_epi64x m15 m5 m12 m11.
(** BLAKE2B_LOAD_MSG_2_2: blake2-avx2/blake2b-load-avx2-simple.h:13. *)
Definition b_simple_2_2 (m : words16) : reg :=
  let '(m0, m1, m2, m3, m4, m5, m6, m7, m8, m9, m10, m11, m12, m13, m14, m15) := m in
  mm256_set_epi64x m13 m2 m0 m8.
(** BLAKE2B_LOAD_MSG_2_3: blake2-avx2/blake2b-load-avx2-simple.h:14. *)
Definition b_simple_2_3 (m : words16) : reg :=
  let '(m0, m1, m2, m3, m4, m5, m6, m7, m8, m9, m10, m11, m12, m13, m14, m15) := m in
  mm256_set_epi64x m7 m3 m10 m9.
(** BLAKE2B_LOAD_MSG_2_4: blake2-avx2/blake2b-load-avx2-simple.h:15. *)
Definition b_simple_2_4 (m : words16) : reg :=
  let '(m0, m1, m2, m3, m4, m5, m6, m7, m8, m9, m10, m11, m12, m13, m14, m15) := m in
  mm256_set_epi64x m1 m6 m14 m4.
(** BLAKE2B_LOAD_MSG_3_1: blake2-avx2/blake2b-load-avx2-simple.h:16. *)
Definition b_simple_3_1 (m : words16) : reg :=
  let '(m0, m1, m2, m3, m4, m5, m6, m7, m8, m9, m10, m11, m12, m13, m14, m15) := m in
  mm256_set_epi64x m11 m13 m3 m7.
(** BLAKE2B_LOAD_MSG_3_2: blake2-avx2/blake2b-load-avx2-simple.h:17. *)
Definition b_simple_3_2 (m : words16) : reg :=
  let '(m0, m1, m2, m3, m4, m5, m6, m7, m8, m9, m10, m11, m12, m13, m14, m15) := m in
  mm256_set_epi64x m14 m12 m1 m9.
(** BLAKE2B_LOAD_MSG_3_3: blake2-avx2/blake2b-load-avx2-simple.h:18. *)
Definition b_simple_3_3 (m : words16) : reg :=
  let '(m0, m1, m2, m3, m4, m5, m6, m7, m8, m9, m10, m11, m12, m13, m14, m15) := m in
  mm256_set_epi64x m4 m5 m2 m15.
(** BLAKE2B_LOAD_MSG_3_4: blake2-avx2/blake2b-load-avx2-simple.h:19. *)
Definition b_simple_3_4 (m : words16) : reg :=
  let '(m0, m1, m2, m3, m4, m5, m6, m7, m8, m9, m10, m11, m12, m13, m14, m15) := m in
  mm256_set_epi64x m0 m10 m6 m8.
(** BLAKE2B_LOAD_MSG_4_1: blake2-avx2/blake2b-load-avx2-simple.h:20. *)
Definition b_simple_4_1 (m : words16) : reg :=
  let '(m0, m1, m2, m3, m4, m5, m6, m7, m8, m9, m10, m11, m12, m13, m14, m15) := m in
  mm256_set_epi64x m10 m2 m5 m9.
(** BLAKE2B_LOAD_MSG_4_2: blake2-avx2/blake2b-load-avx2-simple.h:21. *)
Definition b_simple_4_2 (m : words16) : reg :=
  let '(m0, m1, m2, m3, m4, m5, m6, m7, m8, m9, m10, m11, m12, m13, m14, m15) := m in
  mm256_set_epi64x m15 m4 m7 m0.
(** BLAKE2B_LOAD_MSG_4_3: blake2-avx2/blake2b-load-avx2-simple.h:22. *)
Definition b_simple_4_3 (m : words16) : reg :=
  let '(m0, m1, m2, m3, m4, m5, m6, m7, m8, m9, m10, m11, m12, m13, m14, m15) := m in
  mm256_set_epi64x m6 m11 m14 m3.
(** BLAKE2B_LOAD_MSG_4_4: blake2-avx2/blake2b-load-avx2-simple.h:23. *)
Definition b_simple_4_4 (m : words16) : reg :=
  let '(m0, m1, m2, m3, m4, m5, m6, m7, m8, m9, m10, m11, m12, m13, m14, m15) := m in
  mm256_set_epi64x m8 m12 m1 m13.
(** BLAKE2B_LOAD_MSG_5_1: blake2-avx2/blake2b-load-avx2-simple.h:24. *)
Definition b_simple_5_1 (m : words16) : reg :=
  let '(m0, m1, m2, m3, m4, m5, m6, m7, m8, m9, m10, m11, m12, m13, m14, m15) := m in
  mm256_set_epi64x m8 m0 m6 m2.
(** BLAKE2B_LOAD_MSG_5_2: blake2-avx2/blake2b-load-avx2-simple.h:25. *)
Definition b_simple_5_2 (m : words16) : reg :=
  let '(m0, m1, m2, m3, m4, m5, m6, m7, m8, m9, m10, m11, m12, m13, m14, m15) := m in
  mm256_set_epi64x m3 m11 m10 m12.
(** BLAKE2B_LOAD_MSG_5_3: blake2-avx2/blake2b-load-avx2-simple.h:26. *)
Definition b_simple_5_3 (m : words16) : reg :=
  let '(m0, m1, m2, m3, m4, m5, m6, m7, m8, m9, m10, m11, m12, m13, m14, m15) := m in
  mm256_set_epi64x m15 m7 m4 m1.
(** BLAKE2B_LOAD_MSG_5_4: blake2-avx2/blake2b-load-avx2-simple.h:27. *)
Definition b_simple_5_4 (m : words16) : reg :=
  let '(m0, m1, m2, m3, m4, m5, m6, m7, m8, m9, m10, m11, m12, m13, m14, m15) := m in
  mm256_set_epi64x m14 m5 m13 m9.
(** BLAKE2B_LOAD_MSG_6_1: blake2-avx2/blake2b-load-avx2-simple.h:28. *)
Definition b_simple_6_1 (m : words16) : reg :=
  let '(m0, m1, m2, m3, m4, m5, m6, m7, m8, m9, m10, m11, m12, m13, m14, m15) := m in
  mm256_set_epi64x m4 m14 m1 m12.
(** BLAKE2B_LOAD_MSG_6_2: blake2-avx2/blake2b-load-avx2-simple.h:29. *)
Definition b_simple_6_2 (m : words16) : reg :=
  let '(m0, m1, m2, m3, m4, m5, m6, m7, m8, m9, m10, m11, m12, m13, m14, m15) := m in
  mm256_set_epi64x m10 m13 m15 m5.
(** BLAKE2B_LOAD_MSG_6_3: blake2-avx2/blake2b-load-avx2-simple.h:30. *)
Definition b_simple_6_3 (m : words16) : reg :=
  let '(m0, m1, m2, m3, m4, m5, m6, m7, m8, m9, m10, m11, m12, m13, m14, m15) := m in
  mm256_set_epi64x m9 m6 m0 m8.
(** BLAKE2B_LOAD_MSG_6_4: blake2-avx2/blake2b-load-avx2-simple.h:31. *)
Definition b_simple_6_4 (m : words16) : reg :=
  let '(m0, m1, m2, m3, m4, m5, m6, m7, m8, m9, m10, m11, m12, m13, m14, m15) := m in
  mm256_set_epi64x m2 m3 m7 m11.
(** BLAKE2B_LOAD_MSG_7_1: blake2-avx2/blake2b-load-avx2-simple.h:32. *)
Definition b_simple_7_1 (m : words16) : reg :=
  let '(m0, m1, m2, m3, m4, m5, m6, m7, m8, m9, m10, m11, m12, m13, m14, m15) := m in
  mm256_set_epi64x m3 m12 m7 m13.
(** BLAKE2B_LOAD_MSG_7_2: blake2-avx2/blake2b-load-avx2-simple.h:33. *)
Definition b_simple_7_2 (m : words16) : reg :=
  let '(m0, m1, m2, m3, m4, m5, m6, m7, m8, m9, m10, m11, m12, m13, m14, m15) := m in
  mm256_set_epi64x m9 m1 m14 m11.
(** BLAKE2B_LOAD_MSG_7_3: blake2-avx2/blake2b-load-avx2-simple.h:34. *)
Definition b_simple_7_3 (m : words16) : reg :=
  let '(m0, m1, m2, m3, m4, m5, m6, m7, m8, m9, m10, m11, m12, m13, m14, m15) := m in
  mm256_set_epi64x m8 m15 m5 m2.
(** BLAKE2B_LOAD_MSG_7_4: blake2-avx2/blake2b-load-avx2-simple.h:35. *)
Definition b_simple_7_4 (m : words16) : reg :=
  let '(m0, m1, m2, m3, m4, m5, m6, m7, m8, m9, m10, m11, m12, m13, m14, m15) := m in
  mm256_set_epi64x m6 m4 m0 m10.
(** BLAKE2B_LOAD_MSG_8_1: blake2-avx2/blake2b-load-avx2-simple.h:36. *)
Definition b_simple_8_1 (m : words16) : reg :=
  let '(m0, m1, m2, m3, m4, m5, m6, m7, m8, m9, m10, m11, m12, m13, m14, m15) := m in
  mm256_set_epi64x m0 m11 m14 m6.
(** BLAKE2B_LOAD_MSG_8_2: blake2-avx2/blake2b-load-avx2-simple.h:37. *)
Definition b_simple_8_2 (m : words16) : reg :=
  let '(m0, m1, m2, m3, m4, m5, m6, m7, m8, m9, m10, m11, m12, m13, m14, m15) := m in
  mm256_set_epi64x m8 m3 m9 m15.
(** BLAKE2B_LOAD_MSG_8_3: blake2-avx2/blake2b-load-avx2-simple.h:38. *)
Definition b_simple_8_3 (m : words16) : reg :=
  let '(m0, m1, m2, m3, m4, m5, m6, m7, m8, m9, m10, m11, m12, m13, m14, m15) := m in
  mm256_set_epi64x m1 m13 m12 m10.
(** BLAKE2B_LOAD_MSG_8_4: blake2-avx2/blake2b-load-avx2-simple.h:39. *)
Definition b_simple_8_4 (m : words16) : reg :=
  let '(m0, m1, m2, m3, m4, m5, m6, m7, m8, m9, m10, m11, m12, m13, m14, m15) := m in
  mm256_set_epi64x m4 m7 m2 m5.
(** BLAKE2B_LOAD_MSG_9_1: blake2-avx2/blake2b-load-avx2-simple.h:40. *)
Definition b_simple_9_1 (m : words16) : reg :=
  let '(m0, m1, m2, m3, m4, m5, m6, m7, m8, m9, m10, m11, m12, m13, m14, m15) := m in
  mm256_set_epi64x m1 m7 m8 m10.
(** BLAKE2B_LOAD_MSG_9_2: blake2-avx2/blake2b-load-avx2-simple.h:41. *)
Definition b_simple_9_2 (m : words16) : reg :=
  let '(m0, m1, m2, m3, m4, m5, m6, m7, m8, m9, m10, m11, m12, m13, m14, m15) := m in
  mm256_set_epi64x m5 m6 m4 m2.
(** BLAKE2B_LOAD_MSG_9_3: blake2-avx2/blake2b-load-avx2-simple.h:42. *)
Definition b_simple_9_3 (m : words16) : reg :=
  let '(m0, m1, m2, m3, m4, m5, m6, m7, m8, m9, m10, m11, m12, m13, m14, m15) := m in
  mm256_set_epi64x m3 m9 m15 m13.
(** BLAKE2B_LOAD_MSG_9_4: blake2-avx2/blake2b-load-avx2-simple.h:43. *)
Definition b_simple_9_4 (m : words16) : reg :=
  let '(m0, m1, m2, m3, m4, m5, m6, m7, m8, m9, m10, m11, m12, m13, m14, m15) := m in
  mm256_set_epi64x m12 m14 m11 m0.
(** BLAKE2B_LOAD_MSG_10_1: blake2-avx2/blake2b-load-avx2-simple.h:44. *)
Definition b_simple_10_1 (m : words16) : reg :=
  let '(m0, m1, m2, m3, m4, m5, m6, m7, m8, m9, m10, m11, m12, m13, m14, m15) := m in
  mm256_set_epi64x m6 m4 m2 m0.
(** BLAKE2B_LOAD_MSG_10_2: blake2-avx2/blake2b-load-avx2-simple.h:45. *)
Definition b_simple_10_2 (m : words16) : reg :=
  let '(m0, m1, m2, m3, m4, m5, m6, m7, m8, m9, m10, m11, m12, m13, m14, m15) := m in
  mm256_set_epi64x m7 m5 m3 m1.
(** BLAKE2B_LOAD_MSG_10_3: blake2-avx2/blake2b-load-avx2-simple.h:46. *)
Definition b_simple_10_3 (m : words16) : reg :=
  let '(m0, m1, m2, m3, m4, m5, m6, m7, m8, m9, m10, m11, m12, m13, m14, m15) := m in
  mm256_set_epi64x m12 m10 m8 m14.
(** BLAKE2B_LOAD_MSG_10_4: blake2-avx2/blake2b-load-avx2-simple.h:47. *)
Definition b_simple_10_4 (m : words16) : reg :=
  let '(m0, m1, m2, m3, m4, m5, m6, m7, m8, m9, m10, m11, m12, m13, m14, m15) := m in
  mm256_set_epi64x m13 m11 m9 m15.
(** BLAKE2B_LOAD_MSG_11_1: blake2-avx2/blake2b-load-avx2-simple.h:48. *)
Definition b_simple_11_1 (m : words16) : reg :=
  let '(m0, m1, m2, m3, m4, m5, m6, m7, m8, m9, m10, m11, m12, m13, m14, m15) := m in
  mm256_set_epi64x m13 m9 m4 m14.
(** BLAKE2B_LOAD_MSG_11_2: blake2-avx2/blake2b-load-avx2-simple.h:49. *)
Definition b_simple_11_2 (m : words16) : reg :=
  let '(m0, m1, m2, m3, m4, m5, m6, m7, m8, m9, m10, m11, m12, m13, m14, m15) := m in
  mm256_set_epi64x m6 m15 m8 m10.
(** BLAKE2B_LOAD_MSG_11_3: blake2-avx2/blake2b-load-avx2-simple.h:50. *)
Definition b_simple_11_3 (m : words16) : reg :=
  let '(m0, m1, m2, m3, m4, m5, m6, m7, m8, m9, m10, m11, m12, m13, m14, m15) := m in
  mm256_set_epi64x m11 m0 m1 m5.
(** BLAKE2B_LOAD_MSG_11_4: blake2-avx2/blake2b-load-avx2-simple.h:51. *)
Definition b_simple_11_4 (m : words16) : reg :=
  let '(m0, m1, m2, m3, m4, m5, m6, m7, m8, m9, m10, m11, m12, m13, m14, m15) := m in
  mm256_set_epi64x m7 m2 m12 m3.

(** ** blake2s-load-sse41.h: permutation by shuffles *)

(** BLAKE2S_LOAD_MSG_0_1: blake2-avx2/blake2s-load-sse41.h:4-5. *)
Definition s_shuffles_0_1 (m : regs4) : reg :=
  let '(m0, m1, m2, m3) := m in
  mm_castps_si128 (mm_shuffle_ps (mm_castsi128_ps m0) (mm_castsi128_ps m1) (MM_SHUFFLE 2 0 2 0)).
(** BLAKE2S_LOAD_MSG_0_2: blake2-avx2/blake2s-load-sse41.h:7-8. *)
Definition s_shuffles_0_2 (m : regs4) : reg :=
  let '(m0, m1, m2, m3) := m in
  mm_castps_si128 (mm_shuffle_ps (mm_castsi128_ps m0) (mm_castsi128_ps m1) (MM_SHUFFLE 3 1 3 1)).
(** BLAKE2S_LOAD_MSG_0_3: blake2-avx2/blake2s-load-sse41.h:10-11. *)
Definition s_shuffles_0_3 (m : regs4) : reg :=
  let '(m0, m1, m2, m3) := m in
  mm_castps_si128 (mm_shuffle_ps (mm_castsi128_ps m2) (mm_castsi128_ps m3) (MM_SHUFFLE 2 0 2 0)).
(** BLAKE2S_LOAD_MSG_0_4: blake2-avx2/blake2s-load-sse41.h:13-14. *)
Definition s_shuffles_0_4 (m : regs4) : reg :=
  let '(m0, m1, m2, m3) := m in
  mm_castps_si128 (mm_shuffle_ps (mm_castsi128_ps m2) (mm_castsi128_ps m3) (MM_SHUFFLE 3 1 3 1)).
(** BLAKE2S_LOAD_MSG_1_1: blake2-avx2/blake2s-load-sse41.h:16-20. *)
Definition s_shuffles_1_1 (m : regs4) : reg :=
  let '(m0, m1, m2, m3) := m in
  let t0 := mm_blend_epi16 m1 m2 0x0C in
  let t1 := mm_slli_si128 m3 4%nat in
  let t2 := mm_blend_epi16 t0 t1 0xF0 in
  mm_shuffle_epi32 t2 (MM_SHUFFLE 2 1 0 3).
(** BLAKE2S_LOAD_MSG_1_2: blake2-avx2/blake2s-load-sse41.h:22-26. *)
Definition s_shuffles_1_2 (m : regs4) : reg :=
  let '(m0, m1, m2, m3) := m in
  let t0 := mm_shuffle_epi32 m2 (MM_SHUFFLE 0 0 2 0) in
  let t1 := mm_blend_epi16 m1 m3 0xC0 in
  let t2 := mm_blend_epi16 t0 t1 0xF0 in
  mm_shuffle_epi32 t2 (MM_SHUFFLE 2 3 0 1).
(** BLAKE2S_LOAD_MSG_1_3: blake2-avx2/blake2s-load-sse41.h:28-32. *)
Definition s_shuffles_1_3 (m : regs4) : reg :=
  let '(m0, m1, m2, m3) := m in
  let t0 := mm_slli_si128 m1 4%nat in
  let t1 := mm_blend_epi16 m2 t0 0x30 in
  let t2 := mm_blend_epi16 m0 t1 0xF0 in
  mm_shuffle_epi32 t2 (MM_SHUFFLE 2 3 0 1).
(** BLAKE2S_LOAD_MSG_1_4: blake2-avx2/blake2s-load-sse41.h:34-38. *)
Definition s_shuffles_1_4 (m : regs4) : reg :=
  let '(m0, m1, m2, m3) := m in
  let t0 := mm_unpackhi_epi32 m0 m1 in
  let t1 := mm_slli_si128 m3 4%nat in
  let t2 := mm_blend_epi16 t0 t1 0x0C in
  mm_shuffle_epi32 t2 (MM_SHUFFLE 2 3 0 1).
(** BLAKE2S_LOAD_MSG_2_1: blake2-avx2/blake2s-load-sse41.h:40-44. *)
Definition s_shuffles_2_1 (m : regs4) : reg :=
  let '(m0, m1, m2, m3) := m in
  let t0 := mm_unpackhi_epi32 m2 m3 in
  let t1 := mm_blend_epi16 m3 m1 0x0C in
  let t2 := mm_blend_epi16 t0 t1 0x0F in
  mm_shuffle_epi32 t2 (MM_SHUFFLE 3 1 0 2).
(** BLAKE2S_LOAD_MSG_2_2: blake2-avx2/blake2s-load-sse41.h:46-50. *)
Definition s_shuffles_2_2 (m : regs4) : reg :=
  let '(m0, m1, m2, m3) := m in
  let t0 := mm_unpacklo_epi32 m2 m0 in
  let t1 := mm_blend_epi16 t0 m0 0xF0 in
  let t2 := mm_slli_si128 m3 8%nat in
  mm_blend_epi16 t1 t2 0xC0.
(** BLAKE2S_LOAD_MSG_2_3: blake2-avx2/blake2s-load-sse41.h:52-56. *)
Definition s_shuffles_2_3 (m : regs4) : reg :=
  let '(m0, m1, m2, m3) := m in
  let t0 := mm_blend_epi16 m0 m2 0x3C in
  let t1 := mm_srli_si128 m1 12%nat in
  let t2 := mm_blend_epi16 t0 t1 0x03 in
  mm_shuffle_epi32 t2 (MM_SHUFFLE 1 0 3 2).
(** BLAKE2S_LOAD_MSG_2_4: blake2-avx2/blake2s-load-sse41.h:58-62. *)
Definition s_shuffles_2_4 (m : regs4) : reg :=
  let '(m0, m1, m2, m3) := m in
  let t0 := mm_slli_si128 m3 4%nat in
  let t1 := mm_blend_epi16 m0 m1 0x33 in
  let t2 := mm_blend_epi16 t1 t0 0xC0 in
  mm_shuffle_epi32 t2 (MM_SHUFFLE 0 1 2 3).
(** BLAKE2S_LOAD_MSG_3_1: blake2-avx2/blake2s-load-sse41.h:64-68. *)
Definition s_shuffles_3_1 (m : regs4) : reg :=
  let '(m0, m1, m2, m3) := m in
  let t0 := mm_unpackhi_epi32 m0 m1 in
  let t1 := mm_unpackhi_epi32 t0 m2 in
  let t2 := mm_blend_epi16 t1 m3 0x0C in
  mm_shuffle_epi32 t2 (MM_SHUFFLE 3 1 0 2).
(** BLAKE2S_LOAD_MSG_3_2: blake2-avx2/blake2s-load-sse41.h:70-74. *)
Definition s_shuffles_3_2 (m : regs4) : reg :=
  let '(m0, m1, m2, m3) := m in
  let t0 := mm_slli_si128 m2 8%nat in
  let t1 := mm_blend_epi16 m3 m0 0x0C in
  let t2 := mm_blend_epi16 t1 t0 0xC0 in
  mm_shuffle_epi32 t2 (MM_SHUFFLE 2 0 1 3).
(** BLAKE2S_LOAD_MSG_3_3: blake2-avx2/blake2s-load-sse41.h:76-79. *)
Definition s_shuffles_3_3 (m : regs4) : reg :=
  let '(m0, m1, m2, m3) := m in
  let t0 := mm_blend_epi16 m0 m1 0x0F in
  let t1 := mm_blend_epi16 t0 m3 0xC0 in
  mm_shuffle_epi32 t1 (MM_SHUFFLE 3 0 1 2).
(** BLAKE2S_LOAD_MSG_3_4: blake2-avx2/blake2s-load-sse41.h:81-84. *)
Definition s_shuffles_3_4 (m : regs4) : reg :=
  let '(m0, m1, m2, m3) := m in
  let t0 := mm_unpacklo_epi32 m0 m2 in
  let t1 := mm_unpackhi_epi32 m1 m2 in
  mm_unpacklo_epi64 t1 t0.
(** BLAKE2S_LOAD_MSG_4_1: blake2-avx2/blake2s-load-sse41.h:86-90. *)
Definition s_shuffles_4_1 (m : regs4) : reg :=
  let '(m0, m1, m2, m3) := m in
  let t0 := mm_unpacklo_epi64 m1 m2 in
  let t1 := mm_unpackhi_epi64 m0 m2 in
  let t2 := mm_blend_epi16 t0 t1 0x33 in
  mm_shuffle_epi32 t2 (MM_SHUFFLE 2 0 1 3).
(** BLAKE2S_LOAD_MSG_4_2: blake2-avx2/blake2s-load-sse41.h:92-95. *)
Definition s_shuffles_4_2 (m : regs4) : reg :=
  let '(m0, m1, m2, m3) := m in
  let t0 := mm_unpackhi_epi64 m1 m3 in
  let t1 := mm_unpacklo_epi64 m0 m1 in
  mm_blend_epi16 t0 t1 0x33.
(** BLAKE2S_LOAD_MSG_4_3: blake2-avx2/blake2s-load-sse41.h:97-100. *)
Definition s_shuffles_4_3 (m : regs4) : reg :=
  let '(m0, m1, m2, m3) := m in
  let t0 := mm_unpackhi_epi64 m3 m1 in
  let t1 := mm_unpackhi_epi64 m2 m0 in
  mm_blend_epi16 t1 t0 0x33.
(** BLAKE2S_LOAD_MSG_4_4: blake2-avx2/blake2s-load-sse41.h:102-106. *)
Definition s_shuffles_4_4 (m : regs4) : reg :=
  let '(m0, m1, m2, m3) := m in
  let t0 := mm_blend_epi16 m0 m2 0x03 in
  let t1 := mm_slli_si128 t0 8%nat in
  let t2 := mm_blend_epi16 t1 m3 0x0F in
  mm_shuffle_epi32 t2 (MM_SHUFFLE 1 2 0 3).
(** BLAKE2S_LOAD_MSG_5_1: blake2-avx2/blake2s-load-sse41.h:108-111. *)
Definition s_shuffles_5_1 (m : regs4) : reg :=
  let '(m0, m1, m2, m3) := m in
  let t0 := mm_unpackhi_epi32 m0 m1 in
  let t1 := mm_unpacklo_epi32 m0 m2 in
  mm_unpacklo_epi64 t0 t1.
(** BLAKE2S_LOAD_MSG_5_2: blake2-avx2/blake2s-load-sse41.h:113-116. *)
Definition s_shuffles_5_2 (m : regs4) : reg :=
  let '(m0, m1, m2, m3) := m in
  let t0 := mm_srli_si128 m2 4%nat in
  let t1 := mm_blend_epi16 m0 m3 0x03 in
  mm_blend_epi16 t1 t0 0x3C.
(** BLAKE2S_LOAD_MSG_5_3: blake2-avx2/blake2s-load-sse41.h:118-122. *)
Definition s_shuffles_5_3 (m : regs4) : reg :=
  let '(m0, m1, m2, m3) := m in
  let t0 := mm_blend_epi16 m1 m0 0x0C in
  let t1 := mm_srli_si128 m3 4%nat in
  let t2 := mm_blend_epi16 t0 t1 0x30 in
  mm_shuffle_epi32 t2 (MM_SHUFFLE 1 2 3 0).
(** BLAKE2S_LOAD_MSG_5_4: blake2-avx2/blake2s-load-sse41.h:124-127. *)
Definition s_shuffles_5_4 (m : regs4) : reg :=
  let '(m0, m1, m2, m3) := m in
  let t0 := mm_unpacklo_epi64 m1 m2 in
  let t1 := mm_shuffle_epi32 m3 (MM_SHUFFLE 0 2 0 1) in
  mm_blend_epi16 t0 t1 0x33.
(** BLAKE2S_LOAD_MSG_6_1: blake2-avx2/blake2s-load-sse41.h:129-132. *)
Definition s_shuffles_6_1 (m : regs4) : reg :=
  let '(m0, m1, m2, m3) := m in
  let t0 := mm_slli_si128 m1 12%nat in
  let t1 := mm_blend_epi16 m0 m3 0x33 in
  mm_blend_epi16 t1 t0 0xC0.
(** BLAKE2S_LOAD_MSG_6_2: blake2-avx2/blake2s-load-sse41.h:134-138. *)
Definition s_shuffles_6_2 (m : regs4) : reg :=
  let '(m0, m1, m2, m3) := m in
  let t0 := mm_blend_epi16 m3 m2 0x30 in
  let t1 := mm_srli_si128 m1 4%nat in
  let t2 := mm_blend_epi16 t0 t1 0x03 in
  mm_shuffle_epi32 t2 (MM_SHUFFLE 2 1 3 0).
(** BLAKE2S_LOAD_MSG_6_3: blake2-avx2/blake2s-load-sse41.h:140-143. *)
Definition s_shuffles_6_3 (m : regs4) : reg :=
  let '(m0, m1, m2, m3) := m in
  let t0 := mm_unpacklo_epi64 m0 m2 in
  let t1 := mm_srli_si128 m1 4%nat in
  mm_shuffle_epi32 (mm_blend_epi16 t0 t1 0x0C) (MM_SHUFFLE 2 3 1 0).
(** BLAKE2S_LOAD_MSG_6_4: blake2-avx2/blake2s-load-sse41.h:145-148. *)
Definition s_shuffles_6_4 (m : regs4) : reg :=
  let '(m0, m1, m2, m3) := m in
  let t0 := mm_unpackhi_epi32 m1 m2 in
  let t1 := mm_unpackhi_epi64 m0 t0 in
  mm_shuffle_epi32 t1 (MM_SHUFFLE 3 0 1 2).
(** BLAKE2S_LOAD_MSG_7_1: blake2-avx2/blake2s-load-sse41.h:150-153. *)
Definition s_shuffles_7_1 (m : regs4) : reg :=
  let '(m0, m1, m2, m3) := m in
  let t0 := mm_unpackhi_epi32 m0 m1 in
  let t1 := mm_blend_epi16 t0 m3 0x0F in
  mm_shuffle_epi32 t1 (MM_SHUFFLE 2 0 3 1).
(** BLAKE2S_LOAD_MSG_7_2: blake2-avx2/blake2s-load-sse41.h:155-159. *)
Definition s_shuffles_7_2 (m : regs4) : reg :=
  let '(m0, m1, m2, m3) := m in
  let t0 := mm_blend_epi16 m2 m3 0x30 in
  let t1 := mm_srli_si128 m0 4%nat in
  let t2 := mm_blend_epi16 t0 t1 0x03 in
  mm_shuffle_epi32 t2 (MM_SHUFFLE 1 0 2 3).
(** BLAKE2S_LOAD_MSG_7_3: blake2-avx2/blake2s-load-sse41.h:161-165. *)
Definition s_shuffles_7_3 (m : regs4) : reg :=
  let '(m0, m1, m2, m3) := m in
  let t0 := mm_unpackhi_epi64 m0 m3 in
  let t1 := mm_unpacklo_epi64 m1 m2 in
  let t2 := mm_blend_epi16 t0 t1 0x3C in
  mm_shuffle_epi32 t2 (MM_SHUFFLE 0 2 3 1).
(** BLAKE2S_LOAD_MSG_7_4: blake2-avx2/blake2s-load-sse41.h:167-170. *)
Definition s_shuffles_7_4 (m : regs4) : reg :=
  let '(m0, m1, m2, m3) := m in
  let t0 := mm_unpacklo_epi32 m0 m1 in
  let t1 := mm_unpackhi_epi32 m1 m2 in
  mm_unpacklo_epi64 t0 t1.
(** BLAKE2S_LOAD_MSG_8_1: blake2-avx2/blake2s-load-sse41.h:172-176. *)
Definition s_shuffles_8_1 (m : regs4) : reg :=
  let '(m0, m1, m2, m3) := m in
  let t0 := mm_unpackhi_epi32 m1 m3 in
  let t1 := mm_unpacklo_epi64 t0 m0 in
  let t2 := mm_blend_epi16 t1 m2 0xC0 in
  mm_shufflehi_epi16 t2 (MM_SHUFFLE 1 0 3 2).
(** BLAKE2S_LOAD_MSG_8_2: blake2-avx2/blake2s-load-sse41.h:178-181. *)
Definition s_shuffles_8_2 (m : regs4) : reg :=
  let '(m0, m1, m2, m3) := m in
  let t0 := mm_unpackhi_epi32 m0 m3 in
  let t1 := mm_blend_epi16 m2 t0 0xF0 in
  mm_shuffle_epi32 t1 (MM_SHUFFLE 0 2 1 3).
(** BLAKE2S_LOAD_MSG_8_3: blake2-avx2/blake2s-load-sse41.h:183-186. *)
Definition s_shuffles_8_3 (m : regs4) : reg :=
  let '(m0, m1, m2, m3) := m in
  let t0 := mm_blend_epi16 m2 m0 0x0C in
  let t1 := mm_slli_si128 t0 4%nat in
  mm_blend_epi16 t1 m3 0x0F.
(** BLAKE2S_LOAD_MSG_8_4: blake2-avx2/blake2s-load-sse41.h:188-190. *)
Definition s_shuffles_8_4 (m : regs4) : reg :=
  let '(m0, m1, m2, m3) := m in
  let t0 := mm_blend_epi16 m1 m0 0x30 in
  mm_shuffle_epi32 t0 (MM_SHUFFLE 1 0 3 2).
(** BLAKE2S_LOAD_MSG_9_1: blake2-avx2/blake2s-load-sse41.h:192-196. *)
Definition s_shuffles_9_1 (m : regs4) : reg :=
  let '(m0, m1, m2, m3) := m in
  let t0 := mm_blend_epi16 m0 m2 0x03 in
  let t1 := mm_blend_epi16 m1 m2 0x30 in
  let t2 := mm_blend_epi16 t1 t0 0x0F in
  mm_shuffle_epi32 t2 (MM_SHUFFLE 1 3 0 2).
(** BLAKE2S_LOAD_MSG_9_2: blake2-avx2/blake2s-load-sse41.h:198-201. *)
Definition s_shuffles_9_2 (m : regs4) : reg :=
  let '(m0, m1, m2, m3) := m in
  let t0 := mm_slli_si128 m0 4%nat in
  let t1 := mm_blend_epi16 m1 t0 0xC0 in
  mm_shuffle_epi32 t1 (MM_SHUFFLE 1 2 0 3).
(** BLAKE2S_LOAD_MSG_9_3: blake2-avx2/blake2s-load-sse41.h:203-207. *)
Definition s_shuffles_9_3 (m : regs4) : reg :=
  let '(m0, m1, m2, m3) := m in
  let t0 := mm_unpackhi_epi32 m0 m3 in
  let t1 := mm_unpacklo_epi32 m2 m3 in
  let t2 := mm_unpackhi_epi64 t0 t1 in
  mm_shuffle_epi32 t2 (MM_SHUFFLE 3 0 2 1).
(** BLAKE2S_LOAD_MSG_9_4: blake2-avx2/blake2s-load-sse41.h:209-213. *)
Definition s_shuffles_9_4 (m : regs4) : reg :=
  let '(m0, m1, m2, m3) := m in
  let t0 := mm_blend_epi16 m3 m2 0xC0 in
  let t1 := mm_unpacklo_epi32 m0 m3 in
  let t2 := mm_blend_epi16 t0 t1 0x0F in
  mm_shuffle_epi32 t2 (MM_SHUFFLE 0 1 2 3).

(** ** blake2s-load-sse2.h: permutation by _mm_set_epi32 *)

(** BLAKE2S_LOAD_MSG_0_1: blake2-avx2/blake2s-load-sse2.h:4. *)
Definition s_simple_0_1 (m : words16) : reg :=
  let '(m0, m1, m2, m3, m4, m5, m6, m7, m8, m9, m10, m11, m12, m13, m14, m15) := m in
  mm_set_epi32 m6 m4 m2 m0.
(** BLAKE2S_LOAD_MSG_0_2: blake2-avx2/blake2s-load-sse2.h:5. *)
Definition s_simple_0_2 (m : words16) : reg :=
  let '(m0, m1, m2, m3, m4, m5, m6, m7, m8, m9, m10, m11, m12, m13, m14, m15) := m in
  mm_set_epi32 m7 m5 m3 m1.
(** BLAKE2S_LOAD_MSG_0_3: blake2-avx2/blake2s-load-sse2.h:6. *)
Definition s_simple_0_3 (m : words16) : reg :=
  let '(m0, m1, m2, m3, m4, m5, m6, m7, m8, m9, m10, m11, m12, m13, m14, m15) := m in
  mm_set_epi32 m14 m12 m10 m8.
(** BLAKE2S_LOAD_MSG_0_4: blake2-avx2/blake2s-load-sse2.h:7. *)
Definition s_simple_0_4 (m : words16) : reg :=
  let '(m0, m1, m2, m3, m4, m5, m6, m7, m8, m9, m10, m11, m12, m13, m14, m15) := m in
  mm_set_epi32 m15 m13 m11 m9.
(** BLAKE2S_LOAD_MSG_1_1: blake2-avx2/blake2s-load-sse2.h:8. *)
Definition s_simple_1_1 (m : words16) : reg :=
  let '(m0, m1, m2, m3, m4, m5, m6, m7, m8, m9, m10, m11, m12, m13, m14, m15) := m in
  mm_set_epi32 m13 m9 m4 m14.
(** BLAKE2S_LOAD_MSG_1_2: blake2-avx2/blake2s-load-sse2.h:9. *)
Definition s_simple_1_2 (m : words16) : reg :=
  let '(m0, m1, m2, m3, m4, m5, m6, m7, m8, m9, m10, m11, m12, m13, m14, m15) := m in
  mm_set_epi32 m6 m15 m8 m10.
(** BLAKE2S_LOAD_MSG_1_3: blake2-avx2/blake2s-load-sse2.h:10. *)
Definition s_simple_1_3 (m : words16) : reg :=
  let '(m0, m1, m2, m3, m4, m5, m6, m7, m8, m9, m10, m11, m12, m13, m14, m15) := m in
  mm_set_epi32 m5 m11 m0 m1.
(** BLAKE2S_LOAD_MSG_1_4: blake2-avx2/blake2s-load-sse2.h:11. *)
Definition s_simple_1_4 (m : words16) : reg :=
  let '(m0, m1, m2, m3, m4, m5, m6, m7, m8, m9, m10, m11, m12, m13, m14, m15) := m in
  mm_set_epi32 m3 m7 m2 m12.
(** BLAKE2S_LOAD_MSG_2_1: blake2-avx2/blake2s-load-sse2.h:12. *)
Definition s_simple_2_1 (m : words16) : reg :=
  let '(m0, m1, m2, m3, m4, m5, m6, m7, m8, m9, m10, m11, m12, m13, m14, m15) := m in
  mm_set_epi32 m15 m5 m12 m11.
(** BLAKE2S_LOAD_MSG_2_2: blake2-avx2/blake2s-load-sse2.h:13. *)
Definition s_simple_2_2 (m : words16) : reg :=
  let '(m0, m1, m2, m3, m4, m5, m6, m7, m8, m9, m10, m11, m12, m13, m14, m15) := m in
  mm_set_epi32 m13 m2 m0 m8.
(** BLAKE2S_LOAD_MSG_2_3: blake2-avx2/blake2s-load-sse2.h:14. *)
Definition s_simple_2_3 (m : words16) : reg :=
  let '(m0, m1, m2, m3, m4, m5, m6, m7, m8, m9, m10, m11, m12, m13, m14, m15) := m in
  mm_set_epi32 m9 m7 m3 m10.
(** BLAKE2S_LOAD_MSG_2_4: blake2-avx2/blake2s-load-sse2.h:15. *)
Definition s_simple_2_4 (m : words16) : reg :=
  let '(m0, m1, m2, m3, m4, m5, m6, m7, m8, m9, m10, m11, m12, m13, m14, m15) := m in
  mm_set_epi32 m4 m1 m6 m14.
(** BLAKE2S_LOAD_MSG_3_1: blake2-avx2/blake2s-load-sse2.h:16. *)
Definition s_simple_3_1 (m : words16) : reg :=
  let '(m0, m1, m2, m3, m4, m5, m6, m7, m8, m9, m10, m11, m12, m13, m14, m15) := m in
  mm_set_epi32 m11 m13 m3 m7.
(** BLAKE2S_LOAD_MSG_3_2: blake2-avx2/blake2s-load-sse2.h:17. *)
Definition s_simple_3_2 (m : words16) : reg :=
  let '(m0, m1, m2, m3, m4, m5, m6, m7, m8, m9, m10, m11, m12, m13, m14, m15) := m in
  mm_set_epi32 m14 m12 m1 m9.
(** BLAKE2S_LOAD_MSG_3_3: blake2-avx2/blake2s-load-sse2.h:18. *)
Definition s_simple_3_3 (m : words16) : reg :=
  let '(m0, m1, m2, m3, m4, m5, m6, m7, m8, m9, m10, m11, m12, m13, m14, m15) := m in
  mm_set_epi32 m15 m4 m5 m2.
(** BLAKE2S_LOAD_MSG_3_4: blake2-avx2/blake2s-load-sse2.h:19. *)
Definition s_simple_3_4 (m : words16) : reg :=
  let '(m0, m1, m2, m3, m4, m5, m6, m7, m8, m9, m10, m11, m12, m13, m14, m15) := m in
  mm_set_epi32 m8 m0 m10 m6.
(** BLAKE2S_LOAD_MSG_4_1: blake2-avx2/blake2s-load-sse2.h:20. *)
Definition s_simple_4_1 (m : words16) : reg :=
  let '(m0, m1, m2, m3, m4, m5, m6, m7, m8, m9, m10, m11, m12, m13, m14, m15) := m in
  mm_set_epi32 m10 m2 m5 m9.
(** BLAKE2S_LOAD_MSG_4_2: blake2-avx2/blake2s-load-sse2.h:21. *)
Definition s_simple_4_2 (m : words16) : reg :=
  let '(m0, m1, m2, m3, m4, m5, m6, m7, m8, m9, m10, m11, m12, m13, m14, m15) := m in
  mm_set_epi32 m15 m4 m7 m0.
(** BLAKE2S_LOAD_MSG_4_3: blake2-avx2/blake2s-load-sse2.h:22. *)
Definition s_simple_4_3 (m : words16) : reg :=
  let '(m0, m1, m2, m3, m4, m5, m6, m7, m8, m9, m10, m11, m12, m13, m14, m15) := m in
  mm_set_epi32 m3 m6 m11 m14.
(** BLAKE2S_LOAD_MSG_4_4: blake2-avx2/blake2s-load-sse2.h:23. *)
Definition s_simple_4_4 (m : words16) : reg :=
  let '(m0, m1, m2, m3, m4, m5, m6, m7, m8, m9, m10, m11, m12, m13, m14, m15) := m in
  mm_set_epi32 m13 m8 m12 m1.
(** BLAKE2S_LOAD_MSG_5_1: blake2-avx2/blake2s-load-sse2.h:24. *)
Definition s_simple_5_1 (m : words16) : reg :=
  let '(m0, m1, m2, m3, m4, m5, m6, m7, m8, m9, m10, m11, m12, m13, m14, m15) := m in
  mm_set_epi32 m8 m0 m6 m2.
(** BLAKE2S_LOAD_MSG_5_2: blake2-avx2/blake2s-load-sse2.h:25. *)
Definition s_simple_5_2 (m : words16) : reg :=
  let '(m0, m1, m2, m3, m4, m5, m6, m7, m8, m9, m10, m11, m12, m13, m14, m15) := m in
  mm_set_epi32 m3 m11 m10 m12.
(** BLAKE2S_LOAD_MSG_5_3: blake2-avx2/blake2s-load-sse2.h:26. *)
Definition s_simple_5_3 (m : words16) : reg :=
  let '(m0, m1, m2, m3, m4, m5, m6, m7, m8, m9, m10, m11, m12, m13, m14, m15) := m in
  mm_set_epi32 m1 m15 m7 m4.
(** BLAKE2S_LOAD_MSG_5_4: blake2-avx2/blake2s-load-sse2.h:27. *)
Definition s_simple_5_4 (m : words16) : reg :=
  let '(m0, m1, m2, m3, m4, m5, m6, m7, m8, m9, m10, m11, m12, m13, m14, m15) := m in
  mm_set_epi32 m9 m14 m5 m13.
(** BLAKE2S_LOAD_MSG_6_1: blake2-avx2/blake2s-load-sse2.h:28. *)
Definition s_simple_6_1 (m : words16) : reg :=
  let '(m0, m1, m2, m3, m4, m5, m6, m7, m8, m9, m10, m11, m12, m13, m14, m15) := m in
  mm_set_epi32 m4 m14 m1 m12.
(** BLAKE2S_LOAD_MSG_6_2: blake2-avx2/blake2s-load-sse2.h:29. *)
Definition s_simple_6_2 (m : words16) : reg :=
  let '(m0, m1, m2, m3, m4, m5, m6, m7, m8, m9, m10, m11, m12, m13, m14, m15) := m in
  mm_set_epi32 m10 m13 m15 m5.
(** BLAKE2S_LOAD_MSG_6_3: blake2-avx2/blake2s-load-sse2.h:30. *)
Definition s_simple_6_3 (m : words16) : reg :=
  let '(m0, m1, m2, m3, m4, m5, m6, m7, m8, m9, m10, m11, m12, m13, m14, m15) := m in
  mm_set_epi32 m8 m9 m6 m0.
(** BLAKE2S_LOAD_MSG_6_4: blake2-avx2/blake2s-load-sse2.h:31. *)
Definition s_simple_6_4 (m : words16) : reg :=
  let '(m0, m1, m2, m3, m4, m5, m6, m7, m8, m9, m10, m11, m12, m13, m14, m15) := m in
  mm_set_epi32 m11 m2 m3 m7.
(** BLAKE2S_LOAD_MSG_7_1: blake2-avx2/blake2s-load-sse2.h:32. *)
Definition s_simple_7_1 (m : words16) : reg :=
  let '(m0, m1, m2, m3, m4, m5, m6, m7, m8, m9, m10, m11, m12, m13, m14, m15) := m in
  mm_set_epi32 m3 m12 m7 m13.
(** BLAKE2S_LOAD_MSG_7_2: blake2-avx2/blake2s-load-sse2.h:33. *)
Definition s_simple_7_2 (m : words16) : reg :=
  let '(m0, m1, m2, m3, m4, m5, m6, m7, m8, m9, m10, m11, m12, m13, m14, m15) := m in
  mm_set_epi32 m9 m1 m14 m11.
(** BLAKE2S_LOAD_MSG_7_3: blake2-avx2/blake2s-load-sse2.h:34. *)
Definition s_simple_7_3 (m : words16) : reg :=
  let '(m0, m1, m2, m3, m4, m5, m6, m7, m8, m9, m10, m11, m12, m13, m14, m15) := m in
  mm_set_epi32 m2 m8 m15 m5.
(** BLAKE2S_LOAD_MSG_7_4: blake2-avx2/blake2s-load-sse2.h:35. *)
Definition s_simple_7_4 (m : words16) : reg :=
  let '(m0, m1, m2, m3, m4, m5, m6, m7, m8, m9, m10, m11, m12, m13, m14, m15) := m in
  mm_set_epi32 m10 m6 m4 m0.
(** BLAKE2S_LOAD_MSG_8_1: blake2-avx2/blake2s-load-sse2.h:36. *)
Definition s_simple_8_1 (m : words16) : reg :=
  let '(m0, m1, m2, m3, m4, m5, m6, m7, m8, m9, m10, m11, m12, m13, m14, m15) := m in
  mm_set_epi32 m0 m11 m14 m6.
(** BLAKE2S_LOAD_MSG_8_2: blake2-avx2/blake2s-load-sse2.h:37. *)
Definition s_simple_8_2 (m : words16) : reg :=
  let '(m0, m1, m2, m3, m4, m5, m6, m7, m8, m9, m10, m11, m12, m13, m14, m15) := m in
  mm_set_epi32 m8 m3 m9 m15.
(** BLAKE2S_LOAD_MSG_8_3: blake2-avx2/blake2s-load-sse2.h:38. *)
Definition s_simple_8_3 (m : words16) : reg :=
  let '(m0, m1, m2, m3, m4, m5, m6, m7, m8, m9, m10, m11, m12, m13, m14, m15) := m in
  mm_set_epi32 m10 m1 m13 m12.
(** BLAKE2S_LOAD_MSG_8_4: blake2-avx2/blake2s-load-sse2.h:39. *)
Definition s_simple_8_4 (m : words16) : reg :=
  let '(m0, m1, m2, m3, m4, m5, m6, m7, m8, m9, m10, m11, m12, m13, m14, m15) := m in
  mm_set_epi32 m5 m4 m7 m2.
(** BLAKE2S_LOAD_MSG_9_1: blake2-avx2/blake2s-load-sse2.h:40. *)
Definition s_simple_9_1 (m : words16) : reg :=
  let '(m0, m1, m2, m3, m4, m5, m6, m7, m8, m9, m10, m11, m12, m13, m14, m15) := m in
  mm_set_epi32 m1 m7 m8 m10.
(** BLAKE2S_LOAD_MSG_9_2: blake2-avx2/blake2s-load-sse2.h:41. *)
Definition s_simple_9_2 (m : words16) : reg :=
  let '(m0, m1, m2, m3, m4, m5, m6, m7, m8, m9, m10, m11, m12, m13, m14, m15) := m in
  mm_set_epi32 m5 m6 m4 m2.
(** BLAKE2S_LOAD_MSG_9_3: blake2-avx2/blake2s-load-sse2.h:42. *)
Definition s_simple_9_3 (m : words16) : reg :=
  let '(m0, m1, m2, m3, m4, m5, m6, m7, m8, m9, m10, m11, m12, m13, m14, m15) := m in
  mm_set_epi32 m13 m3 m9 m15.
(** BLAKE2S_LOAD_MSG_9_4: blake2-avx2/blake2s-load-sse2.h:43. *)
Definition s_simple_9_4 (m : words16) : reg :=
  let '(m0, m1, m2, m3, m4, m5, m6, m7, m8, m9, m10, m11, m12, m13, m14, m15) := m in
  mm_set_epi32 m0 m12 m14 m11.

(** The four loads of round [r], BLAKE2B_ROUND_V1 with its r pasted into the macro names (blake2-avx2/blake2b.c:85-97, blake2bp.c:100-112); r is 0 .. 11 (blake2b.c:99-112, blake2bp.c:114-127). *)
Definition b_shuffles (r : nat) : regs8 -> reg * reg * reg * reg :=
  match r with
  | 0%nat => fun m => (b_shuffles_0_1 m, b_shuffles_0_2 m, b_shuffles_0_3 m, b_shuffles_0_4 m)
  | 1%nat => fun m => (b_shuffles_1_1 m, b_shuffles_1_2 m, b_shuffles_1_3 m, b_shuffles_1_4 m)
  | 2%nat => fun m => (b_shuffles_2_1 m, b_shuffles_2_2 m, b_shuffles_2_3 m, b_shuffles_2_4 m)
  | 3%nat => fun m => (b_shuffles_3_1 m, b_shuffles_3_2 m, b_shuffles_3_3 m, b_shuffles_3_4 m)
  | 4%nat => fun m => (b_shuffles_4_1 m, b_shuffles_4_2 m, b_shuffles_4_3 m, b_shuffles_4_4 m)
  | 5%nat => fun m => (b_shuffles_5_1 m, b_shuffles_5_2 m, b_shuffles_5_3 m, b_shuffles_5_4 m)
  | 6%nat => fun m => (b_shuffles_6_1 m, b_shuffles_6_2 m, b_shuffles_6_3 m, b_shuffles_6_4 m)
  | 7%nat => fun m => (b_shuffles_7_1 m, b_shuffles_7_2 m, b_shuffles_7_3 m, b_shuffles_7_4 m)
  | 8%nat => fun m => (b_shuffles_8_1 m, b_shuffles_8_2 m, b_shuffles_8_3 m, b_shuffles_8_4 m)
  | 9%nat => fun m => (b_shuffles_9_1 m, b_shuffles_9_2 m, b_shuffles_9_3 m, b_shuffles_9_4 m)
  | 10%nat => fun m => (b_shuffles_10_1 m, b_shuffles_10_2 m, b_shuffles_10_3 m, b_shuffles_10_4 m)
  | _ => fun m => (b_shuffles_11_1 m, b_shuffles_11_2 m, b_shuffles_11_3 m, b_shuffles_11_4 m)
  end.

(** The same rounds with the other header (blake2-avx2/blake2b.c:85-112, blake2bp.c:100-127). *)
Definition b_simple (r : nat) : words16 -> reg * reg * reg * reg :=
  match r with
  | 0%nat => fun m => (b_simple_0_1 m, b_simple_0_2 m, b_simple_0_3 m, b_simple_0_4 m)
  | 1%nat => fun m => (b_simple_1_1 m, b_simple_1_2 m, b_simple_1_3 m, b_simple_1_4 m)
  | 2%nat => fun m => (b_simple_2_1 m, b_simple_2_2 m, b_simple_2_3 m, b_simple_2_4 m)
  | 3%nat => fun m => (b_simple_3_1 m, b_simple_3_2 m, b_simple_3_3 m, b_simple_3_4 m)
  | 4%nat => fun m => (b_simple_4_1 m, b_simple_4_2 m, b_simple_4_3 m, b_simple_4_4 m)
  | 5%nat => fun m => (b_simple_5_1 m, b_simple_5_2 m, b_simple_5_3 m, b_simple_5_4 m)
  | 6%nat => fun m => (b_simple_6_1 m, b_simple_6_2 m, b_simple_6_3 m, b_simple_6_4 m)
  | 7%nat => fun m => (b_simple_7_1 m, b_simple_7_2 m, b_simple_7_3 m, b_simple_7_4 m)
  | 8%nat => fun m => (b_simple_8_1 m, b_simple_8_2 m, b_simple_8_3 m, b_simple_8_4 m)
  | 9%nat => fun m => (b_simple_9_1 m, b_simple_9_2 m, b_simple_9_3 m, b_simple_9_4 m)
  | 10%nat => fun m => (b_simple_10_1 m, b_simple_10_2 m, b_simple_10_3 m, b_simple_10_4 m)
  | _ => fun m => (b_simple_11_1 m, b_simple_11_2 m, b_simple_11_3 m, b_simple_11_4 m)
  end.

(** The four loads of round [r], BLAKE2S_ROUND_V1 (blake2-avx2/blake2sp.c:101-113); r is 0 .. 9 (115-126). *)
Definition s_shuffles (r : nat) : regs4 -> reg * reg * reg * reg :=
  match r with
  | 0%nat => fun m => (s_shuffles_0_1 m, s_shuffles_0_2 m, s_shuffles_0_3 m, s_shuffles_0_4 m)
  | 1%nat => fun m => (s_shuffles_1_1 m, s_shuffles_1_2 m, s_shuffles_1_3 m, s_shuffles_1_4 m)
  | 2%nat => fun m => (s_shuffles_2_1 m, s_shuffles_2_2 m, s_shuffles_2_3 m, s_shuffles_2_4 m)
  | 3%nat => fun m => (s_shuffles_3_1 m, s_shuffles_3_2 m, s_shuffles_3_3 m, s_shuffles_3_4 m)
  | 4%nat => fun m => (s_shuffles_4_1 m, s_shuffles_4_2 m, s_shuffles_4_3 m, s_shuffles_4_4 m)
  | 5%nat => fun m => (s_shuffles_5_1 m, s_shuffles_5_2 m, s_shuffles_5_3 m, s_shuffles_5_4 m)
  | 6%nat => fun m => (s_shuffles_6_1 m, s_shuffles_6_2 m, s_shuffles_6_3 m, s_shuffles_6_4 m)
  | 7%nat => fun m => (s_shuffles_7_1 m, s_shuffles_7_2 m, s_shuffles_7_3 m, s_shuffles_7_4 m)
  | 8%nat => fun m => (s_shuffles_8_1 m, s_shuffles_8_2 m, s_shuffles_8_3 m, s_shuffles_8_4 m)
  | _ => fun m => (s_shuffles_9_1 m, s_shuffles_9_2 m, s_shuffles_9_3 m, s_shuffles_9_4 m)
  end.

(** The same rounds with the other header (blake2-avx2/blake2sp.c:101-126). *)
Definition s_simple (r : nat) : words16 -> reg * reg * reg * reg :=
  match r with
  | 0%nat => fun m => (s_simple_0_1 m, s_simple_0_2 m, s_simple_0_3 m, s_simple_0_4 m)
  | 1%nat => fun m => (s_simple_1_1 m, s_simple_1_2 m, s_simple_1_3 m, s_simple_1_4 m)
  | 2%nat => fun m => (s_simple_2_1 m, s_simple_2_2 m, s_simple_2_3 m, s_simple_2_4 m)
  | 3%nat => fun m => (s_simple_3_1 m, s_simple_3_2 m, s_simple_3_3 m, s_simple_3_4 m)
  | 4%nat => fun m => (s_simple_4_1 m, s_simple_4_2 m, s_simple_4_3 m, s_simple_4_4 m)
  | 5%nat => fun m => (s_simple_5_1 m, s_simple_5_2 m, s_simple_5_3 m, s_simple_5_4 m)
  | 6%nat => fun m => (s_simple_6_1 m, s_simple_6_2 m, s_simple_6_3 m, s_simple_6_4 m)
  | 7%nat => fun m => (s_simple_7_1 m, s_simple_7_2 m, s_simple_7_3 m, s_simple_7_4 m)
  | 8%nat => fun m => (s_simple_8_1 m, s_simple_8_2 m, s_simple_8_3 m, s_simple_8_4 m)
  | _ => fun m => (s_simple_9_1 m, s_simple_9_2 m, s_simple_9_3 m, s_simple_9_4 m)
  end.
