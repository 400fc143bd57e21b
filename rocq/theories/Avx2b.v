(** Model of blake2b/src/avx2.rs: the single-input AVX2 kernel compress_block
    (lines 15-424) and compress1_loop (426-478).  Round bodies are transliterated line by
    line; the register variables t0, t1, b0, a, b, c, d are rebound with [let]. *)
From Coq Require Import Arith NArith List Bool.
From Verif Require Import Base Guts Portable Intrinsics.
Import ListNotations.
Open Scope N_scope.

(** add, avx2.rs:35-37. *)
Definition add := mm256_add_epi64.
(** xor, avx2.rs:56-58. *)
Definition xor := mm256_xor_si256.
(** set4, avx2.rs:66-68. *)
Definition set4 := mm256_setr_epi64x.

(** rot32, avx2.rs:87-89. *)
Definition rot32 (x : reg) := mm256_or_si256 (mm256_srli_epi64 x 32) (mm256_slli_epi64 x (64 - 32)).
(** rot24, avx2.rs:92-94. *)
Definition rot24 (x : reg) := mm256_or_si256 (mm256_srli_epi64 x 24) (mm256_slli_epi64 x (64 - 24)).
(** rot16, avx2.rs:97-99. *)
Definition rot16 (x : reg) := mm256_or_si256 (mm256_srli_epi64 x 16) (mm256_slli_epi64 x (64 - 16)).
(** rot63, avx2.rs:102-104. *)
Definition rot63 (x : reg) := mm256_or_si256 (mm256_srli_epi64 x 63) (mm256_slli_epi64 x (64 - 63)).

(** The four row registers (a, b, c, d of avx2.rs:146-424). *)
Definition rows := (reg * reg * reg * reg)%type.

(** avx2.rs:107-115. *)
Definition g1 (s : rows) (m : reg) : rows :=
  let '(a, b, c, d) := s in
  let a := add a m in
  let a := add a b in
  let d := xor d a in
  let d := rot32 d in
  let c := add c d in
  let b := xor b c in
  let b := rot24 b in
  (a, b, c, d).

(** avx2.rs:118-126. *)
Definition g2 (s : rows) (m : reg) : rows :=
  let '(a, b, c, d) := s in
  let a := add a m in
  let a := add a b in
  let d := xor d a in
  let d := rot16 d in
  let c := add c d in
  let b := xor b c in
  let b := rot63 b in
  (a, b, c, d).

(** avx2.rs:132-136. *)
Definition diagonalize (s : rows) : rows :=
  let '(a, b, c, d) := s in
  let a := mm256_permute4x64_epi64 a (MM_SHUFFLE 2 1 0 3) in
  let d := mm256_permute4x64_epi64 d (MM_SHUFFLE 1 0 3 2) in
  let c := mm256_permute4x64_epi64 c (MM_SHUFFLE 0 3 2 1) in
  (a, b, c, d).

(** avx2.rs:139-143. *)
Definition undiagonalize (s : rows) : rows :=
  let '(a, b, c, d) := s in
  let a := mm256_permute4x64_epi64 a (MM_SHUFFLE 0 3 2 1) in
  let d := mm256_permute4x64_epi64 d (MM_SHUFFLE 1 0 3 2) in
  let c := mm256_permute4x64_epi64 c (MM_SHUFFLE 2 1 0 3) in
  (a, b, c, d).

(** The message registers m0..m7 (avx2.rs:162-170). *)
Definition msgs := (reg * reg * reg * reg * reg * reg * reg * reg)%type.

(** avx2.rs:177-195. *)
Definition round1 (m : msgs) (s : rows) : rows :=
  let '(m0, m1, m2, m3, m4, m5, m6, m7) := m in
  let t0 := mm256_unpacklo_epi64 m0 m1 in
  let t1 := mm256_unpacklo_epi64 m2 m3 in
  let b0 := mm256_blend_epi32 t0 t1 0xF0 in
  let s := g1 s b0 in
  let t0 := mm256_unpackhi_epi64 m0 m1 in
  let t1 := mm256_unpackhi_epi64 m2 m3 in
  let b0 := mm256_blend_epi32 t0 t1 0xF0 in
  let s := g2 s b0 in
  let s := diagonalize s in
  let t0 := mm256_unpacklo_epi64 m7 m4 in
  let t1 := mm256_unpacklo_epi64 m5 m6 in
  let b0 := mm256_blend_epi32 t0 t1 0xF0 in
  let s := g1 s b0 in
  let t0 := mm256_unpackhi_epi64 m7 m4 in
  let t1 := mm256_unpackhi_epi64 m5 m6 in
  let b0 := mm256_blend_epi32 t0 t1 0xF0 in
  let s := g2 s b0 in
  let s := undiagonalize s in
  s.

(** avx2.rs:197-215. *)
Definition round2 (m : msgs) (s : rows) : rows :=
  let '(m0, m1, m2, m3, m4, m5, m6, m7) := m in
  let t0 := mm256_unpacklo_epi64 m7 m2 in
  let t1 := mm256_unpackhi_epi64 m4 m6 in
  let b0 := mm256_blend_epi32 t0 t1 0xF0 in
  let s := g1 s b0 in
  let t0 := mm256_unpacklo_epi64 m5 m4 in
  let t1 := mm256_alignr_epi8 m3 m7 8%nat in
  let b0 := mm256_blend_epi32 t0 t1 0xF0 in
  let s := g2 s b0 in
  let s := diagonalize s in
  let t0 := mm256_unpackhi_epi64 m2 m0 in
  let t1 := mm256_blend_epi32 m5 m0 0x33 in
  let b0 := mm256_blend_epi32 t0 t1 0xF0 in
  let s := g1 s b0 in
  let t0 := mm256_alignr_epi8 m6 m1 8%nat in
  let t1 := mm256_blend_epi32 m3 m1 0x33 in
  let b0 := mm256_blend_epi32 t0 t1 0xF0 in
  let s := g2 s b0 in
  let s := undiagonalize s in
  s.

(** avx2.rs:217-235. *)
Definition round3 (m : msgs) (s : rows) : rows :=
  let '(m0, m1, m2, m3, m4, m5, m6, m7) := m in
  let t0 := mm256_alignr_epi8 m6 m5 8%nat in
  let t1 := mm256_unpackhi_epi64 m2 m7 in
  let b0 := mm256_blend_epi32 t0 t1 0xF0 in
  let s := g1 s b0 in
  let t0 := mm256_unpacklo_epi64 m4 m0 in
  let t1 := mm256_blend_epi32 m6 m1 0x33 in
  let b0 := mm256_blend_epi32 t0 t1 0xF0 in
  let s := g2 s b0 in
  let s := diagonalize s in
  let t0 := mm256_alignr_epi8 m5 m4 8%nat in
  let t1 := mm256_unpackhi_epi64 m1 m3 in
  let b0 := mm256_blend_epi32 t0 t1 0xF0 in
  let s := g1 s b0 in
  let t0 := mm256_unpacklo_epi64 m2 m7 in
  let t1 := mm256_blend_epi32 m0 m3 0x33 in
  let b0 := mm256_blend_epi32 t0 t1 0xF0 in
  let s := g2 s b0 in
  let s := undiagonalize s in
  s.

(** avx2.rs:237-255. *)
Definition round4 (m : msgs) (s : rows) : rows :=
  let '(m0, m1, m2, m3, m4, m5, m6, m7) := m in
  let t0 := mm256_unpackhi_epi64 m3 m1 in
  let t1 := mm256_unpackhi_epi64 m6 m5 in
  let b0 := mm256_blend_epi32 t0 t1 0xF0 in
  let s := g1 s b0 in
  let t0 := mm256_unpackhi_epi64 m4 m0 in
  let t1 := mm256_unpacklo_epi64 m6 m7 in
  let b0 := mm256_blend_epi32 t0 t1 0xF0 in
  let s := g2 s b0 in
  let s := diagonalize s in
  let t0 := mm256_alignr_epi8 m1 m7 8%nat in
  let t1 := mm256_shuffle_epi32 m2 (MM_SHUFFLE 1 0 3 2) in
  let b0 := mm256_blend_epi32 t0 t1 0xF0 in
  let s := g1 s b0 in
  let t0 := mm256_unpacklo_epi64 m4 m3 in
  let t1 := mm256_unpacklo_epi64 m5 m0 in
  let b0 := mm256_blend_epi32 t0 t1 0xF0 in
  let s := g2 s b0 in
  let s := undiagonalize s in
  s.

(** avx2.rs:257-275. *)
Definition round5 (m : msgs) (s : rows) : rows :=
  let '(m0, m1, m2, m3, m4, m5, m6, m7) := m in
  let t0 := mm256_unpackhi_epi64 m4 m2 in
  let t1 := mm256_unpacklo_epi64 m1 m5 in
  let b0 := mm256_blend_epi32 t0 t1 0xF0 in
  let s := g1 s b0 in
  let t0 := mm256_blend_epi32 m3 m0 0x33 in
  let t1 := mm256_blend_epi32 m7 m2 0x33 in
  let b0 := mm256_blend_epi32 t0 t1 0xF0 in
  let s := g2 s b0 in
  let s := diagonalize s in
  let t0 := mm256_alignr_epi8 m7 m1 8%nat in
  let t1 := mm256_alignr_epi8 m3 m5 8%nat in
  let b0 := mm256_blend_epi32 t0 t1 0xF0 in
  let s := g1 s b0 in
  let t0 := mm256_unpackhi_epi64 m6 m0 in
  let t1 := mm256_unpacklo_epi64 m6 m4 in
  let b0 := mm256_blend_epi32 t0 t1 0xF0 in
  let s := g2 s b0 in
  let s := undiagonalize s in
  s.

(** avx2.rs:277-295. *)
Definition round6 (m : msgs) (s : rows) : rows :=
  let '(m0, m1, m2, m3, m4, m5, m6, m7) := m in
  let t0 := mm256_unpacklo_epi64 m1 m3 in
  let t1 := mm256_unpacklo_epi64 m0 m4 in
  let b0 := mm256_blend_epi32 t0 t1 0xF0 in
  let s := g1 s b0 in
  let t0 := mm256_unpacklo_epi64 m6 m5 in
  let t1 := mm256_unpackhi_epi64 m5 m1 in
  let b0 := mm256_blend_epi32 t0 t1 0xF0 in
  let s := g2 s b0 in
  let s := diagonalize s in
  let t0 := mm256_alignr_epi8 m2 m0 8%nat in
  let t1 := mm256_unpackhi_epi64 m3 m7 in
  let b0 := mm256_blend_epi32 t0 t1 0xF0 in
  let s := g1 s b0 in
  let t0 := mm256_unpackhi_epi64 m4 m6 in
  let t1 := mm256_alignr_epi8 m7 m2 8%nat in
  let b0 := mm256_blend_epi32 t0 t1 0xF0 in
  let s := g2 s b0 in
  let s := undiagonalize s in
  s.

(** avx2.rs:297-315. *)
Definition round7 (m : msgs) (s : rows) : rows :=
  let '(m0, m1, m2, m3, m4, m5, m6, m7) := m in
  let t0 := mm256_blend_epi32 m0 m6 0x33 in
  let t1 := mm256_unpacklo_epi64 m7 m2 in
  let b0 := mm256_blend_epi32 t0 t1 0xF0 in
  let s := g1 s b0 in
  let t0 := mm256_unpackhi_epi64 m2 m7 in
  let t1 := mm256_alignr_epi8 m5 m6 8%nat in
  let b0 := mm256_blend_epi32 t0 t1 0xF0 in
  let s := g2 s b0 in
  let s := diagonalize s in
  let t0 := mm256_unpacklo_epi64 m4 m0 in
  let t1 := mm256_blend_epi32 m4 m3 0x33 in
  let b0 := mm256_blend_epi32 t0 t1 0xF0 in
  let s := g1 s b0 in
  let t0 := mm256_unpackhi_epi64 m5 m3 in
  let t1 := mm256_shuffle_epi32 m1 (MM_SHUFFLE 1 0 3 2) in
  let b0 := mm256_blend_epi32 t0 t1 0xF0 in
  let s := g2 s b0 in
  let s := undiagonalize s in
  s.

(** avx2.rs:317-335. *)
Definition round8 (m : msgs) (s : rows) : rows :=
  let '(m0, m1, m2, m3, m4, m5, m6, m7) := m in
  let t0 := mm256_unpackhi_epi64 m6 m3 in
  let t1 := mm256_blend_epi32 m1 m6 0x33 in
  let b0 := mm256_blend_epi32 t0 t1 0xF0 in
  let s := g1 s b0 in
  let t0 := mm256_alignr_epi8 m7 m5 8%nat in
  let t1 := mm256_unpackhi_epi64 m0 m4 in
  let b0 := mm256_blend_epi32 t0 t1 0xF0 in
  let s := g2 s b0 in
  let s := diagonalize s in
  let t0 := mm256_blend_epi32 m2 m1 0x33 in
  let t1 := mm256_alignr_epi8 m4 m7 8%nat in
  let b0 := mm256_blend_epi32 t0 t1 0xF0 in
  let s := g1 s b0 in
  let t0 := mm256_unpacklo_epi64 m5 m0 in
  let t1 := mm256_unpacklo_epi64 m2 m3 in
  let b0 := mm256_blend_epi32 t0 t1 0xF0 in
  let s := g2 s b0 in
  let s := undiagonalize s in
  s.

(** avx2.rs:337-355. *)
Definition round9 (m : msgs) (s : rows) : rows :=
  let '(m0, m1, m2, m3, m4, m5, m6, m7) := m in
  let t0 := mm256_unpacklo_epi64 m3 m7 in
  let t1 := mm256_alignr_epi8 m0 m5 8%nat in
  let b0 := mm256_blend_epi32 t0 t1 0xF0 in
  let s := g1 s b0 in
  let t0 := mm256_unpackhi_epi64 m7 m4 in
  let t1 := mm256_alignr_epi8 m4 m1 8%nat in
  let b0 := mm256_blend_epi32 t0 t1 0xF0 in
  let s := g2 s b0 in
  let s := diagonalize s in
  let t0 := mm256_unpacklo_epi64 m5 m6 in
  let t1 := mm256_unpackhi_epi64 m6 m0 in
  let b0 := mm256_blend_epi32 t0 t1 0xF0 in
  let s := g1 s b0 in
  let t0 := mm256_alignr_epi8 m1 m2 8%nat in
  let t1 := mm256_alignr_epi8 m2 m3 8%nat in
  let b0 := mm256_blend_epi32 t0 t1 0xF0 in
  let s := g2 s b0 in
  let s := undiagonalize s in
  s.

(** avx2.rs:357-375. *)
Definition round10 (m : msgs) (s : rows) : rows :=
  let '(m0, m1, m2, m3, m4, m5, m6, m7) := m in
  let t0 := mm256_unpacklo_epi64 m5 m4 in
  let t1 := mm256_unpackhi_epi64 m3 m0 in
  let b0 := mm256_blend_epi32 t0 t1 0xF0 in
  let s := g1 s b0 in
  let t0 := mm256_unpacklo_epi64 m1 m2 in
  let t1 := mm256_blend_epi32 m2 m3 0x33 in
  let b0 := mm256_blend_epi32 t0 t1 0xF0 in
  let s := g2 s b0 in
  let s := diagonalize s in
  let t0 := mm256_unpackhi_epi64 m6 m7 in
  let t1 := mm256_unpackhi_epi64 m4 m1 in
  let b0 := mm256_blend_epi32 t0 t1 0xF0 in
  let s := g1 s b0 in
  let t0 := mm256_blend_epi32 m5 m0 0x33 in
  let t1 := mm256_unpacklo_epi64 m7 m6 in
  let b0 := mm256_blend_epi32 t0 t1 0xF0 in
  let s := g2 s b0 in
  let s := undiagonalize s in
  s.

(** avx2.rs:377-395. *)
Definition round11 (m : msgs) (s : rows) : rows :=
  let '(m0, m1, m2, m3, m4, m5, m6, m7) := m in
  let t0 := mm256_unpacklo_epi64 m0 m1 in
  let t1 := mm256_unpacklo_epi64 m2 m3 in
  let b0 := mm256_blend_epi32 t0 t1 0xF0 in
  let s := g1 s b0 in
  let t0 := mm256_unpackhi_epi64 m0 m1 in
  let t1 := mm256_unpackhi_epi64 m2 m3 in
  let b0 := mm256_blend_epi32 t0 t1 0xF0 in
  let s := g2 s b0 in
  let s := diagonalize s in
  let t0 := mm256_unpacklo_epi64 m7 m4 in
  let t1 := mm256_unpacklo_epi64 m5 m6 in
  let b0 := mm256_blend_epi32 t0 t1 0xF0 in
  let s := g1 s b0 in
  let t0 := mm256_unpackhi_epi64 m7 m4 in
  let t1 := mm256_unpackhi_epi64 m5 m6 in
  let b0 := mm256_blend_epi32 t0 t1 0xF0 in
  let s := g2 s b0 in
  let s := undiagonalize s in
  s.

(** avx2.rs:397-415. *)
Definition round12 (m : msgs) (s : rows) : rows :=
  let '(m0, m1, m2, m3, m4, m5, m6, m7) := m in
  let t0 := mm256_unpacklo_epi64 m7 m2 in
  let t1 := mm256_unpackhi_epi64 m4 m6 in
  let b0 := mm256_blend_epi32 t0 t1 0xF0 in
  let s := g1 s b0 in
  let t0 := mm256_unpacklo_epi64 m5 m4 in
  let t1 := mm256_alignr_epi8 m3 m7 8%nat in
  let b0 := mm256_blend_epi32 t0 t1 0xF0 in
  let s := g2 s b0 in
  let s := diagonalize s in
  let t0 := mm256_unpackhi_epi64 m2 m0 in
  let t1 := mm256_blend_epi32 m5 m0 0x33 in
  let b0 := mm256_blend_epi32 t0 t1 0xF0 in
  let s := g1 s b0 in
  let t0 := mm256_alignr_epi8 m6 m1 8%nat in
  let t1 := mm256_blend_epi32 m3 m1 0x33 in
  let b0 := mm256_blend_epi32 t0 t1 0xF0 in
  let s := g2 s b0 in
  let s := undiagonalize s in
  s.

(** avx2.rs:146-424.  loadu_128(msg_chunks.i) loads bytes 16i..16i+16 of the block. *)
Definition compress_block (block : list byte) (words : list N)
    (count last_block last_node : N) : list N :=
  let a := load_words 8 (firstn 4 words) in
  let b := load_words 8 (skipn 4 words) in
  let c := load_words 8 (firstn 4 (iv V2b)) in
  let flags := set4 (count_low V2b count) (count_high V2b count) last_block last_node in
  let d := xor (load_words 8 (skipn 4 (iv V2b))) flags in
  let chunk i := mm256_broadcastsi128_si256 (loadu_bytes 16 block (16 * i)) in
  let m := (chunk 0%nat, chunk 1%nat, chunk 2%nat, chunk 3%nat,
            chunk 4%nat, chunk 5%nat, chunk 6%nat, chunk 7%nat) in
  let iv0 := a in
  let iv1 := b in
  let s := (a, b, c, d) in
  let s := round1 m s in
  let s := round2 m s in
  let s := round3 m s in
  let s := round4 m s in
  let s := round5 m s in
  let s := round6 m s in
  let s := round7 m s in
  let s := round8 m s in
  let s := round9 m s in
  let s := round10 m s in
  let s := round11 m s in
  let s := round12 m s in
  let '(a, b, c, d) := s in
  let a := xor a c in
  let b := xor b d in
  let a := xor a iv0 in
  let b := xor b iv1 in
  store_words 8 4 a ++ store_words 8 4 b.

(** avx2.rs:427-478. *)
Definition avx2_compress1_loop := compress1_loop_gen V2b compress_block raw_reader.
