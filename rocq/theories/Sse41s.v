(** Model of blake2s/src/sse41.rs: the single-input SSE4.1 kernel compress_block
    (lines 15-402) and compress1_loop (405-456).  Round bodies are transliterated line by line. *)
From Coq Require Import Arith NArith List Bool.
From Verif Require Import Base Guts Portable Intrinsics.
Import ListNotations.
Open Scope N_scope.

(** add, sse41.rs:30-32. *)
Definition add := mm_add_epi32.
(** xor, sse41.rs:51-53. *)
Definition xor := mm_xor_si128.
(** set4, sse41.rs:61-63. *)
Definition set4 := mm_setr_epi32.

(** rot7, sse41.rs:75-77. *)
Definition rot7 (a : reg) := mm_or_si128 (mm_srli_epi32 a 7) (mm_slli_epi32 a (32 - 7)).
(** rot8, sse41.rs:80-82. *)
Definition rot8 (a : reg) := mm_or_si128 (mm_srli_epi32 a 8) (mm_slli_epi32 a (32 - 8)).
(** rot12, sse41.rs:85-87. *)
Definition rot12 (a : reg) := mm_or_si128 (mm_srli_epi32 a 12) (mm_slli_epi32 a (32 - 12)).
(** rot16, sse41.rs:90-92. *)
Definition rot16 (a : reg) := mm_or_si128 (mm_srli_epi32 a 16) (mm_slli_epi32 a (32 - 16)).

(** The four row registers (row1 .. row4 of sse41.rs:151-402). *)
Definition rows := (reg * reg * reg * reg)%type.

(** sse41.rs:95-108. *)
Definition g1 (s : rows) (m : reg) : rows :=
  let '(row1, row2, row3, row4) := s in
  let row1 := add (add row1 m) row2 in
  let row4 := xor row4 row1 in
  let row4 := rot16 row4 in
  let row3 := add row3 row4 in
  let row2 := xor row2 row3 in
  let row2 := rot12 row2 in
  (row1, row2, row3, row4).

(** sse41.rs:111-124. *)
Definition g2 (s : rows) (m : reg) : rows :=
  let '(row1, row2, row3, row4) := s in
  let row1 := add (add row1 m) row2 in
  let row4 := xor row4 row1 in
  let row4 := rot8 row4 in
  let row3 := add row3 row4 in
  let row2 := xor row2 row3 in
  let row2 := rot7 row2 in
  (row1, row2, row3, row4).

(** sse41.rs:137-141. *)
Definition diagonalize (s : rows) : rows :=
  let '(row1, row2, row3, row4) := s in
  let row1 := mm_shuffle_epi32 row1 (MM_SHUFFLE 2 1 0 3) in
  let row4 := mm_shuffle_epi32 row4 (MM_SHUFFLE 1 0 3 2) in
  let row3 := mm_shuffle_epi32 row3 (MM_SHUFFLE 0 3 2 1) in
  (row1, row2, row3, row4).

(** sse41.rs:144-148. *)
Definition undiagonalize (s : rows) : rows :=
  let '(row1, row2, row3, row4) := s in
  let row1 := mm_shuffle_epi32 row1 (MM_SHUFFLE 0 3 2 1) in
  let row4 := mm_shuffle_epi32 row4 (MM_SHUFFLE 1 0 3 2) in
  let row3 := mm_shuffle_epi32 row3 (MM_SHUFFLE 2 1 0 3) in
  (row1, row2, row3, row4).

(** The message registers m0..m3 (sse41.rs:170-173). *)
Definition msgs := (reg * reg * reg * reg)%type.

(** sse41.rs:175-196. *)
Definition round1 (m : msgs) (s : rows) : rows :=
  let '(m0, m1, m2, m3) := m in
  let buf := mm_castps_si128 (mm_shuffle_ps (mm_castsi128_ps m0) (mm_castsi128_ps m1) (MM_SHUFFLE 2 0 2 0)) in
  let s := g1 s buf in
  let buf := mm_castps_si128 (mm_shuffle_ps (mm_castsi128_ps m0) (mm_castsi128_ps m1) (MM_SHUFFLE 3 1 3 1)) in
  let s := g2 s buf in
  let s := diagonalize s in
  let t0 := mm_shuffle_epi32 m2 (MM_SHUFFLE 3 2 0 1) in
  let t1 := mm_shuffle_epi32 m3 (MM_SHUFFLE 0 1 3 2) in
  let buf := mm_blend_epi16 t0 t1 0xC3 in
  let s := g1 s buf in
  let t0 := mm_blend_epi16 t0 t1 0x3C in
  let buf := mm_shuffle_epi32 t0 (MM_SHUFFLE 2 3 0 1) in
  let s := g2 s buf in
  let s := undiagonalize s in
  s.

(** sse41.rs:198-220. *)
Definition round2 (m : msgs) (s : rows) : rows :=
  let '(m0, m1, m2, m3) := m in
  let t0 := mm_blend_epi16 m1 m2 0x0C in
  let t1 := mm_slli_si128 m3 4%nat in
  let t2 := mm_blend_epi16 t0 t1 0xF0 in
  let buf := mm_shuffle_epi32 t2 (MM_SHUFFLE 2 1 0 3) in
  let s := g1 s buf in
  let t0 := mm_shuffle_epi32 m2 (MM_SHUFFLE 0 0 2 0) in
  let t1 := mm_blend_epi16 m1 m3 0xC0 in
  let t2 := mm_blend_epi16 t0 t1 0xF0 in
  let buf := mm_shuffle_epi32 t2 (MM_SHUFFLE 2 3 0 1) in
  let s := g2 s buf in
  let s := diagonalize s in
  let t0 := mm_slli_si128 m1 4%nat in
  let t1 := mm_blend_epi16 m2 t0 0x30 in
  let t2 := mm_blend_epi16 m0 t1 0xF0 in
  let buf := mm_shuffle_epi32 t2 (MM_SHUFFLE 3 0 1 2) in
  let s := g1 s buf in
  let t0 := mm_unpackhi_epi32 m0 m1 in
  let t1 := mm_slli_si128 m3 4%nat in
  let t2 := mm_blend_epi16 t0 t1 0x0C in
  let buf := mm_shuffle_epi32 t2 (MM_SHUFFLE 3 0 1 2) in
  let s := g2 s buf in
  let s := undiagonalize s in
  s.

(** sse41.rs:222-244. *)
Definition round3 (m : msgs) (s : rows) : rows :=
  let '(m0, m1, m2, m3) := m in
  let t0 := mm_unpackhi_epi32 m2 m3 in
  let t1 := mm_blend_epi16 m3 m1 0x0C in
  let t2 := mm_blend_epi16 t0 t1 0x0F in
  let buf := mm_shuffle_epi32 t2 (MM_SHUFFLE 3 1 0 2) in
  let s := g1 s buf in
  let t0 := mm_unpacklo_epi32 m2 m0 in
  let t1 := mm_blend_epi16 t0 m0 0xF0 in
  let t2 := mm_slli_si128 m3 8%nat in
  let buf := mm_blend_epi16 t1 t2 0xC0 in
  let s := g2 s buf in
  let s := diagonalize s in
  let t0 := mm_blend_epi16 m0 m2 0x3C in
  let t1 := mm_srli_si128 m1 12%nat in
  let t2 := mm_blend_epi16 t0 t1 0x03 in
  let buf := mm_shuffle_epi32 t2 (MM_SHUFFLE 0 3 2 1) in
  let s := g1 s buf in
  let t0 := mm_slli_si128 m3 4%nat in
  let t1 := mm_blend_epi16 m0 m1 0x33 in
  let t2 := mm_blend_epi16 t1 t0 0xC0 in
  let buf := mm_shuffle_epi32 t2 (MM_SHUFFLE 1 2 3 0) in
  let s := g2 s buf in
  let s := undiagonalize s in
  s.

(** sse41.rs:246-265. *)
Definition round4 (m : msgs) (s : rows) : rows :=
  let '(m0, m1, m2, m3) := m in
  let t0 := mm_unpackhi_epi32 m0 m1 in
  let t1 := mm_unpackhi_epi32 t0 m2 in
  let t2 := mm_blend_epi16 t1 m3 0x0C in
  let buf := mm_shuffle_epi32 t2 (MM_SHUFFLE 3 1 0 2) in
  let s := g1 s buf in
  let t0 := mm_slli_si128 m2 8%nat in
  let t1 := mm_blend_epi16 m3 m0 0x0C in
  let t2 := mm_blend_epi16 t1 t0 0xC0 in
  let buf := mm_shuffle_epi32 t2 (MM_SHUFFLE 2 0 1 3) in
  let s := g2 s buf in
  let s := diagonalize s in
  let t0 := mm_blend_epi16 m0 m1 0x0F in
  let t1 := mm_blend_epi16 t0 m3 0xC0 in
  let buf := mm_shuffle_epi32 t1 (MM_SHUFFLE 0 1 2 3) in
  let s := g1 s buf in
  let t0 := mm_alignr_epi8 m0 m1 4%nat in
  let buf := mm_blend_epi16 t0 m2 0x33 in
  let s := g2 s buf in
  let s := undiagonalize s in
  s.

(** sse41.rs:267-288. *)
Definition round5 (m : msgs) (s : rows) : rows :=
  let '(m0, m1, m2, m3) := m in
  let t0 := mm_unpacklo_epi64 m1 m2 in
  let t1 := mm_unpackhi_epi64 m0 m2 in
  let t2 := mm_blend_epi16 t0 t1 0x33 in
  let buf := mm_shuffle_epi32 t2 (MM_SHUFFLE 2 0 1 3) in
  let s := g1 s buf in
  let t0 := mm_unpackhi_epi64 m1 m3 in
  let t1 := mm_unpacklo_epi64 m0 m1 in
  let buf := mm_blend_epi16 t0 t1 0x33 in
  let s := g2 s buf in
  let s := diagonalize s in
  let t0 := mm_unpackhi_epi64 m3 m1 in
  let t1 := mm_unpackhi_epi64 m2 m0 in
  let t2 := mm_blend_epi16 t1 t0 0x33 in
  let buf := mm_shuffle_epi32 t2 (MM_SHUFFLE 2 1 0 3) in
  let s := g1 s buf in
  let t0 := mm_blend_epi16 m0 m2 0x03 in
  let t1 := mm_slli_si128 t0 8%nat in
  let t2 := mm_blend_epi16 t1 m3 0x0F in
  let buf := mm_shuffle_epi32 t2 (MM_SHUFFLE 2 0 3 1) in
  let s := g2 s buf in
  let s := undiagonalize s in
  s.

(** sse41.rs:290-310. *)
Definition round6 (m : msgs) (s : rows) : rows :=
  let '(m0, m1, m2, m3) := m in
  let t0 := mm_unpackhi_epi32 m0 m1 in
  let t1 := mm_unpacklo_epi32 m0 m2 in
  let buf := mm_unpacklo_epi64 t0 t1 in
  let s := g1 s buf in
  let t0 := mm_srli_si128 m2 4%nat in
  let t1 := mm_blend_epi16 m0 m3 0x03 in
  let buf := mm_blend_epi16 t1 t0 0x3C in
  let s := g2 s buf in
  let s := diagonalize s in
  let t0 := mm_blend_epi16 m1 m0 0x0C in
  let t1 := mm_srli_si128 m3 4%nat in
  let t2 := mm_blend_epi16 t0 t1 0x30 in
  let buf := mm_shuffle_epi32 t2 (MM_SHUFFLE 2 3 0 1) in
  let s := g1 s buf in
  let t0 := mm_unpacklo_epi64 m2 m1 in
  let t1 := mm_shuffle_epi32 m3 (MM_SHUFFLE 2 0 1 0) in
  let t2 := mm_srli_si128 t0 4%nat in
  let buf := mm_blend_epi16 t1 t2 0x33 in
  let s := g2 s buf in
  let s := undiagonalize s in
  s.

(** sse41.rs:312-331. *)
Definition round7 (m : msgs) (s : rows) : rows :=
  let '(m0, m1, m2, m3) := m in
  let t0 := mm_slli_si128 m1 12%nat in
  let t1 := mm_blend_epi16 m0 m3 0x33 in
  let buf := mm_blend_epi16 t1 t0 0xC0 in
  let s := g1 s buf in
  let t0 := mm_blend_epi16 m3 m2 0x30 in
  let t1 := mm_srli_si128 m1 4%nat in
  let t2 := mm_blend_epi16 t0 t1 0x03 in
  let buf := mm_shuffle_epi32 t2 (MM_SHUFFLE 2 1 3 0) in
  let s := g2 s buf in
  let s := diagonalize s in
  let t0 := mm_unpacklo_epi64 m0 m2 in
  let t1 := mm_srli_si128 m1 4%nat in
  let buf := mm_shuffle_epi32 (mm_blend_epi16 t0 t1 0x0C) (MM_SHUFFLE 3 1 0 2) in
  let s := g1 s buf in
  let t0 := mm_unpackhi_epi32 m1 m2 in
  let t1 := mm_unpackhi_epi64 m0 t0 in
  let buf := mm_shuffle_epi32 t1 (MM_SHUFFLE 0 1 2 3) in
  let s := g2 s buf in
  let s := undiagonalize s in
  s.

(** sse41.rs:333-354. *)
Definition round8 (m : msgs) (s : rows) : rows :=
  let '(m0, m1, m2, m3) := m in
  let t0 := mm_unpackhi_epi32 m0 m1 in
  let t1 := mm_blend_epi16 t0 m3 0x0F in
  let buf := mm_shuffle_epi32 t1 (MM_SHUFFLE 2 0 3 1) in
  let s := g1 s buf in
  let t0 := mm_blend_epi16 m2 m3 0x30 in
  let t1 := mm_srli_si128 m0 4%nat in
  let t2 := mm_blend_epi16 t0 t1 0x03 in
  let buf := mm_shuffle_epi32 t2 (MM_SHUFFLE 1 0 2 3) in
  let s := g2 s buf in
  let s := diagonalize s in
  let t0 := mm_unpackhi_epi64 m0 m3 in
  let t1 := mm_unpacklo_epi64 m1 m2 in
  let t2 := mm_blend_epi16 t0 t1 0x3C in
  let buf := mm_shuffle_epi32 t2 (MM_SHUFFLE 2 3 1 0) in
  let s := g1 s buf in
  let t0 := mm_unpacklo_epi32 m0 m1 in
  let t1 := mm_unpackhi_epi32 m1 m2 in
  let t2 := mm_unpacklo_epi64 t0 t1 in
  let buf := mm_shuffle_epi32 t2 (MM_SHUFFLE 2 1 0 3) in
  let s := g2 s buf in
  let s := undiagonalize s in
  s.

(** sse41.rs:356-375. *)
Definition round9 (m : msgs) (s : rows) : rows :=
  let '(m0, m1, m2, m3) := m in
  let t0 := mm_unpackhi_epi32 m1 m3 in
  let t1 := mm_unpacklo_epi64 t0 m0 in
  let t2 := mm_blend_epi16 t1 m2 0xC0 in
  let buf := mm_shufflehi_epi16 t2 (MM_SHUFFLE 1 0 3 2) in
  let s := g1 s buf in
  let t0 := mm_unpackhi_epi32 m0 m3 in
  let t1 := mm_blend_epi16 m2 t0 0xF0 in
  let buf := mm_shuffle_epi32 t1 (MM_SHUFFLE 0 2 1 3) in
  let s := g2 s buf in
  let s := diagonalize s in
  let t0 := mm_unpacklo_epi64 m0 m3 in
  let t1 := mm_srli_si128 m2 8%nat in
  let t2 := mm_blend_epi16 t0 t1 0x03 in
  let buf := mm_shuffle_epi32 t2 (MM_SHUFFLE 1 3 2 0) in
  let s := g1 s buf in
  let t0 := mm_blend_epi16 m1 m0 0x30 in
  let buf := mm_shuffle_epi32 t0 (MM_SHUFFLE 0 3 2 1) in
  let s := g2 s buf in
  let s := undiagonalize s in
  s.

(** sse41.rs:377-398. *)
Definition round10 (m : msgs) (s : rows) : rows :=
  let '(m0, m1, m2, m3) := m in
  let t0 := mm_blend_epi16 m0 m2 0x03 in
  let t1 := mm_blend_epi16 m1 m2 0x30 in
  let t2 := mm_blend_epi16 t1 t0 0x0F in
  let buf := mm_shuffle_epi32 t2 (MM_SHUFFLE 1 3 0 2) in
  let s := g1 s buf in
  let t0 := mm_slli_si128 m0 4%nat in
  let t1 := mm_blend_epi16 m1 t0 0xC0 in
  let buf := mm_shuffle_epi32 t1 (MM_SHUFFLE 1 2 0 3) in
  let s := g2 s buf in
  let s := diagonalize s in
  let t0 := mm_unpackhi_epi32 m0 m3 in
  let t1 := mm_unpacklo_epi32 m2 m3 in
  let t2 := mm_unpackhi_epi64 t0 t1 in
  let buf := mm_shuffle_epi32 t2 (MM_SHUFFLE 0 2 1 3) in
  let s := g1 s buf in
  let t0 := mm_blend_epi16 m3 m2 0xC0 in
  let t1 := mm_unpacklo_epi32 m0 m3 in
  let t2 := mm_blend_epi16 t0 t1 0x0F in
  let buf := mm_shuffle_epi32 t2 (MM_SHUFFLE 1 2 3 0) in
  let s := g2 s buf in
  let s := undiagonalize s in
  s.

(** sse41.rs:151-402.  loadu(msg_ptr.add(i)) loads bytes 16i..16i+16 of the block. *)
Definition compress_block (block : list byte) (words : list N)
    (count last_block last_node : N) : list N :=
  let words_low := firstn 4 words in
  let words_high := skipn 4 words in
  let row1 := load_words 4 words_low in
  let row2 := load_words 4 words_high in
  let row3 := load_words 4 (firstn 4 (iv V2s)) in
  let row4 := xor (load_words 4 (skipn 4 (iv V2s)))
                (set4 (count_low V2s count) (count_high V2s count) last_block last_node) in
  let chunk i := loadu_bytes 16 block (16 * i) in
  let m := (chunk 0%nat, chunk 1%nat, chunk 2%nat, chunk 3%nat) in
  let s := (row1, row2, row3, row4) in
  let s := round1 m s in
  let s := round2 m s in
  let s := round3 m s in
  let s := round4 m s in
  let s := round5 m s in
  let s := round6 m s in
  let s := round7 m s in
  let s := round8 m s in
  let s := round9 m s in
  let s := round10 m s in
  let '(row1, row2, row3, row4) := s in
  store_words 4 4 (xor (load_words 4 words_low) (xor row1 row3)) ++
  store_words 4 4 (xor (load_words 4 words_high) (xor row2 row4)).

(** sse41.rs:405-456. *)
Definition sse41_compress1_loop := compress1_loop_gen V2s compress_block raw_reader.
