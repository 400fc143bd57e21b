(** Model of the transposed SIMD back ends: compress4_loop of
    blake2b/src/avx2.rs, compress2_loop of blake2b/src/sse41.rs, compress8_loop
    of blake2s/src/avx2.rs and compress4_loop of blake2s/src/sse41.rs.

    The four files repeat the same text over different register types.  The
    operations in which they differ are the fields of [simd]; the four
    instances are at the end of the file.  "Ab" below is blake2b/src/avx2.rs, "Sb"
    blake2b/src/sse41.rs, "As" blake2s/src/avx2.rs and "Ss" blake2s/src/sse41.rs. *)
From Coq Require Import Arith NArith List Bool.
From Verif Require Import Base Guts Portable Intrinsics.
Import ListNotations.
Open Scope N_scope.

(** *** The register operations of one back end. *)
(** The register operations of one back end: blake2b/src/avx2.rs:15-104, blake2b/src/sse41.rs:15-100, blake2s/src/avx2.rs:14-93, blake2s/src/sse41.rs:15-92. *)
Record simd := {
  s_var : variant;
  s_degree : nat;                      (* DEGREE *)
  s_add : reg -> reg -> reg;           (* add *)
  s_eq : reg -> reg -> reg;            (* eq *)
  s_and : reg -> reg -> reg;           (* and *)
  s_negate_and : reg -> reg -> reg;    (* negate_and *)
  s_xor : reg -> reg -> reg;           (* xor *)
  s_set1 : N -> reg;                   (* set1 *)
  s_setn : list N -> reg;              (* set2 / set4 / set8 *)
  s_rot1 : reg -> reg;                 (* rot32, rot16 *)
  s_rot2 : reg -> reg;                 (* rot24, rot12 *)
  s_rot3 : reg -> reg;                 (* rot16, rot8 *)
  s_rot4 : reg -> reg;                 (* rot63, rot7 *)
  s_transpose_vecs : list reg -> list reg }.

(** *** fn round: blake2b/src/avx2.rs:488-602, blake2b/src/sse41.rs:103-217, blake2s/src/avx2.rs:96-210, blake2s/src/sse41.rs:459-573.

    The 112 statements, in order:
    [AddM i k] is "v[i] = add(v[i], m[SIGMA[r][k] as usize])",
    [Add i j] is "v[i] = add(v[i], v[j])", [Xor i j] is "v[i] = xor(v[i], v[j])"
    and [Rotn i] is "v[i] = rot(v[i])" with the n-th of the four rotations. *)
Inductive stmt :=
| AddM (i k : nat) | Add (i j : nat) | Xor (i j : nat)
| Rot1 (i : nat) | Rot2 (i : nat) | Rot3 (i : nat) | Rot4 (i : nat).

(** The 112 statements: blake2b/src/avx2.rs:489-601, blake2b/src/sse41.rs:104-216, blake2s/src/avx2.rs:97-209, blake2s/src/sse41.rs:460-572. *)
Definition round_program : list stmt :=
  [
   AddM 0 0; AddM 1 2; AddM 2 4; AddM 3 6;
   Add 0 4; Add 1 5; Add 2 6; Add 3 7;
   Xor 12 0; Xor 13 1; Xor 14 2; Xor 15 3;
   Rot1 12; Rot1 13; Rot1 14; Rot1 15;
   Add 8 12; Add 9 13; Add 10 14; Add 11 15;
   Xor 4 8; Xor 5 9; Xor 6 10; Xor 7 11;
   Rot2 4; Rot2 5; Rot2 6; Rot2 7;
   AddM 0 1; AddM 1 3; AddM 2 5; AddM 3 7;
   Add 0 4; Add 1 5; Add 2 6; Add 3 7;
   Xor 12 0; Xor 13 1; Xor 14 2; Xor 15 3;
   Rot3 12; Rot3 13; Rot3 14; Rot3 15;
   Add 8 12; Add 9 13; Add 10 14; Add 11 15;
   Xor 4 8; Xor 5 9; Xor 6 10; Xor 7 11;
   Rot4 4; Rot4 5; Rot4 6; Rot4 7;
   AddM 0 8; AddM 1 10; AddM 2 12; AddM 3 14;
   Add 0 5; Add 1 6; Add 2 7; Add 3 4;
   Xor 15 0; Xor 12 1; Xor 13 2; Xor 14 3;
   Rot1 15; Rot1 12; Rot1 13; Rot1 14;
   Add 10 15; Add 11 12; Add 8 13; Add 9 14;
   Xor 5 10; Xor 6 11; Xor 7 8; Xor 4 9;
   Rot2 5; Rot2 6; Rot2 7; Rot2 4;
   AddM 0 9; AddM 1 11; AddM 2 13; AddM 3 15;
   Add 0 5; Add 1 6; Add 2 7; Add 3 4;
   Xor 15 0; Xor 12 1; Xor 13 2; Xor 14 3;
   Rot3 15; Rot3 12; Rot3 13; Rot3 14;
   Add 10 15; Add 11 12; Add 8 13; Add 9 14;
   Xor 5 10; Xor 6 11; Xor 7 8; Xor 4 9;
   Rot4 5; Rot4 6; Rot4 7; Rot4 4  ]%nat.

(** The effect of one of them (blake2b/src/avx2.rs:489-601 and copies). *)
Definition exec_stmt (S : simd) (r : nat) (m : list reg) (v : list reg) (s : stmt) : list reg :=
  let at_reg (l : list reg) (i : nat) := nth i l [] in
  match s with
  | AddM i k => set v i (s_add S (at_reg v i) (at_reg m (sig (s_var S) r k)))
  | Add i j => set v i (s_add S (at_reg v i) (at_reg v j))
  | Xor i j => set v i (s_xor S (at_reg v i) (at_reg v j))
  | Rot1 i => set v i (s_rot1 S (at_reg v i))
  | Rot2 i => set v i (s_rot2 S (at_reg v i))
  | Rot3 i => set v i (s_rot3 S (at_reg v i))
  | Rot4 i => set v i (s_rot4 S (at_reg v i))
  end.

(** fn round: blake2b/src/avx2.rs:488-602, blake2b/src/sse41.rs:103-217, blake2s/src/avx2.rs:96-210, blake2s/src/sse41.rs:459-573. *)
Definition simd_round (S : simd) (m : list reg) (v : list reg) (r : nat) : list reg :=
  fold_left (exec_stmt S r m) round_program v.

(** compress{N}_transposed!: blake2b/src/avx2.rs:608-665, blake2b/src/sse41.rs:223-279, blake2s/src/avx2.rs:216-271, blake2s/src/sse41.rs:579-633.
    The sequence round(.., 0), round(.., 1), ... is a fold. *)
Definition compress_transposed (S : simd) (h_vecs msg_vecs : list reg)
    (count_low count_high lastblock lastnode : reg) : list reg :=
  let h i := nth i h_vecs [] in
  let IV i := s_set1 S (at_ (iv (s_var S)) i) in
  let v := [h 0%nat; h 1%nat; h 2%nat; h 3%nat; h 4%nat; h 5%nat; h 6%nat; h 7%nat;
            IV 0%nat; IV 1%nat; IV 2%nat; IV 3%nat;
            s_xor S (IV 4%nat) count_low;
            s_xor S (IV 5%nat) count_high;
            s_xor S (IV 6%nat) lastblock;
            s_xor S (IV 7%nat) lastnode] in
  let v := fold_left (simd_round S msg_vecs) (seq 0 (num_rounds (s_var S))) v in
  map (fun i => s_xor S (s_xor S (h i) (nth i v [])) (nth (i + 8) v [])) (seq 0 8).

(** guts::Job: blake2b/src/guts.rs:137-142, blake2s/src/guts.rs:135-140.  The
    mutable borrow [words] is held by value and returned. *)
Record job := {
  j_input : list byte;
  j_words : list N;
  j_count : N;
  j_last_node : bool }.

(** transpose_state_vecs: blake2b/src/avx2.rs:702-723, blake2b/src/sse41.rs:289-300, blake2s/src/avx2.rs:331-345, blake2s/src/sse41.rs:660-681.
    Chunk [c] of DEGREE state words of every job, loaded and transposed. *)
Definition transpose_state_vecs (S : simd) (jobs : list job) : list reg :=
  let d := s_degree S in
  flat_map (fun c =>
      s_transpose_vecs S
        (map (fun j => load_words (wbytes (s_var S)) (firstn d (skipn (c * d) (j_words j)))) jobs))
    (seq 0 (8 / d)).

(** untranspose_state_vecs: blake2b/src/avx2.rs:726-743, blake2b/src/sse41.rs:303-321, blake2s/src/avx2.rs:348-361, blake2s/src/sse41.rs:684-702.
    The new state words of job [i]. *)
Definition untranspose_state_vecs (S : simd) (h_vecs : list reg) (i : nat) : list N :=
  let d := s_degree S in
  flat_map (fun c =>
      let out := s_transpose_vecs S (firstn d (skipn (c * d) h_vecs)) in
      store_words (wbytes (s_var S)) d (nth i out []))
    (seq 0 (8 / d)).

(** transpose_msg_vecs: blake2b/src/avx2.rs:746-780, blake2b/src/sse41.rs:324-340, blake2s/src/avx2.rs:364-398, blake2s/src/sse41.rs:705-739.
    loadu(block.add(c)) is the c-th register-sized piece of the block. *)
Definition transpose_msg_vecs (S : simd) (blocks : list (list byte)) : list reg :=
  let d := s_degree S in
  let n := (d * wbytes (s_var S))%nat in
  flat_map (fun c => s_transpose_vecs S (map (fun b => loadu_bytes n b (c * n)) blocks))
    (seq 0 (16 / d)).

(** load_counts: blake2b/src/avx2.rs:783-798, blake2b/src/sse41.rs:343-348, blake2s/src/avx2.rs:401-424, blake2s/src/sse41.rs:742-757. *)
Definition load_counts (S : simd) (jobs : list job) : reg * reg :=
  (s_setn S (map (fun j => count_low (s_var S) (j_count j)) jobs),
   s_setn S (map (fun j => count_high (s_var S) (j_count j)) jobs)).

(** store_counts: blake2b/src/avx2.rs:801-807, blake2b/src/sse41.rs:351-357, blake2s/src/avx2.rs:427-433, blake2s/src/sse41.rs:760-766.  The new
    count of job [i]. *)
Definition store_count (S : simd) (low high : reg) (i : nat) : N :=
  assemble_count (s_var S) (lane (wbytes (s_var S)) low i) (lane (wbytes (s_var S)) high i).

(** add_to_counts: blake2b/src/avx2.rs:810-818, blake2b/src/sse41.rs:360-368, blake2s/src/avx2.rs:436-444, blake2s/src/sse41.rs:769-777. *)
Definition add_to_counts (S : simd) (lo hi delta : reg) : reg * reg :=
  let lo := s_add S lo delta in
  let lo_reached_zero := s_eq S lo (s_set1 S 0) in
  let delta_was_zero := s_eq S delta (s_set1 S 0) in
  let hi_inc := s_and S (s_set1 S 1) (s_negate_and S delta_was_zero lo_reached_zero) in
  let hi := s_add S hi hi_inc in
  (lo, hi).

(** flags_vec: blake2b/src/avx2.rs:821-828, blake2b/src/sse41.rs:371-373, blake2s/src/avx2.rs:447-458, blake2s/src/sse41.rs:780-787. *)
Definition flags_vec (S : simd) (flags : list bool) : reg :=
  s_setn S (map (flag_word (s_var S)) flags).

(** jobs.iter().map(|job| job.input.len()).min().unwrap(): blake2b/src/avx2.rs:848, blake2b/src/sse41.rs:388, blake2s/src/avx2.rs:482, blake2s/src/sse41.rs:807. *)
Definition min_len (jobs : list job) : outcome nat :=
  match jobs with
  | [] => Panic
  | j :: r => Ret (fold_left (fun m j => Nat.min m (length (j_input j))) r (length (j_input j)))
  end.

(** The main [loop]: blake2b/src/avx2.rs:878-919, blake2b/src/sse41.rs:412-451, blake2s/src/avx2.rs:537-582, blake2s/src/sse41.rs:837-878.  Returns
    the state vectors, the counts and the last offset. *)
Fixpoint compressn_iter (S : simd) (fuel : nat) (inputs : list (list byte)) (fin_offset : nat)
    (fin_blocks : list (list byte)) (fin_counts_delta fin_last_block fin_last_node : reg)
    (st : stride) (offset : nat) (h_vecs : list reg) (counts_lo counts_hi : reg)
    : outcome (list reg * reg * reg * nat) :=
  match fuel with
  | O => Diverge
  | Datatypes.S fuel' =>
      do '(blocks, counts_delta, last_block, last_node) <-
         (if Nat.eqb offset fin_offset
          then Ret (fin_blocks, fin_counts_delta, fin_last_block, fin_last_node)
          else
            do bs <- mapM (fun input => raw_read input offset (blockbytes (s_var S))) inputs;
            Ret (bs, s_set1 S (N.of_nat (blockbytes (s_var S))), s_set1 S 0, s_set1 S 0));
      let m_vecs := transpose_msg_vecs S blocks in
      let '(counts_lo, counts_hi) := add_to_counts S counts_lo counts_hi counts_delta in
      let h_vecs := compress_transposed S h_vecs m_vecs counts_lo counts_hi last_block last_node in
      if Nat.eqb offset fin_offset then Ret (h_vecs, counts_lo, counts_hi, offset)
      else compressn_iter S fuel' inputs fin_offset fin_blocks fin_counts_delta
             fin_last_block fin_last_node st (offset + padded_blockbytes (s_var S) st)
             h_vecs counts_lo counts_hi
  end.

(** compress4_loop blake2b/src/avx2.rs:831-929, compress2_loop blake2b/src/sse41.rs:376-461, compress8_loop
    blake2s/src/avx2.rs:461-592, compress4_loop blake2s/src/sse41.rs:790-888.  [jobs] has [s_degree S] elements. *)
Definition compressn_loop (S : simd) (dbg : bool) (jobs : list job) (finalize : bool)
    (st : stride) : outcome (list job) :=
  let v := s_var S in
  do _ <- mapM (fun j => input_debug_asserts v dbg (j_input j) finalize) jobs;
  let h_vecs := transpose_state_vecs S jobs in
  let '(counts_lo, counts_hi) := load_counts S jobs in
  do min_len <- min_len jobs;
  let fin_offset := sat_sub min_len 1 in
  let fin_offset := (fin_offset - fin_offset mod padded_blockbytes v st)%nat in
  do fin <- mapM (fun j => final_block v (j_input j) fin_offset (zeros (blockbytes v)) st) jobs;
  let fin_blocks := map (fun f => fst (fst f)) fin in
  let fin_counts_delta := s_setn S (map (fun f => N.of_nat (snd (fst f))) fin) in
  let '(fin_last_block, fin_last_node) :=
    if finalize
    then (flags_vec S (map snd fin),
          flags_vec S (map (fun p => snd (fst p) && j_last_node (snd p)) (combine fin jobs)))
    else (s_set1 S 0, s_set1 S 0) in
  do '(h_vecs, counts_lo, counts_hi, offset) <-
    compressn_iter S (Datatypes.S min_len) (map j_input jobs) fin_offset fin_blocks
      fin_counts_delta fin_last_block fin_last_node st 0 h_vecs counts_lo counts_hi;
  let max_consumed := (offset + padded_blockbytes v st)%nat in
  mapM (fun p =>
          let '(i, j) := p in
          let consumed := Nat.min max_consumed (length (j_input j)) in
          do rest <- slice_from (j_input j) consumed;
          Ret {| j_input := rest;
                 j_words := untranspose_state_vecs S h_vecs i;
                 j_count := store_count S counts_lo counts_hi i;
                 j_last_node := j_last_node j |})
       (combine (seq 0 (length jobs)) jobs).

(** *** The four back ends. *)

(** interleave128: blake2b/src/avx2.rs:668-673, blake2s/src/avx2.rs:274-279. *)
Definition interleave128 (a b : reg) : reg * reg :=
  (mm256_permute2x128_si256 a b 0x20, mm256_permute2x128_si256 a b 0x31).

(** transpose_vecs, blake2b/src/avx2.rs:682-699. *)
Definition transpose_vecs_avx2b (vs : list reg) : list reg :=
  match vs with
  | [vec_a; vec_b; vec_c; vec_d] =>
      let ab_02 := mm256_unpacklo_epi64 vec_a vec_b in
      let ab_13 := mm256_unpackhi_epi64 vec_a vec_b in
      let cd_02 := mm256_unpacklo_epi64 vec_c vec_d in
      let cd_13 := mm256_unpackhi_epi64 vec_c vec_d in
      let '(abcd_0, abcd_2) := interleave128 ab_02 cd_02 in
      let '(abcd_1, abcd_3) := interleave128 ab_13 cd_13 in
      [abcd_0; abcd_1; abcd_2; abcd_3]
  | _ => []
  end.

(** blake2b/src/avx2.rs:15-104: DEGREE, the register operations and the rotations. *)
Definition avx2b : simd := {|
  s_var := V2b;
  s_degree := 4;
  s_add := mm256_add_epi64;
  s_eq := mm256_cmpeq_epi64;
  s_and := mm256_and_si256;
  s_negate_and := mm256_andnot_si256;
  s_xor := mm256_xor_si256;
  s_set1 := mm256_set1_epi64x;
  s_setn := fun l => mm256_setr_epi64x (at_ l 0) (at_ l 1) (at_ l 2) (at_ l 3);
  s_rot1 := fun x => mm256_or_si256 (mm256_srli_epi64 x 32) (mm256_slli_epi64 x (64 - 32));
  s_rot2 := fun x => mm256_or_si256 (mm256_srli_epi64 x 24) (mm256_slli_epi64 x (64 - 24));
  s_rot3 := fun x => mm256_or_si256 (mm256_srli_epi64 x 16) (mm256_slli_epi64 x (64 - 16));
  s_rot4 := fun x => mm256_or_si256 (mm256_srli_epi64 x 63) (mm256_slli_epi64 x (64 - 63));
  s_transpose_vecs := transpose_vecs_avx2b |}.

(** set2, blake2b/src/sse41.rs:61-64 (arguments of _mm_set_epi64x are reversed). *)
Definition set2_sse41b (a b : N) : reg := mm_set_epi64x b a.

(** transpose_vecs, blake2b/src/sse41.rs:282-286 (mem::transmute to words and set2). *)
Definition transpose_vecs_sse41b (vs : list reg) : list reg :=
  match vs with
  | [a; b] =>
      let a_words := store_words 8 2 a in
      let b_words := store_words 8 2 b in
      [set2_sse41b (at_ a_words 0) (at_ b_words 0); set2_sse41b (at_ a_words 1) (at_ b_words 1)]
  | _ => []
  end.

(** blake2b/src/sse41.rs:15-100. *)
Definition sse41b : simd := {|
  s_var := V2b;
  s_degree := 2;
  s_add := mm_add_epi64;
  s_eq := mm_cmpeq_epi64;
  s_and := mm_and_si128;
  s_negate_and := mm_andnot_si128;
  s_xor := mm_xor_si128;
  s_set1 := mm_set1_epi64x;
  s_setn := fun l => set2_sse41b (at_ l 0) (at_ l 1);
  s_rot1 := fun x => mm_or_si128 (mm_srli_epi64 x 32) (mm_slli_epi64 x (64 - 32));
  s_rot2 := fun x => mm_or_si128 (mm_srli_epi64 x 24) (mm_slli_epi64 x (64 - 24));
  s_rot3 := fun x => mm_or_si128 (mm_srli_epi64 x 16) (mm_slli_epi64 x (64 - 16));
  s_rot4 := fun x => mm_or_si128 (mm_srli_epi64 x 63) (mm_slli_epi64 x (64 - 63));
  s_transpose_vecs := transpose_vecs_sse41b |}.

(** transpose_vecs, blake2s/src/sse41.rs:636-657. *)
Definition transpose_vecs_sse41s (vs : list reg) : list reg :=
  match vs with
  | [vec_a; vec_b; vec_c; vec_d] =>
      let ab_01 := mm_unpacklo_epi32 vec_a vec_b in
      let ab_23 := mm_unpackhi_epi32 vec_a vec_b in
      let cd_01 := mm_unpacklo_epi32 vec_c vec_d in
      let cd_23 := mm_unpackhi_epi32 vec_c vec_d in
      let abcd_0 := mm_unpacklo_epi64 ab_01 cd_01 in
      let abcd_1 := mm_unpackhi_epi64 ab_01 cd_01 in
      let abcd_2 := mm_unpacklo_epi64 ab_23 cd_23 in
      let abcd_3 := mm_unpackhi_epi64 ab_23 cd_23 in
      [abcd_0; abcd_1; abcd_2; abcd_3]
  | _ => []
  end.

(** blake2s/src/sse41.rs:15-92. *)
Definition sse41s : simd := {|
  s_var := V2s;
  s_degree := 4;
  s_add := mm_add_epi32;
  s_eq := mm_cmpeq_epi32;
  s_and := mm_and_si128;
  s_negate_and := mm_andnot_si128;
  s_xor := mm_xor_si128;
  s_set1 := mm_set1_epi32;
  s_setn := fun l => mm_setr_epi32 (at_ l 0) (at_ l 1) (at_ l 2) (at_ l 3);
  s_rot1 := fun x => mm_or_si128 (mm_srli_epi32 x 16) (mm_slli_epi32 x (32 - 16));
  s_rot2 := fun x => mm_or_si128 (mm_srli_epi32 x 12) (mm_slli_epi32 x (32 - 12));
  s_rot3 := fun x => mm_or_si128 (mm_srli_epi32 x 8) (mm_slli_epi32 x (32 - 8));
  s_rot4 := fun x => mm_or_si128 (mm_srli_epi32 x 7) (mm_slli_epi32 x (32 - 7));
  s_transpose_vecs := transpose_vecs_sse41s |}.

(** transpose_vecs, blake2s/src/avx2.rs:288-328. *)
Definition transpose_vecs_avx2s (vs : list reg) : list reg :=
  match vs with
  | [vec_a; vec_b; vec_c; vec_d; vec_e; vec_f; vec_g; vec_h] =>
      let ab_0145 := mm256_unpacklo_epi32 vec_a vec_b in
      let ab_2367 := mm256_unpackhi_epi32 vec_a vec_b in
      let cd_0145 := mm256_unpacklo_epi32 vec_c vec_d in
      let cd_2367 := mm256_unpackhi_epi32 vec_c vec_d in
      let ef_0145 := mm256_unpacklo_epi32 vec_e vec_f in
      let ef_2367 := mm256_unpackhi_epi32 vec_e vec_f in
      let gh_0145 := mm256_unpacklo_epi32 vec_g vec_h in
      let gh_2367 := mm256_unpackhi_epi32 vec_g vec_h in
      let abcd_04 := mm256_unpacklo_epi64 ab_0145 cd_0145 in
      let abcd_15 := mm256_unpackhi_epi64 ab_0145 cd_0145 in
      let abcd_26 := mm256_unpacklo_epi64 ab_2367 cd_2367 in
      let abcd_37 := mm256_unpackhi_epi64 ab_2367 cd_2367 in
      let efgh_04 := mm256_unpacklo_epi64 ef_0145 gh_0145 in
      let efgh_15 := mm256_unpackhi_epi64 ef_0145 gh_0145 in
      let efgh_26 := mm256_unpacklo_epi64 ef_2367 gh_2367 in
      let efgh_37 := mm256_unpackhi_epi64 ef_2367 gh_2367 in
      let '(abcdefgh_0, abcdefgh_4) := interleave128 abcd_04 efgh_04 in
      let '(abcdefgh_1, abcdefgh_5) := interleave128 abcd_15 efgh_15 in
      let '(abcdefgh_2, abcdefgh_6) := interleave128 abcd_26 efgh_26 in
      let '(abcdefgh_3, abcdefgh_7) := interleave128 abcd_37 efgh_37 in
      [abcdefgh_0; abcdefgh_1; abcdefgh_2; abcdefgh_3;
       abcdefgh_4; abcdefgh_5; abcdefgh_6; abcdefgh_7]
  | _ => []
  end.

(** blake2s/src/avx2.rs:14-93. *)
Definition avx2s : simd := {|
  s_var := V2s;
  s_degree := 8;
  s_add := mm256_add_epi32;
  s_eq := mm256_cmpeq_epi32;
  s_and := mm256_and_si256;
  s_negate_and := mm256_andnot_si256;
  s_xor := mm256_xor_si256;
  s_set1 := mm256_set1_epi32;
  s_setn := fun l => mm256_setr_epi32 (at_ l 0) (at_ l 1) (at_ l 2) (at_ l 3)
                                     (at_ l 4) (at_ l 5) (at_ l 6) (at_ l 7);
  s_rot1 := fun x => mm256_or_si256 (mm256_srli_epi32 x 16) (mm256_slli_epi32 x (32 - 16));
  s_rot2 := fun x => mm256_or_si256 (mm256_srli_epi32 x 12) (mm256_slli_epi32 x (32 - 12));
  s_rot3 := fun x => mm256_or_si256 (mm256_srli_epi32 x 8) (mm256_slli_epi32 x (32 - 8));
  s_rot4 := fun x => mm256_or_si256 (mm256_srli_epi32 x 7) (mm256_slli_epi32 x (32 - 7));
  s_transpose_vecs := transpose_vecs_avx2s |}.
