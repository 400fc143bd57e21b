(** The vendored C library (Sneves.v): how far the byte counters advance and which lanes are
    finalised, computed with vector instructions, lane by lane. *)
From Coq Require Import ZArith Arith NArith List Bool Lia ZifyBool ZifyNat ZifyN.
From Verif Require Import Base ByteLemmas Guts Portable Intrinsics KernelSpec LaneLemmas RowKernels.
From Verif Require Import SnevesIntrinsics SnevesLoad Sneves SnevesRows.
Import ListNotations.
Open Scope N_scope.

(** A lane that is all ones or all zeros. *)
Definition mask (w : nat) (c : bool) : N := if c then lane_mod w - 1 else 0.

Lemma bytes_of_lane w r i : bytes r (i * w) w = to_le w (lane w r i).
Proof.
  unfold lane. rewrite <- (bytes_length r (i * w) w) at 3. symmetry. apply to_le_from_le.
Qed.

Lemma bytes_blendv a b m off n : (off + n <= 32)%nat ->
  bytes (mm256_blendv_epi8 a b m) off n =
  map (fun k => if N.testbit (b2n (getb m k)) 7 then getb b k else getb a k) (seq off n).
Proof.
  intros H. unfold bytes. apply map_ext_in. intros k Hk. apply in_seq in Hk.
  unfold getb at 1, mm256_blendv_epi8. rewrite nth_map_seq by lia. reflexivity.
Qed.

Lemma lane_blendv a b m i c : (i < 4)%nat -> lane 8 m i = mask 8 c ->
  lane 8 (mm256_blendv_epi8 a b m) i = if c then lane 8 b i else lane 8 a i.
Proof.
  intros H E. unfold lane at 1. rewrite bytes_blendv by lia.
  assert (B : bytes m (i * 8) 8 = repeat (if c then xff else x00) 8).
  { rewrite bytes_of_lane, E. destruct c; vm_compute; reflexivity. }
  assert (M : forall k, In k (seq (i * 8) 8) -> getb m k = if c then xff else x00).
  { intros k Hk. apply in_seq in Hk.
    assert (G : nth (k - i * 8) (bytes m (i * 8) 8) x00 = if c then xff else x00).
    { rewrite B. apply (repeat_spec 8 (if c then xff else x00)). apply nth_In. rewrite repeat_length. lia. }
    unfold bytes in G. rewrite nth_map_seq in G by lia.
    replace (i * 8 + (k - i * 8))%nat with k in G by lia. exact G. }
  destruct c; unfold lane, bytes; f_equal; apply map_ext_in; intros k Hk; rewrite M by auto; reflexivity.
Qed.

Lemma lane_sub w n a b i : (i < n)%nat -> lane w (sub_lanes w n a b) i =
  (lane w a i + (lane_mod w - lane w b i)) mod lane_mod w.
Proof.
  intros H. unfold sub_lanes. rewrite lane_map2_lanes by auto. apply N.mod_mod, lane_mod_nz.
Qed.

Lemma signed64_small x : x < 2 ^ 63 -> signed64 x = Z.of_N x.
Proof. intros H. unfold signed64. apply N.ltb_lt in H. rewrite H. reflexivity. Qed.

Lemma lane_cmpgt a b i : (i < 4)%nat -> lane 8 a i < 2 ^ 63 -> lane 8 b i < 2 ^ 63 ->
  lane 8 (mm256_cmpgt_epi64 a b) i = mask 8 (lane 8 b i <? lane 8 a i).
Proof.
  intros H Ha Hb. unfold mm256_cmpgt_epi64. rewrite lane_map2_lanes by auto.
  rewrite !signed64_small by auto.
  replace (Z.of_N (lane 8 b i) <? Z.of_N (lane 8 a i))%Z with (lane 8 b i <? lane 8 a i)
    by (destruct (N.ltb_spec (lane 8 b i) (lane 8 a i)); symmetry; lia).
  destruct (lane 8 b i <? lane 8 a i); reflexivity.
Qed.

Lemma lane_zero w i : lane w mm256_setzero_si256 i = 0.
Proof.
  unfold lane. replace (bytes mm256_setzero_si256 (i * w) w) with (repeat x00 w); [apply from_le_zeros|].
  unfold bytes. apply (nth_ext _ _ x00 x00); rewrite repeat_length.
  - rewrite map_length, seq_length. reflexivity.
  - intros k Hk. rewrite nth_repeat, nth_map_seq by auto. unfold getb, mm256_setzero_si256. rewrite nth_repeat. reflexivity.
Qed.

Lemma lane_set4 e3 e2 e1 e0 i : (i < 4)%nat -> Forall (fun x => x < 2 ^ 64) [e0; e1; e2; e3] ->
  lane 8 (mm256_set_epi64x e3 e2 e1 e0) i = nth i [e0; e1; e2; e3] 0.
Proof.
  intros H F. unfold mm256_set_epi64x. rewrite lane_from_lanes by exact H.
  apply N.mod_small. rewrite Forall_forall in F; apply F, nth_In; exact H.
Qed.

(** *** BLAKE2bp *)
Theorem b_delta_lane inlen l : (l < 4)%nat -> N.of_nat inlen < 2 ^ 63 ->
  lane 8 (b_delta inlen) l = N.of_nat (Nat.min 128 (inlen - l * 128)).
Proof.
  intros Hl B. unfold b_delta. cbv zeta.
  assert (P : 2 ^ 63 = 9223372036854775808) by reflexivity.
  assert (Q : lane_mod 8 = 18446744073709551616) by reflexivity.
  set (x0 := mm256_set1_epi64x (N.of_nat inlen)).
  assert (X0 : lane 8 x0 l = N.of_nat inlen) by (apply (lane_set1 8 4); auto; lia).
  set (c0 := mm256_set_epi64x 384 256 128 0).
  assert (C0 : lane 8 c0 l = N.of_nat (l * 128)).
  { unfold c0. rewrite lane_set4 by (auto; repeat constructor).
    do 4 (destruct l as [|l]; [reflexivity|]). lia. }
  set (c3 := mm256_set1_epi64x 128).
  assert (C3 : lane 8 c3 l = 128) by (apply (lane_set1 8 4); auto; reflexivity).
  assert (X1 := lane_cmpgt x0 c0 l Hl ltac:(lia) ltac:(lia)). rewrite X0, C0 in X1.
  set (x1 := mm256_cmpgt_epi64 x0 c0) in *.
  set (x2 := mm256_blendv_epi8 mm256_setzero_si256 (mm256_sub_epi64 x0 c0) x1).
  assert (X2 : lane 8 x2 l = N.of_nat (inlen - l * 128)).
  { unfold x2. rewrite (lane_blendv _ _ _ _ _ Hl X1). unfold mm256_sub_epi64.
    rewrite lane_sub, lane_zero, X0, C0 by auto. rewrite Q.
    destruct (N.ltb_spec (N.of_nat (l * 128)) (N.of_nat inlen)); [|lia].
    replace (N.of_nat inlen + (18446744073709551616 - N.of_nat (l * 128))) with
      (N.of_nat (inlen - l * 128) + 1 * 18446744073709551616) by lia.
    rewrite N.mod_add by lia. apply N.mod_small. lia. }
  assert (X3 := lane_cmpgt x2 c3 l Hl ltac:(lia) ltac:(lia)). rewrite X2, C3 in X3.
  rewrite (lane_blendv _ _ _ _ _ Hl X3), X2, C3.
  destruct (N.ltb_spec 128 (N.of_nat (inlen - l * 128))); lia.
Qed.

Theorem b_flags_lane inlen l : (l < 4)%nat -> N.of_nat inlen < 2 ^ 63 ->
  lane 8 (b_flags inlen) l = flag_word V2b (inlen <=? 512 + l * 128)%nat.
Proof.
  intros Hl B. unfold b_flags. cbv zeta.
  assert (P : 2 ^ 63 = 9223372036854775808) by reflexivity.
  set (x0 := mm256_set1_epi64x (N.of_nat inlen)).
  assert (Q : lane_mod 8 = 18446744073709551616) by reflexivity.
  assert (X0 : lane 8 x0 l = N.of_nat inlen) by (apply (lane_set1 8 4); auto; lia).
  set (c1 := mm256_set_epi64x _ _ _ _).
  assert (C1 : lane 8 c1 l = N.of_nat (512 + l * 128 + 1)).
  { unfold c1. rewrite lane_set4 by (auto; repeat constructor).
    do 4 (destruct l as [|l]; [reflexivity|]). lia. }
  rewrite lane_cmpgt by (auto; lia). rewrite X0, C1.
  replace (N.of_nat inlen <? N.of_nat (512 + l * 128 + 1)) with (inlen <=? 512 + l * 128)%nat by lia.
  unfold flag_word, mask. destruct (inlen <=? 512 + l * 128)%nat; reflexivity.
Qed.

(** *** BLAKE2sp *)
Lemma lane_set8 e7 e6 e5 e4 e3 e2 e1 e0 i : (i < 8)%nat ->
  Forall (fun x => x < 2 ^ 32) [e0; e1; e2; e3; e4; e5; e6; e7] ->
  lane 4 (mm256_set_epi32 e7 e6 e5 e4 e3 e2 e1 e0) i = nth i [e0; e1; e2; e3; e4; e5; e6; e7] 0.
Proof.
  intros H F. unfold mm256_set_epi32. rewrite lane_from_lanes by exact H.
  apply N.mod_small. rewrite Forall_forall in F; apply F, nth_In; exact H.
Qed.

Lemma lane_max a b i : (i < 8)%nat -> lane 4 (mm256_max_epu32 a b) i = N.max (lane 4 a i) (lane 4 b i).
Proof.
  intros H. unfold mm256_max_epu32. rewrite lane_map2_lanes by auto. apply N.mod_small.
  pose proof (lane_lt 4 a i). pose proof (lane_lt 4 b i). lia.
Qed.
Lemma lane_min a b i : (i < 8)%nat -> lane 4 (mm256_min_epu32 a b) i = N.min (lane 4 a i) (lane 4 b i).
Proof.
  intros H. unfold mm256_min_epu32. rewrite lane_map2_lanes by auto. apply N.mod_small.
  pose proof (lane_lt 4 a i). pose proof (lane_lt 4 b i). lia.
Qed.
Lemma lane_cmpge a b i : (i < 8)%nat ->
  lane 4 (mm256_cmpge_epu32 a b) i = mask 4 (lane 4 b i <=? lane 4 a i).
Proof.
  intros H. unfold mm256_cmpge_epu32, mm256_cmpeq_epi32. rewrite lane_eq, lane_max by auto.
  replace (lane 4 a i =? N.max (lane 4 a i) (lane 4 b i)) with (lane 4 b i <=? lane 4 a i) by lia.
  reflexivity.
Qed.
Lemma lane_cmplt a b i : (i < 8)%nat ->
  lane 4 (mm256_cmplt_epu32 a b) i = mask 4 (lane 4 a i <? lane 4 b i).
Proof.
  intros H. unfold mm256_cmplt_epu32, mm256_cmpgt_epu32, mm256_not_si256, mm256_cmple_epu32, mm256_xor_si256, mm256_set1_epi32.
  rewrite lane_xor by lia. rewrite lane_cmpge by auto.
  rewrite (lane_set1 4 8 minus1_32 i) by (auto; reflexivity).
  rewrite N.ltb_antisym. destruct (lane 4 b i <=? lane 4 a i); reflexivity.
Qed.

Lemma land_mask c x : x < 2 ^ 32 -> N.land (mask 4 c) x = if c then x else 0.
Proof.
  intros H. destruct c; [|reflexivity]. rewrite N.land_comm.
  change (mask 4 true) with (N.ones 32). rewrite N.land_ones. apply N.mod_small, H.
Qed.
Lemma ldiff_mask c x : x < 2 ^ 32 -> N.ldiff x (mask 4 c) = if c then 0 else x.
Proof.
  intros H. destruct c; [|apply N.ldiff_0_r].
  change (mask 4 true) with (N.ones 32). rewrite N.ldiff_ones_r.
  rewrite N.shiftr_div_pow2, N.div_small by auto. reflexivity.
Qed.

Lemma s_low_lane inlen i : (i < 8)%nat -> lane 4 (s_low inlen) i = N.of_nat inlen mod 2 ^ 32.
Proof.
  intros H. unfold s_low.
  replace (N.land (N.of_nat inlen) 0xFFFFFFFF) with (N.of_nat inlen mod 2 ^ 32)
    by (symmetry; apply (N.land_ones (N.of_nat inlen) 32)).
  apply (lane_set1 4 8); auto. apply N.mod_lt. discriminate.
Qed.
Lemma s_small_lane inlen i : (i < 8)%nat -> N.of_nat inlen < 2 ^ 64 ->
  lane 4 (s_small inlen) i = mask 4 (N.of_nat inlen <? 2 ^ 32).
Proof.
  intros H B. unfold s_small. cbv zeta. unfold mm256_cmpeq_epi32, mm256_set1_epi32.
  assert (D : N.of_nat inlen / 2 ^ 32 < 2 ^ 32) by (apply N.div_lt_upper_bound; [discriminate|exact B]).
  rewrite lane_eq, lane_zero, (lane_set1 4 8) by auto. 
  replace (N.of_nat inlen / 2 ^ 32 =? 0) with (N.of_nat inlen <? 2 ^ 32); [reflexivity|].
  destruct (N.ltb_spec (N.of_nat inlen) (2 ^ 32)) as [S|S].
  - rewrite N.div_small by auto. reflexivity.
  - symmetry. apply N.eqb_neq. intros Z. apply N.div_small_iff in Z; [lia|discriminate].
Qed.

Theorem s_delta_lane inlen l : (l < 8)%nat -> N.of_nat inlen < 2 ^ 64 ->
  lane 4 (s_delta inlen) l = N.of_nat (Nat.min 64 (inlen - l * 64)).
Proof.
  intros Hl B. unfold s_delta. cbv zeta.
  set (x0 := s_low inlen). set (x2 := s_small inlen).
  assert (X0 : lane 4 x0 l = N.of_nat inlen mod 2 ^ 32) by (apply s_low_lane; auto).
  assert (X2 : lane 4 x2 l = mask 4 (N.of_nat inlen <? 2 ^ 32)) by (apply s_small_lane; auto).
  set (c1 := mm256_set_epi32 (448 + 1) _ _ _ _ _ _ _).
  assert (C1 : lane 4 c1 l = N.of_nat (l * 64 + 1)).
  { unfold c1. rewrite lane_set8 by (auto; repeat constructor).
    do 8 (destruct l as [|l]; [reflexivity|]). lia. }
  set (c0 := mm256_set_epi32 448 384 _ _ _ _ _ _).
  assert (C0 : lane 4 c0 l = N.of_nat (l * 64)).
  { unfold c0. rewrite lane_set8 by (auto; repeat constructor).
    do 8 (destruct l as [|l]; [reflexivity|]). lia. }
  set (c64 := mm256_set1_epi32 64).
  assert (C64 : lane 4 c64 l = 64) by (apply (lane_set1 4 8); auto; reflexivity).
  unfold mm256_xor_si256, mm256_and_si256, mm256_andnot_si256.
  rewrite lane_xor, lane_andnot, lane_and by lia. rewrite lane_min by auto.
  rewrite lane_and by lia. rewrite lane_cmpge by auto. unfold mm256_sub_epi32. rewrite lane_sub by auto.
  rewrite X0, X2, C0, C1, C64. clear X0 X2 C0 C1 C64.
  assert (Q : lane_mod 4 = 4294967296) by reflexivity. assert (P : 2 ^ 32 = 4294967296) by reflexivity.
  rewrite ldiff_mask by reflexivity.
  rewrite !land_mask.
  - destruct (N.ltb_spec (N.of_nat inlen) (2 ^ 32)) as [S|S].
    + rewrite N.lxor_0_r. rewrite (N.mod_small (N.of_nat inlen)) by auto.
      destruct (N.leb_spec (N.of_nat (l * 64 + 1)) (N.of_nat inlen)) as [G|G].
      * rewrite Q. replace (N.of_nat inlen + (4294967296 - N.of_nat (l * 64))) with
          (N.of_nat (inlen - l * 64) + 1 * 4294967296) by lia.
        rewrite N.mod_add, N.mod_small by lia. lia.
      * lia.
    + rewrite N.lxor_0_l. lia.
  - rewrite Q, P. apply N.mod_lt. lia.
  - destruct (N.of_nat (l * 64 + 1) <=? N.of_nat inlen mod 2 ^ 32) eqn:?; rewrite ?land_mask; rewrite ?Q, ?P; try lia;
    rewrite N.mod_lt; lia.
Qed.

Theorem s_flags_lane inlen l : (l < 8)%nat -> N.of_nat inlen < 2 ^ 64 ->
  lane 4 (s_flags inlen) l = flag_word V2s (inlen <=? 512 + l * 64)%nat.
Proof.
  intros Hl B. unfold s_flags. cbv zeta. unfold mm256_and_si256. rewrite lane_and by lia.
  rewrite lane_cmpge, s_small_lane, s_low_lane by auto.
  set (c1 := mm256_set_epi32 _ _ _ _ _ _ _ _).
  assert (C1 : lane 4 c1 l = N.of_nat (512 + l * 64)).
  { unfold c1. rewrite lane_set8 by (auto; repeat constructor).
    do 8 (destruct l as [|l]; [reflexivity|]). lia. }
  rewrite C1. clear c1 C1.
  assert (P : 2 ^ 32 = 4294967296) by reflexivity.
  destruct (N.ltb_spec (N.of_nat inlen) (2 ^ 32)) as [S|S].
  - rewrite N.mod_small by auto.
    replace (N.of_nat inlen <=? N.of_nat (512 + l * 64)) with (inlen <=? 512 + l * 64)%nat by lia.
    destruct (inlen <=? 512 + l * 64)%nat; reflexivity.
  - replace (inlen <=? 512 + l * 64)%nat with false by lia.
    unfold mask at 2. rewrite N.land_0_r. reflexivity.
Qed.

(** Adding to a counter held as two 32-bit halves. *)
Lemma counter_add c d : d < 2 ^ 32 ->
  let lo := (count_low V2s c + d) mod 2 ^ 32 in
  lo = count_low V2s (c + d) /\
  (count_high V2s c + (if lo <? d then 1 else 0)) mod 2 ^ 32 = count_high V2s (c + d).
Proof.
  intros H. cbv zeta. unfold count_low, count_high.
  change (8 * N.of_nat (wbytes V2s)) with 32. change (wmod V2s) with (2 ^ 32). rewrite !N.shiftr_div_pow2.
  assert (P : 2 ^ 32 = 4294967296) by reflexivity. rewrite P in *.
  rewrite N.add_mod_idemp_l by lia. split; [reflexivity|].
  rewrite N.add_mod_idemp_l by lia. f_equal.
  pose proof (N.div_mod c 4294967296 ltac:(lia)) as E1. pose proof (N.mod_lt c 4294967296 ltac:(lia)) as B1.
  pose proof (N.div_mod (c + d) 4294967296 ltac:(lia)) as E2. pose proof (N.mod_lt (c + d) 4294967296 ltac:(lia)) as B2.
  set (q1 := c / 4294967296) in *. set (q2 := (c + d) / 4294967296) in *.
  set (r1 := c mod 4294967296) in *. set (r2 := (c + d) mod 4294967296) in *.
  destruct (N.ltb_spec r2 d); nia.
Qed.
