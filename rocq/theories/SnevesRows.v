(** The vendored C library (Sneves.v): its one-message kernels and their register operations compute
    the portable compression function, for each of the three ways of permuting the message. *)
From Coq Require Import ZArith Arith NArith List Bool Lia ZifyBool ZifyNat ZifyN.
From Verif Require Import Base ByteLemmas Guts Portable Intrinsics KernelSpec LaneLemmas RowKernels.
From Verif Require Import SnevesIntrinsics SnevesLoad Sneves.
From Verif Require Spec.
Import ListNotations.
Open Scope N_scope.

(** *** Rotations *)
(** Rotating the bytes of a word. *)
Lemma rot_bytes v bs j : length bs = wbytes v -> (j <= wbytes v)%nat ->
  from_le (skipn j bs ++ firstn j bs) = rotate_right v (from_le bs) (8 * N.of_nat j).
Proof.
  intros L Hj.
  pose proof (from_le_lt bs) as B. rewrite L in B.
  assert (W : 2 ^ (8 * N.of_nat (wbytes v)) = wmod v) by (destruct v; reflexivity).
  assert (Wb : wbits v = 8 * N.of_nat (wbytes v)) by (destruct v; reflexivity).
  rewrite rotr_rotate by (rewrite ?W in B; auto; lia).
  unfold Spec.rotr. rewrite from_le_app, skipn_length, L.
  assert (E : from_le bs = from_le (firstn j bs) + 2 ^ (8 * N.of_nat j) * from_le (skipn j bs)).
  { rewrite <- (firstn_skipn j bs) at 1. rewrite from_le_app, firstn_length, Nat.min_l by lia. reflexivity. }
  pose proof (from_le_lt (firstn j bs)) as B1. rewrite firstn_length, Nat.min_l in B1 by lia.
  replace (wbits v - 8 * N.of_nat j) with (8 * N.of_nat (wbytes v - j)) by lia.
  set (p := 2 ^ (8 * N.of_nat j)) in *. set (lo := from_le (firstn j bs)) in *.
  set (hi := from_le (skipn j bs)) in *.
  assert (Pz : p <> 0) by (unfold p; apply N.pow_nonzero; lia).
  replace (from_le bs / p) with hi.
  - replace (from_le bs mod p) with lo; [ring|].
    apply (N.mod_unique _ _ hi); [assumption|]. rewrite E. ring.
  - apply (N.div_unique _ _ _ lo); [assumption|]. rewrite E. ring.
Qed.

Lemma lane_rot_bytes v x y i j : (j <= wbytes v)%nat ->
  bytes y (i * wbytes v) (wbytes v) =
    skipn j (bytes x (i * wbytes v) (wbytes v)) ++ firstn j (bytes x (i * wbytes v) (wbytes v)) ->
  lane (wbytes v) y i = rotate_right v (lane (wbytes v) x i) (8 * N.of_nat j).
Proof.
  intros Hj E. unfold lane. rewrite E. apply rot_bytes; auto. apply bytes_length.
Qed.

Lemma b_rot32_lane : forall x i, (i < 4)%nat -> lane (wbytes V2b) (b_ROT32 x) i = rotate_right V2b (lane (wbytes V2b) x i) 32.
Proof. 
  intros x i H. apply (lane_rot_bytes V2b _ _ i 4); [cbn [wbytes]; lia|].
  do 4 (destruct i as [|i]; [vm_compute; reflexivity|]). lia.
Qed.
Lemma b_rot24_lane : forall x i, (i < 4)%nat -> lane (wbytes V2b) (b_ROT24 x) i = rotate_right V2b (lane (wbytes V2b) x i) 24.
Proof. 
  intros x i H. apply (lane_rot_bytes V2b _ _ i 3); [cbn [wbytes]; lia|].
  do 4 (destruct i as [|i]; [vm_compute; reflexivity|]). lia.
Qed.
Lemma b_rot16_lane : forall x i, (i < 4)%nat -> lane (wbytes V2b) (b_ROT16 x) i = rotate_right V2b (lane (wbytes V2b) x i) 16.
Proof. 
  intros x i H. apply (lane_rot_bytes V2b _ _ i 2); [cbn [wbytes]; lia|].
  do 4 (destruct i as [|i]; [vm_compute; reflexivity|]). lia.
Qed.
Lemma b_rot63_lane : forall x i, (i < 4)%nat -> lane (wbytes V2b) (b_ROT63 x) i = rotate_right V2b (lane (wbytes V2b) x i) 63.
Proof.
  intros x i H. unfold b_ROT63, mm256_or_si256, mm256_srli_epi64, b_ADD, mm256_add_epi64.
  rewrite lane_or by (cbn [wbytes]; lia). change (wbytes V2b) with 8%nat.
  rewrite lane_srli, lane_add by auto. unfold rotate_right. f_equal.
  rewrite N.shiftl_mul_pow2. change (lane_mod 8) with (wmod V2b). f_equal.
  change (wbits V2b - 63) with 1. lia.
Qed.

Lemma s_rot16128_lane : forall x i, (i < 4)%nat -> lane (wbytes V2s) (ROT16128 x) i = rotate_right V2s (lane (wbytes V2s) x i) 16.
Proof. 
  intros x i H. apply (lane_rot_bytes V2s _ _ i 2); [cbn [wbytes]; lia|].
  do 4 (destruct i as [|i]; [vm_compute; reflexivity|]). lia.
Qed.
Lemma s_rot8128_lane : forall x i, (i < 4)%nat -> lane (wbytes V2s) (ROT8128 x) i = rotate_right V2s (lane (wbytes V2s) x i) 8.
Proof. 
  intros x i H. apply (lane_rot_bytes V2s _ _ i 1); [cbn [wbytes]; lia|].
  do 4 (destruct i as [|i]; [vm_compute; reflexivity|]). lia.
Qed.
Lemma s_rot12128_lane : forall x i, (i < 4)%nat -> lane (wbytes V2s) (ROT12128 x) i = rotate_right V2s (lane (wbytes V2s) x i) 12.
Proof. intros x i H. exact (lane_rot V2s 4 16 x 12 i H ltac:(cbn [wbytes]; lia)). Qed.
Lemma s_rot7128_lane : forall x i, (i < 4)%nat -> lane (wbytes V2s) (ROT7128 x) i = rotate_right V2s (lane (wbytes V2s) x i) 7.
Proof. intros x i H. exact (lane_rot V2s 4 16 x 7 i H ltac:(cbn [wbytes]; lia)). Qed.

Lemma s_rot16_lane : forall x i, (i < 8)%nat -> lane (wbytes V2s) (o_rot1 s_ops x) i = rotate_right V2s (lane (wbytes V2s) x i) 16.
Proof. 
  intros x i H. apply (lane_rot_bytes V2s _ _ i 2); [cbn [wbytes]; lia|].
  do 8 (destruct i as [|i]; [vm_compute; reflexivity|]). lia.
Qed.
Lemma s_rot8_lane : forall x i, (i < 8)%nat -> lane (wbytes V2s) (o_rot3 s_ops x) i = rotate_right V2s (lane (wbytes V2s) x i) 8.
Proof. 
  intros x i H. apply (lane_rot_bytes V2s _ _ i 1); [cbn [wbytes]; lia|].
  do 8 (destruct i as [|i]; [vm_compute; reflexivity|]). lia.
Qed.
Lemma s_rot12_lane : forall x i, (i < 8)%nat -> lane (wbytes V2s) (o_rot2 s_ops x) i = rotate_right V2s (lane (wbytes V2s) x i) 12.
Proof. intros x i H. exact (lane_rot V2s 8 32 x 12 i H ltac:(cbn [wbytes]; lia)). Qed.
Lemma s_rot7_lane : forall x i, (i < 8)%nat -> lane (wbytes V2s) (o_rot4 s_ops x) i = rotate_right V2s (lane (wbytes V2s) x i) 7.
Proof. intros x i H. exact (lane_rot V2s 8 32 x 7 i H ltac:(cbn [wbytes]; lia)). Qed.

(** *** One half of G *)
Lemma half_col_rot v nb k1 k2 (r1 r2 : reg -> reg) a b c d m i : (i < 4)%nat -> (4 * wbytes v <= nb)%nat ->
  (forall x i, (i < 4)%nat -> lane (wbytes v) (r1 x) i = rotate_right v (lane (wbytes v) x i) k1) ->
  (forall x i, (i < 4)%nat -> lane (wbytes v) (r2 x) i = rotate_right v (lane (wbytes v) x i) k2) ->
  let w := wbytes v in
  let add := add_lanes w 4 in
  let xor := bitwise nb N.lxor in
  let a' := add (add a m) b in
  let d' := r1 (xor d a') in
  let c' := add c d' in
  let b' := r2 (xor b c') in
  col w (a', b', c', d') i = gh v k1 k2 (col w (a, b, c, d) i) (lane w m i).
Proof.
  intros H Hn R1 R2. cbv zeta. unfold col, gh.
  assert (Hi : (S i * wbytes v <= nb)%nat) by nia.
  repeat first [ rewrite R1 by assumption | rewrite R2 by assumption | rewrite lane_add by assumption
               | rewrite lane_xor by assumption ].
  rewrite !lane_mod_wmod.
  rewrite <- !(wa_swap v (lane (wbytes v) a i) (lane (wbytes v) m i)).
  reflexivity.
Qed.

Lemma b_g1_col s m i : (i < 4)%nat ->
  col (wbytes V2b) (b_g1 s m) i =
  gh V2b (rot1 V2b) (rot2 V2b) (col (wbytes V2b) s i) (lane (wbytes V2b) m i).
Proof.
  intros H. destruct s as [[[a b] c] d].
  exact (half_col_rot V2b 32 32 24 b_ROT32 b_ROT24 a b c d m i H (le_n _) b_rot32_lane b_rot24_lane).
Qed.
Lemma b_g2_col s m i : (i < 4)%nat ->
  col (wbytes V2b) (b_g2 s m) i =
  gh V2b (rot3 V2b) (rot4 V2b) (col (wbytes V2b) s i) (lane (wbytes V2b) m i).
Proof.
  intros H. destruct s as [[[a b] c] d].
  exact (half_col_rot V2b 32 16 63 b_ROT16 b_ROT63 a b c d m i H (le_n _) b_rot16_lane b_rot63_lane).
Qed.
Lemma s_g1_col s m i : (i < 4)%nat ->
  col (wbytes V2s) (s_g1 s m) i =
  gh V2s (rot1 V2s) (rot2 V2s) (col (wbytes V2s) s i) (lane (wbytes V2s) m i).
Proof.
  intros H. destruct s as [[[a b] c] d].
  exact (half_col_rot V2s 16 16 12 ROT16128 ROT12128 a b c d m i H (le_n _) s_rot16128_lane s_rot12128_lane).
Qed.
Lemma s_g2_col s m i : (i < 4)%nat ->
  col (wbytes V2s) (s_g2 s m) i =
  gh V2s (rot3 V2s) (rot4 V2s) (col (wbytes V2s) s i) (lane (wbytes V2s) m i).
Proof.
  intros H. destruct s as [[[a b] c] d].
  exact (half_col_rot V2s 16 8 7 ROT8128 ROT7128 a b c d m i H (le_n _) s_rot8128_lane s_rot7128_lane).
Qed.

(** *** Diagonals *)
Lemma b_diag_col : forall a b c d i, (i < 4)%nat ->
  col (wbytes V2b) (b_diag (a, b, c, d)) i =
  (lane (wbytes V2b) a ((i + 3) mod 4), lane (wbytes V2b) b i,
   lane (wbytes V2b) c ((i + 1) mod 4), lane (wbytes V2b) d ((i + 2) mod 4)).
Proof. perm_cols. Qed.
Lemma b_undiag_col : forall a b c d i, (i < 4)%nat ->
  col (wbytes V2b) (b_undiag (a, b, c, d)) i =
  (lane (wbytes V2b) a ((i + 1) mod 4), lane (wbytes V2b) b i,
   lane (wbytes V2b) c ((i + 3) mod 4), lane (wbytes V2b) d ((i + 2) mod 4)).
Proof. perm_cols. Qed.
Lemma s_diag_col : forall a b c d i, (i < 4)%nat ->
  col (wbytes V2s) (s_diag (a, b, c, d)) i =
  (lane (wbytes V2s) a i, lane (wbytes V2s) b ((i + 1) mod 4),
   lane (wbytes V2s) c ((i + 2) mod 4), lane (wbytes V2s) d ((i + 3) mod 4)).
Proof. perm_cols. Qed.
Lemma s_undiag_col : forall a b c d i, (i < 4)%nat ->
  col (wbytes V2s) (s_undiag (a, b, c, d)) i =
  (lane (wbytes V2s) a i, lane (wbytes V2s) b ((i + 3) mod 4),
   lane (wbytes V2s) c ((i + 2) mod 4), lane (wbytes V2s) d ((i + 1) mod 4)).
Proof. perm_cols. Qed.

(** As [rows_round], with row a fixed and rows b, c, d rotated. *)
Section Rows.
Variable v : variant.
Variables g1 g2 : rows -> reg -> rows.
Variables diagonalize undiagonalize : rows -> rows.
Let w := wbytes v.
Hypothesis g1_col : forall s m i, (i < 4)%nat ->
  col w (g1 s m) i = gh v (rot1 v) (rot2 v) (col w s i) (lane w m i).
Hypothesis g2_col : forall s m i, (i < 4)%nat ->
  col w (g2 s m) i = gh v (rot3 v) (rot4 v) (col w s i) (lane w m i).
Hypothesis diag_col : forall a b c d i, (i < 4)%nat ->
  col w (diagonalize (a, b, c, d)) i =
  (lane w a i, lane w b ((i + 1) mod 4), lane w c ((i + 2) mod 4), lane w d ((i + 3) mod 4)).
Hypothesis undiag_col : forall a b c d i, (i < 4)%nat ->
  col w (undiagonalize (a, b, c, d)) i =
  (lane w a i, lane w b ((i + 3) mod 4), lane w c ((i + 2) mod 4), lane w d ((i + 1) mod 4)).

Lemma rows_round_std (M : nat -> N) s x1 x2 x3 x4 :
  lanes w 4 x1 = map M [0; 2; 4; 6]%nat ->
  lanes w 4 x2 = map M [1; 3; 5; 7]%nat ->
  lanes w 4 x3 = map M [8; 10; 12; 14]%nat ->
  lanes w 4 x4 = map M [9; 11; 13; 15]%nat ->
  st16 w (undiagonalize (g2 (g1 (diagonalize (g2 (g1 s x1) x2)) x3) x4)) = mixw v M (st16 w s).
Proof.
  unfold lanes. cbn [seq map]. intros H1 H2 H3 H4.
  injection H1 as X10 X11 X12 X13. injection H2 as X20 X21 X22 X23.
  injection H3 as X30 X31 X32 X33. injection H4 as X40 X41 X42 X43.
  assert (G : forall t x y i, (i < 4)%nat ->
    col w (g2 (g1 t x) y) i = gw v (col w t i) (lane w x i) (lane w y i)).
  { intros. unfold gw. rewrite g2_col, g1_col by auto. reflexivity. }
  destruct s as [[[a b] c] d].
  unfold st16 at 2. unfold lanes. cbn [seq map app]. unfold mixw.
  remember (g2 (g1 (a, b, c, d) x1) x2) as s1 eqn:E1.
  pose proof (G (a, b, c, d) x1 x2 0%nat ltac:(lia)) as C0. rewrite X10, X20, <- E1 in C0.
  pose proof (G (a, b, c, d) x1 x2 1%nat ltac:(lia)) as C1. rewrite X11, X21, <- E1 in C1.
  pose proof (G (a, b, c, d) x1 x2 2%nat ltac:(lia)) as C2. rewrite X12, X22, <- E1 in C2.
  pose proof (G (a, b, c, d) x1 x2 3%nat ltac:(lia)) as C3. rewrite X13, X23, <- E1 in C3.
  unfold col in C0, C1, C2, C3. destruct s1 as [[[a1 b1] c1] d1].
  rewrite <- C0, <- C1, <- C2, <- C3. clear C0 C1 C2 C3 E1.
  remember (g2 (g1 (diagonalize (a1, b1, c1, d1)) x3) x4) as s2 eqn:E2.
  pose proof (G (diagonalize (a1, b1, c1, d1)) x3 x4 0%nat ltac:(lia)) as C0.
  rewrite X30, X40, <- E2, diag_col in C0 by lia.
  pose proof (G (diagonalize (a1, b1, c1, d1)) x3 x4 1%nat ltac:(lia)) as C1.
  rewrite X31, X41, <- E2, diag_col in C1 by lia.
  pose proof (G (diagonalize (a1, b1, c1, d1)) x3 x4 2%nat ltac:(lia)) as C2.
  rewrite X32, X42, <- E2, diag_col in C2 by lia.
  pose proof (G (diagonalize (a1, b1, c1, d1)) x3 x4 3%nat ltac:(lia)) as C3.
  rewrite X33, X43, <- E2, diag_col in C3 by lia.
  unfold col in C0, C1, C2, C3. destruct s2 as [[[a2 b2] c2] d2].
  cbn [Nat.add Nat.modulo Nat.divmod fst snd Nat.sub] in C0, C1, C2, C3.
  rewrite <- C0, <- C1, <- C2, <- C3. clear C0 C1 C2 C3 E2.
  pose proof (undiag_col a2 b2 c2 d2 0%nat ltac:(lia)) as C0.
  pose proof (undiag_col a2 b2 c2 d2 1%nat ltac:(lia)) as C1.
  pose proof (undiag_col a2 b2 c2 d2 2%nat ltac:(lia)) as C2.
  pose proof (undiag_col a2 b2 c2 d2 3%nat ltac:(lia)) as C3.
  destruct (undiagonalize (a2, b2, c2, d2)) as [[[a3 b3] c3] d3].
  unfold col in C0, C1, C2, C3.
  cbn [Nat.add Nat.modulo Nat.divmod fst snd Nat.sub] in C0, C1, C2, C3.
  injection C0 as ? ? ? ?. injection C1 as ? ? ? ?. injection C2 as ? ? ? ?. injection C3 as ? ? ? ?.
  unfold st16, lanes. cbn [seq map app]. congruence.
Qed.
End Rows.

(** *** The message vectors *)
Definition msgs_lanes (v : variant) (r : nat) (block : list byte) (o3 o4 : list nat)
    (x : reg * reg * reg * reg) : Prop :=
  let '(x1, x2, x3, x4) := x in
  let M k := lane (wbytes v) block (sig v r k) in
  lanes (wbytes v) 4 x1 = map M [0; 2; 4; 6]%nat /\
  lanes (wbytes v) 4 x2 = map M [1; 3; 5; 7]%nat /\
  lanes (wbytes v) 4 x3 = map M o3 /\
  lanes (wbytes v) 4 x4 = map M o4.

Lemma lanes_sel v r block x ks :
  map (fun i => bytes x (i * wbytes v) (wbytes v)) (seq 0 4) =
    map (fun k => bytes block (sig v r k * wbytes v) (wbytes v)) ks ->
  lanes (wbytes v) 4 x = map (fun k => lane (wbytes v) block (sig v r k)) ks.
Proof. intros H. apply (f_equal (map from_le)) in H. rewrite !map_map in H. exact H. Qed.

Lemma lanes_set w block a b c d :
  lanes w 4 (from_lanes w [lane w block a; lane w block b; lane w block c; lane w block d]) =
  [lane w block a; lane w block b; lane w block c; lane w block d].
Proof.
  unfold lanes. cbn [seq map].
  rewrite !lane_from_lanes by (cbn; lia). cbn [nth]. rewrite !N.mod_small by apply lane_lt. reflexivity.
Qed.

Definition lanes16 (w : nat) (block : list byte) : words16 :=
  (lane w block 0, lane w block 1, lane w block 2, lane w block 3, lane w block 4, lane w block 5,
   lane w block 6, lane w block 7, lane w block 8, lane w block 9, lane w block 10, lane w block 11,
   lane w block 12, lane w block 13, lane w block 14, lane w block 15).
Lemma b_message_words_lanes block : b_message_words block = lanes16 8 block.
Proof. reflexivity. Qed.
Lemma s_message_words_lanes block : s_message_words block = lanes16 4 block.
Proof. reflexivity. Qed.

Ltac simple_msgs :=
  match goal with |- lanes _ _ (?f _) = _ => unfold f, lanes16, mm256_set_epi64x, mm_set_epi32 end;
  cbn [wbytes]; rewrite lanes_set; cbn [map]; repeat apply (f_equal2 cons); try reflexivity;
  apply (f_equal (lane _ _)); vm_compute; reflexivity.

Lemma b_msgs p r block : (r < 12)%nat ->
  msgs_lanes V2b r block [14; 8; 10; 12]%nat [15; 9; 11; 13]%nat (b_round_msgs p r block).
Proof.
  intros Hr. destruct p.
  - do 12 (destruct r as [|r];
      [unfold b_round_msgs, b_shuffles, msgs_lanes; cbv zeta;
       repeat split; apply lanes_sel; vm_compute; reflexivity|]). lia.
  - do 12 (destruct r as [|r];
      [unfold b_round_msgs, msgs_lanes; cbv zeta;
       repeat split; apply lanes_sel; vm_compute; reflexivity|]). lia.
  - do 12 (destruct r as [|r];
      [unfold b_round_msgs, b_simple, msgs_lanes; cbv zeta; rewrite b_message_words_lanes;
       repeat split; simple_msgs|]). lia.
Qed.

Lemma s_msgs p r block : (r < 10)%nat ->
  msgs_lanes V2s r block [8; 10; 12; 14]%nat [9; 11; 13; 15]%nat (s_round_msgs p r block).
Proof.
  intros Hr. destruct p.
  - do 10 (destruct r as [|r];
      [unfold s_round_msgs, s_shuffles, msgs_lanes; cbv zeta;
       repeat split; apply lanes_sel; vm_compute; reflexivity|]). lia.
  - do 10 (destruct r as [|r];
      [unfold s_round_msgs, msgs_lanes; cbv zeta;
       repeat split; apply lanes_sel; vm_compute; reflexivity|]). lia.
  - do 10 (destruct r as [|r];
      [unfold s_round_msgs, s_simple, msgs_lanes; cbv zeta; rewrite s_message_words_lanes;
       repeat split; simple_msgs|]). lia.
Qed.

(** *** A round *)
Lemma b_round_v1_spec p block s r : length block = 128%nat -> (r < 12)%nat ->
  st16 8 (b_round_v1 p block s r) = round V2b r (msg_words V2b block) (st16 8 s).
Proof.
  intros L Hr. pose proof (b_msgs p r block Hr) as H. unfold b_round_v1.
  destruct (b_round_msgs p r block) as [[[x1 x2] x3] x4].
  destruct H as (H1 & H2 & H3 & H4). cbv zeta.
  rewrite round_mixw by (destruct s as [[[? ?] ?] ?]; reflexivity).
  rewrite (mixw_ext V2b _ (fun k => lane (wbytes V2b) block (sig V2b r k))).
  - apply (rows_round V2b _ _ _ _ b_g1_col b_g2_col b_diag_col b_undiag_col
             (fun k => lane (wbytes V2b) block (sig V2b r k))); assumption.
  - intros k Hk. destruct (sig_spec V2b r k Hr Hk) as [_ B]. apply msg_word_lane; auto.
Qed.
Lemma s_round_v1_spec p block s r : length block = 64%nat -> (r < 10)%nat ->
  st16 4 (s_round_v1 p block s r) = round V2s r (msg_words V2s block) (st16 4 s).
Proof.
  intros L Hr. pose proof (s_msgs p r block Hr) as H. unfold s_round_v1.
  destruct (s_round_msgs p r block) as [[[x1 x2] x3] x4].
  destruct H as (H1 & H2 & H3 & H4). cbv zeta.
  rewrite round_mixw by (destruct s as [[[? ?] ?] ?]; reflexivity).
  rewrite (mixw_ext V2s _ (fun k => lane (wbytes V2s) block (sig V2s r k))).
  - apply (rows_round_std V2s _ _ _ _ s_g1_col s_g2_col s_diag_col s_undiag_col
             (fun k => lane (wbytes V2s) block (sig V2s r k))); assumption.
  - intros k Hk. destruct (sig_spec V2s r k Hr Hk) as [_ B]. apply msg_word_lane; auto.
Qed.

(** *** The whole compression *)
Lemma fold_morph {A B C} (P : C -> Prop) (f : A -> C -> A) (g : B -> C -> B) (phi : A -> B) :
  (forall a c, P c -> phi (f a c) = g (phi a) c) ->
  forall cs a, Forall P cs -> phi (fold_left f cs a) = fold_left g cs (phi a).
Proof.
  intros H cs. induction cs as [|c cs IH]; intros a F; cbn [fold_left]; auto.
  inversion F; subst. rewrite <- H by auto. auto.
Qed.
Definition fold_rows v (step : rows -> nat -> rows) m :=
  fold_morph (fun r => (r < num_rounds v)%nat) step (fun s r => round v r m s) (st16 (wbytes v)).

Lemma v1_generic v nb (step : rows -> nat -> rows) block a b c f0 f1 :
  (4 * wbytes v <= nb)%nat ->
  (forall s r, (r < num_rounds v)%nat ->
     st16 (wbytes v) (step s r) = round v r (msg_words v block) (st16 (wbytes v) s)) ->
  f0 < wmod v -> f1 < wmod v ->
  let w := wbytes v in
  let d0 := bitwise nb N.lxor (load_words w (skipn 4 (iv v)))
              (from_lanes w [count_low v c; count_high v c; f0; f1]) in
  let '(a', b', c', d') :=
    fold_left step (seq 0 (num_rounds v)) (a, b, load_words w (firstn 4 (iv v)), d0) in
  lanes w 4 (bitwise nb N.lxor (bitwise nb N.lxor a' c') a) ++
  lanes w 4 (bitwise nb N.lxor (bitwise nb N.lxor b' d') b) =
  compress_block v block (lanes w 4 a ++ lanes w 4 b) c f0 f1.
Proof.
  intros Hn Hs H0 H1 w d0. unfold compress_block. cbv zeta.
  assert (I : st16 w (a, b, load_words w (firstn 4 (iv v)), d0) =
              init_v v (lanes w 4 a ++ lanes w 4 b) c f0 f1).
  { assert (O : words_ok v (lanes w 4 a ++ lanes w 4 b)).
    { destruct (lanes_ok v 4 a) as [La Fa]. destruct (lanes_ok v 4 b) as [Lb Fb].
      split; [unfold w; rewrite app_length, La, Lb; reflexivity|]. apply Forall_app. split; assumption. }
    rewrite <- (rows_init v nb (lanes w 4 a ++ lanes w 4 b) c f0 f1 O H0 H1 Hn).
    unfold st16. change (wbytes v) with w. fold d0.
    change (firstn 4 (lanes w 4 a ++ lanes w 4 b)) with (lanes w 4 a).
    change (skipn 4 (lanes w 4 a ++ lanes w 4 b)) with (lanes w 4 b).
    unfold w. rewrite !(store_load_words v (lanes (wbytes v) 4 _) 4) by apply lanes_ok. reflexivity. }
  rewrite <- I. unfold w. rewrite <- (fold_rows v step (msg_words v block) Hs).
  2:{ apply Forall_forall. intros r Hr. apply in_seq in Hr. lia. }
  destruct (fold_left step _ _) as [[[a' b'] c'] d'].
  unfold st16, lanes, at_. cbn [seq map app nth Nat.add].
  rewrite !lane_xor by nia.
  repeat apply (f_equal2 cons); try reflexivity; apply N.lxor_comm.
Qed.

Theorem b_compress_v1_spec p a b block c f0 f1 :
  length block = 128%nat -> f0 < wmod V2b -> f1 < wmod V2b ->
  let '(a', b') := b_compress_v1 p a b block (count_low V2b c) (count_high V2b c) f0 f1 in
  lanes 8 4 a' ++ lanes 8 4 b' = compress_block V2b block (lanes 8 4 a ++ lanes 8 4 b) c f0 f1.
Proof.
  intros L H0 H1.
  pose proof (v1_generic V2b 32 (b_round_v1 p block) block a b c f0 f1 (le_n _)
                (fun s r => b_round_v1_spec p block s r L) H0 H1) as G.
  cbv zeta in G. unfold b_compress_v1. cbv zeta.
  change (mm256_set_epi64x f1 f0 (count_high V2b c) (count_low V2b c)) with
    (from_lanes (wbytes V2b) [count_low V2b c; count_high V2b c; f0; f1]).
  change b_iv_hi with (load_words (wbytes V2b) (skipn 4 (iv V2b))).
  change b_iv_lo with (load_words (wbytes V2b) (firstn 4 (iv V2b))).
  change XOR with (bitwise 32 N.lxor). change (seq 0 12) with (seq 0 (num_rounds V2b)).
  destruct (fold_left _ _ _) as [[[a' b'] c'] d']. exact G.
Qed.
Theorem s_compress_v1_spec p a b block c f0 f1 :
  length block = 64%nat -> f0 < wmod V2s -> f1 < wmod V2s ->
  let '(a', b') := s_compress_v1 p a b block (count_low V2s c) (count_high V2s c) f0 f1 in
  lanes 4 4 a' ++ lanes 4 4 b' = compress_block V2s block (lanes 4 4 a ++ lanes 4 4 b) c f0 f1.
Proof.
  intros L H0 H1.
  pose proof (v1_generic V2s 16 (s_round_v1 p block) block a b c f0 f1 (le_n _)
                (fun s r => s_round_v1_spec p block s r L) H0 H1) as G.
  cbv zeta in G. unfold s_compress_v1. cbv zeta.
  change (mm_set_epi32 f1 f0 (count_high V2s c) (count_low V2s c)) with
    (from_lanes (wbytes V2s) [count_low V2s c; count_high V2s c; f0; f1]).
  change s_iv_hi with (load_words (wbytes V2s) (skipn 4 (iv V2s))).
  change s_iv_lo with (load_words (wbytes V2s) (firstn 4 (iv V2s))).
  change XOR128 with (bitwise 16 N.lxor). change (seq 0 10) with (seq 0 (num_rounds V2s)).
  destruct (fold_left _ _ _) as [[[a' b'] c'] d']. exact G.
Qed.
