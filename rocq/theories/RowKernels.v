(** The single-input SIMD kernels (AVX2 for BLAKE2b, SSE4.1 for BLAKE2s)
    compute the portable compression function. *)
From Coq Require Import ZArith Arith NArith List Bool Lia ZifyBool ZifyNat ZifyN.
From Verif Require Import Base ByteLemmas Guts Portable Intrinsics KernelSpec LaneLemmas.
From Verif Require Avx2b Sse41s.
Import ListNotations.
Open Scope N_scope.

Definition rows := (reg * reg * reg * reg)%type.

(** Column [i] of the four row registers; all sixteen words. *)
Definition col (w : nat) (s : rows) (i : nat) : N * N * N * N :=
  let '(a, b, c, d) := s in (lane w a i, lane w b i, lane w c i, lane w d i).
Definition st16 (w : nat) (s : rows) : list N :=
  let '(a, b, c, d) := s in lanes w 4 a ++ lanes w 4 b ++ lanes w 4 c ++ lanes w 4 d.

Section Rows.
Variable v : variant.
Variables g1 g2 : rows -> reg -> rows.
Variables diagonalize undiagonalize : rows -> rows.
Let w := wbytes v.
Hypothesis g1_col : forall s m i, (i < 4)%nat ->
  col w (g1 s m) i = gh v (rot1 v) (rot2 v) (col w s i) (lane w m i).
Hypothesis g2_col : forall s m i, (i < 4)%nat ->
  col w (g2 s m) i = gh v (rot3 v) (rot4 v) (col w s i) (lane w m i).
Hypothesis diag_col : forall a b c d i, (i < 4)%nat ->
  col w (diagonalize (a, b, c, d)) i =
  (lane w a ((i + 3) mod 4), lane w b i, lane w c ((i + 1) mod 4), lane w d ((i + 2) mod 4)).
Hypothesis undiag_col : forall a b c d i, (i < 4)%nat ->
  col w (undiagonalize (a, b, c, d)) i =
  (lane w a ((i + 1) mod 4), lane w b i, lane w c ((i + 3) mod 4), lane w d ((i + 2) mod 4)).

Lemma rows_round (M : nat -> N) s x1 x2 x3 x4 :
  lanes w 4 x1 = map M [0; 2; 4; 6]%nat ->
  lanes w 4 x2 = map M [1; 3; 5; 7]%nat ->
  lanes w 4 x3 = map M [14; 8; 10; 12]%nat ->
  lanes w 4 x4 = map M [15; 9; 11; 13]%nat ->
  st16 w (undiagonalize (g2 (g1 (diagonalize (g2 (g1 s x1) x2)) x3) x4)) = mixw v M (st16 w s).
Proof.
  unfold lanes. cbn [seq map]. intros H1 H2 H3 H4.
  injection H1 as X10 X11 X12 X13. injection H2 as X20 X21 X22 X23.
  injection H3 as X30 X31 X32 X33. injection H4 as X40 X41 X42 X43.
  assert (G : forall t x y i, (i < 4)%nat ->
    col w (g2 (g1 t x) y) i = gw v (col w t i) (lane w x i) (lane w y i)).
  { intros. unfold gw. rewrite g2_col, g1_col by auto. reflexivity. }
  destruct s as [[[a b] c] d].
  unfold st16 at 2. unfold lanes. cbn [seq map app]. unfold mixw.
  remember (g2 (g1 (a, b, c, d) x1) x2) as s1 eqn:E1.
  pose proof (G (a, b, c, d) x1 x2 0%nat ltac:(lia)) as C0. rewrite X10, X20, <- E1 in C0.
  pose proof (G (a, b, c, d) x1 x2 1%nat ltac:(lia)) as C1. rewrite X11, X21, <- E1 in C1.
  pose proof (G (a, b, c, d) x1 x2 2%nat ltac:(lia)) as C2. rewrite X12, X22, <- E1 in C2.
  pose proof (G (a, b, c, d) x1 x2 3%nat ltac:(lia)) as C3. rewrite X13, X23, <- E1 in C3.
  unfold col in C0, C1, C2, C3. destruct s1 as [[[a1 b1] c1] d1].
  rewrite <- C0, <- C1, <- C2, <- C3. clear C0 C1 C2 C3 E1.
  remember (g2 (g1 (diagonalize (a1, b1, c1, d1)) x3) x4) as s2 eqn:E2.
  pose proof (G (diagonalize (a1, b1, c1, d1)) x3 x4 0%nat ltac:(lia)) as C0.
  rewrite X30, X40, <- E2, diag_col in C0 by lia.
  pose proof (G (diagonalize (a1, b1, c1, d1)) x3 x4 1%nat ltac:(lia)) as C1.
  rewrite X31, X41, <- E2, diag_col in C1 by lia.
  pose proof (G (diagonalize (a1, b1, c1, d1)) x3 x4 2%nat ltac:(lia)) as C2.
  rewrite X32, X42, <- E2, diag_col in C2 by lia.
  pose proof (G (diagonalize (a1, b1, c1, d1)) x3 x4 3%nat ltac:(lia)) as C3.
  rewrite X33, X43, <- E2, diag_col in C3 by lia.
  unfold col in C0, C1, C2, C3. destruct s2 as [[[a2 b2] c2] d2].
  cbn [Nat.add Nat.modulo Nat.divmod fst snd Nat.sub] in C0, C1, C2, C3.
  rewrite <- C1, <- C2, <- C3, <- C0. clear C0 C1 C2 C3 E2.
  pose proof (undiag_col a2 b2 c2 d2 0%nat ltac:(lia)) as C0.
  pose proof (undiag_col a2 b2 c2 d2 1%nat ltac:(lia)) as C1.
  pose proof (undiag_col a2 b2 c2 d2 2%nat ltac:(lia)) as C2.
  pose proof (undiag_col a2 b2 c2 d2 3%nat ltac:(lia)) as C3.
  destruct (undiagonalize (a2, b2, c2, d2)) as [[[a3 b3] c3] d3].
  unfold col in C0, C1, C2, C3.
  cbn [Nat.add Nat.modulo Nat.divmod fst snd Nat.sub] in C0, C1, C2, C3.
  injection C0 as ? ? ? ?. injection C1 as ? ? ? ?. injection C2 as ? ? ? ?. injection C3 as ? ? ? ?.
  unfold st16, lanes. cbn [seq map app]. congruence.
Qed.
End Rows.

Lemma wa_swap v a m b : wrapping_add v (wrapping_add v a m) b = wrapping_add v (wrapping_add v a b) m.
Proof. rewrite !wrapping_add_3. f_equal. lia. Qed.

(** Message words are the lanes of the block seen as one big register. *)
Lemma msg_word_lane v block k : length block = blockbytes v -> (k < 16)%nat ->
  at_ (msg_words v block) k = lane (wbytes v) block k.
Proof.
  intros L H. unfold at_, msg_words, lane. rewrite nth_map_seq by auto. cbn [Nat.add].
  rewrite bytes_firstn; auto. unfold blockbytes in L. nia.
Qed.

Lemma lanes_of_bytes w r ks block :
  map (fun i => bytes r (i * w) w) (seq 0 4) = map (fun k => bytes block (k * w) w) ks ->
  lanes w 4 r = map (lane w block) ks.
Proof.
  intros H. apply (f_equal (map from_le)) in H. rewrite !map_map in H. exact H.
Qed.

(** A round whose four message vectors are given as byte selections. *)
Definition round_msgs (v : variant) (r : nat) (block : list byte) (x1 x2 x3 x4 : reg) : Prop :=
  let ok x ks := map (fun i => bytes x (i * wbytes v) (wbytes v)) (seq 0 4) =
                 map (fun k => bytes block (sig v r k * wbytes v) (wbytes v)) ks in
  ok x1 [0; 2; 4; 6]%nat /\ ok x2 [1; 3; 5; 7]%nat /\
  ok x3 [14; 8; 10; 12]%nat /\ ok x4 [15; 9; 11; 13]%nat.

Lemma round_msgs_lanes v r block x1 x2 x3 x4 : round_msgs v r block x1 x2 x3 x4 ->
  let M k := lane (wbytes v) block (sig v r k) in
  lanes (wbytes v) 4 x1 = map M [0; 2; 4; 6]%nat /\
  lanes (wbytes v) 4 x2 = map M [1; 3; 5; 7]%nat /\
  lanes (wbytes v) 4 x3 = map M [14; 8; 10; 12]%nat /\
  lanes (wbytes v) 4 x4 = map M [15; 9; 11; 13]%nat.
Proof.
  intros (H1 & H2 & H3 & H4) M.
  assert (A : forall x ks,
    map (fun i => bytes x (i * wbytes v) (wbytes v)) (seq 0 4) =
      map (fun k => bytes block (sig v r k * wbytes v) (wbytes v)) ks ->
    lanes (wbytes v) 4 x = map M ks).
  { intros x ks H. apply (f_equal (map from_le)) in H. rewrite !map_map in H. exact H. }
  repeat split; apply A; assumption.
Qed.


(** One half of G on row registers built from lane-wise operations. *)
Lemma half_col v nb k1 k2 a b c d m i : (i < 4)%nat -> (4 * wbytes v <= nb)%nat ->
  let w := wbytes v in
  let add := add_lanes w 4 in
  let xor := bitwise nb N.lxor in
  let rot k x := bitwise nb N.lor (srli_lanes w 4 x k) (slli_lanes w 4 x (wbits v - k)) in
  let a' := add (add a m) b in
  let d' := rot k1 (xor d a') in
  let c' := add c d' in
  let b' := rot k2 (xor b c') in
  col w (a', b', c', d') i = gh v k1 k2 (col w (a, b, c, d) i) (lane w m i).
Proof.
  intros H Hn. cbv zeta. unfold col, gh.
  assert (Hi : (S i * wbytes v <= nb)%nat) by nia.
  repeat first [ rewrite lane_rot by assumption | rewrite lane_add by assumption
               | rewrite lane_xor by assumption ].
  rewrite !lane_mod_wmod.
  rewrite <- !(wa_swap v (lane (wbytes v) a i) (lane (wbytes v) m i)).
  reflexivity.
Qed.

(** *** AVX2, BLAKE2b *)
Lemma avx2b_g1_col s m i : (i < 4)%nat ->
  col (wbytes V2b) (Avx2b.g1 s m) i =
  gh V2b (rot1 V2b) (rot2 V2b) (col (wbytes V2b) s i) (lane (wbytes V2b) m i).
Proof.
  intros H. destruct s as [[[a b] c] d].
  exact (half_col V2b 32 32 24 a b c d m i H (le_n _)).
Qed.
Lemma avx2b_g2_col s m i : (i < 4)%nat ->
  col (wbytes V2b) (Avx2b.g2 s m) i =
  gh V2b (rot3 V2b) (rot4 V2b) (col (wbytes V2b) s i) (lane (wbytes V2b) m i).
Proof.
  intros H. destruct s as [[[a b] c] d].
  exact (half_col V2b 32 16 63 a b c d m i H (le_n _)).
Qed.

Ltac perm_cols :=
  intros a b c d i H; do 4 (destruct i as [|i];
    [cbn [Nat.add Nat.modulo Nat.divmod fst snd Nat.sub]; unfold col; cbn [wbytes];
     unfold lane; repeat apply (f_equal2 pair); apply (f_equal from_le); reflexivity|]); lia.

Lemma avx2b_diag_col : forall a b c d i, (i < 4)%nat ->
  col (wbytes V2b) (Avx2b.diagonalize (a, b, c, d)) i =
  (lane (wbytes V2b) a ((i + 3) mod 4), lane (wbytes V2b) b i,
   lane (wbytes V2b) c ((i + 1) mod 4), lane (wbytes V2b) d ((i + 2) mod 4)).
Proof. perm_cols. Qed.
Lemma avx2b_undiag_col : forall a b c d i, (i < 4)%nat ->
  col (wbytes V2b) (Avx2b.undiagonalize (a, b, c, d)) i =
  (lane (wbytes V2b) a ((i + 1) mod 4), lane (wbytes V2b) b i,
   lane (wbytes V2b) c ((i + 3) mod 4), lane (wbytes V2b) d ((i + 2) mod 4)).
Proof. perm_cols. Qed.

Definition avx2b_msgs (block : list byte) : Avx2b.msgs :=
  let chunk i := mm256_broadcastsi128_si256 (loadu_bytes 16 block (16 * i)) in
  (chunk 0%nat, chunk 1%nat, chunk 2%nat, chunk 3%nat,
   chunk 4%nat, chunk 5%nat, chunk 6%nat, chunk 7%nat).

Lemma avx2b_round_generic r block s x1 x2 x3 x4 : length block = 128%nat ->
  (r < 12)%nat -> round_msgs V2b r block x1 x2 x3 x4 ->
  st16 8 (Avx2b.undiagonalize (Avx2b.g2 (Avx2b.g1 (Avx2b.diagonalize
     (Avx2b.g2 (Avx2b.g1 s x1) x2)) x3) x4)) = round V2b r (msg_words V2b block) (st16 8 s).
Proof.
  intros L Hr H. apply round_msgs_lanes in H. destruct H as (H1 & H2 & H3 & H4).
  rewrite round_mixw.
  - rewrite (mixw_ext V2b _ (fun k => lane (wbytes V2b) block (sig V2b r k))).
    + apply (rows_round V2b _ _ _ _ avx2b_g1_col avx2b_g2_col avx2b_diag_col avx2b_undiag_col
               (fun k => lane (wbytes V2b) block (sig V2b r k))); assumption.
    + intros k Hk. destruct (sig_spec V2b r k Hr Hk) as [_ B]. apply msg_word_lane; auto.
  - destruct s as [[[? ?] ?] ?]. reflexivity.
Qed.

Ltac solve_round lem :=
  match goal with
  | |- context [_ = _] => apply lem; [assumption | lia | repeat split; vm_compute; reflexivity]
  end.

Lemma avx2b_round1 block s : length block = 128%nat ->
  st16 8 (Avx2b.round1 (avx2b_msgs block) s) = round V2b 0 (msg_words V2b block) (st16 8 s).
Proof. intros L. unfold Avx2b.round1, avx2b_msgs. cbv beta zeta. solve_round avx2b_round_generic. Qed.
Lemma avx2b_round2 block s : length block = 128%nat ->
  st16 8 (Avx2b.round2 (avx2b_msgs block) s) = round V2b 1 (msg_words V2b block) (st16 8 s).
Proof. intros L. unfold Avx2b.round2, avx2b_msgs. cbv beta zeta. solve_round avx2b_round_generic. Qed.
Lemma avx2b_round3 block s : length block = 128%nat ->
  st16 8 (Avx2b.round3 (avx2b_msgs block) s) = round V2b 2 (msg_words V2b block) (st16 8 s).
Proof. intros L. unfold Avx2b.round3, avx2b_msgs. cbv beta zeta. solve_round avx2b_round_generic. Qed.
Lemma avx2b_round4 block s : length block = 128%nat ->
  st16 8 (Avx2b.round4 (avx2b_msgs block) s) = round V2b 3 (msg_words V2b block) (st16 8 s).
Proof. intros L. unfold Avx2b.round4, avx2b_msgs. cbv beta zeta. solve_round avx2b_round_generic. Qed.
Lemma avx2b_round5 block s : length block = 128%nat ->
  st16 8 (Avx2b.round5 (avx2b_msgs block) s) = round V2b 4 (msg_words V2b block) (st16 8 s).
Proof. intros L. unfold Avx2b.round5, avx2b_msgs. cbv beta zeta. solve_round avx2b_round_generic. Qed.
Lemma avx2b_round6 block s : length block = 128%nat ->
  st16 8 (Avx2b.round6 (avx2b_msgs block) s) = round V2b 5 (msg_words V2b block) (st16 8 s).
Proof. intros L. unfold Avx2b.round6, avx2b_msgs. cbv beta zeta. solve_round avx2b_round_generic. Qed.
Lemma avx2b_round7 block s : length block = 128%nat ->
  st16 8 (Avx2b.round7 (avx2b_msgs block) s) = round V2b 6 (msg_words V2b block) (st16 8 s).
Proof. intros L. unfold Avx2b.round7, avx2b_msgs. cbv beta zeta. solve_round avx2b_round_generic. Qed.
Lemma avx2b_round8 block s : length block = 128%nat ->
  st16 8 (Avx2b.round8 (avx2b_msgs block) s) = round V2b 7 (msg_words V2b block) (st16 8 s).
Proof. intros L. unfold Avx2b.round8, avx2b_msgs. cbv beta zeta. solve_round avx2b_round_generic. Qed.
Lemma avx2b_round9 block s : length block = 128%nat ->
  st16 8 (Avx2b.round9 (avx2b_msgs block) s) = round V2b 8 (msg_words V2b block) (st16 8 s).
Proof. intros L. unfold Avx2b.round9, avx2b_msgs. cbv beta zeta. solve_round avx2b_round_generic. Qed.
Lemma avx2b_round10 block s : length block = 128%nat ->
  st16 8 (Avx2b.round10 (avx2b_msgs block) s) = round V2b 9 (msg_words V2b block) (st16 8 s).
Proof. intros L. unfold Avx2b.round10, avx2b_msgs. cbv beta zeta. solve_round avx2b_round_generic. Qed.
Lemma avx2b_round11 block s : length block = 128%nat ->
  st16 8 (Avx2b.round11 (avx2b_msgs block) s) = round V2b 10 (msg_words V2b block) (st16 8 s).
Proof. intros L. unfold Avx2b.round11, avx2b_msgs. cbv beta zeta. solve_round avx2b_round_generic. Qed.
Lemma avx2b_round12 block s : length block = 128%nat ->
  st16 8 (Avx2b.round12 (avx2b_msgs block) s) = round V2b 11 (msg_words V2b block) (st16 8 s).
Proof. intros L. unfold Avx2b.round12, avx2b_msgs. cbv beta zeta. solve_round avx2b_round_generic. Qed.

Lemma lanes4 w r : lanes w 4 r = [lane w r 0; lane w r 1; lane w r 2; lane w r 3].
Proof. reflexivity. Qed.

Lemma wordsn_firstn v n k ws : wordsn v n ws -> (k <= n)%nat -> wordsn v k (firstn k ws).
Proof.
  intros [L H] Hk. split; [rewrite firstn_length; lia|].
  rewrite Forall_forall in *. intros x Hx. apply H.
  rewrite <- (firstn_skipn k ws). apply in_or_app. auto.
Qed.
Lemma wordsn_skipn v n k ws : wordsn v n ws -> wordsn v (n - k) (skipn k ws).
Proof.
  intros [L H]. split; [rewrite skipn_length; lia|].
  rewrite Forall_forall in *. intros x Hx. apply H.
  rewrite <- (firstn_skipn k ws). apply in_or_app. auto.
Qed.

Lemma lane_load v n ws i : wordsn v n ws -> (i < n)%nat ->
  lane (wbytes v) (from_lanes (wbytes v) ws) i = nth i ws 0.
Proof.
  intros [L H] Hi. rewrite lane_from_lanes by lia. apply N.mod_small.
  rewrite lane_mod_wmod. apply Forall_nth_lt, H.
Qed.

(** The initial row registers hold the portable initial state. *)
Lemma rows_init v nb ws c f0 f1 : words_ok v ws -> f0 < wmod v -> f1 < wmod v ->
  (4 * wbytes v <= nb)%nat ->
  st16 (wbytes v)
    (load_words (wbytes v) (firstn 4 ws), load_words (wbytes v) (skipn 4 ws),
     load_words (wbytes v) (firstn 4 (iv v)),
     bitwise nb N.lxor (load_words (wbytes v) (skipn 4 (iv v)))
       (from_lanes (wbytes v) [count_low v c; count_high v c; f0; f1]))
  = init_v v ws c f0 f1.
Proof.
  intros O H0 H1 Hn. unfold st16.
  rewrite (store_load_words v (firstn 4 ws) 4) by (apply (wordsn_firstn v 8); auto; lia).
  rewrite (store_load_words v (skipn 4 ws) 4) by (apply (wordsn_skipn v 8); auto).
  rewrite (store_load_words v (firstn 4 (iv v)) 4)
    by (apply (wordsn_firstn v 8); [apply iv_ok|lia]).
  assert (E : lanes (wbytes v) 4 (bitwise nb N.lxor (load_words (wbytes v) (skipn 4 (iv v)))
       (from_lanes (wbytes v) [count_low v c; count_high v c; f0; f1])) =
     [N.lxor (at_ (iv v) 4) (count_low v c); N.lxor (at_ (iv v) 5) (count_high v c);
      N.lxor (at_ (iv v) 6) f0; N.lxor (at_ (iv v) 7) f1]).
  { rewrite lanes4. rewrite !lane_xor by lia. unfold load_words.
    assert (W : wordsn v 4 [count_low v c; count_high v c; f0; f1]).
    { split; auto. repeat constructor; auto using count_low_lt, count_high_lt. }
    rewrite !(lane_load v 4 [count_low v c; count_high v c; f0; f1]) by (auto; lia).
    rewrite !(lane_load v 4 (skipn 4 (iv v))) by (auto; try apply (wordsn_skipn v 8), iv_ok; lia).
    rewrite !nth_skipn_add. reflexivity. }
  rewrite E. unfold init_v.
  destruct O as [L _]. apply len8 in L. destruct L as (? & ? & ? & ? & ? & ? & ? & ? & ->).
  destruct (iv_ok v) as [L' _]. apply len8 in L'.
  destruct L' as (? & ? & ? & ? & ? & ? & ? & ? & E'). rewrite E'. reflexivity.
Qed.

Theorem avx2b_compress_block block ws c f0 f1 :
  length block = 128%nat -> words_ok V2b ws -> f0 < wmod V2b -> f1 < wmod V2b ->
  Avx2b.compress_block block ws c f0 f1 = compress_block V2b block ws c f0 f1.
Proof.
  intros L O H0 H1.
  pose proof (rows_init V2b 32 ws c f0 f1 O H0 H1 (le_n _)) as I.
  unfold Avx2b.compress_block, compress_block. cbv zeta.
  change ((mm256_broadcastsi128_si256 (loadu_bytes 16 block (16 * 0)),
           mm256_broadcastsi128_si256 (loadu_bytes 16 block (16 * 1)),
           mm256_broadcastsi128_si256 (loadu_bytes 16 block (16 * 2)),
           mm256_broadcastsi128_si256 (loadu_bytes 16 block (16 * 3)),
           mm256_broadcastsi128_si256 (loadu_bytes 16 block (16 * 4)),
           mm256_broadcastsi128_si256 (loadu_bytes 16 block (16 * 5)),
           mm256_broadcastsi128_si256 (loadu_bytes 16 block (16 * 6)),
           mm256_broadcastsi128_si256 (loadu_bytes 16 block (16 * 7)))) with (avx2b_msgs block).
  change (seq 0 (num_rounds V2b)) with [0; 1; 2; 3; 4; 5; 6; 7; 8; 9; 10; 11]%nat.
  cbn [fold_left]. rewrite <- I.
  change (Avx2b.set4 (count_low V2b c) (count_high V2b c) f0 f1) with
    (from_lanes (wbytes V2b) [count_low V2b c; count_high V2b c; f0; f1]).
  change Avx2b.xor with (bitwise 32 N.lxor). change 8%nat with (wbytes V2b) in *.
  set (s0 := (load_words (wbytes V2b) (firstn 4 ws), load_words (wbytes V2b) (skipn 4 ws),
     load_words (wbytes V2b) (firstn 4 (iv V2b)),
     bitwise 32 N.lxor (load_words (wbytes V2b) (skipn 4 (iv V2b)))
       (from_lanes (wbytes V2b) [count_low V2b c; count_high V2b c; f0; f1]))) in *.
  clearbody s0. change (wbytes V2b) with 8%nat.
  rewrite <- avx2b_round1, <- avx2b_round2, <- avx2b_round3, <- avx2b_round4, <- avx2b_round5,
    <- avx2b_round6, <- avx2b_round7, <- avx2b_round8, <- avx2b_round9, <- avx2b_round10,
    <- avx2b_round11, <- avx2b_round12 by assumption.
  match goal with |- context [Avx2b.round12 ?m ?s] => generalize (Avx2b.round12 m s) end.
  intros [[[a b] c'] d]. unfold st16, store_words. change 8%nat with (wbytes V2b).
  rewrite !lanes4. cbn [seq map app].
  rewrite !lane_xor by (cbn [wbytes]; lia).
  unfold load_words. change (lane 8) with (lane (wbytes V2b)).
  change (from_lanes 8) with (from_lanes (wbytes V2b)).
  pose proof (wordsn_firstn V2b 8 4 _ O ltac:(lia)) as O1. pose proof (wordsn_skipn V2b 8 4 _ O) as O2.
  rewrite !(lane_load V2b 4 (firstn 4 ws)), !(lane_load V2b 4 (skipn 4 ws)) by (auto; lia).
  rewrite !nth_skipn_add, !nth_firstn_lt by lia. unfold at_. cbn [Nat.add].
  destruct O as [L' _]. apply len8 in L'.
  destruct L' as (? & ? & ? & ? & ? & ? & ? & ? & ->).
  cbn [nth].
  repeat apply (f_equal2 cons); try reflexivity; rewrite N.lxor_comm; reflexivity.
Qed.

(** *** SSE4.1, BLAKE2s *)
Lemma sse41s_g1_col s m i : (i < 4)%nat ->
  col (wbytes V2s) (Sse41s.g1 s m) i =
  gh V2s (rot1 V2s) (rot2 V2s) (col (wbytes V2s) s i) (lane (wbytes V2s) m i).
Proof.
  intros H. destruct s as [[[a b] c] d].
  exact (half_col V2s 16 16 12 a b c d m i H (le_n _)).
Qed.
Lemma sse41s_g2_col s m i : (i < 4)%nat ->
  col (wbytes V2s) (Sse41s.g2 s m) i =
  gh V2s (rot3 V2s) (rot4 V2s) (col (wbytes V2s) s i) (lane (wbytes V2s) m i).
Proof.
  intros H. destruct s as [[[a b] c] d].
  exact (half_col V2s 16 8 7 a b c d m i H (le_n _)).
Qed.
Lemma sse41s_diag_col : forall a b c d i, (i < 4)%nat ->
  col (wbytes V2s) (Sse41s.diagonalize (a, b, c, d)) i =
  (lane (wbytes V2s) a ((i + 3) mod 4), lane (wbytes V2s) b i,
   lane (wbytes V2s) c ((i + 1) mod 4), lane (wbytes V2s) d ((i + 2) mod 4)).
Proof. perm_cols. Qed.
Lemma sse41s_undiag_col : forall a b c d i, (i < 4)%nat ->
  col (wbytes V2s) (Sse41s.undiagonalize (a, b, c, d)) i =
  (lane (wbytes V2s) a ((i + 1) mod 4), lane (wbytes V2s) b i,
   lane (wbytes V2s) c ((i + 3) mod 4), lane (wbytes V2s) d ((i + 2) mod 4)).
Proof. perm_cols. Qed.

Definition sse41s_msgs (block : list byte) : Sse41s.msgs :=
  let chunk i := loadu_bytes 16 block (16 * i) in
  (chunk 0%nat, chunk 1%nat, chunk 2%nat, chunk 3%nat).

Lemma sse41s_round_generic r block s x1 x2 x3 x4 : length block = 64%nat ->
  (r < 10)%nat -> round_msgs V2s r block x1 x2 x3 x4 ->
  st16 4 (Sse41s.undiagonalize (Sse41s.g2 (Sse41s.g1 (Sse41s.diagonalize
     (Sse41s.g2 (Sse41s.g1 s x1) x2)) x3) x4)) = round V2s r (msg_words V2s block) (st16 4 s).
Proof.
  intros L Hr H. apply round_msgs_lanes in H. destruct H as (H1 & H2 & H3 & H4).
  rewrite round_mixw.
  - rewrite (mixw_ext V2s _ (fun k => lane (wbytes V2s) block (sig V2s r k))).
    + apply (rows_round V2s _ _ _ _ sse41s_g1_col sse41s_g2_col sse41s_diag_col sse41s_undiag_col
               (fun k => lane (wbytes V2s) block (sig V2s r k))); assumption.
    + intros k Hk. destruct (sig_spec V2s r k Hr Hk) as [_ B]. apply msg_word_lane; auto.
  - destruct s as [[[? ?] ?] ?]. reflexivity.
Qed.

Lemma sse41s_round1 block s : length block = 64%nat ->
  st16 4 (Sse41s.round1 (sse41s_msgs block) s) = round V2s 0 (msg_words V2s block) (st16 4 s).
Proof. intros L. unfold Sse41s.round1, sse41s_msgs. cbv beta zeta. solve_round sse41s_round_generic. Qed.
Lemma sse41s_round2 block s : length block = 64%nat ->
  st16 4 (Sse41s.round2 (sse41s_msgs block) s) = round V2s 1 (msg_words V2s block) (st16 4 s).
Proof. intros L. unfold Sse41s.round2, sse41s_msgs. cbv beta zeta. solve_round sse41s_round_generic. Qed.
Lemma sse41s_round3 block s : length block = 64%nat ->
  st16 4 (Sse41s.round3 (sse41s_msgs block) s) = round V2s 2 (msg_words V2s block) (st16 4 s).
Proof. intros L. unfold Sse41s.round3, sse41s_msgs. cbv beta zeta. solve_round sse41s_round_generic. Qed.
Lemma sse41s_round4 block s : length block = 64%nat ->
  st16 4 (Sse41s.round4 (sse41s_msgs block) s) = round V2s 3 (msg_words V2s block) (st16 4 s).
Proof. intros L. unfold Sse41s.round4, sse41s_msgs. cbv beta zeta. solve_round sse41s_round_generic. Qed.
Lemma sse41s_round5 block s : length block = 64%nat ->
  st16 4 (Sse41s.round5 (sse41s_msgs block) s) = round V2s 4 (msg_words V2s block) (st16 4 s).
Proof. intros L. unfold Sse41s.round5, sse41s_msgs. cbv beta zeta. solve_round sse41s_round_generic. Qed.
Lemma sse41s_round6 block s : length block = 64%nat ->
  st16 4 (Sse41s.round6 (sse41s_msgs block) s) = round V2s 5 (msg_words V2s block) (st16 4 s).
Proof. intros L. unfold Sse41s.round6, sse41s_msgs. cbv beta zeta. solve_round sse41s_round_generic. Qed.
Lemma sse41s_round7 block s : length block = 64%nat ->
  st16 4 (Sse41s.round7 (sse41s_msgs block) s) = round V2s 6 (msg_words V2s block) (st16 4 s).
Proof. intros L. unfold Sse41s.round7, sse41s_msgs. cbv beta zeta. solve_round sse41s_round_generic. Qed.
Lemma sse41s_round8 block s : length block = 64%nat ->
  st16 4 (Sse41s.round8 (sse41s_msgs block) s) = round V2s 7 (msg_words V2s block) (st16 4 s).
Proof. intros L. unfold Sse41s.round8, sse41s_msgs. cbv beta zeta. solve_round sse41s_round_generic. Qed.
Lemma sse41s_round9 block s : length block = 64%nat ->
  st16 4 (Sse41s.round9 (sse41s_msgs block) s) = round V2s 8 (msg_words V2s block) (st16 4 s).
Proof. intros L. unfold Sse41s.round9, sse41s_msgs. cbv beta zeta. solve_round sse41s_round_generic. Qed.
Lemma sse41s_round10 block s : length block = 64%nat ->
  st16 4 (Sse41s.round10 (sse41s_msgs block) s) = round V2s 9 (msg_words V2s block) (st16 4 s).
Proof. intros L. unfold Sse41s.round10, sse41s_msgs. cbv beta zeta. solve_round sse41s_round_generic. Qed.

Theorem sse41s_compress_block block ws c f0 f1 :
  length block = 64%nat -> words_ok V2s ws -> f0 < wmod V2s -> f1 < wmod V2s ->
  Sse41s.compress_block block ws c f0 f1 = compress_block V2s block ws c f0 f1.
Proof.
  intros L O H0 H1.
  pose proof (rows_init V2s 16 ws c f0 f1 O H0 H1 (le_n _)) as I.
  unfold Sse41s.compress_block, compress_block. cbv zeta.
  change ((loadu_bytes 16 block (16 * 0), loadu_bytes 16 block (16 * 1),
           loadu_bytes 16 block (16 * 2), loadu_bytes 16 block (16 * 3)))
    with (sse41s_msgs block).
  change (seq 0 (num_rounds V2s)) with [0; 1; 2; 3; 4; 5; 6; 7; 8; 9]%nat.
  cbn [fold_left]. rewrite <- I.
  change (Sse41s.set4 (count_low V2s c) (count_high V2s c) f0 f1) with
    (from_lanes (wbytes V2s) [count_low V2s c; count_high V2s c; f0; f1]).
  change Sse41s.xor with (bitwise 16 N.lxor).
  change (load_words 4) with (load_words (wbytes V2s)).
  set (s0 := (load_words (wbytes V2s) (firstn 4 ws), load_words (wbytes V2s) (skipn 4 ws),
     load_words (wbytes V2s) (firstn 4 (iv V2s)),
     bitwise 16 N.lxor (load_words (wbytes V2s) (skipn 4 (iv V2s)))
       (from_lanes (wbytes V2s) [count_low V2s c; count_high V2s c; f0; f1]))) in *.
  clearbody s0. change (st16 (wbytes V2s)) with (st16 4).
  rewrite <- sse41s_round1, <- sse41s_round2, <- sse41s_round3, <- sse41s_round4, <- sse41s_round5,
    <- sse41s_round6, <- sse41s_round7, <- sse41s_round8, <- sse41s_round9, <- sse41s_round10
    by assumption.
  match goal with |- context [Sse41s.round10 ?m ?s] => generalize (Sse41s.round10 m s) end.
  intros [[[a b] c'] d]. unfold st16, store_words.
  rewrite !lanes4. cbn [seq map app].
  rewrite !lane_xor by (cbn [wbytes]; lia).
  unfold load_words. change (lane 4) with (lane (wbytes V2s)).
  change (from_lanes 4) with (from_lanes (wbytes V2s)).
  pose proof (wordsn_firstn V2s 8 4 _ O ltac:(lia)) as O1. pose proof (wordsn_skipn V2s 8 4 _ O) as O2.
  rewrite !(lane_load V2s 4 (firstn 4 ws)), !(lane_load V2s 4 (skipn 4 ws)) by (auto; lia).
  rewrite !nth_skipn_add, !nth_firstn_lt by lia. unfold at_. cbn [Nat.add].
  destruct O as [L' _]. apply len8 in L'.
  destruct L' as (? & ? & ? & ? & ? & ? & ? & ? & ->).
  cbn [nth].
  reflexivity.
Qed.
