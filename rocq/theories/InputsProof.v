(** Lemmas about the inputs of the tests. *)
From Coq Require Import ZArith Arith NArith List Bool Lia ZifyBool ZifyNat ZifyN.
From Coq Require Import Init.Byte.
From Verif Require Import Base ByteLemmas Guts PaintProof Inputs.
Import ListNotations.
Open Scope list_scope.
Open Scope N_scope.
Local Notation length := List.length.

(** ** What is painted *)
Definition pattern (n : nat) : list byte := map (fun i => n2b (B (N.of_nat i))) (seq 0 n).
Lemma pattern_length n : length (pattern n) = n.
Proof. unfold pattern. rewrite map_length, seq_length. reflexivity. Qed.

Lemma n2b_mod x : n2b (x mod 256) = n2b x.
Proof. unfold n2b. rewrite N.mod_mod by lia. reflexivity. Qed.
Lemma to_le_digits c : to_le 4 c = [n2b (D c 0); n2b (D c 1); n2b (D c 2); n2b (D c 3)].
Proof.
  rewrite D0, D1, D2, D3, !n2b_mod. cbn [to_le]. rewrite !N.div_div by lia. reflexivity.
Qed.
Lemma firstn_seq_le n m s : (n <= m)%nat -> firstn n (seq s m) = seq s n.
Proof. intros H. replace m with (n + (m - n))%nat by lia. rewrite seq_app, firstn_app, seq_length, Nat.sub_diag, app_nil_r. apply firstn_all2. rewrite seq_length. lia. Qed.
Lemma pattern_more k n : (n <= 4)%nat ->
  pattern (4 * k + n) = pattern (4 * k) ++ firstn n (to_le 4 (N.of_nat k + 1)).
Proof.
  intros H. unfold pattern. rewrite seq_app, map_app. f_equal. cbn [Nat.add].
  rewrite <- (firstn_seq_le n 4) by lia. rewrite <- firstn_map. f_equal. cbn [seq map].
  rewrite to_le_digits.
  replace (N.of_nat (4 * k)) with (4 * N.of_nat k + 0) by lia.
  replace (N.of_nat (S (4 * k))) with (4 * N.of_nat k + 1) by lia.
  replace (N.of_nat (S (S (4 * k)))) with (4 * N.of_nat k + 2) by lia.
  replace (N.of_nat (S (S (S (4 * k))))) with (4 * N.of_nat k + 3) by lia.
  rewrite (B_at _ 0 0 0), (B_at _ 1 0 1), (B_at _ 2 0 2), (B_at _ 3 0 3) by lia.
  rewrite N.add_0_r. reflexivity.
Qed.

(** The number of counter values that fit: buffers up to this many bytes. *)
Definition paint_limit : N := 4 * (2 ^ 32 - 2).

Lemma paint_step fuel dbg k l : (0 < length l)%nat ->
  paint_loop (S fuel) dbg (pattern (4 * k) ++ l) (4 * k) (N.of_nat k + 1) =
  let take := Nat.min 4 (length l) in
  do counter <- next_counter dbg (N.of_nat k + 1);
  paint_loop fuel dbg (pattern (4 * k + take) ++ skipn take l) (4 * k + take) counter.
Proof.
  intros P. cbn [paint_loop]. rewrite app_length, pattern_length.
  rewrite (proj2 (Nat.ltb_lt _ _)) by lia. cbv zeta. rewrite to_le_length.
  replace (4 * k + length l - 4 * k)%nat with (length l) by lia. set (take := Nat.min 4 (length l)).
  unfold slice. rewrite to_le_length. rewrite (proj2 (Nat.leb_le 0 take)), (proj2 (Nat.leb_le take 4)) by lia.
  cbn [andb bind skipn]. rewrite Nat.sub_0_r.
  assert (F : length (firstn take (to_le 4 (N.of_nat k + 1))) = take) by (rewrite firstn_length, to_le_length; lia).
  unfold copy_into. rewrite F, app_length, pattern_length. rewrite (proj2 (Nat.leb_le _ _)) by lia. cbn [bind].
  rewrite firstn_app, pattern_length, Nat.sub_diag, app_nil_r, firstn_all2 by (rewrite pattern_length; lia).
  rewrite skipn_app, pattern_length, skipn_all2, app_nil_l by (rewrite pattern_length; lia).
  replace (4 * k + take - 4 * k)%nat with take by lia. rewrite app_assoc, <- pattern_more by lia. reflexivity.
Qed.
Lemma paint_end fuel dbg n c : paint_loop fuel dbg (pattern n) n c = Ret (pattern n).
Proof. destruct fuel; cbn [paint_loop]; rewrite pattern_length, Nat.ltb_irrefl; reflexivity. Qed.

Lemma paint_loop_is dbg : forall fuel k l, (length l <= 4 * fuel)%nat -> N.of_nat (4 * k + length l) <= paint_limit ->
  paint_loop fuel dbg (pattern (4 * k) ++ l) (4 * k) (N.of_nat k + 1) = Ret (pattern (4 * k + length l)).
Proof.
  unfold paint_limit. change (4 * (2 ^ 32 - 2)) with 17179869176.
  induction fuel as [|fuel IH]; intros k l L H.
  - destruct l; [|cbn in L; lia]. cbn [length]. rewrite app_nil_r, Nat.add_0_r. apply paint_end.
  - destruct (Nat.eq_dec (length l) 0) as [Z|Z].
    { apply length_zero_iff_nil in Z. subst l. cbn [length]. rewrite app_nil_r, Nat.add_0_r. apply paint_end. }
    rewrite paint_step by lia. cbv zeta. unfold next_counter.
    change (2 ^ 32) with 4294967296. rewrite (proj2 (N.ltb_lt _ _)) by lia. cbn [bind].
    destruct (Nat.le_gt_cases (length l) 4) as [S4|S4].
    + rewrite Nat.min_r by lia. rewrite skipn_all, app_nil_r. apply paint_end.
    + rewrite Nat.min_l by lia. replace (4 * k + 4)%nat with (4 * (k + 1))%nat by lia.
      replace (N.of_nat k + 1 + 1) with (N.of_nat (k + 1) + 1) by lia.
      rewrite IH by (rewrite skipn_length; lia). rewrite skipn_length. do 2 f_equal. lia.
Qed.
Lemma paint_loop_panics : forall fuel k l, (length l <= 4 * fuel)%nat -> N.of_nat (4 * k) <= paint_limit ->
  paint_limit < N.of_nat (4 * k + length l) ->
  paint_loop fuel true (pattern (4 * k) ++ l) (4 * k) (N.of_nat k + 1) = Panic.
Proof.
  unfold paint_limit. change (4 * (2 ^ 32 - 2)) with 17179869176.
  induction fuel as [|fuel IH]; intros k l L K H; [lia|].
  rewrite paint_step by lia. cbv zeta. unfold next_counter. change (2 ^ 32) with 4294967296.
  destruct (N.ltb_spec (N.of_nat k + 1 + 1) 4294967296) as [X|X]; [|reflexivity]. cbn [bind].
  rewrite Nat.min_l by lia. replace (4 * k + 4)%nat with (4 * (k + 1))%nat by lia.
  replace (N.of_nat k + 1 + 1) with (N.of_nat (k + 1) + 1) by lia.
  apply IH; rewrite ?skipn_length; lia.
Qed.

Lemma paint_is dbg buf : N.of_nat (length buf) <= paint_limit ->
  paint_test_input dbg buf = Ret (pattern (length buf)).
Proof. intros H. exact (paint_loop_is dbg (length buf) 0 buf ltac:(lia) H). Qed.
Lemma paint_panics buf : paint_limit < N.of_nat (length buf) -> paint_test_input true buf = Panic.
Proof. intros H. exact (paint_loop_panics (length buf) 0 buf ltac:(lia) ltac:(discriminate) H). Qed.

Lemma pattern_nth n i : (i < n)%nat -> nth i (pattern n) x00 = n2b (B (N.of_nat i)).
Proof.
  intros H. unfold pattern. rewrite (nth_indep _ x00 (n2b (B (N.of_nat 0)))) by (rewrite map_length, seq_length; lia).
  rewrite (map_nth (fun i => n2b (B (N.of_nat i)))), seq_nth by lia. reflexivity.
Qed.
Lemma nth_window {A} (l : list A) d m i t : (t < m)%nat -> nth t (firstn m (skipn i l)) d = nth (i + t) l d.
Proof.
  intros H. rewrite <- (firstn_skipn i l) at 2. destruct (Nat.le_gt_cases i (length l)) as [Hi|Hi].
  - rewrite app_nth2 by (rewrite firstn_length; lia). rewrite firstn_length, Nat.min_l by lia.
    replace (i + t - i)%nat with t by lia. set (s := skipn i l).
    destruct (Nat.le_gt_cases (length s) t) as [Ht|Ht].
    + rewrite !nth_overflow; auto. rewrite firstn_length. lia.
    + rewrite <- (firstn_skipn m s) at 2. rewrite app_nth1; auto. rewrite firstn_length. lia.
  - rewrite skipn_all2 by lia. rewrite firstn_nil, app_nil_r. rewrite !nth_overflow; auto; cbn; try lia. rewrite firstn_length. lia.
Qed.
Lemma B_small o : B o < 256.
Proof. apply N.mod_lt. discriminate. Qed.
Lemma pattern_windows n i j : N.of_nat n <= paint_limit -> i <> j -> (i + 8 <= n)%nat -> (j + 8 <= n)%nat ->
  firstn 8 (skipn i (pattern n)) <> firstn 8 (skipn j (pattern n)).
Proof.
  unfold paint_limit. change (4 * (2 ^ 32 - 2)) with 17179869176. intros L N I J E.
  apply (window (N.of_nat i / 4) (N.of_nat i mod 4) (N.of_nat j / 4) (N.of_nat j mod 4)).
  - apply N.mod_lt. discriminate.
  - apply N.mod_lt. discriminate.
  - rewrite <- !N.div_mod by discriminate. lia.
  - pose proof (N.mod_lt (N.of_nat i) 4). pose proof (N.div_mod (N.of_nat i) 4). 
    assert ((N.of_nat i mod 4 + 7) / 4 <= 2) by (apply N.lt_succ_r, N.div_lt_upper_bound; lia). lia.
  - pose proof (N.mod_lt (N.of_nat j) 4). pose proof (N.div_mod (N.of_nat j) 4). 
    assert ((N.of_nat j mod 4 + 7) / 4 <= 2) by (apply N.lt_succ_r, N.div_lt_upper_bound; lia). lia.
  - intros t Ht. rewrite !N.add_assoc, <- !N.div_mod by discriminate.
    apply (f_equal (fun l => nth (N.to_nat t) l x00)) in E. rewrite !nth_window, !pattern_nth in E by lia.
    apply (f_equal b2n) in E. rewrite !b2n_n2b, !N.mod_small in E by apply B_small.
    rewrite !Nat2N.inj_add, !N2Nat.id in E. exact E.
Qed.
(** Seven bytes can occur twice. *)
Lemma pattern_seven n : (2048 <= n)%nat -> firstn 7 (skipn 0 (pattern n)) = firstn 7 (skipn 2041 (pattern n)).
Proof.
  intros H. apply (nth_ext _ _ x00 x00).
  - rewrite !firstn_length, !skipn_length, pattern_length. lia.
  - intros t Ht. rewrite firstn_length, skipn_length, pattern_length in Ht.
    rewrite !nth_window, !pattern_nth by lia. do 7 (destruct t as [|t]; [reflexivity|]). lia.
Qed.
