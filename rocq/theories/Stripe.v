(** Striped processing (one leaf of BLAKE2bp/BLAKE2sp) is serial processing of
    the leaf's share of the input. *)
From Coq Require Import ZArith Arith NArith List Bool Lia ZifyBool ZifyNat ZifyN.
From Verif Require Import Base ByteLemmas Guts Portable KernelSpec Simd Impl Loops LaneLoops Lib StateProof.
From Verif Require Spec.
Import ListNotations.
Open Scope N_scope.

Notation P v := (padded_blockbytes v Parallel).

Lemma leaves_fl v : Spec.leaves (fl v) = par_degree v.
Proof. destruct v; reflexivity. Qed.
Lemma par_degree_pos v : (0 < par_degree v)%nat.
Proof. destruct v; cbn; lia. Qed.
Lemma P_eq v : P v = (par_degree v * blockbytes v)%nat.
Proof. destruct v; reflexivity. Qed.

Definition L (v : variant) (i : nat) (x : list byte) : list byte := Spec.leaf_message (fl v) i x.

Section Leaf.
Variables (v : variant) (i : nat).
Hypothesis Hi : (i < par_degree v)%nat.

Definition mine (o : nat) : bool := Nat.eqb ((o / blockbytes v) mod par_degree v) i.

Fixpoint lmr (o : nat) (x : list byte) : list byte :=
  match x with
  | [] => []
  | b :: r => if mine o then b :: lmr (S o) r else lmr (S o) r
  end.

Lemma L_lmr x : L v i x = lmr 0 x.
Proof.
  unfold L, Spec.leaf_message. rewrite block_len_fl, leaves_fl. generalize 0%nat as o.
  induction x as [|b r IH]; intros o; auto. cbn [length seq combine filter fst lmr].
  fold (mine o). destruct (mine o); cbn [map snd]; rewrite IH; reflexivity.
Qed.

Lemma lmr_app o a b : lmr o (a ++ b) = lmr o a ++ lmr (o + length a) b.
Proof.
  revert o. induction a as [|x a IH]; intros o; cbn [app lmr length].
  - rewrite Nat.add_0_r. reflexivity.
  - rewrite IH. replace (S o + length a)%nat with (o + S (length a))%nat by lia. destruct (mine o); reflexivity.
Qed.

Lemma mine_period o : mine (o + P v) = mine o.
Proof.
  unfold mine. rewrite P_eq, Nat.div_add by (pose proof (blockbytes_pos v); lia).
  f_equal. rewrite <- (Nat.mul_1_l (par_degree v)) at 1. rewrite Nat.mod_add; auto.
  pose proof (par_degree_pos v). lia.
Qed.

Lemma lmr_period o x : lmr (o + P v) x = lmr o x.
Proof.
  revert o. induction x as [|b r IH]; intros o; auto. cbn [lmr]. rewrite mine_period.
  change (S (o + P v)) with (S o + P v)%nat. rewrite IH. reflexivity.
Qed.

Lemma lmr_all o x : (forall q, (o <= q < o + length x)%nat -> mine q = true) -> lmr o x = x.
Proof.
  revert o. induction x as [|b r IH]; intros o H; auto. cbn [lmr length] in *.
  rewrite (H o) by lia. f_equal. apply IH. intros q Hq. apply H. lia.
Qed.
Lemma lmr_none o x : (forall q, (o <= q < o + length x)%nat -> mine q = false) -> lmr o x = [].
Proof.
  revert o. induction x as [|b r IH]; intros o H; auto. cbn [lmr length] in *.
  rewrite (H o) by lia. apply IH. intros q Hq. apply H. lia.
Qed.

Lemma mine_small o : (o < P v)%nat ->
  mine o = (Nat.leb (i * blockbytes v) o && Nat.ltb o (i * blockbytes v + blockbytes v)).
Proof.
  intros H. rewrite P_eq in H. unfold mine. pose proof (blockbytes_pos v) as BP.
  rewrite Nat.mod_small by (apply Nat.div_lt_upper_bound; lia).
  pose proof (Nat.div_mod o (blockbytes v) ltac:(lia)) as E.
  pose proof (Nat.mod_upper_bound o (blockbytes v) ltac:(lia)) as U.
  set (q := (o / blockbytes v)%nat) in *. set (m := (o mod blockbytes v)%nat) in *. clearbody q m.
  destruct (Nat.eqb_spec q i) as [->|Ne].
  - destruct (Nat.leb_spec (i * blockbytes v) o); [|nia].
    destruct (Nat.ltb_spec o (i * blockbytes v + blockbytes v)); [auto|nia].
  - destruct (Nat.leb_spec (i * blockbytes v) o); auto.
    destruct (Nat.ltb_spec o (i * blockbytes v + blockbytes v)); auto. exfalso. apply Ne. nia.
Qed.

Lemma iB_le : (i * blockbytes v + blockbytes v <= P v)%nat.
Proof. rewrite P_eq. nia. Qed.

Lemma L_small x : (length x <= P v)%nat -> L v i x = firstn (blockbytes v) (skipn (i * blockbytes v) x).
Proof.
  intros H. rewrite L_lmr. pose proof iB_le as HB.
  set (a := firstn (i * blockbytes v) x). set (b := firstn (blockbytes v) (skipn (i * blockbytes v) x)).
  set (c := skipn (blockbytes v) (skipn (i * blockbytes v) x)).
  assert (E : x = a ++ b ++ c) by (unfold a, b, c; rewrite !firstn_skipn; reflexivity).
  assert (La : (length a <= i * blockbytes v)%nat) by (unfold a; rewrite firstn_length; lia).
  assert (Lx : length x = (length a + length b + length c)%nat).
  { rewrite E at 1. rewrite !app_length. lia. }
  assert (Lb : (length b <= blockbytes v)%nat) by (unfold b; rewrite firstn_length; lia).
  assert (Hb : b <> [] -> length a = (i * blockbytes v)%nat).
  { intros Hb. unfold a. rewrite firstn_length. destruct (Nat.le_gt_cases (i * blockbytes v) (length x)); [lia|].
    exfalso. apply Hb. unfold b. rewrite skipn_all2, firstn_nil by lia. reflexivity. }
  assert (Hc : c <> [] -> length a = (i * blockbytes v)%nat /\ length b = blockbytes v).
  { intros Hc. unfold a, b. rewrite !firstn_length, skipn_length.
    destruct (Nat.le_gt_cases (i * blockbytes v + blockbytes v) (length x)); [lia|].
    exfalso. apply Hc. unfold c. apply skipn_all2. rewrite skipn_length. lia. }
  clearbody a b c. rewrite E, !lmr_app.
  rewrite (lmr_none 0 a). 2:{ intros q Hq. rewrite mine_small by lia. destruct (Nat.leb_spec (i * blockbytes v) q); auto. lia. }
  cbn [app]. rewrite (lmr_none _ c).
  2:{ intros q Hq. destruct c as [|c0 c]; [cbn in Hq; lia|]. destruct (Hc ltac:(congruence)) as [E1 E2].
      rewrite mine_small by lia. destruct (Nat.ltb_spec q (i * blockbytes v + blockbytes v)); [lia|].
      apply andb_false_r. }
  rewrite app_nil_r. apply lmr_all. intros q Hq. destruct b as [|b0 b]; [cbn in Hq; lia|].
  specialize (Hb ltac:(congruence)). rewrite mine_small by lia.
  destruct (Nat.leb_spec (i * blockbytes v) q); [|lia].
  destruct (Nat.ltb_spec q (i * blockbytes v + blockbytes v)); [auto|lia].
Qed.

Lemma lmr_mult n o x : lmr (o + n * P v) x = lmr o x.
Proof.
  induction n as [|n IH]; cbn [Nat.mul]; [rewrite Nat.add_0_r; auto|].
  replace (o + (P v + n * P v))%nat with ((o + n * P v) + P v)%nat by lia. rewrite lmr_period. exact IH.
Qed.

Lemma L_app n a b : length a = (n * P v)%nat -> L v i (a ++ b) = L v i a ++ L v i b.
Proof.
  intros H. rewrite !L_lmr, lmr_app, H. f_equal. apply (lmr_mult n 0).
Qed.

Lemma L_nil : L v i [] = [].
Proof. rewrite L_lmr. reflexivity. Qed.

Lemma L_step x : L v i x = firstn (blockbytes v) (skipn (i * blockbytes v) x) ++ L v i (skipn (P v) x).
Proof.
  pose proof iB_le as HB.
  destruct (Nat.le_gt_cases (length x) (P v)) as [H|H].
  - rewrite L_small by auto. rewrite (@skipn_all2 _ (P v) x) by lia. rewrite L_nil, app_nil_r. reflexivity.
  - rewrite <- (firstn_skipn (P v) x) at 1.
    rewrite (L_app 1) by (rewrite firstn_length; lia). f_equal.
    rewrite L_small by (rewrite firstn_length; lia).
    rewrite skipn_firstn_comm, firstn_firstn. f_equal. lia.
Qed.

Lemma L_empty x : (length x <= i * blockbytes v)%nat -> L v i x = [].
Proof.
  intros H. rewrite L_small by (pose proof iB_le; lia). rewrite skipn_all2 by auto. apply firstn_nil.
Qed.
Lemma L_nonempty x : (i * blockbytes v < length x)%nat -> L v i x <> [].
Proof.
  intros H. rewrite L_step. intros E. apply app_eq_nil in E. destruct E as [E _].
  apply (f_equal (@length byte)) in E. rewrite firstn_length, skipn_length in E. cbn [length] in E.
  pose proof (blockbytes_pos v). lia.
Qed.

Lemma L_length_mult n x : length x = (n * P v)%nat -> length (L v i x) = (n * blockbytes v)%nat.
Proof.
  revert x. induction n as [|n IH]; intros x H.
  - destruct x; [|discriminate]. rewrite L_nil. reflexivity.
  - rewrite L_step, app_length, IH by (rewrite skipn_length; nia).
    rewrite firstn_length, skipn_length. pose proof iB_le. nia.
Qed.

Lemma front_eq a b : firstn (blockbytes v) a = firstn (blockbytes v) b -> front v a = front v b.
Proof. intros H. unfold front. rewrite H. reflexivity. Qed.

(** The striped loop over leaf [i] of [y]. *)
Lemma C1_parallel fin ln : forall n y ws c, (length y <= n)%nat ->
  C1 v Parallel fin ln (skipn (i * blockbytes v) y) ws c = C1 v Serial fin ln (L v i y) ws c.
Proof.
  pose proof (blockbytes_pos v) as BP. pose proof iB_le as HB.
  induction n as [|n IH]; intros y ws c H.
  - destruct y; [|cbn in H; lia]. rewrite L_nil, skipn_nil. rewrite !C1_last by (cbn; lia). reflexivity.
  - destruct (Nat.le_gt_cases (length y - i * blockbytes v) (P v)) as [S|M].
    + rewrite C1_last by (rewrite skipn_length; lia).
      rewrite L_step, (L_empty (skipn (P v) y)), app_nil_r by (rewrite skipn_length; lia).
      rewrite C1_last by (rewrite firstn_length; cbn [padded_blockbytes]; lia).
      unfold fin_step. f_equal.
      * apply front_eq. rewrite firstn_firstn, Nat.min_id. reflexivity.
      * unfold fin_count. do 2 f_equal. rewrite firstn_length. lia.
    + assert (NE : L v i (skipn (P v) y) <> []) by (apply L_nonempty; rewrite skipn_length; lia).
      rewrite C1_more by (rewrite skipn_length; lia).
      assert (FL : length (firstn (blockbytes v) (skipn (i * blockbytes v) y)) = blockbytes v).
      { rewrite firstn_length, skipn_length. lia. }
      rewrite (L_step y).
      rewrite (C1_more v Serial).
      2:{ rewrite app_length, FL. destruct (L v i (skipn (P v) y)); [congruence|cbn [length padded_blockbytes]; lia]. }
      rewrite skipn_skipn_add, Nat.add_comm, <- skipn_skipn_add.
      rewrite IH by (rewrite skipn_length; lia).
      change (padded_blockbytes v Serial) with (blockbytes v). rewrite (skipn_app (blockbytes v)), (@skipn_all2 _ (blockbytes v) (firstn (blockbytes v) (skipn (i * blockbytes v) y))), FL, Nat.sub_diag by lia.
      cbn [skipn app]. f_equal. unfold mid_step. f_equal. apply front_eq.
      rewrite firstn_app, FL, Nat.sub_diag, firstn_firstn, Nat.min_id. cbn [firstn]. rewrite app_nil_r. reflexivity.
Qed.
End Leaf.

(** *** Finishing from any block boundary *)
Lemma C1_from v ln d h0 k : words_ok v h0 -> (0 < k -> k * blockbytes v < length d)%nat ->
  C1 v Serial true ln (skipn (k * blockbytes v) d) (chain v d h0 0 k) (N.of_nat (k * blockbytes v) mod cmod v)
  = Spec.hash_words (fl v) h0 d ln.
Proof.
  intros O. induction k as [|k IH]; intros H.
  - cbn [Nat.mul skipn]. change (chain v d h0 0 0) with h0. change (N.of_nat 0) with 0.
    rewrite N.mod_0_l by apply cmod_nz. apply C1_whole. exact O.
  - pose proof (blockbytes_pos v) as BP.
    rewrite <- IH by nia. symmetry.
    rewrite C1_more by (rewrite skipn_length; cbn [padded_blockbytes]; nia).
    cbn [padded_blockbytes]. rewrite skipn_skipn_add, count_step.
    replace (k * blockbytes v + blockbytes v)%nat with (S k * blockbytes v)%nat by nia.
    f_equal. replace (S k) with (k + 1)%nat by lia. rewrite chain_add. cbn [Nat.add].
    rewrite (chain_S v d _ k 0). unfold chain at 2. cbn [seq fold_left].
    unfold mid_step. rewrite count_step, F_count_mod, block_front. f_equal. f_equal. nia.
Qed.
