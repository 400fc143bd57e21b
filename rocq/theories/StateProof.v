(** State: the incremental interface absorbs exactly the bytes fed. *)
From Coq Require Import ZArith Arith NArith List Bool Lia ZifyBool ZifyNat ZifyN.
From Verif Require Import Base ByteLemmas Guts Portable KernelSpec Simd Impl Loops LaneLoops Lib.
From Verif Require Spec.
Import ListNotations.
Open Scope N_scope.

Ltac stf := cbn [s_words s_count s_buf s_buflen s_last_node s_hash_length s_imp s_is_keyed
  set_s_words set_s_count set_s_buf set_s_buflen set_s_last_node] in *.

(** *** F only sees the counter modulo its width *)
Lemma F_count_mod v h b t lb ln : Spec.F (fl v) h b (t mod cmod v) lb ln = Spec.F (fl v) h b t lb ln.
Proof.
  unfold Spec.F. rewrite bits_fl.
  assert (E1 : (t mod cmod v) mod 2 ^ wbits v = t mod 2 ^ wbits v).
  { rewrite cmod_square. fold (wmod v). rewrite N.mod_mul_r by apply wmod_nz.
    rewrite N.mul_comm, N.mod_add, N.mod_mod by apply wmod_nz. reflexivity. }
  assert (E2 : (t mod cmod v) / 2 ^ wbits v mod 2 ^ wbits v = t / 2 ^ wbits v mod 2 ^ wbits v).
  { rewrite cmod_square. fold (wmod v). pose proof (wmod_nz v). rewrite N.mod_mul_r by auto.
    rewrite N.mul_comm, N.div_add by auto. rewrite (N.div_small (t mod wmod v)) by (apply N.mod_lt; auto).
    rewrite N.add_0_l, N.mod_mod by auto. reflexivity. }
  rewrite E1, E2. reflexivity.
Qed.

Lemma count_step v k x : count_wrapping_add v (N.of_nat k mod cmod v) (N.of_nat x) = N.of_nat (k + x) mod cmod v.
Proof.
  unfold count_wrapping_add. rewrite N.add_mod_idemp_l by apply cmod_nz. f_equal. lia.
Qed.

(** *** Chains of non-final compressions *)
Definition chain (v : variant) (d : list byte) (h : list N) (k n : nat) : list N :=
  fold_left (fun h i => Spec.F (fl v) h (Spec.block (fl v) d i)
                          (N.of_nat ((i + 1) * blockbytes v)) false false) (seq k n) h.

Lemma chain_S v d h k n : chain v d h k (S n) =
  chain v d (Spec.F (fl v) h (Spec.block (fl v) d k) (N.of_nat ((k + 1) * blockbytes v)) false false) (S k) n.
Proof. reflexivity. Qed.

Lemma chain_add v d h k n m : chain v d h k (n + m) = chain v d (chain v d h k n) (k + n) m.
Proof. unfold chain. rewrite seq_app, fold_left_app. reflexivity. Qed.

Lemma chain_ok v d h k n : words_ok v h -> words_ok v (chain v d h k n).
Proof.
  intros H. unfold chain. generalize (seq k n) as l. intros l. revert h H.
  induction l as [|i l IH]; intros h H; cbn [fold_left]; auto. apply IH. apply F_ok. exact H.
Qed.

Lemma block_front v d k : Spec.block (fl v) d k = front v (skipn (k * blockbytes v) d).
Proof. unfold Spec.block, front. rewrite block_len_fl. reflexivity. Qed.

Lemma front_firstn v d n : (blockbytes v <= n)%nat -> front v (firstn n d) = front v d.
Proof.
  intros H. unfold front. rewrite firstn_firstn, Nat.min_l by auto. reflexivity.
Qed.

Lemma block_app v d x k : ((k + 1) * blockbytes v <= length d)%nat ->
  Spec.block (fl v) (d ++ x) k = Spec.block (fl v) d k.
Proof.
  intros H. rewrite !block_front. unfold front. f_equal.
  rewrite skipn_app, firstn_app, skipn_length.
  replace (blockbytes v - (length d - k * blockbytes v))%nat with 0%nat by lia.
  cbn [firstn]. rewrite app_nil_r. reflexivity.
Qed.

Lemma chain_app v d x h k n : ((k + n) * blockbytes v <= length d)%nat ->
  chain v (d ++ x) h k n = chain v d h k n.
Proof.
  revert h k. induction n as [|n IH]; intros h k H; auto.
  rewrite !chain_S. rewrite block_app by nia. apply IH. nia.
Qed.

(** The pure loop, not finalizing, on whole blocks. *)
Lemma C1_nonfinal v ln d n : forall k ws,
  ((k + S n) * blockbytes v <= length d)%nat ->
  C1 v Serial false ln (firstn (S n * blockbytes v) (skipn (k * blockbytes v) d)) ws
     (N.of_nat (k * blockbytes v) mod cmod v)
  = chain v d ws k (S n).
Proof.
  pose proof (blockbytes_pos v) as BP.
  induction n as [|n IH]; intros k ws H.
  - rewrite C1_last by (rewrite firstn_length, skipn_length; cbn [padded_blockbytes]; nia).
    unfold fin_step, fin_count. rewrite firstn_length, skipn_length.
    replace (Nat.min (blockbytes v) (Nat.min (1 * blockbytes v) (length d - k * blockbytes v)))
      with (blockbytes v) by nia.
    rewrite count_step, F_count_mod, front_firstn by nia.
    rewrite chain_S, block_front. unfold chain. cbn [seq fold_left andb].
    do 2 f_equal. nia.
  - rewrite C1_more by (rewrite firstn_length, skipn_length; cbn [padded_blockbytes]; nia).
    cbn [padded_blockbytes]. rewrite count_step.
    rewrite skipn_firstn_comm, skipn_skipn_add.
    replace (S (S n) * blockbytes v - blockbytes v)%nat with (S n * blockbytes v)%nat by nia.
    replace (k * blockbytes v + blockbytes v)%nat with (S k * blockbytes v)%nat by nia.
    rewrite IH by nia. rewrite (chain_S v d ws k). f_equal.
    unfold mid_step. rewrite count_step, F_count_mod, front_firstn by nia. rewrite block_front.
    f_equal. f_equal. nia.
Qed.

Lemma num_blocks_eq v d : Spec.num_blocks (fl v) d = Nat.max 1 ((length d + blockbytes v - 1) / blockbytes v).
Proof. unfold Spec.num_blocks. rewrite block_len_fl. reflexivity. Qed.

(** The number of blocks when k blocks precede a non-empty rest of at most one block. *)
Lemma num_blocks_k v d k r : length d = (k * blockbytes v + r)%nat -> (r <= blockbytes v)%nat ->
  (0 < k -> 0 < r)%nat -> Spec.num_blocks (fl v) d = S k.
Proof.
  intros L R P. rewrite num_blocks_eq, L. pose proof (blockbytes_pos v) as BP.
  destruct (Nat.eq_dec r 0) as [->|Nr].
  - assert (k = 0)%nat by lia. subst k. rewrite Nat.div_small by lia. reflexivity.
  - replace (k * blockbytes v + r + blockbytes v - 1)%nat with ((S k) * blockbytes v + (r - 1))%nat by nia.
    rewrite Nat.div_add_l, (Nat.div_small (r - 1)) by lia. lia.
Qed.

(** *** What a state has absorbed *)
Record absorbed (v : variant) (h0 : list N) (d : list byte) (k : nat) (s : state) : Prop := {
  ab_words : s_words s = chain v d h0 0 k;
  ab_count : s_count s = N.of_nat (k * blockbytes v) mod cmod v;
  ab_len : (length d = k * blockbytes v + s_buflen s)%nat;
  ab_buf : firstn (s_buflen s) (s_buf s) = skipn (k * blockbytes v) d;
  ab_buflen : length (s_buf s) = blockbytes v;
  ab_le : (s_buflen s <= blockbytes v)%nat;
  ab_h0 : words_ok v h0 }.

(** The fields no operation but set_last_node touches. *)
Definition same_config (s s' : state) : Prop :=
  s_last_node s' = s_last_node s /\ s_hash_length s' = s_hash_length s /\
  s_imp s' = s_imp s /\ s_is_keyed s' = s_is_keyed s.

Lemma same_config_trans a b c : same_config a b -> same_config b c -> same_config a c.
Proof. unfold same_config. intuition congruence. Qed.

Lemma bb_lt_256 v : (blockbytes v < 256)%nat.
Proof. destruct v; cbn; lia. Qed.

Lemma as_u8_id n : (n < 256)%nat -> N.to_nat (as_u8 n) = n.
Proof. intros H. unfold as_u8. rewrite N.mod_small by lia. lia. Qed.

Lemma copy_into_ok {A} (dst : list A) a src : (a + length src <= length dst)%nat ->
  copy_into dst a src = Ret (firstn a dst ++ src ++ skipn (a + length src) dst).
Proof. intros H. unfold copy_into. destruct (Nat.leb_spec (a + length src) (length dst)); [auto|lia]. Qed.

Lemma slice_ok {A} (l : list A) a b : (a <= b <= length l)%nat -> slice l a b = Ret (firstn (b - a) (skipn a l)).
Proof.
  intros H. unfold slice. destruct (Nat.leb_spec a b); [|lia]. destruct (Nat.leb_spec b (length l)); [auto|lia].
Qed.
Lemma slice0_ok {A} (l : list A) b : (b <= length l)%nat -> slice l 0 b = Ret (firstn b l).
Proof. intros H. rewrite slice_ok by lia. rewrite Nat.sub_0_r. reflexivity. Qed.
Lemma slice_from_ok {A} (l : list A) a : (a <= length l)%nat -> slice_from l a = Ret (skipn a l).
Proof. intros H. unfold slice_from. destruct (Nat.leb_spec a (length l)); [auto|lia]. Qed.

Lemma fill_buf_spec v e h0 d k s x : absorbed v h0 d k s ->
  let t := Nat.min (blockbytes v - s_buflen s) (length x) in
  exists s', fill_buf v e s x = Ret (s', skipn t x) /\ absorbed v h0 (d ++ firstn t x) k s' /\
    s_buflen s' = (s_buflen s + t)%nat /\ same_config s s'.
Proof.
  intros A t. destruct A as [A1 A2 A3 A4 A5 A6 A7]. unfold fill_buf. fold t.
  pose proof (bb_lt_256 v) as B.
  assert (Ht : (t <= length x /\ s_buflen s + t <= blockbytes v)%nat) by (unfold t; lia).
  clearbody t. rewrite slice0_ok by lia. cbn [bind].
  assert (Lt : length (firstn t x) = t) by (apply firstn_length_le; lia).
  rewrite copy_into_ok by lia. cbn [bind]. unfold add_small. rewrite as_u8_id by lia.
  destruct (Nat.ltb_spec (s_buflen s + t) 256); [|lia]. cbn [bind].
  rewrite slice_from_ok by lia. cbn [bind].
  eexists. split; [reflexivity|]. cbn [set_s_buflen set_s_buf s_buflen s_last_node s_hash_length s_imp s_is_keyed].
  split; [|split; [reflexivity|repeat split]].
  assert (Lb : length (firstn (s_buflen s) (s_buf s)) = s_buflen s) by (apply firstn_length_le; lia).
  constructor; stf.
  - rewrite chain_app by lia. exact A1.
  - exact A2.
  - rewrite app_length, A3, Lt. lia.
  - rewrite app_assoc, firstn_app, firstn_all2 by (rewrite app_length; lia).
    rewrite app_length, Lb, Lt, Nat.sub_diag. cbn [firstn]. rewrite app_nil_r, A4.
    rewrite skipn_app. replace (k * blockbytes v - length d)%nat with 0%nat by lia. reflexivity.
  - rewrite !app_length, Lb, Lt, skipn_length. lia.
  - lia.
  - exact A7.
Qed.

Lemma input_ok_full v x n : length x = (S n * blockbytes v)%nat -> input_ok v false x.
Proof.
  intros H. right. split.
  - intros ->. cbn [length Nat.mul] in H. pose proof (blockbytes_pos v). nia.
  - rewrite H. apply Nat.mod_mul. pose proof (blockbytes_pos v). lia.
Qed.

(** Consuming n+1 whole blocks that lie at the front of what was not compressed yet. *)
Lemma compress_blocks v e imp ln h0 d k n ws :
  supported e imp -> ws = chain v d h0 0 k -> words_ok v h0 ->
  ((k + S n) * blockbytes v <= length d)%nat ->
  compress1_loop v e imp (firstn (S n * blockbytes v) (skipn (k * blockbytes v) d)) ws
    (N.of_nat (k * blockbytes v) mod cmod v) ln false Serial
  = Ret (chain v d h0 0 (k + S n)).
Proof.
  intros S -> O L. rewrite compress1_loop_spec; auto using chain_ok.
  - rewrite C1_nonfinal by auto. rewrite (chain_add v d h0 0 k). reflexivity.
  - apply (input_ok_full v _ n). rewrite firstn_length, skipn_length. nia.
Qed.

Lemma compress_buffer_spec v e h0 d k s x : supported e (s_imp s) -> absorbed v h0 d k s ->
  exists s' t k', compress_buffer_if_possible v e s x = Ret (s', skipn t x) /\ (t <= length x)%nat /\
    absorbed v h0 (d ++ firstn t x) k' s' /\ same_config s s' /\
    (skipn t x = [] -> (0 < k -> 0 < s_buflen s)%nat -> (0 < k' -> 0 < s_buflen s')%nat) /\
    (skipn t x <> [] -> s_buflen s' = 0%nat).
Proof.
  intros SUP A. unfold compress_buffer_if_possible.
  destruct (Nat.ltb_spec 0 (s_buflen s)) as [Pos|Zero].
  - destruct (fill_buf_spec v e h0 d k s x A) as (s' & E & A' & Bl & SC). cbv zeta in E, A', Bl.
    set (t := Nat.min (blockbytes v - s_buflen s) (length x)) in *. rewrite E. cbn [bind].
    destruct (skipn t x) as [|b r] eqn:R.
    + exists s', t, k. rewrite R. split; [reflexivity|]. split; [unfold t; lia|]. split; [exact A'|].
      split; [exact SC|]. split; [intros; lia|congruence].
    + assert (Lx : (t < length x)%nat).
      { apply (f_equal (@length byte)) in R. rewrite skipn_length in R. cbn [length] in R. lia. }
      destruct A' as [A1 A2 A3 A4 A5 A6 A7].
      assert (Full : s_buflen s' = blockbytes v) by (unfold t in *; lia).
      destruct SC as (SC1 & SC2 & SC3 & SC4).
      assert (EB : s_buf s' = firstn (1 * blockbytes v) (skipn (k * blockbytes v) (d ++ firstn t x))).
      { rewrite <- A4, Full, firstn_firstn, Nat.mul_1_l, Nat.min_id, firstn_all2; auto. lia. }
      rewrite EB, A2.
      rewrite (compress_blocks v e _ _ h0 _ k 0) by (try (rewrite SC3; exact SUP); auto; lia). cbn [bind].
      eexists _, t, (k + 1)%nat. rewrite R. split; [reflexivity|]. split; [lia|]. split; [|split; [|split]].
      * constructor; stf.
        -- reflexivity.
        -- rewrite A2, count_step. f_equal. f_equal. lia.
        -- lia.
        -- symmetry. apply skipn_all2. lia.
        -- exact A5.
        -- lia.
        -- exact A7.
      * repeat split; auto.
      * congruence.
      * reflexivity.
  - exists s, 0%nat, k. cbn [firstn skipn]. rewrite app_nil_r. split; [reflexivity|]. split; [lia|].
    split; [exact A|]. split; [repeat split|]. split; [auto|]. intros _. lia.
Qed.

(** The offset where the last block of a non-empty input starts. *)
Lemma last_start v len : exists n,
  let end_ := ((len - 1) - (len - 1) mod blockbytes v)%nat in
  (end_ = n * blockbytes v /\ end_ <= len - 1 /\ len <= end_ + blockbytes v)%nat.
Proof. destruct (fin_offset_props v Serial len) as (n & H). exists n. exact H. Qed.

Lemma update_spec v e h0 d k s x : supported e (s_imp s) -> absorbed v h0 d k s ->
  (0 < k -> 0 < s_buflen s)%nat ->
  exists s' k', update v e s x = Ret s' /\ absorbed v h0 (d ++ x) k' s' /\ same_config s s' /\
    (0 < k' -> 0 < s_buflen s')%nat.
Proof.
  intros SUP A NE. unfold update.
  destruct (compress_buffer_spec v e h0 d k s x SUP A) as (s1 & t & k1 & E & Lt & A1 & SC1 & Em & Nem).
  rewrite E. cbn [bind]. clear E.
  set (y := skipn t x) in *. unfold sat_sub.
  destruct (last_start v (length y)) as (n & En & H1 & H2). cbv zeta in En, H1, H2.
  set (en := ((length y - 1) - (length y - 1) mod blockbytes v)%nat) in *. clearbody en.
  pose proof (blockbytes_pos v) as BP.
  assert (EX : (d ++ firstn t x) ++ y = d ++ x).
  { rewrite <- app_assoc. f_equal. apply firstn_skipn. }
  destruct (Nat.ltb_spec 0 en) as [Pos|Zero].
  - (* whole blocks to compress directly *)
    assert (Hy : y <> []). { intros Z. rewrite Z in *. cbn in H1. lia. }
    specialize (Nem Hy). destruct n as [|n]; [lia|].
    rewrite slice0_ok by lia. cbn [bind].
    set (d1 := d ++ firstn t x) in *. clearbody d1.
    pose proof (ab_len _ _ _ _ _ A1) as L1. rewrite Nem, Nat.add_0_r in L1.
    assert (EB : firstn en y = firstn (S n * blockbytes v) (skipn (k1 * blockbytes v) (d1 ++ y))).
    { rewrite skipn_app, skipn_all2, <- L1, Nat.sub_diag by lia. cbn [skipn app]. rewrite En. reflexivity. }
    rewrite EB, (ab_count _ _ _ _ _ A1).
    rewrite (compress_blocks v e _ _ h0 (d1 ++ y) k1 n).
    2:{ destruct SC1 as (_ & _ & -> & _). exact SUP. }
    2:{ rewrite chain_app by lia. apply (ab_words _ _ _ _ _ A1). }
    2:{ apply (ab_h0 _ _ _ _ _ A1). }
    2:{ rewrite app_length. nia. }
    cbn [bind]. rewrite slice_from_ok by lia. cbn [bind].
    match goal with |- context [fill_buf v e ?s0 _] => set (s2 := s0) end.
    assert (A2 : absorbed v h0 (d1 ++ firstn en y) (k1 + S n) s2).
    { constructor; unfold s2; stf.
      - replace (d1 ++ y) with ((d1 ++ firstn en y) ++ skipn en y) by (rewrite <- app_assoc, firstn_skipn; reflexivity).
        rewrite (chain_app v (d1 ++ firstn en y)); [reflexivity|].
        rewrite app_length, firstn_length_le; nia.
      - rewrite (ab_count _ _ _ _ _ A1), count_step. f_equal. f_equal. nia.
      - rewrite app_length, firstn_length_le by lia. rewrite Nem. nia.
      - rewrite Nem. cbn [firstn]. symmetry. apply skipn_all2. rewrite app_length, firstn_length_le by lia. nia.
      - apply (ab_buflen _ _ _ _ _ A1).
      - apply (ab_le _ _ _ _ _ A1).
      - apply (ab_h0 _ _ _ _ _ A1). }
    destruct (fill_buf_spec v e h0 _ _ s2 (skipn en y) A2) as (s3 & E3 & A3 & B3 & SC3).
    rewrite E3. cbn [bind]. exists s3, (k1 + S n)%nat. split; [reflexivity|].
    assert (B2 : s_buflen s2 = 0%nat) by exact Nem.
    rewrite B2 in *. rewrite skipn_length in A3, B3.
    rewrite Nat.min_r in A3, B3 by lia. rewrite (firstn_all2 (skipn en y)) in A3 by (rewrite skipn_length; lia).
    rewrite <- app_assoc, firstn_skipn in A3. rewrite EX in A3. split; [exact A3|]. split; [|lia].
    eapply same_config_trans; [exact SC1|]. eapply same_config_trans; [|exact SC3]. repeat split.
  - cbn [bind].
    destruct (fill_buf_spec v e h0 _ _ s1 y A1) as (s3 & E3 & A3 & B3 & SC3).
    rewrite E3. cbn [bind]. exists s3, k1. split; [reflexivity|].
    destruct y as [|b r] eqn:Ey.
    + specialize (Em eq_refl NE). cbn [length firstn] in *. rewrite Nat.min_0_r in *. cbn [firstn] in A3.
      rewrite EX in A3. split; [exact A3|]. split; [eapply same_config_trans; eauto|]. lia.
    + specialize (Nem ltac:(congruence)). rewrite Nem in *. rewrite Nat.sub_0_r in *.
      rewrite Nat.min_r in * by lia. rewrite firstn_all in A3.
      rewrite EX in A3. split; [exact A3|]. split; [eapply same_config_trans; eauto|]. cbn [length] in B3. lia.
Qed.

(** *** Finalizing *)
Lemma C1_hash_words v ln d k h0 : words_ok v h0 ->
  (k * blockbytes v <= length d <= k * blockbytes v + blockbytes v)%nat ->
  (0 < k -> k * blockbytes v < length d)%nat ->
  C1 v Serial true ln (skipn (k * blockbytes v) d) (chain v d h0 0 k)
     (N.of_nat (k * blockbytes v) mod cmod v)
  = Spec.hash_words (fl v) h0 d ln.
Proof.
  intros O L P. rewrite C1_last by (rewrite skipn_length; cbn [padded_blockbytes]; lia).
  unfold fin_step, fin_count. rewrite skipn_length. rewrite Nat.min_r by lia.
  rewrite count_step, F_count_mod. unfold Spec.hash_words.
  rewrite (num_blocks_k v d k (length d - k * blockbytes v)) by lia.
  rewrite block_len_fl. replace (S k - 1)%nat with k by lia.
  fold (chain v d h0 0 k). rewrite block_front. cbn [andb].
  f_equal. lia.
Qed.

(** The whole input in one call. *)
Lemma C1_whole v ln d h0 : words_ok v h0 ->
  C1 v Serial true ln d h0 0 = Spec.hash_words (fl v) h0 d ln.
Proof.
  intros O. pose proof (blockbytes_pos v) as BP.
  destruct (last_start v (length d)) as (n & En & H1 & H2). cbv zeta in En, H1, H2.
  set (en := ((length d - 1) - (length d - 1) mod blockbytes v)%nat) in *. clearbody en.
  assert (G : forall m k ws, (m + k = n)%nat ->
     C1 v Serial true ln (skipn (k * blockbytes v) d) ws (N.of_nat (k * blockbytes v) mod cmod v) =
     C1 v Serial true ln (skipn (n * blockbytes v) d) (chain v d ws k m) (N.of_nat (n * blockbytes v) mod cmod v)).
  { induction m as [|m IH]; intros k ws Hm.
    - replace k with n by lia. reflexivity.
    - rewrite C1_more by (rewrite skipn_length; cbn [padded_blockbytes]; nia).
      cbn [padded_blockbytes]. rewrite skipn_skipn_add, count_step.
      replace (k * blockbytes v + blockbytes v)%nat with (S k * blockbytes v)%nat by nia.
      rewrite IH by lia. rewrite chain_S. f_equal. f_equal. unfold mid_step. rewrite count_step, F_count_mod.
      rewrite block_front. f_equal. f_equal. nia. }
  specialize (G n 0%nat h0 ltac:(lia)). cbn [Nat.mul skipn] in G.
  change (N.of_nat 0) with 0 in G. rewrite N.mod_0_l in G by apply cmod_nz. rewrite G.
  apply C1_hash_words; auto.
  - subst en. lia.
  - intros. subst en. nia.
Qed.

Lemma finalize_spec v e h0 d k s : supported e (s_imp s) -> absorbed v h0 d k s ->
  (0 < k -> 0 < s_buflen s)%nat ->
  finalize v e s = Ret {| h_bytes := state_words_to_bytes v (Spec.hash_words (fl v) h0 d (s_last_node s));
                          h_len := s_hash_length s |}.
Proof.
  intros SUP A NE. destruct A as [A1 A2 A3 A4 A5 A6 A7]. unfold finalize.
  rewrite slice0_ok by lia. cbn [bind]. rewrite A4, A2, A1.
  rewrite compress1_loop_spec; auto using chain_ok; [|left; reflexivity].
  cbn [bind]. rewrite C1_hash_words by (auto; lia). reflexivity.
Qed.

Lemma count_spec v h0 d k s : absorbed v h0 d k s ->
  count_wrapping_add v (s_count s) (N.of_nat (s_buflen s)) = N.of_nat (length d) mod cmod v.
Proof.
  intros A. rewrite (ab_count _ _ _ _ _ A), count_step, (ab_len _ _ _ _ _ A). reflexivity.
Qed.
