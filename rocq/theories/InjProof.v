(** The parameter block and the sequence of compression calls are unambiguous
    (C20, C21). *)
From Coq Require Import ZArith Arith NArith List Bool Lia ZifyBool ZifyNat ZifyN.
From Coq Require Import Init.Byte.
From Verif Require Import Base ByteLemmas Guts Portable KernelSpec Simd Impl Loops LaneLoops Lib StateProof ParamsProof FedProof.
From Verif Require Spec ApiSpec Calls.
Import ListNotations.
Open Scope N_scope.

(** ** C20 *)
Lemma xor_words_inj a : forall b c, length b = length a -> length c = length a ->
  Spec.xor_words a b = Spec.xor_words a c -> b = c.
Proof.
  unfold Spec.xor_words. induction a as [|x a IH]; intros [|y b] [|z c] B C; try discriminate; auto.
  cbn [combine map fst snd]. intros E. injection E as E1 E2. f_equal.
  - rewrite <- (N.lxor_0_l y), <- (N.lxor_0_l z), <- (N.lxor_nilpotent x), !N.lxor_assoc, E1. reflexivity.
  - apply IH; auto.
Qed.

(** A string is determined by its words. *)
Lemma words_inj f n : forall a b, length a = (n * Spec.word_len f)%nat -> length b = (n * Spec.word_len f)%nat ->
  map (Spec.word f a) (seq 0 n) = map (Spec.word f b) (seq 0 n) -> a = b.
Proof.
  induction n as [|n IH]; intros a b A B E.
  - destruct a, b; auto; discriminate.
  - cbn [seq map] in E. injection E as E0 E.
    assert (S : forall x i, Spec.word f x (S i) = Spec.word f (skipn (Spec.word_len f) x) i).
    { intros x i. unfold Spec.word. rewrite skipn_skipn_add. reflexivity. }
    rewrite <- !seq_shift, !map_map in E. rewrite !(map_ext _ _ (S _)) in E.
    rewrite <- (firstn_skipn (Spec.word_len f) a), <- (firstn_skipn (Spec.word_len f) b). f_equal.
    + unfold Spec.word in E0. cbn [Nat.mul skipn] in E0. rewrite !decode_from_le in E0.
      apply from_le_inj; auto. rewrite !firstn_length. lia.
    + apply IH; auto; rewrite skipn_length; lia.
Qed.

Lemma pad_to_length n (s : list byte) : (length s <= n)%nat -> length (Spec.pad_to n s) = n.
Proof. intros H. unfold Spec.pad_to. rewrite app_length, repeat_length. lia. Qed.

Lemma param_block_length f c : wf_config f c ->
  length (Spec.param_block f (ApiSpec.c_params c)) = (8 * Spec.word_len f)%nat.
Proof.
  intros [H1 H2 H3 H4 H5 H6 H7 H8 H9 H10 H11]. unfold ApiSpec.salt_len in *. unfold Spec.param_block.
  destruct f; cbn [Spec.word_len Nat.mul Nat.add] in *;
    rewrite !app_length, !encode_length, ?repeat_length, !pad_to_length by auto; reflexivity.
Qed.

Lemma app_inj_len {A} (a b c d : list A) : length a = length c -> a ++ b = c ++ d -> a = c /\ b = d.
Proof.
  revert c. induction a as [|x a IH]; intros [|y c] L E; try discriminate; auto.
  cbn in E. injection E as -> E. injection L as L. destruct (IH _ L E) as [-> ->]. auto.
Qed.

Lemma encode_inj n x y : x < 2 ^ (8 * N.of_nat n) -> y < 2 ^ (8 * N.of_nat n) ->
  Spec.encode n x = Spec.encode n y -> x = y.
Proof. intros X Y. rewrite !encode_to_le. apply to_le_inj; auto. Qed.

Lemma param_block_inj f c c' : wf_config f c -> wf_config f c' ->
  Spec.param_block f (ApiSpec.c_params c) = Spec.param_block f (ApiSpec.c_params c') ->
  Calls.same_fields f (ApiSpec.salt_len f) (ApiSpec.c_params c) (ApiSpec.c_params c').
Proof.
  intros [H1 H2 H3 H4 H5 H6 H7 H8 H9 H10 H11] [G1 G2 G3 G4 G5 G6 G7 G8 G9 G10 G11].
  assert (MO : (Spec.max_out f < 256)%nat) by (destruct f; cbn; lia).
  set (p := ApiSpec.c_params c) in *. set (q := ApiSpec.c_params c') in *.
  unfold Spec.param_block, Calls.same_fields. intros E.
  repeat (apply app_inj_len in E; [|rewrite !encode_length; reflexivity];
          let E1 := fresh "E" in destruct E as [E1 E];
          apply encode_inj in E1; [|cbn [N.of_nat N.mul Pos.of_succ_nat Pos.mul Pos.succ]; lia
                                   |cbn [N.of_nat N.mul Pos.of_succ_nat Pos.mul Pos.succ]; lia]).
  unfold ApiSpec.salt_len in *.
  destruct f; cbn [Spec.word_len Nat.mul Nat.add] in *;
  repeat (apply app_inj_len in E; [|rewrite !encode_length; reflexivity];
          let E1 := fresh "E" in destruct E as [E1 E];
          apply encode_inj in E1; [|cbn [N.of_nat N.mul Pos.of_succ_nat Pos.mul Pos.succ]; lia
                                   |cbn [N.of_nat N.mul Pos.of_succ_nat Pos.mul Pos.succ]; lia]).
  - apply app_inv_head in E. apply app_inj_len in E; [|rewrite !pad_to_length; auto].
    destruct E as [ES EP]. repeat split; auto.
  - apply app_inj_len in E; [|rewrite !pad_to_length; auto].
    destruct E as [ES EP]. repeat split; auto.
Qed.

Lemma initial_state_inj v c c' : wf_config (fl v) c -> wf_config (fl v) c' ->
  (Spec.initial_state (fl v) (ApiSpec.c_params c) = Spec.initial_state (fl v) (ApiSpec.c_params c') <->
   Calls.same_fields (fl v) (ApiSpec.salt_len (fl v)) (ApiSpec.c_params c) (ApiSpec.c_params c')).
Proof.
  intros W W'. split.
  - intros E. apply param_block_inj; auto. apply (words_inj (fl v) 8); try (apply param_block_length; auto).
    unfold Spec.initial_state in E. apply xor_words_inj in E; auto;
      rewrite map_length, seq_length, iv_spec; symmetry; apply iv_ok.
  - intros (E1 & E2 & E3 & E4 & E5 & E6 & E7 & E8 & E9 & E10).
    unfold Spec.initial_state, Spec.param_block. unfold ApiSpec.salt_len in *.
    destruct v; cbn [fl Spec.word_len Nat.mul Nat.add] in *;
      rewrite E1, E2, E3, E4, E5, E6, E7, E8, E9, E10; reflexivity.
Qed.

(** ** C21 *)
Lemma F_count_mod v h b t lb ln :
  Spec.F (fl v) h b (t mod 2 ^ (2 * Spec.bits (fl v))) lb ln = Spec.F (fl v) h b t lb ln.
Proof.
  unfold Spec.F. replace (2 * Spec.bits (fl v)) with (Spec.bits (fl v) + Spec.bits (fl v)) by lia.
  rewrite N.pow_add_r. set (W := 2 ^ Spec.bits (fl v)).
  assert (W0 : W <> 0) by (apply N.pow_nonzero; lia).
  rewrite N.mod_mul_r by auto. rewrite (N.mul_comm W).
  assert (E0 : (t mod W + (t / W) mod W * W) mod W = t mod W).
  { rewrite N.mod_add by auto. apply N.mod_mod; auto. }
  assert (E1 : ((t mod W + (t / W) mod W * W) / W) mod W = (t / W) mod W).
  { rewrite N.div_add by auto. rewrite N.div_small by (apply N.mod_lt; auto). apply N.mod_mod; auto. }
  rewrite E0, E1. reflexivity.
Qed.

Lemma make_calls_hash v h key msg ln :
  Calls.make_calls (fl v) h (Calls.calls (fl v) key msg ln) =
  Spec.hash_words (fl v) h (Spec.data (fl v) key msg) ln.
Proof.
  unfold Calls.make_calls, Calls.calls, Spec.hash_words. rewrite fold_left_app.
  cbn [fold_left Calls.fc_block Calls.fc_count Calls.fc_last_block Calls.fc_last_node].
  rewrite F_count_mod.
  match goal with |- Spec.F _ ?a _ _ _ _ = Spec.F _ ?b _ _ _ _ => assert (E : a = b); [|rewrite E; reflexivity] end.
  generalize (seq 0 (Spec.num_blocks (fl v) (Spec.data (fl v) key msg) - 1)) as l. intros l. revert h.
  induction l as [|i l IH]; intros h; cbn [map fold_left]; auto.
  cbn [Calls.fc_block Calls.fc_count Calls.fc_last_block Calls.fc_last_node].
  rewrite F_count_mod. apply IH.
Qed.

Lemma block_len_pos f : (0 < Spec.block_len f)%nat.
Proof. destruct f; cbn; lia. Qed.

Lemma calls_length f key msg ln : length (Calls.calls f key msg ln) = Spec.num_blocks f (Spec.data f key msg).
Proof.
  unfold Calls.calls. rewrite app_length, map_length, seq_length. cbn [length].
  unfold Spec.num_blocks. lia.
Qed.

(** Two strings with the same number of blocks and the same counter at the end
    have the same length. *)
Lemma num_blocks_range f d :
  let n := Spec.num_blocks f d in let B := Spec.block_len f in
  (length d <= n * B)%nat /\ (n = 1%nat \/ ((n - 1) * B < length d)%nat) /\ (1 <= n)%nat.
Proof.
  cbv zeta. unfold Spec.num_blocks. pose proof (block_len_pos f) as P.
  pose proof (Nat.div_mod (length d + Spec.block_len f - 1) (Spec.block_len f) ltac:(lia)) as D.
  pose proof (Nat.mod_upper_bound (length d + Spec.block_len f - 1) (Spec.block_len f) ltac:(lia)) as U.
  set (q := ((length d + Spec.block_len f - 1) / Spec.block_len f)%nat) in *.
  split; [|split].
  - destruct (Nat.max_spec 1 q) as [[H ->]|[H ->]]; nia.
  - destruct (Nat.max_spec 1 q) as [[H ->]|[H ->]]; [right|left]; nia.
  - lia.
Qed.

Lemma mod_near (m x y : Z) : (256 <= m -> x mod m = y mod m -> x - y < 256 -> y - x < 256 -> x = y)%Z.
Proof.
  intros B E L R. pose proof (Z.div_mod x m ltac:(lia)) as X. pose proof (Z.div_mod y m ltac:(lia)) as Y.
  rewrite E in X. assert (D : (x - y = m * (x / m - y / m))%Z) by lia.
  set (k := (x / m - y / m)%Z) in *. assert (k = 0)%Z; [|lia].
  clear - B L R D. destruct (Z.lt_trichotomy k 0) as [K|[K|K]]; auto; exfalso.
  - pose proof (Z.mul_le_mono_nonneg_l k (-1) m ltac:(lia) ltac:(lia)). lia.
  - pose proof (Z.mul_le_mono_nonneg_l 1 k m ltac:(lia) ltac:(lia)). lia.
Qed.

Lemma same_length f d d' :
  Spec.num_blocks f d = Spec.num_blocks f d' ->
  N.of_nat (length d) mod 2 ^ (2 * Spec.bits f) = N.of_nat (length d') mod 2 ^ (2 * Spec.bits f) ->
  length d = length d'.
Proof.
  intros E M. destruct (num_blocks_range f d) as (U & L & P). destruct (num_blocks_range f d') as (U' & L' & P').
  rewrite <- E in *. set (n := Spec.num_blocks f d) in *. clearbody n.
  set (a := length d) in *. set (b := length d') in *. clearbody a b.
  assert (R : (Z.of_nat a - Z.of_nat b < 256 /\ Z.of_nat b - Z.of_nat a < 256)%Z).
  { assert (B : (Spec.block_len f < 256)%nat) by (destruct f; cbn; lia). clear M.
    replace (n * Spec.block_len f)%nat with ((n - 1) * Spec.block_len f + Spec.block_len f)%nat in *
      by (rewrite <- Nat.mul_succ_l; f_equal; lia).
    set (q := ((n - 1) * Spec.block_len f)%nat) in *. assert (Q : n = 1%nat -> q = 0%nat) by (subst q; intros ->; reflexivity).
    clearbody q. lia. }
  clear - M R. apply Nat2Z.inj, (mod_near (Z.of_N (2 ^ (2 * Spec.bits f)))); [|clear R|apply R|apply R].
  - destruct f; discriminate.
  - apply (f_equal Z.of_N) in M. rewrite !N2Z.inj_mod, !nat_N_Z in M. exact M.
Qed.

(** The blocks of a string of known length give the string. *)
Lemma blocks_inj f n : forall d d', length d = length d' -> (length d <= n * Spec.block_len f)%nat ->
  map (Spec.block f d) (seq 0 n) = map (Spec.block f d') (seq 0 n) -> d = d'.
Proof.
  induction n as [|n IH]; intros d d' L U E.
  - destruct d, d'; auto; cbn in *; lia.
  - cbn [seq map] in E. injection E as E0 E.
    assert (S : forall x i, Spec.block f x (S i) = Spec.block f (skipn (Spec.block_len f) x) i).
    { intros x i. unfold Spec.block. rewrite skipn_skipn_add. reflexivity. }
    rewrite <- !seq_shift, !map_map in E. rewrite !(map_ext _ _ (S _)) in E.
    rewrite <- (firstn_skipn (Spec.block_len f) d), <- (firstn_skipn (Spec.block_len f) d'). f_equal.
    + unfold Spec.block, Spec.pad_to in E0. cbn [Nat.mul skipn] in E0.
      apply app_inj_len in E0; [apply E0|]. rewrite !firstn_length. lia.
    + apply IH; auto; rewrite !skipn_length; lia.
Qed.

Lemma calls_inj f key msg ln key' msg' ln' :
  length key = length key' -> (length key <= Spec.block_len f)%nat ->
  Calls.calls f key msg ln = Calls.calls f key' msg' ln' ->
  key = key' /\ msg = msg' /\ ln = ln'.
Proof.
  intros K KB E.
  assert (NB : Spec.num_blocks f (Spec.data f key msg) = Spec.num_blocks f (Spec.data f key' msg')).
  { rewrite <- (calls_length f key msg ln), <- (calls_length f key' msg' ln'), E. reflexivity. }
  unfold Calls.calls in E. rewrite <- NB in E.
  set (n := Spec.num_blocks f (Spec.data f key msg)) in *.
  apply app_inj_len in E; [|rewrite !map_length; reflexivity]. destruct E as [EM EL].
  injection EL as EB EC ELN.
  assert (LL : length (Spec.data f key msg) = length (Spec.data f key' msg')) by (apply (same_length f); auto).
  clear EC. split; [|split; [|exact ELN]].
  all: assert (D : Spec.data f key msg = Spec.data f key' msg').
  1,3: apply (blocks_inj f n); [exact LL|apply num_blocks_range|].
  1,2: destruct (num_blocks_range f (Spec.data f key msg)) as (_ & _ & P); fold n in P;
       replace n with (n - 1 + 1)%nat by lia; rewrite seq_app, !map_app; f_equal;
       [|cbn [seq map Nat.add]; rewrite EB; reflexivity].
  1,2: apply (f_equal (map Calls.fc_block)) in EM; rewrite !map_map in EM; cbn [Calls.fc_block] in EM; exact EM.
  all: clear - D K KB; unfold Spec.data in D; destruct key as [|k0 k], key' as [|k0' k']; try discriminate; auto;
       set (K1 := k0 :: k) in *; set (K2 := k0' :: k') in *;
       apply app_inj_len in D; [|rewrite !pad_to_length; lia]; destruct D as [D1 D2]; auto.
  unfold Spec.pad_to in D1. apply app_inj_len in D1; auto. apply D1.
Qed.
