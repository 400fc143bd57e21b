(** Proofs for C48: the test suite's BLAKE2X loop computes BLAKE2X. *)
From Coq Require Import Arith NArith List Bool Lia.
From Coq Require Import Init.Byte.
From Verif Require Import Base ByteLemmas Guts KernelSpec Impl Loops Lib Api.
From Verif Require Import ParamsProof FedProof ApiProof BatchProof Laws.
From Verif Require Import Spec ApiSpec XofSpec Xof.
Import ListNotations.
Open Scope N_scope.

Lemma chain_legal v ss : Forall (fun s => legal (fl v) s = true) ss -> forall p,
  chain v p ss = Ret (fold_left (fun p s => fst (call_setter v s p)) ss p).
Proof.
  induction 1 as [|s r Hs _ IH]; intros p; cbn [chain fold_left]; [reflexivity|].
  pose proof (setter_accepts v s p Hs) as A. destruct (call_setter v s p) as [q o]. cbn in A. subst o. apply IH.
Qed.

Lemma hasher_digest v e imp ss m : supported e imp -> Forall typed ss -> Forall (fun s => legal (fl v) s = true) ss ->
  hasher v e imp ss m = Ret (digest (fl v) (configure (fl v) ss (default_config (fl v))) m).
Proof.
  intros S T L. unfold hasher. rewrite chain_legal by exact L. cbn [bind].
  destruct (hash_is_digest v e imp ss m S T) as (h & E & B). unfold build in E. rewrite E. cbn [bind]. exact B.
Qed.

Lemma to_le_app n m : forall a b, a < 256 ^ N.of_nat n -> to_le (n + m) (a + 256 ^ N.of_nat n * b) = to_le n a ++ to_le m b.
Proof.
  induction n as [|n IH]; intros a b H.
  - cbn in H. assert (a = 0) as -> by lia. cbn [Nat.add to_le app N.of_nat]. rewrite N.pow_0_r. f_equal. lia.
  - rewrite Nat2N.inj_succ, N.pow_succ_r' in *. cbn [Nat.add to_le app]. f_equal.
    + rewrite <- (n2b_mod (a + _)), <- (n2b_mod a). f_equal. rewrite <- N.mul_assoc, N.mul_comm, N.add_comm.
      rewrite N.add_comm, N.mod_add by lia. reflexivity.
    + rewrite <- IH.
      * f_equal. rewrite <- N.mul_assoc, (N.mul_comm 256), N.div_add by lia. reflexivity.
      * apply N.div_lt_upper_bound; lia.
Qed.
Lemma encode_app n m a b : a < 256 ^ N.of_nat n -> encode (n + m) (a + 256 ^ N.of_nat n * b) = encode n a ++ encode m b.
Proof. intros H. rewrite !encode_to_le. now apply to_le_app. Qed.


(** *** Parameter blocks *)
Lemma limit_32 v l : l < xof_limit (fl v) -> l < 2 ^ 32.
Proof. unfold xof_limit. destruct v; cbn [fl xof_length_bytes]; intros H; [exact H|]. eapply N.lt_le_trans; [exact H|]. now apply N.pow_le_mono_r. Qed.

Lemma block_xof f nn kk fan dep leaf off len inner : off < 2 ^ 32 ->
  param_block f {| digest_length := nn; key_length := kk; fanout := fan; depth := dep; leaf_length := leaf;
                   node_offset := off + 2 ^ 32 * len; node_depth := 0; inner_length := inner; salt := []; personal := [] |}
  = xof_block f nn kk fan dep leaf off len inner.
Proof.
  intros H. unfold param_block, xof_block, pad_to. cbn [digest_length key_length fanout depth leaf_length node_offset node_depth inner_length salt personal].
  change (2 ^ 32) with (256 ^ N.of_nat 4) in *.
  destruct f; cbn [xof_length_bytes word_len].
  - change 8%nat with (4 + 4)%nat at 1. rewrite encode_app by exact H. rewrite !app_length, !encode_length. rewrite <- !app_assoc. reflexivity.
  - change 6%nat with (4 + 2)%nat at 1. rewrite encode_app by exact H. rewrite !app_length, !encode_length. rewrite <- !app_assoc. reflexivity.
Qed.

Lemma block_digest f nn kk fan dep leaf off len inner key m : off < 2 ^ 32 ->
  digest f {| c_params := {| digest_length := nn; key_length := kk; fanout := fan; depth := dep; leaf_length := leaf;
                   node_offset := off + 2 ^ 32 * len; node_depth := 0; inner_length := inner; salt := []; personal := [] |};
              c_key := key; c_last_node := false |} m
  = firstn (N.to_nat nn) (hash_with_block f (xof_block f nn kk fan dep leaf off len inner) key m).
Proof.
  intros H. unfold digest, blake2, hash_with_block, initial_state. cbn [c_params c_key c_last_node digest_length].
  now rewrite block_xof.
Qed.

Lemma xof_block_length v nn kk fan dep leaf off len inner key m : off < 2 ^ 32 ->
  length (hash_with_block (fl v) (xof_block (fl v) nn kk fan dep leaf off len inner) key m) = max_out (fl v).
Proof.
  intros H. unfold hash_with_block. rewrite <- block_xof by exact H. rewrite max_out_fl. apply spec_bytes_length. apply initial_state_ok.
Qed.

(** *** The two hashers *)
Lemma h0_root v e imp len key m : supported e imp -> (length key <= max_out (fl v))%nat -> N.of_nat len < xof_limit (fl v) ->
  h0_hasher v e imp m key (2 ^ 32 * N.of_nat len) = Ret (xof_root (fl v) len key m).
Proof.
  intros S K L. unfold h0_hasher.
  assert (O : 2 ^ 32 * N.of_nat len < 2 ^ 64). { change (2 ^ 64) with (2 ^ 32 * 2 ^ 32). apply N.mul_lt_mono_pos_l; [reflexivity|]. now apply limit_32 with v. }
  rewrite hasher_digest; [|exact S| |].
  - f_equal. unfold configure. cbn [fold_left].
    assert (E1 : legal (fl v) (Key key) = true) by (apply Nat.leb_le; exact K).
    assert (E2 : legal (fl v) (HashLength (outbytes v)) = true) by (destruct v; reflexivity).
    assert (E3 : legal (fl v) (NodeOffset (2 ^ 32 * N.of_nat len)) = true).
    { destruct v; [reflexivity|]. cbn [fl legal]. apply N.ltb_lt. change (2 ^ 48) with (2 ^ 32 * 2 ^ 16). apply N.mul_lt_mono_pos_l; [reflexivity|exact L]. }
    rewrite E1, E2, E3. unfold default_config, sequential. cbn [apply c_params c_key c_last_node digest_length key_length fanout depth leaf_length node_offset node_depth inner_length salt personal].
    replace (2 ^ 32 * N.of_nat len) with (0 + 2 ^ 32 * N.of_nat len) by lia.
    rewrite block_digest by reflexivity. unfold xof_root. replace (N.of_nat (outbytes v)) with (N.of_nat (max_out (fl v))) by (destruct v; reflexivity).
    rewrite Nat2N.id. apply firstn_all2. rewrite xof_block_length by reflexivity. lia.
  - repeat constructor. exact O.
  - repeat constructor.
    + apply Nat.leb_le; exact K.
    + destruct v; reflexivity.
    + destruct v; [reflexivity|]. cbn [fl legal]. apply N.ltb_lt. change (2 ^ 48) with (2 ^ 32 * 2 ^ 16). apply N.mul_lt_mono_pos_l; [reflexivity|exact L].
Qed.

Lemma b2_piece v e imp len i n h0 : supported e imp -> N.of_nat len < xof_limit (fl v) -> N.of_nat i < 2 ^ 32 ->
  n = Nat.min (max_out (fl v)) (len - i * max_out (fl v)) -> (1 <= n)%nat ->
  b2_hasher v e imp h0 (N.of_nat i + 2 ^ 32 * N.of_nat len) n = Ret (xof_piece (fl v) len i h0).
Proof.
  intros S L I Hn P. unfold b2_hasher.
  assert (O : N.of_nat i + 2 ^ 32 * N.of_nat len < 2 ^ 64).
  { pose proof (limit_32 v _ L). change (2 ^ 64) with (2 ^ 32 * 2 ^ 32). nia. }
  assert (E1 : legal (fl v) (HashLength n) = true).
  { cbn [legal]. apply andb_true_iff. split; apply Nat.leb_le; lia. }
  assert (E2 : legal (fl v) (InnerHashLength (outbytes v)) = true) by (destruct v; reflexivity).
  assert (E3 : legal (fl v) (NodeOffset (N.of_nat i + 2 ^ 32 * N.of_nat len)) = true).
  { destruct v; [reflexivity|]. cbn [fl legal]. apply N.ltb_lt. unfold xof_limit in L. cbn [fl xof_length_bytes] in L.
    change (2 ^ (8 * N.of_nat 2)) with (2 ^ 16) in L. change (2 ^ 48) with (2 ^ 32 * 2 ^ 16). nia. }
  rewrite hasher_digest; [|exact S| |].
  - f_equal. unfold configure. cbn [fold_left]. rewrite E1, E2, E3. cbn [legal].
    unfold default_config, sequential. cbn [apply c_params c_key c_last_node digest_length key_length fanout depth leaf_length node_offset node_depth inner_length salt personal].
    rewrite block_digest by exact I. unfold xof_piece. rewrite <- Hn, Nat2N.id. replace (outbytes v) with (max_out (fl v)) by (destruct v; reflexivity).
    reflexivity.
  - repeat constructor; try exact O; destruct v; reflexivity.
  - repeat (apply Forall_cons; [first [exact E1|exact E2|exact E3|reflexivity]|]). constructor.
Qed.

(** *** The loop *)
Lemma piece_length v len i h0 : N.of_nat i < 2 ^ 32 ->
  length (xof_piece (fl v) len i h0) = Nat.min (max_out (fl v)) (len - i * max_out (fl v)).
Proof. intros I. unfold xof_piece. rewrite firstn_length, xof_block_length by exact I. lia. Qed.

Lemma index_u64 i : i < 2 ^ 31 -> i32_as_u64 i = i.
Proof. intros H. unfold i32_as_u64. now rewrite (proj2 (N.ltb_lt _ _) H). Qed.
Lemma index_incr e i : i + 1 < 2 ^ 31 -> i32_incr e i = Ret (i + 1).
Proof.
  intros H. unfold i32_incr. destruct (N.eqb_spec i (2 ^ 31 - 1)) as [E|_]; [subst; cbv in H; discriminate|].
  cbn [andb]. rewrite N.mod_small; [reflexivity|]. eapply N.lt_trans; [exact H|reflexivity].
Qed.

(** After [i] full pieces. *)
Lemma loop_from v e imp len h0 : supported e imp -> N.of_nat len < xof_limit (fl v) ->
  let mo := max_out (fl v) in let total := ((len + mo - 1) / mo)%nat in
  forall k i fuel buf, (i + k = total)%nat -> (k <= fuel)%nat -> length buf = Nat.min len (i * mo) ->
  xof_loop v e imp fuel h0 (2 ^ 32 * N.of_nat len) len buf (N.of_nat i) =
  Ret (buf ++ flat_map (fun i => xof_piece (fl v) len i h0) (seq i k)).
Proof.
  intros S L mo total.
  assert (M : (32 <= mo)%nat) by (subst mo; destruct v; cbn; lia).
  assert (T : (len <= total * mo < len + mo)%nat).
  { subst total. pose proof (Nat.div_mod (len + mo - 1) mo ltac:(lia)) as D. pose proof (Nat.mod_upper_bound (len + mo - 1) mo ltac:(lia)). nia. }
  assert (B : N.of_nat total + 1 < 2 ^ 31).
  { pose proof (limit_32 v _ L) as L'. assert (N.of_nat total * N.of_nat mo < N.of_nat len + N.of_nat mo) by lia.
    assert (32 <= N.of_nat mo) by lia. change (2 ^ 32) with 4294967296 in L'. change (2 ^ 31) with 2147483648. nia. }
  induction k as [|k IH]; intros i fuel buf E F LB.
  - assert (i = total) as -> by lia. cbn [seq flat_map]. rewrite app_nil_r.
    destruct fuel; cbn [xof_loop]; destruct (Nat.ltb_spec (length buf) len); try lia; reflexivity.
  - destruct fuel as [|fuel]; [lia|]. cbn [xof_loop].
    assert (I : (i * mo < len)%nat). { assert ((i + 1) * mo <= total * mo)%nat by (apply Nat.mul_le_mono_r; lia). lia. }
    replace (Nat.min len (i * mo)) with (i * mo)%nat in LB by lia.
    destruct (Nat.ltb_spec (length buf) len); [|lia].
    assert (HL : (if (len - length buf <? outbytes v)%nat && negb (len mod outbytes v =? 0)%nat then (len mod outbytes v)%nat else outbytes v)
                 = Nat.min mo (len - i * mo)).
    { replace (outbytes v) with mo by (subst mo; destruct v; reflexivity). rewrite LB.
      destruct (Nat.ltb_spec (len - i * mo) mo) as [H1|H1]; cbn [andb].
      - assert (R : (len mod mo = len - i * mo)%nat). { symmetry. apply Nat.mod_unique with i; lia. }
        rewrite R. destruct (Nat.eqb_spec (len - i * mo) 0); cbn [negb]; lia.
      - lia. }
    rewrite HL. rewrite index_u64 by lia.
    rewrite lor_add by (change (2 ^ 31) with 2147483648 in B; change (2 ^ 32) with 4294967296; lia).
    rewrite (b2_piece v e imp len i _ h0 S L); [|change (2 ^ 31) with 2147483648 in B; change (2 ^ 32) with 4294967296; lia|reflexivity|fold mo; lia].
    cbn [bind]. rewrite index_incr by lia. cbn [bind].
    replace (N.of_nat i + 1) with (N.of_nat (Datatypes.S i)) by lia.
    rewrite IH; [|lia|lia|].
    + cbn [seq flat_map]. now rewrite app_assoc.
    + rewrite app_length, piece_length by (change (2 ^ 31) with 2147483648 in B; change (2 ^ 32) with 4294967296; lia).
      fold mo. rewrite LB. cbn [Nat.mul]. lia.
Qed.

Lemma blake2x_length v len key m : N.of_nat len < 2 ^ 32 -> length (blake2x (fl v) len key m) = len.
Proof.
  intros L. unfold blake2x. generalize (xof_root (fl v) len key m) as h0. intros h0. set (mo := max_out (fl v)).
  assert (M : (32 <= mo)%nat) by (subst mo; destruct v; cbn; lia).
  set (total := ((len + mo - 1) / mo)%nat).
  assert (T : (len <= total * mo < len + mo)%nat).
  { subst total. pose proof (Nat.div_mod (len + mo - 1) mo ltac:(lia)) as D. pose proof (Nat.mod_upper_bound (len + mo - 1) mo ltac:(lia)). nia. }
  assert (G : forall k, (k <= total)%nat -> length (flat_map (fun i => xof_piece (fl v) len i h0) (seq 0 k)) = Nat.min len (k * mo)).
  { induction k as [|k IH]; intros K; [cbn; lia|]. rewrite seq_S, flat_map_app, app_length, IH by lia. cbn [flat_map Nat.add].
    rewrite app_nil_r, piece_length.
    - fold mo. cbn [Nat.mul]. lia.
    - change (2 ^ 32) with 4294967296 in *. nia. }
  rewrite G by lia. lia.
Qed.

Theorem xof_is_blake2x v e imp len key m : supported e imp -> (length key <= max_out (fl v))%nat -> N.of_nat len < xof_limit (fl v) ->
  xof v e imp len key m = Ret (blake2x (fl v) len key m).
Proof.
  intros S K L. unfold xof. pose proof (limit_32 v _ L) as L32.
  assert (C : N.shiftl (N.of_nat len mod 2 ^ 64) 32 mod 2 ^ 64 = 2 ^ 32 * N.of_nat len).
  { rewrite (N.mod_small (N.of_nat len)) by (eapply N.lt_trans; [exact L32|reflexivity]).
    rewrite N.shiftl_mul_pow2, N.mul_comm. apply N.mod_small. change (2 ^ 64) with (2 ^ 32 * 2 ^ 32). apply N.mul_lt_mono_pos_l; [reflexivity|exact L32]. }
  rewrite C, h0_root by auto. cbn [bind].
  change 0 with (N.of_nat 0) at 1.
  assert (M : (32 <= max_out (fl v))%nat) by (destruct v; cbn; lia).
  rewrite (loop_from v e imp len _ S L ((len + max_out (fl v) - 1) / max_out (fl v)) 0%nat len []);
    [|reflexivity| |cbn; lia].
  - cbn [bind app]. fold (blake2x (fl v) len key m). unfold slice.
    rewrite blake2x_length by exact L32. cbn [Nat.leb andb]. rewrite Nat.leb_refl. cbn [skipn]. rewrite Nat.sub_0_r.
    f_equal. apply firstn_all2. rewrite blake2x_length by exact L32. lia.
  - destruct len as [|len]; [rewrite Nat.div_small by lia; lia|]. apply Nat.div_le_upper_bound; [lia|]. nia.
Qed.

(** BLAKE2Xs refuses lengths that do not fit. *)
Theorem xof_too_long e imp len key m : (length key <= 32)%nat -> 2 ^ 16 <= N.of_nat len < 2 ^ 32 ->
  xof V2s e imp len key m = Panic.
Proof.
  intros K [L0 L1]. unfold xof.
  assert (C : N.shiftl (N.of_nat len mod 2 ^ 64) 32 mod 2 ^ 64 = 2 ^ 32 * N.of_nat len).
  { rewrite (N.mod_small (N.of_nat len)) by (eapply N.lt_trans; [exact L1|reflexivity]).
    rewrite N.shiftl_mul_pow2, N.mul_comm. apply N.mod_small. change (2 ^ 64) with (2 ^ 32 * 2 ^ 32). apply N.mul_lt_mono_pos_l; [reflexivity|exact L1]. }
  rewrite C. unfold h0_hasher, hasher. cbn [chain].
  pose proof (setter_accepts V2s (Key key) (params_new V2s imp) (proj2 (Nat.leb_le _ _) K)) as A1.
  destruct (call_setter V2s (Key key) _) as [p1 o1]. cbn in A1. subst o1. cbn [bind].
  pose proof (setter_accepts V2s (HashLength (outbytes V2s)) p1 eq_refl) as A2.
  destruct (call_setter V2s (HashLength _) p1) as [p2 o2]. cbn in A2. subst o2. cbn [bind].
  rewrite setter_refuses; [reflexivity|]. cbn [legal fl]. apply N.ltb_ge. change (2 ^ 48) with (2 ^ 32 * 2 ^ 16).
  apply N.mul_le_mono_l. exact L0.
Qed.
