(** A collision of the hash functions is a collision of the compression
    function (C43). *)
From Coq Require Import ZArith Arith NArith List Bool Lia ZifyBool ZifyNat ZifyN.
From Coq Require Import Init.Byte.
From Verif Require Import Base ByteLemmas Guts Portable KernelSpec Simd Impl Loops LaneLoops Sched Lib StateProof
  ParamsProof FedProof ManyProof Par Stripe ParProof ParFed InjProof.
From Verif Require Spec ApiSpec.
From Verif Require Import Calls Collisions.
Import ListNotations.
Open Scope N_scope.

Lemma use_dec (x y : use) : {x = y} + {x <> y}.
Proof. repeat decide equality. Qed.

Lemma uses_from_snoc f cs c : forall h,
  uses_from f h (cs ++ [c]) = uses_from f h cs ++ [(make_calls f h cs, c)].
Proof.
  induction cs as [|d cs IH]; intros h; [reflexivity|]. cbn [app uses_from]. rewrite IH. reflexivity.
Qed.
Lemma make_calls_snoc f h cs c : make_calls f h (cs ++ [c]) = result f (make_calls f h cs, c).
Proof. unfold make_calls. rewrite fold_left_app. reflexivity. Qed.

(** Chains of the same length with the same result. *)
Lemma chain_collision f cs : forall cs' h h', length cs = length cs' ->
  make_calls f h cs = make_calls f h' cs' ->
  (h = h' /\ cs = cs') \/
  (exists x y, In x (uses_from f h cs) /\ In y (uses_from f h' cs') /\ x <> y /\ result f x = result f y).
Proof.
  induction cs as [|c cs IH] using rev_ind; intros cs' h h' L E.
  - destruct cs'; [|discriminate]. left. auto.
  - destruct (exists_last (l := cs')) as (pre & c' & ->).
    { intros ->. rewrite app_length in L. cbn in L. lia. }
    rewrite !app_length in L. cbn [length] in L. rewrite !make_calls_snoc in E. rewrite !uses_from_snoc.
    destruct (use_dec (make_calls f h cs, c) (make_calls f h' pre, c')) as [X|X].
    + injection X as X ->. destruct (IH pre h h' ltac:(lia) X) as [[-> ->]|(x & y & I & J & N & R)]; [left; auto|].
      right. exists x, y. rewrite !in_app_iff. auto.
    + right. exists (make_calls f h cs, c), (make_calls f h' pre, c'). rewrite !in_app_iff. cbn. auto.
Qed.

(** Where only the first [n] bytes of the result agree. *)
Lemma digest_collision f n cs cs' h h' : cs <> [] -> cs' <> [] ->
  (forall pre pre' c, cs = pre ++ [c] -> cs' = pre' ++ [c] -> length cs = length cs') ->
  firstn n (Spec.words_to_bytes f (make_calls f h cs)) = firstn n (Spec.words_to_bytes f (make_calls f h' cs')) ->
  (h = h' /\ cs = cs') \/ contain_collision f n (uses_from f h cs) (uses_from f h' cs').
Proof.
  intros N N' HL E.
  destruct (exists_last N) as (pre & c & ->). destruct (exists_last N') as (pre' & c' & ->).
  rewrite !make_calls_snoc in E. rewrite !uses_from_snoc.
  destruct (use_dec (make_calls f h pre, c) (make_calls f h' pre', c')) as [X|X].
  - injection X as X ->. specialize (HL pre pre' c' eq_refl eq_refl). rewrite !app_length in HL. cbn [length] in HL.
    destruct (chain_collision f pre pre' h h' ltac:(lia) X) as [[-> ->]|(x & y & I & J & D & R)]; [left; auto|].
    right. left. exists x, y. rewrite !in_app_iff. auto.
  - right. right. exists (uses_from f h pre), (uses_from f h' pre'). eauto 8.
Qed.

(** The last call tells the length, hence the number of calls. *)
Lemma calls_nonempty f key msg ln : calls f key msg ln <> [].
Proof. unfold calls. intros E. apply app_eq_nil in E. destruct E as [_ E]. discriminate. Qed.

Definition short f key msg := N.of_nat (length (Spec.data f key msg)) < 2 ^ (2 * Spec.bits f).

Lemma last_call_length f key msg ln key' msg' ln' pre pre' c :
  short f key msg -> short f key' msg' ->
  calls f key msg ln = pre ++ [c] -> calls f key' msg' ln' = pre' ++ [c] ->
  length (calls f key msg ln) = length (calls f key' msg' ln').
Proof.
  intros S S' E E'. rewrite !calls_length. unfold calls in E, E'.
  apply app_inj_tail in E. apply app_inj_tail in E'. destruct E as [_ E], E' as [_ E'].
  apply (f_equal fc_count) in E, E'. cbn [fc_count] in E, E'. rewrite N.mod_small in E, E' by assumption.
  assert (L : length (Spec.data f key msg) = length (Spec.data f key' msg')) by lia.
  unfold Spec.num_blocks. rewrite L. reflexivity.
Qed.

(** ** BLAKE2b and BLAKE2s *)
Lemma data_length_le f key msg : (length key <= Spec.block_len f)%nat ->
  (length (Spec.data f key msg) <= length msg + Spec.block_len f)%nat.
Proof. intros K. unfold Spec.data. destruct key as [|k0 k]; [lia|]. rewrite app_length, pad_to_length by auto. lia. Qed.
Lemma countable_short f key msg : (length key <= Spec.block_len f)%nat -> countable f msg -> short f key msg.
Proof. unfold countable, short. intros K C. pose proof (data_length_le f key msg K). lia. Qed.
Lemma max_out_block f : (Spec.max_out f <= Spec.block_len f)%nat.
Proof. destruct f; cbn; lia. Qed.

Lemma blake2_calls v c msg :
  ApiSpec.digest (fl v) c msg =
  firstn (N.to_nat (Spec.digest_length (ApiSpec.c_params c)))
    (Spec.words_to_bytes (fl v) (make_calls (fl v) (Spec.initial_state (fl v) (ApiSpec.c_params c))
       (calls (fl v) (ApiSpec.c_key c) msg (ApiSpec.c_last_node c)))).
Proof. unfold ApiSpec.digest, Spec.blake2. rewrite make_calls_hash. reflexivity. Qed.

Lemma make_calls_ok v cs : forall h, words_ok v h -> words_ok v (make_calls (fl v) h cs).
Proof.
  induction cs as [|c cs IH]; intros h O; [exact O|]. cbn. apply IH. apply F_ok, O.
Qed.
Lemma chain_bytes_length v cs h : words_ok v h ->
  length (Spec.words_to_bytes (fl v) (make_calls (fl v) h cs)) = outbytes v.
Proof. intros O. rewrite <- words_to_bytes_eq, words_to_bytes_length by (apply make_calls_ok, O). reflexivity. Qed.

Lemma digest_length_eq v c msg : wf_config (fl v) c ->
  length (ApiSpec.digest (fl v) c msg) = N.to_nat (Spec.digest_length (ApiSpec.c_params c)).
Proof.
  intros W. rewrite blake2_calls, firstn_length, chain_bytes_length by apply initial_state_ok.
  pose proof (wf_digest _ _ W) as D. rewrite max_out_fl in D. lia.
Qed.

Lemma seq_collision v c c' msg msg' : wf_config (fl v) c -> wf_config (fl v) c' ->
  countable (fl v) msg -> countable (fl v) msg' ->
  ApiSpec.digest (fl v) c msg = ApiSpec.digest (fl v) c' msg' ->
  (msg = msg' /\ same_config (fl v) c c') \/
  contain_collision (fl v) (length (ApiSpec.digest (fl v) c msg)) (uses (fl v) c msg) (uses (fl v) c' msg').
Proof.
  intros W W' C C' E.
  assert (KL : forall d, wf_config (fl v) d -> (length (ApiSpec.c_key d) <= Spec.block_len (fl v))%nat).
  { intros d Wd. pose proof (wf_keylen _ _ Wd). pose proof (max_out_block (fl v)). lia. }
  pose proof (f_equal (@length byte) E) as EL. rewrite !digest_length_eq in EL by auto.
  rewrite digest_length_eq by auto. rewrite !blake2_calls in E. rewrite <- EL in E.
  destruct (digest_collision _ _ _ _ _ _ (calls_nonempty _ _ _ _) (calls_nonempty _ _ _ _)
    (fun pre pre' c0 X Y => last_call_length _ _ _ _ _ _ _ _ _ _ (countable_short _ _ _ (KL _ W) C) (countable_short _ _ _ (KL _ W') C') X Y) E)
    as [[H K]|X]; [left|right; exact X].
  apply initial_state_inj in H; auto. assert (LK : length (ApiSpec.c_key c) = length (ApiSpec.c_key c')).
  { destruct H as (_ & H & _). rewrite (wf_key _ _ W), (wf_key _ _ W') in H. lia. }
  destruct (calls_inj _ _ _ _ _ _ _ LK (KL _ W) K) as (K1 & M & LN). repeat split; auto; apply H.
Qed.

(** ** BLAKE2bp and BLAKE2sp *)
Lemma slices_concat {A} B D : forall (x : list A),
  concat (map (fun i => firstn B (skipn (i * B) x)) (seq 0 D)) = firstn (D * B) x.
Proof.
  induction D as [|D IH]; intros x; [reflexivity|].
  replace (S D) with (D + 1)%nat by lia. rewrite seq_app, map_app, concat_app, IH. cbn [Nat.add seq map concat].
  rewrite app_nil_r. replace ((D + 1) * B)%nat with (D * B + B)%nat by lia.
  rewrite <- (firstn_skipn (D * B) x) at 3. rewrite firstn_app, firstn_firstn.
  destruct (Nat.le_gt_cases (D * B) (length x)) as [H|H].
  - rewrite firstn_length, (Nat.min_l (D * B) (length x)), (Nat.min_r (D * B + B)) by lia.
    replace (D * B + B - D * B)%nat with B by lia. reflexivity.
  - rewrite (skipn_all2 x) by lia. rewrite !firstn_nil. f_equal. rewrite !firstn_all2 by lia. reflexivity.
Qed.

Lemma concat_map_app_length {A} (a b : nat -> list A) l :
  length (concat (map (fun i => a i ++ b i) l)) = (length (concat (map a l)) + length (concat (map b l)))%nat.
Proof. induction l as [|i l IH]; [reflexivity|]. cbn [map concat]. rewrite !app_length, IH. lia. Qed.

Lemma leaves_length v : forall n x, (length x <= n)%nat ->
  length (concat (map (fun i => L v i x) (seq 0 (par_degree v)))) = length x.
Proof.
  pose proof (P_eq v) as PE. pose proof (blockbytes_pos v) as BP. pose proof (par_degree_pos v) as DP.
  induction n as [|n IH]; intros x H.
  - destruct x; [|cbn in H; lia]. assert (Z : forall l, concat (map (fun i => L v i []) l) = []); [|rewrite Z; reflexivity].
    induction l as [|i l IHl]; [reflexivity|]. cbn [map concat]. rewrite IHl. reflexivity.
  - rewrite (map_ext_in (fun i => L v i x) (fun i => firstn (blockbytes v) (skipn (i * blockbytes v) x) ++ L v i (skipn (P v) x))).
    2:{ intros i I. apply in_seq in I. apply L_step. lia. }
    rewrite concat_map_app_length, slices_concat. destruct x as [|b x].
    + rewrite firstn_nil, skipn_nil. rewrite IH by (cbn; lia). reflexivity.
    + rewrite IH by (rewrite skipn_length; cbn [length] in *; nia). rewrite <- PE, <- app_length, firstn_skipn. reflexivity.
Qed.

Lemma leaf_messages_inj v : forall n x y, (length x <= n)%nat ->
  (forall i, (i < par_degree v)%nat -> L v i x = L v i y) -> x = y.
Proof.
  pose proof (P_eq v) as PE. pose proof (blockbytes_pos v) as BP. pose proof (par_degree_pos v) as DP.
  induction n as [|n IH]; intros x y H E.
  all: assert (LE : length x = length y) by
    (rewrite <- (leaves_length v _ x (le_n _)), <- (leaves_length v _ y (le_n _));
     f_equal; f_equal; apply map_ext_in; intros i I; apply in_seq in I; apply E; lia).
  - destruct x, y; auto; cbn in *; lia.
  - destruct x as [|b x]; [destruct y; [reflexivity|discriminate]|].
    assert (S : forall i, (i < par_degree v)%nat ->
      firstn (blockbytes v) (skipn (i * blockbytes v) (b :: x)) = firstn (blockbytes v) (skipn (i * blockbytes v) y) /\
      L v i (skipn (P v) (b :: x)) = L v i (skipn (P v) y)).
    { intros i Hi. apply app_inj_len; [rewrite !firstn_length, !skipn_length; lia|].
      rewrite <- !L_step by auto. apply E, Hi. }
    rewrite <- (firstn_skipn (P v) (b :: x)), <- (firstn_skipn (P v) y). f_equal.
    + rewrite PE, <- !slices_concat. f_equal. apply map_ext_in. intros i I. apply in_seq in I. apply S. lia.
    + apply IH; [rewrite skipn_length; cbn [length] in *; nia|]. intros i Hi. apply S, Hi.
Qed.

Lemma leaf_message_shorter v i msg : (length (Spec.leaf_message (fl v) i msg) <= length msg)%nat.
Proof.
  unfold Spec.leaf_message. rewrite map_length.
  assert (F : forall A (g : A -> bool) l, (length (filter g l) <= length l)%nat).
  { induction l as [|a l IHl]; cbn; [lia|]. destruct (g a); cbn; lia. }
  etransitivity; [apply F|]. rewrite combine_length. lia.
Qed.

Lemma tree_node_wf v n (key : list byte) i nd ln k : (1 <= n <= Spec.max_out (fl v))%nat -> (length key <= Spec.max_out (fl v))%nat ->
  (i < Spec.leaves (fl v))%nat -> nd < 2 -> length k = length key ->
  wf_config (fl v) {| ApiSpec.c_params := Spec.tree_node (fl v) n (length key) (N.of_nat i) nd;
                      ApiSpec.c_key := k; ApiSpec.c_last_node := ln |}.
Proof.
  intros Hn Hk Hi Hd Ek. constructor; cbn [ApiSpec.c_params ApiSpec.c_key Spec.tree_node Spec.digest_length Spec.key_length
    Spec.fanout Spec.depth Spec.leaf_length Spec.node_offset Spec.node_depth Spec.inner_length Spec.salt Spec.personal length];
  destruct v; cbn in *; lia.
Qed.

Lemma root_data_length v n key msg :
  length (flat_map (Spec.leaf_hash (fl v) n key msg) (seq 0 (Spec.leaves (fl v)))) = (Spec.leaves (fl v) * outbytes v)%nat.
Proof.
  generalize 0%nat. induction (Spec.leaves (fl v)) as [|l IH]; intros s; [reflexivity|]. cbn [seq flat_map].
  rewrite app_length, IH. unfold Spec.leaf_hash at 1. rewrite <- make_calls_hash, chain_bytes_length by apply initial_state_ok. lia.
Qed.

Lemma words_to_bytes_inj v a b : words_ok v a -> words_ok v b ->
  Spec.words_to_bytes (fl v) a = Spec.words_to_bytes (fl v) b -> a = b.
Proof.
  intros [LA FA] [LB FB]. assert (LE : length a = length b) by congruence. clear LA LB. revert b LE FB.
  induction FA as [|x a X FA IH]; intros [|y b] LE FB E; try discriminate; auto.
  inversion FB as [|? ? Y FB']; subst. cbn [Spec.words_to_bytes flat_map] in E.
  apply app_inj_len in E; [|rewrite !encode_length; reflexivity]. destruct E as [E1 E2]. f_equal.
  - apply (encode_inj (Spec.word_len (fl v))); auto; destruct v; cbn in *; lia.
  - apply IH; auto.
Qed.

Lemma flat_map_inj {A B} (f g : A -> list B) l : (forall x, In x l -> length (f x) = length (g x)) ->
  flat_map f l = flat_map g l -> forall x, In x l -> f x = g x.
Proof.
  induction l as [|a l IH]; intros HL E x I; [destruct I|]. cbn [flat_map] in E.
  apply app_inj_len in E; [|apply HL; left; auto]. destruct E as [E1 E2].
  destruct I as [->|I]; auto. apply IH; auto. intros y J. apply HL. right. auto.
Qed.

Lemma pdigest_calls v c msg :
  ApiSpec.pdigest (fl v) c msg =
  firstn (ApiSpec.pc_hash_length c) (Spec.words_to_bytes (fl v)
    (make_calls (fl v) (Spec.initial_state (fl v) (Spec.tree_node (fl v) (ApiSpec.pc_hash_length c) (length (ApiSpec.pc_key c)) 0 1))
       (calls (fl v) [] (flat_map (Spec.leaf_hash (fl v) (ApiSpec.pc_hash_length c) (ApiSpec.pc_key c) msg) (seq 0 (Spec.leaves (fl v)))) true))).
Proof. unfold ApiSpec.pdigest, Spec.blake2p. rewrite make_calls_hash. reflexivity. Qed.

Lemma pdigest_length_eq v c msg : wf_pconfig (fl v) c ->
  length (ApiSpec.pdigest (fl v) c msg) = ApiSpec.pc_hash_length c.
Proof.
  intros [W _]. rewrite pdigest_calls, firstn_length, chain_bytes_length by apply initial_state_ok.
  rewrite max_out_fl in W. lia.
Qed.

Lemma collision_app f n a a' b b' : contain_collision f n b b' -> contain_collision f n (a ++ b) (a' ++ b').
Proof.
  intros [(x & y & I & J & H)|(pre & pre' & x & y & -> & -> & H)].
  - left. exists x, y. rewrite !in_app_iff. auto.
  - right. exists (a ++ pre), (a' ++ pre'), x, y. rewrite !app_assoc. auto.
Qed.

Lemma root_short v n key msg :
  short (fl v) [] (flat_map (Spec.leaf_hash (fl v) n key msg) (seq 0 (Spec.leaves (fl v)))).
Proof. unfold short, Spec.data. rewrite root_data_length. destruct v; reflexivity. Qed.

Lemma par_collision v c c' msg msg' : wf_pconfig (fl v) c -> wf_pconfig (fl v) c' ->
  countable (fl v) msg -> countable (fl v) msg' ->
  ApiSpec.pdigest (fl v) c msg = ApiSpec.pdigest (fl v) c' msg' ->
  (msg = msg' /\ c = c') \/
  contain_collision (fl v) (length (ApiSpec.pdigest (fl v) c msg)) (puses (fl v) c msg) (puses (fl v) c' msg').
Proof.
  intros W W' C C' E.
  pose proof (f_equal (@length byte) E) as EL. rewrite !pdigest_length_eq in EL by auto.
  rewrite pdigest_length_eq by auto. rewrite !pdigest_calls in E. rewrite <- EL in E.
  destruct c as [n key], c' as [n' key']. cbn [ApiSpec.pc_hash_length ApiSpec.pc_key] in *. subst n'.
  destruct W as [Wn Wk], W' as [Wn' Wk']. cbn [ApiSpec.pc_hash_length ApiSpec.pc_key] in *.
  pose proof (max_out_block (fl v)) as MB. assert (LP : (0 < Spec.leaves (fl v))%nat) by (destruct v; cbn; lia).
  destruct (digest_collision _ _ _ _ _ _ (calls_nonempty _ _ _ _) (calls_nonempty _ _ _ _)
    (fun pre pre' c0 X Y => last_call_length _ _ _ _ _ _ _ _ _ _ (root_short _ _ _ _) (root_short _ _ _ _) X Y) E)
    as [[H K]|X].
  2:{ right. unfold puses. apply collision_app. exact X. }
  assert (KL : length key = length key').
  { pose proof (initial_state_inj v _ _ (tree_node_wf v n key 0 1 true key ltac:(lia) Wk LP ltac:(lia) eq_refl)
      (tree_node_wf v n key' 0 1 true key' ltac:(lia) Wk' LP ltac:(lia) eq_refl)) as I. cbn [ApiSpec.c_params] in I.
    apply I in H. destruct H as (_ & H & _). cbn [Spec.tree_node Spec.key_length] in H. lia. }
  assert (K2 : flat_map (Spec.leaf_hash (fl v) n key msg) (seq 0 (Spec.leaves (fl v))) =
               flat_map (Spec.leaf_hash (fl v) n key' msg') (seq 0 (Spec.leaves (fl v)))).
  { apply calls_inj in K; [apply K|reflexivity|cbn; lia]. }
  assert (LH : forall i, (i < Spec.leaves (fl v))%nat ->
    make_calls (fl v) (Spec.initial_state (fl v) (Spec.tree_node (fl v) n (length key) (N.of_nat i) 0))
      (calls (fl v) key (Spec.leaf_message (fl v) i msg) (Nat.eqb i (Spec.leaves (fl v) - 1))) =
    make_calls (fl v) (Spec.initial_state (fl v) (Spec.tree_node (fl v) n (length key') (N.of_nat i) 0))
      (calls (fl v) key' (Spec.leaf_message (fl v) i msg') (Nat.eqb i (Spec.leaves (fl v) - 1)))).
  { intros i Hi. apply (words_to_bytes_inj v); try (apply make_calls_ok, initial_state_ok).
    rewrite !make_calls_hash. refine (flat_map_inj _ _ _ _ K2 i _); [|apply in_seq; lia].
    intros j _. unfold Spec.leaf_hash. rewrite <- !make_calls_hash, !chain_bytes_length by apply initial_state_ok. reflexivity. }
  assert (SH : forall i k m, (length k <= Spec.max_out (fl v))%nat -> countable (fl v) m -> short (fl v) k (Spec.leaf_message (fl v) i m)).
  { intros i k m Hk Cm. apply countable_short; [lia|]. unfold countable in *. pose proof (leaf_message_shorter v i m). lia. }
  assert (ALL : (forall i, (i < Spec.leaves (fl v))%nat -> key = key' /\ Spec.leaf_message (fl v) i msg = Spec.leaf_message (fl v) i msg')
    \/ exists i, (i < Spec.leaves (fl v))%nat /\ contain_collision (fl v) (outbytes v)
         (leaf_uses (fl v) {| ApiSpec.pc_hash_length := n; ApiSpec.pc_key := key |} msg i)
         (leaf_uses (fl v) {| ApiSpec.pc_hash_length := n; ApiSpec.pc_key := key' |} msg' i)).
  { assert (ONE : forall i, (i < Spec.leaves (fl v))%nat ->
      (key = key' /\ Spec.leaf_message (fl v) i msg = Spec.leaf_message (fl v) i msg') \/
      contain_collision (fl v) (outbytes v)
         (leaf_uses (fl v) {| ApiSpec.pc_hash_length := n; ApiSpec.pc_key := key |} msg i)
         (leaf_uses (fl v) {| ApiSpec.pc_hash_length := n; ApiSpec.pc_key := key' |} msg' i)).
    { intros i Hi. destruct (digest_collision (fl v) (outbytes v) _ _ _ _ (calls_nonempty _ _ _ _) (calls_nonempty _ _ _ _)
        (fun pre pre' c0 X Y => last_call_length _ _ _ _ _ _ _ _ _ _ (SH i _ _ Wk C) (SH i _ _ Wk' C') X Y)
        (f_equal (fun h => firstn (outbytes v) (Spec.words_to_bytes (fl v) h)) (LH i Hi))) as [[_ K3]|X].
      - left. apply calls_inj in K3; [|exact KL|lia]. split; apply K3.
      - right. exact X. }
    clear - ONE. induction (Spec.leaves (fl v)) as [|k IH]; [left; intros; lia|].
    destruct IH as [A|(i & Hi & X)]; [intros i Hi; apply ONE; lia| |right; exists i; split; [lia|exact X]].
    destruct (ONE k ltac:(lia)) as [O|X]; [left|right; exists k; split; [lia|exact X]].
    intros i Hi. destruct (Nat.eq_dec i k) as [->|Hk]; [exact O|apply A; lia]. }
  destruct ALL as [A|(i & Hi & X)].
  - left. split.
    + apply (leaf_messages_inj v _ msg msg' (le_n _)). intros i Hi. apply A. rewrite leaves_fl. exact Hi.
    + f_equal. apply (A 0%nat). exact LP.
  - right. left. destruct X as [(x & y & I & J & R)|(pre & pre' & x & y & Ux & Uy & D & R)].
    + exists x, y. unfold puses. rewrite !in_app_iff, !in_flat_map. split; [|split; [|exact R]].
      * left. exists i. split; [apply in_seq; lia|exact I].
      * left. exists i. split; [apply in_seq; lia|exact J].
    + exists x, y. unfold puses. rewrite !in_app_iff, !in_flat_map. split; [|split; [|split; [exact D|]]].
      * left. exists i. split; [apply in_seq; lia|]. rewrite Ux, in_app_iff. cbn. auto.
      * left. exists i. split; [apply in_seq; lia|]. rewrite Uy, in_app_iff. cbn. auto.
      * assert (LW : forall k m z p, leaf_uses (fl v) {| ApiSpec.pc_hash_length := n; ApiSpec.pc_key := k |} m i = p ++ [z] ->
          words_ok v (result (fl v) z)).
        { intros k m z p U. unfold leaf_uses in U.
          destruct (exists_last (calls_nonempty (fl v) k (Spec.leaf_message (fl v) i m) (Nat.eqb i (Spec.leaves (fl v) - 1)))) as (q & w & Q).
          cbn [ApiSpec.pc_key ApiSpec.pc_hash_length] in U. rewrite Q, uses_from_snoc in U. apply app_inj_tail in U. destruct U as [_ <-].
          apply F_ok. cbn [fst]. apply make_calls_ok, initial_state_ok. }
        pose proof (LW _ _ _ _ Ux) as OX. pose proof (LW _ _ _ _ Uy) as OY.
        apply (words_to_bytes_inj v); auto.
        rewrite !firstn_all2 in R by (rewrite <- words_to_bytes_eq, words_to_bytes_length by auto; lia). exact R.
Qed.

(** ** Between the modes *)
Lemma mode_collision v c pc msg msg' : wf_config (fl v) c -> wf_pconfig (fl v) pc ->
  Spec.depth (ApiSpec.c_params c) <> 2 -> countable (fl v) msg ->
  ApiSpec.digest (fl v) c msg = ApiSpec.pdigest (fl v) pc msg' ->
  contain_collision (fl v) (length (ApiSpec.digest (fl v) c msg)) (uses (fl v) c msg) (puses (fl v) pc msg').
Proof.
  intros W W' D C E.
  pose proof (f_equal (@length byte) E) as EL. rewrite digest_length_eq, pdigest_length_eq in EL by auto.
  rewrite digest_length_eq by auto. rewrite blake2_calls, pdigest_calls in E. rewrite EL in E |- *.
  assert (WK : (length (ApiSpec.c_key c) <= Spec.block_len (fl v))%nat)
    by (pose proof (wf_keylen _ _ W); pose proof (max_out_block (fl v)); lia).
  destruct (digest_collision _ _ _ _ _ _ (calls_nonempty _ _ _ _) (calls_nonempty _ _ _ _)
    (fun pre pre' c0 X Y => last_call_length _ _ _ _ _ _ _ _ _ _ (countable_short (fl v) _ _ WK C) (root_short _ _ _ _) X Y) E)
    as [[H K]|X].
  - exfalso. apply D. destruct W' as [Wn Wk]. assert (LP : (0 < Spec.leaves (fl v))%nat) by (destruct v; cbn; lia).
    pose proof (initial_state_inj v _ _ W (tree_node_wf v _ _ 0 1 true _ Wn Wk LP ltac:(lia) eq_refl)) as I.
    cbn [ApiSpec.c_params] in I. apply I in H. apply H.
  - unfold puses. exact (collision_app _ _ [] _ _ _ X).
Qed.
