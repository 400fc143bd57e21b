(** The objects that an interrupted batch leaves half way. *)
From Coq Require Import ZArith Arith NArith List Bool Lia ZifyBool ZifyNat ZifyN.
From Verif Require Import Base ByteLemmas Guts Portable KernelSpec Simd Impl Loops LaneLoops Sched SchedProof
  Lib StateProof ParamsProof FedProof Many ManyProof Api ApiProof Runs HistoryProof BatchProof Unwind Crashes UnwindProof.
From Verif Require Spec ApiSpec Machine History.
From Verif Require Import CasualtySpec.
Import ListNotations.
Open Scope N_scope.

Lemma absorb_chain v h d k : absorb (fl v) h d k = chain v d h 0 k.
Proof. unfold absorb, chain. rewrite block_len_fl. reflexivity. Qed.

Lemma steps_chain v d m : forall h k,
  snd (fst (steps v Serial m (skipn (k * blockbytes v) d) h (N.of_nat (k * blockbytes v) mod cmod v))) = chain v d h k m.
Proof.
  induction m as [|m IH]; intros h k; [reflexivity|]. cbn [steps padded_blockbytes].
  rewrite chain_S, skipn_skipn_add, count_step.
  replace (k * blockbytes v + blockbytes v)%nat with (S k * blockbytes v)%nat by lia.
  rewrite IH. unfold mid_step. rewrite count_step, F_count_mod, block_front. do 3 f_equal. lia.
Qed.

(** The message is only read up to the blocks absorbed. *)
Lemma chain_firstn v d h n m : (m * blockbytes v <= n)%nat -> chain v (firstn n d) h 0 m = chain v d h 0 m.
Proof.
  intros H. destruct (Nat.le_gt_cases n (length d)) as [L|L].
  - rewrite <- (firstn_skipn n d) at 2. rewrite chain_app; [reflexivity|]. rewrite firstn_length_le by exact L. lia.
  - rewrite firstn_all2 by lia. reflexivity.
Qed.

(** *** Jobs *)
Lemma key_bytes_blocks v c : key_bytes v c = (key_blocks c * blockbytes v)%nat.
Proof. unfold key_bytes, keyed, key_blocks. destruct (ApiSpec.c_key c); lia. Qed.

Lemma pending_start v e c msg j : pending v e c msg j ->
  let d := Spec.data (fl v) (ApiSpec.c_key c) msg in
  hj_words j = chain v d (Spec.initial_state (fl v) (ApiSpec.c_params c)) 0 (key_blocks c) /\
  hj_count j = N.of_nat (key_blocks c * blockbytes v) mod cmod v /\
  hj_input j = skipn (key_blocks c * blockbytes v) d.
Proof.
  intros [W S O A L F I LN C P R] d. rewrite P, C, I, key_bytes_blocks.
  pose proof (keyed_pad_length v c W) as KL. pose proof (blockbytes_pos v) as BP.
  unfold d, key_blocks, first_words, Spec.data in *. rewrite block_len_fl. destruct (ApiSpec.c_key c) as [|b r].
  - cbn [Nat.mul skipn]. split; [reflexivity|]. split; [|reflexivity]. rewrite N.mod_0_l by apply cmod_nz. reflexivity.
  - split; [|split].
    + unfold chain. cbn [seq fold_left]. rewrite block_front. cbn [Nat.mul skipn Nat.add]. unfold front.
      rewrite firstn_app, KL, Nat.sub_diag. cbn [firstn]. rewrite app_nil_r, firstn_all2 by lia.
      rewrite (Loops.pad_to_full _ (Spec.pad_to _ _)) by exact KL. rewrite Nat.add_0_r. reflexivity.
    + symmetry. apply N.mod_small. destruct v; reflexivity.
    + rewrite Nat.mul_1_l, skipn_app, skipn_all2, KL, Nat.sub_diag by lia. reflexivity.
Qed.

Lemma to_hash_of v e j : words_ok v (hj_words j) -> hj_finished j = true ->
  to_hash v e j = Ret {| h_bytes := Spec.words_to_bytes (fl v) (hj_words j); h_len := hj_hash_length j |}.
Proof.
  intros O F. unfold to_hash. rewrite F. unfold debug_assert. destruct (e_dbg e); cbn [assert_ bind]; rewrite words_to_bytes_eq by exact O; reflexivity.
Qed.

(** What to_hash gives half way. *)
Lemma under_way_hash v e c msg j j' : pending v e c msg j -> words_ok v (hj_words j') ->
  hj_finished j' = true -> hj_hash_length j' = hj_hash_length j ->
  under_way hj_words hash_prep v Serial tt j (hj_words j') ->
  exists k, (k = 0%nat \/ (k * Spec.block_len (fl v) < length msg)%nat) /\
    to_hash v e j' = Ret {| h_bytes := Spec.words_to_bytes (fl v) (midstate (fl v) c msg k);
                            h_len := Spec.digest_length (ApiSpec.c_params c) |}.
Proof.
  intros P O F HL (c' & input & count & ln & m & E & S & M).
  unfold hash_prep in E. rewrite (pj_fin _ _ _ _ _ P) in E. injection E as <- <- <- <-. cbn [hj_input hj_words hj_count set_hj_finished] in *.
  destruct (pending_start v e c msg j P) as (W & C & I). cbv zeta in *.
  assert (G : hj_words j' = midstate (fl v) c msg m).
  { rewrite <- S, I, C, steps_chain, W. unfold midstate. rewrite absorb_chain, chain_add. reflexivity. }
  exists m. split.
  { rewrite block_len_fl, <- (pj_input _ _ _ _ _ P). exact M. }
  rewrite to_hash_of by auto. rewrite G, HL, (pj_len _ _ _ _ _ P). reflexivity.
Qed.

Theorem hash_casualties v e reqs l : Forall (askable e) reqs -> exclusive (length reqs) l ->
  exists jobs left hurt, mapM (make_job v e) reqs = Ret jobs /\
    hash_many_unwinding v e jobs (panics_after l) = Unwound left /\
    length left = length reqs /\ NoDup hurt /\ (length hurt < lanes v hj_imp jobs l)%nat /\
    (forall i, In i hurt -> In i (map fst l)) /\
    forall i r j, nth_error reqs i = Some r -> nth_error left i = Some j ->
      (In i (map fst l) -> ~ In i hurt -> to_hash v e j = hash_alone v e r) /\
      (In i hurt -> exists k, (k = 0%nat \/ (k * Spec.block_len (fl v) < length (request_msg r))%nat) /\
         to_hash v e j = Ret {| h_bytes := Spec.words_to_bytes (fl v) (midstate (fl v) (request_config v r) (request_msg r) k);
                                h_len := Spec.digest_length (ApiSpec.c_params (request_config v r)) |}).
Proof.
  intros A X. destruct (make_jobs_spec v e reqs A) as (jobs & E & F2). assert (L : length reqs = length jobs) by (clear -F2; induction F2; cbn; lia).
  assert (FS : Forall (sane_job v e) jobs).
  { apply Forall_nth_error. intros i j Hj. destruct (Forall2_nth_r _ _ _ _ _ F2 Hj) as (r & _ & JS).
    apply (holds_sane_job v e (request_config v r) (request_msg r)). unfold job_state in JS. destruct (at_birth v r); auto. }
  rewrite L in X. destruct (hash_unwound v e jobs l FS X) as (left & hurt & U & L' & ND & K & T & H & FS').
  exists jobs, left, hurt. split; [exact E|]. split; [exact U|]. split; [lia|]. split; [exact ND|]. split; [exact K|].
  assert (IN : forall i, In i hurt -> In i (map fst l)).
  { intros i Hi. destruct (H i Hi) as (x & _ & _ & _ & I & _). apply (in_map fst) in I. exact I. }
  split; [exact IN|]. intros i r j Hr Hj. destruct (Forall2_nth_l _ _ _ _ _ F2 Hr) as (j0 & Hj0 & JS). split.
  - intros Hi NH. rewrite T in Hj by exact NH. apply in_map_iff in Hi. destruct Hi as ([i' []] & EI & Hi). cbn [fst] in EI. subst i'.
    unfold hash_result, target_of in Hj. rewrite (find_ref _ _ _ (proj1 X) Hi), Hj0 in Hj. cbn [option_map] in Hj. injection Hj as <-.
    assert (AR : askable e r) by (rewrite Forall_forall in A; apply A; eapply nth_error_In; eauto).
    rewrite hash_alone_spec by exact AR. apply to_hash_complete.
    unfold job_state in JS. destruct (at_birth v r).
    + unfold done, hash_prep. rewrite (cj_fin _ _ _ _ _ JS). exact JS.
    + destruct JS as [W S O AL LN F I LA C P R]. unfold done, hash_prep. rewrite F.
      constructor; cbn [set_hj_finished set_hj_words hj_imp hj_hash_length hj_finished hj_input hj_last_node hj_count hj_words]; auto.
  - intros Hi. destruct (H i Hi) as ([] & j1 & j' & w & A1 & A2 & A3 & A4 & A5 & A6).
    rewrite Hj in A4. injection A4 as <-. rewrite Hj0 in A2. injection A2 as <-.
    unfold hash_result, target_of in A5. rewrite (find_ref _ _ _ (proj1 X) A1), Hj0 in A5. cbn [option_map] in A5.
    unfold job_state in JS. destruct (at_birth v r); [rewrite (cj_fin _ _ _ _ _ JS) in A3; discriminate|].
    unfold done, hash_prep in A5. rewrite A3 in A5.
    apply (under_way_hash v e _ _ j0); auto.
    + rewrite Forall_forall in FS'. apply (FS' j). eapply nth_error_In; eauto.
    + apply (f_equal (option_map hj_finished)) in A5. cbn in A5. congruence.
    + apply (f_equal (option_map hj_hash_length)) in A5. cbn in A5. congruence.
Qed.

(** *** Going on *)
Lemma fold_left_map {X Y Z} (g : Z -> X -> Z) (h : Y -> X) l : forall z,
  fold_left g (map h l) z = fold_left (fun z y => g z (h y)) l z.
Proof. induction l as [|y l IH]; intros z; [reflexivity|]. cbn. apply IH. Qed.
Lemma fold_left_ext {X Z} (g h : Z -> X -> Z) l : (forall z x, g z x = h z x) -> forall z, fold_left g l z = fold_left h l z.
Proof. intros E. induction l as [|y l IH]; intros z; [reflexivity|]. cbn. rewrite E. apply IH. Qed.

Lemma skipn_all_app {X} (d z : list X) n : length d = n -> skipn n (d ++ z) = z.
Proof. intros <-. rewrite skipn_app, skipn_all, Nat.sub_diag. reflexivity. Qed.

Lemma words_of_bytes v w : words_ok v w -> words_of (fl v) (Spec.words_to_bytes (fl v) w) = w.
Proof.
  intros [L F]. unfold words_of. rewrite <- L. clear L. induction F as [|x w X F IH]; [reflexivity|].
  cbn [length seq map Spec.words_to_bytes flat_map]. f_equal.
  - unfold Spec.word. cbn [Nat.mul skipn]. rewrite firstn_app, encode_length, Nat.sub_diag. cbn [firstn].
    rewrite app_nil_r, firstn_all2 by (rewrite encode_length; lia). rewrite decode_from_le, decode_encode; [reflexivity|].
    destruct v; cbn in *; exact X.
  - rewrite <- seq_shift, map_map. rewrite <- IH at 2. apply map_ext. intros i. unfold Spec.word. f_equal. f_equal.
    change (S i * Spec.word_len (fl v))%nat with (Spec.word_len (fl v) + i * Spec.word_len (fl v))%nat.
    rewrite <- skipn_skipn_add. rewrite skipn_all_app by apply encode_length. reflexivity.
Qed.

Lemma num_blocks_app v d z K : length d = (K * blockbytes v)%nat -> z <> [] ->
  Spec.num_blocks (fl v) (d ++ z) = (K + Spec.num_blocks (fl v) z)%nat.
Proof.
  intros L NE. assert (0 < length z)%nat by (destruct z; [congruence|cbn; lia]). pose proof (blockbytes_pos v) as BP.
  destruct (last_start v (length z)) as (n & En & H1 & H2). cbv zeta in *.
  rewrite (num_blocks_k v z n (length z - n * blockbytes v)) by lia.
  rewrite (num_blocks_k v (d ++ z) (K + n) (length z - n * blockbytes v)) by (rewrite ?app_length; lia). lia.
Qed.

Lemma block_shift v d z K i : length d = (K * blockbytes v)%nat ->
  Spec.block (fl v) (d ++ z) (K + i) = Spec.block (fl v) z i.
Proof.
  intros L. rewrite !block_front. rewrite Nat.mul_add_distr_r, <- skipn_skipn_add.
  rewrite (skipn_all_app d z) by exact L. reflexivity.
Qed.

Theorem go_on_right v h d K z ln : words_ok v h -> length d = (K * blockbytes v)%nat -> z <> [] ->
  Spec.words_to_bytes (fl v) (Spec.hash_words (fl v) h (d ++ z) ln) =
  go_on (fl v) (Spec.words_to_bytes (fl v) (absorb (fl v) h d K)) (K * blockbytes v) z ln.
Proof.
  intros O L NE. unfold go_on, Spec.hash_words. cbv zeta.
  rewrite words_of_bytes by (rewrite absorb_chain; apply chain_ok; exact O).
  rewrite (num_blocks_app v d z K L NE).
  assert (N1 : (1 <= Spec.num_blocks (fl v) z)%nat) by (unfold Spec.num_blocks; lia).
  replace (K + Spec.num_blocks (fl v) z - 1)%nat with (K + (Spec.num_blocks (fl v) z - 1))%nat by lia.
  rewrite block_shift by exact L. rewrite seq_app, fold_left_app. f_equal. f_equal.
  - rewrite block_len_fl. fold (chain v (d ++ z) h 0 K). rewrite chain_app by lia. rewrite absorb_chain. cbn [Nat.add].
    assert (SM : forall n, seq K n = map (Nat.add K) (seq 0 n)).
    { clear. intros n. revert K. induction n as [|n IH]; intros K; [reflexivity|]. cbn [seq map]. rewrite Nat.add_0_r. f_equal.
      rewrite IH, (IH 1%nat), map_map. apply map_ext. intros. lia. }
    rewrite SM, fold_left_map. apply fold_left_ext. intros g i. rewrite block_shift by exact L. do 2 f_equal. lia.
  - rewrite app_length, L. reflexivity.
Qed.

Lemma digest_goes_on v c msg k z : wf_config (fl v) c ->
  Spec.digest_length (ApiSpec.c_params c) = N.of_nat (Spec.max_out (fl v)) ->
  (k * Spec.block_len (fl v) <= length msg)%nat -> z <> [] ->
  ApiSpec.digest (fl v) c (firstn (k * Spec.block_len (fl v)) msg ++ z) =
  go_on (fl v) (Spec.words_to_bytes (fl v) (midstate (fl v) c msg k)) ((key_blocks c + k) * Spec.block_len (fl v)) z (ApiSpec.c_last_node c).
Proof.
  intros W DL K NE. rewrite block_len_fl in *. set (h0 := Spec.initial_state (fl v) (ApiSpec.c_params c)).
  assert (O : words_ok v h0) by apply initial_state_ok.
  unfold ApiSpec.digest, Spec.blake2. rewrite DL, Nat2N.id, data_app.
  set (p := firstn (k * blockbytes v) msg). assert (LP : length p = (k * blockbytes v)%nat) by (apply firstn_length_le; exact K).
  assert (LD : length (Spec.data (fl v) (ApiSpec.c_key c) p) = ((key_blocks c + k) * blockbytes v)%nat).
  { rewrite data_length by exact W. rewrite key_bytes_blocks, LP. lia. }
  fold h0. rewrite firstn_all2.
  2: { rewrite <- words_to_bytes_eq, words_to_bytes_length by (apply hash_words_ok, O). rewrite max_out_fl. lia. }
  rewrite (go_on_right v h0 _ _ z _ O LD NE). f_equal. f_equal. unfold midstate. fold h0. rewrite !absorb_chain.
  rewrite <- (firstn_skipn (k * blockbytes v) msg), data_app. fold p. symmetry. apply chain_app. lia.
Qed.

(** *** One pull *)
Lemma one_fill {C A} (prep : A -> C -> outcome (C * prepared)) v a (c c' : C) p n :
  (2 <= n)%nat -> prep a c = Ret (c', Some p) ->
  ufill prep v n {| i_peeked := Some (0%nat, a); i_src := []; i_done := false; i_calls := 1 |} [c] [] = Unwound [c'].
Proof.
  intros D E. destruct p as [[input count] ln]. destruct n as [|[|n]]; try lia.
  cbn [ufill unext i_done i_peeked]. unfold start, cell. cbn [nth_error bind]. rewrite E. cbn [bind].
  destruct v; reflexivity.
Qed.

Lemma one_batch {C A} (get : C -> list N) (put : C -> list N -> C) (prep : A -> C -> outcome (C * prepared))
    v e loop n f a c c' p :
  (2 <= n)%nat -> prep a c = Ret (c', Some p) ->
  ubatch_loop get put prep v e loop n (S f)
    {| i_peeked := Some (0%nat, a); i_src := []; i_done := false; i_calls := 1 |} [c] [] = Unwound [c'].
Proof.
  intros D E. cbn [ubatch_loop length]. rewrite Nat.sub_0_r, (one_fill prep v a c c' p n D E). reflexivity.
Qed.

Lemma one_pull {C A} (get : C -> list N) (put : C -> list N -> C) (prep : A -> C -> outcome (C * prepared))
    v e imp fin a c c' p :
  (2 <= degree v imp)%nat -> prep a c = Ret (c', Some p) ->
  ucompress_many get put prep v e imp fin Serial
    {| i_peeked := Some (0%nat, a); i_src := []; i_done := false; i_calls := 1 |} [c] = Unwound [c'].
Proof.
  intros D E. unfold ucompress_many. cbn [i_src length Nat.add].
  assert (W : (2 <= wide v)%nat) by (destruct v; cbn; lia).
  assert (Nn : (2 <= narrow v)%nat) by (destruct v; cbn; lia).
  destruct (Nat.leb_spec (wide v) (degree v imp)) as [Lw|Lw].
  - rewrite (one_batch get put prep v e _ (wide v) _ a c c' p W E). reflexivity.
  - cbn [ubind length Nat.add]. assert (Ln : Nat.leb (narrow v) (degree v imp) = true).
    { apply Nat.leb_le. destruct v, imp; cbn in *; lia. }
    rewrite Ln, (one_batch get put prep v e _ (narrow v) _ a c c' p Nn E). reflexivity.
Qed.

Theorem one_job_leaks v e imp ss msg : askable e (imp, ss, msg) -> (2 <= degree v imp)%nat ->
  let c := ApiSpec.configure (fl v) ss (ApiSpec.default_config (fl v)) in
  (ApiSpec.c_key c = [] \/ msg <> []) ->
  exists j j', make_job v e (imp, ss, msg) = Ret j /\
    hash_many_unwinding v e [j] (panics_after [(0%nat, tt)]) = Unwound [j'] /\
    to_hash v e j' = Ret {| h_bytes := Spec.words_to_bytes (fl v) (midstate (fl v) c msg 0);
                            h_len := Spec.digest_length (ApiSpec.c_params c) |}.
Proof.
  intros [S T] D c NB. cbn [make_job]. rewrite build_spec.
  destruct (job_new_spec v e imp c msg) as (j & EJ & IM & _ & PC & FN); auto. { apply build_wf; auto. }
  fold c. rewrite EJ. exists j, (set_hj_finished true j). split; [reflexivity|].
  assert (F : hj_finished j = false).
  { rewrite FN. unfold keyed. destruct NB as [->|NE]; [reflexivity|]. destruct msg; [congruence|]. apply andb_false_r. }
  destruct PC as [P|P]; [|rewrite (cj_fin _ _ _ _ _ P) in F; discriminate]. split.
  - unfold hash_many_unwinding. cbn [panics_after map peek i_peeked]. unfold cell. cbn [nth_error inside ubind].
    rewrite (one_pull hj_words _ hash_prep v e (hj_imp j) true tt j (set_hj_finished true j) (hj_input j, hj_count j, hj_last_node j)).
    + reflexivity.
    + rewrite IM. exact D.
    + unfold hash_prep. rewrite F. reflexivity.
  - rewrite to_hash_of by (try reflexivity; apply P). cbn [set_hj_finished hj_words hj_hash_length].
    rewrite (proj1 (pending_start v e c msg j P)), (pj_len _ _ _ _ _ P). unfold midstate. rewrite absorb_chain, Nat.add_0_r. reflexivity.
Qed.

(** *** States *)
Lemma update_prep_job v e c msg s x s' input count ln : holds v e c msg s ->
  update_prep v e x s = Ret (s', Some (input, count, ln)) ->
  let d := Spec.data (fl v) (ApiSpec.c_key c) (msg ++ x) in
  exists k n, s_words s' = chain v d (Spec.initial_state (fl v) (ApiSpec.c_params c)) 0 k /\
    count = N.of_nat (k * blockbytes v) mod cmod v /\
    input = firstn (S n * blockbytes v) (skipn (k * blockbytes v) d) /\ length input = (S n * blockbytes v)%nat /\
    (length (Spec.data (fl v) (ApiSpec.c_key c) msg) <= k * blockbytes v)%nat /\
    ((k + S n) * blockbytes v < length d <= (k + S n) * blockbytes v + blockbytes v)%nat.
Proof.
  intros [W SU (k & A & NE) L H K] E.
  set (h0 := Spec.initial_state (fl v) (ApiSpec.c_params c)) in *.
  set (d := Spec.data (fl v) (ApiSpec.c_key c) msg) in *. cbv zeta.
  assert (DA : Spec.data (fl v) (ApiSpec.c_key c) (msg ++ x) = d ++ x) by apply data_app.
  rewrite DA. clear DA. unfold update_prep in E.
  destruct (compress_buffer_spec v e h0 d k s x SU A) as (s1 & t & k1 & E1 & Lt & A1 & _ & _ & Nem).
  rewrite E1 in E. cbn [bind] in E. clear E1.
  assert (EX : (d ++ firstn t x) ++ skipn t x = d ++ x).
  { rewrite <- app_assoc. f_equal. apply firstn_skipn. }
  assert (LDD : (length d <= length (d ++ firstn t x))%nat) by (rewrite app_length; lia).
  set (d1 := d ++ firstn t x) in *. clearbody d1.
  destruct (skipn t x) as [|b r] eqn:Y; [discriminate|].
  specialize (Nem ltac:(congruence)). set (y := b :: r) in *.
  assert (Ly : (0 < length y)%nat) by (unfold y; cbn [length]; lia). clearbody y. clear Y.
  destruct (last_start v (length y)) as (n & En & H1 & H2). cbv zeta in En, H1, H2, E.
  set (en := ((length y - 1) - (length y - 1) mod blockbytes v)%nat) in *. clearbody en.
  pose proof (blockbytes_pos v) as BP.
  rewrite slice0_ok in E by lia. cbn [bind] in E. rewrite slice_from_ok in E by lia. cbn [bind] in E.
  destruct A1 as [A1 A2 A3 A4 A5 A6 A7].
  rewrite copy_into_ok in E by (rewrite skipn_length; lia). cbn [bind] in E.
  assert (L1 : length d1 = (k1 * blockbytes v)%nat) by lia.
  destruct (firstn en y) as [|b0 bs] eqn:FB; [discriminate|].
  assert (Lbl : length (b0 :: bs) = en) by (rewrite <- FB, firstn_length; lia).
  destruct n as [|n]; [cbn [length] in Lbl; lia|].
  injection E as <- <- <- _. cbn [set_s_count set_s_buflen set_s_buf s_words s_count].
  exists k1, n. rewrite <- EX. split; [|split; [|split; [|split; [|split]]]].
  - rewrite A1. symmetry. apply chain_app. lia.
  - exact A2.
  - rewrite (skipn_all_app d1 y) by exact L1. rewrite <- FB, En. reflexivity.
  - lia.
  - lia.
  - rewrite app_length, L1. nia.
Qed.

Lemma finalize_cut v e c msg s w : holds v e c msg s -> words_ok v w ->
  let d := Spec.data (fl v) (ApiSpec.c_key c) msg in
  finalize v e (set_s_words w s) =
    Ret {| h_bytes := Spec.words_to_bytes (fl v)
             (Spec.F (fl v) w (Spec.block (fl v) d (Spec.num_blocks (fl v) d - 1)) (N.of_nat (length d)) true (ApiSpec.c_last_node c));
           h_len := Spec.digest_length (ApiSpec.c_params c) |}.
Proof.
  intros [W SU (k & A & NE) L H K] O. cbv zeta.
  set (d := Spec.data (fl v) (ApiSpec.c_key c) msg) in *. destruct A as [A1 A2 A3 A4 A5 A6 A7].
  unfold finalize. cbn [set_s_words s_buf s_buflen s_imp s_words s_count s_last_node s_hash_length].
  rewrite slice0_ok by lia. cbn [bind]. rewrite A4, A2.
  assert (AL : aligned v (N.of_nat (k * blockbytes v) mod cmod v)) by apply aligned_blocks.
  rewrite compress1_loop_spec; auto; [|left; reflexivity]. cbn [bind].
  assert (LS : length (skipn (k * blockbytes v) d) = s_buflen s) by (rewrite skipn_length; lia).
  rewrite C1_last by (rewrite LS; cbn [padded_blockbytes]; lia).
  rewrite words_to_bytes_eq by (apply fin_step_ok; exact O). rewrite H. do 3 f_equal.
  unfold fin_step, fin_count. rewrite LS, Nat.min_r by lia. rewrite count_step, F_count_mod, L.
  rewrite (num_blocks_k v d k (s_buflen s)) by lia. replace (S k - 1)%nat with k by lia.
  rewrite block_front. cbn [andb]. f_equal. lia.
Qed.

Lemma shown_cut v c msg w e s : holds v e c msg s -> words_ok v w ->
  let d := Spec.data (fl v) (ApiSpec.c_key c) msg in
  snd (do_op v e (set_s_words w s) History.DoFinalize) = Machine.Bytes
    (firstn (N.to_nat (Spec.digest_length (ApiSpec.c_params c))) (Spec.words_to_bytes (fl v)
       (Spec.F (fl v) w (Spec.block (fl v) d (Spec.num_blocks (fl v) d - 1)) (N.of_nat (length d)) true (ApiSpec.c_last_node c)))).
Proof.
  intros H O. cbv zeta. cbn [do_op]. rewrite (finalize_cut v e c msg s w H O). cbn [bind]. unfold as_bytes. cbn [h_bytes h_len].
  rewrite slice0_ok; [reflexivity|]. rewrite <- words_to_bytes_eq, words_to_bytes_length by (apply F_ok, O).
  pose proof (wf_digest _ _ (hd_wf _ _ _ _ _ H)) as X. rewrite max_out_fl in X. lia.
Qed.

Lemma steps_firstn v m : forall n i ws c, (m * blockbytes v <= n * blockbytes v)%nat ->
  snd (fst (steps v Serial m (firstn (n * blockbytes v) i) ws c)) = snd (fst (steps v Serial m i ws c)).
Proof.
  induction m as [|m IH]; intros n i ws c L; [reflexivity|].
  destruct n as [|n]; [pose proof (blockbytes_pos v); lia|].
  cbn [steps padded_blockbytes]. unfold mid_step. rewrite front_firstn by lia.
  rewrite skipn_firstn_comm. replace (S n * blockbytes v - blockbytes v)%nat with (n * blockbytes v)%nat by lia.
  apply IH. lia.
Qed.

Lemma under_way_shown v e c msg s x s' w : holds v e c msg s ->
  done s_words (fun s ws => set_s_words ws s) (update_prep v e) v false Serial x s = set_s_words w s' ->
  words_ok v (s_words s') -> under_way s_words (update_prep v e) v Serial x s (s_words s') ->
  exists k, (length (Spec.data (fl v) (ApiSpec.c_key c) msg) <= k * Spec.block_len (fl v))%nat /\
    (k + 1 < Spec.num_blocks (fl v) (Spec.data (fl v) (ApiSpec.c_key c) (msg ++ x)))%nat /\
    snd (do_op v e s' History.DoFinalize) = Machine.Bytes (cut_digest (fl v) c (msg ++ x) k).
Proof.
  intros H D O (c' & input & count & ln & m & E & Sx & M).
  destruct (update_prep_spec v e c msg s x H) as (_ & HD & _).
  destruct (update_prep_job v e c msg s x c' input count ln H E) as (k & n & A1 & A2 & A3 & A4 & A5 & A6). cbv zeta in *.
  set (d := Spec.data (fl v) (ApiSpec.c_key c) (msg ++ x)) in *.
  set (h0 := Spec.initial_state (fl v) (ApiSpec.c_params c)) in *.
  pose proof (blockbytes_pos v) as BP.
  assert (Mn : (m <= n)%nat). { cbn [padded_blockbytes] in M. destruct M as [->|M]; [lia|]. rewrite A4 in M. nia. }
  assert (G : s_words s' = chain v d h0 0 (k + m)).
  { rewrite <- Sx, A1, A2, A3.
    rewrite steps_firstn by nia. rewrite steps_chain, chain_add. reflexivity. }
  exists (k + m)%nat. rewrite block_len_fl. split; [nia|].
  rewrite (num_blocks_k v d (k + S n) (length d - (k + S n) * blockbytes v)) by lia. split; [lia|].
  rewrite D in HD.
  replace s' with (set_s_words (s_words s') (set_s_words w s')) by (destruct s'; reflexivity).
  rewrite (shown_cut v c (msg ++ x) (s_words s') e (set_s_words w s') HD O). cbv zeta. fold d.
  unfold cut_digest. fold d h0. rewrite absorb_chain, G. reflexivity.
Qed.

Definition use_config (v : variant) (u : used) : ApiSpec.config :=
  let '(_, ss, pre) := u in History.flagged (ApiSpec.configure (fl v) ss (ApiSpec.default_config (fl v))) pre.
Definition use_fed (u : used) : list byte := let '(_, _, pre) := u in History.fed pre.

Lemma use_holds v e u : usable e u -> holds v e (use_config v u) (use_fed u) (use v e u).
Proof.
  destruct u as [[imp ss] pre]. intros [S T]. cbn [use use_config use_fed].
  apply (after_holds v e _ [] (to_state v (build v imp ss)) pre). apply new_holds; auto.
Qed.

Theorem update_casualties v e us l : Forall (usable e) us -> exclusive (length us) l ->
  exists left hurt, update_many_unwinding v e (map (use v e) us) (panics_after l) = Unwound left /\
    length left = length us /\ NoDup hurt /\ (length hurt < lanes v s_imp (map (use v e) us) l)%nat /\
    (forall i, In i hurt -> In i (map fst l)) /\
    forall i u x s, nth_error us i = Some u -> In (i, x) l -> nth_error left i = Some s ->
      let c := use_config v u in
      let shown := snd (do_op v e s History.DoFinalize) in
      (~ In i hurt -> shown = Machine.Bytes (ApiSpec.digest (fl v) c (use_fed u ++ x))) /\
      (In i hurt -> exists k,
         (length (Spec.data (fl v) (ApiSpec.c_key c) (use_fed u)) <= k * Spec.block_len (fl v))%nat /\
         (k + 1 < Spec.num_blocks (fl v) (Spec.data (fl v) (ApiSpec.c_key c) (use_fed u ++ x)))%nat /\
         shown = Machine.Bytes (cut_digest (fl v) c (use_fed u ++ x) k)).
Proof.
  intros A X.
  assert (FS : Forall (sane v e) (map (use v e) us)).
  { apply Forall_forall. intros s Hs. apply in_map_iff in Hs. destruct Hs as (u & <- & Hu). rewrite Forall_forall in A.
    apply (holds_sane v e _ _ _ (use_holds v e u (A u Hu))). }
  rewrite <- (map_length (use v e)) in X. destruct (update_unwound v e _ l FS X) as (left & hurt & U & L' & ND & K & T & H & FS').
  exists left, hurt. split; [exact U|]. split; [rewrite map_length in L'; exact L'|]. split; [exact ND|]. split; [exact K|].
  split. { intros i Hi. destruct (H i Hi) as (x & _ & _ & I & _). apply (in_map fst) in I. exact I. }
  intros i u x s Hu Hx Hs. cbv zeta.
  assert (HU : holds v e (use_config v u) (use_fed u) (use v e u)).
  { apply use_holds. rewrite Forall_forall in A. apply A. eapply nth_error_In; eauto. }
  assert (TG : update_result v e l (map (use v e) us) i =
    Some (done s_words (fun s ws => set_s_words ws s) (update_prep v e) v false Serial x (use v e u))).
  { unfold update_result, target_of. rewrite (find_ref _ _ _ (proj1 X) Hx), (map_nth_error (use v e) _ _ Hu). reflexivity. }
  split.
  - intros NH. rewrite T, TG in Hs by exact NH. injection Hs as <-.
    destruct (update_prep_spec v e _ _ _ x HU) as (_ & HD & _).
    destruct (do_op_holds _ _ _ _ _ History.DoFinalize HD) as (s' & E & _). rewrite E. reflexivity.
  - intros HI. destruct (H i HI) as (x' & s' & w & A1 & A2 & A3 & A4 & s0 & A5 & A6).
    assert (x' = x).
    { pose proof (find_ref _ _ _ (proj1 X) A1) as F1. pose proof (find_ref _ _ _ (proj1 X) Hx) as F2. congruence. }
    subst x'. rewrite Hs in A3. injection A3 as <-. rewrite TG in A4. injection A4 as A4.
    rewrite (map_nth_error (use v e) _ _ Hu) in A5. injection A5 as <-.
    apply (under_way_shown v e _ _ (use v e u) x s w HU A4); [|exact A6].
    rewrite Forall_forall in FS'. apply (FS' s). eapply nth_error_In; eauto.
Qed.

(** *** One State whose batch is interrupted at the second item *)
Lemma whole_buffer_rest v e h0 d k s x s1 y : absorbed v h0 d k s ->
  (s_buflen s = 0 \/ s_buflen s = blockbytes v)%nat ->
  compress_buffer_if_possible v e s x = Ret (s1, y) -> y = x.
Proof.
  intros A B E. unfold compress_buffer_if_possible in E.
  destruct (Nat.ltb_spec 0 (s_buflen s)) as [Pos|Zero]; [|congruence].
  destruct B as [B|B]; [lia|].
  destruct (fill_buf_spec v e h0 d k s x A) as (s' & F & _). cbv zeta in F.
  rewrite B, Nat.sub_diag in F. cbn [Nat.min skipn] in F. rewrite F in E. cbn [bind] in E.
  destruct x; [congruence|]. destruct (compress1_loop v e _ _ _ _ _ _ _); cbn [bind] in E; congruence.
Qed.

Lemma fresh_buffer v e c s : holds v e c [] s ->
  (length (Spec.data (fl v) (ApiSpec.c_key c) []) = key_blocks c * blockbytes v)%nat /\
  (s_buflen s = 0 \/ s_buflen s = blockbytes v)%nat.
Proof.
  intros [W _ (k & A & NE) _ _ _]. pose proof (ab_len _ _ _ _ _ A) as L. pose proof (ab_le _ _ _ _ _ A) as LE.
  pose proof (blockbytes_pos v) as BP.
  assert (D : length (Spec.data (fl v) (ApiSpec.c_key c) []) = (key_blocks c * blockbytes v)%nat).
  { pose proof (keyed_pad_length v c W) as KL. unfold Spec.data, key_blocks in *. rewrite block_len_fl.
    destruct (ApiSpec.c_key c) as [|b r]; [reflexivity|]. rewrite app_nil_r, KL. lia. }
  split; [exact D|]. rewrite D in L. destruct k as [|k]; [|specialize (NE ltac:(lia))]; unfold key_blocks in *; destruct (ApiSpec.c_key c); nia.
Qed.

Lemma update_prep_fresh v e c s x : holds v e c [] s -> (blockbytes v < length x)%nat ->
  exists s' p, update_prep v e x s = Ret (s', Some p) /\
    s_words s' = chain v (Spec.data (fl v) (ApiSpec.c_key c) x) (Spec.initial_state (fl v) (ApiSpec.c_params c)) 0 (key_blocks c).
Proof.
  intros HH Lx. destruct (fresh_buffer v e c s HH) as [LD BL]. destruct HH as [W SU (k & A & NE) L H K].
  set (h0 := Spec.initial_state (fl v) (ApiSpec.c_params c)) in *.
  set (d := Spec.data (fl v) (ApiSpec.c_key c) []) in *.
  assert (DA : Spec.data (fl v) (ApiSpec.c_key c) x = d ++ x) by apply (data_app (fl v) (ApiSpec.c_key c) [] x).
  rewrite DA. clear DA. unfold update_prep.
  destruct (compress_buffer_spec v e h0 d k s x SU A) as (s1 & t & k1 & E1 & Lt & A1 & _ & _ & Nem).
  pose proof (whole_buffer_rest v e h0 d k s x _ _ A BL E1) as R.
  rewrite E1. cbn [bind]. clear E1.
  assert (t = 0%nat). { pose proof (skipn_length t x) as SL. rewrite R in SL. pose proof (blockbytes_pos v). lia. }
  subst t. cbn [skipn firstn] in *. rewrite app_nil_r in A1.
  destruct x as [|b r]; [cbn [length] in Lx; lia|]. specialize (Nem ltac:(congruence)). set (y := b :: r) in *. clearbody y.
  destruct (last_start v (length y)) as (n & En & H1 & H2). cbv zeta in En, H1, H2.
  set (en := ((length y - 1) - (length y - 1) mod blockbytes v)%nat) in *. clearbody en.
  pose proof (blockbytes_pos v) as BP.
  rewrite slice0_ok by lia. cbn [bind]. rewrite slice_from_ok by lia. cbn [bind].
  destruct A1 as [A1 A2 A3 A4 A5 A6 A7].
  rewrite copy_into_ok by (rewrite skipn_length; lia). cbn [bind].
  destruct (firstn en y) as [|b0 bs] eqn:FB.
  { apply (f_equal (@length byte)) in FB. rewrite firstn_length in FB. cbn [length] in FB. lia. }
  eexists _, _. split; [reflexivity|]. cbn [set_s_count set_s_buflen set_s_buf s_words].
  rewrite A1. assert (k1 = key_blocks c) as -> by nia. symmetry. apply chain_app. lia.
Qed.

Theorem one_state_cut v e imp ss x : supported e imp -> Forall ApiSpec.typed ss -> (2 <= degree v imp)%nat ->
  (Spec.block_len (fl v) < length x)%nat ->
  let c := ApiSpec.configure (fl v) ss (ApiSpec.default_config (fl v)) in
  exists s, update_many_unwinding v e [to_state v (build v imp ss)] (panics_after [(0%nat, x)]) = Unwound [s] /\
    snd (do_op v e s History.DoFinalize) = Machine.Bytes (cut_digest (fl v) c x (key_blocks c)).
Proof.
  intros S T D Lx c. set (s0 := to_state v (build v imp ss)). rewrite block_len_fl in Lx.
  assert (H : holds v e c [] s0) by (apply new_holds; auto).
  assert (IM : s_imp s0 = imp).
  { unfold s0. rewrite build_spec. unfold to_state, with_params. cbv zeta. destruct (N.ltb _ _); reflexivity. }
  destruct (update_prep_spec v e c [] s0 x H) as (PG & HD & _). cbn [app] in HD.
  destruct (update_prep_fresh v e c s0 x H Lx) as (s' & p & E & Wd). exists s'. split.
  - unfold update_many_unwinding. cbn [panics_after map peek i_peeked]. unfold cell. cbn [nth_error inside ubind].
    rewrite (one_pull s_words _ (update_prep v e) v e (s_imp s0) false x s0 s' p); [reflexivity|rewrite IM; exact D|exact E].
  - unfold done in HD. unfold prep_good in PG. rewrite E in HD, PG. destruct p as [[input count] ln].
    match type of HD with holds _ _ _ _ (set_s_words ?w _) => set (w0 := w) in HD end.
    replace s' with (set_s_words (s_words s') (set_s_words w0 s')) by (destruct s'; reflexivity).
    rewrite (shown_cut v c x (s_words s') e (set_s_words w0 s') HD); [|apply PG].
    unfold cut_digest. rewrite absorb_chain, <- Wd. reflexivity.
Qed.

(** *** What is left out does not count *)
Lemma data_nil_length v c : wf_config (fl v) c ->
  length (Spec.data (fl v) (ApiSpec.c_key c) []) = (key_blocks c * blockbytes v)%nat.
Proof.
  intros W. pose proof (keyed_pad_length v c W) as KL. unfold Spec.data, key_blocks in *. rewrite block_len_fl.
  destruct (ApiSpec.c_key c) as [|b r]; [reflexivity|]. rewrite app_nil_r, KL. lia.
Qed.

Lemma cut_digest_tail v c a b z n : wf_config (fl v) c -> length a = length b ->
  length a = (n * blockbytes v)%nat -> z <> [] ->
  cut_digest (fl v) c (a ++ z) (key_blocks c) = cut_digest (fl v) c (b ++ z) (key_blocks c).
Proof.
  intros W LL La NE. set (p := Spec.data (fl v) (ApiSpec.c_key c) []).
  assert (Lp : length p = (key_blocks c * blockbytes v)%nat) by apply data_nil_length, W.
  assert (D : forall y, Spec.data (fl v) (ApiSpec.c_key c) y = p ++ y) by (intros y; apply (data_app _ _ [] y)).
  unfold cut_digest. cbv zeta. rewrite !D, !absorb_chain, !(chain_app v p _ _ 0) by lia.
  rewrite !app_assoc. rewrite !(num_blocks_app v _ z (key_blocks c + n)) by (try exact NE; rewrite app_length; lia).
  assert (N1 : (1 <= Spec.num_blocks (fl v) z)%nat) by (unfold Spec.num_blocks; lia).
  replace (key_blocks c + n + Spec.num_blocks (fl v) z - 1)%nat with (key_blocks c + n + (Spec.num_blocks (fl v) z - 1))%nat by lia.
  rewrite !(block_shift v _ z (key_blocks c + n)) by (rewrite app_length; lia).
  rewrite !app_length, LL. reflexivity.
Qed.
