(** update_many and hash_many: every object ends up as if processed alone. *)
From Coq Require Import ZArith Arith NArith List Bool Lia ZifyBool ZifyNat ZifyN.
From Verif Require Import Base ByteLemmas Guts Portable KernelSpec Simd Impl Loops LaneLoops Sched SchedProof
  Lib StateProof ParamsProof FedProof Many.
From Verif Require Spec ApiSpec.
Import ListNotations.
Open Scope N_scope.

Lemma bb_divides_cmod v : exists q, cmod v = N.of_nat (blockbytes v) * q.
Proof. destruct v; [exists (2 ^ 121)|exists (2 ^ 58)]; reflexivity. Qed.

Lemma aligned_blocks v k : aligned v (N.of_nat (k * blockbytes v) mod cmod v).
Proof.
  split; [apply N.mod_lt, cmod_nz|]. destruct (bb_divides_cmod v) as (q & E).
  assert (NZ := cmod_nz v). rewrite E in *. pose proof (blockbytes_pos v) as BP.
  rewrite N.mod_mul_r by nia. rewrite N.mul_comm, N.mod_add, N.mod_mod by lia.
  rewrite Nat2N.inj_mul. apply N.mod_mul. lia.
Qed.

(** *** The closure of update_many *)
Lemma update_prep_spec v e c msg s x : holds v e c msg s ->
  prep_good s_words (update_prep v e) v false x s /\
  holds v e c (msg ++ x) (done s_words (fun s ws => set_s_words ws s) (update_prep v e) v false Serial x s) /\
  s_imp (done s_words (fun s ws => set_s_words ws s) (update_prep v e) v false Serial x s) = s_imp s.
Proof.
  intros [W SU (k & A & NE) L H K].
  set (h0 := Spec.initial_state (fl v) (ApiSpec.c_params c)) in *.
  set (d := Spec.data (fl v) (ApiSpec.c_key c) msg) in *.
  assert (DA : Spec.data (fl v) (ApiSpec.c_key c) (msg ++ x) = d ++ x) by apply data_app.
  unfold prep_good, done, update_prep.
  destruct (compress_buffer_spec v e h0 d k s x SU A) as (s1 & t & k1 & E & Lt & A1 & (C1' & C2 & C3 & C4) & Em & Nem).
  rewrite E. cbn [bind]. clear E.
  assert (EX : (d ++ firstn t x) ++ skipn t x = d ++ x).
  { rewrite <- app_assoc. f_equal. apply firstn_skipn. }
  set (d1 := d ++ firstn t x) in *. clearbody d1.
  destruct (skipn t x) as [|b r] eqn:Y.
  - split; [exact I|]. split; [|congruence]. constructor; try congruence.
    + exists k1. fold h0. rewrite DA, <- EX, app_nil_r. split; auto.
  - specialize (Nem ltac:(congruence)). set (y := b :: r) in *.
    assert (Ly : (0 < length y)%nat) by (unfold y; cbn [length]; lia). clearbody y. clear Y.
    destruct (last_start v (length y)) as (n & En & H1 & H2). cbv zeta in En, H1, H2.
    set (en := ((length y - 1) - (length y - 1) mod blockbytes v)%nat) in *. clearbody en.
    pose proof (blockbytes_pos v) as BP. pose proof (bb_lt_256 v) as B256.
    rewrite slice0_ok by lia. cbn [bind]. rewrite slice_from_ok by lia. cbn [bind].
    assert (Ll : length (skipn en y) = (length y - en)%nat) by apply skipn_length.
    destruct A1 as [A1 A2 A3 A4 A5 A6 A7].
    rewrite copy_into_ok by lia. cbn [bind firstn app Nat.add]. rewrite as_u8_id by lia.
    assert (Lb : length (skipn en y ++ skipn (length (skipn en y)) (s_buf s1)) = blockbytes v).
    { rewrite app_length, !skipn_length. lia. }
    assert (Fb : firstn (length (skipn en y)) (skipn en y ++ skipn (length (skipn en y)) (s_buf s1)) = skipn en y).
    { rewrite firstn_app, Nat.sub_diag, firstn_all. cbn [firstn]. apply app_nil_r. }
    assert (L1 : length d1 = (k1 * blockbytes v)%nat) by lia.
    destruct (firstn en y) as [|b0 bs] eqn:FB.
    + assert (en = 0)%nat. { apply (f_equal (@length byte)) in FB. rewrite firstn_length in FB. cbn in FB. lia. }
      subst en. split; [exact I|]. split; [|stf; congruence]. constructor; stf; try congruence.
      * exists k1. fold h0. rewrite DA, <- EX. split; [|stf; lia]. constructor; stf; auto; try lia.
        -- rewrite A1, chain_app; [reflexivity|lia].
        -- rewrite app_length. lia.
        -- rewrite Fb, H0, skipn_O, skipn_app, skipn_all2, L1, Nat.sub_diag by lia. reflexivity.
    + set (blocks := b0 :: bs) in *.
      assert (Lbl : length blocks = en) by (rewrite <- FB, firstn_length; lia).
      assert (0 < en)%nat by (rewrite <- Lbl; unfold blocks; cbn; lia).
      destruct n as [|n]; [lia|]. clearbody blocks.
      assert (EB : blocks = firstn (S n * blockbytes v) (skipn (k1 * blockbytes v) (d1 ++ y))).
      { rewrite skipn_app, skipn_all2, L1, Nat.sub_diag by lia. cbn [skipn app]. rewrite <- FB, En. reflexivity. }
      stf.
      assert (CH : C1 v Serial false (s_last_node s1) blocks (s_words s1) (s_count s1) = chain v (d1 ++ y) h0 0 (k1 + S n)).
      { rewrite EB, A2, C1_nonfinal by (rewrite app_length; nia).
        rewrite (chain_add v (d1 ++ y) h0 0 k1), A1. cbn [Nat.add]. rewrite (chain_app v d1 y h0 0 k1) by lia. reflexivity. }
      split.
      { repeat split.
        - rewrite A1. apply chain_ok. exact A7.
        - rewrite A1. apply chain_ok. exact A7.
        - cbn [j_count]. rewrite A2. apply aligned_blocks.
        - cbn [j_count]. rewrite A2. apply aligned_blocks.
        - cbn [j_input]. apply (input_ok_full v _ n). lia. }
      split; [|congruence]. constructor; stf; try congruence.
      * exists (k1 + S n)%nat. fold h0. rewrite DA, <- EX. split; [|stf; lia]. constructor; stf; auto; try lia.
        -- rewrite A2, Lbl, count_step. f_equal. f_equal. nia.
        -- rewrite app_length. nia.
        -- rewrite Fb, skipn_app, (skipn_all2 d1) by nia. cbn [app]. f_equal. nia.
Qed.

(** Items before the first end signal. *)
Definition before_end {A} (src : list (option (nat * A))) : list (nat * A) := upto_none src.

Lemma peek_some {A} (src : list (option (nat * A))) r a : i_peeked (peek src) = Some (r, a) ->
  exists rest, src = Some (r, a) :: rest /\
    peek src = {| i_peeked := Some (r, a); i_src := rest; i_done := false; i_calls := 1 |}.
Proof.
  destruct src as [|[p|] rest]; cbn; try discriminate. intros E. injection E as ->. exists rest. auto.
Qed.
Lemma peek_none {A} (src : list (option (nat * A))) : i_peeked (peek src) = None ->
  upto_none src = [] /\ i_calls (peek src) = 1%nat.
Proof. destruct src as [|[p|] rest]; cbn; try discriminate; auto. Qed.

Theorem update_many_spec v e states pairs :
  NoDup (map fst (upto_none pairs)) ->
  (forall r x, In (r, x) (upto_none pairs) ->
     exists s c msg, nth_error states r = Some s /\ holds v e c msg s) ->
  exists states', update_many v e states pairs = Ret (states', S (length (upto_none pairs))) /\
    length states' = length states /\
    (forall r, ~ In r (map fst (upto_none pairs)) -> nth_error states' r = nth_error states r) /\
    (forall r x s c msg, In (r, x) (upto_none pairs) -> nth_error states r = Some s -> holds v e c msg s ->
       exists s', nth_error states' r = Some s' /\ holds v e c (msg ++ x) s' /\ s_imp s' = s_imp s).
Proof.
  intros ND H. unfold update_many.
  destruct (i_peeked (peek pairs)) as [[r0 x0]|] eqn:EP.
  - destruct (peek_some _ _ _ EP) as (rest & -> & EPk). rewrite EPk.
    destruct (H r0 x0 ltac:(left; auto)) as (s0 & c0 & m0 & Hs0 & Hh0).
    unfold cell. rewrite Hs0. cbn [bind].
    destruct (compress_many_spec s_words (fun s ws => set_s_words ws s) (update_prep v e) v e (s_imp s0) false Serial
                ltac:(reflexivity) ltac:(reflexivity)
                {| i_peeked := Some (r0, x0); i_src := rest; i_done := false; i_calls := 1 |} states)
      as (it' & states' & E & _ & Ec & _ & Len & T).
    + apply (hd_sup _ _ _ _ _ Hh0).
    + exact ND.
    + intros r x Hin. destruct (H r x Hin) as (s & c & m & Hs & Hh). exists s. split; auto.
      eapply update_prep_spec; eauto.
    + rewrite E. cbn [bind]. exists states'. rewrite Ec. split; [reflexivity|]. split; [exact Len|].
      change (pend _) with (upto_none (Some (r0, x0) :: rest)) in T.
      split.
      * intros r Hr. rewrite T. unfold target_of. rewrite find_ref_none by auto. reflexivity.
      * intros r x s c m Hin Hs Hh. rewrite T. unfold target_of. rewrite (find_ref _ _ _ ND Hin), Hs.
        cbn [option_map]. eexists. split; [reflexivity|].
        destruct (update_prep_spec v e c m s x Hh) as (_ & G1 & G2). auto.
  - destruct (peek_none _ EP) as (U & Ec). rewrite Ec, U. exists states. split; [reflexivity|].
    split; [reflexivity|]. split; [auto|]. intros ? ? ? ? ? [].
Qed.

(** *** HashManyJob *)
(** The words of a job before its message is hashed. *)
Definition first_words (v : variant) (c : ApiSpec.config) : list N :=
  match ApiSpec.c_key c with
  | [] => Spec.initial_state (fl v) (ApiSpec.c_params c)
  | k => Spec.F (fl v) (Spec.initial_state (fl v) (ApiSpec.c_params c)) (Spec.pad_to (Spec.block_len (fl v)) k)
           (N.of_nat (Spec.block_len (fl v))) false false
  end.
(** A job of configuration c on message msg, not run yet. *)
Record pending (v : variant) (e : env) (c : ApiSpec.config) (msg : list byte) (j : hash_many_job) : Prop := {
  pj_wf : wf_config (fl v) c;
  pj_sup : supported e (hj_imp j);
  pj_words : words_ok v (hj_words j);
  pj_count : aligned v (hj_count j);
  pj_len : hj_hash_length j = Spec.digest_length (ApiSpec.c_params c);
  pj_fin : hj_finished j = false;
  pj_input : hj_input j = msg;
  pj_ln : hj_last_node j = ApiSpec.c_last_node c;
  pj_cnt : hj_count j = N.of_nat (key_bytes v c);
  pj_pre : hj_words j = first_words v c;
  pj_result : C1 v Serial true (hj_last_node j) (hj_input j) (hj_words j) (hj_count j) =
    Spec.hash_words (fl v) (Spec.initial_state (fl v) (ApiSpec.c_params c))
      (Spec.data (fl v) (ApiSpec.c_key c) msg) (ApiSpec.c_last_node c) }.
(** One whose words are final. *)
Record complete (v : variant) (e : env) (c : ApiSpec.config) (msg : list byte) (j : hash_many_job) : Prop := {
  cj_wf : wf_config (fl v) c;
  cj_sup : supported e (hj_imp j);
  cj_len : hj_hash_length j = Spec.digest_length (ApiSpec.c_params c);
  cj_fin : hj_finished j = true;
  cj_input : hj_input j = msg;
  cj_ln : hj_last_node j = ApiSpec.c_last_node c;
  cj_cnt : hj_count j = N.of_nat (key_bytes v c);
  cj_words : hj_words j =
    Spec.hash_words (fl v) (Spec.initial_state (fl v) (ApiSpec.c_params c))
      (Spec.data (fl v) (ApiSpec.c_key c) msg) (ApiSpec.c_last_node c) }.

Lemma hash_words_step v h0 ln b0 rest : words_ok v h0 -> length b0 = blockbytes v -> rest <> [] ->
  C1 v Serial true ln (b0 ++ rest) h0 0 =
  C1 v Serial true ln rest (mid_step v b0 h0 0) (N.of_nat (blockbytes v)).
Proof.
  intros O L NE. pose proof (blockbytes_pos v) as BP.
  assert (0 < length rest)%nat by (destruct rest; [congruence|cbn; lia]).
  rewrite C1_more by (rewrite app_length; cbn [padded_blockbytes]; lia). cbn [padded_blockbytes].
  rewrite skipn_app, skipn_all2, L, Nat.sub_diag by lia. cbn [skipn app]. f_equal.
  - unfold mid_step. f_equal. unfold front. rewrite firstn_app, L, Nat.sub_diag. cbn [firstn]. rewrite app_nil_r. reflexivity.
  - unfold count_wrapping_add. rewrite N.add_0_l. apply N.mod_small. destruct v; reflexivity.
Qed.

Lemma job_new_spec v e imp c msg : wf_config (fl v) c -> supported e imp ->
  exists j, hash_many_job_new v e (params_of v imp c) msg = Ret j /\ hj_imp j = imp /\
    hj_input j = msg /\
    (pending v e c msg j \/ complete v e c msg j) /\
    hj_finished j = (keyed c && match msg with [] => true | _ => false end).
Proof.
  intros W S. unfold hash_many_job_new.
  assert (KP : N.ltb 0 (p_key_length (params_of v imp c)) = keyed c) by (apply (key_length_pos v); auto).
  cbv zeta. rewrite KP. clear KP.
  pose proof (initial_state_ok v (ApiSpec.c_params c)) as IO. rewrite to_words_spec by auto.
  assert (A0 : aligned v 0). { split; [|apply N.mod_0_l; destruct v; cbn; lia]. destruct v; reflexivity. }
  destruct (keyed c) eqn:K.
  - cbn [params_of p_key_block p_imp p_last_node p_hash_length].
    set (kb := Spec.pad_to (blockbytes v) (ApiSpec.c_key c)).
    assert (KL : length kb = blockbytes v) by (apply keyed_pad_length; auto).
    assert (DD : Spec.data (fl v) (ApiSpec.c_key c) msg = kb ++ msg).
    { change msg with ([] ++ msg) at 1. rewrite data_app, data_nil, K by auto. reflexivity. }
    pose proof (blockbytes_pos v) as BP.
    assert (IOK : forall b, input_ok v b kb). { intros [|]; [left; reflexivity|]. apply (input_ok_full v _ 0). lia. }
    rewrite compress1_loop_spec by auto. cbn [bind].
    eexists. split; [reflexivity|]. cbn [hj_imp hj_finished hj_input]. split; [auto|]. split; [auto|].
    destruct msg as [|b r].
    + split; [|auto]. right. constructor; auto. { unfold key_bytes. rewrite K. reflexivity. } cbn [hj_words]. rewrite DD, app_nil_r. apply C1_whole. exact IO.
    + split; [|auto]. left.
      assert (MS : C1 v Serial false (ApiSpec.c_last_node c) kb (Spec.initial_state (fl v) (ApiSpec.c_params c)) 0
              = mid_step v kb (Spec.initial_state (fl v) (ApiSpec.c_params c)) 0).
      { rewrite C1_last by (cbn [padded_blockbytes]; lia). unfold fin_step, mid_step, fin_count.
        rewrite KL, Nat.min_id. reflexivity. }
      constructor; auto; cbn [hj_words hj_count hj_last_node hj_input hj_imp].
      * apply C1_ok. exact IO.
      * replace (N.of_nat (blockbytes v)) with (count_wrapping_add v 0 (N.of_nat (blockbytes v))).
        { apply aligned_add. exact A0. }
        unfold count_wrapping_add. rewrite N.add_0_l. apply N.mod_small. destruct v; reflexivity.
      * unfold key_bytes. rewrite K. reflexivity.
      * rewrite MS. unfold first_words, keyed in *. destruct (ApiSpec.c_key c) eqn:EK; [discriminate|].
        unfold mid_step. rewrite block_len_fl. fold kb. unfold front. rewrite firstn_all2 by lia.
        unfold Spec.pad_to at 1. rewrite KL, Nat.sub_diag. cbn [repeat]. rewrite app_nil_r. unfold count_wrapping_add. rewrite N.add_0_l, N.mod_small by (destruct v; reflexivity). reflexivity.
      * rewrite MS, DD. rewrite <- C1_whole by auto. symmetry. apply hash_words_step; auto. congruence.
  - cbn [bind]. eexists. split; [reflexivity|]. cbn [hj_imp hj_finished hj_input]. split; [auto|]. split; [auto|]. split; [|reflexivity].
    left. constructor; auto; cbn [hj_last_node hj_input hj_words hj_count].
    { unfold key_bytes. rewrite K. reflexivity. }
    { unfold first_words, keyed in *. destruct (ApiSpec.c_key c); [reflexivity|discriminate]. }
    rewrite C1_whole by auto. unfold Spec.data, keyed in *. destruct (ApiSpec.c_key c); [reflexivity|discriminate].
Qed.

Lemma to_hash_complete v e c msg j : complete v e c msg j -> to_hash v e j = Ret (hash_value v c msg).
Proof.
  intros [W S L F I1 I2 I3 E]. unfold to_hash, debug_assert. rewrite F.
  assert (DA : (if e_dbg e then assert_ true else Ret tt) = Ret tt) by (destruct (e_dbg e); reflexivity).
  rewrite DA. cbn [bind]. rewrite L, E, words_to_bytes_eq by (apply hash_words_ok, initial_state_ok). reflexivity.
Qed.

Lemma to_hash_unfinished v e j : hj_finished j = false -> e_dbg e = true -> to_hash v e j = Panic.
Proof. intros F D. unfold to_hash, debug_assert. rewrite F, D. reflexivity. Qed.

Lemma hash_prep_spec v e c msg j : pending v e c msg j \/ complete v e c msg j ->
  prep_good hj_words hash_prep v true tt j /\
  complete v e c msg (done hj_words (fun j ws => set_hj_words ws j) hash_prep v true Serial tt j) /\
  hj_imp (done hj_words (fun j ws => set_hj_words ws j) hash_prep v true Serial tt j) = hj_imp j /\
  (complete v e c msg j -> done hj_words (fun j ws => set_hj_words ws j) hash_prep v true Serial tt j = j).
Proof.
  intros H. unfold prep_good, done, hash_prep. destruct H as [H|H].
  - destruct H as [W S O A L F I1 I2 I3 I4 R]. rewrite F.
    cbn [hj_words hj_count hj_last_node hj_input set_hj_finished set_hj_words hj_imp].
    split; [|split; [|split; [reflexivity|]]].
    + split; [exact O|]. split; [exact A|]. left. reflexivity.
    + constructor; auto.
    + intros H'. pose proof (cj_fin _ _ _ _ _ H'). congruence.
  - pose proof (cj_fin _ _ _ _ _ H) as F. rewrite F. auto.
Qed.

Theorem hash_many_spec v e jobs refs :
  NoDup (map fst (upto_none refs)) ->
  (forall r x, In (r, x) (upto_none refs) ->
     exists j c msg, nth_error jobs r = Some j /\ (pending v e c msg j \/ complete v e c msg j)) ->
  exists jobs', hash_many v e jobs refs = Ret (jobs', S (length (upto_none refs))) /\
    length jobs' = length jobs /\
    (forall r, ~ In r (map fst (upto_none refs)) -> nth_error jobs' r = nth_error jobs r) /\
    (forall r x j c msg, In (r, x) (upto_none refs) -> nth_error jobs r = Some j ->
       pending v e c msg j \/ complete v e c msg j ->
       exists j', nth_error jobs' r = Some j' /\ complete v e c msg j' /\ (complete v e c msg j -> j' = j)).
Proof.
  intros ND H. unfold hash_many.
  destruct (i_peeked (peek refs)) as [[r0 x0]|] eqn:EP.
  - destruct (peek_some _ _ _ EP) as (rest & -> & EPk). rewrite EPk.
    destruct (H r0 x0 ltac:(left; auto)) as (j0 & c0 & m0 & Hj0 & Hh0).
    unfold cell. rewrite Hj0. cbn [bind].
    destruct (compress_many_spec hj_words (fun j ws => set_hj_words ws j) hash_prep v e (hj_imp j0) true Serial
                ltac:(reflexivity) ltac:(reflexivity)
                {| i_peeked := Some (r0, x0); i_src := rest; i_done := false; i_calls := 1 |} jobs)
      as (it' & jobs' & E & _ & Ec & _ & Len & T).
    + destruct Hh0 as [Hh0|Hh0]; apply Hh0.
    + exact ND.
    + intros r [] Hin. destruct (H r tt Hin) as (j & c & m & Hj & Hh). exists j. split; auto.
      eapply hash_prep_spec; eauto.
    + rewrite E. cbn [bind]. exists jobs'. rewrite Ec. split; [reflexivity|]. split; [exact Len|].
      change (pend _) with (upto_none (Some (r0, x0) :: rest)) in T.
      split.
      * intros r Hr. rewrite T. unfold target_of. rewrite find_ref_none by auto. reflexivity.
      * intros r [] j c m Hin Hj Hh. rewrite T. unfold target_of. rewrite (find_ref _ _ _ ND Hin), Hj.
        cbn [option_map]. eexists. split; [reflexivity|].
        destruct (hash_prep_spec v e c m j Hh) as (_ & G1 & G2 & G3). auto.
  - destruct (peek_none _ EP) as (U & Ec). rewrite Ec, U. exists jobs. split; [reflexivity|].
    split; [reflexivity|]. split; [auto|]. intros ? ? ? ? ? [].
Qed.
