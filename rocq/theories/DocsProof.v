(** What the examples in the documentation decide. *)
From Coq Require Import String.
From Coq Require Import Arith NArith List Bool Lia.
From Coq Require Import Init.Byte.
From Verif Require Import Base ByteLemmas Guts KernelSpec Impl Loops LaneLoops Lib Many StateProof ParamsProof FedProof Par ParProof ParFed HashProof
  Machine Api ApiProof History BatchProof Runs HistoryProof Laws ParLaws Xof XofProof ManyProof Suite SuiteProof Units UnitsProof Docs.
From Verif Require Spec ApiSpec.
Import ListNotations.
Open Scope list_scope.
Open Scope N_scope.
Local Notation length := List.length.

Section Docs.
Import ApiSpec.
Variables (v : variant) (e : env) (imp : platform).
Hypothesis Su : supported e imp.

Lemma digest_fits c msg : (length (digest (fl v) c msg) <= outbytes v)%nat.
Proof. unfold digest, Spec.blake2. rewrite firstn_length, spec_bytes_length by apply initial_state_ok. lia. Qed.
Lemma pdigest_fits c msg : (length (pdigest (fl v) c msg) <= outbytes v)%nat.
Proof. unfold pdigest, Spec.blake2p. rewrite firstn_length, spec_bytes_length by apply initial_state_ok. lia. Qed.

Lemma default_is input : blake2_default v e imp input = Ret (hash_value v (default_config (fl v)) input).
Proof.
  unfold blake2_default. change (params_new v imp) with (build v imp []). rewrite build_spec.
  apply params_hash_spec; [|exact Su]. exact (build_wf v [] (Forall_nil _)).
Qed.
Lemma default_wf : wf_config (fl v) (default_config (fl v)).
Proof. exact (build_wf v [] (Forall_nil _)). Qed.

Lemma doc_one_shot_is input out : doc_one_shot v e imp input out = verdict out (digest (fl v) (default_config (fl v)) input).
Proof.
  unfold doc_one_shot. rewrite default_is. cbn [bind]. apply assert_hex_is; [apply hash_value_bytes, default_wf|apply digest_fits].
Qed.

Lemma chain_is ss : chain v (params_new v imp) ss =
  if forallb (legal (fl v)) ss then Ret (build v imp ss) else Panic.
Proof.
  destruct (forallb (legal (fl v)) ss) eqn:L; [|apply chain_illegal; exact L].
  apply chain_legal. apply Forall_forall. apply forallb_forall. exact L.
Qed.
Lemma doc_builder_is ss pieces out : Forall typed ss ->
  doc_builder v e imp ss pieces out =
    if forallb (legal (fl v)) ss then verdict out (digest (fl v) (configure (fl v) ss (default_config (fl v))) (concat pieces)) else Panic.
Proof.
  intros T. unfold doc_builder. rewrite chain_is. destruct (forallb (legal (fl v)) ss); [|reflexivity]. cbn [bind].
  destruct (update_all_holds v e _ pieces _ _ (new_holds v e imp ss Su T)) as (s & E & H). rewrite E. cbn [bind].
  exact (holds_hex v e _ _ s out H).
Qed.
Lemma doc_params_is ss input : Forall typed ss -> forallb (legal (fl v)) ss = true ->
  exists h s, doc_params v e imp ss input = Ret (h, s) /\
    as_bytes h = Ret (digest (fl v) (configure (fl v) ss (default_config (fl v))) input) /\
    holds v e (configure (fl v) ss (default_config (fl v))) [] s.
Proof.
  intros T L. unfold doc_params. rewrite chain_is, L. cbn [bind]. rewrite build_spec.
  assert (W : wf_config (fl v) (configure (fl v) ss (default_config (fl v)))) by (apply build_wf; exact T).
  rewrite (params_hash_spec v e imp _ input W Su). cbn [bind]. do 2 eexists. split; [reflexivity|].
  split; [apply hash_value_bytes; exact W|]. apply holds_new; assumption.
Qed.

Lemma doc_state_loop_ok pieces : forall before s, holds v e (default_config (fl v)) before s ->
  doc_state_loop v e imp before s pieces = Ret tt.
Proof.
  induction pieces as [|x r IH]; intros before s H; cbn [doc_state_loop]; [reflexivity|].
  destruct (holds_update _ _ _ _ _ x H) as (s1 & E & H1 & _). rewrite E. cbn [bind]. rewrite default_is. cbn [bind].
  rewrite (holds_finalize _ _ _ _ _ H1). cbn [bind].
  rewrite (assert_same_ok _ _ _ _ (hash_value_bytes v _ (before ++ x) default_wf) (hash_value_bytes v _ (before ++ x) default_wf) eq_refl).
  cbn [bind]. apply IH. exact H1.
Qed.
Lemma doc_state_ok pieces : doc_state v e imp pieces = Ret tt.
Proof. apply doc_state_loop_ok. exact (fresh_holds v e imp Su). Qed.

Lemma fst_combine {A B} : forall (a : list A) (b : list B), length a = length b -> map fst (combine a b) = a.
Proof. induction a as [|x a IH]; intros [|y b] Hl; cbn in *; try discriminate; auto. f_equal. apply IH. lia. Qed.

Lemma doc_update_many_ok inputs : doc_update_many v e imp inputs = Ret tt.
Proof.
  unfold doc_update_many. cbv zeta. set (s0 := to_state v (params_new v imp)). set (n := length inputs).
  set (c := default_config (fl v)). assert (H0 : holds v e c [] s0) by exact (fresh_holds v e imp Su).
  unfold zipped. rewrite map_length. fold n. set (pairs := combine (seq 0 n) inputs).
  assert (LP : length (seq 0 n) = length inputs) by apply seq_length.
  assert (NS : forall i, (i < n)%nat -> nth_error (map (fun _ => s0) inputs) i = Some s0).
  { intros i Hi. rewrite nth_error_map. destruct (nth_error inputs i) eqn:E; [reflexivity|]. apply nth_error_None in E. unfold n in Hi. lia. }
  destruct (update_many_spec v e (map (fun _ => s0) inputs) (map Some pairs)) as (st' & E & L' & _ & I).
  { rewrite upto_none_somes. unfold pairs. rewrite fst_combine by exact LP. apply seq_NoDup. }
  { rewrite upto_none_somes. intros i x Hi. apply in_combine_l, in_seq in Hi. exists s0, c, []. split; [apply NS; lia|exact H0]. }
  rewrite upto_none_somes in I. rewrite E. cbn [bind]. apply each_ok. intros [s x] Hin.
  apply In_nth_error in Hin. destruct Hin as (i & Hi).
  assert (Hlen : (i < length (combine st' inputs))%nat) by (apply nth_error_Some; congruence).
  rewrite map_length in L'. fold n in L'. rewrite combine_length, L', Nat.min_id in Hlen.
  assert (Hi' : nth i (combine st' inputs) (s0, []) = (s, x)) by (apply nth_error_nth; exact Hi).
  rewrite combine_nth in Hi' by exact L'. injection Hi' as Hs Hx.
  assert (P : In (i, x) pairs).
  { replace (i, x) with (nth i pairs (0%nat, [])); [apply nth_In; unfold pairs; rewrite combine_length, LP, Nat.min_id; exact Hlen|].
    unfold pairs. rewrite combine_nth by exact LP. rewrite seq_nth by exact Hlen. rewrite Hx. reflexivity. }
  destruct (I i x s0 _ _ P (NS i Hlen) H0) as (s' & Es' & Hs' & _).
  apply (nth_error_nth _ _ s0) in Es'. rewrite Hs in Es'. subst s'.
  rewrite default_is. cbn [bind]. rewrite (holds_finalize _ _ _ _ _ Hs'). cbn [bind app].
  eapply assert_same_ok; [apply hash_value_bytes, default_wf|apply hash_value_bytes, default_wf|reflexivity].
Qed.

Lemma doc_hash_many_is ss inputs : Forall typed ss ->
  doc_hash_many v e imp ss inputs = if forallb (legal (fl v)) ss then Ret tt else Panic.
Proof.
  intros T. unfold doc_hash_many. rewrite chain_is. destruct (forallb (legal (fl v)) ss); [|reflexivity]. cbn [bind].
  set (reqs := map (fun m => (imp, ss, m)) inputs).
  assert (A : Forall (askable e) reqs).
  { unfold reqs. rewrite Forall_map. apply Forall_forall. intros m _. split; assumption. }
  destruct (hash_many_all v e reqs (seq 0 (length reqs)) A (Permutation.Permutation_refl _)) as (jobs & jobs' & EJ & EH & ET).
  assert (EJ' : mapM (hash_many_job_new v e (build v imp ss)) inputs = Ret jobs).
  { rewrite <- EJ. unfold reqs. rewrite mapM_map. reflexivity. }
  rewrite EJ'. cbn [bind]. destruct (mapM_nth _ _ _ EJ) as [LJ _]. replace (length jobs) with (length reqs) by lia.
  unfold items in EH. rewrite EH. cbn [bind].
  set (c := configure (fl v) ss (default_config (fl v))).
  assert (W : wf_config (fl v) c) by (apply build_wf; exact T).
  assert (PH : forall m, params_hash v e (build v imp ss) m = Ret (hash_value v c m)).
  { intros m. rewrite build_spec. apply params_hash_spec; assumption. }
  assert (EA : mapM (hash_alone v e) reqs = Ret (map (hash_value v c) inputs)).
  { unfold reqs. rewrite mapM_map. apply mapM_Ret. intros m _. apply PH. }
  rewrite EA in ET. destruct (mapM_nth _ _ _ ET) as [LH HT]. rewrite map_length in LH.
  apply each_ok. intros [m j] Hin. apply In_nth_error in Hin. destruct Hin as (i & Hi).
  assert (Hlen : (i < length (combine inputs jobs'))%nat) by (apply nth_error_Some; congruence).
  rewrite combine_length in Hlen.
  assert (Hi' : nth i (combine inputs jobs') (m, j) = (m, j)) by (apply nth_error_nth; exact Hi).
  rewrite combine_nth in Hi' by lia. injection Hi' as Hm Hj.
  specialize (HT i j (hash_value v c m) ltac:(lia)). rewrite Hj, map_nth, Hm in HT.
  rewrite PH. cbn [bind]. rewrite HT. cbn [bind].
  eapply assert_same_ok; [apply hash_value_bytes; exact W|apply hash_value_bytes; exact W|reflexivity].
Qed.

Lemma doc_p_builder_is ss pieces out : doc_p_builder v e imp ss pieces out =
  if forallb (plegal (fl v)) ss then verdict out (pdigest (fl v) (pconfigure (fl v) ss (pdefault_config (fl v))) (concat pieces)) else Panic.
Proof.
  unfold doc_p_builder. rewrite p_chain_is. destruct (forallb (plegal (fl v)) ss) eqn:L; [|reflexivity]. cbn [bind].
  change (fold_left (fun p s => fst (call_psetter v s p)) ss (pparams_new v imp)) with (pbuild v imp ss).
  rewrite pbuild_spec. set (c := pconfigure (fl v) ss (pdefault_config (fl v))).
  assert (W : wf_pconfig (fl v) c) by (apply wfp_configure, wfp_default).
  destruct (pholds_new v e imp c W Su) as (s0 & E0 & H0 & _). rewrite E0. cbn [bind].
  destruct (p_update_all_holds v e _ pieces _ _ H0) as (s & E & H). rewrite E. cbn [bind app] in *.
  rewrite (pholds_finalize _ _ _ _ _ H). cbn [bind].
  apply assert_hex_is; [apply phash_value_bytes; exact W|apply pdigest_fits].
Qed.
Lemma doc_p_one_shot_is input out : doc_p_one_shot v e imp input out = verdict out (pdigest (fl v) (pdefault_config (fl v)) input).
Proof.
  unfold doc_p_one_shot. destruct (par_reference_ok v e imp Su input) as (h & _ & E & B). rewrite E. cbn [bind].
  apply assert_hex_is; [exact B|apply pdigest_fits].
Qed.
End Docs.
