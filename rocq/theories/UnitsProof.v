(** What the remaining unit tests decide. *)
From Coq Require Import String.
From Coq Require Import Arith NArith List Bool Lia.
From Coq Require Import Init.Byte.
From Verif Require Import Base ByteLemmas Guts KernelSpec Impl Loops Lib StateProof ParamsProof FedProof Par ParProof ParFed HashProof
  Machine Api ApiProof History BatchProof Runs HistoryProof Laws ParLaws Xof XofProof Suite SuiteProof Units.
From Verif Require Spec ApiSpec.
Import ListNotations.
Open Scope list_scope.
Open Scope N_scope.
Local Notation length := List.length.

Section Units.
Import ApiSpec.
Variables (v : variant) (e : env) (imp : platform).
Hypothesis Su : supported e imp.

Lemma finalize_times_is c msg s out : holds v e c msg s -> forall n,
  finalize_times v e n s out = match n with O => Ret tt | S _ => verdict out (digest (fl v) c msg) end.
Proof.
  intros H. induction n as [|n IH]; cbn [finalize_times]; [reflexivity|].
  assert (R : forall k : outcome unit, (do h <- finalize v e s; do _ <- assert_hex v h out; k) =
     (do _ <- (do h <- finalize v e s; assert_hex v h out); k)) by (intros k0; destruct (finalize v e s); reflexivity).
  rewrite R, (holds_hex v e c msg s out H). apply verdict_seq. intros V. rewrite IH. unfold verdict. rewrite V. destruct n; reflexivity.
Qed.
Lemma multiple_finalizes_is n m input out0 out1 :
  multiple_finalizes v e imp n m input out0 out1 =
    do _ <- match n with O => Ret tt | S _ => verdict out0 (digest (fl v) (default_config (fl v)) []) end;
    match m with O => Ret tt | S _ => verdict out1 (digest (fl v) (default_config (fl v)) input) end.
Proof.
  unfold multiple_finalizes. cbv zeta. pose proof (fresh_holds v e imp Su) as H0.
  rewrite (finalize_times_is _ _ _ out0 H0).
  destruct (holds_update _ _ _ _ _ input H0) as (s & E & H & _). rewrite E. cbn [bind].
  cbn [app] in H. rewrite (finalize_times_is _ _ _ out1 H). reflexivity.
Qed.

Lemma chain_illegal ss : forallb (legal (fl v)) ss = false -> forall p, chain v p ss = Panic.
Proof.
  induction ss as [|s ss IH]; cbn [forallb chain]; [discriminate|]. intros H p.
  destruct (legal (fl v) s) eqn:L.
  - pose proof (setter_accepts v s p L) as A. destruct (call_setter v s p) as [p' o]. cbn [snd] in A. rewrite A. cbn [bind]. apply IH. exact H.
  - rewrite (setter_refuses v s p L). reflexivity.
Qed.
Lemma all_parameters_is ss input out : Forall typed ss ->
  all_parameters v e imp ss input out =
    if forallb (legal (fl v)) ss then verdict out (digest (fl v) (configure (fl v) ss (default_config (fl v))) input) else Panic.
Proof.
  intros T. unfold all_parameters. destruct (forallb (legal (fl v)) ss) eqn:L.
  - assert (L' : Forall (fun s => legal (fl v) s = true) ss) by (apply Forall_forall; apply forallb_forall; exact L).
    rewrite chain_legal by exact L'. cbn [bind].
    change (fold_left (fun p s => fst (call_setter v s p)) ss (params_new v imp)) with (build v imp ss).
    rewrite build_spec. set (c := configure (fl v) ss (default_config (fl v))).
    assert (W : wf_config (fl v) c) by (apply build_wf; exact T).
    destruct (holds_update _ _ _ _ _ input (holds_new v e imp c W Su)) as (s & E & H & _). rewrite E. cbn [bind app] in *.
    assert (R : forall k : outcome unit, (do h <- finalize v e s; do _ <- assert_hex v h out; k) =
     (do _ <- (do h <- finalize v e s; assert_hex v h out); k)) by (intros k0; destruct (finalize v e s); reflexivity).
    rewrite R, (holds_hex v e c _ s out H). apply verdict_seq. intros _.
    rewrite (params_hash_spec v e imp c input W Su). cbn [bind].
    apply assert_hex_is; [apply hash_value_bytes; exact W|].
    unfold digest, Spec.blake2. rewrite firstn_length, spec_bytes_length by apply initial_state_ok. lia.
  - rewrite (chain_illegal ss L). reflexivity.
Qed.

Lemma p_chain_is ss : forall p, p_chain v p ss =
  if forallb (plegal (fl v)) ss then Ret (fold_left (fun p s => fst (call_psetter v s p)) ss p) else Panic.
Proof.
  induction ss as [|s ss IH]; intros p; cbn [forallb p_chain fold_left]; [reflexivity|]. unfold run.
  destruct (plegal (fl v) s) eqn:L; cbn [andb].
  - pose proof (psetter_accepts v s p L) as A. destruct (call_psetter v s p) as [p' o]. cbn [snd fst] in *. rewrite A. cbn [bind]. apply IH.
  - rewrite (psetter_refuses v s p L). reflexivity.
Qed.
Lemma p_all_parameters_is ss input out :
  p_all_parameters v e imp ss input out =
    if forallb (plegal (fl v)) ss then verdict out (pdigest (fl v) (pconfigure (fl v) ss (pdefault_config (fl v))) input) else Panic.
Proof.
  unfold p_all_parameters. rewrite p_chain_is. destruct (forallb (plegal (fl v)) ss) eqn:L; [|reflexivity]. cbn [bind].
  change (fold_left (fun p s => fst (call_psetter v s p)) ss (pparams_new v imp)) with (pbuild v imp ss).
  rewrite pbuild_spec. set (c := pconfigure (fl v) ss (pdefault_config (fl v))).
  assert (W : wf_pconfig (fl v) c) by (apply wfp_configure, wfp_default).
  assert (PL : (length (pdigest (fl v) c input) <= outbytes v)%nat).
  { unfold pdigest, Spec.blake2p. rewrite firstn_length, spec_bytes_length by apply initial_state_ok. lia. }
  destruct (pholds_new v e imp c W Su) as (s0 & E0 & H0 & _). rewrite E0. cbn [bind].
  destruct (pholds_update _ _ _ _ _ input H0) as (s & E & H & _). rewrite E. cbn [bind app] in *.
  rewrite (pholds_finalize _ _ _ _ _ H). cbn [bind].
  rewrite (assert_hex_is v _ (pdigest (fl v) c input)); [|apply phash_value_bytes; exact W|exact PL].
  apply verdict_seq. intros _.
  rewrite (p_hash_spec v e imp c input W Su). cbn [bind].
  apply assert_hex_is; [apply phash_value_bytes; exact W|exact PL].
Qed.

Lemma call_one_is s : should_panic (call_one v imp s) = (if legal (fl v) s then Panic else Ret tt) /\
  should_pass (call_one v imp s) = (if legal (fl v) s then Ret tt else Panic).
Proof.
  unfold call_one, run. destruct (legal (fl v) s) eqn:L.
  - pose proof (setter_accepts v s (params_new v imp) L) as A. destruct (call_setter v s (params_new v imp)) as [p o].
    cbn [snd] in A. rewrite A. split; reflexivity.
  - rewrite (setter_refuses v s _ L). split; reflexivity.
Qed.
Lemma p_call_one_is s : should_panic (p_call_one v imp s) = (if plegal (fl v) s then Panic else Ret tt) /\
  should_pass (p_call_one v imp s) = (if plegal (fl v) s then Ret tt else Panic).
Proof.
  unfold p_call_one, run. destruct (plegal (fl v) s) eqn:L.
  - pose proof (psetter_accepts v s (pparams_new v imp) L) as A. destruct (call_psetter v s (pparams_new v imp)) as [p o].
    cbn [snd] in A. rewrite A. split; reflexivity.
  - rewrite (psetter_refuses v s _ L). split; reflexivity.
Qed.
End Units.

Lemma setter_tests_ok v imp : Forall (fun t => t = Ret tt) (setter_tests v imp).
Proof.
  unfold setter_tests. apply Forall_app. split.
  - repeat (apply Forall_cons || apply Forall_nil);
      first [rewrite (proj1 (call_one_is v imp _))|rewrite (proj2 (call_one_is v imp _))|rewrite (proj1 (p_call_one_is v imp _))];
      destruct v; reflexivity.
  - destruct v; repeat (apply Forall_cons || apply Forall_nil);
      first [rewrite (proj1 (call_one_is V2s imp _))|rewrite (proj2 (call_one_is V2s imp _))]; reflexivity.
Qed.
