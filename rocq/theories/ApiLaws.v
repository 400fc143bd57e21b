(** From the abstract machine to programs over the model. *)
From Coq Require Import String.
From Coq Require Import ZArith Arith NArith List Bool Lia ZifyBool ZifyNat ZifyN.
From Coq Require Import Init.Byte.
From Verif Require Import Base Guts KernelSpec Simd Impl Loops LaneLoops Sched SchedProof Lib Many Par.
From Verif Require Import StateProof ParamsProof FedProof ManyProof ParProof ParFed.
From Verif Require Import Spec ApiSpec Machine History Views Api ApiProof Runs HistoryProof MachineProof.
Import ListNotations.
Open Scope list_scope.
Open Scope N_scope.
Local Notation length := List.length.

Lemma worlds_R v e imp prog : supported e imp -> Forall (well_typed (fl v)) prog -> forall w a, R v e w a ->
  R v e (fold_left (fun w c => fst (step v e imp w c)) prog w) (aworld_after (fl v) (e_dbg e) a prog).
Proof.
  intros SU. induction prog as [|c prog IH]; intros T w a RW; auto. inversion T; subst. cbn [fold_left aworld_after].
  apply IH; auto. apply step_R; auto.
Qed.

Lemma world_after_R v e imp prog : supported e imp -> Forall (well_typed (fl v)) prog ->
  R v e (world_after v e imp prog) (aworld_after (fl v) (e_dbg e) empty_aworld prog).
Proof. intros. apply worlds_R; auto using R_empty. Qed.

Lemma world_after_app v e imp p q : world_after v e imp (p ++ q) =
  fold_left (fun w c => fst (step v e imp w c)) q (world_after v e imp p).
Proof. unfold world_after. apply fold_left_app. Qed.

Lemma arun_app f dbg p : forall q w, arun f dbg w (p ++ q) = arun f dbg w p ++ arun f dbg (aworld_after f dbg w p) q.
Proof.
  induction p as [|c p IH]; intros q w; auto. cbn [app arun]. unfold aworld_after. cbn [fold_left].
  destruct (astep f dbg w c) as [w' o]. cbn [fst]. cbn [app]. f_equal. apply IH.
Qed.

Lemma evolve_flagged c m ops : fold_left evolve ops (c, m) = (flagged c ops, m ++ fed ops).
Proof.
  induction ops as [|o ops IH] using rev_ind.
  - rewrite flagged_nil. unfold fed. cbn. rewrite app_nil_r. reflexivity.
  - rewrite fold_left_app, IH, flagged_snoc, fed_snoc, app_assoc. destruct o; cbn [fold_left evolve next_config fed_by fst snd];
      rewrite ?app_nil_r; reflexivity.
Qed.
Lemma pevolve_fed c m ops : fold_left pevolve ops (c, m) = (c, m ++ fed ops).
Proof.
  induction ops as [|o ops IH] using rev_ind.
  - unfold fed. cbn. rewrite app_nil_r. reflexivity.
  - rewrite fold_left_app, IH, fed_snoc, app_assoc. reflexivity.
Qed.
Lemma jevolve_any x bs : fold_left jevolve bs x = jevolve x (existsb (fun b => b) bs).
Proof.
  revert x. induction bs as [|b bs IH]; intros x; cbn [fold_left existsb].
  - rewrite jevolve_false. reflexivity.
  - rewrite IH. unfold jevolve. cbn. rewrite orb_assoc. reflexivity.
Qed.

Section Evolution.
Variables (v : variant) (t : target) (e : env) (prog rest : list call).
Hypothesis HON : honest t e.
Hypothesis WT : Forall (well_typed (fl v)) (prog ++ rest).
Hypothesis EXP : ~ In Inexpressible (run_program v t e (prog ++ rest)).

Let imp := detect t.
Let aw := aworld_after (fl v) (e_dbg e) empty_aworld prog.
Let aw' := aworld_after (fl v) (e_dbg e) aw rest.

Lemma evo_R : R v e (world_after v e imp prog) aw.
Proof. apply world_after_R; [apply detect_supported; auto|]. apply Forall_app in WT. apply WT. Qed.
Lemma evo_R' : R v e (world_after v e imp (prog ++ rest)) aw'.
Proof.
  rewrite world_after_app. apply worlds_R; [apply detect_supported; auto| |apply evo_R].
  apply Forall_app in WT. apply WT.
Qed.
Lemma evo_expressible : ~ In Inexpressible (arun (fl v) (e_dbg e) aw rest).
Proof.
  rewrite program_refines in EXP by auto. unfold behaviour in EXP. rewrite arun_app, in_app_iff in EXP.
  intros H. apply EXP. right. exact H.
Qed.

Lemma state_evolves k x : nth_error (w_states (world_after v e imp prog)) k = Some x ->
  exists y, nth_error (w_states (world_after v e imp (prog ++ rest))) k = Some y /\
  forall ops, watch (do_op v e) y ops = watch (do_op v e) (after (do_op v e) x (flat_map (own_ops k) rest)) ops.
Proof.
  intros E. pose proof (F2_nth _ _ _ k (R_states _ _ _ _ evo_R)) as K. rewrite E in K.
  destruct (nth_error (a_states aw) k) as [[c m]|] eqn:Ea; [|contradiction].
  pose proof (arun_evolves a_states evolve own_ops (fl v) (e_dbg e) (astep_evolve _ _) rest aw k _ evo_expressible Ea) as Ea'.
  fold aw' in Ea'. pose proof (F2_nth _ _ _ k (R_states _ _ _ _ evo_R')) as K'. rewrite Ea' in K'.
  destruct (nth_error (w_states (world_after v e imp (prog ++ rest))) k) as [y|]; [|contradiction].
  exists y. split; auto. rewrite evolve_flagged in K'. intros ops.
  apply (same_watch v e ops (flagged c (flat_map (own_ops k) rest)) (m ++ fed (flat_map (own_ops k) rest))); [exact K'|].
  apply after_holds. exact K.
Qed.

Lemma pstate_evolves k x : nth_error (w_pstates (world_after v e imp prog)) k = Some x ->
  exists y, nth_error (w_pstates (world_after v e imp (prog ++ rest))) k = Some y /\
  forall ops, watch (do_pop v e) y ops = watch (do_pop v e) (after (do_pop v e) x (flat_map (pown_ops k) rest)) ops.
Proof.
  intros E. pose proof (F2_nth _ _ _ k (R_pstates _ _ _ _ evo_R)) as K. rewrite E in K.
  destruct (nth_error (a_pstates aw) k) as [[c m]|] eqn:Ea; [|contradiction].
  pose proof (arun_evolves a_pstates pevolve pown_ops (fl v) (e_dbg e) (astep_pevolve _ _) rest aw k _ evo_expressible Ea) as Ea'.
  fold aw' in Ea'. pose proof (F2_nth _ _ _ k (R_pstates _ _ _ _ evo_R')) as K'. rewrite Ea' in K'.
  destruct (nth_error (w_pstates (world_after v e imp (prog ++ rest))) k) as [y|]; [|contradiction].
  exists y. split; auto. rewrite pevolve_fed in K'. intros ops.
  apply (psame_watch v e ops c (m ++ fed (flat_map (pown_ops k) rest))); [exact K'|].
  apply pafter_holds. exact K.
Qed.

Lemma job_evolves k x : nth_error (w_jobs (world_after v e imp prog)) k = Some x ->
  exists y, nth_error (w_jobs (world_after v e imp (prog ++ rest))) k = Some y /\
  exists x' n, hash_many v e [x] [Some (0%nat, tt)] = Ret ([x'], n) /\
  to_hash v e y = to_hash v e (if existsb (runs k) rest then x' else x).
Proof.
  intros E. pose proof (F2_nth _ _ _ k (R_jobs _ _ _ _ evo_R)) as K. rewrite E in K.
  destruct (nth_error (a_jobs aw) k) as [ax|] eqn:Ea; [|contradiction].
  pose proof (arun_evolves a_jobs jevolve (fun k c => [runs k c]) (fl v) (e_dbg e)
    (fun w c k x => astep_jevolve _ _ w c k x) rest aw k _ evo_expressible Ea) as Ea'.
  fold aw' in Ea'. pose proof (F2_nth _ _ _ k (R_jobs _ _ _ _ evo_R')) as K'. rewrite Ea' in K'.
  destruct (nth_error (w_jobs (world_after v e imp (prog ++ rest))) k) as [y|]; [|contradiction].
  exists y. split; auto. rewrite jevolve_any in K'.
  assert (PC : pending v e (aj_config ax) (aj_msg ax) x \/ complete v e (aj_config ax) (aj_msg ax) x).
  { unfold Rj in K. destruct (aj_run ax); auto. }
  destruct (hash_many_spec v e [x] [Some (0%nat, tt)]) as (jobs' & HM & L & _ & S).
  { constructor; [intros []|constructor]. }
  { intros r u [H|[]]. injection H as <- <-. exists x, (aj_config ax), (aj_msg ax). auto. }
  destruct (S 0%nat tt x _ _ (or_introl eq_refl) eq_refl PC) as (x' & Ex' & C' & _).
  destruct jobs' as [|j [|j' l]]; try discriminate. cbn in Ex'. injection Ex' as ->.
  exists x'. eexists. split; [exact HM|].
  assert (ER : existsb (fun b => b) (flat_map (fun c => [runs k c]) rest) = existsb (runs k) rest).
  { clear. induction rest as [|c r IH]; auto. cbn. rewrite IH. reflexivity. }
  rewrite ER in K'. unfold Rj, jevolve in K'. cbn [aj_run aj_config aj_msg] in K'.
  destruct (existsb (runs k) rest).
  - rewrite orb_true_r in K'. rewrite (to_hash_complete _ _ _ _ _ K'), (to_hash_complete _ _ _ _ _ C'). reflexivity.
  - rewrite orb_false_r in K'. unfold Rj in K. destruct (aj_run ax).
    + rewrite (to_hash_complete _ _ _ _ _ K'), (to_hash_complete _ _ _ _ _ K). reflexivity.
    + unfold to_hash. rewrite (pj_fin _ _ _ _ _ K'), (pj_fin _ _ _ _ _ K), (pj_pre _ _ _ _ _ K'), (pj_pre _ _ _ _ _ K),
        (pj_len _ _ _ _ _ K'), (pj_len _ _ _ _ _ K). reflexivity.
Qed.
End Evolution.

(** ** Panics and profiles *)
Lemma program_panics v t e prog i : honest t e -> Forall (well_typed (fl v)) prog ->
  nth_error (run_program v t e prog) i = Some Panicked ->
  exists c, nth_error prog i = Some c /\ excused (fl v) (e_dbg e) c.
Proof. intros H W. rewrite program_refines by auto. apply arun_panic. Qed.

Lemma program_panics_small v t e prog i : honest t e -> Forall (well_typed (fl v)) prog ->
  input_bytes prog + 512 < counter_range (fl v) ->
  nth_error (run_program v t e prog) i = Some Panicked ->
  exists c, nth_error prog i = Some c /\ plain_excuse (fl v) (e_dbg e) c.
Proof.
  intros H W L. rewrite program_refines by auto. apply (arun_small _ _ _ 0); [repeat constructor|]. rewrite N.add_0_l. exact L.
Qed.

Lemma program_profile v t t' e e' prog : honest t e -> honest t' e' -> e_dbg e = true -> e_dbg e' = false ->
  Forall (well_typed (fl v)) prog ->
  (forall i c, nth_error prog i = Some c -> nth_error (run_program v t e prog) i = Some Panicked -> setter_call c = true) ->
  run_program v t e prog = run_program v t' e' prog.
Proof.
  intros H H' D D' W. rewrite !program_refines by auto. rewrite D, D'. apply arun_profile.
Qed.

Lemma program_profile_small v t t' e e' prog : honest t e -> honest t' e' -> e_dbg e = true -> e_dbg e' = false ->
  Forall (well_typed (fl v)) prog -> input_bytes prog + 512 < counter_range (fl v) ->
  (forall c, In c prog -> asserting_call c = false) ->
  run_program v t e prog = run_program v t' e' prog.
Proof.
  intros H H' D D' W L NA. eapply program_profile; eauto. intros i c Ec P.
  destruct (program_panics_small v t e prog i H W L P) as (c' & Ec' & X).
  rewrite Ec in Ec'. injection Ec' as <-. pose proof (NA c (nth_error_In _ _ Ec)) as A.
  destruct c; cbn in *; auto; try contradiction; discriminate.
Qed.

Lemma program_secrets v t e prog prog' i c : honest t e ->
  Forall (well_typed (fl v)) prog -> Forall (well_typed (fl v)) prog' -> Forall2 alike prog prog' ->
  nth_error prog i = Some c -> reveals c = false ->
  nth_error (run_program v t e prog) i = nth_error (run_program v t e prog') i.
Proof.
  intros H W W' A E NR. rewrite !program_refines by auto. apply (arun_alike _ _ _ _ _ _ alike_empty A i c); auto.
Qed.

Lemma clone_state v e imp prog s x : nth_error (w_states (world_after v e imp prog)) s = Some x ->
  w_states (world_after v e imp (prog ++ [CloneState s])) = w_states (world_after v e imp prog) ++ [x].
Proof. intros E. rewrite world_after_app. cbn [fold_left step]. unfold on_obj. rewrite E. reflexivity. Qed.
