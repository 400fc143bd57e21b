(** C47: threads.  [run_concurrently v e t setup progs schedule] runs the setup,
    then the threads' programs at the same time; in each turn of the schedule one
    thread begins or ends a call, so calls overlap; feature detection may say
    something else in each turn, as long as it is true.  ThreadsSpec.v says what a
    call borrows and what a data race is.
    [run_history v e h] runs calls that begin and end in any order on any threads,
    on objects that the threads pass to each other. *)
From Coq Require Import String.
From Coq Require Import Arith NArith List Bool Lia.
From Coq Require Import Init.Byte.
From Verif Require Import Base KernelSpec Impl Lib Api.
From Verif Require Import Spec ApiSpec Machine ThreadsSpec.
From Verif Require Import LaneLoops ApiProof Threads ThreadsProof HandoverProof Demo PropApi.
Import ListNotations.
Open Scope list_scope.
Open Scope nat_scope.
Local Notation length := List.length.

(** Under every schedule each thread sees what the documented machine shows it when it runs alone after the
    setup; as much of it as its turns allow, two for each call. *)
Theorem C47_threads (v : variant) (e : env) (t : target) (setup : list call) (progs : list (list call)) (schedule : list (nat * target)) :
  honest t e -> Forall (fun x => honest (snd x) e) schedule ->
  Forall (well_typed (fl v)) setup -> Forall (Forall (well_typed (fl v))) progs ->
  race_free (fl v) (e_dbg e) setup progs ->
  forall i p, nth_error progs i = Some p ->
  seen_by i (run_concurrently v e t setup progs schedule) =
  firstn (turns i schedule / 2) (skipn (length setup) (behaviour (fl v) (e_dbg e) (setup ++ p))).
Proof. exact (threads_alone v e t setup progs schedule). Qed.
Print Assumptions C47_threads.

(** So a thread that has had its turns has seen exactly what it sees when it is the only one, on any machine. *)
Theorem C47_alone (v : variant) (e : env) (t t' : target) (setup : list call) (progs : list (list call)) (schedule : list (nat * target)) :
  honest t e -> honest t' e -> Forall (fun x => honest (snd x) e) schedule ->
  Forall (well_typed (fl v)) setup -> Forall (Forall (well_typed (fl v))) progs ->
  race_free (fl v) (e_dbg e) setup progs ->
  forall i p, nth_error progs i = Some p -> 2 * length p <= turns i schedule ->
  firstn (length setup) (run_program v t' e (setup ++ p)) ++ seen_by i (run_concurrently v e t setup progs schedule)
  = run_program v t' e (setup ++ p).
Proof.
  intros H H' HS TS TP RF i p Hi L. rewrite (C47_threads v e t setup progs schedule H HS TS TP RF i p Hi).
  rewrite (C40_programs v t' e (setup ++ p) H').
  2:{ apply Forall_app. split; [exact TS|]. rewrite Forall_forall in TP. apply TP. eapply nth_error_In; eauto. }
  rewrite (firstn_all2 (n := turns i schedule / 2)); [apply firstn_skipn|]. rewrite skipn_length.
  assert (RL : forall f d w q, length (arun f d w q) = length q).
  { intros f d w q. revert w. induction q as [|c q IH]; intros w; cbn [arun]; [reflexivity|]. destruct (astep _ _ w c). cbn. now rewrite IH. }
  unfold behaviour. rewrite RL, app_length. pose proof (Nat.div_le_mono (2 * length p) (turns i schedule) 2 ltac:(lia) L) as D.
  rewrite Nat.mul_comm, Nat.div_mul in D by lia. lia.
Qed.
Print Assumptions C47_alone.

(** Objects may be handed from thread to thread (a state in a Mutex, a job sent through a channel): as long as no two
    calls that run at the same time conflict, all of the threads together see what the documented machine shows when
    it makes the calls one at a time, in the order in which they end.  A call may end long after others that began
    later; so the order is one that the calls' beginnings and ends allow. *)
Theorem C47_handover (v : variant) (e : env) (h : list (event target)) :
  Forall (fun t => honest t e) (machines h) -> Forall (well_typed (fl v)) (made h) ->
  safe (fl v) (e_dbg e) h ->
  run_history v e h = combine (map fst (ended h)) (behaviour (fl v) (e_dbg e) (map snd (ended h))).
Proof. exact (histories v e h). Qed.
Print Assumptions C47_handover.

(** So a history shows what one thread sees that makes the calls in that order, on any machine. *)
Theorem C47_handover_one_thread (v : variant) (e : env) (t : target) (h : list (event target)) :
  honest t e -> Forall (fun t => honest t e) (machines h) -> Forall (well_typed (fl v)) (made h) ->
  safe (fl v) (e_dbg e) h ->
  run_history v e h = combine (map fst (ended h)) (run_program v t e (map snd (ended h))).
Proof.
  intros H HM HC SF. rewrite (C40_programs v t e _ H); [now apply C47_handover|].
  apply Forall_forall. intros c I. rewrite Forall_forall in HC. apply HC. now apply ended_made.
Qed.
Print Assumptions C47_handover_one_thread.

(** A demonstration: two threads share keyed parameters; each feeds a state of the
    setup of its own, one of them in a batch, and makes more objects. *)
Definition thread_setup : list call := [NewParams; Set_ 0 (Key [x01; x02]); ToState 0; ToState 0; PNewParams].
Definition thread_a : list call := [Update 0 [x61]; HashWith 0 [x62]; Finalize 0; EqHash 0 1; ToState 0; Update 2 [x63]; PHashWith 0 [x64]; ToHex 2].
Definition thread_b : list call := [UpdateMany [Some (1, [x71; x72]); None]; CloneParams 0; Set_ 1 (HashLength 20); NewJob 1 [x73]; HashMany [Some 0; None]; ToHash 0; PToState 0].
Definition thread_schedule : list (nat * target) := map (fun i => (i, demo_target)) [0; 1; 1; 0; 0; 1; 0; 1; 1; 1; 0].
Example C47_example v :
  honest demo_target (demo_env true) /\ Forall (fun x => honest (snd x) (demo_env true)) thread_schedule /\
  Forall (well_typed (fl v)) thread_setup /\ Forall (Forall (well_typed (fl v))) [thread_a; thread_b] /\
  race_free (fl v) true thread_setup [thread_a; thread_b] /\
  turns 0 thread_schedule / 2 = 2 /\ turns 1 thread_schedule / 2 = 3 /\
  In (KParams, 0, Shared) (flat_map borrows thread_a) /\ In (KParams, 0, Shared) (flat_map borrows thread_b).
Proof.
  split; [apply demo_honest|]. split; [repeat (apply Forall_cons; [apply demo_honest|]); constructor|].
  split; [repeat constructor|]. split; [repeat constructor|].
  split; [|split; [reflexivity|split; [reflexivity|split; cbn; tauto]]].
    intros i j p q k n a NE Hi Hj L I J.
    assert (OB : objects (after (fl v) true thread_setup) k = match k with KParams => 1 | KStates => 2 | KPParams => 1 | _ => 0 end)
      by (destruct v, k; reflexivity).
    rewrite OB in L.
    destruct i as [|[|[|i]]]; [| |discriminate|discriminate]; destruct j as [|[|[|j]]]; try discriminate; try congruence;
      injection Hi as <-; injection Hj as <-; cbn in I, J;
      repeat (destruct I as [I|I]; [(discriminate I || injection I as <- <-)|]); try destruct I;
      repeat (destruct J as [J|J]; [(discriminate J || (injection J; intros; subst; cbn in L; lia))|]); try destruct J.
Qed.
(** The claim is about programs without races: with one, another thread's setter shows. *)
Example C47_race :
  let setup := [NewParams] in let progs := [[Set_ 0 (HashLength 5)]; [ShowParams 0]] in
  ~ race_free F2s true setup progs /\
  seen_by 1 (run_concurrently V2s (demo_env true) demo_target setup progs (map (fun i => (i, demo_target)) [0; 0; 1; 1])) <>
  firstn 1 (skipn 1 (behaviour F2s true (setup ++ [ShowParams 0]))).
Proof.
  split.
  - intros RF. apply (RF 0 1 _ _ KParams 0 Shared ltac:(discriminate) eq_refl eq_refl); cbn; auto.
  - lazy. discriminate.
Qed.

(** A demonstration: thread 0 makes a state, thread 1 feeds it while 0 works on its own parameters, thread 0 feeds
    it again, and thread 2 finalizes it while 1 is in a call that began before. *)
Definition handover : list (event target) :=
  let t := demo_target in
  [Begins 0 t NewState; Ends 0; Begins 1 t (Update 0 [x61]); Begins 0 t NewParams; Ends 0; Begins 0 t (Set_ 0 (HashLength 20));
   Reads 1 KStates 0; Ends 1; Begins 1 t (OneShot [x71]); Ends 0; Begins 0 t (Update 0 [x62]); Ends 0; Begins 2 t (Finalize 0);
   Reads 2 KStates 0; Ends 2; Ends 1].
Example C47_handover_example v :
  Forall (fun t => honest t (demo_env true)) (machines handover) /\ Forall (well_typed (fl v)) (made handover) /\
  safe (fl v) true handover /\
  ended handover = [(0, NewState); (0, NewParams); (1, Update 0 [x61]); (0, Set_ 0 (HashLength 20)); (0, Update 0 [x62]);
                    (2, Finalize 0); (1, OneShot [x71])].
Proof.
  split; [repeat (apply Forall_cons; [apply demo_honest|]); constructor|].
  split; [repeat constructor|].
  split; [|reflexivity].
  unfold safe, handover. cbn [safe_from in_call find option_map snd fst Nat.eqb without filter negb].
  repeat split; try (intros j d I; cbn in I; repeat (destruct I as [I|I]; [injection I as <- <-|]); try destruct I;
    intros (k & n & a & b & I & J & O); cbn in I, J; repeat (destruct I as [I|I]; [|]); repeat (destruct J as [J|J]; [|]); try contradiction;
    congruence);
    try (intros k n a I; cbn in I; repeat (destruct I as [I|I]; [injection I as <- <- <-; destruct v; cbn; lia|]); destruct I).
Qed.
(** The claim is about calls that do not conflict: if two threads feed one state at the same time, an update is lost. *)
Example C47_handover_race :
  let t := demo_target in
  let h := [Begins 0 t NewState; Ends 0; Begins 0 t (Update 0 [x61]); Begins 1 t (Update 0 [x62]); Ends 0; Ends 1; Begins 0 t (Count 0); Ends 0] in
  ~ safe F2s true h /\
  run_history V2s (demo_env true) h <> combine (map fst (ended h)) (behaviour F2s true (map snd (ended h))).
Proof.
  split.
  - intros (_ & _ & _ & (_ & _ & _ & (_ & _ & NC & _))). apply (NC 0 (Update 0 [x61])); [now left|].
    exists KStates, 0, Exclusive, Exclusive. cbn. auto.
  - lazy. discriminate.
Qed.
