(** Properties of batches: many::update_many and many::hash_many.

    Vocabulary: [live v e s] (Runs.v) says that a program can have the State
    [s]; [live_job v e j] likewise for a HashManyJob.  [watch] gives what a
    further history of calls on one State shows.  A batch is the list of
    answers of the caller's iterator to successive next() calls, each naming an
    object by its position and giving its input; the positions before the first
    None are distinct because the iterator hands out exclusive references. *)
From Coq Require Import String Ascii Permutation.
From Coq Require Import Arith NArith List Bool Lia.
From Coq Require Import Init.Byte.
From Verif Require Import Base Guts KernelSpec Simd Impl Sched Lib Many Par.
From Verif Require Import Spec ApiSpec Machine History.
From Verif Require Import Loops LaneLoops SchedProof Api Runs Laws BatchProof Demo.
Import ListNotations.
Open Scope list_scope.
Open Scope N_scope.
Local Notation length := List.length.

Local Notation config_of v ss := (configure (fl v) ss (default_config (fl v))).

(** ** C07 *)
Theorem C07_batch_updates_are_updates (v : variant) (e : env) (states : list state)
    (pairs : list (option (nat * list byte))) :
  Forall (live v e) states -> NoDup (map fst (until_none pairs)) ->
  (forall r x, In (r, x) (until_none pairs) -> (r < length states)%nat) ->
  exists states', update_many v e states pairs = Ret (states', S (length (until_none pairs))) /\
    length states' = length states /\
    (forall i, ~ In i (map fst (until_none pairs)) -> nth_error states' i = nth_error states i) /\
    (forall i x s, In (i, x) (until_none pairs) -> nth_error states i = Some s ->
       exists s' s1, nth_error states' i = Some s' /\ update v e s x = Ret s1 /\
         forall ops, watch (do_op v e) s' ops = watch (do_op v e) s1 ops).
Proof. exact (update_many_live v e states pairs). Qed.
Print Assumptions C07_batch_updates_are_updates.

(** Five states with different parameters, back ends and histories; one of them not in the batch. *)
Definition demo_states (v : variant) : list state :=
  [to_state v (build v AVX2 []); after (do_op v (demo_env true)) (to_state v (build v SSE41 demo_settings)) demo_history;
   to_state v (build v Portable [Key (demo_msg 3)]); to_state v (build v AVX2 [HashLength 1]); to_state v (build v AVX2 [])].
Definition demo_pairs : list (option (nat * list byte)) :=
  [Some (4, demo_msg 1000); Some (0, demo_msg 10); Some (1, []); Some (3, demo_msg 128); None; Some (0, [])]%nat.
Lemma demo_states_live v : Forall (live v (demo_env true)) (demo_states v).
Proof.
  unfold demo_states. repeat (apply Forall_cons); try apply Forall_nil.
  2: apply live_after. all: apply live_new; [apply demo_supported|]. 2: apply demo_typed. all: repeat constructor.
Qed.
Example C07_example v : Forall (live v (demo_env true)) (demo_states v) /\
  NoDup (map fst (until_none demo_pairs)) /\
  (forall r x, In (r, x) (until_none demo_pairs) -> (r < length (demo_states v))%nat).
Proof.
  split; [apply demo_states_live|]. split.
  - cbn [map fst until_none demo_pairs]. repeat (constructor; [cbn; intuition discriminate|]). constructor.
  - intros r x I. unfold demo_states, demo_pairs in *. cbn [until_none] in I. cbn [List.length].
    repeat (destruct I as [I|I]; [injection I as <- _; lia|]). destruct I.
Qed.

(** ** C08 *)
Theorem C08_batch_hashing_is_hashing (v : variant) (e : env) (reqs : list request) (order : list nat) :
  Forall (askable e) reqs -> Permutation order (seq 0 (length reqs)) ->
  exists jobs jobs', mapM (make_job v e) reqs = Ret jobs /\
    hash_many v e jobs (items order) = Ret (jobs', S (length reqs)) /\
    mapM (to_hash v e) jobs' = mapM (hash_alone v e) reqs.
Proof. exact (hash_many_all v e reqs order). Qed.
Print Assumptions C08_batch_hashing_is_hashing.
Theorem C08_hash_alone_returns (v : variant) (e : env) (r : request) : askable e r ->
  exists h, hash_alone v e r = Ret h.
Proof. intros A. eexists. exact (hash_alone_spec v e r A). Qed.
Print Assumptions C08_hash_alone_returns.
Definition demo_requests : list request :=
  [(AVX2, [], demo_msg 300); (SSE41, demo_settings, demo_msg 128); (Portable, [Key (demo_msg 3)], []);
   (AVX2, [HashLength 1], demo_msg 5); (AVX2, [], []); (AVX2, [LastNode true], demo_msg 700)].
Lemma demo_askable dbg : Forall (askable (demo_env dbg)) demo_requests.
Proof.
  unfold demo_requests. repeat constructor; try apply demo_supported; try apply demo_typed.
Qed.
Example C08_example dbg : Forall (askable (demo_env dbg)) demo_requests /\
  Permutation [0; 1; 2; 3; 4; 5]%nat (seq 0 (length demo_requests)).
Proof. split; [apply demo_askable|]. apply Permutation_refl. Qed.

(** ** C09, C37: any successive batches, overlapping or not *)
Theorem C09_any_batches (v : variant) (e : env) (reqs : list request) (batches : list (list nat)) :
  Forall (askable e) reqs ->
  Forall (fun l => NoDup l /\ forall i, In i l -> (i < length reqs)%nat) batches ->
  exists jobs jobs', mapM (make_job v e) reqs = Ret jobs /\
    hash_batches v e jobs (map items batches) = Ret jobs' /\ length jobs' = length reqs /\
    forall i r j, nth_error reqs i = Some r -> nth_error jobs' i = Some j ->
      (exists b, In b batches /\ In i b) -> to_hash v e j = hash_alone v e r.
Proof.
  intros A F. destruct (batches_prop v e reqs batches A F) as (jobs & jobs' & E & EH & L & H).
  exists jobs, jobs'. split; auto. split; auto. split; auto. intros i r j Hr Hj X. apply (H i r j Hr Hj). auto.
Qed.
Print Assumptions C09_any_batches.
Theorem C37_to_hash_after_run (v : variant) (e : env) (reqs : list request) (batches : list (list nat)) :
  Forall (askable e) reqs ->
  Forall (fun l => NoDup l /\ forall i, In i l -> (i < length reqs)%nat) batches ->
  exists jobs jobs', mapM (make_job v e) reqs = Ret jobs /\
    hash_batches v e jobs (map items batches) = Ret jobs' /\ length jobs' = length reqs /\
    forall i imp ss m j, nth_error reqs i = Some (imp, ss, m) -> nth_error jobs' i = Some j ->
      let run := (c_key (config_of v ss) <> [] /\ m = []) \/ exists b, In b batches /\ In i b in
      (run -> to_hash v e j = hash_alone v e (imp, ss, m)) /\
      (e_dbg e = true -> (to_hash v e j = Panic <-> ~ run)).
Proof.
  intros A F. destruct (batches_prop v e reqs batches A F) as (jobs & jobs' & E & EH & L & H).
  exists jobs, jobs'. split; auto. split; auto. split; auto. intros i imp ss m j Hr Hj. apply (H i _ j Hr Hj).
Qed.
Print Assumptions C37_to_hash_after_run.
Example C09_example dbg : Forall (askable (demo_env dbg)) demo_requests /\
  Forall (fun l => NoDup l /\ forall i, In i l -> (i < length demo_requests)%nat) [[5; 0]; []; [0; 1; 5; 4]]%nat /\
  c_key (config_of V2b [Key (demo_msg 3)]) <> [] /\ nth_error demo_requests 2 = Some (Portable, [Key (demo_msg 3)], []).
Proof.
  split; [apply demo_askable|]. split; [|split; [discriminate|reflexivity]].
  repeat apply Forall_cons; try apply Forall_nil.
  all: split; [repeat (apply NoDup_cons; [cbn; lia|]); apply NoDup_nil|cbn; intros i I; lia].
Qed.

(** ** C10: the entry points return, having asked for each item once and for the end once, and each pass over
    the lanes finishes a job *)
Theorem C10_update_many_returns (v : variant) (e : env) (states : list state)
    (pairs : list (option (nat * list byte))) :
  Forall (live v e) states -> NoDup (map fst (until_none pairs)) ->
  (forall r x, In (r, x) (until_none pairs) -> (r < length states)%nat) ->
  exists states', update_many v e states pairs = Ret (states', S (length (until_none pairs))).
Proof. intros F ND RG. destruct (update_many_live v e states pairs F ND RG) as (s & E & _). eauto. Qed.
Print Assumptions C10_update_many_returns.
Theorem C10_hash_many_returns (v : variant) (e : env) (jobs : list hash_many_job)
    (refs : list (option (nat * unit))) :
  Forall (live_job v e) jobs -> NoDup (map fst (until_none refs)) ->
  (forall r x, In (r, x) (until_none refs) -> (r < length jobs)%nat) ->
  exists jobs', hash_many v e jobs refs = Ret (jobs', S (length (until_none refs))).
Proof.
  intros F ND RG. destruct (hash_many_exact v e jobs refs (ready_jobs v e jobs refs F ND RG)) as (s & E & _).
  exists s. rewrite E. do 3 f_equal. clear. induction refs as [|[x|] l IH]; cbn; congruence.
Qed.
Print Assumptions C10_hash_many_returns.
Theorem C10_pass_retires_a_job (v : variant) (e : env) (imp : platform) (fin : bool) (st : stride) (wide_ : bool) (jobs : list job) :
  supported e imp ->
  let n := if wide_ then wide v else narrow v in
  (n <= degree v imp)%nat -> length jobs = n -> (forall j, In j jobs -> job_ok v fin j) ->
  exists jobs',
    (if wide_ then compress_wide_loop v e imp jobs fin st else compress_narrow_loop v e imp jobs fin st) = Ret jobs' /\
    length jobs' = n /\
    (forall l, (l < n)%nat -> exists k, j_input (nth l jobs' job0) = skipn k (j_input (nth l jobs job0))) /\
    (forall l, (l < n)%nat -> j_input (nth l jobs' job0) = [] \/
       (length (j_input (nth l jobs' job0)) < length (j_input (nth l jobs job0)))%nat) /\
    exists l, (l < n)%nat /\ j_input (nth l jobs' job0) = [].
Proof.
  intros SU n D. subst n. destruct wide_.
  - apply (loop_retires v fin st (fun js => compress_wide_loop v e imp js fin st) _ (proj1 (wide_loop_ok v e imp fin st SU D))).
  - apply (loop_retires v fin st (fun js => compress_narrow_loop v e imp js fin st) _ (proj1 (narrow_loop_ok v e imp fin st SU D))).
Qed.
Print Assumptions C10_pass_retires_a_job.
Definition demo_job (v : variant) (n : nat) : job :=
  {| j_input := demo_msg n; j_words := Guts.iv v; j_count := 0; j_last_node := true |}.
Example C10_example v : (wide v <= degree v AVX2)%nat /\
  length (map (demo_job v) (seq 250 (wide v))) = wide v /\
  (forall j, In j (map (demo_job v) (seq 250 (wide v))) -> job_ok v true j).
Proof.
  split; [destruct v; cbn; lia|]. split; [rewrite map_length, seq_length; reflexivity|].
  intros j I. apply in_map_iff in I. destruct I as (n & <- & I). apply in_seq in I. split; [|split].
  - split; destruct v; repeat constructor.
  - split; destruct v; reflexivity.
  - left. reflexivity.
Qed.

(** ** C30 *)
Theorem C30_update_order (v : variant) (e : env) (states : list state) (p q : list (nat * list byte)) :
  Forall (live v e) states -> NoDup (map fst p) ->
  (forall r x, In (r, x) p -> (r < length states)%nat) -> Permutation p q ->
  update_many v e states (map Some p) = update_many v e states (map Some q).
Proof. exact (update_order v e states p q). Qed.
Print Assumptions C30_update_order.
Theorem C30_hash_order (v : variant) (e : env) (jobs : list hash_many_job) (p q : list nat) :
  Forall (live_job v e) jobs -> NoDup p -> (forall r, In r p -> (r < length jobs)%nat) -> Permutation p q ->
  hash_many v e jobs (items p) = hash_many v e jobs (items q).
Proof. exact (hash_order v e jobs p q). Qed.
Print Assumptions C30_hash_order.
Theorem C30_update_split (v : variant) (e : env) (states : list state) (l m : list (nat * list byte)) :
  Forall (live v e) states -> NoDup (map fst (l ++ m)) ->
  (forall r x, In (r, x) (l ++ m) -> (r < length states)%nat) ->
  exists s1 s2, update_many v e states (map Some l) = Ret (s1, S (length l)) /\
    update_many v e s1 (map Some m) = Ret (s2, S (length m)) /\
    update_many v e states (map Some (l ++ m)) = Ret (s2, S (length (l ++ m))).
Proof. exact (update_split v e states l m). Qed.
Print Assumptions C30_update_split.
Theorem C30_hash_split (v : variant) (e : env) (jobs : list hash_many_job) (l m : list nat) :
  Forall (live_job v e) jobs -> NoDup (l ++ m) -> (forall r, In r (l ++ m) -> (r < length jobs)%nat) ->
  exists s1 s2, hash_many v e jobs (items l) = Ret (s1, S (length l)) /\
    hash_many v e s1 (items m) = Ret (s2, S (length m)) /\
    hash_many v e jobs (items (l ++ m)) = Ret (s2, S (length (l ++ m))).
Proof. exact (hash_split v e jobs l m). Qed.
Print Assumptions C30_hash_split.
Example C30_example : let p := until_none demo_pairs in
  Forall (live V2s (demo_env true)) (demo_states V2s) /\ NoDup (map fst p) /\ length p = 4%nat /\ Permutation p (rev p) /\
  p = firstn 2 p ++ skipn 2 p.
Proof.
  cbv zeta. split; [apply demo_states_live|]. split; [apply (C07_example V2s)|]. split; [reflexivity|].
  split; [apply Permutation_rev|]. symmetry. apply firstn_skipn.
Qed.
(** Jobs that exist: any that HashManyJob::new made. *)
Example C30_jobs_example v dbg : exists jobs, mapM (make_job v (demo_env dbg)) demo_requests = Ret jobs /\
  Forall (live_job v (demo_env dbg)) jobs /\ length jobs = 6%nat.
Proof.
  pose proof (demo_askable dbg) as A. destruct (make_jobs_spec v _ _ A) as (jobs & E & F2). exists jobs. split; [exact E|].
  split; [|apply ApiProof.F2_length in F2; rewrite <- F2; reflexivity].
  clear F2. revert jobs E A. generalize demo_requests. induction l as [|r l IH]; cbn [mapM]; intros jobs E A.
  - injection E as <-. constructor.
  - destruct (make_job v (demo_env dbg) r) as [j| | |] eqn:EJ; cbn [bind] in E; try discriminate.
    destruct (mapM (make_job v (demo_env dbg)) l) as [js| | |] eqn:EM; cbn [bind] in E; try discriminate.
    injection E as <-. inversion A; subst. constructor; [eapply live_job_new; eauto|apply IH; auto].
Qed.

(** ** C36 *)
Theorem C36_update_many_pulls_once (v : variant) (e : env) (states : list state) (l : list (nat * list byte))
    (rest : list (option (nat * list byte))) :
  Forall (live v e) states -> NoDup (map fst l) -> (forall r x, In (r, x) l -> (r < length states)%nat) ->
  exists states', update_many v e states (map Some l) = Ret (states', S (length l)) /\
    update_many v e states (map Some l ++ None :: rest) = Ret (states', S (length l)).
Proof. exact (update_lazy v e states l rest). Qed.
Print Assumptions C36_update_many_pulls_once.
Theorem C36_hash_many_pulls_once (v : variant) (e : env) (jobs : list hash_many_job) (l : list nat)
    (rest : list (option (nat * unit))) :
  Forall (live_job v e) jobs -> NoDup l -> (forall r, In r l -> (r < length jobs)%nat) ->
  exists jobs', hash_many v e jobs (items l) = Ret (jobs', S (length l)) /\
    hash_many v e jobs (items l ++ None :: rest) = Ret (jobs', S (length l)).
Proof. exact (hash_lazy v e jobs l rest). Qed.
Print Assumptions C36_hash_many_pulls_once.
Example C36_example : let l := until_none demo_pairs in
  demo_pairs = map Some l ++ None :: [Some (0%nat, [])] /\ Forall (live V2b (demo_env true)) (demo_states V2b).
Proof. split; [reflexivity|apply demo_states_live]. Qed.
