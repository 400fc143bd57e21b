(** C41: the caller's iterator panics in the middle of a batch.

    Vocabulary (Crashes.v): [handled v e s] says that a program can have the
    State [s], also after catching panics of its own iterators; [panics_after l]
    is an iterator that gives the items [l] and then panics, [ends_after l] one
    that gives them and ends; [exclusive n l] says that the items are exclusive
    references to existing objects.  [Unwound objects] is a panic that reaches
    the caller, with the objects as they are then; [Stuck] would be any failure
    of the code itself. *)
From Coq Require Import String Ascii Permutation.
From Coq Require Import Arith NArith List Bool Lia.
From Coq Require Import Init.Byte.
From Verif Require Import Base Guts KernelSpec Simd Impl Sched Lib Many Par.
From Verif Require Import Spec ApiSpec Machine History.
From Verif Require Import Loops LaneLoops SchedProof Api Runs Laws BatchProof Demo Unwind Crashes UnwindProof PropMany.
Import ListNotations.
Open Scope list_scope.
Open Scope N_scope.
Local Notation length := List.length.

(** ** What the objects are left as *)
Theorem C41_update_many_interrupted (v : variant) (e : env) (states : list state) (l : list (nat * list byte)) :
  Forall (handled v e) states -> exclusive (length states) l ->
  exists finished left hurt,
    update_many v e states (ends_after l) = Ret (finished, S (length l)) /\
    update_many_unwinding v e states (panics_after l) = Unwound left /\
    length left = length states /\ (length hurt < lanes v s_imp states l)%nat /\
    (forall i, ~ In i hurt -> nth_error left i = nth_error finished i) /\
    (forall i, ~ In i (map fst l) -> nth_error left i = nth_error states i) /\
    (forall i, In i hurt -> exists x s s', In (i, x) l /\ (blockbytes v < length x)%nat /\
       nth_error left i = Some s /\ nth_error finished i = Some s' /\ set_s_words (s_words s') s = s').
Proof. exact (update_interrupted v e states l). Qed.
Print Assumptions C41_update_many_interrupted.

Theorem C41_hash_many_interrupted (v : variant) (e : env) (jobs : list hash_many_job) (l : list (nat * unit)) :
  Forall (handled_job v e) jobs -> exclusive (length jobs) l ->
  exists finished left hurt,
    hash_many v e jobs (ends_after l) = Ret (finished, S (length l)) /\
    hash_many_unwinding v e jobs (panics_after l) = Unwound left /\
    length left = length jobs /\ (length hurt < lanes v hj_imp jobs l)%nat /\
    (forall i, ~ In i hurt -> nth_error left i = nth_error finished i) /\
    (forall i, ~ In i (map fst l) -> nth_error left i = nth_error jobs i) /\
    (forall i, In i hurt -> exists j0 j j', In i (map fst l) /\
       nth_error jobs i = Some j0 /\ hj_finished j0 = false /\
       nth_error left i = Some j /\ nth_error finished i = Some j' /\ set_hj_words (hj_words j') j = j' /\
       exists h, to_hash v e j = Ret h).
Proof. exact (hash_interrupted v e jobs l). Qed.
Print Assumptions C41_hash_many_interrupted.

(** With one lane (no SIMD) no object is hurt. *)
Theorem C41_one_lane (v : variant) (e : env) (states : list state) (l : list (nat * list byte)) :
  Forall (handled v e) states -> exclusive (length states) l -> lanes v s_imp states l = 1%nat ->
  exists finished, update_many v e states (ends_after l) = Ret (finished, S (length l)) /\
    update_many_unwinding v e states (panics_after l) = Unwound finished.
Proof.
  intros F X L1. destruct (update_interrupted v e states l F X) as (fi & le & hurt & E1 & E2 & _ & H & T & _).
  exists fi. split; [exact E1|]. rewrite E2. f_equal. destruct hurt as [|h r]; [|cbn in H; lia].
  apply nth_error_ext. intros i. apply T. intros [].
Qed.
Print Assumptions C41_one_lane.

(** ** An iterator that ends behaves as in C07-C09 *)
Theorem C41_update_many_ends (v : variant) (e : env) (states : list state) (pairs : list (option (nat * list byte))) :
  In None pairs -> forall r, update_many v e states pairs = Ret r <-> update_many_unwinding v e states pairs = Value r.
Proof.
  intros H r. rewrite (update_ending v e states pairs H).
  destruct (update_many v e states pairs); cbn [inside]; split; intros E; congruence.
Qed.
Print Assumptions C41_update_many_ends.
Theorem C41_hash_many_ends (v : variant) (e : env) (jobs : list hash_many_job) (refs : list (option (nat * unit))) :
  In None refs -> forall r, hash_many v e jobs refs = Ret r <-> hash_many_unwinding v e jobs refs = Value r.
Proof.
  intros H r. rewrite (hash_ending v e jobs refs H).
  destruct (hash_many v e jobs refs); cbn [inside]; split; intros E; congruence.
Qed.
Print Assumptions C41_hash_many_ends.

(** ** Everything stays usable: whatever panicked before, no call on a State
    has undefined behaviour or hangs, and none panics except that count and
    Debug may (see C06). *)
Theorem C41_states_usable (v : variant) (e : env) (s : state) (o : op) : handled v e s ->
  snd (do_op v e s o) <> Broken /\ (o <> DoCount -> o <> DoShow -> snd (do_op v e s o) <> Panicked).
Proof. intros H. apply do_op_sane, handled_sane, H. Qed.
Print Assumptions C41_states_usable.
Theorem C41_batches_usable (v : variant) (e : env) (states : list state) (jobs : list hash_many_job)
    (l : list (nat * list byte)) (k : list (nat * unit)) :
  Forall (handled v e) states -> exclusive (length states) l ->
  Forall (handled_job v e) jobs -> exclusive (length jobs) k ->
  (exists r, update_many_unwinding v e states (ends_after l) = Value r) /\
  (exists r, update_many_unwinding v e states (panics_after l) = Unwound r) /\
  (exists r, hash_many_unwinding v e jobs (ends_after k) = Value r) /\
  (exists r, hash_many_unwinding v e jobs (panics_after k) = Unwound r).
Proof.
  intros F X FJ XJ. destruct (update_interrupted v e states l F X) as (fi & le & h & E1 & E2 & _).
  destruct (hash_interrupted v e jobs k FJ XJ) as (fj & lj & hj & E3 & E4 & _).
  rewrite update_ending, hash_ending by apply ends_has_none. rewrite E1, E2, E3, E4. cbn [inside]. repeat split; eexists; reflexivity.
Qed.
Print Assumptions C41_batches_usable.
(** Objects of the other properties are covered. *)
Theorem C41_covers_live (v : variant) (e : env) : (forall s, live v e s -> handled v e s) /\
  (forall j, live_job v e j -> handled_job v e j).
Proof. split; [apply live_handled|apply live_handled_job]. Qed.
Print Assumptions C41_covers_live.

Definition demo_items : list (nat * list byte) := until_none demo_pairs.
Example C41_example v : Forall (handled v (demo_env true)) (demo_states v) /\
  exclusive (length (demo_states v)) demo_items /\ length demo_items = 4%nat /\
  lanes v s_imp (demo_states v) demo_items = wide v.
Proof.
  split; [|split; [|split]].
  - eapply Forall_impl; [|apply demo_states_live]. apply live_handled.
  - split; [apply (C07_example v)|]. intros r x H. apply (proj2 (proj2 (C07_example v)) r x H).
  - reflexivity.
  - destruct v; reflexivity.
Qed.
Example C41_one_lane_example v : lanes v s_imp (demo_states v) [(2, demo_msg 300); (0, demo_msg 300)]%nat = 1%nat.
Proof. destruct v; reflexivity. Qed.

(** ** C36: the iterator is pulled lazily *)
(** When a batch asks its iterator for one item more after the items [l], all but fewer than degree() of the
    objects it has been given are already as the whole batch will leave them, and those it has not been given
    are untouched: at most that many objects are held back, however long the iterator.  (What the objects look
    like at that moment is what a panic of the iterator at that moment leaves behind.) *)
Theorem C36_update_many_lazy (v : variant) (e : env) (states : list state) (l rest : list (nat * list byte)) :
  Forall (handled v e) states -> exclusive (length states) (l ++ rest) ->
  exists final now hurt,
    update_many v e states (ends_after (l ++ rest)) = Ret (final, S (length (l ++ rest))) /\
    update_many_unwinding v e states (panics_after l) = Unwound now /\
    (length hurt < lanes v s_imp states l)%nat /\
    (forall i, In i (map fst l) -> ~ In i hurt -> nth_error now i = nth_error final i) /\
    (forall i, ~ In i (map fst l) -> nth_error now i = nth_error states i).
Proof. exact (update_streams v e states l rest). Qed.
Print Assumptions C36_update_many_lazy.
Theorem C36_hash_many_lazy (v : variant) (e : env) (jobs : list hash_many_job) (l rest : list (nat * unit)) :
  Forall (handled_job v e) jobs -> exclusive (length jobs) (l ++ rest) ->
  exists final now hurt,
    hash_many v e jobs (ends_after (l ++ rest)) = Ret (final, S (length (l ++ rest))) /\
    hash_many_unwinding v e jobs (panics_after l) = Unwound now /\
    (length hurt < lanes v hj_imp jobs l)%nat /\
    (forall i, In i (map fst l) -> ~ In i hurt -> nth_error now i = nth_error final i) /\
    (forall i, ~ In i (map fst l) -> nth_error now i = nth_error jobs i).
Proof. exact (hash_streams v e jobs l rest). Qed.
Print Assumptions C36_hash_many_lazy.
Example C36_lazy_example v : firstn 3 demo_items ++ skipn 3 demo_items = demo_items /\
  exclusive (length (demo_states v)) (firstn 3 demo_items ++ skipn 3 demo_items) /\ length (firstn 3 demo_items) = 3%nat.
Proof. split; [reflexivity|]. split; [exact (proj1 (proj2 (C41_example v)))|reflexivity]. Qed.

(** ** hash_many is not atomic: a job that was pulled but not run when the
    iterator panicked hands out a wrong hash, without a panic even in a debug
    build.  (The claim refuted: after an interrupted batch, a job's to_hash
    gives the hash of its input, or panics in a debug build.) *)
Theorem C41_hash_right_or_refused_refuted : ~ (forall (v : variant) (e : env) (reqs : list request) (l : list (nat * unit)),
  e_dbg e = true -> Forall (askable e) reqs -> exclusive (length reqs) l ->
  exists jobs left, mapM (make_job v e) reqs = Ret jobs /\
    hash_many_unwinding v e jobs (panics_after l) = Unwound left /\
    forall i r j, nth_error reqs i = Some r -> nth_error left i = Some j ->
      to_hash v e j = hash_alone v e r \/ to_hash v e j = Panic).
Proof.
  intros H. destruct (H V2s (demo_env true) [(AVX2, [], [])] [(0%nat, tt)]) as (jobs & left & E1 & E2 & E3).
  - reflexivity.
  - constructor; [|constructor]. split; [apply demo_supported|constructor].
  - split; [constructor; [intros []|constructor]|]. intros r x [E|[]]. injection E as <- _. cbn. lia.
  - cbn in E1. injection E1 as <-. cbn in E2. injection E2 as <-.
    specialize (E3 0%nat _ _ eq_refl eq_refl). rewrite hash_alone_spec in E3.
    2: { split; [apply demo_supported|constructor]. }
    destruct E3 as [E3|E3]; [|discriminate].
    apply (f_equal (fun o => match o with Ret h => nth 0 (h_bytes h) x00 | _ => x00 end)) in E3.
    vm_compute in E3. discriminate.
Qed.
Print Assumptions C41_hash_right_or_refused_refuted.
