(** C60: iterators that do something themselves while a batch runs.

    Vocabulary (LazySpec.v, Deeds.v): a [machine] is a caller's next(), which
    may look at and change the objects of the program; [borrows] is what the
    borrow checker demands of it; [collect] calls it until it ends, before the
    batch.  A [writer] is an iterator that does things with the library
    ([deed]: method calls, new and cloned States, batches of its own) each time
    before it hands out an item.  [update_many_lazy] and [hash_many_lazy]
    (Lazy.v) are the code with next() called when the code calls it. *)
From Coq Require Import String Permutation.
From Coq Require Import Arith NArith List Bool Lia.
From Verif Require Import Base Guts KernelSpec Simd Impl Sched Lib Many Par Lazy LazySpec.
From Verif Require Import SchedProof ManyProof LazyProof.
From Verif Require Import Spec ApiSpec Machine History Loops Api Runs Deeds BatchProof LazyScript Demo PropMany.
Import ListNotations.
Open Scope list_scope.
Open Scope nat_scope.
Local Notation length := List.length.

(** ** A lazy iterator is as good as a collected one *)
Theorem C60_update_many (v : variant) (e : env) (S : Type) (next : machine S state (list byte))
    (fine : S -> list state -> Prop) (out : S -> list nat) (n : nat) (s s' : S)
    (states states' : list state) (pairs : list (nat * list byte)) :
  borrows next fine out -> fine s states ->
  collect next n s states = Some (pairs, s', states') -> Forall (live v e) states' ->
  exists states'',
    update_many v e states' (map Some pairs) = Ret (states'', 1 + length pairs) /\
    update_many_lazy v e n next s states = Ret (s', states'', 1 + length pairs).
Proof.
  intros B F EC L. destruct (collect_nodup _ _ _ B _ _ _ _ _ _ F EC) as (ND & _ & RG).
  assert (RD : update_ready v e states' (upto_none (map Some pairs))).
  { apply ready_states; auto; rewrite until_somes; auto. intros r x I. apply RG. apply (in_map fst) in I. exact I. }
  destruct (update_many_exact v e states' (map Some pairs) RD) as (states'' & E & _). rewrite upto_none_somes in E.
  exists states''. split; [exact E|]. exact (update_many_collected v e next fine out n s states pairs s' states' _ _ B F EC E).
Qed.
Print Assumptions C60_update_many.

Theorem C60_hash_many (v : variant) (e : env) (S : Type) (next : machine S hash_many_job unit)
    (fine : S -> list hash_many_job -> Prop) (out : S -> list nat) (n : nat) (s s' : S)
    (jobs jobs' : list hash_many_job) (refs : list (nat * unit)) :
  borrows next fine out -> fine s jobs ->
  collect next n s jobs = Some (refs, s', jobs') -> Forall (live_job v e) jobs' ->
  exists jobs'',
    hash_many v e jobs' (map Some refs) = Ret (jobs'', 1 + length refs) /\
    hash_many_lazy v e n next s jobs = Ret (s', jobs'', 1 + length refs).
Proof.
  intros B F EC L. destruct (collect_nodup _ _ _ B _ _ _ _ _ _ F EC) as (ND & _ & RG).
  assert (RD : hash_ready v e jobs' (upto_none (map Some refs))).
  { apply ready_jobs; auto; rewrite until_somes; auto. intros r x I. apply RG. apply (in_map fst) in I. exact I. }
  destruct (hash_many_exact v e jobs' (map Some refs) RD) as (jobs'' & E & _). rewrite upto_none_somes in E.
  exists jobs''. split; [exact E|]. exact (hash_many_collected v e next fine out n s jobs refs s' jobs' _ _ B F EC E).
Qed.
Print Assumptions C60_hash_many.

(** ** Iterators that use the library *)
(** The batch does what it would do after all the deeds, and the deeds show what they would show before the batch. *)
Theorem C60_deeds (v : variant) (e : env) (states : list state) (todo : list (list deed * (nat * list byte))) (last : list deed) :
  Forall (live v e) states -> checked uses (length states) [] todo last ->
  Forall (proper e) (all_deeds todo last) ->
  exists states1 shown states2 w,
    perform_all (perform v e) (all_deeds todo last) states = (states1, shown) /\
    update_many v e states1 (map Some (map snd todo)) = Ret (states2, 1 + length todo) /\
    update_many_lazy v e (1 + length todo) (next_of_writer (perform v e)) (writing todo last) states =
      Ret (w, states2, 1 + length todo) /\ log w = shown.
Proof.
  intros L K P. destruct (perform_all (perform v e) (all_deeds todo last) states) as [states1 shown] eqn:EP.
  assert (P2 : Forall (proper e) last /\ Forall (fun p => Forall (proper e) (fst p)) todo).
  { unfold all_deeds in P. apply Forall_app in P. destruct P as [P1 P2]. split; [exact P2|]. clear -P1.
    induction todo as [|[ds p] todo IH]; constructor; cbn in P1; apply Forall_app in P1; [apply P1|apply IH, P1]. }
  destruct P2 as [P2 P1].
  assert (SD : sound (some_holds v e) [] states).
  { intros i x _ E. apply live_holds. rewrite Forall_forall in L. apply L. eapply nth_error_In; eauto. }
  pose proof (writer_borrows (A := list byte) (perform v e) uses (some_holds v e) (proper e) (perform_ok v e)) as B.
  assert (F : fine uses (some_holds v e) (proper e) (writing todo last : writer deed (list byte) obs) states)
    by (split; [exact SD|split; [exact K|split; auto]]).
  destruct (collect_writer (perform v e) todo last [] [] states states1 shown EP) as (G' & EC).
  destruct (checked_proper_sound (perform v e) uses (some_holds v e) (proper e) (perform_ok v e) todo last [] states states1 shown SD K P1 P2 EP SD) as (SD1 & LN).
  destruct (collect_nodup _ _ _ B _ _ _ _ _ _ F EC) as (ND & _ & RG).
  assert (RD : update_ready v e states1 (upto_none (map Some (map snd todo)))).
  { rewrite upto_none_somes. split; [exact ND|]. intros r x I. apply (in_map fst) in I. specialize (RG r I).
    destruct (nth_error states1 r) as [s|] eqn:E; [|apply nth_error_None in E; lia].
    destruct (SD1 r s ltac:(intros []) E) as (c & msg & Hh). eauto 6. }
  destruct (update_many_exact v e states1 _ RD) as (states2 & E & _). rewrite upto_none_somes, map_length in E.
  exists states1, shown, states2, {| to_do := []; at_end := []; gone := G'; log := [] ++ shown |}.
  split; [reflexivity|]. split; [exact E|]. split; [|reflexivity].
  exact (update_many_collected v e _ _ _ _ _ _ _ _ _ _ _ B F EC E).
Qed.
Print Assumptions C60_deeds.

Theorem C60_job_deeds (v : variant) (e : env) (jobs : list hash_many_job) (todo : list (list job_deed * (nat * unit))) (last : list job_deed) :
  Forall (live_job v e) jobs -> checked job_uses (length jobs) [] todo last ->
  Forall (job_proper e) (all_deeds todo last) ->
  exists jobs1 shown jobs2 w,
    perform_all (perform_job v e) (all_deeds todo last) jobs = (jobs1, shown) /\
    hash_many v e jobs1 (map Some (map snd todo)) = Ret (jobs2, 1 + length todo) /\
    hash_many_lazy v e (1 + length todo) (next_of_writer (perform_job v e)) (writing todo last) jobs =
      Ret (w, jobs2, 1 + length todo) /\ log w = shown.
Proof.
  intros L K P. destruct (perform_all (perform_job v e) (all_deeds todo last) jobs) as [jobs1 shown] eqn:EP.
  assert (P2 : Forall (job_proper e) last /\ Forall (fun p => Forall (job_proper e) (fst p)) todo).
  { unfold all_deeds in P. apply Forall_app in P. destruct P as [P1 P2]. split; [exact P2|]. clear -P1.
    induction todo as [|[ds p] todo IH]; constructor; cbn in P1; apply Forall_app in P1; [apply P1|apply IH, P1]. }
  destruct P2 as [P2 P1].
  assert (SD : sound (some_job v e) [] jobs).
  { intros i x _ E. apply live_job_holds. rewrite Forall_forall in L. apply L. eapply nth_error_In; eauto. }
  pose proof (writer_borrows (A := unit) (perform_job v e) job_uses (some_job v e) (job_proper e) (perform_job_ok v e)) as B.
  assert (F : fine job_uses (some_job v e) (job_proper e) (writing todo last : writer job_deed unit obs) jobs)
    by (split; [exact SD|split; [exact K|split; auto]]).
  destruct (collect_writer (perform_job v e) todo last [] [] jobs jobs1 shown EP) as (G' & EC).
  destruct (checked_proper_sound (perform_job v e) job_uses (some_job v e) (job_proper e) (perform_job_ok v e) todo last [] jobs jobs1 shown SD K P1 P2 EP SD) as (SD1 & LN).
  destruct (collect_nodup _ _ _ B _ _ _ _ _ _ F EC) as (ND & _ & RG).
  assert (RD : hash_ready v e jobs1 (upto_none (map Some (map snd todo)))).
  { rewrite upto_none_somes. split; [exact ND|]. intros r x I. apply (in_map fst) in I. specialize (RG r I).
    destruct (nth_error jobs1 r) as [s|] eqn:E; [|apply nth_error_None in E; lia].
    destruct (SD1 r s ltac:(intros []) E) as (c & msg & Hh). eauto 6. }
  destruct (hash_many_exact v e jobs1 _ RD) as (jobs2 & E & _). rewrite upto_none_somes, map_length in E.
  exists jobs1, shown, jobs2, {| to_do := []; at_end := []; gone := G'; log := [] ++ shown |}.
  split; [reflexivity|]. split; [exact E|]. split; [|reflexivity].
  exact (hash_many_collected v e _ _ _ _ _ _ _ _ _ _ _ B F EC E).
Qed.
Print Assumptions C60_job_deeds.

(** ** Jobs made while the batch runs *)
(** jobs.iter_mut().zip(requests).map(|(j, r)| { *j = HashManyJob::new(..); j }) *)
Definition make_and_give (reqs : list request) : list (list job_deed * (nat * unit)) :=
  map (fun '(i, r) => ([Remake i r], (i, tt))) (combine (seq 0 (length reqs)) reqs).

Lemma checked_remakes n : forall reqs k G, (forall i, In i G -> i < k) -> k + length reqs <= n ->
  checked job_uses n G (map (fun '(i, r) => ([Remake i r], (i, tt))) (combine (seq k (length reqs)) reqs)) [].
Proof.
  induction reqs as [|r reqs IH]; intros k G H L; cbn in *; [intros d q []|].
  assert (N : ~ In k G) by (intros X; specialize (H k X); lia).
  split; [|split; [auto|split; [lia|apply IH; [|lia]]]].
  - intros d q [<-|[]] [<-|[]]. split; [auto|lia].
  - intros i [<-|I]; [lia|]. specialize (H i I). lia.
Qed.
Lemma all_remakes : forall reqs k,
  all_deeds (map (fun '(i, r) => ([Remake i r], (i, tt))) (combine (seq k (length reqs)) reqs)) [] =
  map (fun '(i, r) => Remake i r) (combine (seq k (length reqs)) reqs).
Proof.
  unfold all_deeds. intros reqs k. rewrite app_nil_r. revert k.
  induction reqs as [|r reqs IH]; intros k; cbn; auto. f_equal. apply IH.
Qed.
Lemma given_items : forall (reqs : list request) k,
  map Some (map snd (map (fun '(i, r) => ([Remake i r], (i, tt))) (combine (seq k (length reqs)) reqs))) = items (seq k (length reqs)).
Proof. induction reqs as [|r reqs IH]; intros k; cbn; auto. f_equal. apply IH. Qed.
Lemma perform_remakes v e : forall reqs pre old js, mapM (make_job v e) reqs = Ret js -> length old = length reqs ->
  perform_all (perform_job v e) (map (fun '(i, r) => Remake i r) (combine (seq (length pre) (length reqs)) reqs)) (pre ++ old) = (pre ++ js, []).
Proof.
  induction reqs as [|r reqs IH]; intros pre old js E L; cbn [mapM] in E.
  - injection E as <-. destruct old; [reflexivity|discriminate].
  - destruct (make_job v e r) as [j| | |] eqn:EJ; cbn [bind] in E; try discriminate.
    destruct (mapM (make_job v e) reqs) as [js'| | |] eqn:EM; cbn [bind] in E; try discriminate. injection E as <-.
    destruct old as [|o old]; [discriminate|]. cbn [length seq combine map perform_all perform_job]. rewrite EJ.
    assert (X : exchange (pre ++ o :: old) (length pre) j = (pre ++ [j]) ++ old).
    { clear. induction pre as [|p pre IH]; cbn; auto. f_equal. exact IH. }
    rewrite X. specialize (IH (pre ++ [j]) old js' eq_refl ltac:(cbn in L; lia)).
    rewrite app_length in IH. cbn [length] in IH. rewrite Nat.add_1_r in IH. rewrite IH. cbn. rewrite <- app_assoc. reflexivity.
Qed.

Theorem C60_made_on_the_fly (v : variant) (e : env) (jobs : list hash_many_job) (reqs : list request) :
  Forall (live_job v e) jobs -> Forall (askable e) reqs -> length jobs = length reqs ->
  exists jobs' w,
    hash_many_lazy v e (1 + length reqs) (next_of_writer (perform_job v e)) (writing (make_and_give reqs) []) jobs =
      Ret (w, jobs', 1 + length reqs) /\
    mapM (to_hash v e) jobs' = mapM (hash_alone v e) reqs.
Proof.
  intros L A LE. destruct (hash_many_all v e reqs (seq 0 (length reqs)) A (Permutation_refl _)) as (js & js' & EJ & EH & ET).
  destruct (C60_job_deeds v e jobs (make_and_give reqs) []) as (jobs1 & shown & jobs2 & w & E1 & E2 & E3 & _); auto.
  - apply checked_remakes; [intros i []|lia].
  - unfold make_and_give. rewrite all_remakes. clear -A. revert A. generalize 0.
    induction reqs as [|r reqs IH]; intros k A; cbn; [constructor|]. inversion A; subst. constructor; auto.
  - unfold make_and_give in E1, E2 at 1. rewrite all_remakes in E1. rewrite given_items in E2.
    pose proof (perform_remakes v e reqs [] jobs js EJ LE) as X. cbn [app length] in X. rewrite X in E1. injection E1 as <- <-.
    assert (LM : length (make_and_give reqs) = length reqs).
    { unfold make_and_give. rewrite map_length, combine_length, seq_length, Nat.min_id. reflexivity. }
    rewrite LM in *. rewrite EH in E2. injection E2 as <-. exists js', w. split; [exact E3|exact ET].
Qed.
Print Assumptions C60_made_on_the_fly.

(** ** The hypotheses are met *)
(** Before each of its items this iterator feeds or renews that State and looks at others; before the second it
    runs a batch of its own on the last two States, and at the end it finalizes one that was never handed out. *)
Definition demo_todo : list (list deed * (nat * list byte)) :=
  [([Act 2 (DoUpdate (demo_msg 3)); Act 4 DoFinalize], (2, demo_msg 700));
   ([Batch [(4, demo_msg 300); (3, demo_msg 129)]; Renew 0 AVX2 demo_settings], (0, demo_msg 5));
   ([Copy 3 4; Act 3 DoCount], (3, demo_msg 1000))].
Definition demo_last : list deed := [Act 4 DoFinalize; Act 1 DoShow].
Example C60_example v : Forall (live v (demo_env true)) (demo_states v) /\
  checked uses (length (demo_states v)) [] demo_todo demo_last /\
  Forall (proper (demo_env true)) (all_deeds demo_todo demo_last) /\ length (all_deeds demo_todo demo_last) = 8.
Proof.
  split; [apply demo_states_live|]. split; [|split; [|reflexivity]].
  - cbn. repeat match goal with |- _ /\ _ => split | |- allowed _ _ _ _ => intros d r I J; cbn in I
      | |- ~ _ => cbn; lia | |- _ < _ => lia end;
    repeat match goal with H : _ \/ _ |- _ => destruct H as [<-|H] | H : False |- _ => destruct H end; cbn in *; lia.
  - repeat constructor; cbn; try apply demo_supported; try apply demo_typed; lia.
Qed.
(** An iterator that obeys: [writer_borrows], with the States of the example. *)
Example C60_borrows_example v e : borrows (next_of_writer (A := list byte) (perform v e))
  (fine uses (some_holds v e) (proper e)) gone.
Proof. exact (writer_borrows _ _ _ _ (perform_ok v e)). Qed.
