(** Properties of whole programs over the public API.

    A program is a list of calls (Machine.v); [run_program v t e prog] is what
    the model of crate [v], compiled for [t] and running on [e], shows for each
    call; [world_after] is its store of objects at the end. *)
From Coq Require Import String Ascii.
From Coq Require Import Arith NArith List Bool Lia.
From Coq Require Import Init.Byte.
From Verif Require Import Base Guts KernelSpec Simd Impl Loops Sched Lib Many Par.
From Verif Require Import Spec ApiSpec Machine History Views.
From Verif Require Import LaneLoops Api ApiProof Runs KernelLaws MachineProof ApiLaws Demo PropKernel.
Import ListNotations.
Open Scope list_scope.
Open Scope N_scope.
Local Notation length := List.length.

(** ** C40: the crate is the machine of its documentation *)
Theorem C40_programs (v : variant) (t : target) (e : env) (prog : list call) :
  honest t e -> Forall (well_typed (fl v)) prog ->
  run_program v t e prog = behaviour (fl v) (e_dbg e) prog.
Proof. exact (program_refines v t e prog). Qed.
Print Assumptions C40_programs.
Example C40_example v : honest demo_target (demo_env true) /\ Forall (well_typed (fl v)) demo_program /\
  (length demo_program = 40)%nat /\ ~ In Inexpressible (map (fun c => snd (astep (fl v) true empty_aworld c)) [NewParams; PNewParams]).
Proof.
  split; [apply demo_honest|]. split; [exact (proj2 (proj2 (proj2 (proj2 (proj2 (proj2 (C11_example v)))))))|].
  split; [reflexivity|]. cbn. intuition discriminate.
Qed.

(** ** C13: panics *)
(** The only calls that ever panic: a setter with an argument outside of its
    documented range; in debug builds also to_hash, as_array and the calls that
    report a count. *)
Theorem C13_panics (v : variant) (t : target) (e : env) (prog : list call) (i : nat) :
  honest t e -> Forall (well_typed (fl v)) prog ->
  nth_error (run_program v t e prog) i = Some Panicked ->
  exists c, nth_error prog i = Some c /\
  match c with
  | Set_ _ s => legal (fl v) s = false
  | PSet _ s => plegal (fl v) s = false
  | _ => e_dbg e = true /\ (asserting_call c || counting_call c = true)
  end.
Proof.
  intros H W P. destruct (program_panics v t e prog i H W P) as (c & E & X). exists c. split; auto.
  destruct c; cbn in *; auto; contradiction.
Qed.
Print Assumptions C13_panics.
(** Counting does not panic either as long as the counter cannot wrap: fewer
    than 2^128 - 512 (BLAKE2b) or 2^64 - 512 (BLAKE2s) bytes in all. *)
Theorem C13_before_wrapping (v : variant) (t : target) (e : env) (prog : list call) (i : nat) :
  honest t e -> Forall (well_typed (fl v)) prog ->
  input_bytes prog + 512 < 2 ^ (2 * bits (fl v)) ->
  nth_error (run_program v t e prog) i = Some Panicked ->
  exists c, nth_error prog i = Some c /\
  match c with
  | Set_ _ s => legal (fl v) s = false
  | PSet _ s => plegal (fl v) s = false
  | _ => e_dbg e = true /\ asserting_call c = true
  end.
Proof.
  intros H W L P. destruct (program_panics_small v t e prog i H W L P) as (c & E & X). exists c. split; auto.
  destruct c; cbn in *; auto; contradiction.
Qed.
Print Assumptions C13_before_wrapping.
(** In a release build only setters panic. *)
Theorem C13_release (v : variant) (t : target) (e : env) (prog : list call) (i : nat) :
  honest t e -> Forall (well_typed (fl v)) prog -> e_dbg e = false ->
  nth_error (run_program v t e prog) i = Some Panicked ->
  exists c, nth_error prog i = Some c /\
  match c with
  | Set_ _ s => legal (fl v) s = false
  | PSet _ s => plegal (fl v) s = false
  | _ => False
  end.
Proof.
  intros H W D P. destruct (program_panics v t e prog i H W P) as (c & E & X). rewrite D in X. exists c. split; auto.
  destruct c; cbn in *; auto; discriminate.
Qed.
Print Assumptions C13_release.
(** Every allowed panic does happen in some program, so none of the cases is idle. *)
Example C13_example :
  behaviour F2s true [NewParams; Set_ 0 (HashLength 33); Set_ 0 (HashLength 5); HashWith 0 []; AsArray 0; NewJob 0 []; ToHash 0;
                      PNewParams; PSet 0 (PHashLength 0)]%nat =
  [Unit; Panicked; Unit; Unit; Panicked; Unit; Panicked; Unit; Panicked] /\
  input_bytes demo_program + 512 < 2 ^ (2 * bits F2s).
Proof. split; [reflexivity|]. vm_compute. reflexivity. Qed.

(** ** C25: what can be seen without looking at a digest does not depend on secrets *)
Theorem C25_secrets (v : variant) (t : target) (e : env) (prog prog' : list call) (i : nat) (c : call) :
  honest t e -> Forall (well_typed (fl v)) prog -> Forall (well_typed (fl v)) prog' ->
  Forall2 alike prog prog' ->
  nth_error prog i = Some c -> reveals c = false ->
  nth_error (run_program v t e prog) i = nth_error (run_program v t e prog') i.
Proof. exact (program_secrets v t e prog prog' i c). Qed.
Print Assumptions C25_secrets.
(** Two programs with different secrets; the texts of Params, State and jobs are among what is compared. *)
Definition secretive (k m : list byte) : list call :=
  [NewParams; Set_ 0 (Key k); ShowParams 0; ToState 0; Update 0 m; ShowState 0; NewJob 0 m; ShowJob 0;
   PNewParams; PSet 0 (PKey k); PShowParams 0; PToState 0; PUpdate 0 m; PShowState 0; Finalize 0; AsBytes 0]%nat.
Example C25_example v : let p := secretive [x01; x02; x03] (demo_msg 200) in
  let p' := secretive [x04; x05; x06] (repeat x07 200) in
  p <> p' /\ Forall2 alike p p' /\ Forall (well_typed (fl v)) p /\ Forall (well_typed (fl v)) p' /\
  map reveals p = repeat false 15 ++ [true].
Proof.
  cbv zeta. split; [unfold secretive; discriminate|]. split.
  { unfold secretive. repeat (apply Forall2_cons; [cbn [alike alike_setting alike_psetting]; auto|]); constructor. }
  split; [unfold secretive; repeat (apply Forall_cons; [exact I|]); constructor|].
  split; [unfold secretive; repeat (apply Forall_cons; [exact I|]); constructor|]. reflexivity.
Qed.

(** ** C29: objects are independent *)
(** A State, whatever happens in the program, behaves as if only the calls that
    name it had been made. *)
Theorem C29_states (v : variant) (t : target) (e : env) (prog rest : list call) (k : nat) (x : state) :
  honest t e -> Forall (well_typed (fl v)) (prog ++ rest) ->
  ~ In Inexpressible (run_program v t e (prog ++ rest)) ->
  nth_error (w_states (world_after v e (detect t) prog)) k = Some x ->
  exists y, nth_error (w_states (world_after v e (detect t) (prog ++ rest))) k = Some y /\
  forall ops, watch (do_op v e) y ops = watch (do_op v e) (after (do_op v e) x (flat_map (own_ops k) rest)) ops.
Proof. intros. eapply state_evolves; eauto. Qed.
Print Assumptions C29_states.
Theorem C29_parallel_states (v : variant) (t : target) (e : env) (prog rest : list call) (k : nat) (x : pstate) :
  honest t e -> Forall (well_typed (fl v)) (prog ++ rest) ->
  ~ In Inexpressible (run_program v t e (prog ++ rest)) ->
  nth_error (w_pstates (world_after v e (detect t) prog)) k = Some x ->
  exists y, nth_error (w_pstates (world_after v e (detect t) (prog ++ rest))) k = Some y /\
  forall ops, watch (do_pop v e) y ops = watch (do_pop v e) (after (do_pop v e) x (flat_map (pown_ops k) rest)) ops.
Proof. intros. eapply pstate_evolves; eauto. Qed.
Print Assumptions C29_parallel_states.
(** A job gives the digest of being run alone if some batch contained it, and is untouched if none did. *)
Theorem C29_jobs (v : variant) (t : target) (e : env) (prog rest : list call) (k : nat) (x : hash_many_job) :
  honest t e -> Forall (well_typed (fl v)) (prog ++ rest) ->
  ~ In Inexpressible (run_program v t e (prog ++ rest)) ->
  nth_error (w_jobs (world_after v e (detect t) prog)) k = Some x ->
  exists y, nth_error (w_jobs (world_after v e (detect t) (prog ++ rest))) k = Some y /\
  exists x' n, hash_many v e [x] [Some (0%nat, tt)] = Ret ([x'], n) /\
  to_hash v e y = to_hash v e (if existsb (runs k) rest then x' else x).
Proof. intros. eapply job_evolves; eauto. Qed.
Print Assumptions C29_jobs.
(** A clone starts with its original's history; after that each has its own. *)
Theorem C29_clones (v : variant) (t : target) (e : env) (prog rest : list call) (s : nat) (x : state) :
  let k := length (w_states (world_after v e (detect t) prog)) in
  honest t e -> Forall (well_typed (fl v)) (prog ++ CloneState s :: rest) ->
  ~ In Inexpressible (run_program v t e (prog ++ CloneState s :: rest)) ->
  nth_error (w_states (world_after v e (detect t) prog)) s = Some x ->
  exists original clone,
    nth_error (w_states (world_after v e (detect t) (prog ++ CloneState s :: rest))) s = Some original /\
    nth_error (w_states (world_after v e (detect t) (prog ++ CloneState s :: rest))) k = Some clone /\
    forall ops,
      watch (do_op v e) original ops = watch (do_op v e) (after (do_op v e) x (flat_map (own_ops s) rest)) ops /\
      watch (do_op v e) clone ops = watch (do_op v e) (after (do_op v e) x (flat_map (own_ops k) rest)) ops.
Proof.
  intros k H W X E. pose proof (clone_state v e (detect t) prog s x E) as C.
  change (CloneState s :: rest) with ([CloneState s] ++ rest) in *. rewrite app_assoc in *.
  destruct (state_evolves v t e (prog ++ [CloneState s]) rest H W X s x) as (o & Eo & Wo).
  { rewrite C. apply nth_error_kept. exact E. }
  destruct (state_evolves v t e (prog ++ [CloneState s]) rest H W X k x) as (c & Ec & Wc).
  { rewrite C, nth_error_app2 by (unfold k; lia). unfold k. rewrite Nat.sub_diag. reflexivity. }
  exists o, c. auto.
Qed.
Print Assumptions C29_clones.
Example C29_example v dbg :
  let prog := [NewState; Update 0 (demo_msg 3)]%nat in
  let rest := [UpdateMany [Some (1, demo_msg 700); Some (0, demo_msg 5); None]; SetLastNode 1 true; Update 0 []; Finalize 1]%nat in
  Forall (well_typed (fl v)) (prog ++ CloneState 0 :: rest) /\
  ~ In Inexpressible (behaviour (fl v) dbg (prog ++ CloneState 0 :: rest)) /\
  flat_map (own_ops 0) rest = [DoUpdate (demo_msg 5); DoUpdate []] /\
  flat_map (own_ops 1) rest = [DoUpdate (demo_msg 700); DoSetLastNode true].
Proof.
  cbv zeta. split; [repeat (apply Forall_cons; [exact I|]); constructor|].
  split; [|split; reflexivity]. cbn - [demo_msg hash_of]. intuition discriminate.
Qed.

(** ** C39: debug and release builds *)
(** They show the same for every program, unless one of the debug assertions fires. *)
Theorem C39_profiles (v : variant) (t t' : target) (e e' : env) (prog : list call) :
  honest t e -> honest t' e' -> e_dbg e = true -> e_dbg e' = false -> Forall (well_typed (fl v)) prog ->
  (forall i c, nth_error prog i = Some c -> nth_error (run_program v t e prog) i = Some Panicked -> setter_call c = true) ->
  run_program v t e prog = run_program v t' e' prog.
Proof. exact (program_profile v t t' e e' prog). Qed.
Print Assumptions C39_profiles.
(** In particular if the counter cannot wrap and to_hash / as_array are not used. *)
Theorem C39_before_wrapping (v : variant) (t t' : target) (e e' : env) (prog : list call) :
  honest t e -> honest t' e' -> e_dbg e = true -> e_dbg e' = false -> Forall (well_typed (fl v)) prog ->
  input_bytes prog + 512 < 2 ^ (2 * bits (fl v)) -> (forall c, In c prog -> asserting_call c = false) ->
  run_program v t e prog = run_program v t' e' prog.
Proof. exact (program_profile_small v t t' e e' prog). Qed.
Print Assumptions C39_before_wrapping.
Example C39_example v : let p := [NewParams; Set_ 0 (HashLength 99); ToState 0; Update 0 (demo_msg 300); Count 0; Finalize 0; AsBytes 0]%nat in
  honest demo_target (demo_env true) /\ honest demo_target (demo_env false) /\ Forall (well_typed (fl v)) p /\
  input_bytes p + 512 < 2 ^ (2 * bits (fl v)) /\ (forall c, In c p -> asserting_call c = false).
Proof.
  cbv zeta. split; [apply demo_honest|]. split; [apply demo_honest|]. split; [repeat (apply Forall_cons; [exact I|]); constructor|].
  split; [destruct v; vm_compute; reflexivity|]. intros c H. cbn - [demo_msg] in H. intuition (subst; reflexivity).
Qed.
