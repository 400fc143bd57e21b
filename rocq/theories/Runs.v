(** Executing histories with the model. *)
From Coq Require Import String.
From Coq Require Import Arith NArith List Bool.
From Verif Require Import Base Guts Simd Impl Sched Lib Many Par.
From Verif Require Import Loops ApiSpec Machine History Api.
Import ListNotations.
Open Scope list_scope.
Open Scope N_scope.
Local Notation length := List.length.

(** The observation of an outcome, and the object after the call: the old one
    if the call did not return. *)
Definition seen {S A} (s : S) (o : outcome A) (k : A -> S * obs) : S * obs :=
  match o with
  | Ret a => k a
  | Panic => (s, Panicked)
  | UB | Diverge => (s, Broken)
  end.

Definition do_op (v : variant) (e : env) (s : state) (o : op) : state * obs :=
  match o with
  | DoUpdate x => seen s (update v e s x) (fun s' => (s', Unit))
  | DoWrite x => seen s (write v e s x) (fun '(s', n) => (s', Wrote n))
  | DoWriteAll x => seen s (write_all (write v e) s x) (fun s' => (s', Unit))
  | DoFlush => seen s (flush s) (fun s' => (s', Unit))
  | DoSetLastNode b => (set_last_node b s, Unit)
  | DoFinalize => seen s (do h <- finalize v e s; as_bytes h) (fun b => (s, Bytes b))
  | DoCount => seen s (count v e s) (fun n => (s, Number n))
  | DoShow => seen s (state_debug v e s) (fun t => (s, Text t))
  end.

Definition do_pop (v : variant) (e : env) (s : pstate) (o : op) : pstate * obs :=
  match o with
  | DoUpdate x => seen s (p_update v e s x) (fun s' => (s', Unit))
  | DoWrite x => seen s (p_write v e s x) (fun '(s', n) => (s', Wrote n))
  | DoWriteAll x => seen s (write_all (p_write v e) s x) (fun s' => (s', Unit))
  | DoFlush => (s, Unit)
  | DoSetLastNode b => (s, Inexpressible)
  | DoFinalize => seen s (do h <- p_finalize v e s; as_bytes h) (fun b => (s, Bytes b))
  | DoCount => seen s (p_count v e s) (fun n => (s, Number n))
  | DoShow => seen s (pstate_debug v e s) (fun t => (s, Text t))
  end.

(** The object after a history, and what the history showed. *)
Fixpoint do_ops {S} (step : S -> op -> S * obs) (s : S) (ops : list op) : S * list obs :=
  match ops with
  | [] => (s, [])
  | o :: r => let '(s1, x) := step s o in
              let '(s2, xs) := do_ops step s1 r in (s2, x :: xs)
  end.
Definition after {S} (step : S -> op -> S * obs) (s : S) (ops : list op) : S := fst (do_ops step s ops).
Definition watch {S} (step : S -> op -> S * obs) (s : S) (ops : list op) : list obs := snd (do_ops step s ops).

(** Batches of updates / hashes, one call after the other. *)
Fixpoint update_batches (v : variant) (e : env) (states : list state)
    (batches : list (list (option (nat * list byte)))) : outcome (list state) :=
  match batches with
  | [] => Ret states
  | b :: r => do '(states, _) <- update_many v e states b; update_batches v e states r
  end.
Fixpoint hash_batches (v : variant) (e : env) (jobs : list hash_many_job)
    (batches : list (list (option (nat * unit)))) : outcome (list hash_many_job) :=
  match batches with
  | [] => Ret jobs
  | b :: r => do '(jobs, _) <- hash_many v e jobs b; hash_batches v e jobs r
  end.

(** Items of a batch that names objects by position. *)
Definition items (l : list nat) : list (option (nat * unit)) := map (fun i => Some (i, tt)) l.

(** A whole program's store at the end. *)
Definition world_after (v : variant) (e : env) (imp : platform) (prog : list call) : world :=
  fold_left (fun w c => fst (step v e imp w c)) prog empty_world.

(** ** Objects that a program can have *)
(** States: made by Params, then used in any way, batches included. *)
Inductive live (v : variant) (e : env) : state -> Prop :=
| live_new imp ss : supported e imp -> Forall typed ss -> live v e (to_state v (build v imp ss))
| live_op s o : live v e s -> live v e (fst (do_op v e s o))
| live_many states pairs states' n i s :
    Forall (live v e) states -> NoDup (map fst (until_none pairs)) ->
    (forall r x, In (r, x) (until_none pairs) -> (r < length states)%nat) ->
    update_many v e states pairs = Ret (states', n) -> nth_error states' i = Some s -> live v e s.

Inductive plive (v : variant) (e : env) : pstate -> Prop :=
| plive_new imp ss s : supported e imp -> p_to_state v (pbuild v imp ss) = Ret s -> plive v e s
| plive_op s o : plive v e s -> plive v e (fst (do_pop v e s o)).

(** Jobs asked for: a back end, parameters and a message each. *)
Definition request : Type := platform * list setting * list byte.
Definition askable (e : env) (r : request) : Prop :=
  let '(imp, ss, _) := r in supported e imp /\ Forall typed ss.
Definition make_job (v : variant) (e : env) (r : request) : outcome hash_many_job :=
  let '(imp, ss, msg) := r in hash_many_job_new v e (build v imp ss) msg.
Definition hash_alone (v : variant) (e : env) (r : request) : outcome hash :=
  let '(imp, ss, msg) := r in params_hash v e (build v imp ss) msg.

(** Jobs: made from a request, then run in any batches. *)
Inductive live_job (v : variant) (e : env) : hash_many_job -> Prop :=
| live_job_new r j : askable e r -> make_job v e r = Ret j -> live_job v e j
| live_job_many jobs refs jobs' n i j :
    Forall (live_job v e) jobs -> NoDup (map fst (until_none refs)) ->
    (forall r x, In (r, x) (until_none refs) -> (r < length jobs)%nat) ->
    hash_many v e jobs refs = Ret (jobs', n) -> nth_error jobs' i = Some j -> live_job v e j.

(** Hash one node of a tree through the ordinary State API. *)
Definition node_state (v : variant) (e : env) (imp : platform) (ss : list setting) (chunks : list (list byte)) : outcome hash :=
  do s <- update_all v e (to_state v (build v imp ss)) chunks; finalize v e s.
