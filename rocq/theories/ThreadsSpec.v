(** Threads that share objects.  Specification only: which objects a call
    borrows, and when a set of thread programs has no data race, as Rust's types
    enforce it.  Calls, observations and the machine are those of Machine.v. *)
From Coq Require Import Arith NArith List Bool.
From Verif Require Import Spec ApiSpec Machine.
Import ListNotations.
Open Scope nat_scope.

Inductive kind := KParams | KStates | KJobs | KPParams | KPStates | KHashes.
Inductive access := Shared | Exclusive.        (* &T, &mut T *)
Definition borrow : Type := kind * nat * access.

(** The objects that a call borrows, and how: the receivers and arguments of the
    functions of the API. *)
Definition borrows (c : call) : list borrow :=
  match c with
  | NewParams | OneShot _ | NewState | PNewParams | POneShot _ | PNewState | HashFrom _ => []
  | CloneParams p | ShowParams p | HashWith p _ | ToState p | NewJob p _ => [(KParams, p, Shared)]
  | Set_ p _ | ForcePortable p => [(KParams, p, Exclusive)]
  | CloneState s | Finalize s | Count s | ShowState s => [(KStates, s, Shared)]
  | Update s _ | Write s _ | WriteAll s _ | Flush s | SetLastNode s _ => [(KStates, s, Exclusive)]
  | UpdateMany xs => map (fun '(s, _) => (KStates, s, Exclusive)) (until_none xs)
  | CloneJob j | ToHash j | ShowJob j => [(KJobs, j, Shared)]
  | HashMany xs => map (fun j => (KJobs, j, Exclusive)) (until_none xs)
  | PCloneParams p | PShowParams p | PHashWith p _ | PToState p => [(KPParams, p, Shared)]
  | PSet p _ | PForcePortable p => [(KPParams, p, Exclusive)]
  | PCloneState s | PFinalize s | PCount s | PShowState s => [(KPStates, s, Shared)]
  | PUpdate s _ | PWrite s _ | PWriteAll s _ | PFlush s => [(KPStates, s, Exclusive)]
  | AsBytes h | AsArray h | ToHex h | ShowHash h | EqSlice h _ => [(KHashes, h, Shared)]
  | EqHash h h' => [(KHashes, h, Shared); (KHashes, h', Shared)]
  end.

(** The machine after a program, and the number of its objects of a kind. *)
Definition after (f : flavour) (dbg : bool) (prog : list call) : aworld :=
  fold_left (fun w c => fst (astep f dbg w c)) prog empty_aworld.
Definition objects (w : aworld) (k : kind) : nat :=
  match k with
  | KParams => length (a_params w) | KStates => length (a_states w) | KJobs => length (a_jobs w)
  | KPParams => length (a_pparams w) | KPStates => length (a_pstates w) | KHashes => length (a_hashes w)
  end.

(** A setup runs first; then each thread runs its own program, which may use the
    setup's objects and those that it creates itself.  There is no data race if
    an object of the setup that one thread borrows exclusively is not used by any
    other. *)
Definition race_free (f : flavour) (dbg : bool) (setup : list call) (progs : list (list call)) : Prop :=
  forall i j p q k n a, i <> j -> nth_error progs i = Some p -> nth_error progs j = Some q ->
    n < objects (after f dbg setup) k ->
    In (k, n, Exclusive) (flat_map borrows p) -> ~ In (k, n, a) (flat_map borrows q).

(** What one thread sees. *)
Definition seen_by (i : nat) (l : list (nat * obs)) : list obs :=
  map snd (filter (fun x => Nat.eqb (fst x) i) l).
(** How often it had its turn. *)
Definition turns {A} (i : nat) (schedule : list (nat * A)) : nat :=
  length (filter (fun x => Nat.eqb (fst x) i) schedule).

(** ** Objects that are handed from one thread to another
    A history says when calls begin and end, on which thread, on which objects of
    the one store; [Reads] says that a running call looks at an object (again).
    Whatever it is that passes objects between the threads, a Mutex, a channel, a
    join, it shows in the order of the events. *)
Inductive event (T : Type) :=
| Begins (thread : nat) (machine : T) (c : call)
| Reads (thread : nat) (k : kind) (n : nat)
| Ends (thread : nat).
Arguments Begins {T}. Arguments Reads {T}. Arguments Ends {T}.

(** Rust's rule for references, for two calls that run at the same time: one may
    not borrow exclusively what the other borrows. *)
Definition conflict (c d : call) : Prop :=
  exists k n a b, In (k, n, a) (borrows c) /\ In (k, n, b) (borrows d) /\ (a = Exclusive \/ b = Exclusive).

(** The call that a thread is in. *)
Definition in_call {A} (i : nat) (running : list (nat * A)) : option A :=
  option_map snd (find (fun x => Nat.eqb (fst x) i) running).
Definition without {A} (i : nat) (running : list (nat * A)) : list (nat * A) :=
  filter (fun x => negb (Nat.eqb (fst x) i)) running.

(** The calls of a history in the order in which they end, with their threads. *)
Fixpoint ended_from {T} (running : list (nat * call)) (h : list (event T)) : list (nat * call) :=
  match h with
  | [] => []
  | Begins i _ c :: h => ended_from ((i, c) :: running) h
  | Reads _ _ _ :: h => ended_from running h
  | Ends i :: h =>
      match in_call i running with
      | Some c => (i, c) :: ended_from (without i running) h
      | None => ended_from running h
      end
  end.
Definition ended {T} : list (event T) -> list (nat * call) := ended_from [].

(** A history of a safe program: a thread is in one call at a time; a call is made on
    objects that are there; and it conflicts with no call that is running. *)
Fixpoint safe_from {T} (f : flavour) (dbg : bool) (w : aworld) (running : list (nat * call)) (h : list (event T)) : Prop :=
  match h with
  | [] => True
  | Begins i _ c :: h =>
      in_call i running = None /\
      (forall k n a, In (k, n, a) (borrows c) -> n < objects w k) /\
      (forall j d, In (j, d) running -> ~ conflict c d) /\
      safe_from f dbg w ((i, c) :: running) h
  | Reads _ _ _ :: h => safe_from f dbg w running h
  | Ends i :: h =>
      match in_call i running with
      | Some c => safe_from f dbg (fst (astep f dbg w c)) (without i running) h
      | None => False
      end
  end.
Definition safe {T} (f : flavour) (dbg : bool) : list (event T) -> Prop := safe_from f dbg empty_aworld [].
(** What the threads are told about the machine, and the calls that they make. *)
Definition machines {T} (h : list (event T)) : list T :=
  flat_map (fun x => match x with Begins _ t _ => [t] | _ => [] end) h.
Definition made {T} (h : list (event T)) : list call :=
  flat_map (fun x => match x with Begins _ _ c => [c] | _ => [] end) h.
