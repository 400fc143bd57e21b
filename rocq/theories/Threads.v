(** Threads that call the modelled crate at the same time.

    The crate has no statics and no interior mutability; its only shared state is
    the standard library's cache of the CPU's features (guts.rs:28-44 through
    is_x86_feature_detected!).  All objects are in one store (Api.v); a thread
    holds references to some of them.  A call takes two turns of its thread:
    in the first it has read what it borrows and detected the features, in the
    second it writes what it borrows exclusively, and what it returns becomes an
    object.  In between other threads run, so calls overlap in every way.
    Simplification: the reads of a call are together in its first turn and its
    writes in the second. *)
From Coq Require Import Arith NArith List Bool.
From Verif Require Import Base Impl Lib Many Par.
From Verif Require Import Spec ApiSpec Machine ThreadsSpec Api.
Import ListNotations.
Open Scope nat_scope.

(** The references a thread holds, by its own names for the objects: the n-th of a kind (the &self, &mut self
    and by-value receivers of blake2b/src/lib.rs:165-557, many.rs:213-419, blake2bp.rs:79-424). *)
Definition refs : Type := kind -> list nat.

(** Resolving the names in a batch, up to the end of the iterator (many.rs:213-218). *)
Fixpoint resolve_items (l : list nat) (xs : list (option (nat * list byte))) : option (list (option (nat * list byte))) :=
  match xs with
  | Some (s, m) :: r =>
      match nth_error l s, resolve_items l r with
      | Some s, Some r => Some (Some (s, m) :: r)
      | _, _ => None
      end
  | xs => Some xs
  end.
(** As [resolve_items], many.rs:386-390. *)
Fixpoint resolve_jobs (l : list nat) (xs : list (option nat)) : option (list (option nat)) :=
  match xs with
  | Some j :: r =>
      match nth_error l j, resolve_jobs l r with
      | Some j, Some r => Some (Some j :: r)
      | _, _ => None
      end
  | xs => Some xs
  end.

(** The call as the store sees it: its receivers and arguments are references; None if the thread has no such
    object.  The calls of lib.rs:113-660, many.rs:91-419, blake2bp.rs:52-480. *)
Definition resolve (h : refs) (c : call) : option call :=
  let at_ k n (mk : nat -> call) := option_map mk (nth_error (h k) n) in
  match c with
  | NewParams | OneShot _ | NewState | PNewParams | POneShot _ | PNewState | HashFrom _ => Some c
  | CloneParams p => at_ KParams p CloneParams
  | Set_ p s => at_ KParams p (fun p => Set_ p s)
  | ForcePortable p => at_ KParams p ForcePortable
  | ShowParams p => at_ KParams p ShowParams
  | HashWith p m => at_ KParams p (fun p => HashWith p m)
  | ToState p => at_ KParams p ToState
  | CloneState s => at_ KStates s CloneState
  | Update s m => at_ KStates s (fun s => Update s m)
  | Write s m => at_ KStates s (fun s => Write s m)
  | WriteAll s m => at_ KStates s (fun s => WriteAll s m)
  | Flush s => at_ KStates s Flush
  | SetLastNode s b => at_ KStates s (fun s => SetLastNode s b)
  | Finalize s => at_ KStates s Finalize
  | Count s => at_ KStates s Count
  | ShowState s => at_ KStates s ShowState
  | UpdateMany xs => option_map UpdateMany (resolve_items (h KStates) xs)
  | NewJob p m => at_ KParams p (fun p => NewJob p m)
  | CloneJob j => at_ KJobs j CloneJob
  | HashMany xs => option_map HashMany (resolve_jobs (h KJobs) xs)
  | ToHash j => at_ KJobs j ToHash
  | ShowJob j => at_ KJobs j ShowJob
  | PCloneParams p => at_ KPParams p PCloneParams
  | PSet p s => at_ KPParams p (fun p => PSet p s)
  | PForcePortable p => at_ KPParams p PForcePortable
  | PShowParams p => at_ KPParams p PShowParams
  | PHashWith p m => at_ KPParams p (fun p => PHashWith p m)
  | PToState p => at_ KPParams p PToState
  | PCloneState s => at_ KPStates s PCloneState
  | PUpdate s m => at_ KPStates s (fun s => PUpdate s m)
  | PWrite s m => at_ KPStates s (fun s => PWrite s m)
  | PWriteAll s m => at_ KPStates s (fun s => PWriteAll s m)
  | PFlush s => at_ KPStates s PFlush
  | PFinalize s => at_ KPStates s PFinalize
  | PCount s => at_ KPStates s PCount
  | PShowState s => at_ KPStates s PShowState
  | AsBytes x => at_ KHashes x AsBytes
  | AsArray x => at_ KHashes x AsArray
  | ToHex x => at_ KHashes x ToHex
  | ShowHash x => at_ KHashes x ShowHash
  | EqHash x y =>
      match nth_error (h KHashes) x, nth_error (h KHashes) y with
      | Some x, Some y => Some (EqHash x y)
      | _, _ => None
      end
  | EqSlice x b => at_ KHashes x (fun x => EqSlice x b)
  end.

(** The objects of a kind that a call writes: &mut receivers and items (lib.rs:238-339, 453, 506,
    many.rs:213-218, 386-390, blake2bp.rs:161-179, 301). *)
Definition written (k : kind) (c : call) : list nat :=
  flat_map (fun '(k', n, a) =>
    match k, k', a with
    | KParams, KParams, Exclusive | KStates, KStates, Exclusive | KJobs, KJobs, Exclusive
    | KPParams, KPParams, Exclusive | KPStates, KPStates, Exclusive | KHashes, KHashes, Exclusive => [n]
    | _, _, _ => []
    end) (borrows c).

(** The end of a call that read the objects [old] and computed the objects [new] from them: the objects [ws] are
    written to the store as it is [now], and what is new in it is added (moves of &mut and return values, see
    [written]; lib.rs:238-584). *)
Definition commit {A} (ws : list nat) (old new now : list A) : list A :=
  map (fun '(n, x) => if existsb (Nat.eqb n) ws then nth n new x else x) (combine (seq 0 (length now)) now)
  ++ skipn (length old) new.
(** As [commit], for the whole store (lib.rs:146-584). *)
Definition commit_world (c : call) (old new now : world) : world :=
  {| w_params := commit (written KParams c) (w_params old) (w_params new) (w_params now);
     w_states := commit (written KStates c) (w_states old) (w_states new) (w_states now);
     w_jobs := commit (written KJobs c) (w_jobs old) (w_jobs new) (w_jobs now);
     w_pparams := commit (written KPParams c) (w_pparams old) (w_pparams new) (w_pparams now);
     w_pstates := commit (written KPStates c) (w_pstates old) (w_pstates new) (w_pstates now);
     w_hashes := commit (written KHashes c) (w_hashes old) (w_hashes new) (w_hashes now) |}.
(** How many objects of a kind there are; a modelling device (lib.rs:146-584). *)
Definition number (w : world) (k : kind) : nat :=
  match k with
  | KParams => length (w_params w) | KStates => length (w_states w) | KJobs => length (w_jobs w)
  | KPParams => length (w_pparams w) | KPStates => length (w_pstates w) | KHashes => length (w_hashes w)
  end.
(** The references of a thread after its call has returned an object: they come last (return values, e.g.
    lib.rs:165, 208, 482). *)
Definition received (h : refs) (old new now : world) : refs :=
  fun k => h k ++ seq (number now k) (number new k - number old k).

(** A thread: its references, the rest of its program, and the call that it is in, with the features as it
    detected them and the store as it read it (any user of lib.rs:113-660). *)
Record thread := {
  th_refs : refs; th_rest : list call; th_busy : option (target * world * call) }.

Section Threads.
Variables (v : variant) (e : env).

(** One turn of a thread: a call begins, or ends (any call of lib.rs:113-660, many.rs:91-419,
    blake2bp.rs:52-480). *)
Definition turn (w : world) (t : target) (th : thread) : world * thread * option obs :=
  match th_busy th, th_rest th with
  | None, [] => (w, th, None)
  | None, c :: r => (w, {| th_refs := th_refs th; th_rest := r; th_busy := Some (t, w, c) |}, None)
  | Some (t, old, c), r =>
      match resolve (th_refs th) c with
      | None => (w, {| th_refs := th_refs th; th_rest := r; th_busy := None |}, Some Inexpressible)
      | Some c =>
          let '(new, o) := step v e (detect t) old c in
          (commit_world c old new w,
           {| th_refs := received (th_refs th) old new w; th_rest := r; th_busy := None |}, Some o)
      end
  end.

(** A schedule says whose turn it is, and what the feature detection says in that turn (guts.rs:28-44). *)
Fixpoint run_threads (w : world) (ths : list thread) (schedule : list (nat * target)) : list (nat * obs) :=
  match schedule with
  | [] => []
  | (i, t) :: r =>
      match nth_error ths i with
      | None => run_threads w ths r
      | Some th =>
          let '(w, th, o) := turn w t th in
          let rest := run_threads w (set ths i th) r in
          match o with Some o => (i, o) :: rest | None => rest end
      end
  end.

(** The setup on one thread, then all of the threads, each with references to all of the setup's objects (safe
    Rust's std::thread::scope, not in /repo, over lib.rs:113-660). *)
Definition run_concurrently (t : target) (setup : list call) (progs : list (list call)) (schedule : list (nat * target))
    : list (nat * obs) :=
  let w := fold_left (fun w c => fst (step v e (detect t) w c)) setup empty_world in
  run_threads w
    (map (fun p => {| th_refs := fun k => seq 0 (number w k); th_rest := p; th_busy := None |}) progs)
    schedule.

(** A call that is running looks at an object: what it has of the object is then what the store has (reads
    through & and &mut references, at any time in a call of lib.rs:113-660). *)
Definition look {A} (n : nat) (now old : list A) : list A :=
  match nth_error now n with Some x => set old n x | None => old end.
(** As [look], for an object of the store (lib.rs:146-584). *)
Definition look_world (k : kind) (n : nat) (now old : world) : world :=
  match k with
  | KParams => with_w_params (look n (w_params now) (w_params old)) old
  | KStates => with_w_states (look n (w_states now) (w_states old)) old
  | KJobs => with_w_jobs (look n (w_jobs now) (w_jobs old)) old
  | KPParams => with_w_pparams (look n (w_pparams now) (w_pparams old)) old
  | KPStates => with_w_pstates (look n (w_pstates now) (w_pstates old)) old
  | KHashes => with_w_hashes (look n (w_hashes now) (w_hashes old)) old
  end.

(** A history on the one store: a call that begins has detected the features and read the store, may read it again,
    and writes when it ends (any calls of lib.rs:113-660, many.rs:91-419, blake2bp.rs:52-480; the Mutex or the channel
    that orders them is not in /repo). *)
Fixpoint run_history_from (w : world) (running : list (nat * (target * world * call))) (h : list (event target)) : list (nat * obs) :=
  match h with
  | [] => []
  | Begins i t c :: h => run_history_from w ((i, (t, w, c)) :: running) h
  | Reads i k n :: h =>
      run_history_from w
        (map (fun '(j, (t, old, c)) => if Nat.eqb j i then (j, (t, look_world k n w old, c)) else (j, (t, old, c))) running) h
  | Ends i :: h =>
      match in_call i running with
      | None => run_history_from w running h
      | Some (t, old, c) =>
          let '(new, o) := step v e (detect t) old c in
          (i, o) :: run_history_from (commit_world c old new w) (without i running) h
      end
  end.
(** As [run_history_from], from the start (calls of lib.rs:113-660). *)
Definition run_history : list (event target) -> list (nat * obs) := run_history_from empty_world [].
End Threads.
