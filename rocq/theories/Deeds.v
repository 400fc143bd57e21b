(** Vocabulary of C60: what an iterator may do with the library while a batch
    runs, in terms of the calls of Runs.v. *)
From Coq Require Import Arith NArith List Bool.
From Verif Require Import Base Guts Simd Impl Sched Lib Many LazySpec.
From Verif Require Import Loops ApiSpec Machine History Api Runs.
Import ListNotations.
Open Scope list_scope.

(** All that an iterator does, in the order in which it does it. *)
Definition all_deeds {D A} (td : list (list D * (nat * A))) (ae : list D) : list D := concat (map fst td) ++ ae.
(** A fresh iterator. *)
Definition writing {D A O} (td : list (list D * (nat * A))) (ae : list D) : writer D A O :=
  {| to_do := td; at_end := ae; gone := []; log := [] |}.

(** ** Deeds on States *)
Inductive deed :=
| Act (i : nat) (o : op)                                 (* a method call *)
| Renew (i : nat) (imp : platform) (ss : list setting)   (* *s = params.to_state() *)
| Copy (i j : nat)                                       (* *s = t.clone() *)
| Batch (pairs : list (nat * list byte)).                (* update_many itself *)
Definition perform (v : variant) (e : env) (d : deed) (states : list state) : list state * list obs :=
  match d with
  | Act i o =>
      match nth_error states i with
      | Some s => let '(s', x) := do_op v e s o in (exchange states i s', [x])
      | None => (states, [])
      end
  | Renew i imp ss => (exchange states i (to_state v (build v imp ss)), [])
  | Copy i j => match nth_error states j with Some s => (exchange states i s, []) | None => (states, []) end
  | Batch pairs =>
      match update_many v e states (map Some pairs) with Ret (states', _) => (states', []) | _ => (states, []) end
  end.
Definition uses (d : deed) : list nat :=
  match d with
  | Act i _ | Renew i _ _ => [i]
  | Copy i j => [i; j]
  | Batch pairs => map fst pairs
  end.
Definition proper (e : env) (d : deed) : Prop :=
  match d with
  | Renew _ imp ss => supported e imp /\ Forall typed ss
  | Batch pairs => NoDup (map fst pairs)
  | _ => True
  end.

(** ** Deeds on HashManyJobs *)
Inductive job_deed :=
| Remake (i : nat) (r : request)          (* *j = HashManyJob::new(params, input) *)
| Show (i : nat)                          (* {:?} *)
| Run (refs : list nat).                  (* hash_many itself *)
Definition perform_job (v : variant) (e : env) (d : job_deed) (jobs : list hash_many_job) : list hash_many_job * list obs :=
  match d with
  | Remake i r => match make_job v e r with Ret j => (exchange jobs i j, []) | _ => (jobs, []) end
  | Show i => match nth_error jobs i with Some j => (jobs, [Text (hash_many_job_debug j)]) | None => (jobs, []) end
  | Run refs => match hash_many v e jobs (items refs) with Ret (jobs', _) => (jobs', []) | _ => (jobs, []) end
  end.
Definition job_uses (d : job_deed) : list nat :=
  match d with Remake i _ | Show i => [i] | Run refs => refs end.
Definition job_proper (e : env) (d : job_deed) : Prop :=
  match d with Remake _ r => askable e r | Show _ => True | Run refs => NoDup refs end.

