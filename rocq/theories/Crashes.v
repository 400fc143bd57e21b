(** Vocabulary for C41: batches whose iterator may panic, and the objects a
    program can be left with after any number of them. *)
From Coq Require Import NArith List.
From Verif Require Import Base Guts Impl Loops Lib Many ApiSpec Api History Runs Unwind.
Import ListNotations.

(** The caller's iterator panics at its next() call number [length l + 1],
    having given the items [l]. *)
Definition panics_after {A} (l : list (nat * A)) : list (option (nat * A)) := map Some l.
(** It ends normally after the items [l]. *)
Definition ends_after {A} (l : list (nat * A)) : list (option (nat * A)) := map Some l ++ [None].

(** References are exclusive and point to existing objects. *)
Definition exclusive {A} (n : nat) (l : list (nat * A)) : Prop :=
  NoDup (map fst l) /\ forall r x, In (r, x) l -> (r < n)%nat.

(** States: made by Params, then used in any way, also after batches that
    panicked half way. *)
Inductive handled (v : variant) (e : env) : state -> Prop :=
| handled_new imp ss : supported e imp -> Forall typed ss -> handled v e (to_state v (build v imp ss))
| handled_op s o : handled v e s -> handled v e (fst (do_op v e s o))
| handled_many states l states' n i s :
    Forall (handled v e) states -> exclusive (length states) l ->
    update_many_unwinding v e states (ends_after l) = Value (states', n) ->
    nth_error states' i = Some s -> handled v e s
| handled_panic states l states' i s :
    Forall (handled v e) states -> exclusive (length states) l ->
    update_many_unwinding v e states (panics_after l) = Unwound states' ->
    nth_error states' i = Some s -> handled v e s.

(** HashManyJobs likewise. *)
Inductive handled_job (v : variant) (e : env) : hash_many_job -> Prop :=
| handled_job_new r j : askable e r -> make_job v e r = Ret j -> handled_job v e j
| handled_job_many jobs l jobs' n i j :
    Forall (handled_job v e) jobs -> exclusive (length jobs) l ->
    hash_many_unwinding v e jobs (ends_after l) = Value (jobs', n) ->
    nth_error jobs' i = Some j -> handled_job v e j
| handled_job_panic jobs l jobs' i j :
    Forall (handled_job v e) jobs -> exclusive (length jobs) l ->
    hash_many_unwinding v e jobs (panics_after l) = Unwound jobs' ->
    nth_error jobs' i = Some j -> handled_job v e j.

(** How many objects a batch led by the first item's object can have under way. *)
Definition lanes {C A} (v : variant) (imp : C -> platform) (objects : list C) (l : list (nat * A)) : nat :=
  match l with
  | [] => 1
  | (r, _) :: _ => match nth_error objects r with Some c => degree v (imp c) | None => 1 end
  end.

(** The settings of a State, and what has been done with it before a batch. *)
Definition used : Type := (platform * list setting * list op)%type.
Definition usable (e : env) (u : used) : Prop :=
  let '(imp, ss, _) := u in supported e imp /\ Forall typed ss.
Definition use (v : variant) (e : env) (u : used) : state :=
  let '(imp, ss, pre) := u in after (do_op v e) (to_state v (build v imp ss)) pre.
