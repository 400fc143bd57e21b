(** Model of the batch functions on an iterator that does something itself and
    that may panic (blake2b/src/many.rs:95-184, 213-264, 386-419; the same lines
    in blake2s/src/many.rs): Lazy.v and Unwind.v in one.

    next() is a program of the caller that may look at and change the objects of
    the program and then answers with an item, ends, or panics; in the last case
    what it has done until then stays done.  The functions are those of Unwind.v
    with next() called at the moment the code calls it; unwinding itself changes
    nothing (see there). *)
From Coq Require Import Arith NArith List Bool.
From Verif Require Import Base Guts Simd Impl Sched Lib Many Lazy BurstSpec.
Import ListNotations.
Open Scope N_scope.

(** A value, a panic of next() with the iterator and the objects as it leaves
    them, or any other failure (a panic of the code itself, UB, divergence):
    the ways many.rs:134-184 can end. *)
Inductive lunwinding (S C X : Type) : Type :=
| LValue (x : X)
| LUnwound (s : S) (cells : list C)
| LStuck.
Arguments LValue {S C X}.
Arguments LUnwound {S C X}.
Arguments LStuck {S C X}.

(** Sequencing, as Unwind.ubind (many.rs:95-184). *)
Definition lubind {S C X Y} (m : lunwinding S C X) (f : X -> lunwinding S C Y) : lunwinding S C Y :=
  match m with LValue x => f x | LUnwound s c => LUnwound s c | LStuck => LStuck end.
(** A part of many.rs:95-184 that does not call the iterator. *)
Definition linside {S C X} (m : outcome X) : lunwinding S C X :=
  match m with Ret x => LValue x | _ => LStuck end.

Notation "'dol' p <- m ; f" := (lubind m (fun p => f)) (at level 60, p pattern, m at level 59, right associativity).

Section Scheduler.
Context {C A S : Type}.
Variable get : C -> list N.
Variable put : C -> list N -> C.
Variable prep : A -> C -> outcome (C * prepared).
(** The caller's next() (the parameter I of many.rs:213-216, 386-389). *)
Variable step : S -> list C -> S * list C * answer A.
Variables (v : variant) (e : env) (imp : platform) (finalize : bool) (st : stride).

(** Sched.pull_src (many.rs:105, 145, 230, 408): items that give no job are skipped. *)
Fixpoint bpull (fuel : nat) (s : S) (calls : nat) (cells : list C)
    : lunwinding S C (liter A S * list C * option vjob) :=
  match fuel with
  | O => LStuck
  | Datatypes.S fuel' =>
      let '(s', cells', o) := step s cells in
      match o with
      | Panics => LUnwound s' cells'
      | Ends =>
          LValue ({| l_peeked := None; l_state := s'; l_done := true; l_calls := Datatypes.S calls |}, cells', None)
      | Gives it =>
          dol (cells'', o) <- linside (start prep cells' it);
          match o with
          | Some j =>
              LValue ({| l_peeked := None; l_state := s'; l_done := false; l_calls := Datatypes.S calls |},
                      cells'', Some j)
          | None => bpull fuel' s' (Datatypes.S calls) cells''
          end
      end
  end.

(** jobs_iter.next(), many.rs:105 and 175 (as Sched.next). *)
Definition bnext (fuel : nat) (it : liter A S) (cells : list C) : lunwinding S C (liter A S * list C * option vjob) :=
  if l_done it then LValue (it, cells, None)
  else match l_peeked it with
       | None => bpull fuel (l_state it) (l_calls it) cells
       | Some p =>
           dol (cells', o) <- linside (start prep cells p);
           match o with
           | Some j =>
               LValue ({| l_peeked := None; l_state := l_state it; l_done := false;
                          l_calls := l_calls it |}, cells', Some j)
           | None => bpull fuel (l_state it) (l_calls it) cells'
           end
       end.

(** fill_jobs_vec, many.rs:99-111. *)
Fixpoint bfill (fuel : nat) (k : nat) (it : liter A S) (cells : list C) (vec : list vjob)
    : lunwinding S C (liter A S * list C * list vjob) :=
  match k with
  | O => LValue (it, cells, vec)
  | Datatypes.S k' =>
      dol (it', cells', o) <- bnext fuel it cells;
      match o with
      | None => LValue (it', cells', vec)
      | Some j =>
          dol _ <- linside (assert_ (Nat.ltb (length vec) (max_degree v true)));
          bfill fuel k' it' cells' (vec ++ [j])
      end
  end.

(** The two [loop]s, many.rs:151-160 and 164-173. *)
Fixpoint bbatch_loop (pulls : nat) (loop : list job -> outcome (list job)) (n : nat) (fuel : nat)
    (it : liter A S) (cells : list C) (vec : list vjob) : lunwinding S C (liter A S * list C * list vjob) :=
  match fuel with
  | O => LStuck
  | Datatypes.S fuel' =>
      dol (it, cells, vec) <- bfill pulls (n - length vec) it cells vec;
      if Nat.ltb (length vec) n then LValue (it, cells, vec)
      else
        dol (cells, vec) <- linside (run_jobs get put loop n cells vec);
        dol vec <- linside (evict_finished e vec n);
        bbatch_loop pulls loop n fuel' it cells vec
  end.

(** The final for loop, many.rs:175-183, past the jobs already collected. *)
Fixpoint brun_rest (pulls fuel : nat) (it : liter A S) (cells : list C) : lunwinding S C (liter A S * list C) :=
  match fuel with
  | O => LStuck
  | Datatypes.S fuel' =>
      dol (it', cells', o) <- bnext pulls it cells;
      match o with
      | None => LValue (it', cells')
      | Some j =>
          dol cells'' <- linside (run_one get put v e imp finalize st cells' j);
          brun_rest pulls fuel' it' cells''
      end
  end.

(** compress_many, many.rs:134-184. *)
Definition bcompress_many (pulls : nat) (it : liter A S) (cells : list C) : lunwinding S C (liter A S * list C) :=
  let fuel := (2 + pulls)%nat in
  dol (it, cells, vec) <-
    (if Nat.leb (wide v) (degree v imp)
     then bbatch_loop pulls (fun js => compress_wide_loop v e imp js finalize st) (wide v) fuel it cells []
     else LValue (it, cells, []));
  dol (it, cells, vec) <-
    (if Nat.leb (narrow v) (degree v imp)
     then bbatch_loop pulls (fun js => compress_narrow_loop v e imp js finalize st) (narrow v)
            (fuel + length vec) it cells vec
     else LValue (it, cells, vec));
  dol cells <- linside (run_vec get put v e imp finalize st cells vec);
  brun_rest pulls fuel it cells.
End Scheduler.

(** update_many, many.rs:213-264, on an iterator in state [s]; also returns the state it is left
    in and the number of next() calls.  The peek of the first item (many.rs:220) is a next() call too. *)
Definition update_many_bursting {S} (v : variant) (e : env) (fuel : nat)
    (step : S -> list state -> S * list state * answer (list byte)) (s : S) (states : list state)
    : lunwinding S state (S * list state * nat) :=
  let '(s, states, o) := step s states in
  match o with
  | Panics => LUnwound s states
  | Ends => LValue (s, states, 1%nat)
  | Gives (r, x) =>
      dol first <- linside (cell states r);
      dol (it, states) <-
        bcompress_many s_words (fun s ws => set_s_words ws s) (update_prep v e) step
          v e (s_imp first) false Serial fuel
          {| l_peeked := Some (r, x); l_state := s; l_done := false; l_calls := 1 |} states;
      LValue (l_state it, states, l_calls it)
  end.

(** hash_many, many.rs:386-419, likewise. *)
Definition hash_many_bursting {S} (v : variant) (e : env) (fuel : nat)
    (step : S -> list hash_many_job -> S * list hash_many_job * answer unit) (s : S) (jobs : list hash_many_job)
    : lunwinding S hash_many_job (S * list hash_many_job * nat) :=
  let '(s, jobs, o) := step s jobs in
  match o with
  | Panics => LUnwound s jobs
  | Ends => LValue (s, jobs, 1%nat)
  | Gives (r, x) =>
      dol first <- linside (cell jobs r);
      dol (it, jobs) <-
        bcompress_many hj_words (fun j ws => set_hj_words ws j) hash_prep step
          v e (hj_imp first) true Serial fuel
          {| l_peeked := Some (r, x); l_state := s; l_done := false; l_calls := 1 |} jobs;
      LValue (l_state it, jobs, l_calls it)
  end.
