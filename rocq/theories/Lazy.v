(** Model of the batch functions on an iterator that does something itself
    (blake2b/src/many.rs:95-184, 213-264, 386-419; the same lines in
    blake2s/src/many.rs).

    Sched.v takes the answers of the caller's iterator as a list.  Here the
    iterator is a program of the caller: a next() call runs code that may look at and
    change the objects of the program (and use this library to do it), and
    that may decide from what it sees what to hand out.  The functions are
    those of Sched.v and Many.v with the iterator called at the moment the code
    calls it.  next() is assumed to return (a panic in it is Unwind.v's
    subject); [fuel] bounds the number of calls. *)
From Coq Require Import Arith NArith List Bool.
From Verif Require Import Base Guts Simd Impl Sched Lib Many.
Import ListNotations.
Open Scope N_scope.

Section Scheduler.
Context {C A S : Type}.
Variable get : C -> list N.
Variable put : C -> list N -> C.
Variable prep : A -> C -> outcome (C * prepared).
(** The caller's next(): from the state of the iterator and the objects to
    their new values and the item handed out (the parameter I of many.rs:213-216, 386-389). *)
Variable step : S -> list C -> S * list C * option (nat * A).
Variables (v : variant) (e : env) (imp : platform) (finalize : bool) (st : stride).

(** The peekable (many.rs:219, 392) and fused (many.rs:145) iterator, as Sched.iter. *)
Record liter := {
  l_peeked : option (nat * A);
  l_state : S;
  l_done : bool;
  l_calls : nat }.

(** Sched.pull_src (many.rs:105, 145, 230, 408): items that give no job are skipped. *)
Fixpoint lpull (fuel : nat) (s : S) (calls : nat) (cells : list C)
    : outcome (liter * list C * option vjob) :=
  match fuel with
  | O => Diverge
  | Datatypes.S fuel' =>
      let '(s', cells', o) := step s cells in
      match o with
      | None =>
          Ret ({| l_peeked := None; l_state := s'; l_done := true; l_calls := Datatypes.S calls |}, cells', None)
      | Some it =>
          do '(cells'', o) <- start prep cells' it;
          match o with
          | Some j =>
              Ret ({| l_peeked := None; l_state := s'; l_done := false; l_calls := Datatypes.S calls |},
                   cells'', Some j)
          | None => lpull fuel' s' (Datatypes.S calls) cells''
          end
      end
  end.

(** jobs_iter.next(), many.rs:105 and 175 (as Sched.next). *)
Definition lnext (fuel : nat) (it : liter) (cells : list C) : outcome (liter * list C * option vjob) :=
  if l_done it then Ret (it, cells, None)
  else match l_peeked it with
       | None => lpull fuel (l_state it) (l_calls it) cells
       | Some p =>
           do '(cells', o) <- start prep cells p;
           match o with
           | Some j =>
               Ret ({| l_peeked := None; l_state := l_state it; l_done := false;
                       l_calls := l_calls it |}, cells', Some j)
           | None => lpull fuel (l_state it) (l_calls it) cells'
           end
       end.

(** fill_jobs_vec, many.rs:99-111 (as Sched.fill). *)
Fixpoint lfill (fuel : nat) (k : nat) (it : liter) (cells : list C) (vec : list vjob)
    : outcome (liter * list C * list vjob) :=
  match k with
  | O => Ret (it, cells, vec)
  | Datatypes.S k' =>
      do '(it', cells', o) <- lnext fuel it cells;
      match o with
      | None => Ret (it', cells', vec)
      | Some j =>
          do _ <- assert_ (Nat.ltb (length vec) (max_degree v true));
          lfill fuel k' it' cells' (vec ++ [j])
      end
  end.

(** The two [loop]s, many.rs:151-160 and 164-173 (as Sched.batch_loop); [n] is the number of
    lanes, [pulls] the bound on next() calls. *)
Fixpoint lbatch_loop (pulls : nat) (loop : list job -> outcome (list job)) (n : nat) (fuel : nat)
    (it : liter) (cells : list C) (vec : list vjob) : outcome (liter * list C * list vjob) :=
  match fuel with
  | O => Diverge
  | Datatypes.S fuel' =>
      do '(it, cells, vec) <- lfill pulls (n - length vec) it cells vec;
      if Nat.ltb (length vec) n then Ret (it, cells, vec)
      else
        do '(cells, vec) <- run_jobs get put loop n cells vec;
        do vec <- evict_finished e vec n;
        lbatch_loop pulls loop n fuel' it cells vec
  end.

(** The final for loop, many.rs:175-183, past the jobs already collected. *)
Fixpoint lrun_rest (pulls fuel : nat) (it : liter) (cells : list C) : outcome (liter * list C) :=
  match fuel with
  | O => Diverge
  | Datatypes.S fuel' =>
      do '(it', cells', o) <- lnext pulls it cells;
      match o with
      | None => Ret (it', cells')
      | Some j =>
          do cells'' <- run_one get put v e imp finalize st cells' j;
          lrun_rest pulls fuel' it' cells''
      end
  end.

(** compress_many, many.rs:134-184. *)
Definition lcompress_many (pulls : nat) (it : liter) (cells : list C) : outcome (liter * list C) :=
  let fuel := (2 + pulls)%nat in
  do '(it, cells, vec) <-
    (if Nat.leb (wide v) (degree v imp)
     then lbatch_loop pulls (fun js => compress_wide_loop v e imp js finalize st) (wide v) fuel it cells []
     else Ret (it, cells, []));
  do '(it, cells, vec) <-
    (if Nat.leb (narrow v) (degree v imp)
     then lbatch_loop pulls (fun js => compress_narrow_loop v e imp js finalize st) (narrow v)
            (fuel + length vec) it cells vec
     else Ret (it, cells, vec));
  do cells <- run_vec get put v e imp finalize st cells vec;
  lrun_rest pulls fuel it cells.

(** Peekable::peek on the fresh iterator (many.rs:219-220, 392-393): one next() call. *)
Definition lpeek (s : S) (cells : list C) : liter * list C :=
  let '(s', cells', o) := step s cells in
  ({| l_peeked := o; l_state := s'; l_done := match o with Some _ => false | None => true end;
      l_calls := 1 |}, cells').
End Scheduler.

Arguments liter : clear implicits.

(** update_many, many.rs:213-264, on an iterator in state [s]; also returns the state it is left
    in and the number of next() calls. *)
Definition update_many_lazy {S} (v : variant) (e : env) (fuel : nat)
    (step : S -> list state -> S * list state * option (nat * list byte)) (s : S) (states : list state)
    : outcome (S * list state * nat) :=
  let '(it, states) := lpeek step s states in
  match l_peeked it with
  | None => Ret (l_state it, states, l_calls it)
  | Some (r, _) =>
      do first <- cell states r;
      do '(it, states) <-
        lcompress_many s_words (fun s ws => set_s_words ws s) (update_prep v e) step
          v e (s_imp first) false Serial fuel it states;
      Ret (l_state it, states, l_calls it)
  end.

(** hash_many, many.rs:386-419, likewise. *)
Definition hash_many_lazy {S} (v : variant) (e : env) (fuel : nat)
    (step : S -> list hash_many_job -> S * list hash_many_job * option (nat * unit)) (s : S)
    (jobs : list hash_many_job) : outcome (S * list hash_many_job * nat) :=
  let '(it, jobs) := lpeek step s jobs in
  match l_peeked it with
  | None => Ret (l_state it, jobs, l_calls it)
  | Some (r, _) =>
      do first <- cell jobs r;
      do '(it, jobs) <-
        lcompress_many hj_words (fun j ws => set_hj_words ws j) hash_prep step
          v e (hj_imp first) true Serial fuel it jobs;
      Ret (l_state it, jobs, l_calls it)
  end.
