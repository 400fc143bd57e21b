(** Model of the batch functions when the caller's iterator panics
    (blake2b/src/many.rs:95-184, 213-264, 386-419; the same lines in
    blake2s/src/many.rs), with what the caller's objects look like when the
    panic unwinds out of update_many or hash_many.

    The iterator answers its successive next() calls as listed and panics at
    the next one; an iterator that ends has a None in the list (Sched.v's
    [iter] answers None for ever instead).  A panic in the [as_ref] of an item
    (many.rs:231) happens before anything is done for that item, so it is the
    same as a panic of the next() that would have given it.

    The functions are those of Sched.v and Many.v with a result type that
    carries the objects out of a panic.  The code has no catch_unwind and the
    Job values hold plain borrows (no Drop), so unwinding itself changes
    nothing. *)
From Coq Require Import Arith NArith List Bool.
From Verif Require Import Base Guts Simd Impl Sched Lib Many.
Import ListNotations.
Open Scope N_scope.

(** A value, a panic of the iterator with the objects as it leaves them, or
    any other failure of the code (a panic of its own, UB, divergence): the ways many.rs:134-184 can end. *)
Inductive unwinding (C X : Type) : Type :=
| Value (x : X)
| Unwound (cells : list C)
| Stuck.
Arguments Value {C X}.
Arguments Unwound {C X}.
Arguments Stuck {C X}.

(** Sequencing (as Base.bind): a panic skips the rest of the function (many.rs:95-184). *)
Definition ubind {C X Y} (m : unwinding C X) (f : X -> unwinding C Y) : unwinding C Y :=
  match m with Value x => f x | Unwound c => Unwound c | Stuck => Stuck end.
(** A part of many.rs:95-184 that does not call the iterator. *)
Definition inside {C X} (m : outcome X) : unwinding C X :=
  match m with Ret x => Value x | _ => Stuck end.

Notation "'dou' p <- m ; f" := (ubind m (fun p => f)) (at level 60, p pattern, m at level 59, right associativity).

Section Scheduler.
Context {C A : Type}.
Variable get : C -> list N.
Variable put : C -> list N -> C.
Variable prep : A -> C -> outcome (C * prepared).
Variables (v : variant) (e : env) (imp : platform) (finalize : bool) (st : stride).

(** Sched.pull_src (many.rs:105, 145, 230, 408), but the end of the list is a panic. *)
Fixpoint upull_src (src : list (option (nat * A))) (calls : nat) (cells : list C)
    : unwinding C (iter A * list C * option vjob) :=
  match src with
  | [] => Unwound cells
  | None :: src' =>
      Value ({| i_peeked := None; i_src := src'; i_done := true; i_calls := S calls |}, cells, None)
  | Some it :: src' =>
      dou (cells', o) <- inside (start prep cells it);
      match o with
      | Some j =>
          Value ({| i_peeked := None; i_src := src'; i_done := false; i_calls := S calls |},
                 cells', Some j)
      | None => upull_src src' (S calls) cells'
      end
  end.

(** jobs_iter.next(), many.rs:105 and 175 (as Sched.next). *)
Definition unext (it : iter A) (cells : list C) : unwinding C (iter A * list C * option vjob) :=
  if i_done it then Value (it, cells, None)
  else match i_peeked it with
       | None => upull_src (i_src it) (i_calls it) cells
       | Some p =>
           dou (cells', o) <- inside (start prep cells p);
           match o with
           | Some j =>
               Value ({| i_peeked := None; i_src := i_src it; i_done := false;
                         i_calls := i_calls it |}, cells', Some j)
           | None => upull_src (i_src it) (i_calls it) cells'
           end
       end.

(** fill_jobs_vec, many.rs:99-111. *)
Fixpoint ufill (k : nat) (it : iter A) (cells : list C) (vec : list vjob)
    : unwinding C (iter A * list C * list vjob) :=
  match k with
  | O => Value (it, cells, vec)
  | S k' =>
      dou (it', cells', o) <- unext it cells;
      match o with
      | None => Value (it', cells', vec)
      | Some j =>
          dou _ <- inside (assert_ (Nat.ltb (length vec) (max_degree v true)));
          ufill k' it' cells' (vec ++ [j])
      end
  end.

(** The two [loop]s, many.rs:151-160 and 164-173. *)
Fixpoint ubatch_loop (loop : list job -> outcome (list job)) (n : nat) (fuel : nat)
    (it : iter A) (cells : list C) (vec : list vjob)
    : unwinding C (iter A * list C * list vjob) :=
  match fuel with
  | O => Stuck
  | S fuel' =>
      dou (it, cells, vec) <- ufill (n - length vec) it cells vec;
      if Nat.ltb (length vec) n then Value (it, cells, vec)
      else
        dou (cells, vec) <- inside (run_jobs get put loop n cells vec);
        dou vec <- inside (evict_finished e vec n);
        ubatch_loop loop n fuel' it cells vec
  end.

(** The final for loop, many.rs:176-182, past the jobs already collected. *)
Fixpoint urun_rest (fuel : nat) (it : iter A) (cells : list C) : unwinding C (iter A * list C) :=
  match fuel with
  | O => Stuck
  | S fuel' =>
      dou (it', cells', o) <- unext it cells;
      match o with
      | None => Value (it', cells')
      | Some j =>
          dou cells'' <- inside (run_one get put v e imp finalize st cells' j);
          urun_rest fuel' it' cells''
      end
  end.

(** compress_many, many.rs:134-184. *)
Definition ucompress_many (it : iter A) (cells : list C) : unwinding C (iter A * list C) :=
  let fuel := (2 + length (i_src it))%nat in
  dou (it, cells, vec) <-
    (if Nat.leb (wide v) (degree v imp)
     then ubatch_loop (fun js => compress_wide_loop v e imp js finalize st) (wide v) fuel it cells []
     else Value (it, cells, []));
  dou (it, cells, vec) <-
    (if Nat.leb (narrow v) (degree v imp)
     then ubatch_loop (fun js => compress_narrow_loop v e imp js finalize st) (narrow v)
            (fuel + length vec) it cells vec
     else Value (it, cells, vec));
  dou cells <- inside (run_vec get put v e imp finalize st cells vec);
  urun_rest fuel it cells.

End Scheduler.

(** update_many, many.rs:213-264.  The peek of the first item (many.rs:220) is
    a next() call too. *)
Definition update_many_unwinding (v : variant) (e : env) (states : list state)
    (pairs : list (option (nat * list byte))) : unwinding state (list state * nat) :=
  match pairs with
  | [] => Unwound states
  | _ :: _ =>
      let it := peek pairs in
      match i_peeked it with
      | None => Value (states, i_calls it)
      | Some (r, _) =>
          dou s <- inside (cell states r);
          dou (it, states) <-
            ucompress_many s_words (fun s ws => set_s_words ws s) (update_prep v e)
              v e (s_imp s) false Serial it states;
          Value (states, i_calls it)
      end
  end.

(** hash_many, many.rs:386-419. *)
Definition hash_many_unwinding (v : variant) (e : env) (jobs : list hash_many_job)
    (refs : list (option (nat * unit))) : unwinding hash_many_job (list hash_many_job * nat) :=
  match refs with
  | [] => Unwound jobs
  | _ :: _ =>
      let it := peek refs in
      match i_peeked it with
      | None => Value (jobs, i_calls it)
      | Some (r, _) =>
          dou j <- inside (cell jobs r);
          dou (it, jobs) <-
            ucompress_many hj_words (fun j ws => set_hj_words ws j) hash_prep
              v e (hj_imp j) true Serial it jobs;
          Value (jobs, i_calls it)
      end
  end.
