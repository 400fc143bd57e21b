(** Model of the batch scheduler compress_many (blake2b/src/many.rs:95-184, the
    same lines in blake2s/src/many.rs), over an arbitrary collection of
    caller-owned objects ("cells").

    A guts::Job holds a mutable borrow of the 8 state words inside some
    caller's object.  Here the objects live in a list [cells], a job names its
    object by position, and the words are read from and written to that
    object.  The jobs iterator is lazy: an item is turned into a job (which
    may modify its object, see [prep]) only when it is pulled. *)
From Coq Require Import Arith NArith List Bool.
From Verif Require Import Base Guts Simd Impl.
Import ListNotations.
Open Scope N_scope.

(** guts::Job with the words borrow replaced by the position of its object
    (guts.rs:137-142; s: 135-140). *)
Record vjob := {
  v_ref : nat;
  v_input : list byte;
  v_count : N;
  v_last_node : bool }.

(** What an adaptor closure produces for an item: no job, or the input, count
    and last-node flag of a job on that item's object (many.rs:230-260, 408-417). *)
Definition prepared := option (list byte * N * bool).

Section Scheduler.
Context {C A : Type}.
Variable get : C -> list N.                     (* read the words of an object *)
Variable put : C -> list N -> C.                (* write the words of an object *)
Variable prep : A -> C -> outcome (C * prepared).
Variables (v : variant) (e : env) (imp : platform) (finalize : bool) (st : stride).

(** The caller's iterator: the results of its successive next() calls (after
    the list it returns None for ever).  [i_peeked] is the item cached by
    Peekable (many.rs:219, 392), [i_done] the flag of Fuse (many.rs:145), [i_calls] counts
    next() calls made on the caller's iterator. *)
Record iter := {
  i_peeked : option (nat * A);
  i_src : list (option (nat * A));
  i_done : bool;
  i_calls : nat }.

(** Access to an object through a reference; a dangling one is UB (the borrows state and words of
    many.rs:230, 253-258, 409-416). *)
Definition cell (cells : list C) (r : nat) : outcome C :=
  match nth_error cells r with Some c => Ret c | None => UB end.

(** Turning one pulled item into a job: the closures of flat_map / map (many.rs:230-260, 408-417). *)
Definition start (cells : list C) (it : nat * A) : outcome (list C * option vjob) :=
  let '(r, a) := it in
  do c <- cell cells r;
  do '(c', p) <- prep a c;
  let cells' := set cells r c' in
  match p with
  | None => Ret (cells', None)
  | Some (input, count, last_node) =>
      Ret (cells', Some {| v_ref := r; v_input := input; v_count := count;
                           v_last_node := last_node |})
  end.

(** next() on the fused, adapted source: skip items that give no job (flat_map of many.rs:230,
    filter of many.rs:408; std's FlatMap, Filter and Fuse are not in /repo). *)
Fixpoint pull_src (src : list (option (nat * A))) (calls : nat) (cells : list C)
    : outcome (iter * list C * option vjob) :=
  match src with
  | [] => Ret ({| i_peeked := None; i_src := []; i_done := true; i_calls := S calls |}, cells, None)
  | None :: src' =>
      Ret ({| i_peeked := None; i_src := src'; i_done := true; i_calls := S calls |}, cells, None)
  | Some it :: src' =>
      do '(cells', o) <- start cells it;
      match o with
      | Some j =>
          Ret ({| i_peeked := None; i_src := src'; i_done := false; i_calls := S calls |},
               cells', Some j)
      | None => pull_src src' (S calls) cells'
      end
  end.

(** jobs_iter.next(), many.rs:105 and 175: the peeked item first, nothing after the first None (fuse, 145). *)
Definition next (it : iter) (cells : list C) : outcome (iter * list C * option vjob) :=
  if i_done it then Ret (it, cells, None)
  else match i_peeked it with
       | None => pull_src (i_src it) (i_calls it) cells
       | Some p =>
           do '(cells', o) <- start cells p;
           match o with
           | Some j =>
               Ret ({| i_peeked := None; i_src := i_src it; i_done := false;
                       i_calls := i_calls it |}, cells', Some j)
           | None => pull_src (i_src it) (i_calls it) cells'
           end
       end.

(** fill_jobs_vec, many.rs:99-111.  [k] is target_len - vec.len(); push panics
    when the ArrayVec (capacity MAX_DEGREE) is full. *)
Fixpoint fill (k : nat) (it : iter) (cells : list C) (vec : list vjob)
    : outcome (iter * list C * list vjob) :=
  match k with
  | O => Ret (it, cells, vec)
  | S k' =>
      do '(it', cells', o) <- next it cells;
      match o with
      | None => Ret (it', cells', vec)
      | Some j =>
          do _ <- assert_ (Nat.ltb (length vec) (max_degree v true));
          fill k' it' cells' (vec ++ [j])
      end
  end.

(** fill_jobs_vec, many.rs:99-111. *)
Definition fill_jobs_vec (it : iter) (cells : list C) (vec : list vjob) (target_len : nat) :=
  fill (target_len - length vec) it cells vec.

(** ArrayVec::pop_at(i), result dropped (many.rs:129). *)
Definition pop_at (vec : list vjob) (i : nat) : list vjob := firstn i vec ++ skipn (S i) vec.

(** evict_finished, many.rs:115-132: i = num_jobs-1 down to 0. *)
Fixpoint evict_finished (vec : list vjob) (num_jobs : nat) : outcome (list vjob) :=
  match num_jobs with
  | O => Ret vec
  | S i =>
      do _ <- debug_assert (e_dbg e) (Nat.ltb i (length vec));
      let vec :=
        match nth_error vec i with
        | Some j => match v_input j with [] => pop_at vec i | _ :: _ => vec end
        | None => vec
        end in
      evict_finished vec i
  end.

(** The job as the kernels see it: words read through the borrow (many.rs:156-157, 169-170). *)
Definition load_job (cells : list C) (j : vjob) : outcome job :=
  do c <- cell cells (v_ref j);
  Ret {| j_input := v_input j; j_words := get c; j_count := v_count j;
         j_last_node := v_last_node j |}.

(** The kernels' write to *words through the borrow (guts.rs:137-142; many.rs:157, 170, 182). *)
Definition store_words (cells : list C) (r : nat) (ws : list N) : outcome (list C) :=
  do c <- cell cells r; Ret (set cells r (put c ws)).

(** What compressN_loop leaves in the jobs (many.rs:157, 170): words, input, count. *)
Fixpoint store_jobs (cells : list C) (js : list (vjob * job)) : outcome (list C * list vjob) :=
  match js with
  | [] => Ret (cells, [])
  | (j, k) :: r =>
      do cells' <- store_words cells (v_ref j) (j_words k);
      do '(cells'', vs) <- store_jobs cells' r;
      Ret (cells'', {| v_ref := v_ref j; v_input := j_input k; v_count := j_count k;
                       v_last_node := j_last_node k |} :: vs)
  end.

(** imp.compressN_loop(array_mut_ref!(jobs_vec, 0, n), finalize, stride), many.rs:157, 170. *)
Definition run_jobs (loop : list job -> outcome (list job)) (n : nat) (cells : list C)
    (vec : list vjob) : outcome (list C * list vjob) :=
  do front <- slice vec 0 n;
  do js <- mapM (load_job cells) front;
  do js' <- loop js;
  do '(cells', front') <- store_jobs cells (combine front js');
  Ret (cells', front' ++ skipn n vec).

(** One of the two [loop]s, many.rs:151-160 (n = 4; s: 8) and 164-173 (n = 2; s: 4). *)
Fixpoint batch_loop (loop : list job -> outcome (list job)) (n : nat) (fuel : nat)
    (it : iter) (cells : list C) (vec : list vjob) : outcome (iter * list C * list vjob) :=
  match fuel with
  | O => Diverge
  | S fuel' =>
      do '(it, cells, vec) <- fill_jobs_vec it cells vec n;
      if Nat.ltb (length vec) n then Ret (it, cells, vec)
      else
        do '(cells, vec) <- run_jobs loop n cells vec;
        do vec <- evict_finished vec n;
        batch_loop loop n fuel' it cells vec
  end.

(** many.rs:150, 152: 4 in blake2b; 8 in blake2s. *)
Definition wide : nat := match v with V2b => 4 | V2s => 8 end.
(** many.rs:163, 165: 2 in blake2b; 4 in blake2s. *)
Definition narrow : nat := match v with V2b => 2 | V2s => 4 end.

(** The body of the final for loop, many.rs:176-182. *)
Definition run_one (cells : list C) (j : vjob) : outcome (list C) :=
  do c <- cell cells (v_ref j);
  do ws <- compress1_loop v e imp (v_input j) (get c) (v_count j) (v_last_node j) finalize st;
  store_words cells (v_ref j) ws.

(** The collected jobs of the chained iterator, many.rs:175-183. *)
Fixpoint run_vec (cells : list C) (vec : list vjob) : outcome (list C) :=
  match vec with
  | [] => Ret cells
  | j :: r => do cells' <- run_one cells j; run_vec cells' r
  end.

(** The rest of the chained iterator, many.rs:175-183. *)
Fixpoint run_rest (fuel : nat) (it : iter) (cells : list C) : outcome (iter * list C) :=
  match fuel with
  | O => Diverge
  | S fuel' =>
      do '(it', cells', o) <- next it cells;
      match o with
      | None => Ret (it', cells')
      | Some j => do cells'' <- run_one cells' j; run_rest fuel' it' cells''
      end
  end.

(** compress_many, many.rs:134-184.  The two cfg(x86) blocks are guarded by
    the degree, which is 1 on other architectures. *)
Definition compress_many (it : iter) (cells : list C) : outcome (iter * list C) :=
  let fuel := (2 + length (i_src it))%nat in
  do '(it, cells, vec) <-
    (if Nat.leb wide (degree v imp)
     then batch_loop (fun js => compress_wide_loop v e imp js finalize st) wide fuel it cells []
     else Ret (it, cells, []));
  do '(it, cells, vec) <-
    (if Nat.leb narrow (degree v imp)
     then batch_loop (fun js => compress_narrow_loop v e imp js finalize st) narrow
            (fuel + length vec) it cells vec
     else Ret (it, cells, vec));
  do cells <- run_vec cells vec;
  run_rest fuel it cells.

End Scheduler.

Arguments iter : clear implicits.
