(** Model of the public batch interface, blake2b/src/many.rs:91-93 and 213-419
    (the same lines in blake2s/src/many.rs). *)
From Coq Require Import String.
From Coq Require Import Arith NArith List Bool.
From Verif Require Import Base Guts Simd Impl Sched Lib.
Import ListNotations.
Open Scope N_scope.

(** degree, many.rs:91-93. *)
Definition many_degree (v : variant) (t : target) : nat := degree v (detect t).

(** Peekable::peek on a fresh iterator (many.rs:219-220, 392-393): one next() call on the source. *)
Definition peek {A} (src : list (option (nat * A))) : iter A :=
  match src with
  | Some it :: r => {| i_peeked := Some it; i_src := r; i_done := false; i_calls := 1 |}
  | None :: r => {| i_peeked := None; i_src := r; i_done := true; i_calls := 1 |}
  | [] => {| i_peeked := None; i_src := []; i_done := true; i_calls := 1 |}
  end.

(** ** update_many *)

(** The flat_map closure, many.rs:230-260: try to finish the buffered block,
    buffer the last block of the input, and make a job of the rest. *)
Definition update_prep (v : variant) (e : env) (input : list byte) (s : state)
    : outcome (state * prepared) :=
  do '(s, input) <- compress_buffer_if_possible v e s input;
  match input with
  | [] => Ret (s, None)
  | _ :: _ =>
      let last_block_start := (length input - 1)%nat in
      let last_block_start := (last_block_start - last_block_start mod blockbytes v)%nat in
      do blocks <- slice input 0 last_block_start;
      do last_block <- slice_from input last_block_start;
      do buf <- copy_into (s_buf s) 0 last_block;
      let s := set_s_buf buf s in
      let s := set_s_buflen (N.to_nat (as_u8 (length last_block))) s in
      match blocks with
      | [] => Ret (s, None)
      | _ :: _ =>
          let count := s_count s in
          let s := set_s_count (count_wrapping_add v (s_count s) (N.of_nat (length blocks))) s in
          Ret (s, Some (blocks, count, s_last_node s))
      end
  end.

(** update_many, many.rs:213-264.  [states] are all the State objects, [pairs]
    what the caller's iterator yields: references to states (positions) with
    their inputs.  Also returns the number of next() calls made. *)
Definition update_many (v : variant) (e : env) (states : list state)
    (pairs : list (option (nat * list byte))) : outcome (list state * nat) :=
  let it := peek pairs in
  match i_peeked it with
  | None => Ret (states, i_calls it)
  | Some (r, _) =>
      do s <- cell states r;
      do '(it, states) <-
        compress_many s_words (fun s ws => set_s_words ws s) (update_prep v e)
          v e (s_imp s) false Serial it states;
      Ret (states, i_calls it)
  end.

(** ** hash_many *)

(** HashManyJob, many.rs:273-281. *)
Record hash_many_job := {
  hj_words : list N;
  hj_count : N;
  hj_last_node : bool;
  hj_hash_length : N;
  hj_input : list byte;
  hj_finished : bool;
  hj_imp : platform }.

(** The job's write to words (many.rs:413). *)
Definition set_hj_words x j := {| hj_words := x; hj_count := hj_count j;
  hj_last_node := hj_last_node j; hj_hash_length := hj_hash_length j;
  hj_input := hj_input j; hj_finished := hj_finished j; hj_imp := hj_imp j |}.
(** j.finished = true, many.rs:410. *)
Definition set_hj_finished x j := {| hj_words := hj_words j; hj_count := hj_count j;
  hj_last_node := hj_last_node j; hj_hash_length := hj_hash_length j;
  hj_input := hj_input j; hj_finished := x; hj_imp := hj_imp j |}.

(** HashManyJob::new, many.rs:287-319. *)
Definition hash_many_job_new (v : variant) (e : env) (p : params) (input : list byte)
    : outcome hash_many_job :=
  let words := to_words v p in
  do '(words, count, finished) <-
    (if N.ltb 0 (p_key_length p) then
       let finalization := match input with [] => true | _ :: _ => false end in
       do ws <- compress1_loop v e (p_imp p) (p_key_block p) words 0 (p_last_node p)
                  finalization Serial;
       Ret (ws, N.of_nat (blockbytes v), finalization)
     else Ret (words, 0, false));
  Ret {| hj_words := words; hj_count := count; hj_last_node := p_last_node p;
         hj_hash_length := p_hash_length p; hj_input := input; hj_finished := finished;
         hj_imp := p_imp p |}.

(** to_hash, many.rs:326-332. *)
Definition to_hash (v : variant) (e : env) (j : hash_many_job) : outcome hash :=
  do _ <- debug_assert (e_dbg e) (hj_finished j);
  Ret {| h_bytes := state_words_to_bytes v (hj_words j); h_len := hj_hash_length j |}.

(** filter(|j| !j.finished).map(..), many.rs:408-417. *)
Definition hash_prep (_ : unit) (j : hash_many_job) : outcome (hash_many_job * prepared) :=
  if hj_finished j then Ret (j, None)
  else let j := set_hj_finished true j in
       Ret (j, Some (hj_input j, hj_count j, hj_last_node j)).

(** hash_many, many.rs:386-419. *)
Definition hash_many (v : variant) (e : env) (jobs : list hash_many_job)
    (refs : list (option (nat * unit))) : outcome (list hash_many_job * nat) :=
  let it := peek refs in
  match i_peeked it with
  | None => Ret (jobs, i_calls it)
  | Some (r, _) =>
      do j <- cell jobs r;
      do '(it, jobs) <-
        compress_many hj_words (fun j ws => set_hj_words ws j) hash_prep
          v e (hj_imp j) true Serial it jobs;
      Ret (jobs, i_calls it)
  end.

(** Debug for HashManyJob, many.rs:335-347. *)
Definition hash_many_job_debug (j : hash_many_job) : string :=
  ("HashManyJob { count: " ++ dec (hj_count j) ++
   ", hash_length: " ++ dec (hj_hash_length j) ++
   ", last_node: " ++ show_bool (hj_last_node j) ++
   ", input_len: " ++ dec (N.of_nat (length (hj_input j))) ++ " }")%string.

(** Debug for guts::Job, guts.rs:144-155 (internal, never printed by the crate). *)
Definition job_debug (j : vjob) : string :=
  ("Job { input_len: " ++ dec (N.of_nat (length (v_input j))) ++
   ", count: " ++ dec (v_count j) ++
   ", last_node: " ++ show_bool (v_last_node j) ++ " }")%string.
