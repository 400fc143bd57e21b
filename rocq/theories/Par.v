(** Model of blake2b/src/blake2bp.rs and blake2s/src/blake2sp.rs.  Line numbers
    are blake2bp.rs's unless "sp:" is given. *)
From Coq Require Import String.
From Coq Require Import Arith NArith List Bool.
From Verif Require Import Base Guts Simd Impl Sched Lib.
Import ListNotations.
Open Scope N_scope.

(** Params, blake2bp.rs:70-75; blake2sp.rs:69-74. *)
Record pparams := {
  pp_hash_length : N;
  pp_key_length : N;
  pp_key : list byte;
  pp_imp : platform }.

(** self.hash_length = x, blake2bp.rs:167; blake2sp.rs:175. *)
Definition set_pp_hash_length x p := {| pp_hash_length := x; pp_key_length := pp_key_length p;
  pp_key := pp_key p; pp_imp := pp_imp p |}.
(** self.key_length = x, blake2bp.rs:175; blake2sp.rs:183. *)
Definition set_pp_key_length x p := {| pp_hash_length := pp_hash_length p; pp_key_length := x;
  pp_key := pp_key p; pp_imp := pp_imp p |}.
(** self.key = x, blake2bp.rs:176-177; blake2sp.rs:184-185. *)
Definition set_pp_key x p := {| pp_hash_length := pp_hash_length p;
  pp_key_length := pp_key_length p; pp_key := x; pp_imp := pp_imp p |}.
(** self.implementation = x, blake2bp.rs:479; blake2sp.rs:486. *)
Definition set_pp_imp x p := {| pp_hash_length := pp_hash_length p;
  pp_key_length := pp_key_length p; pp_key := pp_key p; pp_imp := x |}.

(** Params::new, blake2bp.rs:79-86; blake2sp.rs:78-85. *)
Definition pparams_new (v : variant) (imp : platform) : pparams := {|
  pp_hash_length := N.of_nat (outbytes v);
  pp_key_length := 0;
  pp_key := zeros (keybytes v);
  pp_imp := imp |}.

(** hash_length, blake2bp.rs:161-169; blake2sp.rs:169-177. *)
Definition p_set_hash_length (v : variant) (length : nat) : method pparams :=
  m_assert (Nat.leb 1 length && Nat.leb length (outbytes v)) ;;
  m_assign (set_pp_hash_length (as_u8 length)).

(** key, blake2bp.rs:173-179; blake2sp.rs:181-187. *)
Definition p_set_key (v : variant) (k : list byte) : method pparams :=
  m_assert (Nat.leb (length k) (keybytes v)) ;;
  m_assign (set_pp_key_length (as_u8 (length k))) ;;
  m_assign (set_pp_key (zeros (keybytes v))) ;;
  m_try (fun p => do b <- copy_into (pp_key p) 0 k; Ret (set_pp_key b p)).

(** force_portable, blake2bp.rs:478-480; blake2sp.rs:485-487. *)
Definition p_force_portable : method pparams := m_assign (set_pp_imp Portable).

(** A chain of builder calls on a temporary (blake2bp.rs:89-99, 101-107, 110-114): the result or the panic. *)
Definition run {P} (m : method P) (p : P) : outcome P :=
  let '(p', o) := m p in do _ <- o; Ret p'.

(** to_words, blake2bp.rs:88-120; blake2sp.rs:87-128.  The inner crate::Params::new() detects a
    back end that is never used; it is [pp_imp] here. *)
Definition p_to_words (v : variant) (p : pparams) : outcome (list (list N) * list N) :=
  do k <- slice (pp_key p) 0 (N.to_nat (pp_key_length p));
  do base <- run (hash_length v (N.to_nat (pp_hash_length p)) ;;
                  key v k ;;
                  fanout (as_u8 (par_degree v)) ;;
                  max_depth 2 ;;
                  max_leaf_length 0 ;;
                  inner_hash_length v (outbytes v)) (params_new v (pp_imp p));
  do leaf_words <-
    mapM (fun i => do q <- run (node_offset v (N.of_nat i) ;; node_depth 0) base;
                   Ret (to_words v q)) (seq 0 (par_degree v));
  do q <- run (node_offset v 0 ;; node_depth 1) base;
  Ret (leaf_words, to_words v q).

(** Running compress_many on the leaves (blake2bp.rs:130-143, 287-295, 369-385): the jobs borrow the leaf words
    (cells), their inputs are computed by the map closure. *)
Definition leaf_prep (p : list byte * N * bool) (ws : list N)
    : outcome (list N * prepared) := Ret (ws, Some p).

(** many::compress_many(jobs, imp, finalize, Stride::Parallel): blake2bp.rs:143, 295, 385; blake2sp.rs:151, 302, 392. *)
Definition compress_leaves (v : variant) (e : env) (imp : platform) (finalize : bool)
    (leaves : list (list N)) (jobs : list (list byte * N * bool)) : outcome (list (list N)) :=
  do '(_, leaves) <-
    compress_many (fun ws => ws) (fun _ ws => ws) leaf_prep v e imp finalize Parallel
      {| i_peeked := None;
         i_src := map Some (combine (seq 0 (length leaves)) jobs);
         i_done := false; i_calls := 0 |} leaves;
  Ret leaves.

(** finalize_root_words, blake2bp.rs:449-476; blake2sp.rs:456-483.  The zip of the flattened leaf
    words with the chunks of [block] fills all of it. *)
Definition finalize_root_words (v : variant) (e : env) (leaf_words : list (list N))
    (root_words : list N) (hash_length : N) (imp : platform) : outcome hash :=
  do _ <- debug_assert (e_dbg e) (Nat.eqb (outbytes v) (8 * wbytes v));
  let words := concat leaf_words in
  let block := flat_map (to_le (wbytes v)) words in
  do ws <- compress1_loop v e imp block root_words 0 true true Serial;
  Ret {| h_bytes := state_words_to_bytes v ws; h_len := hash_length |}.

(** State, blake2bp.rs:218-230; blake2sp.rs:225-237. *)
Record pstate := {
  ps_leaf_words : list (list N);
  ps_root_words : list N;
  ps_buf : list byte;
  ps_buf_len : nat;
  ps_count : N;
  ps_hash_length : N;
  ps_imp : platform;
  ps_is_keyed : bool }.

(** The leaves' words after compress_many, blake2bp.rs:295 (fields: 219). *)
Definition set_ps_leaves x s := {| ps_leaf_words := x; ps_root_words := ps_root_words s;
  ps_buf := ps_buf s; ps_buf_len := ps_buf_len s; ps_count := ps_count s;
  ps_hash_length := ps_hash_length s; ps_imp := ps_imp s; ps_is_keyed := ps_is_keyed s |}.
(** self.buf = x, blake2bp.rs:274, 334. *)
Definition set_ps_buf x s := {| ps_leaf_words := ps_leaf_words s;
  ps_root_words := ps_root_words s;
  ps_buf := x; ps_buf_len := ps_buf_len s; ps_count := ps_count s;
  ps_hash_length := ps_hash_length s; ps_imp := ps_imp s; ps_is_keyed := ps_is_keyed s |}.
(** self.buf_len = x, blake2bp.rs:275, 323, 332. *)
Definition set_ps_buf_len x s := {| ps_leaf_words := ps_leaf_words s;
  ps_root_words := ps_root_words s;
  ps_buf := ps_buf s; ps_buf_len := x; ps_count := ps_count s;
  ps_hash_length := ps_hash_length s; ps_imp := ps_imp s; ps_is_keyed := ps_is_keyed s |}.
(** *count = x, blake2bp.rs:297. *)
Definition set_ps_count x s := {| ps_leaf_words := ps_leaf_words s;
  ps_root_words := ps_root_words s;
  ps_buf := ps_buf s; ps_buf_len := ps_buf_len s; ps_count := x;
  ps_hash_length := ps_hash_length s; ps_imp := ps_imp s; ps_is_keyed := ps_is_keyed s |}.

(** The key loop of with_params, blake2bp.rs:251-257: copies the key to the start of every
    leaf's block. *)
Fixpoint copy_keys (v : variant) (k : list byte) (is : list nat) (buf : list byte)
    : outcome (list byte) :=
  match is with
  | [] => Ret buf
  | i :: r => do buf' <- copy_into buf (i * blockbytes v) k; copy_keys v k r buf'
  end.

(** with_params, blake2bp.rs:238-270; blake2sp.rs:245-277. *)
Definition p_with_params (v : variant) (p : pparams) : outcome pstate :=
  do '(leaf_words, root_words) <- p_to_words v p;
  let buf := zeros (2 * par_degree v * blockbytes v) in
  do '(buf, buf_len) <-
    (if N.ltb 0 (pp_key_length p) then
       do k <- slice (pp_key p) 0 (N.to_nat (pp_key_length p));
       do buf <- copy_keys v k (seq 0 (par_degree v)) buf;
       Ret (buf, blockbytes v * par_degree v)%nat
     else Ret (buf, 0%nat));
  Ret {| ps_leaf_words := leaf_words;
         ps_root_words := root_words;
         ps_buf := buf;
         ps_buf_len := N.to_nat (N.of_nat buf_len mod 65536);
         ps_count := 0;
         ps_hash_length := pp_hash_length p;
         ps_imp := pp_imp p;
         ps_is_keyed := N.ltb 0 (pp_key_length p) |}.

(** to_state, blake2bp.rs:154-156; blake2sp.rs:162-164. *)
Definition p_to_state := p_with_params.

(** Addition on u16, blake2bp.rs:275 (as [add_small], on N to avoid large nat constants). *)
Definition add_u16 (e : env) (a b : nat) : outcome nat :=
  let r := N.of_nat a + N.of_nat b in
  if N.ltb r 65536 then Ret (a + b)%nat
  else if e_dbg e then Panic else Ret (N.to_nat (r mod 65536)).

(** fill_buf, blake2bp.rs:272-277; blake2sp.rs:279-284. *)
Definition p_fill_buf (e : env) (s : pstate) (input : list byte) : outcome (pstate * list byte) :=
  let take := Nat.min (length (ps_buf s) - ps_buf_len s) (length input) in
  do head <- slice input 0 take;
  do buf <- copy_into (ps_buf s) (ps_buf_len s) head;
  do buf_len <- add_u16 e (ps_buf_len s) (N.to_nat (N.of_nat take mod 65536));
  do rest <- slice_from input take;
  Ret (set_ps_buf_len buf_len (set_ps_buf buf s), rest).

(** compress_to_leaves, blake2bp.rs:279-298; blake2sp.rs:286-305. *)
Definition compress_to_leaves (v : variant) (e : env) (imp : platform)
    (leaves : list (list N)) (input : list byte) (count : N)
    : outcome (list (list N) * N) :=
  do jobs <- mapM (fun i => do x <- slice_from input (i * blockbytes v); Ret (x, count, false))
               (seq 0 (par_degree v));
  do leaves <- compress_leaves v e imp false leaves jobs;
  Ret (leaves, count_wrapping_add v count (N.of_nat (length input / par_degree v))).

(** update, blake2bp.rs:301-361; blake2sp.rs:308-368. *)
Definition p_update (v : variant) (e : env) (s : pstate) (input : list byte) : outcome pstate :=
  let db := (par_degree v * blockbytes v)%nat in
  let tail := ((par_degree v - 1) * blockbytes v)%nat in
  do '(s, input) <-
    (if Nat.ltb 0 (ps_buf_len s) then
       do '(s, input) <- p_fill_buf e s input;
       match input with
       | [] => Ret (s, input)
       | _ :: _ =>
           if Nat.ltb tail (length input) then
             do '(leaves, count) <-
               compress_to_leaves v e (ps_imp s) (ps_leaf_words s) (ps_buf s) (ps_count s);
             Ret (set_ps_buf_len 0 (set_ps_count count (set_ps_leaves leaves s)), input)
           else
             do front <- slice (ps_buf s) 0 db;
             do '(leaves, count) <-
               compress_to_leaves v e (ps_imp s) (ps_leaf_words s) front (ps_count s);
             let s := set_ps_count count (set_ps_leaves leaves s) in
             let s := set_ps_buf_len (N.to_nat (N.of_nat db mod 65536)) s in
             do buf_front <- slice (ps_buf s) 0 db;
             do buf_back <- slice_from (ps_buf s) db;
             do buf_front <- (if Nat.eqb (length buf_front) (length buf_back)
                              then Ret buf_back else Panic);
             Ret (set_ps_buf (buf_front ++ buf_back) s, input)
       end
     else Ret (s, input));
  let needed_tail := (tail + 1)%nat in
  let bulk_bytes := sat_sub (length input) needed_tail in
  let bulk_bytes := (bulk_bytes - bulk_bytes mod db)%nat in
  do '(s, input) <-
    (if Nat.ltb 0 bulk_bytes then
       do bulk <- slice input 0 bulk_bytes;
       do '(leaves, count) <-
         compress_to_leaves v e (ps_imp s) (ps_leaf_words s) bulk (ps_count s);
       do rest <- slice_from input bulk_bytes;
       Ret (set_ps_count count (set_ps_leaves leaves s), rest)
     else Ret (s, input));
  do '(s, input) <- p_fill_buf e s input;
  do _ <- debug_assert (e_dbg e) (Nat.eqb 0 (length input));
  Ret s.

(** finalize, blake2bp.rs:365-395; blake2sp.rs:372-402. *)
Definition p_finalize (v : variant) (e : env) (s : pstate) : outcome hash :=
  let buf_len := ps_buf_len s in
  do jobs <-
    mapM (fun i => do x <- slice (ps_buf s) (Nat.min (i * blockbytes v) buf_len) buf_len;
                   Ret (x, ps_count s, Nat.eqb i (par_degree v - 1)))
      (seq 0 (par_degree v));
  do leaves <- compress_leaves v e (ps_imp s) true (ps_leaf_words s) jobs;
  finalize_root_words v e leaves (ps_root_words s) (ps_hash_length s) (ps_imp s).

(** count, blake2bp.rs:401-411; blake2sp.rs:408-418. *)
Definition p_count (v : variant) (e : env) (s : pstate) : outcome N :=
  let ret := count_wrapping_add v ((ps_count s * N.of_nat (par_degree v)) mod cmod v)
               (N.of_nat (ps_buf_len s)) in
  if ps_is_keyed s
  then count_sub v e ret (N.of_nat (par_degree v * blockbytes v)) else Ret ret.

(** impl Write, blake2bp.rs:415-424; blake2sp.rs:422-431. *)
Definition p_write (v : variant) (e : env) (s : pstate) (buf : list byte)
    : outcome (pstate * nat) :=
  do s <- p_update v e s buf; Ret (s, length buf).

(** Params::hash, blake2bp.rs:123-151; blake2sp.rs:131-159. *)
Definition p_hash (v : variant) (e : env) (p : pparams) (input : list byte) : outcome hash :=
  if N.ltb 0 (pp_key_length p) then
    do s <- p_to_state v p;
    do s <- p_update v e s input;
    p_finalize v e s
  else
    do '(leaf_words, root_words) <- p_to_words v p;
    do jobs <-
      mapM (fun i => let input_start := Nat.min (length input) (i * blockbytes v) in
                     do x <- slice_from input input_start;
                     Ret (x, 0, Nat.eqb i (par_degree v - 1)))
        (seq 0 (par_degree v));
    do leaf_words <- compress_leaves v e (pp_imp p) true leaf_words jobs;
    finalize_root_words v e leaf_words root_words (pp_hash_length p) (pp_imp p).

(** blake2bp(), blake2bp.rs:52-54; blake2sp(), blake2sp.rs:51-53. *)
Definition blake2p_default (v : variant) (e : env) (imp : platform) (input : list byte) : outcome hash :=
  p_hash v e (pparams_new v imp) input.

(** Debug for Params, blake2bp.rs:188-198; blake2sp.rs:196-206. *)
Definition pparams_debug (p : pparams) : string :=
  ("Params { hash_length: " ++ dec (pp_hash_length p) ++
   ", key_length: " ++ dec (pp_key_length p) ++ " }")%string.
(** Debug for State, blake2bp.rs:426-435; blake2sp.rs:433-442. *)
Definition pstate_debug (v : variant) (e : env) (s : pstate) : outcome string :=
  do c <- p_count v e s;
  Ret ("State { count: " ++ dec c ++
       ", hash_length: " ++ dec (ps_hash_length s) ++ " }")%string.
