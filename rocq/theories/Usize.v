(** The crate with the integers of a real machine: every usize addition,
    subtraction and multiplication whose operands are not both compile-time
    constants is done in a type with [M] + 1 values.  An overflow panics in a
    debug build and wraps in a release build.

    The other model files compute lengths and offsets in nat.  The functions
    here are the ones of those files that contain usize arithmetic, and their
    callers, with the same names and the suffix [_usz].  Pointer::add of the
    SIMD loops is not integer arithmetic; it is [raw_read], as before.
    Comparisons, cmp::min, division and remainder by constants and
    saturating_sub cannot overflow and stay as they are. *)
From Coq Require Import Arith NArith List Bool.
From Verif Require Import Base Guts Portable Intrinsics Avx2b Sse41s Simd Impl Sched Lib Many Par.
From Verif Require Import Spec ApiSpec Machine Api.
Import ListNotations.
Open Scope list_scope.
Open Scope N_scope.
Local Notation length := List.length.

Section Usize.
Variable M : N.   (* usize::MAX *)

(** a + b on usize: lib.rs:426, portable.rs:164 (offset +=), avx2.rs:474, 918. *)
Definition uadd (dbg : bool) (a b : nat) : outcome nat :=
  let r := N.of_nat a + N.of_nat b in
  if r <=? M then Ret (a + b)%nat
  else if dbg then Panic else Ret (N.to_nat (r mod (M + 1))).
(** a - b on usize: lib.rs:425, 459 (end -=), portable.rs:132, many.rs:241-242. *)
Definition usub (dbg : bool) (a b : nat) : outcome nat :=
  if Nat.leb b a then Ret (a - b)%nat
  else if dbg then Panic else Ret (N.to_nat (N.of_nat a + (M + 1) - N.of_nat b)).
(** a * b on usize: blake2bp.rs:131, 255, 289, 373. *)
Definition umul (dbg : bool) (a b : nat) : outcome nat :=
  let r := N.of_nat a * N.of_nat b in
  if r <=? M then Ret (a * b)%nat
  else if dbg then Panic else Ret (N.to_nat (r mod (M + 1))).
(** a.saturating_add(b): avx2.rs:924, sse41.rs:456 (s: avx2.rs:587, sse41.rs:883). *)
Definition usat_add (a b : nat) : nat :=
  if N.of_nat a + N.of_nat b <=? M then (a + b)%nat else N.to_nat M.

(** [dst[a..b].copy_from_slice(src)]: lib.rs:426. *)
Definition copy_range {A} (dst : list A) (a b : nat) (src : list A) : outcome (list A) :=
  if Nat.leb a b && Nat.leb b (length dst) && Nat.eqb (b - a) (length src)
  then Ret (firstn a dst ++ src ++ skipn b dst) else Panic.

(** array_ref!(l, off, n) is &l[off..off + n] (portable.rs:150; s: 146). *)
Definition array_ref_reader_usz (dbg : bool) : block_reader :=
  fun l off n => do e <- uadd dbg off n; slice l off e.

(** portable.rs:138-165 (s: 134-161), blake2b/src/avx2.rs:446-475, blake2s/src/sse41.rs:424-453. *)
Fixpoint compress1_iter_usz (v : variant) (k : kernel) (rd : block_reader) (dbg : bool) (fuel : nat)
    (input : list byte) (fin_offset : nat) (fin_block : list byte) (fin_len : nat)
    (fin_last_block fin_last_node : N) (st : stride)
    (offset : nat) (count : N) (words : list N) : outcome (list N) :=
  match fuel with
  | O => Diverge
  | S fuel' =>
      do '(block, count_delta, last_block, last_node) <-
         (if Nat.eqb offset fin_offset
          then Ret (fin_block, fin_len, fin_last_block, fin_last_node)
          else do b <- rd input offset (blockbytes v);
               Ret (b, blockbytes v, flag_word v false, flag_word v false));
      let count := count_wrapping_add v count (N.of_nat count_delta) in
      let words := k block words count last_block last_node in
      if Nat.eqb offset fin_offset then Ret words
      else do offset <- uadd dbg offset (padded_blockbytes v st);
           compress1_iter_usz v k rd dbg fuel' input fin_offset fin_block fin_len
             fin_last_block fin_last_node st offset count words
  end.

(** portable.rs:119-168 (s: 115-164), blake2b/src/avx2.rs:426-478, blake2s/src/sse41.rs:405-456. *)
Definition compress1_loop_gen_usz (v : variant) (k : kernel) (rd : block_reader) (dbg : bool)
    (input : list byte) (words : list N) (count : N) (last_node finalize : bool)
    (st : stride) : outcome (list N) :=
  do _ <- input_debug_asserts v dbg input finalize;
  let fin_offset := sat_sub (length input) 1 in
  do fin_offset <- usub dbg fin_offset (fin_offset mod padded_blockbytes v st);
  do '(fin_block, fin_len, _) <- final_block v input fin_offset (zeros (blockbytes v)) st;
  let fin_last_block := flag_word v finalize in
  let fin_last_node := flag_word v (finalize && last_node) in
  compress1_iter_usz v k rd dbg (S (length input)) input fin_offset fin_block fin_len
    fin_last_block fin_last_node st 0 count words.

(** The main loops of the SIMD back ends: avx2.rs (b) 878-919, sse41.rs (b)
    412-451, avx2.rs (s) 537-582, sse41.rs (s) 837-878. *)
Fixpoint compressn_iter_usz (S : simd) (dbg : bool) (fuel : nat) (inputs : list (list byte)) (fin_offset : nat)
    (fin_blocks : list (list byte)) (fin_counts_delta fin_last_block fin_last_node : reg)
    (st : stride) (offset : nat) (h_vecs : list reg) (counts_lo counts_hi : reg)
    : outcome (list reg * reg * reg * nat) :=
  match fuel with
  | O => Diverge
  | Datatypes.S fuel' =>
      do '(blocks, counts_delta, last_block, last_node) <-
         (if Nat.eqb offset fin_offset
          then Ret (fin_blocks, fin_counts_delta, fin_last_block, fin_last_node)
          else
            do bs <- mapM (fun input => raw_read input offset (blockbytes (s_var S))) inputs;
            Ret (bs, s_set1 S (N.of_nat (blockbytes (s_var S))), s_set1 S 0, s_set1 S 0));
      let m_vecs := transpose_msg_vecs S blocks in
      let '(counts_lo, counts_hi) := add_to_counts S counts_lo counts_hi counts_delta in
      let h_vecs := compress_transposed S h_vecs m_vecs counts_lo counts_hi last_block last_node in
      if Nat.eqb offset fin_offset then Ret (h_vecs, counts_lo, counts_hi, offset)
      else do offset <- uadd dbg offset (padded_blockbytes (s_var S) st);
           compressn_iter_usz S dbg fuel' inputs fin_offset fin_blocks fin_counts_delta
             fin_last_block fin_last_node st offset h_vecs counts_lo counts_hi
  end.

(** compress4_loop avx2.rs (b) 831-929, compress2_loop sse41.rs (b) 376-461,
    compress8_loop avx2.rs (s) 461-592, compress4_loop sse41.rs (s) 790-888. *)
Definition compressn_loop_usz (S : simd) (dbg : bool) (jobs : list job) (finalize : bool)
    (st : stride) : outcome (list job) :=
  let v := s_var S in
  do _ <- mapM (fun j => input_debug_asserts v dbg (j_input j) finalize) jobs;
  let h_vecs := transpose_state_vecs S jobs in
  let '(counts_lo, counts_hi) := load_counts S jobs in
  do min_len <- min_len jobs;
  let fin_offset := sat_sub min_len 1 in
  do fin_offset <- usub dbg fin_offset (fin_offset mod padded_blockbytes v st);
  do fin <- mapM (fun j => final_block v (j_input j) fin_offset (zeros (blockbytes v)) st) jobs;
  let fin_blocks := map (fun f => fst (fst f)) fin in
  let fin_counts_delta := s_setn S (map (fun f => N.of_nat (snd (fst f))) fin) in
  let '(fin_last_block, fin_last_node) :=
    if finalize
    then (flags_vec S (map snd fin),
          flags_vec S (map (fun p => snd (fst p) && j_last_node (snd p)) (combine fin jobs)))
    else (s_set1 S 0, s_set1 S 0) in
  do '(h_vecs, counts_lo, counts_hi, offset) <-
    compressn_iter_usz S dbg (Datatypes.S min_len) (map j_input jobs) fin_offset fin_blocks
      fin_counts_delta fin_last_block fin_last_node st 0 h_vecs counts_lo counts_hi;
  let max_consumed := usat_add offset (padded_blockbytes v st) in
  mapM (fun p =>
          let '(i, j) := p in
          let consumed := Nat.min max_consumed (length (j_input j)) in
          do rest <- slice_from (j_input j) consumed;
          Ret {| j_input := rest;
                 j_words := untranspose_state_vecs S h_vecs i;
                 j_count := store_count S counts_lo counts_hi i;
                 j_last_node := j_last_node j |})
       (combine (seq 0 (length jobs)) jobs).

(** guts.rs:96-134; s: 96-132. *)
Definition compress1_loop_usz (v : variant) (e : env) (imp : platform) (input : list byte)
    (words : list N) (count : N) (last_node finalize : bool) (st : stride)
    : outcome (list N) :=
  match v, imp with
  | V2b, AVX2 =>
      target_feature (e_avx2 e)
        (compress1_loop_gen_usz V2b Avx2b.compress_block raw_reader (e_dbg e) input words count last_node finalize st)
  | V2b, _ =>
      compress1_loop_gen_usz V2b (Portable.compress_block V2b) (array_ref_reader_usz (e_dbg e)) (e_dbg e)
        input words count last_node finalize st
  | V2s, AVX2 | V2s, SSE41 =>
      target_feature (e_sse41 e)
        (compress1_loop_gen_usz V2s Sse41s.compress_block raw_reader (e_dbg e) input words count last_node finalize st)
  | V2s, Portable =>
      compress1_loop_gen_usz V2s (Portable.compress_block V2s) (array_ref_reader_usz (e_dbg e)) (e_dbg e)
        input words count last_node finalize st
  end.
(** compress2_loop, guts.rs:118-126; s: compress4_loop, 116-124. *)
Definition compress_narrow_loop_usz (v : variant) (e : env) (imp : platform) (jobs : list job)
    (finalize : bool) (st : stride) : outcome (list job) :=
  match imp with
  | AVX2 | SSE41 =>
      target_feature (e_sse41 e)
        (compressn_loop_usz (match v with V2b => sse41b | V2s => sse41s end) (e_dbg e) jobs finalize st)
  | Portable => Panic
  end.
(** compress4_loop, guts.rs:128-134; s: compress8_loop, 126-132. *)
Definition compress_wide_loop_usz (v : variant) (e : env) (imp : platform) (jobs : list job)
    (finalize : bool) (st : stride) : outcome (list job) :=
  match imp with
  | AVX2 =>
      target_feature (e_avx2 e)
        (compressn_loop_usz (match v with V2b => avx2b | V2s => avx2s end) (e_dbg e) jobs finalize st)
  | _ => Panic
  end.

(** many.rs:134-184.  The iterator and the job vector are those of Sched.v. *)
Section Scheduler.
Context {C A : Type}.
Variable get : C -> list N.
Variable put : C -> list N -> C.
Variable prep : A -> C -> outcome (C * prepared).
Variables (v : variant) (e : env) (imp : platform) (finalize : bool) (st : stride).

(** many.rs:176-182. *)
Definition run_one_usz (cells : list C) (j : vjob) : outcome (list C) :=
  do c <- cell cells (v_ref j);
  do ws <- compress1_loop_usz v e imp (v_input j) (get c) (v_count j) (v_last_node j) finalize st;
  store_words put cells (v_ref j) ws.
(** many.rs:175-183. *)
Fixpoint run_vec_usz (cells : list C) (vec : list vjob) : outcome (list C) :=
  match vec with
  | [] => Ret cells
  | j :: r => do cells' <- run_one_usz cells j; run_vec_usz cells' r
  end.
(** many.rs:175-183. *)
Fixpoint run_rest_usz (fuel : nat) (it : iter A) (cells : list C) : outcome (iter A * list C) :=
  match fuel with
  | O => Diverge
  | S fuel' =>
      do '(it', cells', o) <- next prep it cells;
      match o with
      | None => Ret (it', cells')
      | Some j => do cells'' <- run_one_usz cells' j; run_rest_usz fuel' it' cells''
      end
  end.
(** many.rs:134-184. *)
Definition compress_many_usz (it : iter A) (cells : list C) : outcome (iter A * list C) :=
  let fuel := (2 + length (i_src it))%nat in
  do '(it, cells, vec) <-
    (if Nat.leb (wide v) (degree v imp)
     then batch_loop get put prep v e (fun js => compress_wide_loop_usz v e imp js finalize st) (wide v) fuel it cells []
     else Ret (it, cells, []));
  do '(it, cells, vec) <-
    (if Nat.leb (narrow v) (degree v imp)
     then batch_loop get put prep v e (fun js => compress_narrow_loop_usz v e imp js finalize st) (narrow v)
            (fuel + length vec) it cells vec
     else Ret (it, cells, vec));
  do cells <- run_vec_usz cells vec;
  run_rest_usz fuel it cells.
End Scheduler.

(** ** State *)
Section Crate.
Variables (v : variant) (e : env).

(** fill_buf, lib.rs:424-429; s: 416-421. *)
Definition fill_buf_usz (s : state) (input : list byte) : outcome (state * list byte) :=
  do room <- usub (e_dbg e) (blockbytes v) (s_buflen s);
  let take := Nat.min room (length input) in
  do end_ <- uadd (e_dbg e) (s_buflen s) take;
  do head <- slice input 0 take;
  do buf <- copy_range (s_buf s) (s_buflen s) end_ head;
  do buflen <- add_small (e_dbg e) 256 (s_buflen s) (N.to_nat (as_u8 take));
  do rest <- slice_from input take;
  Ret (set_s_buflen buflen (set_s_buf buf s), rest).

(** compress_buffer_if_possible, lib.rs:434-450; s: 426-442. *)
Definition compress_buffer_if_possible_usz (s : state) (input : list byte) : outcome (state * list byte) :=
  if Nat.ltb 0 (s_buflen s) then
    do '(s, input) <- fill_buf_usz s input;
    match input with
    | [] => Ret (s, input)
    | _ :: _ =>
        do ws <- compress1_loop_usz v e (s_imp s) (s_buf s) (s_words s) (s_count s)
                   (s_last_node s) false Serial;
        let s := set_s_words ws s in
        let s := set_s_count (count_wrapping_add v (s_count s) (N.of_nat (blockbytes v))) s in
        let s := set_s_buflen 0 s in
        Ret (s, input)
    end
  else Ret (s, input).

(** update, lib.rs:453-478; s: 445-470. *)
Definition update_usz (s : state) (input : list byte) : outcome state :=
  do '(s, input) <- compress_buffer_if_possible_usz s input;
  let end_ := sat_sub (length input) 1 in
  do end_ <- usub (e_dbg e) end_ (end_ mod blockbytes v);
  do '(s, input) <-
    (if Nat.ltb 0 end_ then
       do blocks <- slice input 0 end_;
       do ws <- compress1_loop_usz v e (s_imp s) blocks (s_words s) (s_count s)
                  (s_last_node s) false Serial;
       let s := set_s_words ws s in
       let s := set_s_count (count_wrapping_add v (s_count s) (N.of_nat end_)) s in
       do rest <- slice_from input end_;
       Ret (s, rest)
     else Ret (s, input));
  do '(s, _) <- fill_buf_usz s input;
  Ret s.

(** finalize, lib.rs:482-496; s: 474-488. *)
Definition finalize_usz (s : state) : outcome hash :=
  do input <- slice (s_buf s) 0 (s_buflen s);
  do ws <- compress1_loop_usz v e (s_imp s) input (s_words s) (s_count s) (s_last_node s) true Serial;
  Ret {| h_bytes := state_words_to_bytes v ws; h_len := s_hash_length s |}.

(** lib.rs:546-556; s: 538-548. *)
Definition write_usz (s : state) (buf : list byte) : outcome (state * nat) :=
  do s <- update_usz s buf; Ret (s, length buf).

(** Params::hash, lib.rs:208-226; s: 199-217. *)
Definition params_hash_usz (p : Lib.params) (input : list byte) : outcome hash :=
  if N.ltb 0 (p_key_length p) then
    do s <- update_usz (to_state v p) input;
    finalize_usz s
  else
    do ws <- compress1_loop_usz v e (p_imp p) input (to_words v p) 0 (p_last_node p) true Serial;
    Ret {| h_bytes := state_words_to_bytes v ws; h_len := p_hash_length p |}.

(** ** Batches *)
(** The closure of update_many, many.rs:230-260. *)
Definition update_prep_usz (input : list byte) (s : state) : outcome (state * prepared) :=
  do '(s, input) <- compress_buffer_if_possible_usz s input;
  match input with
  | [] => Ret (s, None)
  | _ :: _ =>
      do last_block_start <- usub (e_dbg e) (length input) 1;
      do last_block_start <- usub (e_dbg e) last_block_start (last_block_start mod blockbytes v);
      do blocks <- slice input 0 last_block_start;
      do last_block <- slice_from input last_block_start;
      do buf <- copy_into (s_buf s) 0 last_block;
      let s := set_s_buf buf s in
      let s := set_s_buflen (N.to_nat (as_u8 (length last_block))) s in
      match blocks with
      | [] => Ret (s, None)
      | _ :: _ =>
          let count := s_count s in
          let s := set_s_count (count_wrapping_add v (s_count s) (N.of_nat (length blocks))) s in
          Ret (s, Some (blocks, count, s_last_node s))
      end
  end.

(** many.rs:213-264. *)
Definition update_many_usz (states : list state) (pairs : list (option (nat * list byte)))
    : outcome (list state * nat) :=
  let it := peek pairs in
  match i_peeked it with
  | None => Ret (states, i_calls it)
  | Some (r, _) =>
      do s <- cell states r;
      do '(it, states) <-
        compress_many_usz s_words (fun s ws => set_s_words ws s) update_prep_usz
          v e (s_imp s) false Serial it states;
      Ret (states, i_calls it)
  end.

(** many.rs:287-319. *)
Definition hash_many_job_new_usz (p : Lib.params) (input : list byte) : outcome hash_many_job :=
  let words := to_words v p in
  do '(words, count, finished) <-
    (if N.ltb 0 (p_key_length p) then
       let finalization := match input with [] => true | _ :: _ => false end in
       do ws <- compress1_loop_usz v e (p_imp p) (p_key_block p) words 0 (p_last_node p)
                  finalization Serial;
       Ret (ws, N.of_nat (blockbytes v), finalization)
     else Ret (words, 0, false));
  Ret {| hj_words := words; hj_count := count; hj_last_node := p_last_node p;
         hj_hash_length := p_hash_length p; hj_input := input; hj_finished := finished;
         hj_imp := p_imp p |}.

(** many.rs:386-419. *)
Definition hash_many_usz (jobs : list hash_many_job) (refs : list (option (nat * unit)))
    : outcome (list hash_many_job * nat) :=
  let it := peek refs in
  match i_peeked it with
  | None => Ret (jobs, i_calls it)
  | Some (r, _) =>
      do j <- cell jobs r;
      do '(it, jobs) <-
        compress_many_usz hj_words (fun j ws => set_hj_words ws j) hash_prep
          v e (hj_imp j) true Serial it jobs;
      Ret (jobs, i_calls it)
  end.

(** ** BLAKE2bp, BLAKE2sp: blake2bp.rs, lines of blake2sp.rs after "sp:" *)
(** As [compress_leaves] (blake2bp.rs:143, 295, 385; blake2sp.rs:151, 302, 392). *)
Definition compress_leaves_usz (imp : platform) (finalize : bool)
    (leaves : list (list N)) (jobs : list (list byte * N * bool)) : outcome (list (list N)) :=
  do '(_, leaves) <-
    compress_many_usz (fun ws => ws) (fun _ ws => ws) leaf_prep v e imp finalize Parallel
      {| i_peeked := None;
         i_src := map Some (combine (seq 0 (length leaves)) jobs);
         i_done := false; i_calls := 0 |} leaves;
  Ret leaves.

(** blake2bp.rs:449-476; blake2sp.rs:456-483. *)
Definition finalize_root_words_usz (leaf_words : list (list N))
    (root_words : list N) (hash_length : N) (imp : platform) : outcome hash :=
  do _ <- debug_assert (e_dbg e) (Nat.eqb (outbytes v) (8 * wbytes v));
  let words := concat leaf_words in
  let block := flat_map (to_le (wbytes v)) words in
  do ws <- compress1_loop_usz v e imp block root_words 0 true true Serial;
  Ret {| h_bytes := state_words_to_bytes v ws; h_len := hash_length |}.

(** blake2bp.rs:251-257. *)
Fixpoint copy_keys_usz (k : list byte) (is : list nat) (buf : list byte) : outcome (list byte) :=
  match is with
  | [] => Ret buf
  | i :: r =>
      do a <- umul (e_dbg e) i (blockbytes v);
      do buf' <- copy_into buf a k; copy_keys_usz k r buf'
  end.

(** blake2bp.rs:238-270; blake2sp.rs:245-277. *)
Definition p_to_state_usz (p : pparams) : outcome pstate :=
  do '(leaf_words, root_words) <- p_to_words v p;
  let buf := zeros (2 * par_degree v * blockbytes v) in
  do '(buf, buf_len) <-
    (if N.ltb 0 (pp_key_length p) then
       do k <- slice (pp_key p) 0 (N.to_nat (pp_key_length p));
       do buf <- copy_keys_usz k (seq 0 (par_degree v)) buf;
       Ret (buf, blockbytes v * par_degree v)%nat
     else Ret (buf, 0%nat));
  Ret {| ps_leaf_words := leaf_words;
         ps_root_words := root_words;
         ps_buf := buf;
         ps_buf_len := N.to_nat (N.of_nat buf_len mod 65536);
         ps_count := 0;
         ps_hash_length := pp_hash_length p;
         ps_imp := pp_imp p;
         ps_is_keyed := N.ltb 0 (pp_key_length p) |}.

(** blake2bp.rs:272-277; blake2sp.rs:279-284. *)
Definition p_fill_buf_usz (s : pstate) (input : list byte) : outcome (pstate * list byte) :=
  do room <- usub (e_dbg e) (length (ps_buf s)) (ps_buf_len s);
  let take := Nat.min room (length input) in
  do head <- slice input 0 take;
  do buf <- copy_into (ps_buf s) (ps_buf_len s) head;
  do buf_len <- add_u16 e (ps_buf_len s) (N.to_nat (N.of_nat take mod 65536));
  do rest <- slice_from input take;
  Ret (set_ps_buf_len buf_len (set_ps_buf buf s), rest).

(** blake2bp.rs:279-298; blake2sp.rs:286-305. *)
Definition compress_to_leaves_usz (imp : platform)
    (leaves : list (list N)) (input : list byte) (count : N)
    : outcome (list (list N) * N) :=
  do jobs <- mapM (fun i => do a <- umul (e_dbg e) i (blockbytes v);
                            do x <- slice_from input a; Ret (x, count, false))
               (seq 0 (par_degree v));
  do leaves <- compress_leaves_usz imp false leaves jobs;
  Ret (leaves, count_wrapping_add v count (N.of_nat (length input / par_degree v))).

(** blake2bp.rs:301-361; blake2sp.rs:308-368. *)
Definition p_update_usz (s : pstate) (input : list byte) : outcome pstate :=
  let db := (par_degree v * blockbytes v)%nat in
  let tail := ((par_degree v - 1) * blockbytes v)%nat in
  do '(s, input) <-
    (if Nat.ltb 0 (ps_buf_len s) then
       do '(s, input) <- p_fill_buf_usz s input;
       match input with
       | [] => Ret (s, input)
       | _ :: _ =>
           if Nat.ltb tail (length input) then
             do '(leaves, count) <-
               compress_to_leaves_usz (ps_imp s) (ps_leaf_words s) (ps_buf s) (ps_count s);
             Ret (set_ps_buf_len 0 (set_ps_count count (set_ps_leaves leaves s)), input)
           else
             do front <- slice (ps_buf s) 0 db;
             do '(leaves, count) <-
               compress_to_leaves_usz (ps_imp s) (ps_leaf_words s) front (ps_count s);
             let s := set_ps_count count (set_ps_leaves leaves s) in
             let s := set_ps_buf_len (N.to_nat (N.of_nat db mod 65536)) s in
             do buf_front <- slice (ps_buf s) 0 db;
             do buf_back <- slice_from (ps_buf s) db;
             do buf_front <- (if Nat.eqb (length buf_front) (length buf_back)
                              then Ret buf_back else Panic);
             Ret (set_ps_buf (buf_front ++ buf_back) s, input)
       end
     else Ret (s, input));
  let needed_tail := (tail + 1)%nat in
  let bulk_bytes := sat_sub (length input) needed_tail in
  do bulk_bytes <- usub (e_dbg e) bulk_bytes (bulk_bytes mod db);
  do '(s, input) <-
    (if Nat.ltb 0 bulk_bytes then
       do bulk <- slice input 0 bulk_bytes;
       do '(leaves, count) <-
         compress_to_leaves_usz (ps_imp s) (ps_leaf_words s) bulk (ps_count s);
       do rest <- slice_from input bulk_bytes;
       Ret (set_ps_count count (set_ps_leaves leaves s), rest)
     else Ret (s, input));
  do '(s, input) <- p_fill_buf_usz s input;
  do _ <- debug_assert (e_dbg e) (Nat.eqb 0 (length input));
  Ret s.

(** blake2bp.rs:365-395; blake2sp.rs:372-402. *)
Definition p_finalize_usz (s : pstate) : outcome hash :=
  let buf_len := ps_buf_len s in
  do jobs <-
    mapM (fun i => do a <- umul (e_dbg e) i (blockbytes v);
                   do x <- slice (ps_buf s) (Nat.min a buf_len) buf_len;
                   Ret (x, ps_count s, Nat.eqb i (par_degree v - 1)))
      (seq 0 (par_degree v));
  do leaves <- compress_leaves_usz (ps_imp s) true (ps_leaf_words s) jobs;
  finalize_root_words_usz leaves (ps_root_words s) (ps_hash_length s) (ps_imp s).

(** blake2bp.rs:415-424; blake2sp.rs:422-431. *)
Definition p_write_usz (s : pstate) (buf : list byte) : outcome (pstate * nat) :=
  do s <- p_update_usz s buf; Ret (s, length buf).

(** blake2bp.rs:123-151; blake2sp.rs:131-159. *)
Definition p_hash_usz (p : pparams) (input : list byte) : outcome hash :=
  if N.ltb 0 (pp_key_length p) then
    do s <- p_to_state_usz p;
    do s <- p_update_usz s input;
    p_finalize_usz s
  else
    do '(leaf_words, root_words) <- p_to_words v p;
    do jobs <-
      mapM (fun i => do a <- umul (e_dbg e) i (blockbytes v);
                     let input_start := Nat.min (length input) a in
                     do x <- slice_from input input_start;
                     Ret (x, 0, Nat.eqb i (par_degree v - 1)))
        (seq 0 (par_degree v));
    do leaf_words <- compress_leaves_usz (pp_imp p) true leaf_words jobs;
    finalize_root_words_usz leaf_words root_words (pp_hash_length p) (pp_imp p).

(** ** Programs: [Api.step] with the functions above; the calls not listed
    do no usize arithmetic. *)
(** Programs: [Api.step] with the functions above (lib.rs:113-660, many.rs:91-419, blake2bp.rs:52-480);
    the calls not listed do no usize arithmetic. *)
Definition step_usz (imp : platform) (w : world) (c : call) : world * obs :=
  match c with
  | OneShot m => finish w (params_hash_usz (params_new v imp) m) (push_hash w)
  | HashWith p m => on_obj w (w_params w) p (fun x => finish w (params_hash_usz x m) (push_hash w))
  | Update s m => on_obj w (w_states w) s (fun x =>
      finish w (update_usz x m) (fun x' => (put_state w s x', Unit)))
  | Write s m => on_obj w (w_states w) s (fun x =>
      finish w (write_usz x m) (fun '(x', n) => (put_state w s x', Wrote n)))
  | WriteAll s m => on_obj w (w_states w) s (fun x =>
      finish w (write_all write_usz x m) (fun x' => (put_state w s x', Unit)))
  | Finalize s => on_obj w (w_states w) s (fun x => finish w (finalize_usz x) (push_hash w))
  | UpdateMany xs =>
      if borrowable (length (w_states w)) (map fst (until_none xs))
      then finish w (update_many_usz (w_states w) xs) (fun '(ss, n) => (with_w_states ss w, Pulled n))
      else (w, Inexpressible)
  | NewJob p m => on_obj w (w_params w) p (fun x =>
      finish w (hash_many_job_new_usz x m) (fun j => (with_w_jobs (w_jobs w ++ [j]) w, Unit)))
  | HashMany xs =>
      if borrowable (length (w_jobs w)) (until_none xs)
      then finish w (hash_many_usz (w_jobs w) (map (option_map (fun r => (r, tt))) xs))
             (fun '(js, n) => (with_w_jobs js w, Pulled n))
      else (w, Inexpressible)
  | POneShot m => finish w (p_hash_usz (pparams_new v imp) m) (push_hash w)
  | PHashWith p m => on_obj w (w_pparams w) p (fun x => finish w (p_hash_usz x m) (push_hash w))
  | PNewState => finish w (p_to_state_usz (pparams_new v imp)) (fun s => (with_w_pstates (w_pstates w ++ [s]) w, Unit))
  | PToState p => on_obj w (w_pparams w) p (fun x =>
      finish w (p_to_state_usz x) (fun s => (with_w_pstates (w_pstates w ++ [s]) w, Unit)))
  | PUpdate s m => on_obj w (w_pstates w) s (fun x =>
      finish w (p_update_usz x m) (fun x' => (put_pstate w s x', Unit)))
  | PWrite s m => on_obj w (w_pstates w) s (fun x =>
      finish w (p_write_usz x m) (fun '(x', n) => (put_pstate w s x', Wrote n)))
  | PWriteAll s m => on_obj w (w_pstates w) s (fun x =>
      finish w (write_all p_write_usz x m) (fun x' => (put_pstate w s x', Unit)))
  | PFinalize s => on_obj w (w_pstates w) s (fun x => finish w (p_finalize_usz x) (push_hash w))
  | _ => step v e imp w c
  end.

(** Calls in sequence, as Api.run_from (lib.rs:113-660). *)
Fixpoint run_from_usz (imp : platform) (w : world) (prog : list call) : list obs :=
  match prog with
  | [] => []
  | c :: r => let '(w', o) := step_usz imp w c in o :: run_from_usz imp w' r
  end.
End Crate.

(** A whole program, as Api.run_program (lib.rs:165-182, guts.rs:28-44). *)
Definition run_program_usz (v : variant) (t : target) (e : env) (prog : list call) : list obs :=
  run_from_usz v e (detect t) empty_world prog.
End Usize.

(** ** Specification of "everything fits": the byte strings a call passes. *)
(** Specification of "everything fits": the byte strings a call passes (lib.rs:208, 453, many.rs:213, 287). *)
Definition passed (c : call) : list (list byte) :=
  match c with
  | OneShot m | HashWith _ m | Update _ m | Write _ m | WriteAll _ m | NewJob _ m
  | POneShot m | PHashWith _ m | PUpdate _ m | PWrite _ m | PWriteAll _ m => [m]
  | UpdateMany xs => map snd (until_none xs)
  | _ => []
  end.
(** No slice has more than [M] bytes (in Rust, not more than M / 2; the language's limit on the slices of lib.rs:113-660). *)
Definition slices_fit (M : N) (c : call) : Prop :=
  Forall (fun m => N.of_nat (length m) <= M) (passed c).
