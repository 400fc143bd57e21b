(** The crate with what an observer of its timing and of its memory traffic can
    see.  Every function of the other model files that the public API reaches
    is repeated here with the suffix [_lk]; besides its outcome it gives the
    list of its leakage events, in order:

    - a conditional jump, and which way it went ([Branch]): if, match, loop
      exits, bounds checks, assertions, cmp::min;
    - an access to a range of bytes of an object, by its position in it
      ([Access]), and to one of the objects of a batch ([Object]);
    - a division or remainder of lengths ([Divide]), which takes a time that
      depends on its operands;
    - the choice of a back end ([Dispatch]);
    - one run of a straight-line kernel ([Kernel]), see Asm.v for what is in it;
    - a text made by core::fmt ([Print]): what formatting leaks is bounded by
      the text itself.

    Additions, shifts, bitwise operations, conversions between integer types
    and moves leak nothing.  A condition that is a compile-time constant
    (cfg!(debug_assertions), the variant) is no jump. *)
From Coq Require Import String Ascii.
From Coq Require Import Arith NArith List Bool.
From Verif Require Import Base Guts Portable Intrinsics Avx2b Sse41s Simd Impl Sched Lib Many Par.
From Verif Require Import Spec ApiSpec Machine Api.
Import ListNotations.
Open Scope list_scope.
Open Scope N_scope.
Local Notation length := List.length.

(** The straight-line kernels: compress_block (portable.rs:47-117, s: 45-113; blake2b/src/avx2.rs:146-424;
    blake2s/src/sse41.rs:151-402), and the parts of the SIMD loops without jumps: loading and transposing
    the states and counts (blake2b/src/avx2.rs:837-847 and copies), one block of all lanes (900-917 and
    copies), storing the states (920-928 and copies). *)
Inductive kernel_name := KBlock | KLoadLanes | KLanes (lanes : nat) | KStoreLanes.

(** What an observer sees; a modelling device for the functions cited below (blake2b/src/lib.rs:113-660). *)
Inductive event :=
| Branch (b : bool)
| Access (off len : nat)
| Object (r : nat)
| Divide (a b : nat)
| Dispatch (p : platform)
| Kernel (k : kernel_name)
| Print (s : string).

(** A computation and its trace; a modelling device (see [event], blake2b/src/lib.rs:113-660). *)
Definition L (A : Type) : Type := (list event * outcome A)%type.
(** A result without events; a modelling device (see [event], blake2b/src/lib.rs:113-660). *)
Definition ret {A} (a : A) : L A := ([], Ret a).
(** A primitive with its events; a modelling device (see [event], blake2b/src/lib.rs:113-660). *)
Definition emit {A} (t : list event) (o : outcome A) : L A := (t, o).
(** Events before a computation; a modelling device (see [event], blake2b/src/lib.rs:113-660). *)
Definition tell {A} (t : list event) (x : L A) : L A := (t ++ fst x, snd x).
(** Sequencing; a panic skips the rest (see [Base.bind], blake2b/src/lib.rs:453-478). *)
Definition lbind {A B} (x : L A) (f : A -> L B) : L B :=
  match snd x with
  | Ret a => let y := f a in (fst x ++ fst y, snd y)
  | Panic => (fst x, Panic)
  | UB => (fst x, UB)
  | Diverge => (fst x, Diverge)
  end.
Notation "'ldo' x <- e ; f" := (lbind e (fun x => f))
  (at level 200, x name, e at level 100, f at level 200, right associativity).
Notation "'ldo' ' p <- e ; f" := (lbind e (fun x => match x with p => f end))
  (at level 200, p strict pattern, e at level 100, f at level 200, right associativity).

(** if c { x } else { y } on a run-time condition, e.g. lib.rs:435, 461. *)
Definition branch {A} (c : bool) (x y : L A) : L A := tell [Branch c] (if c then x else y).
(** assert!(cond) / assert_eq!, lib.rs:239-243, 252. *)
Definition assert_lk (c : bool) : L unit := emit [Branch c] (assert_ c).
(** debug_assert!(cond), guts.rs:256-257, many.rs:123, 327. *)
Definition debug_assert_lk (dbg c : bool) : L unit :=
  emit (if dbg then [Branch c] else []) (debug_assert dbg c).
(** [&l[a..b]], lib.rs:426, 462, 485. *)
Definition slice_lk {A} (l : list A) (a b : nat) : L (list A) :=
  emit [Branch (Nat.leb a b); Branch (Nat.leb b (length l)); Access a (b - a)] (slice l a b).
(** [&l[a..]], lib.rs:428, 470, guts.rs:239. *)
Definition slice_from_lk {A} (l : list A) (a : nat) : L (list A) :=
  emit [Branch (Nat.leb a (length l)); Access a (length l - a)] (slice_from l a).
(** A raw pointer read, blake2b/src/avx2.rs:460 (see [raw_read]). *)
Definition raw_read_lk {A} (l : list A) (off n : nat) : L (list A) :=
  emit [Access off n] (raw_read l off n).
(** copy_from_slice, lib.rs:255, 426, guts.rs:247. *)
Definition copy_into_lk {A} (dst : list A) (a : nat) (src : list A) : L (list A) :=
  emit [Branch (Nat.leb (a + length src) (length dst)); Access a (length src)] (copy_into dst a src).
(** cmp::min(a, b), lib.rs:425, guts.rs:238, blake2bp.rs:133. *)
Definition min_lk (a b : nat) : L nat := emit [Branch (Nat.leb a b)] (Ret (Nat.min a b)).
(** a.saturating_sub(b), lib.rs:458, portable.rs:131. *)
Definition sat_sub_lk (a b : nat) : L nat := emit [Branch (Nat.leb b a)] (Ret (sat_sub a b)).
(** a - a % b, lib.rs:459, portable.rs:132, many.rs:242, blake2bp.rs:345. *)
Definition round_down_lk (a b : nat) : L nat := emit [Divide a b] (Ret (a - a mod b)%nat).
(** for x in l, blake2b/src/avx2.rs:833-835, blake2bp.rs:109. *)
Fixpoint mapM_lk {A B} (f : A -> L B) (l : list A) : L (list B) :=
  match l with
  | [] => emit [Branch false] (Ret [])
  | x :: r => tell [Branch true] (ldo y <- f x; ldo ys <- mapM_lk f r; ret (y :: ys))
  end.
(** x.is_empty(), lib.rs:438, many.rs:127, 237, 250, 299. *)
Definition is_empty {A} (l : list A) : bool := match l with [] => true | _ :: _ => false end.

(** guts.rs:217-223; s: 215-221. *)
Definition flag_word_lk (v : variant) (flag : bool) : L N := emit [Branch flag] (Ret (flag_word v flag)).

(** guts.rs:232-250; s: 230-248. *)
Definition final_block_lk (v : variant) (input : list byte) (offset : nat)
    (buffer : list byte) (s : stride) : L (list byte * nat * bool) :=
  ldo capped_offset <- min_lk offset (length input);
  ldo offset_slice <- slice_from_lk input capped_offset;
  branch (Nat.leb (blockbytes v) (length offset_slice))
    (ldo block <- slice_lk offset_slice 0 (blockbytes v);
     let should_finalize := Nat.leb (length offset_slice) (padded_blockbytes v s) in
     tell [Branch should_finalize] (ret (block, blockbytes v, should_finalize)))
    (ldo buffer' <- copy_into_lk buffer 0 offset_slice;
     ret (buffer', length offset_slice, true)).

(** guts.rs:252-259; s: 250-257. *)
Definition input_debug_asserts_lk (v : variant) (dbg : bool) (input : list byte)
    (finalize : bool) : L unit :=
  branch (negb finalize)
    (ldo _ <- debug_assert_lk dbg (negb (Nat.eqb (length input) 0));
     tell (if dbg then [Divide (length input) (blockbytes v)] else [])
       (debug_assert_lk dbg (Nat.eqb (length input mod blockbytes v) 0)))
    (ret tt).

(** How the loop takes a block: portable.rs:150 (s: 146), blake2b/src/avx2.rs:460, blake2s/src/sse41.rs:438. *)
Definition block_reader_lk := list byte -> nat -> nat -> L (list byte).
(** portable.rs:150; s: 146. *)
Definition array_ref_reader_lk : block_reader_lk := fun l off n => slice_lk l off (off + n).
(** blake2b/src/avx2.rs:460, blake2s/src/sse41.rs:438. *)
Definition raw_reader_lk : block_reader_lk := fun l off n => raw_read_lk l off n.

(** portable.rs:139-165 (s: 135-161), blake2b/src/avx2.rs:446-475, blake2s/src/sse41.rs:424-453. *)
Fixpoint compress1_iter_lk (v : variant) (k : kernel) (rd : block_reader_lk) (fuel : nat)
    (input : list byte) (fin_offset : nat) (fin_block : list byte) (fin_len : nat)
    (fin_last_block fin_last_node : N) (st : stride)
    (offset : nat) (count : N) (words : list N) : L (list N) :=
  match fuel with
  | O => emit [] Diverge
  | S fuel' =>
      ldo '(block, count_delta, last_block, last_node) <-
        branch (Nat.eqb offset fin_offset)
          (ret (fin_block, fin_len, fin_last_block, fin_last_node))
          (ldo b <- rd input offset (blockbytes v);
           ldo last_block <- flag_word_lk v false;
           ldo last_node <- flag_word_lk v false;
           ret (b, blockbytes v, last_block, last_node));
      let count := count_wrapping_add v count (N.of_nat count_delta) in
      let words := k block words count last_block last_node in
      tell [Kernel KBlock]
        (branch (Nat.eqb offset fin_offset) (ret words)
          (compress1_iter_lk v k rd fuel' input fin_offset fin_block fin_len
             fin_last_block fin_last_node st (offset + padded_blockbytes v st) count words))
  end.

(** portable.rs:119-168 (s: 115-164), blake2b/src/avx2.rs:426-478, blake2s/src/sse41.rs:405-456. *)
Definition compress1_loop_gen_lk (v : variant) (k : kernel) (rd : block_reader_lk) (dbg : bool)
    (input : list byte) (words : list N) (count : N) (last_node finalize : bool)
    (st : stride) : L (list N) :=
  ldo _ <- input_debug_asserts_lk v dbg input finalize;
  ldo fin_offset <- sat_sub_lk (length input) 1;
  ldo fin_offset <- round_down_lk fin_offset (padded_blockbytes v st);
  ldo '(fin_block, fin_len, _) <- final_block_lk v input fin_offset (zeros (blockbytes v)) st;
  ldo fin_last_block <- flag_word_lk v finalize;
  ldo fin_last_node <- flag_word_lk v (finalize && last_node);
  compress1_iter_lk v k rd (S (length input)) input fin_offset fin_block fin_len
    fin_last_block fin_last_node st 0 count words.

(** jobs.iter().map(|job| job.input.len()).min(), blake2b/src/avx2.rs:848 and copies. *)
Fixpoint min_of_lk (m : nat) (js : list job) : L nat :=
  match js with
  | [] => emit [Branch false] (Ret m)
  | j :: r => tell [Branch true] (ldo m' <- min_lk m (length (j_input j)); min_of_lk m' r)
  end.
(** blake2b/src/avx2.rs:848, sse41.rs:388; s: avx2.rs:482, sse41.rs:807. *)
Definition min_len_lk (js : list job) : L nat :=
  match js with
  | [] => emit [Branch false] Panic
  | j :: r => tell [Branch true] (min_of_lk (length (j_input j)) r)
  end.

(** blake2b/src/avx2.rs:878-919, sse41.rs:412-451; s: avx2.rs:537-582, sse41.rs:837-878. *)
Fixpoint compressn_iter_lk (S : simd) (fuel : nat) (inputs : list (list byte)) (fin_offset : nat)
    (fin_blocks : list (list byte)) (fin_counts_delta fin_last_block fin_last_node : reg)
    (st : stride) (offset : nat) (h_vecs : list reg) (counts_lo counts_hi : reg)
    : L (list reg * reg * reg * nat) :=
  match fuel with
  | O => emit [] Diverge
  | Datatypes.S fuel' =>
      ldo '(blocks, counts_delta, last_block, last_node) <-
        branch (Nat.eqb offset fin_offset)
          (ret (fin_blocks, fin_counts_delta, fin_last_block, fin_last_node))
          (ldo bs <- mapM_lk (fun input => raw_read_lk input offset (blockbytes (s_var S))) inputs;
           ret (bs, s_set1 S (N.of_nat (blockbytes (s_var S))), s_set1 S 0, s_set1 S 0));
      let m_vecs := transpose_msg_vecs S blocks in
      let '(counts_lo, counts_hi) := add_to_counts S counts_lo counts_hi counts_delta in
      let h_vecs := compress_transposed S h_vecs m_vecs counts_lo counts_hi last_block last_node in
      tell [Kernel (KLanes (s_degree S))]
        (branch (Nat.eqb offset fin_offset) (ret (h_vecs, counts_lo, counts_hi, offset))
          (compressn_iter_lk S fuel' inputs fin_offset fin_blocks fin_counts_delta
             fin_last_block fin_last_node st (offset + padded_blockbytes (s_var S) st)
             h_vecs counts_lo counts_hi))
  end.

(** blake2b/src/avx2.rs:831-929, sse41.rs:376-461; s: avx2.rs:461-592, sse41.rs:790-888.
    finalize.yes() && flag of the jobs (857-874 and copies) is a jump for each. *)
Definition compressn_loop_lk (S : simd) (dbg : bool) (jobs : list job) (finalize : bool)
    (st : stride) : L (list job) :=
  let v := s_var S in
  ldo _ <- mapM_lk (fun j => input_debug_asserts_lk v dbg (j_input j) finalize) jobs;
  let h_vecs := transpose_state_vecs S jobs in
  let '(counts_lo, counts_hi) := load_counts S jobs in
  ldo min_len <- tell [Kernel KLoadLanes] (min_len_lk jobs);
  ldo fin_offset <- sat_sub_lk min_len 1;
  ldo fin_offset <- round_down_lk fin_offset (padded_blockbytes v st);
  ldo fin <- mapM_lk (fun j => final_block_lk v (j_input j) fin_offset (zeros (blockbytes v)) st) jobs;
  let fin_blocks := map (fun f => fst (fst f)) fin in
  let fin_counts_delta := s_setn S (map (fun f => N.of_nat (snd (fst f))) fin) in
  ldo '(fin_last_block, fin_last_node) <-
    branch finalize
      (let blocks := map snd fin in
       let nodes := map (fun p => snd (fst p) && j_last_node (snd p)) (combine fin jobs) in
       tell (map Branch blocks ++ map Branch nodes) (ret (flags_vec S blocks, flags_vec S nodes)))
      (ret (s_set1 S 0, s_set1 S 0));
  ldo '(h_vecs, counts_lo, counts_hi, offset) <-
    compressn_iter_lk S (Datatypes.S min_len) (map j_input jobs) fin_offset fin_blocks
      fin_counts_delta fin_last_block fin_last_node st 0 h_vecs counts_lo counts_hi;
  let max_consumed := (offset + padded_blockbytes v st)%nat in
  tell [Kernel KStoreLanes]
    (mapM_lk (fun p =>
          let '(i, j) := p in
          ldo consumed <- min_lk max_consumed (length (j_input j));
          ldo rest <- slice_from_lk (j_input j) consumed;
          ret {| j_input := rest;
                 j_words := untranspose_state_vecs S h_vecs i;
                 j_count := store_count S counts_lo counts_hi i;
                 j_last_node := j_last_node j |})
       (combine (seq 0 (length jobs)) jobs)).

(** Calling a target_feature function, guts.rs:105-133; s: 105-131. *)
Definition target_feature_lk {A} (available : bool) (x : L A) : L A :=
  if available then x else emit [] UB.

(** guts.rs:96-116; s: 96-114. *)
Definition compress1_loop_lk (v : variant) (e : env) (imp : platform) (input : list byte)
    (words : list N) (count : N) (last_node finalize : bool) (st : stride) : L (list N) :=
  tell [Dispatch imp]
  match v, imp with
  | V2b, AVX2 =>
      target_feature_lk (e_avx2 e)
        (compress1_loop_gen_lk V2b Avx2b.compress_block raw_reader_lk (e_dbg e)
           input words count last_node finalize st)
  | V2b, _ =>
      compress1_loop_gen_lk V2b (Portable.compress_block V2b) array_ref_reader_lk (e_dbg e)
        input words count last_node finalize st
  | V2s, AVX2 | V2s, SSE41 =>
      target_feature_lk (e_sse41 e)
        (compress1_loop_gen_lk V2s Sse41s.compress_block raw_reader_lk (e_dbg e)
           input words count last_node finalize st)
  | V2s, Portable =>
      compress1_loop_gen_lk V2s (Portable.compress_block V2s) array_ref_reader_lk (e_dbg e)
        input words count last_node finalize st
  end.

(** guts.rs:118-126; s: 116-124. *)
Definition compress_narrow_loop_lk (v : variant) (e : env) (imp : platform) (jobs : list job)
    (finalize : bool) (st : stride) : L (list job) :=
  tell [Dispatch imp]
  match imp with
  | AVX2 | SSE41 =>
      target_feature_lk (e_sse41 e)
        (compressn_loop_lk (match v with V2b => sse41b | V2s => sse41s end) (e_dbg e) jobs finalize st)
  | Portable => emit [] Panic
  end.
(** guts.rs:128-134; s: 126-132. *)
Definition compress_wide_loop_lk (v : variant) (e : env) (imp : platform) (jobs : list job)
    (finalize : bool) (st : stride) : L (list job) :=
  tell [Dispatch imp]
  match imp with
  | AVX2 =>
      target_feature_lk (e_avx2 e)
        (compressn_loop_lk (match v with V2b => avx2b | V2s => avx2s end) (e_dbg e) jobs finalize st)
  | _ => emit [] Panic
  end.

(** ** many.rs:95-184 *)
Section Scheduler.
Context {C A : Type}.
Variable get : C -> list N.
Variable put : C -> list N -> C.
Variable prep : A -> C -> L (C * prepared).
Variables (v : variant) (e : env) (imp : platform) (finalize : bool) (st : stride).

(** many.rs:230, 253-258, 409-416. *)
Definition cell_lk (cells : list C) (r : nat) : L C := emit [Object r] (cell cells r).

(** many.rs:230-260, 408-417. *)
Definition start_lk (cells : list C) (it : nat * A) : L (list C * option vjob) :=
  let '(r, a) := it in
  ldo c <- cell_lk cells r;
  ldo '(c', p) <- prep a c;
  let cells' := set cells r c' in
  match p with
  | None => tell [Branch false] (ret (cells', None))
  | Some (input, count, last_node) =>
      tell [Branch true]
        (ret (cells', Some {| v_ref := r; v_input := input; v_count := count; v_last_node := last_node |}))
  end.

(** many.rs:230, 408. *)
Fixpoint pull_src_lk (src : list (option (nat * A))) (calls : nat) (cells : list C)
    : L (iter A * list C * option vjob) :=
  match src with
  | [] => tell [Branch false]
      (ret ({| i_peeked := None; i_src := []; i_done := true; i_calls := S calls |}, cells, None))
  | None :: src' => tell [Branch false]
      (ret ({| i_peeked := None; i_src := src'; i_done := true; i_calls := S calls |}, cells, None))
  | Some it :: src' => tell [Branch true]
      (ldo '(cells', o) <- start_lk cells it;
      match o with
      | Some j => tell [Branch true]
          (ret ({| i_peeked := None; i_src := src'; i_done := false; i_calls := S calls |},
                cells', Some j))
      | None => tell [Branch false] (pull_src_lk src' (S calls) cells')
      end)
  end.

(** many.rs:105, 145, 175. *)
Definition next_lk (it : iter A) (cells : list C) : L (iter A * list C * option vjob) :=
  branch (i_done it) (ret (it, cells, None))
    match i_peeked it with
    | None => tell [Branch false] (pull_src_lk (i_src it) (i_calls it) cells)
    | Some p => tell [Branch true]
        (ldo '(cells', o) <- start_lk cells p;
        match o with
        | Some j => tell [Branch true]
            (ret ({| i_peeked := None; i_src := i_src it; i_done := false;
                     i_calls := i_calls it |}, cells', Some j))
        | None => tell [Branch false] (pull_src_lk (i_src it) (i_calls it) cells')
        end)
    end.

(** many.rs:99-111. *)
Fixpoint fill_lk (k : nat) (it : iter A) (cells : list C) (vec : list vjob)
    : L (iter A * list C * list vjob) :=
  match k with
  | O => emit [Branch false] (Ret (it, cells, vec))
  | S k' => tell [Branch true]
      (ldo '(it', cells', o) <- next_lk it cells;
      match o with
      | None => tell [Branch false] (ret (it', cells', vec))
      | Some j => tell [Branch true]
          (ldo _ <- assert_lk (Nat.ltb (length vec) (max_degree v true));
           fill_lk k' it' cells' (vec ++ [j]))
      end)
  end.
(** many.rs:99-111. *)
Definition fill_jobs_vec_lk (it : iter A) (cells : list C) (vec : list vjob) (target_len : nat) :=
  fill_lk (target_len - length vec) it cells vec.

(** many.rs:115-132. *)
Fixpoint evict_finished_lk (vec : list vjob) (num_jobs : nat) : L (list vjob) :=
  match num_jobs with
  | O => emit [Branch false] (Ret vec)
  | S i => tell [Branch true]
      (ldo _ <- debug_assert_lk (e_dbg e) (Nat.ltb i (length vec));
       ldo vec <-
         match nth_error vec i with
         | Some j => branch (is_empty (v_input j)) (ret (pop_at vec i)) (ret vec)
         | None => ret vec
         end;
       evict_finished_lk vec i)
  end.

(** many.rs:156-157, 169-170. *)
Definition load_job_lk (cells : list C) (j : vjob) : L job :=
  ldo c <- cell_lk cells (v_ref j);
  ret {| j_input := v_input j; j_words := get c; j_count := v_count j; j_last_node := v_last_node j |}.
(** guts.rs:137-142; many.rs:157, 170, 182. *)
Definition store_words_lk (cells : list C) (r : nat) (ws : list N) : L (list C) :=
  ldo c <- cell_lk cells r; ret (set cells r (put c ws)).
(** many.rs:157, 170. *)
Fixpoint store_jobs_lk (cells : list C) (js : list (vjob * job)) : L (list C * list vjob) :=
  match js with
  | [] => ret (cells, [])
  | (j, k) :: r =>
      ldo cells' <- store_words_lk cells (v_ref j) (j_words k);
      ldo '(cells'', vs) <- store_jobs_lk cells' r;
      ret (cells'', {| v_ref := v_ref j; v_input := j_input k; v_count := j_count k;
                       v_last_node := j_last_node k |} :: vs)
  end.
(** many.rs:156-157, 169-170. *)
Definition run_jobs_lk (loop : list job -> L (list job)) (n : nat) (cells : list C)
    (vec : list vjob) : L (list C * list vjob) :=
  ldo front <- slice_lk vec 0 n;
  ldo js <- mapM_lk (load_job_lk cells) front;
  ldo js' <- loop js;
  ldo '(cells', front') <- store_jobs_lk cells (combine front js');
  ret (cells', front' ++ skipn n vec).

(** many.rs:151-160, 164-173. *)
Fixpoint batch_loop_lk (loop : list job -> L (list job)) (n : nat) (fuel : nat)
    (it : iter A) (cells : list C) (vec : list vjob) : L (iter A * list C * list vjob) :=
  match fuel with
  | O => emit [] Diverge
  | S fuel' =>
      ldo '(it, cells, vec) <- fill_jobs_vec_lk it cells vec n;
      branch (Nat.ltb (length vec) n) (ret (it, cells, vec))
        (ldo '(cells, vec) <- run_jobs_lk loop n cells vec;
         ldo vec <- evict_finished_lk vec n;
         batch_loop_lk loop n fuel' it cells vec)
  end.

(** many.rs:176-182. *)
Definition run_one_lk (cells : list C) (j : vjob) : L (list C) :=
  ldo c <- cell_lk cells (v_ref j);
  ldo ws <- compress1_loop_lk v e imp (v_input j) (get c) (v_count j) (v_last_node j) finalize st;
  store_words_lk cells (v_ref j) ws.
(** many.rs:175-183. *)
Fixpoint run_vec_lk (cells : list C) (vec : list vjob) : L (list C) :=
  match vec with
  | [] => emit [Branch false] (Ret cells)
  | j :: r => tell [Branch true] (ldo cells' <- run_one_lk cells j; run_vec_lk cells' r)
  end.
(** many.rs:175-183. *)
Fixpoint run_rest_lk (fuel : nat) (it : iter A) (cells : list C) : L (iter A * list C) :=
  match fuel with
  | O => emit [] Diverge
  | S fuel' =>
      ldo '(it', cells', o) <- next_lk it cells;
      match o with
      | None => tell [Branch false] (ret (it', cells'))
      | Some j => tell [Branch true] (ldo cells'' <- run_one_lk cells' j; run_rest_lk fuel' it' cells'')
      end
  end.

(** many.rs:134-184. *)
Definition compress_many_lk (it : iter A) (cells : list C) : L (iter A * list C) :=
  let fuel := (2 + length (i_src it))%nat in
  ldo '(it, cells, vec) <-
    tell [Dispatch imp]
    (branch (Nat.leb (wide v) (degree v imp))
      (batch_loop_lk (fun js => compress_wide_loop_lk v e imp js finalize st) (wide v) fuel it cells [])
      (ret (it, cells, [])));
  ldo '(it, cells, vec) <-
    tell [Dispatch imp]
    (branch (Nat.leb (narrow v) (degree v imp))
      (batch_loop_lk (fun js => compress_narrow_loop_lk v e imp js finalize st) (narrow v)
         (fuel + length vec) it cells vec)
      (ret (it, cells, vec)));
  ldo cells <- run_vec_lk cells vec;
  run_rest_lk fuel it cells.
End Scheduler.

(** ** lib.rs *)

(** A [&mut self] method with its events, lib.rs:238-339. *)
Definition lmethod (P : Type) := P -> list event * (P * outcome unit).
(** lib.rs:239-243, 252. *)
Definition lm_assert {P} (c : bool) : lmethod P := fun p => ([Branch c], m_assert c p).
(** lib.rs:244, 253. *)
Definition lm_assign {P} (f : P -> P) : lmethod P := fun p => ([], m_assign f p).
(** lib.rs:255. *)
Definition lm_try {P} (f : P -> L P) : lmethod P := fun p => (fst (f p), m_try (fun p => snd (f p)) p).
(** lib.rs:251-257. *)
Definition lm_seq {P} (a b : lmethod P) : lmethod P :=
  fun p => let '(t, (p', o)) := a p in
           match o with
           | Ret _ => let '(t', r) := b p' in (t ++ t', r)
           | _ => (t, (p', o))
           end.
Infix ";;;" := lm_seq (at level 61, left associativity).

(** lib.rs:238-246; s: 229-237. *)
Definition hash_length_lk (v : variant) (length : nat) : lmethod Lib.params :=
  lm_assert (Nat.leb 1 length && Nat.leb length (outbytes v)) ;;;
  lm_assign (set_p_hash_length (as_u8 length)).
(** lib.rs:251-257; s: 242-248. *)
Definition key_lk (v : variant) (k : list byte) : lmethod Lib.params :=
  lm_assert (Nat.leb (length k) (keybytes v)) ;;;
  lm_assign (set_p_key_length (as_u8 (length k))) ;;;
  lm_assign (set_p_key_block (zeros (blockbytes v))) ;;;
  lm_try (fun p => ldo b <- copy_into_lk (p_key_block p) 0 k; ret (set_p_key_block b p)).
(** lib.rs:262-267; s: 253-258. *)
Definition salt_lk (v : variant) (s : list byte) : lmethod Lib.params :=
  lm_assert (Nat.leb (length s) (saltbytes v)) ;;;
  lm_assign (set_p_salt (zeros (saltbytes v))) ;;;
  lm_try (fun p => ldo b <- copy_into_lk (p_salt p) 0 s; ret (set_p_salt b p)).
(** lib.rs:272-281; s: 263-272. *)
Definition personal_lk (v : variant) (s : list byte) : lmethod Lib.params :=
  lm_assert (Nat.leb (length s) (personalbytes v)) ;;;
  lm_assign (set_p_personal (zeros (personalbytes v))) ;;;
  lm_try (fun p => ldo b <- copy_into_lk (p_personal p) 0 s; ret (set_p_personal b p)).
(** lib.rs:285-288; s: 276-279. *)
Definition fanout_lk (x : N) : lmethod Lib.params := lm_assign (set_p_fanout x).
(** lib.rs:292-295; s: 283-286. *)
Definition max_depth_lk (x : N) : lmethod Lib.params := lm_assign (set_p_max_depth x).
(** lib.rs:299-302; s: 290-293. *)
Definition max_leaf_length_lk (x : N) : lmethod Lib.params := lm_assign (set_p_max_leaf_length x).
(** lib.rs:306-309 (no assertion); s: 297-301. *)
Definition node_offset_lk (v : variant) (x : N) : lmethod Lib.params :=
  lm_assert (match v with V2b => true | V2s => N.ltb x (N.shiftl 1 48) end) ;;;
  lm_assign (set_p_node_offset x).
(** lib.rs:313-316; s: 305-308. *)
Definition node_depth_lk (x : N) : lmethod Lib.params := lm_assign (set_p_node_depth x).
(** lib.rs:320-324; s: 312-316. *)
Definition inner_hash_length_lk (v : variant) (length : nat) : lmethod Lib.params :=
  lm_assert (Nat.leb length (outbytes v)) ;;;
  lm_assign (set_p_inner_hash_length (as_u8 length)).
(** lib.rs:332-339; s: 324-331. *)
Definition last_node_lk (b : bool) : lmethod Lib.params :=
  fun p => ([Branch b], m_assign (set_p_last_node b) p).
(** lib.rs:682-684; s: 674-676. *)
Definition force_portable_lk : lmethod Lib.params := lm_assign (set_p_imp Portable).

(** as_bytes, lib.rs:589-591; s: 581-583. *)
Definition as_bytes_lk (h : hash) : L (list byte) := slice_lk (h_bytes h) 0 (N.to_nat (h_len h)).
(** as_array, lib.rs:597-600; s: 589-592. *)
Definition as_array_lk (v : variant) (e : env) (h : hash) : L (list byte) :=
  ldo _ <- debug_assert_lk (e_dbg e) (N.eqb (h_len h) (N.of_nat (outbytes v)));
  ret (h_bytes h).

(** The loop of constant_time_eq (not in /repo; called at lib.rs:637, 644): byte [i] of both is read and
    their difference added to the result so far. *)
Fixpoint ct_loop_lk (i : nat) (ps : list (byte * byte)) (t : N) : L N :=
  match ps with
  | [] => emit [Branch false] (Ret t)
  | p :: r => tell [Branch true; Access i 1; Access i 1]
      (ct_loop_lk (S i) r (N.lor t (N.lxor (b2n (fst p)) (b2n (snd p)))))
  end.
(** constant_time_eq (not in /repo; called at lib.rs:637, 644). *)
Definition constant_time_eq_lk (a b : list byte) : L bool :=
  branch (Nat.eqb (length a) (length b))
    (ldo t <- ct_loop_lk 0 (combine a b) 0; ret (N.eqb 0 t))
    (ret false).
(** lib.rs:635-639; s: 627-631. *)
Definition hash_eq_lk (a b : hash) : L bool :=
  ldo x <- as_bytes_lk a; ldo y <- as_bytes_lk b; constant_time_eq_lk x y.
(** lib.rs:642-646; s: 634-638. *)
Definition hash_eq_slice_lk (a : hash) (b : list byte) : L bool :=
  ldo x <- as_bytes_lk a; constant_time_eq_lk x b.

(** ArrayString::push, lib.rs:613-614. *)
Definition push_char_lk (v : variant) (s : list ascii) (c : ascii) : L (list ascii) :=
  emit [Branch (Nat.ltb (length s) (2 * outbytes v)); Access (length s) 1] (push_char v s c).
(** table[..], lib.rs:613-614; s: 605-606. *)
Definition index_table_lk (i : N) : L ascii :=
  emit [Branch (N.ltb i 16); Access (N.to_nat i) 1] (index_table i).
(** The two digits of a byte, lib.rs:613-614; s: 605-606. *)
Definition push_byte_lk (v : variant) (s : list ascii) (b : byte) : L (list ascii) :=
  ldo hi <- index_table_lk (N.shiftr (b2n b) 4);
  ldo s <- push_char_lk v s hi;
  ldo lo <- index_table_lk (N.land (b2n b) 15);
  push_char_lk v s lo.
(** lib.rs:612-615; s: 604-607. *)
Fixpoint push_hex_lk (v : variant) (s : list ascii) (bytes : list byte) : L (list ascii) :=
  match bytes with
  | [] => emit [Branch false] (Ret s)
  | b :: r => tell [Branch true] (ldo s <- push_byte_lk v s b; push_hex_lk v s r)
  end.
(** bytes_to_hex, lib.rs:609-617; s: 601-609. *)
Definition bytes_to_hex_lk (v : variant) (bytes : list byte) : L string :=
  ldo s <- push_hex_lk v [] bytes; ret (string_of_list_ascii s).
(** to_hex, lib.rs:604-606; s: 596-598. *)
Definition to_hex_lk (v : variant) (h : hash) : L string :=
  ldo b <- as_bytes_lk h; bytes_to_hex_lk v b.
(** Debug for Hash, lib.rs:656-660; s: 648-652. *)
Definition hash_debug_lk (v : variant) (h : hash) : L string :=
  ldo x <- to_hex_lk v h;
  let t := ("Hash(0x" ++ x ++ ")")%string in tell [Print t] (ret t).

(** with_params, lib.rs:406-422; s: 398-414. *)
Definition with_params_lk (v : variant) (p : Lib.params) : L state :=
  emit (Branch (N.ltb 0 (p_key_length p)) ::
        if N.ltb 0 (p_key_length p) then [Access 0 (length (p_key_block p))] else [])
    (Ret (with_params v p)).
(** to_state, lib.rs:230-232; s: 221-223. *)
Definition to_state_lk := with_params_lk.

(** fill_buf, lib.rs:424-429; s: 416-421. *)
Definition fill_buf_lk (v : variant) (e : env) (s : state) (input : list byte) : L (state * list byte) :=
  ldo take <- min_lk (blockbytes v - s_buflen s) (length input);
  ldo head <- slice_lk input 0 take;
  ldo buf <- copy_into_lk (s_buf s) (s_buflen s) head;
  ldo buflen <- emit (if e_dbg e then [Branch (Nat.ltb (s_buflen s + N.to_nat (as_u8 take)) 256)] else [])
                  (add_small (e_dbg e) 256 (s_buflen s) (N.to_nat (as_u8 take)));
  ldo rest <- slice_from_lk input take;
  ret (set_s_buflen buflen (set_s_buf buf s), rest).

(** compress_buffer_if_possible, lib.rs:434-450; s: 426-442. *)
Definition compress_buffer_if_possible_lk (v : variant) (e : env) (s : state) (input : list byte)
    : L (state * list byte) :=
  branch (Nat.ltb 0 (s_buflen s))
    (ldo '(s, input) <- fill_buf_lk v e s input;
     branch (is_empty input) (ret (s, input))
       (ldo ws <- compress1_loop_lk v e (s_imp s) (s_buf s) (s_words s) (s_count s)
                    (s_last_node s) false Serial;
        let s := set_s_words ws s in
        let s := set_s_count (count_wrapping_add v (s_count s) (N.of_nat (blockbytes v))) s in
        let s := set_s_buflen 0 s in
        ret (s, input)))
    (ret (s, input)).

(** update, lib.rs:453-478; s: 445-470. *)
Definition update_lk (v : variant) (e : env) (s : state) (input : list byte) : L state :=
  ldo '(s, input) <- compress_buffer_if_possible_lk v e s input;
  ldo end_ <- sat_sub_lk (length input) 1;
  ldo end_ <- round_down_lk end_ (blockbytes v);
  ldo '(s, input) <-
    branch (Nat.ltb 0 end_)
      (ldo blocks <- slice_lk input 0 end_;
       ldo ws <- compress1_loop_lk v e (s_imp s) blocks (s_words s) (s_count s)
                   (s_last_node s) false Serial;
       let s := set_s_words ws s in
       let s := set_s_count (count_wrapping_add v (s_count s) (N.of_nat end_)) s in
       ldo rest <- slice_from_lk input end_;
       ret (s, rest))
      (ret (s, input));
  ldo '(s, _) <- fill_buf_lk v e s input;
  ret s.

(** finalize, lib.rs:482-496; s: 474-488. *)
Definition finalize_lk (v : variant) (e : env) (s : state) : L hash :=
  ldo input <- slice_lk (s_buf s) 0 (s_buflen s);
  ldo ws <- compress1_loop_lk v e (s_imp s) input (s_words s) (s_count s) (s_last_node s) true Serial;
  ret {| h_bytes := state_words_to_bytes v ws; h_len := s_hash_length s |}.

(** set_last_node, lib.rs:506-513; s: 498-505. *)
Definition set_last_node_lk (b : bool) (s : state) : L state :=
  emit [Branch b] (Ret (set_last_node b s)).

(** Count subtraction, lib.rs:522, s: 514. *)
Definition count_sub_lk (v : variant) (e : env) (a b : N) : L N :=
  emit (if e_dbg e then [Branch (N.leb b a)] else []) (count_sub v e a b).
(** count, lib.rs:519-525; s: 511-517. *)
Definition count_lk (v : variant) (e : env) (s : state) : L N :=
  let ret_ := count_wrapping_add v (s_count s) (N.of_nat (s_buflen s)) in
  branch (s_is_keyed s) (count_sub_lk v e ret_ (N.of_nat (blockbytes v))) (ret ret_).
(** Debug for State, lib.rs:558-569; s: 550-561. *)
Definition state_debug_lk (v : variant) (e : env) (s : state) : L string :=
  ldo c <- count_lk v e s;
  let t := ("State { count: " ++ dec c ++
       ", hash_length: " ++ dec (s_hash_length s) ++
       ", last_node: " ++ show_bool (s_last_node s) ++ " }")%string in
  tell [Print t] (ret t).

(** write, lib.rs:546-552; s: 538-544. *)
Definition write_lk (v : variant) (e : env) (s : state) (buf : list byte) : L (state * nat) :=
  ldo s <- update_lk v e s buf; ret (s, length buf).

(** Params::hash, lib.rs:208-226; s: 199-217. *)
Definition params_hash_lk (v : variant) (e : env) (p : Lib.params) (input : list byte) : L hash :=
  branch (N.ltb 0 (p_key_length p))
    (ldo s <- to_state_lk v p;
     ldo s <- update_lk v e s input;
     finalize_lk v e s)
    (ldo ws <- compress1_loop_lk v e (p_imp p) input (to_words v p) 0 (p_last_node p) true Serial;
     ret {| h_bytes := state_words_to_bytes v ws; h_len := p_hash_length p |}).
(** lib.rs:117-119; s: 106-108. *)
Definition blake2_default_lk (v : variant) (e : env) (imp : platform) (input : list byte) : L hash :=
  params_hash_lk v e (params_new v imp) input.

(** ** many.rs *)

(** many.rs:230-260. *)
Definition update_prep_lk (v : variant) (e : env) (input : list byte) (s : state) : L (state * prepared) :=
  ldo '(s, input) <- compress_buffer_if_possible_lk v e s input;
  branch (is_empty input) (ret (s, None))
    (let last_block_start := (length input - 1)%nat in
     ldo last_block_start <- round_down_lk last_block_start (blockbytes v);
     ldo blocks <- slice_lk input 0 last_block_start;
     ldo last_block <- slice_from_lk input last_block_start;
     ldo buf <- copy_into_lk (s_buf s) 0 last_block;
     let s := set_s_buf buf s in
     let s := set_s_buflen (N.to_nat (as_u8 (length last_block))) s in
     branch (is_empty blocks) (ret (s, None))
       (let count := s_count s in
        let s := set_s_count (count_wrapping_add v (s_count s) (N.of_nat (length blocks))) s in
        ret (s, Some (blocks, count, s_last_node s)))).

(** many.rs:213-264. *)
Definition update_many_lk (v : variant) (e : env) (states : list state)
    (pairs : list (option (nat * list byte))) : L (list state * nat) :=
  let it := peek pairs in
  match i_peeked it with
  | None => emit [Branch false] (Ret (states, i_calls it))
  | Some (r, _) => tell [Branch true]
      (ldo s <- cell_lk states r;
       ldo '(it, states) <-
         compress_many_lk s_words (fun s ws => set_s_words ws s) (update_prep_lk v e)
           v e (s_imp s) false Serial it states;
       ret (states, i_calls it))
  end.

(** HashManyJob::new, many.rs:287-319. *)
Definition hash_many_job_new_lk (v : variant) (e : env) (p : Lib.params) (input : list byte)
    : L hash_many_job :=
  let words := to_words v p in
  ldo '(words, count, finished) <-
    branch (N.ltb 0 (p_key_length p))
      (let finalization := is_empty input in
       tell [Branch finalization]
       (ldo ws <- compress1_loop_lk v e (p_imp p) (p_key_block p) words 0 (p_last_node p)
                    finalization Serial;
        ret (ws, N.of_nat (blockbytes v), finalization)))
      (ret (words, 0, false));
  ret {| hj_words := words; hj_count := count; hj_last_node := p_last_node p;
         hj_hash_length := p_hash_length p; hj_input := input; hj_finished := finished;
         hj_imp := p_imp p |}.

(** to_hash, many.rs:326-332. *)
Definition to_hash_lk (v : variant) (e : env) (j : hash_many_job) : L hash :=
  ldo _ <- debug_assert_lk (e_dbg e) (hj_finished j);
  ret {| h_bytes := state_words_to_bytes v (hj_words j); h_len := hj_hash_length j |}.

(** many.rs:408-417. *)
Definition hash_prep_lk (_ : unit) (j : hash_many_job) : L (hash_many_job * prepared) :=
  branch (hj_finished j) (ret (j, None))
    (let j := set_hj_finished true j in
     ret (j, Some (hj_input j, hj_count j, hj_last_node j))).

(** hash_many, many.rs:386-419. *)
Definition hash_many_lk (v : variant) (e : env) (jobs : list hash_many_job)
    (refs : list (option (nat * unit))) : L (list hash_many_job * nat) :=
  let it := peek refs in
  match i_peeked it with
  | None => emit [Branch false] (Ret (jobs, i_calls it))
  | Some (r, _) => tell [Branch true]
      (ldo j <- cell_lk jobs r;
       ldo '(it, jobs) <-
         compress_many_lk hj_words (fun j ws => set_hj_words ws j) hash_prep_lk
           v e (hj_imp j) true Serial it jobs;
       ret (jobs, i_calls it))
  end.

(** ** blake2bp.rs / blake2sp.rs *)

(** blake2bp.rs:161-169; blake2sp.rs:169-177. *)
Definition p_set_hash_length_lk (v : variant) (length : nat) : lmethod pparams :=
  lm_assert (Nat.leb 1 length && Nat.leb length (outbytes v)) ;;;
  lm_assign (set_pp_hash_length (as_u8 length)).
(** blake2bp.rs:173-179; blake2sp.rs:181-187. *)
Definition p_set_key_lk (v : variant) (k : list byte) : lmethod pparams :=
  lm_assert (Nat.leb (length k) (keybytes v)) ;;;
  lm_assign (set_pp_key_length (as_u8 (length k))) ;;;
  lm_assign (set_pp_key (zeros (keybytes v))) ;;;
  lm_try (fun p => ldo b <- copy_into_lk (pp_key p) 0 k; ret (set_pp_key b p)).
(** blake2bp.rs:478-480; blake2sp.rs:485-487. *)
Definition p_force_portable_lk : lmethod pparams := lm_assign (set_pp_imp Portable).

(** blake2bp.rs:89-99, 101-107, 110-114. *)
Definition run_lk {P} (m : lmethod P) (p : P) : L P :=
  let '(t, (p', o)) := m p in emit t (do _ <- o; Ret p').

(** to_words, blake2bp.rs:88-120; blake2sp.rs:87-128. *)
Definition p_to_words_lk (v : variant) (p : pparams) : L (list (list N) * list N) :=
  ldo k <- slice_lk (pp_key p) 0 (N.to_nat (pp_key_length p));
  ldo base <- run_lk (hash_length_lk v (N.to_nat (pp_hash_length p)) ;;;
                      key_lk v k ;;;
                      fanout_lk (as_u8 (par_degree v)) ;;;
                      max_depth_lk 2 ;;;
                      max_leaf_length_lk 0 ;;;
                      inner_hash_length_lk v (outbytes v)) (params_new v (pp_imp p));
  ldo leaf_words <-
    mapM_lk (fun i => ldo q <- run_lk (node_offset_lk v (N.of_nat i) ;;; node_depth_lk 0) base;
                      ret (to_words v q)) (seq 0 (par_degree v));
  ldo q <- run_lk (node_offset_lk v 0 ;;; node_depth_lk 1) base;
  ret (leaf_words, to_words v q).

(** blake2bp.rs:130-143, 287-295, 369-385. *)
Definition leaf_prep_lk (p : list byte * N * bool) (ws : list N) : L (list N * prepared) :=
  ret (ws, Some p).
(** blake2bp.rs:143, 295, 385; blake2sp.rs:151, 302, 392. *)
Definition compress_leaves_lk (v : variant) (e : env) (imp : platform) (finalize : bool)
    (leaves : list (list N)) (jobs : list (list byte * N * bool)) : L (list (list N)) :=
  ldo '(_, leaves) <-
    compress_many_lk (fun ws => ws) (fun _ ws => ws) leaf_prep_lk v e imp finalize Parallel
      {| i_peeked := None;
         i_src := map Some (combine (seq 0 (length leaves)) jobs);
         i_done := false; i_calls := 0 |} leaves;
  ret leaves.

(** finalize_root_words, blake2bp.rs:449-476; blake2sp.rs:456-483.  The zip loop copies every leaf's words: one access each. *)
Definition finalize_root_words_lk (v : variant) (e : env) (leaf_words : list (list N))
    (root_words : list N) (hash_length : N) (imp : platform) : L hash :=
  ldo _ <- debug_assert_lk (e_dbg e) (Nat.eqb (outbytes v) (8 * wbytes v));
  let words := concat leaf_words in
  let block := flat_map (to_le (wbytes v)) words in
  ldo ws <- tell (map (fun i => Access (i * wbytes v) (wbytes v)) (seq 0 (length words)))
              (compress1_loop_lk v e imp block root_words 0 true true Serial);
  ret {| h_bytes := state_words_to_bytes v ws; h_len := hash_length |}.

(** blake2bp.rs:251-257. *)
Fixpoint copy_keys_lk (v : variant) (k : list byte) (is : list nat) (buf : list byte) : L (list byte) :=
  match is with
  | [] => emit [Branch false] (Ret buf)
  | i :: r => tell [Branch true]
      (ldo buf' <- copy_into_lk buf (i * blockbytes v) k; copy_keys_lk v k r buf')
  end.

(** with_params, blake2bp.rs:238-270; blake2sp.rs:245-277. *)
Definition p_with_params_lk (v : variant) (p : pparams) : L pstate :=
  ldo '(leaf_words, root_words) <- p_to_words_lk v p;
  let buf := zeros (2 * par_degree v * blockbytes v) in
  ldo '(buf, buf_len) <-
    branch (N.ltb 0 (pp_key_length p))
      (ldo k <- slice_lk (pp_key p) 0 (N.to_nat (pp_key_length p));
       ldo buf <- copy_keys_lk v k (seq 0 (par_degree v)) buf;
       ret (buf, blockbytes v * par_degree v)%nat)
      (ret (buf, 0%nat));
  ret {| ps_leaf_words := leaf_words;
         ps_root_words := root_words;
         ps_buf := buf;
         ps_buf_len := N.to_nat (N.of_nat buf_len mod 65536);
         ps_count := 0;
         ps_hash_length := pp_hash_length p;
         ps_imp := pp_imp p;
         ps_is_keyed := N.ltb 0 (pp_key_length p) |}.
(** blake2bp.rs:154-156; blake2sp.rs:162-164. *)
Definition p_to_state_lk := p_with_params_lk.

(** fill_buf, blake2bp.rs:272-277; blake2sp.rs:279-284. *)
Definition p_fill_buf_lk (e : env) (s : pstate) (input : list byte) : L (pstate * list byte) :=
  ldo take <- min_lk (length (ps_buf s) - ps_buf_len s) (length input);
  ldo head <- slice_lk input 0 take;
  ldo buf <- copy_into_lk (ps_buf s) (ps_buf_len s) head;
  let n := N.to_nat (N.of_nat take mod 65536) in
  ldo buf_len <- emit (if e_dbg e then [Branch (N.ltb (N.of_nat (ps_buf_len s) + N.of_nat n) 65536)] else [])
                   (add_u16 e (ps_buf_len s) n);
  ldo rest <- slice_from_lk input take;
  ret (set_ps_buf_len buf_len (set_ps_buf buf s), rest).

(** compress_to_leaves, blake2bp.rs:279-298; blake2sp.rs:286-305. *)
Definition compress_to_leaves_lk (v : variant) (e : env) (imp : platform)
    (leaves : list (list N)) (input : list byte) (count : N) : L (list (list N) * N) :=
  ldo jobs <- mapM_lk (fun i => ldo x <- slice_from_lk input (i * blockbytes v); ret (x, count, false))
                (seq 0 (par_degree v));
  ldo leaves <- compress_leaves_lk v e imp false leaves jobs;
  tell [Divide (length input) (par_degree v)]
    (ret (leaves, count_wrapping_add v count (N.of_nat (length input / par_degree v)))).

(** update, blake2bp.rs:301-361; blake2sp.rs:308-368. *)
Definition p_update_lk (v : variant) (e : env) (s : pstate) (input : list byte) : L pstate :=
  let db := (par_degree v * blockbytes v)%nat in
  let tail := ((par_degree v - 1) * blockbytes v)%nat in
  ldo '(s, input) <-
    branch (Nat.ltb 0 (ps_buf_len s))
      (ldo '(s, input) <- p_fill_buf_lk e s input;
       branch (is_empty input) (ret (s, input))
         (branch (Nat.ltb tail (length input))
            (ldo '(leaves, count) <-
               compress_to_leaves_lk v e (ps_imp s) (ps_leaf_words s) (ps_buf s) (ps_count s);
             ret (set_ps_buf_len 0 (set_ps_count count (set_ps_leaves leaves s)), input))
            (ldo front <- slice_lk (ps_buf s) 0 db;
             ldo '(leaves, count) <-
               compress_to_leaves_lk v e (ps_imp s) (ps_leaf_words s) front (ps_count s);
             let s := set_ps_count count (set_ps_leaves leaves s) in
             let s := set_ps_buf_len (N.to_nat (N.of_nat db mod 65536)) s in
             ldo buf_front <- slice_lk (ps_buf s) 0 db;
             ldo buf_back <- slice_from_lk (ps_buf s) db;
             ldo buf_front <- branch (Nat.eqb (length buf_front) (length buf_back))
                                (emit [Access 0 (length buf_back)] (Ret buf_back)) (emit [] Panic);
             ret (set_ps_buf (buf_front ++ buf_back) s, input))))
      (ret (s, input));
  let needed_tail := (tail + 1)%nat in
  ldo bulk_bytes <- sat_sub_lk (length input) needed_tail;
  ldo bulk_bytes <- round_down_lk bulk_bytes db;
  ldo '(s, input) <-
    branch (Nat.ltb 0 bulk_bytes)
      (ldo bulk <- slice_lk input 0 bulk_bytes;
       ldo '(leaves, count) <-
         compress_to_leaves_lk v e (ps_imp s) (ps_leaf_words s) bulk (ps_count s);
       ldo rest <- slice_from_lk input bulk_bytes;
       ret (set_ps_count count (set_ps_leaves leaves s), rest))
      (ret (s, input));
  ldo '(s, input) <- p_fill_buf_lk e s input;
  ldo _ <- debug_assert_lk (e_dbg e) (Nat.eqb 0 (length input));
  ret s.

(** finalize, blake2bp.rs:365-395; blake2sp.rs:372-402. *)
Definition p_finalize_lk (v : variant) (e : env) (s : pstate) : L hash :=
  let buf_len := ps_buf_len s in
  ldo jobs <-
    mapM_lk (fun i => ldo from <- min_lk (i * blockbytes v) buf_len;
                      ldo x <- slice_lk (ps_buf s) from buf_len;
                      ret (x, ps_count s, Nat.eqb i (par_degree v - 1)))
      (seq 0 (par_degree v));
  ldo leaves <- compress_leaves_lk v e (ps_imp s) true (ps_leaf_words s) jobs;
  finalize_root_words_lk v e leaves (ps_root_words s) (ps_hash_length s) (ps_imp s).

(** count, blake2bp.rs:401-411; blake2sp.rs:408-418. *)
Definition p_count_lk (v : variant) (e : env) (s : pstate) : L N :=
  let ret_ := count_wrapping_add v ((ps_count s * N.of_nat (par_degree v)) mod cmod v)
                (N.of_nat (ps_buf_len s)) in
  branch (ps_is_keyed s) (count_sub_lk v e ret_ (N.of_nat (par_degree v * blockbytes v))) (ret ret_).
(** Debug for State, blake2bp.rs:426-435; blake2sp.rs:433-442. *)
Definition pstate_debug_lk (v : variant) (e : env) (s : pstate) : L string :=
  ldo c <- p_count_lk v e s;
  let t := ("State { count: " ++ dec c ++
       ", hash_length: " ++ dec (ps_hash_length s) ++ " }")%string in
  tell [Print t] (ret t).

(** write, blake2bp.rs:415-420; blake2sp.rs:422-427. *)
Definition p_write_lk (v : variant) (e : env) (s : pstate) (buf : list byte) : L (pstate * nat) :=
  ldo s <- p_update_lk v e s buf; ret (s, length buf).

(** Params::hash, blake2bp.rs:123-151; blake2sp.rs:131-159. *)
Definition p_hash_lk (v : variant) (e : env) (p : pparams) (input : list byte) : L hash :=
  branch (N.ltb 0 (pp_key_length p))
    (ldo s <- p_to_state_lk v p;
     ldo s <- p_update_lk v e s input;
     p_finalize_lk v e s)
    (ldo '(leaf_words, root_words) <- p_to_words_lk v p;
     ldo jobs <-
       mapM_lk (fun i => ldo input_start <- min_lk (length input) (i * blockbytes v);
                         ldo x <- slice_from_lk input input_start;
                         ret (x, 0, Nat.eqb i (par_degree v - 1)))
         (seq 0 (par_degree v));
     ldo leaf_words <- compress_leaves_lk v e (pp_imp p) true leaf_words jobs;
     finalize_root_words_lk v e leaf_words root_words (pp_hash_length p) (pp_imp p)).
(** blake2bp.rs:52-54; blake2sp.rs:51-53. *)
Definition blake2p_default_lk (v : variant) (e : env) (imp : platform) (input : list byte) : L hash :=
  p_hash_lk v e (pparams_new v imp) input.

(** ** Programs over the public API, as in Api.v *)

(** lib.rs:238-339. *)
Definition call_setter_lk (v : variant) (s : setting) : lmethod Lib.params :=
  match s with
  | HashLength n => hash_length_lk v n
  | Key k => key_lk v k
  | Salt s => salt_lk v s
  | Personal s => personal_lk v s
  | Fanout x => fanout_lk x
  | MaxDepth x => max_depth_lk x
  | MaxLeafLength x => max_leaf_length_lk x
  | NodeOffset x => node_offset_lk v x
  | NodeDepth x => node_depth_lk x
  | InnerHashLength n => inner_hash_length_lk v n
  | LastNode b => last_node_lk b
  end.
(** blake2bp.rs:161-179. *)
Definition call_psetter_lk (v : variant) (s : psetting) : lmethod pparams :=
  match s with
  | PHashLength n => p_set_hash_length_lk v n
  | PKey k => p_set_key_lk v k
  end.

(** std::io::Write::write_all (not in /repo; impls at lib.rs:546-556 and blake2bp.rs:415-424). *)
Fixpoint write_all_loop_lk {S} (wr : S -> list byte -> L (S * nat)) (fuel : nat) (s : S) (buf : list byte)
    : L S :=
  match buf with
  | [] => emit [Branch false] (Ret s)
  | _ :: _ =>
      match fuel with
      | O => emit [] Diverge
      | Datatypes.S fuel' => tell [Branch true]
          (ldo '(s, n) <- wr s buf;
           branch (Nat.eqb n 0) (emit [] Panic)
             (ldo rest <- slice_from_lk buf n; write_all_loop_lk wr fuel' s rest))
      end
  end.
(** As [write_all_loop_lk] (std, not in /repo; impls at lib.rs:546-556 and blake2bp.rs:415-424). *)
Definition write_all_lk {S} (wr : S -> list byte -> L (S * nat)) (s : S) (buf : list byte) : L S :=
  write_all_loop_lk wr (length buf) s buf.

(** The end of a call (see [finish], lib.rs:113-660). *)
Definition finish_lk {A} (w : world) (x : L A) (k : A -> world * obs) : list event * (world * obs) :=
  (fst x, finish w (snd x) k).
(** The receiver of a call (see [on_obj], lib.rs:208, 453). *)
Definition on_obj_lk {A} (w : world) (l : list A) (i : nat) (k : A -> list event * (world * obs))
    : list event * (world * obs) :=
  match nth_error l i with Some x => k x | None => ([], (w, Inexpressible)) end.
(** A builder method (see [run_method], lib.rs:238-339). *)
Definition run_method_lk {P} (m : lmethod P) (p : P) (upd : P -> world) : list event * (world * obs) :=
  let '(t, (p', o)) := m p in
  (t, (upd p', match o with Ret _ => Unit | Panic => Panicked | _ => Broken end)).
(** A call without jumps or accesses that depend on anything: moves and clones (derived Clone, lib.rs:145, 388). *)
Definition quiet (x : world * obs) : list event * (world * obs) := ([], x).

Section Step.
Variables (v : variant) (e : env) (imp : platform).

(** One call (see [step], lib.rs:113-660, many.rs:91-419, blake2bp.rs:52-480). *)
Definition step_lk (w : world) (c : call) : list event * (world * obs) :=
  match c with
  | NewParams => quiet (with_w_params (w_params w ++ [params_new v imp]) w, Unit)
  | CloneParams p => on_obj_lk w (w_params w) p (fun x => quiet (with_w_params (w_params w ++ [x]) w, Unit))
  | Set_ p s => on_obj_lk w (w_params w) p (fun x =>
      run_method_lk (call_setter_lk v s) x (fun x' => with_w_params (set (w_params w) p x') w))
  | ForcePortable p => on_obj_lk w (w_params w) p (fun x =>
      run_method_lk force_portable_lk x (fun x' => with_w_params (set (w_params w) p x') w))
  | ShowParams p => on_obj_lk w (w_params w) p (fun x =>
      ([Print (params_debug x)], (w, Text (params_debug x))))
  | OneShot m => finish_lk w (blake2_default_lk v e imp m) (push_hash w)
  | HashWith p m => on_obj_lk w (w_params w) p (fun x => finish_lk w (params_hash_lk v e x m) (push_hash w))
  | NewState => finish_lk w (to_state_lk v (params_new v imp))
      (fun s => (with_w_states (w_states w ++ [s]) w, Unit))
  | ToState p => on_obj_lk w (w_params w) p (fun x =>
      finish_lk w (to_state_lk v x) (fun s => (with_w_states (w_states w ++ [s]) w, Unit)))
  | CloneState s => on_obj_lk w (w_states w) s (fun x => quiet (with_w_states (w_states w ++ [x]) w, Unit))
  | Update s m => on_obj_lk w (w_states w) s (fun x =>
      finish_lk w (update_lk v e x m) (fun x' => (put_state w s x', Unit)))
  | Write s m => on_obj_lk w (w_states w) s (fun x =>
      finish_lk w (write_lk v e x m) (fun '(x', n) => (put_state w s x', Wrote n)))
  | WriteAll s m => on_obj_lk w (w_states w) s (fun x =>
      finish_lk w (write_all_lk (write_lk v e) x m) (fun x' => (put_state w s x', Unit)))
  | Flush s => on_obj_lk w (w_states w) s (fun x => quiet (put_state w s x, Unit))
  | SetLastNode s b => on_obj_lk w (w_states w) s (fun x =>
      finish_lk w (set_last_node_lk b x) (fun x' => (put_state w s x', Unit)))
  | Finalize s => on_obj_lk w (w_states w) s (fun x => finish_lk w (finalize_lk v e x) (push_hash w))
  | Count s => on_obj_lk w (w_states w) s (fun x => finish_lk w (count_lk v e x) (fun n => (w, Number n)))
  | ShowState s => on_obj_lk w (w_states w) s (fun x =>
      finish_lk w (state_debug_lk v e x) (fun t => (w, Text t)))
  | UpdateMany xs =>
      if borrowable (length (w_states w)) (map fst (until_none xs))
      then finish_lk w (update_many_lk v e (w_states w) xs) (fun '(ss, n) => (with_w_states ss w, Pulled n))
      else quiet (w, Inexpressible)
  | NewJob p m => on_obj_lk w (w_params w) p (fun x =>
      finish_lk w (hash_many_job_new_lk v e x m) (fun j => (with_w_jobs (w_jobs w ++ [j]) w, Unit)))
  | CloneJob j => on_obj_lk w (w_jobs w) j (fun x => quiet (with_w_jobs (w_jobs w ++ [x]) w, Unit))
  | HashMany xs =>
      if borrowable (length (w_jobs w)) (until_none xs)
      then finish_lk w (hash_many_lk v e (w_jobs w) (map (option_map (fun r => (r, tt))) xs))
             (fun '(js, n) => (with_w_jobs js w, Pulled n))
      else quiet (w, Inexpressible)
  | ToHash j => on_obj_lk w (w_jobs w) j (fun x => finish_lk w (to_hash_lk v e x) (push_hash w))
  | ShowJob j => on_obj_lk w (w_jobs w) j (fun x =>
      ([Print (hash_many_job_debug x)], (w, Text (hash_many_job_debug x))))
  | PNewParams => quiet (with_w_pparams (w_pparams w ++ [pparams_new v imp]) w, Unit)
  | PCloneParams p => on_obj_lk w (w_pparams w) p (fun x => quiet (with_w_pparams (w_pparams w ++ [x]) w, Unit))
  | PSet p s => on_obj_lk w (w_pparams w) p (fun x =>
      run_method_lk (call_psetter_lk v s) x (fun x' => with_w_pparams (set (w_pparams w) p x') w))
  | PForcePortable p => on_obj_lk w (w_pparams w) p (fun x =>
      run_method_lk p_force_portable_lk x (fun x' => with_w_pparams (set (w_pparams w) p x') w))
  | PShowParams p => on_obj_lk w (w_pparams w) p (fun x =>
      ([Print (pparams_debug x)], (w, Text (pparams_debug x))))
  | POneShot m => finish_lk w (blake2p_default_lk v e imp m) (push_hash w)
  | PHashWith p m => on_obj_lk w (w_pparams w) p (fun x => finish_lk w (p_hash_lk v e x m) (push_hash w))
  | PNewState => finish_lk w (p_to_state_lk v (pparams_new v imp))
      (fun s => (with_w_pstates (w_pstates w ++ [s]) w, Unit))
  | PToState p => on_obj_lk w (w_pparams w) p (fun x =>
      finish_lk w (p_to_state_lk v x) (fun s => (with_w_pstates (w_pstates w ++ [s]) w, Unit)))
  | PCloneState s => on_obj_lk w (w_pstates w) s (fun x => quiet (with_w_pstates (w_pstates w ++ [x]) w, Unit))
  | PUpdate s m => on_obj_lk w (w_pstates w) s (fun x =>
      finish_lk w (p_update_lk v e x m) (fun x' => (put_pstate w s x', Unit)))
  | PWrite s m => on_obj_lk w (w_pstates w) s (fun x =>
      finish_lk w (p_write_lk v e x m) (fun '(x', n) => (put_pstate w s x', Wrote n)))
  | PWriteAll s m => on_obj_lk w (w_pstates w) s (fun x =>
      finish_lk w (write_all_lk (p_write_lk v e) x m) (fun x' => (put_pstate w s x', Unit)))
  | PFlush s => on_obj_lk w (w_pstates w) s (fun x => quiet (put_pstate w s x, Unit))
  | PFinalize s => on_obj_lk w (w_pstates w) s (fun x => finish_lk w (p_finalize_lk v e x) (push_hash w))
  | PCount s => on_obj_lk w (w_pstates w) s (fun x => finish_lk w (p_count_lk v e x) (fun n => (w, Number n)))
  | PShowState s => on_obj_lk w (w_pstates w) s (fun x =>
      finish_lk w (pstate_debug_lk v e x) (fun t => (w, Text t)))
  | HashFrom b => quiet (push_hash w (hash_from v b))
  | AsBytes h => on_obj_lk w (w_hashes w) h (fun x => finish_lk w (as_bytes_lk x) (fun b => (w, Bytes b)))
  | AsArray h => on_obj_lk w (w_hashes w) h (fun x => finish_lk w (as_array_lk v e x) (fun b => (w, Bytes b)))
  | ToHex h => on_obj_lk w (w_hashes w) h (fun x => finish_lk w (to_hex_lk v x) (fun t => (w, Text t)))
  | ShowHash h => on_obj_lk w (w_hashes w) h (fun x => finish_lk w (hash_debug_lk v x) (fun t => (w, Text t)))
  | EqHash h h' => on_obj_lk w (w_hashes w) h (fun x => on_obj_lk w (w_hashes w) h' (fun y =>
      finish_lk w (hash_eq_lk x y) (fun b => (w, Flag b))))
  | EqSlice h b => on_obj_lk w (w_hashes w) h (fun x => finish_lk w (hash_eq_slice_lk x b) (fun r => (w, Flag r)))
  end.

(** Calls in sequence: the trace and the observation of each (lib.rs:113-660). *)
Fixpoint run_from_lk (w : world) (prog : list call) : list (list event * obs) :=
  match prog with
  | [] => []
  | c :: r => let '(t, (w', o)) := step_lk w c in (t, o) :: run_from_lk w' r
  end.
End Step.

(** A whole program (see [run_program]; lib.rs:165-182, guts.rs:28-44). *)
Definition run_program_lk (v : variant) (t : target) (e : env) (prog : list call) : list (list event * obs) :=
  run_from_lk v e (detect t) empty_world prog.
