(** Properties of the back ends.

    [supported e imp]: the executing CPU [e] has the instructions of back end
    [imp].  [honest t e]: what the target [t] claims about the CPU is true of [e].
    [back_ends] lists the four transposed SIMD kernels. *)
From Coq Require Import String Ascii.
From Coq Require Import Arith NArith List Bool Lia.
From Coq Require Import Init.Byte.
From Verif Require Import Base Guts Portable Intrinsics KernelSpec LaneLemmas RowKernels Simd Transposed Impl Sched Lib Many Par.
From Verif Require Import Spec ApiSpec Machine History.
From Verif Require Import Loops LaneLoops Api ApiProof Runs BatchProof Laws KernelLaws Demo PropMany.
From Verif Require Avx2b Sse41s.
Import ListNotations.
Open Scope list_scope.
Open Scope N_scope.
Local Notation length := List.length.

(** ** C11: the back end does not matter *)
Theorem C11_hash (v : variant) (e e' : env) (imp imp' : platform) (ss : list setting) (m : list byte) :
  supported e imp -> supported e' imp' -> Forall typed ss ->
  params_hash v e (build v imp ss) m = params_hash v e' (build v imp' ss) m.
Proof. exact (hash_agree v e e' imp imp' ss m). Qed.
Print Assumptions C11_hash.
Theorem C11_parallel_hash (v : variant) (e e' : env) (imp imp' : platform) (ss : list psetting) (m : list byte) :
  supported e imp -> supported e' imp' ->
  p_hash v e (pbuild v imp ss) m = p_hash v e' (pbuild v imp' ss) m.
Proof. exact (p_hash_agree v e e' imp imp' ss m). Qed.
Print Assumptions C11_parallel_hash.
Theorem C11_histories (v : variant) (e e' : env) (imp imp' : platform) (ss : list setting) (ops : list op) :
  e_dbg e = e_dbg e' -> supported e imp -> supported e' imp' -> Forall typed ss ->
  watch (do_op v e) (to_state v (build v imp ss)) ops = watch (do_op v e') (to_state v (build v imp' ss)) ops.
Proof. exact (history_agree v e e' imp imp' ss ops). Qed.
Print Assumptions C11_histories.
Theorem C11_parallel_histories (v : variant) (e e' : env) (imp imp' : platform) (ss : list psetting) (ops : list op) :
  e_dbg e = e_dbg e' -> supported e imp -> supported e' imp' ->
  exists s s', p_to_state v (pbuild v imp ss) = Ret s /\ p_to_state v (pbuild v imp' ss) = Ret s' /\
  watch (do_pop v e) s ops = watch (do_pop v e') s' ops.
Proof. exact (p_history_agree v e e' imp imp' ss ops). Qed.
Print Assumptions C11_parallel_histories.
(** Any program over the whole API, batches and force_portable included, on any two machines. *)
Theorem C11_programs (v : variant) (t t' : target) (e e' : env) (prog : list call) :
  honest t e -> honest t' e' -> e_dbg e = e_dbg e' -> Forall (well_typed (fl v)) prog ->
  run_program v t e prog = run_program v t' e' prog.
Proof. exact (machines_agree v t t' e e' prog). Qed.
Print Assumptions C11_programs.

(** A program that uses every part of the API, over a forced-portable and a detected back end. *)
Definition demo_program : list call :=
  [NewParams; Set_ 0 (HashLength 20); Set_ 0 (HashLength 99); Set_ 0 (Key (demo_msg 7)); CloneParams 0; ForcePortable 1;
   ToState 0; ToState 1; NewState; CloneState 0; Update 0 (demo_msg 130); SetLastNode 1 true; Write 2 (demo_msg 300);
   UpdateMany [Some (0, demo_msg 700); Some (3, demo_msg 5); Some (1, demo_msg 1000); None; Some (0, [])];
   Finalize 0; Finalize 3; Finalize 1; Count 0; ShowState 1; EqHash 0 1; AsBytes 2;
   NewJob 1 (demo_msg 400); NewJob 0 []; NewJob 0 (demo_msg 129); HashMany [Some 0; Some 2; None]; ToHash 0; ToHash 1; ShowJob 2;
   PNewParams; PSet 0 (PKey (demo_msg 9)); PForcePortable 0; PToState 0; PUpdate 0 (demo_msg 3000); PFinalize 0; PCount 0;
   POneShot (demo_msg 1); EqSlice 0 (demo_msg 20); ToHex 4; ShowHash 5; ShowParams 1]%nat.
Example C11_example v : supported (demo_env true) AVX2 /\ supported (old_env true) Portable /\
  honest demo_target (demo_env true) /\ honest old_target (old_env true) /\
  detect demo_target = AVX2 /\ detect old_target = Portable /\ Forall (well_typed (fl v)) demo_program.
Proof.
  split; [apply demo_supported|]. split; [exact I|]. split; [apply demo_honest|]. split; [apply old_honest|].
  split; [reflexivity|]. split; [reflexivity|]. unfold demo_program. repeat (apply Forall_cons; [cbn; auto|]). apply Forall_nil.
Qed.

(** ** C12: no out-of-bounds access *)
(** The kernel loops on arbitrary arguments (even ones the debug assertions forbid): a raw read outside
    the input would be [UB], not stopping would be [Diverge]. *)
Theorem C12_single_lane (v : variant) (e : env) (imp : platform) (input : list byte) (words : list N) (count : N)
    (last_node finalize : bool) (st : stride) : supported e imp ->
  compress1_loop v e imp input words count last_node finalize st <> UB /\
  compress1_loop v e imp input words count last_node finalize st <> Diverge.
Proof. exact (compress1_loop_fine v e imp input words count last_node finalize st). Qed.
Print Assumptions C12_single_lane.
Theorem C12_many_lanes (v : variant) (e : env) (imp : platform) (jobs : list job) (finalize : bool) (st : stride) :
  supported e imp -> (0 < length jobs)%nat ->
  compress_narrow_loop v e imp jobs finalize st <> UB /\ compress_narrow_loop v e imp jobs finalize st <> Diverge /\
  compress_wide_loop v e imp jobs finalize st <> UB /\ compress_wide_loop v e imp jobs finalize st <> Diverge.
Proof.
  intros S L. destruct (narrow_fine v e imp jobs finalize st S L). destruct (wide_fine v e imp jobs finalize st S L). auto.
Qed.
Print Assumptions C12_many_lanes.
(** Every block is read: the loop over a whole input, with each stride, compresses exactly the blocks of the
    input (of leaf [i] of the input), on every back end. *)
Theorem C12_every_block_serial (v : variant) (e : env) (imp : platform) (input : list byte) (words : list N) (last_node : bool) :
  supported e imp -> words_ok v words ->
  compress1_loop v e imp input words 0 last_node true Serial = Ret (hash_words (fl v) words input last_node).
Proof. exact (serial_all_blocks v e imp input words last_node). Qed.
Print Assumptions C12_every_block_serial.
Theorem C12_every_block_strided (v : variant) (e : env) (imp : platform) (input : list byte) (words : list N) (last_node : bool) (i : nat) :
  supported e imp -> words_ok v words -> (i < leaves (fl v))%nat ->
  compress1_loop v e imp (skipn (i * block_len (fl v)) input) words 0 last_node true Parallel
  = Ret (hash_words (fl v) words (leaf_message (fl v) i input) last_node).
Proof. rewrite block_len_fl. exact (strided_all_blocks v e imp input words last_node i). Qed.
Print Assumptions C12_every_block_strided.
(** No program over the safe API ends in undefined behaviour or an endless loop. *)
Theorem C12_no_program_breaks (v : variant) (t : target) (e : env) (prog : list call) :
  honest t e -> Forall (well_typed (fl v)) prog -> ~ In Broken (run_program v t e prog).
Proof. intros H W. rewrite program_refines by auto. apply arun_not_broken. Qed.
Print Assumptions C12_no_program_breaks.
Example C12_example v : supported (demo_env true) AVX2 /\ words_ok v (Guts.iv v) /\ (2 < leaves (fl v))%nat /\
  (0 < length (map (demo_job v) (seq 0 (wide v))))%nat.
Proof.
  split; [apply demo_supported|]. split; [apply iv_ok|]. split; [destruct v; cbn; lia|]. destruct v; cbn; lia.
Qed.
(** The model has the failure that these theorems exclude. *)
Example C12_reader_can_fail : raw_reader (demo_msg 127) 0%nat 128%nat = UB.
Proof. reflexivity. Qed.

(** ** C26: lane counters *)
Theorem C26_lane_counters (S : simd) (lo hi delta : reg) (l : nat) : In S back_ends -> (l < s_degree S)%nat ->
  let v := s_var S in
  let value r r' := lane (wbytes v) r l + 2 ^ wbits v * lane (wbytes v) r' l in
  let c := value lo hi in
  let d := lane (wbytes v) delta l in
  c mod N.of_nat (blockbytes v) = 0 -> d <= N.of_nat (blockbytes v) ->
  let '(lo', hi') := add_to_counts S lo hi delta in
  value lo' hi' = (c + d) mod 2 ^ (2 * wbits v).
Proof. exact (lane_counter S lo hi delta l). Qed.
Print Assumptions C26_lane_counters.
Theorem C26_load_store (S : simd) (jobs : list job) (l : nat) : In S back_ends -> length jobs = s_degree S -> (l < s_degree S)%nat ->
  (forall j, In j jobs -> j_count j < 2 ^ (2 * wbits (s_var S))) ->
  let '(lo, hi) := load_counts S jobs in store_count S lo hi l = j_count (nth l jobs job0).
Proof. exact (load_store_counters S jobs l). Qed.
Print Assumptions C26_load_store.
(** A whole pass over the lanes advances each counter by the bytes that lane consumed. *)
Theorem C26_pass_counts (S : simd) (dbg : bool) (jobs : list job) (fin : bool) :
  In S back_ends -> length jobs = s_degree S -> (forall j, In j jobs -> job_ok (s_var S) fin j) ->
  exists jobs', compressn_loop S dbg jobs fin Serial = Ret jobs' /\ length jobs' = s_degree S /\
    forall l, (l < s_degree S)%nat ->
      j_count (nth l jobs' job0) =
      (j_count (nth l jobs job0) + N.of_nat (length (j_input (nth l jobs job0)) - length (j_input (nth l jobs' job0))))
        mod 2 ^ (2 * wbits (s_var S)).
Proof.
  intros I L J. destruct (compressn_loop_spec S dbg jobs fin Serial (back_ends_ok S I) L J) as (jobs' & E & L' & A & _).
  exists jobs'. split; [exact E|]. split; [exact L'|]. intros l Hl. destruct (A l Hl) as (_ & _ & _ & C & _). apply C. reflexivity.
Qed.
Print Assumptions C26_pass_counts.
(** Counters reachable through the API are whole numbers of blocks. *)
Theorem C26_reachable_states (v : variant) (e : env) (s : state) : live v e s ->
  s_count s mod N.of_nat (blockbytes v) = 0 /\ s_count s < 2 ^ (2 * wbits v).
Proof. exact (live_aligned v e s). Qed.
Print Assumptions C26_reachable_states.
Theorem C26_reachable_jobs (v : variant) (e : env) (j : hash_many_job) : live_job v e j ->
  hj_count j = 0 \/ hj_count j = N.of_nat (blockbytes v).
Proof. exact (live_job_aligned v e j). Qed.
Print Assumptions C26_reachable_jobs.
(** The carry into the high word, in the middle lane. *)
Example C26_example : let lo := mm256_setr_epi64x 0 0 (2 ^ 64 - 128) 0 in let hi := mm256_setr_epi64x 0 0 7 0 in
  let delta := mm256_setr_epi64x 0 0 128 0 in
  In avx2b back_ends /\ (lane 8 lo 2 + 2 ^ 64 * lane 8 hi 2) mod 128 = 0 /\ lane 8 delta 2 <= 128 /\
  (let '(lo', hi') := add_to_counts avx2b lo hi delta in lane 8 lo' 2 = 0 /\ lane 8 hi' 2 = 8).
Proof.
  cbv zeta. split; [left; reflexivity|]. vm_compute. repeat split; discriminate.
Qed.
(** Alignment is needed: adding to an unaligned counter can lose the carry. *)
Example C26_alignment_needed : let lo := mm256_setr_epi64x (2 ^ 64 - 1) 0 0 0 in let hi := mm256_setr_epi64x 0 0 0 0 in
  let delta := mm256_setr_epi64x 128 0 0 0 in
  let '(lo', hi') := add_to_counts avx2b lo hi delta in
  lane 8 lo' 0 + 2 ^ 64 * lane 8 hi' 0 <> (2 ^ 64 - 1 + 128) mod 2 ^ 128.
Proof. vm_compute. discriminate. Qed.

(** ** C28: back-end selection *)
Theorem C28_detection_is_sound (t : target) (e : env) : honest t e -> supported e (detect t).
Proof. exact (detect_supported t e). Qed.
Print Assumptions C28_detection_is_sound.
(** AVX2 if the target or (with std) the CPU has it, else SSE4.1 if they have that, else portable. *)
Theorem C28_detection_is_widest (t : target) :
  let avx2 := t_x86 t = true /\ (t_tf_avx2 t = true \/ (t_std t = true /\ t_cpu_avx2 t = true)) in
  let sse41 := t_x86 t = true /\ (t_tf_sse41 t = true \/ (t_std t = true /\ t_cpu_sse41 t = true)) in
  (detect t = AVX2 <-> avx2) /\ (detect t = SSE41 <-> sse41 /\ ~ avx2) /\ (detect t = Portable <-> ~ sse41 /\ ~ avx2).
Proof.
  unfold detect, avx2_if_supported, sse41_if_supported.
  destruct t as [[] [] [] [] [] []]; cbn; intuition discriminate.
Qed.
Print Assumptions C28_detection_is_widest.
(** many::degree() is the number of inputs the widest usable back end hashes at once, as many.rs documents
    it: 4 BLAKE2b or 8 BLAKE2s inputs with AVX2, half of that with SSE4.1, one otherwise. It never exceeds
    many::MAX_DEGREE, which on x86 is the AVX2 figure and elsewhere 1, and is reached. *)
Theorem C28_degree (v : variant) (t : target) :
  let avx2 := t_x86 t = true /\ (t_tf_avx2 t = true \/ (t_std t = true /\ t_cpu_avx2 t = true)) in
  let sse41 := t_x86 t = true /\ (t_tf_sse41 t = true \/ (t_std t = true /\ t_cpu_sse41 t = true)) in
  let widest := match v with V2b => 4%nat | V2s => 8%nat end in
  (avx2 -> many_degree v t = widest) /\
  (sse41 -> ~ avx2 -> (2 * many_degree v t)%nat = widest) /\
  (~ sse41 -> ~ avx2 -> many_degree v t = 1%nat) /\
  max_degree v (t_x86 t) = (if t_x86 t then widest else 1%nat) /\
  (1 <= many_degree v t <= max_degree v (t_x86 t))%nat.
Proof.
  cbv zeta. unfold many_degree, detect, avx2_if_supported, sse41_if_supported.
  destruct v, t as [[] [] [] [] [] []]; cbn; intuition (try discriminate; try lia; exfalso; intuition discriminate).
Qed.
Print Assumptions C28_degree.
(** What the dispatch sizes its batches by: the widest loop the given back end has. *)
Theorem C28_batch_size (v : variant) (imp : platform) :
  degree v imp = match imp, v with
                 | Portable, _ => 1%nat | SSE41, V2b => 2%nat | SSE41, V2s => 4%nat | AVX2, V2b => 4%nat | AVX2, V2s => 8%nat
                 end.
Proof. destruct imp, v; reflexivity. Qed.
Print Assumptions C28_batch_size.
(** A dispatch uses no instruction set beyond the selected one: what a loop does is the same on CPUs that
    differ in the features above the back end. *)
Theorem C28_dispatch (v : variant) (e e' : env) (imp : platform) : e_dbg e = e_dbg e' ->
  (imp <> Portable -> e_sse41 e = e_sse41 e') -> (imp = AVX2 -> e_avx2 e = e_avx2 e') ->
  (forall input words count last_node fin st,
     compress1_loop v e imp input words count last_node fin st = compress1_loop v e' imp input words count last_node fin st) /\
  (forall jobs fin st, compress_narrow_loop v e imp jobs fin st = compress_narrow_loop v e' imp jobs fin st) /\
  (forall jobs fin st, compress_wide_loop v e imp jobs fin st = compress_wide_loop v e' imp jobs fin st).
Proof.
  intros D S A. unfold compress1_loop, compress_narrow_loop, compress_wide_loop.
  destruct imp; try rewrite S by discriminate; try rewrite A by reflexivity; rewrite D; destruct v; repeat split; reflexivity.
Qed.
Print Assumptions C28_dispatch.
(** A wider loop than the back end provides is refused, never executed. *)
Theorem C28_refuses (v : variant) (e : env) (imp : platform) (jobs : list job) (fin : bool) (st : stride) :
  (imp = Portable -> compress_narrow_loop v e imp jobs fin st = Panic) /\
  (imp <> AVX2 -> compress_wide_loop v e imp jobs fin st = Panic).
Proof. destruct imp; split; intros H; try reflexivity; congruence. Qed.
Print Assumptions C28_refuses.
Example C28_example : honest demo_target (demo_env true) /\ detect demo_target = AVX2 /\ many_degree V2s demo_target = 8%nat /\
  (let t := {| t_x86 := true; t_tf_sse41 := true; t_tf_avx2 := false; t_std := false; t_cpu_sse41 := true; t_cpu_avx2 := true |} in
   detect t = SSE41 /\ many_degree V2b t = 2%nat).
Proof. split; [apply demo_honest|]. repeat split. Qed.

(** ** C38: the rounds are a permutation of the sixteen words, on each back end *)
Theorem C38_portable (v : variant) (block : list byte) (s : list N) : wordsn v 16 s ->
  let mixed s := fold_left (fun s r => round v r (msg_words v block) s) (seq 0 (num_rounds v)) s in
  wordsn v 16 (mixed s) /\
  (forall s', wordsn v 16 s' -> mixed s = mixed s' -> s = s') /\
  (exists s', wordsn v 16 s' /\ mixed s' = s).
Proof. exact (portable_mix_perm v block s). Qed.
Print Assumptions C38_portable.
(** The row kernels: [st16] reads the sixteen words out of the four row registers. *)
Theorem C38_avx2_rows (block : list byte) : length block = 128%nat ->
  (forall s s', st16 8 (avx2b_mix (avx2b_msgs block) s) = st16 8 (avx2b_mix (avx2b_msgs block) s') -> st16 8 s = st16 8 s') /\
  (forall ws, wordsn V2b 16 ws -> exists s, st16 8 (avx2b_mix (avx2b_msgs block) s) = ws).
Proof. exact (avx2b_mix_perm block). Qed.
Print Assumptions C38_avx2_rows.
Theorem C38_sse41_rows (block : list byte) : length block = 64%nat ->
  (forall s s', st16 4 (sse41s_mix (sse41s_msgs block) s) = st16 4 (sse41s_mix (sse41s_msgs block) s') -> st16 4 s = st16 4 s') /\
  (forall ws, wordsn V2s 16 ws -> exists s, st16 4 (sse41s_mix (sse41s_msgs block) s) = ws).
Proof. exact (sse41s_mix_perm block). Qed.
Print Assumptions C38_sse41_rows.
(** [avx2b_mix] and [sse41s_mix] are what the kernels apply between setting up the rows and the final xor. *)
Theorem C38_rows_are_the_kernel (block : list byte) (words : list N) (count last_block last_node : N) :
  Avx2b.compress_block block words count last_block last_node =
  (let a := load_words 8 (firstn 4 words) in let b := load_words 8 (skipn 4 words) in
   let c := load_words 8 (firstn 4 (Guts.iv V2b)) in
   let d := Avx2b.xor (load_words 8 (skipn 4 (Guts.iv V2b))) (Avx2b.set4 (count_low V2b count) (count_high V2b count) last_block last_node) in
   let '(a', b', c', d') := avx2b_mix (avx2b_msgs block) (a, b, c, d) in
   Intrinsics.store_words 8 4 (Avx2b.xor (Avx2b.xor a' c') a) ++ Intrinsics.store_words 8 4 (Avx2b.xor (Avx2b.xor b' d') b)).
Proof. unfold Avx2b.compress_block, avx2b_mix, avx2b_msgs. cbv beta zeta. reflexivity. Qed.
Print Assumptions C38_rows_are_the_kernel.
Theorem C38_sse41_rows_are_the_kernel (block : list byte) (words : list N) (count last_block last_node : N) :
  Sse41s.compress_block block words count last_block last_node =
  (let a := load_words 4 (firstn 4 words) in let b := load_words 4 (skipn 4 words) in
   let c := load_words 4 (firstn 4 (Guts.iv V2s)) in
   let d := Sse41s.xor (load_words 4 (skipn 4 (Guts.iv V2s))) (Sse41s.set4 (count_low V2s count) (count_high V2s count) last_block last_node) in
   let '(a', b', c', d') := sse41s_mix (sse41s_msgs block) (a, b, c, d) in
   Intrinsics.store_words 4 4 (Sse41s.xor a (Sse41s.xor a' c')) ++ Intrinsics.store_words 4 4 (Sse41s.xor b (Sse41s.xor b' d'))).
Proof. unfold Sse41s.compress_block, sse41s_mix, sse41s_msgs. cbv beta zeta. reflexivity. Qed.
Print Assumptions C38_sse41_rows_are_the_kernel.
(** The transposed kernels: [view S l] reads lane [l] of sixteen registers. *)
Theorem C38_lanes (S : simd) (m : list reg) : In S back_ends ->
  (forall vs vs' l, (l < s_degree S)%nat -> length vs = 16%nat -> length vs' = 16%nat ->
     view S l (lanes_mix S m vs) = view S l (lanes_mix S m vs') -> view S l vs = view S l vs') /\
  (forall ws, (forall l, (l < s_degree S)%nat -> wordsn (s_var S) 16 (ws l)) ->
     exists vs, length vs = 16%nat /\ forall l, (l < s_degree S)%nat -> view S l (lanes_mix S m vs) = ws l).
Proof.
  intros I. split.
  - intros vs vs' l Hl L L' E. exact (lanes_mix_inj S m vs vs' l I Hl L L' E).
  - intros ws W. exact (lanes_mix_surj S m ws I W).
Qed.
Print Assumptions C38_lanes.
Theorem C38_lanes_are_the_kernel (S : simd) (h m : list reg) (lo hi last_block last_node : reg) :
  compress_transposed S h m lo hi last_block last_node =
  (let IV i := s_set1 S (at_ (Guts.iv (s_var S)) i) in
   let v := lanes_mix S m (map (fun i => nth i h []) (seq 0 8) ++ map IV (seq 0 4) ++
              [s_xor S (IV 4%nat) lo; s_xor S (IV 5%nat) hi; s_xor S (IV 6%nat) last_block; s_xor S (IV 7%nat) last_node]) in
   map (fun i => s_xor S (s_xor S (nth i h []) (nth i v [])) (nth (i + 8) v [])) (seq 0 8)).
Proof. unfold compress_transposed, lanes_mix. cbv beta zeta. reflexivity. Qed.
Print Assumptions C38_lanes_are_the_kernel.
Example C38_example : wordsn V2b 16 (Guts.iv V2b ++ Guts.iv V2b) /\ length (demo_msg 128) = 128%nat /\ length (demo_msg 64) = 64%nat /\
  In avx2s back_ends.
Proof.
  split; [split; [reflexivity|repeat constructor]|]. split; [reflexivity|]. split; [reflexivity|]. right. right. left. reflexivity.
Qed.
