(** Property C44, inside the compression kernels.

    The events of Leak.v count a run of a kernel as one step.  Here each kernel
    is a list of instructions of a machine (Asm.v) that has no jumps, no
    divisions, no shifts by a register and only constant addresses; [run] is the
    result and [trace] what an observer sees: the operations and the places
    loaded.  A kernel whose code reads outside of its block or of its state
    would have no result. *)
From Coq Require Import Arith NArith List Bool Lia.
From Coq Require Import Init.Byte.
From Verif Require Import Base Guts Portable Intrinsics Avx2b Sse41s Simd.
From Verif Require Import Asm AsmProof AsmRows AsmLanes.
Import ListNotations.
Open Scope N_scope.

(** ** C44 *)

(** The portable kernel is straight-line code: for every block, state, counter and flags of the right sizes the
    code computes the kernel of the model, and the observer sees the same list. *)
Theorem C44_portable_kernel (v : variant) (block : list byte) (words : list N) (count last_block last_node : N) :
  length block = blockbytes v -> length words = 8%nat ->
  let mem := {| m_blocks := [block]; m_states := [words] |} in
  let args := [W count; W last_block; W last_node] in
  run (portable_asm v) mem args =
    Some (map W (Portable.compress_block v block words count last_block last_node)) /\
  trace mem args (a_code (portable_asm v)) = map event_of (a_code (portable_asm v)).
Proof.
  intros HB HW mem args. pose proof (portable_run v block words count last_block last_node HB HW) as H.
  split; [exact H|exact (trace_run _ _ _ _ H)].
Qed.
Print Assumptions C44_portable_kernel.

(** The same for the AVX2 kernel of BLAKE2b. *)
Theorem C44_avx2_kernel (block : list byte) (words : list N) (count last_block last_node : N) :
  length block = 128%nat -> length words = 8%nat ->
  let mem := {| m_blocks := [block]; m_states := [words] |} in
  let args := [W count; W last_block; W last_node] in
  run avx2_asm mem args = Some (map W (Avx2b.compress_block block words count last_block last_node)) /\
  trace mem args (a_code avx2_asm) = map event_of (a_code avx2_asm).
Proof.
  intros HB HW mem args. pose proof (avx2_run block words count last_block last_node HB HW) as H.
  split; [exact H|exact (trace_run _ _ _ _ H)].
Qed.
Print Assumptions C44_avx2_kernel.

(** The same for the SSE4.1 kernel of BLAKE2s. *)
Theorem C44_sse41_kernel (block : list byte) (words : list N) (count last_block last_node : N) :
  length block = 64%nat -> length words = 8%nat ->
  let mem := {| m_blocks := [block]; m_states := [words] |} in
  let args := [W count; W last_block; W last_node] in
  run sse41_asm mem args = Some (map W (Sse41s.compress_block block words count last_block last_node)) /\
  trace mem args (a_code sse41_asm) = map event_of (a_code sse41_asm).
Proof.
  intros HB HW mem args. pose proof (sse41_run block words count last_block last_node HB HW) as H.
  split; [exact H|exact (trace_run _ _ _ _ H)].
Qed.
Print Assumptions C44_sse41_kernel.

(** One block of several inputs at once, for the four transposed back ends: transposing the blocks, advancing
    the counters and compressing. *)
Theorem C44_lanes_kernel (M : names) (blocks : list (list byte)) (h : list reg)
    (lo hi delta last_block last_node : reg) :
  M = avx2b_names \/ M = sse41b_names \/ M = avx2s_names \/ M = sse41s_names ->
  length blocks = s_degree (n_simd M) ->
  Forall (fun b => length b = blockbytes (s_var (n_simd M))) blocks ->
  length h = 8%nat ->
  let mem := {| m_blocks := blocks; m_states := [] |} in
  let args := map R h ++ [R lo; R hi; R delta; R last_block; R last_node] in
  run (lanes_asm M) mem args =
    Some (let '(lo', hi') := add_to_counts (n_simd M) lo hi delta in
          map R (compress_transposed (n_simd M) h (transpose_msg_vecs (n_simd M) blocks) lo' hi' last_block last_node ++
                 [lo'; hi'])) /\
  trace mem args (a_code (lanes_asm M)) = map event_of (a_code (lanes_asm M)).
Proof.
  intros HM HL HB HH mem args. pose proof (lanes_run M blocks h lo hi delta last_block last_node HM HL HB HH) as H.
  split; [exact H|exact (trace_run _ _ _ _ H)].
Qed.
Print Assumptions C44_lanes_kernel.

(** Loading the states and counters of several inputs. *)
Theorem C44_load_lanes_kernel (M : names) (jobs : list job) :
  M = avx2b_names \/ M = sse41b_names \/ M = avx2s_names \/ M = sse41s_names ->
  length jobs = s_degree (n_simd M) ->
  Forall (fun j => length (j_words j) = 8%nat) jobs ->
  let mem := {| m_blocks := []; m_states := map j_words jobs |} in
  let args := map (fun j => W (j_count j)) jobs in
  run (load_lanes_asm M) mem args =
    Some (map R (transpose_state_vecs (n_simd M) jobs ++
                 [fst (load_counts (n_simd M) jobs); snd (load_counts (n_simd M) jobs)])) /\
  trace mem args (a_code (load_lanes_asm M)) = map event_of (a_code (load_lanes_asm M)).
Proof.
  intros HM HL HB mem args. pose proof (load_lanes_run M jobs HM HL HB) as H.
  split; [exact H|exact (trace_run _ _ _ _ H)].
Qed.
Print Assumptions C44_load_lanes_kernel.

(** Storing them: the words of the states, input after input, and the counters. *)
Theorem C44_store_lanes_kernel (M : names) (h : list reg) (lo hi : reg) :
  M = avx2b_names \/ M = sse41b_names \/ M = avx2s_names \/ M = sse41s_names ->
  length h = 8%nat ->
  let mem := {| m_blocks := []; m_states := [] |} in
  let args := map R h ++ [R lo; R hi] in
  run (store_lanes_asm M) mem args =
    Some (map W (flat_map (untranspose_state_vecs (n_simd M) h) (seq 0 (s_degree (n_simd M))) ++
                 map (store_count (n_simd M) lo hi) (seq 0 (s_degree (n_simd M))))) /\
  trace mem args (a_code (store_lanes_asm M)) = map event_of (a_code (store_lanes_asm M)).
Proof.
  intros HM HH mem args. pose proof (store_lanes_run M h lo hi HM HH) as H.
  split; [exact H|exact (trace_run _ _ _ _ H)].
Qed.
Print Assumptions C44_store_lanes_kernel.

(** Arguments of the right sizes. *)
Example C44_kernel_case :
  length (repeat x61 128) = blockbytes V2b /\ length (iv V2b) = 8%nat /\
  length [repeat x61 64; repeat x62 64; repeat x63 64; repeat x64 64] = s_degree (n_simd sse41s_names) /\
  Forall (fun b => length b = blockbytes V2s) [repeat x61 64; repeat x62 64; repeat x63 64; repeat x64 64].
Proof. repeat split. repeat constructor. Qed.

(** The sizes of the kernels, in instructions. *)
Example C44_kernel_sizes :
  map (fun a => N.of_nat (length (a_code a)))
    [portable_asm V2b; portable_asm V2s; avx2_asm; sse41_asm;
     lanes_asm avx2b_names; lanes_asm sse41b_names; lanes_asm avx2s_names; lanes_asm sse41s_names] =
  [1398; 1174; 780; 670; 2208; 2224; 1872; 1856].
Proof. lazy. reflexivity. Qed.

(** The instructions are not all alike: a load shows its place, an operation its kind. *)
Example C44_kernel_start :
  map event_of (firstn 4 (a_code avx2_asm)) =
  [ReadState 0 8 0 4; ReadState 0 8 4 4; Did (i_const_words 8 (firstn 4 (iv V2b))); Did (w_low V2b)].
Proof. reflexivity. Qed.
