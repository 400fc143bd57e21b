(** C50: the project's own tests that compare two ways of computing a hash pass
    whatever they are run on.  A test (Suite.v) is a computation that returns
    [tt] or panics; the inputs that the real one paints, draws at random or reads
    from a file are arguments.  Digests are those of Spec.v and ApiSpec.v. *)
From Coq Require Import String.
From Coq Require Import Arith NArith List Bool Lia.
From Coq Require Import Init.Byte.
From Verif Require Import Base Guts KernelSpec Sched Impl Loops LaneLoops Lib ParamsProof Par.
From Verif Require Import Spec ApiSpec Machine Runs Suite SuiteProof Demo.
Import ListNotations.
Open Scope list_scope.
Open Scope N_scope.
Local Notation length := List.length.

(** What the tests assert: equal bytes, words, counts and texts pass, all others panic. *)
Theorem C50_asserts (v : variant) (a b : hash) (x y : list byte) (ws ws' : list N) (n n' : N) (out : string) :
  as_bytes a = Ret x -> as_bytes b = Ret y -> (length x <= max_out (fl v))%nat ->
  assert_same a b = (if list_eq_dec Byte.byte_eq_dec x y then Ret tt else Panic) /\
  assert_words ws ws' = (if list_eq_dec N.eq_dec ws ws' then Ret tt else Panic) /\
  assert_count n n' = (if N.eqb n n' then Ret tt else Panic) /\
  assert_hex v a out = (if String.eqb (hex x) out then Ret tt else Panic).
Proof.
  intros A B L. split; [exact (assert_same_is a b x y A B)|]. split; [unfold assert_words; destruct (list_eq_dec N.eq_dec ws ws'); reflexivity|].
  split; [unfold assert_count; destruct (N.eqb n n'); reflexivity|]. apply (assert_hex_is v a x out A). rewrite <- max_out_fl. exact L.
Qed.
Print Assumptions C50_asserts.

(** The tree put together by hand from BLAKE2b (BLAKE2s) states, as the reference implementation in the tests does it,
    is the one-shot BLAKE2bp (BLAKE2sp) function and the published tree, for every input and back end. *)
Theorem C50_reference (v : variant) (e : env) (imp : platform) (input : list byte) : supported e imp ->
  exists h, par_reference v e imp input = Ret h /\ blake2p_default v e imp input = Ret h /\
    as_bytes h = Ret (blake2p (fl v) (max_out (fl v)) [] input).
Proof.
  intros Su. destruct (par_reference_ok v e imp Su input) as (h & A & B & C). exists h. split; [exact A|]. split; [exact B|].
  rewrite C. destruct v; reflexivity.
Qed.
Print Assumptions C50_reference.
(** test_against_reference: one update, two updates with a finalize between them, the counts, the one-shot function;
    portable or detected back end. *)
Theorem C50_against_reference (v : variant) (e : env) (imp : platform) (portable : bool) (input buf : list byte) :
  supported e imp -> N.of_nat (length input) < 2 ^ 63 -> N.of_nat (length buf) < 2 ^ 63 ->
  (21 * block_len (fl v) <= length buf)%nat ->
  against_reference v e imp portable input = Ret tt /\ test_against_reference v e imp buf = Ret tt.
Proof.
  intros Su B B' L. split; [exact (against_reference_ok v e imp portable input Su B)|].
  apply test_against_reference_ok; auto. destruct v; exact L.
Qed.
Print Assumptions C50_against_reference.

(** The compression loops of every back end give the words that the portable function gives block by block, for every
    input, length, stride, flag and count (any multiple of the block length, up to the very end of its range). *)
Theorem C50_kernels (v : variant) (e : env) (imp impl : platform) (input : list byte) (inputs : list (list byte))
    (st : stride) (len : nat) (last_node finalize : bool) (count : N) :
  supported e impl -> finalize = true \/ (len <> 0%nat /\ (len mod block_len (fl v) = 0)%nat) ->
  ((len <= length input)%nat -> exercise1 v e imp impl input st len last_node finalize count = Ret tt) /\
  (count < cmod v -> count mod N.of_nat (block_len (fl v)) = 0 ->
   Forall (fun x => (len <= length x)%nat) inputs ->
   (impl <> Portable -> (narrow v <= length inputs)%nat ->
    exercise_narrow v e imp impl inputs st len last_node finalize count = Ret tt) /\
   (impl = AVX2 -> (wide v <= length inputs)%nat ->
    exercise_wide v e imp impl inputs st len last_node finalize count = Ret tt)).
Proof.
  intros Su K. assert (K' : len_ok v finalize len) by (destruct v; exact K).
  split; [intros L; apply exercise1_ok; auto|]. intros C1 C2 F. assert (Al : aligned v count) by (split; [exact C1|destruct v; exact C2]).
  assert (X : forall n, (n <= length inputs)%nat -> forall i, (i < n)%nat -> exists x, nth_error inputs i = Some x /\ (len <= length x)%nat).
  { intros n Hn i Hi. destruct (nth_error inputs i) as [x|] eqn:E; [|apply nth_error_None in E; lia].
    exists x. split; [reflexivity|]. rewrite Forall_forall in F. apply F. eapply nth_error_In. exact E. }
  split; intros P L.
  - apply exercise_many_ok; [apply narrow_even; assumption|destruct v; cbn; lia|apply X; exact L|exact K'|exact Al].
  - apply exercise_many_ok; [apply wide_even; assumption|destruct v; cbn; lia|apply X; exact L|exact K'|exact Al].
Qed.
Print Assumptions C50_kernels.
(** The tests themselves, on any buffer that is long enough (the real one has 100 blocks). *)
Theorem C50_kernel_tests (v : variant) (e : env) (imp impl : platform) (buf : list byte) :
  supported e impl -> (2 * leaves (fl v) * block_len (fl v) + 8 <= length buf)%nat ->
  test_compress1 v e imp impl buf = Ret tt /\
  (impl <> Portable -> test_narrow v e imp impl buf = Ret tt) /\
  (impl = AVX2 -> test_wide v e imp impl buf = Ret tt).
Proof.
  intros Su L. split; [apply test_compress1_ok; auto; destruct v; cbn in *; lia|].
  split; intros P; [apply test_narrow_ok|apply test_wide_ok]; auto; destruct v; cbn in *; lia.
Qed.
Print Assumptions C50_kernel_tests.

(** The batch tests, for any number of jobs with any parameters and inputs. *)
Theorem C50_batches (v : variant) (e : env) (reqs : list request) : Forall (askable e) reqs ->
  let params := map (fun '(imp, ss, _) => Api.build v imp ss) reqs in
  let inputs := map (fun '(_, _, m) => m) reqs in
  fuzz_hash_many v e params inputs = Ret tt /\
  (Forall (fun m => 2 * N.of_nat (length m) < 2 ^ 63) inputs -> fuzz_update_many v e params inputs = Ret tt).
Proof.
  intros A params inputs. split; [exact (fuzz_hash_many_ok v e reqs A)|]. intros B.
  apply (fuzz_update_many_ok v e reqs A). unfold inputs in B. rewrite Forall_map in B. exact B.
Qed.
Print Assumptions C50_batches.

(** The tests against recorded answers accept the right answer and no other. *)
Theorem C50_vectors (v : variant) (e : env) (imp : platform) (input key : list byte) (out : string) :
  supported e imp -> (length key <= max_out (fl v))%nat -> N.of_nat (length input) < 2 ^ 63 ->
  let judge right := if String.eqb (hex right) out then Ret tt else Panic in
  vector_case v e imp input key out = judge (digest (fl v) (configure (fl v) [Key key] (default_config (fl v))) input) /\
  p_vector_case v e imp input key out = judge (blake2p (fl v) (max_out (fl v)) key input) /\
  update_state v e imp input out = judge (digest (fl v) (default_config (fl v)) input) /\
  write_state v e imp input out = judge (digest (fl v) (default_config (fl v)) input) /\
  hash_from_array v e imp input = Ret tt.
Proof.
  intros Su K B judge. split; [exact (vector_case_is v e imp Su input key out K B)|].
  split.
  { rewrite (p_vector_case_is v e imp Su input key out K B). unfold pdigest, pconfigure. cbn [fold_left plegal].
    rewrite (proj2 (Nat.leb_le _ _) K). destruct v; reflexivity. }
  split; [exact (update_state_is v e imp Su input out B)|]. split; [exact (write_state_is v e imp Su input out)|].
  exact (hash_from_array_ok v e imp Su input).
Qed.
Print Assumptions C50_vectors.

(** The detection tests, on every target whose CPU, like every CPU made, has SSE4.1 if it has AVX2. *)
Theorem C50_detection (v : variant) (t : target) :
  (t_tf_avx2 t || t_cpu_avx2 t = true -> t_tf_sse41 t || t_cpu_sse41 t = true) ->
  test_detection t = Ret tt /\ test_degree v t = Ret tt.
Proof. intros H. split; [exact (test_detection_ok t H)|exact (test_degree_ok v t H)]. Qed.
Print Assumptions C50_detection.

Example C50_example :
  supported (demo_env true) AVX2 /\ N.of_nat (length (demo_msg 3000)) < 2 ^ 63 /\ (21 * block_len F2b <= length (demo_msg 3000))%nat /\
  (2 * leaves F2s * block_len F2s + 8 <= length (demo_msg 3000))%nat /\
  cmod V2b - 128 < cmod V2b /\ (cmod V2b - 128) mod N.of_nat (block_len F2b) = 0 /\
  (t_tf_avx2 demo_target || t_cpu_avx2 demo_target = true /\ t_tf_sse41 demo_target || t_cpu_sse41 demo_target = true) /\
  exercise_wide V2b (demo_env true) AVX2 AVX2 (repeat (demo_msg 700) 4) Parallel 640 true false (cmod V2b - 128) = Ret tt /\
  vector_case V2s (demo_env false) SSE41 (demo_msg 200) (demo_msg 30) "00" = Panic.
Proof.
  assert (L3 : length (demo_msg 3000) = 3000%nat) by (unfold demo_msg; rewrite map_length, seq_length; reflexivity).
  split; [apply demo_supported|]. split; [rewrite L3; reflexivity|]. split; [rewrite L3; cbn; lia|]. split; [rewrite L3; cbn; lia|].
  split; [reflexivity|]. split; [reflexivity|]. split; [split; reflexivity|]. split.
  - destruct (C50_kernels V2b (demo_env true) AVX2 AVX2 [] (repeat (demo_msg 700) 4) Parallel 640 true false (cmod V2b - 128)) as [_ K];
      [apply demo_supported|right; split; [discriminate|reflexivity]|].
    apply K; try reflexivity. repeat constructor; unfold demo_msg; rewrite map_length, seq_length; lia.
  - destruct (C50_vectors V2s (demo_env false) SSE41 (demo_msg 200) (demo_msg 30) "00") as [E _];
      [apply demo_supported|cbn; lia|reflexivity|]. rewrite E.
    set (d := digest _ _ _). assert (Ld : length d = 32%nat).
    { unfold d, digest, blake2. rewrite firstn_length. rewrite (ApiProof.spec_bytes_length V2s) by apply (FedProof.initial_state_ok V2s). reflexivity. }
    destruct (String.eqb_spec (hex d) "00") as [X|X]; [|reflexivity].
    pose proof (proj2 (Laws.unhex_hex d)) as H. rewrite X, Ld in H. discriminate.
Qed.
