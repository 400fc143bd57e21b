(** C64: the pattern that the tests paint into their buffers does not repeat; and C50 for the tests as they are run,
    on the inputs that they paint or draw.

    Vocabulary: [paint_test_input] fills a buffer (in a debug or a release build); [fair] (DrawProof.v) says what the
    tests rely on from a random generator, numbers in the range and buffers of the length asked for;
    [with_random_inputs] runs a test on the inputs it draws. *)
From Coq Require Import String.
From Coq Require Import Arith NArith List Bool Lia.
From Coq Require Import Init.Byte.
From Verif Require Import Base Guts KernelSpec Sched Impl Loops LaneLoops Lib ParamsProof Par Api ApiProof.
From Verif Require Import Spec ApiSpec Machine Runs Suite SuiteProof Inputs InputsProof DrawProof Demo.
Import ListNotations.
Open Scope list_scope.
Open Scope N_scope.
Local Notation length := List.length.

(** ** C64 *)

(** Whatever was in the buffer, the painted one has the same length and no eight successive bytes of it occur in two
    places.  So two different stretches of a test's input, wherever they lie, are different inputs. *)
Theorem C64_no_repeat (dbg : bool) (buf : list byte) : N.of_nat (length buf) <= 4 * (2 ^ 32 - 2) ->
  exists p, paint_test_input dbg buf = Ret p /\ length p = length buf /\
    forall i j, (i + 8 <= length p)%nat -> (j + 8 <= length p)%nat ->
      firstn 8 (skipn i p) = firstn 8 (skipn j p) -> i = j.
Proof.
  intros H. exists (pattern (length buf)). split; [apply paint_is, H|]. rewrite pattern_length. split; [reflexivity|].
  intros i j I J E. destruct (Nat.eq_dec i j) as [|N]; [assumption|]. exfalso. revert E. apply pattern_windows; auto.
Qed.
Print Assumptions C64_no_repeat.

(** Hence no two stretches of eight or more bytes are the same, whatever their offsets. *)
Theorem C64_blocks (dbg : bool) (buf p : list byte) (n i j : nat) : N.of_nat (length buf) <= 4 * (2 ^ 32 - 2) ->
  paint_test_input dbg buf = Ret p -> (8 <= n)%nat -> (i + n <= length p)%nat -> (j + n <= length p)%nat ->
  firstn n (skipn i p) = firstn n (skipn j p) -> i = j.
Proof.
  intros H E L I J W. destruct (C64_no_repeat dbg buf H) as (q & Q & _ & U). rewrite E in Q. injection Q as <-.
  apply U; try lia. apply (f_equal (firstn 8)) in W. rewrite !firstn_firstn, !Nat.min_l in W by lia. exact W.
Qed.
Print Assumptions C64_blocks.

(** Eight is the least such number: seven bytes occur twice in every buffer of 2048 bytes or more.  And the bound on the
    length is exact: in a debug build a longer buffer makes the function panic, because its u32 counter overflows. *)
Theorem C64_limits (dbg : bool) (buf : list byte) :
  (N.of_nat (length buf) <= 4 * (2 ^ 32 - 2) -> (2048 <= length buf)%nat ->
     exists p, paint_test_input dbg buf = Ret p /\ firstn 7 (skipn 0 p) = firstn 7 (skipn 2041 p)) /\
  (4 * (2 ^ 32 - 2) < N.of_nat (length buf) -> paint_test_input true buf = Panic).
Proof.
  split; [|apply paint_panics]. intros H L. exists (pattern (length buf)). split; [apply paint_is, H|]. apply pattern_seven, L.
Qed.
Print Assumptions C64_limits.

Example C64_example : paint_test_input true (repeat xff 10) = Ret [x01; x00; x00; x00; x02; x00; x00; x00; x03; x00].
Proof. reflexivity. Qed.

(** ** C50: the tests with the inputs that they make themselves *)

(** The tests of the compression loops, of the parallel function against its reference, and of the batches, as they are
    run on any machine. *)
Theorem C50_painted (v : variant) (t : target) (e : env) : honest t e ->
  kernel_tests v e (detect t) t = Ret tt /\ painted_against_reference v e (detect t) = Ret tt /\
  test_hash_many v e (detect t) (t_x86 t) = Ret tt /\ test_update_many v e (detect t) (t_x86 t) = Ret tt.
Proof.
  intros H. pose proof (detect_supported t e H) as Su.
  assert (HB : (1 <= blockbytes v <= 128)%nat) by (destruct v; cbn; lia). split; [|split; [|split]].
  - destruct (painted e (100 * blockbytes v)) as (p & E & L); [lia|].
    assert (LP : (2 * padded_blockbytes v Parallel + 8 <= length p)%nat) by (rewrite L; unfold padded_blockbytes; assert (par_degree v <= 8)%nat by (destruct v; cbn; lia); nia).
    assert (K : forall i, supported e i -> exercise_compress1_loop v e (detect t) i = Ret tt).
    { intros i Si. unfold exercise_compress1_loop. rewrite E. cbn [bind]. apply test_compress1_ok; [exact Si|lia]. }
    assert (KN : forall i, supported e i -> i <> Portable -> exercise_narrow_loop v e (detect t) i = Ret tt).
    { intros i Si NP. unfold exercise_narrow_loop. rewrite E. cbn [bind]. apply test_narrow_ok; auto.
      assert (narrow v <= 8)%nat by (destruct v; cbn; lia). lia. }
    assert (KW : forall i, supported e i -> i = AVX2 -> exercise_wide_loop v e (detect t) i = Ret tt).
    { intros i Si NP. unfold exercise_wide_loop. rewrite E. cbn [bind]. apply test_wide_ok; auto.
      assert (wide v <= 8)%nat by (destruct v; cbn; lia). lia. }
    unfold kernel_tests. rewrite (K Portable I). cbn [bind]. destruct (t_x86 t); [cbn [negb]|reflexivity].
    assert (S1 : forall i, sse41_if_supported t = Some i -> supported e i /\ i <> Portable).
    { unfold sse41_if_supported. intros i. destruct (t_tf_sse41 t) eqn:F; [intros X; injection X as <-; split; [apply (honest_tf_sse41 _ _ H F)|discriminate]|].
      destruct (t_std t); cbn [andb]; [|discriminate]. destruct (t_cpu_sse41 t) eqn:G; [|discriminate].
      intros X; injection X as <-; split; [apply (honest_cpu_sse41 _ _ H G)|discriminate]. }
    assert (S2 : forall i, avx2_if_supported t = Some i -> supported e i /\ i = AVX2).
    { unfold avx2_if_supported. intros i.
      assert (Q : e_avx2 e = true -> supported e AVX2) by (intros Q; split; [exact Q|exact (honest_avx2_sse41 _ _ H Q)]).
      destruct (t_tf_avx2 t) eqn:F; [intros X; injection X as <-; split; [apply Q, (honest_tf_avx2 _ _ H F)|reflexivity]|].
      destruct (t_std t); cbn [andb]; [|discriminate]. destruct (t_cpu_avx2 t) eqn:G; [|discriminate].
      intros X; injection X as <-; split; [apply Q, (honest_cpu_avx2 _ _ H G)|reflexivity]. }
    assert (T : forall o test, (forall i, o = Some i -> test i = Ret tt) -> if_some o test = Ret tt).
    { intros [i|] test X; [exact (X i eq_refl)|reflexivity]. }
    rewrite T by (intros i Ei; apply K, (S1 i Ei)). cbn [bind]. rewrite T by (intros i Ei; apply K, (S2 i Ei)). cbn [bind].
    rewrite T by (intros i Ei; destruct (S1 i Ei); apply KN; assumption). cbn [bind].
    rewrite T by (intros i Ei; destruct (S2 i Ei) as [B1 ->]; apply KN; [exact B1|discriminate]). cbn [bind].
    apply T. intros i Ei. destruct (S2 i Ei). apply KW; assumption.
  - unfold painted_against_reference. destruct (painted e (21 * blockbytes v)) as (p & E & L); [lia|].
    rewrite E. cbn [bind]. apply test_against_reference_ok; auto; rewrite L; [change (2 ^ 63) with 9223372036854775808|]; lia.
  - apply painted_many_ok; auto. intros n _. apply hash_many_accepts, Su.
  - apply painted_many_ok; auto. intros n B. apply update_many_accepts; [exact Su|]. change (2 ^ 63) with 9223372036854775808. lia.
Qed.
Print Assumptions C50_painted.

(** The tests over random inputs, for any random generator that keeps its promises, from any of its states, with any
    number of test cases. *)
Theorem C50_fuzz_many (v : variant) (t : target) (e : env) (R : Type) (fill_bytes : R -> nat -> list byte * R)
    (range : R -> nat -> nat -> nat * R) (gen : R -> bool * R) (seed : R) (tests : nat) :
  honest t e -> fair fill_bytes range ->
  with_random_inputs v (detect t) R fill_bytes range gen tests (t_x86 t) (fuzz_hash_many v e) seed = Ret tt /\
  with_random_inputs v (detect t) R fill_bytes range gen tests (t_x86 t) (fuzz_update_many v e) seed = Ret tt.
Proof.
  intros H F. pose proof (detect_supported t e H) as Su.
  split; apply with_random_inputs_ok; auto; [apply hash_many_accepts, Su|apply update_many_accepts; [exact Su|]].
  unfold fuzz_max_len. destruct v; reflexivity.
Qed.
Print Assumptions C50_fuzz_many.

(** A generator that keeps its promises: a counter. *)
Example C50_example_fuzz :
  fair (fun r n => (repeat x07 n, S r)) (fun r low high => (low + r mod (high - low), S r))%nat /\
  with_random_inputs V2b (detect demo_target) nat (fun r n => (repeat x07 n, S r))
    (fun r low high => (low + r mod (high - low), S r))%nat (fun r => (Nat.even r, S r)) 1000 (t_x86 demo_target)
    (fuzz_update_many V2b (demo_env true)) 5%nat = Ret tt.
Proof.
  assert (F : fair (fun r n => (repeat x07 n, S r)) (fun r low high => (low + r mod (high - low), S r))%nat).
  { split; intros; cbn [fst]; [apply repeat_length|]. pose proof (Nat.mod_upper_bound r (high - low)). lia. }
  split; [exact F|]. exact (proj2 (C50_fuzz_many V2b demo_target (demo_env true) nat _ _ (fun r => (Nat.even r, S r)) 5%nat 1000 (demo_honest true) F)).
Qed.
