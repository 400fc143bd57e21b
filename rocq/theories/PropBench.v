(** C52: the benchmarks measure what they say they measure (Bench.v).  They do not fail; they hash as many bytes as
    their rates are computed from, and get the right hashes; and their inputs start once at every offset of a period.
    Two comments in them are wrong, which is proved as well. *)
From Coq Require Import String.
From Coq Require Import Arith NArith List Bool Lia Permutation.
From Coq Require Import Init.Byte.
From Verif Require Import Base Guts KernelSpec Impl Loops LaneLoops Lib Many Par.
From Verif Require Import Spec ApiSpec Machine.
From Verif Require Import Api ApiProof Runs Laws BatchProof Demo PropHash PropPar Bench BenchSpec BenchProof.
Import ListNotations.
Open Scope list_scope.
Open Scope nat_scope.
Local Notation length := List.length.

(** "We run every offset from 0 to 511": wherever the allocator puts the buffer, however long the input, and after
    however many inputs, the next 512 start at the 512 addresses modulo 512, once each, and all lie in the buffer. *)
Theorem C52_offsets (m : memory) (len k : nat) :
  exists xs, timed oi_get (k + 512) (offset_input_new m len) = Ret xs /\ length xs = k + 512 /\
    Forall (lies_in m (len + 512) len) xs /\
    Permutation (starts 512 (skipn k xs)) (map N.of_nat (seq 0 512)).
Proof.
  change 512%N with (N.of_nat 512). change 512 with OFFSET_PERIOD. rewrite turned_0.
  destruct (rotation m len (k + OFFSET_PERIOD) 0) as (xs & E & L & H).
  exists xs. split; [exact E|]. split; [exact L|]. split.
  - apply Forall_forall. intros x I. apply In_nth_error in I as (i & I). apply (H i x I).
  - apply (period_residues _ k).
    + rewrite skipn_length. lia.
    + intros i x N. apply (H (k + i) x). rewrite <- N. clear. revert xs. induction k as [|k IH]; intros [|y xs]; cbn; auto.
      destruct i; reflexivity.
Qed.
Print Assumptions C52_offsets.

(** The rate of a benchmark is the time of its 512 timed runs over 512 * 1000000 bytes (main.rs:331).  One input per
    run: it does hash that much, once from each offset, and to the right hashes. *)
Theorem C52_one_shot (v : variant) (e : env) (t : target) (m : memory) :
  honest t e ->
  exists xs hs, hash_bench v e t m = Ret (combine xs hs) /\ length xs = 512 /\
    Forall (lies_in m (N.to_nat 1000512) (N.to_nat 1000000)) xs /\ total xs = (512 * 1000000)%N /\
    Permutation (starts 512 xs) (map N.of_nat (seq 0 512)) /\ hashes_of v xs hs.
Proof.
  intros Ho. pose proof (detect_supported t e Ho) as Su. unfold hash_bench.
  replace (N.to_nat 1000512) with (N.to_nat BENCH_LEN + OFFSET_PERIOD) by (change OFFSET_PERIOD with (N.to_nat 512); rewrite <- N2Nat.inj_add; reflexivity).
  change (N.to_nat 1000000) with (N.to_nat BENCH_LEN). set (len := N.to_nat BENCH_LEN).
  assert (EL : N.of_nat len = 1000000%N) by (unfold len; rewrite N2Nat.id; reflexivity). clearbody len.
  change 512%N with (N.of_nat OFFSET_PERIOD). change (map N.of_nat (seq 0 512)) with (map N.of_nat (seq 0 OFFSET_PERIOD)).
  destruct (one_per_run (fun b => blake2_default v e (detect t) b)
    (fun b h => as_bytes h = Ret (rfc7693 (fl v) (max_out (fl v)) [] b)) m len) as (runs & E & L & P & F & G).
  { intros b. exact (C01_one_shot_is_blake2 v e (detect t) b Su). }
  exists (map fst runs), (map snd runs). split; [|split; [|split; [|split; [|split]]]]; auto.
  - rewrite E. f_equal. clear. induction runs as [|[x h] runs IH]; [reflexivity|]. cbn [map fst snd combine]. now rewrite <- IH.
  - rewrite map_length. exact L.
  - rewrite (total_const _ len), map_length, L, EL; [reflexivity|]. eapply Forall_impl; [|exact F]. intros x. apply lies_len.
Qed.
Print Assumptions C52_one_shot.

Theorem C52_parallel (v : variant) (e : env) (t : target) (m : memory) :
  honest t e ->
  exists xs hs, p_hash_bench v e t m = Ret (combine xs hs) /\ length xs = 512 /\
    Forall (lies_in m (N.to_nat 1000512) (N.to_nat 1000000)) xs /\ total xs = (512 * 1000000)%N /\
    Permutation (starts 512 xs) (map N.of_nat (seq 0 512)) /\ p_hashes_of v xs hs.
Proof.
  intros Ho. pose proof (detect_supported t e Ho) as Su. unfold p_hash_bench.
  replace (N.to_nat 1000512) with (N.to_nat BENCH_LEN + OFFSET_PERIOD) by (change OFFSET_PERIOD with (N.to_nat 512); rewrite <- N2Nat.inj_add; reflexivity).
  change (N.to_nat 1000000) with (N.to_nat BENCH_LEN). set (len := N.to_nat BENCH_LEN).
  assert (EL : N.of_nat len = 1000000%N) by (unfold len; rewrite N2Nat.id; reflexivity). clearbody len.
  change 512%N with (N.of_nat OFFSET_PERIOD). change (map N.of_nat (seq 0 512)) with (map N.of_nat (seq 0 OFFSET_PERIOD)).
  destruct (one_per_run (fun b => blake2p_default v e (detect t) b)
    (fun b h => as_bytes h = Ret (blake2p (fl v) (max_out (fl v)) [] b)) m len) as (runs & E & L & P & F & G).
  { intros b. exact (C14_one_shot v e (detect t) b Su). }
  exists (map fst runs), (map snd runs). split; [|split; [|split; [|split; [|split]]]]; auto.
  - rewrite E. f_equal. clear. induction runs as [|[x h] runs IH]; [reflexivity|]. cbn [map fst snd combine]. now rewrite <- IH.
  - rewrite map_length. exact L.
  - rewrite (total_const _ len), map_length, L, EL; [reflexivity|]. eapply Forall_impl; [|exact F]. intros x. apply lies_len.
Qed.
Print Assumptions C52_parallel.

(** As many inputs per run as the machine hashes at once: together they are 1000000 bytes in each of the 512 runs,
    whatever the degree, the jobs fit the array, and each input starts once at each offset. *)
Theorem C52_many (v : variant) (e : env) (t : target) (ms : nat -> memory) (order : nat -> list nat -> list nat) :
  honest t e ->
  exists runs, many_bench v e t ms order = Ret runs /\ length runs = 512 /\
    (forall xs jobs, In (xs, jobs) runs ->
       length xs = many_degree v t /\ total xs = 1000000%N /\ exists hs, mapM (to_hash v e) jobs = Ret hs /\ hashes_of v xs hs) /\
    (forall j, j < many_degree v t -> exists m len column, map (fun run => nth_error (fst run) j) runs = map Some column /\
       Forall (lies_in m (len + 512) len) column /\
       Permutation (starts 512 column) (map N.of_nat (seq 0 512))).
Proof.
  intros Ho. pose proof (detect_supported t e Ho) as Su. unfold many_bench, many_inputs.
  pose proof (degree_divides v t) as DD. set (d := many_degree v t) in *.
  assert (EL : N.of_nat (N.to_nat (BENCH_LEN / N.of_nat d)) = N.div 1000000 (N.of_nat d)) by apply N2Nat.id.
  set (len := N.to_nat (BENCH_LEN / N.of_nat d)) in *. clearbody len.
  cbv zeta. rewrite <- (map_map (fun i => ms (2 * i + 1)) (fun m => offset_input_new m len)).
  set (mem := map (fun i => ms (2 * i + 1)) (seq 0 d)).
  assert (LM : length mem = d) by (unfold mem; now rewrite map_length, seq_length).
  change 512%N with (N.of_nat 512). change 512 with OFFSET_PERIOD.
  destruct (many_runs v e t mem len Su) as (runs & E & L & H).
  { rewrite LM. apply degree_fits. }
  exists runs. split; [exact E|]. split; [exact L|]. split.
  - intros xs jobs I. apply In_nth_error in I as (i & I). destruct (H i xs jobs I) as (F & hs & EH & HH).
    assert (LX : length xs = d) by (rewrite <- LM; clear - F; induction F; cbn; auto).
    split; [exact LX|]. split; [|eauto]. rewrite (total_const _ len), LX, EL, DD; [reflexivity|].
    clear - F. induction F as [|m x mem xs X _ IH]; constructor; [|exact IH]. apply (lies_len _ _ _ _ (proj1 X)).
  - intros j J. destruct (nth_error mem j) as [m|] eqn:EM; [|apply nth_error_None in EM; lia].
    assert (C : forall i xs jobs, nth_error runs i = Some (xs, jobs) -> exists x, nth_error xs j = Some x /\ expected m len (1 + i) x).
    { intros i xs jobs I. destruct (H i xs jobs I) as (F & _). clear - F EM. revert j EM.
      induction F as [|m' x mem' xs X F IH]; intros [|j] EM; cbn [nth_error] in *; try discriminate; [|eauto].
      injection EM as ->. eauto. }
    exists m, len.
    assert (K : exists column, map (fun run => nth_error (fst run) j) runs = map Some column /\ length column = length runs /\
      forall i x, nth_error column i = Some x -> expected m len (1 + i) x).
    { clear - C. revert C. generalize 1 as a. induction runs as [|[xs jobs] runs IH]; intros a C.
      - exists []. split; [reflexivity|]. split; [reflexivity|]. intros [|i] x; discriminate.
      - destruct (C 0 xs jobs eq_refl) as (x & E & X). destruct (IH (S a)) as (col & E2 & L2 & X2).
        { intros i xs' jobs' I. destruct (C (S i) xs' jobs' I) as (y & Ey & Y). exists y. split; [exact Ey|].
          replace (S a + i) with (a + S i) by lia. exact Y. }
        exists (x :: col). cbn [map fst]. rewrite E, E2. split; [reflexivity|]. split; [cbn; lia|].
        intros [|i] y; cbn [nth_error]; intros Ey.
        + injection Ey as <-. exact X.
        + replace (a + S i) with (S a + i) by lia. auto. }
    destruct K as (col & E2 & L2 & X). exists col. split; [exact E2|]. split.
    + apply Forall_forall. intros x I. apply In_nth_error in I as (i & I). apply (X i x I).
    + apply (period_residues _ 1); [lia|]. intros i x I. apply (X i x I).
Qed.
Print Assumptions C52_many.

(** "Each run with N=degree inputs at uncorrelated offsets" (main.rs:115): wrong.  Whatever the allocator and the
    shuffles do, in every run all inputs start at the same offset, for the shuffled input is not the one that is kept. *)
Theorem C52_uncorrelated_refuted (v : variant) (e : env) (t : target) (ms : nat -> memory) (order : nat -> list nat -> list nat) :
  honest t e ->
  exists runs, many_bench v e t ms order = Ret runs /\ length runs = 512 /\
    forall xs jobs x y, In (xs, jobs) runs -> In x xs -> In y xs -> N.modulo (sv_at x) 512 = N.modulo (sv_at y) 512.
Proof.
  intros Ho. pose proof (detect_supported t e Ho) as Su. unfold many_bench, many_inputs.
  set (d := many_degree v t) in *. set (len := N.to_nat (BENCH_LEN / N.of_nat d)) in *. clearbody len.
  cbv zeta. rewrite <- (map_map (fun i => ms (2 * i + 1)) (fun m => offset_input_new m len)).
  set (mem := map (fun i => ms (2 * i + 1)) (seq 0 d)).
  assert (LM : length mem = d) by (unfold mem; now rewrite map_length, seq_length).
  change 512%N with (N.of_nat 512). change 512 with OFFSET_PERIOD.
  destruct (many_runs v e t mem len Su) as (runs & E & L & H).
  { rewrite LM. apply degree_fits. }
  exists runs. split; [exact E|]. split; [exact L|]. intros xs jobs x y I Ix Iy. apply In_nth_error in I as (i & I).
  destruct (H i xs jobs I) as (F & _).
  assert (A : Forall (fun x => N.modulo (sv_at x) (N.of_nat OFFSET_PERIOD) = N.of_nat ((1 + i) mod OFFSET_PERIOD)) xs).
  { clear - F. induction F as [|m x mem xs X _ IH]; constructor; [exact (proj2 X)|exact IH]. }
  rewrite Forall_forall in A. rewrite (A x Ix), (A y Iy). reflexivity.
Qed.
Print Assumptions C52_uncorrelated_refuted.

(** The nightly benchmarks (bench.rs): whatever the page size and the shuffle, each page's worth of inputs starts once
    at each page offset. *)
Theorem C52_pages (page : nat) (order : list nat -> list nat) (m : memory) (bytes : N) (len k : nat) :
  0 < page -> (forall l, Permutation (order l) l) ->
  let '(bytes', input) := random_input_new page order m bytes len in
  bytes' = (bytes + N.of_nat len)%N /\
  exists xs, timed ri_get (k + page) input = Ret xs /\ length xs = k + page /\ Forall (lies_in m (len + page) len) xs /\
    Permutation (starts (N.of_nat page) (skipn k xs)) (map N.of_nat (seq 0 page)).
Proof.
  intros H P. destruct (random_input_new page order m bytes len) as (bytes' & input) eqn:EI.
  assert (E2 : input = spun page (order (seq 0 page)) m len 0) by (rewrite <- (spun_0 _ _ _ bytes _ H), EI; reflexivity).
  split; [unfold random_input_new in EI; congruence|]. subst input.
  set (perm := order (seq 0 page)). assert (PP : Permutation perm (seq 0 page)) by apply P.
  destruct (timed_inv ri_get (fun k s => s = spun page perm m len k) (at_page page perm m len)) with (n := k + page) (k := 0) (s := spun page perm m len 0)
    as (xs & E & L & X).
  - intros j s ->. destruct (ri_get_ok page perm m len j H PP) as (x & E & X). eauto.
  - reflexivity.
  - exists xs. split; [exact E|]. split; [exact L|]. split.
    + apply Forall_forall. intros x I. apply In_nth_error in I as (i & I). apply (X i x I).
    + apply (page_residues page perm m len k); auto; [rewrite skipn_length; lia|].
      intros i x N. apply (X (k + i) x). rewrite <- N. clear. revert xs. induction k as [|k IH]; intros [|y xs]; cbn; auto.
      destruct i; reflexivity.
Qed.
Print Assumptions C52_pages.

(** However often the harness runs them, they hash the bytes that they declare, and to the right hashes: one input, on
    the detected back end, on the portable one, or in the parallel mode; and any number of inputs. *)
Theorem C52_harness (v : variant) (e : env) (t : target) (page : nat) (order : list nat -> list nat) (m : memory) (len n : nat) :
  honest t e -> 0 < page -> (forall l, Permutation (order l) l) ->
  let '(bytes, input) := random_input_new page order m 0 len in
  (exists xs hs, timed (hash_closure v e (params_new v (detect t))) n input = Ret (combine xs hs) /\ length xs = n /\
     Forall (lies_in m (len + page) len) xs /\ total xs = (N.of_nat n * bytes)%N /\ hashes_of v xs hs) /\
  (exists p xs hs, portable_params v t = Ret p /\ p_imp p = Portable /\
     timed (hash_closure v e p) n input = Ret (combine xs hs) /\ length xs = n /\
     Forall (lies_in m (len + page) len) xs /\ total xs = (N.of_nat n * bytes)%N /\ hashes_of v xs hs) /\
  (exists xs hs, timed (p_hash_closure v e t) n input = Ret (combine xs hs) /\ length xs = n /\
     Forall (lies_in m (len + page) len) xs /\ total xs = (N.of_nat n * bytes)%N /\ p_hashes_of v xs hs).
Proof.
  intros Ho H P. pose proof (detect_supported t e Ho) as Su.
  destruct (random_input_new page order m 0 len) as (bytes & input) eqn:E.
  assert (E1 : bytes = N.of_nat len) by (unfold random_input_new in E; cbn in E; congruence).
  assert (E2 : input = spun page (order (seq 0 page)) m len 0) by (rewrite <- (spun_0 _ _ _ 0 _ H), E; reflexivity).
  subst bytes input. set (perm := order (seq 0 page)). assert (PP : Permutation perm (seq 0 page)) by apply P.
  assert (CB : forall runs : list (served * hash), runs = combine (map fst runs) (map snd runs)).
  { intros runs. induction runs as [|[x h] runs IH]; [reflexivity|]. cbn [map fst snd combine]. now rewrite <- IH. }
  assert (TL : forall xs, Forall (lies_in m (len + page) len) xs -> length xs = n -> total xs = (N.of_nat n * N.of_nat len)%N).
  { intros xs F <-. apply total_const. eapply Forall_impl; [|exact F]. intros x. apply lies_len. }
  split; [|split].
  - destruct (one_per_iteration (params_hash v e (params_new v (detect t))) (fun b h => as_bytes h = Ret (rfc7693 (fl v) (max_out (fl v)) [] b))
      page perm m len n 0 H PP) as (runs & ER & L & F & G).
    { intros b. exact (C01_one_shot_is_blake2 v e (detect t) b Su). }
    exists (map fst runs), (map snd runs). rewrite <- CB, map_length. repeat split; auto. apply TL; [exact F|]. now rewrite map_length.
  - destruct (one_per_iteration (params_hash v e (params_new v Portable)) (fun b h => as_bytes h = Ret (rfc7693 (fl v) (max_out (fl v)) [] b))
      page perm m len n 0 H PP) as (runs & ER & L & F & G).
    { intros b. exact (C01_one_shot_is_blake2 v e Portable b I). }
    exists (params_new v Portable), (map fst runs), (map snd runs). rewrite <- CB, map_length. repeat split; auto. apply TL; [exact F|]. now rewrite map_length.
  - destruct (one_per_iteration (blake2p_default v e (detect t)) (fun b h => as_bytes h = Ret (blake2p (fl v) (max_out (fl v)) [] b))
      page perm m len n 0 H PP) as (runs & ER & L & F & G).
    { intros b. exact (C14_one_shot v e (detect t) b Su). }
    exists (map fst runs), (map snd runs). rewrite <- CB, map_length. repeat split; auto. apply TL; [exact F|]. now rewrite map_length.
Qed.
Print Assumptions C52_harness.

Theorem C52_harness_many (v : variant) (e : env) (t : target) (page : nat) (order : nat -> list nat -> list nat)
    (ms : nat -> memory) (len inputs n : nat) :
  honest t e -> 0 < page -> (forall i l, Permutation (order i l) l) ->
  let '(bytes, input) := random_inputs page ms order len inputs 0 in
  exists runs, timed (many_closure v e (params_new v (detect t))) n input = Ret runs /\ length runs = n /\
    forall xs hs, In (xs, hs) runs -> length xs = inputs /\ total xs = bytes /\ hashes_of v xs hs /\
      (forall i x, nth_error xs i = Some x -> lies_in (ms i) (len + page) len x).
Proof.
  intros Ho H P. pose proof (detect_supported t e Ho) as Su.
  destruct (random_inputs_ok page len H inputs ms order 0%N) as (E1 & E2).
  destruct (random_inputs page ms order len inputs 0) as (bytes & input). cbn [fst snd] in *. subst bytes input.
  set (l := map (fun i => (ms i, order i (seq 0 page))) (seq 0 inputs)).
  destruct (many_iterations v e (detect t) page len n H Su l) as (runs & E & L & F).
  { unfold l. apply Forall_map, Forall_forall. intros i _. apply P. }
  exists runs. unfold l in E. rewrite map_map in E. split; [exact E|]. split; [exact L|].
  intros xs hs I. rewrite Forall_forall in F. destruct (F _ I) as (F2 & HH).
  assert (LX : length xs = inputs).
  { rewrite <- (seq_length inputs 0), <- (map_length (fun i => (ms i, order i (seq 0 page)))). fold l. clear - F2. induction F2; cbn; auto. }
  split; [exact LX|]. split; [|split; [exact HH|]].
  - rewrite (total_const _ len), LX; [lia|]. clear - F2. induction F2 as [|[m perm] x l xs X _ IH]; constructor; auto. exact (lies_len _ _ _ _ X).
  - intros i x N. assert (B : i < inputs) by (rewrite <- LX; apply nth_error_Some; congruence).
    assert (NL : nth_error l i = Some (ms i, order i (seq 0 page))).
    { unfold l. rewrite nth_error_map, (nth_error_nth' _ 0) by (rewrite seq_length; exact B). rewrite seq_nth by exact B. reflexivity. }
    clear - F2 N NL. revert NL. generalize (ms i) (order i (seq 0 page)). intros m perm NL. clearbody l. revert i N NL.
    induction F2 as [|[m' perm'] x' l xs X _ IH]; intros [|i] N NL; cbn [nth_error] in *; try discriminate; eauto.
    injection N as ->. injection NL as -> ->. exact X.
Qed.
Print Assumptions C52_harness_many.

(** A name selects the benchmark listed under it, and an argument that is not a listed name is refused.  The comment
    (main.rs:346-348) says that a substring of exactly one name will do: wrong. *)
Lemma find_bench_ok name f l : NoDup (map fst l) -> (find_bench name l = Ret f <-> In (name, f) l).
Proof.
  induction l as [|[n g] l IH]; cbn [map find_bench In]; intros D; [split; [discriminate|tauto]|].
  inversion D as [|? ? N D']; subst. destruct (String.eqb_spec name n) as [->|NE].
  - split; [injection 1 as ->; auto|]. intros [E|I]; [congruence|]. destruct N. apply (in_map fst l _ I).
  - rewrite (IH D'). split; [auto|]. intros [E|I]; [congruence|exact I].
Qed.
Lemma only arg l : NoDup l -> filter (fun name => String.eqb name arg) l = if in_dec string_dec arg l then [arg] else [].
Proof.
  induction 1 as [|n l N D IH]; cbn [filter]; [reflexivity|]. rewrite IH. destruct (String.eqb_spec n arg) as [->|NE].
  - destruct (in_dec string_dec arg l) as [I|I]; [contradiction|]. destruct (in_dec string_dec arg (arg :: l)) as [|J]; [reflexivity|]. destruct J; now left.
  - destruct (in_dec string_dec arg l) as [I|I], (in_dec string_dec arg (n :: l)) as [J|J]; try reflexivity.
    + destruct J; now right.
    + destruct J; congruence.
Qed.
Lemma names_once : NoDup (map fst ALGOS).
Proof. cbn. repeat constructor; cbn; intuition discriminate. Qed.
Theorem C52_names (name : string) (f : algorithm) :
  (get_hash_bench name = Ret f <-> In (name, f) ALGOS) /\
  (In name (map fst ALGOS) -> choose name = Ret name) /\ (~ In name (map fst ALGOS) -> choose name = Panic).
Proof.
  split; [exact (find_bench_ok name f ALGOS names_once)|]. unfold choose. rewrite (only name _ names_once).
  destruct (in_dec string_dec name (map fst ALGOS)); split; intros; try reflexivity; contradiction.
Qed.
Print Assumptions C52_names.
(** No two names share a benchmark. *)
Theorem C52_names_differ (name name' : string) (f : algorithm) :
  get_hash_bench name = Ret f -> get_hash_bench name' = Ret f -> name = name'.
Proof.
  intros H H'. apply (find_bench_ok name f ALGOS names_once) in H. apply (find_bench_ok name' f ALGOS names_once) in H'.
  cbn in H, H'. repeat (destruct H as [H|H]; [injection H as <- <-; intuition congruence|]). destruct H.
Qed.
Print Assumptions C52_names_differ.
Theorem C52_substring_refuted :
  filter (fun name => match String.index 0 "SHA-1" name with Some _ => true | None => false end) (map fst ALGOS) = ["OpenSSL SHA-1"%string] /\
  choose "SHA-1" = Panic.
Proof. split; reflexivity. Qed.
Print Assumptions C52_substring_refuted.

(** A machine with AVX2, a buffer at an odd address: the hypotheses hold, and there are four inputs in a run. *)
Example C52_example :
  let t := {| t_x86 := true; t_tf_sse41 := true; t_tf_avx2 := true; t_std := true; t_cpu_sse41 := true; t_cpu_avx2 := true |} in
  honest t (demo_env true) /\ many_degree V2b t = 4 /\
  (forall l : list nat, Permutation (rev l) l) /\
  exists m, m_at m = 1000003%N /\ exists runs, many_bench V2b (demo_env true) t (fun _ => m) (fun _ => @rev nat) = Ret runs /\ length runs = 512.
Proof.
  intros t. assert (H : honest t (demo_env true)) by (constructor; reflexivity). split; [exact H|]. split; [reflexivity|].
  split; [intros l; apply Permutation_sym, Permutation_rev|].
  exists {| m_at := 1000003; m_byte := fun _ => x00 |}. split; [reflexivity|].
  destruct (C52_many V2b (demo_env true) t (fun _ => {| m_at := 1000003; m_byte := fun _ => x00 |}) (fun _ => @rev nat) H) as (runs & E & L & _).
  exists runs. split; assumption.
Qed.
