(** Proofs for C52. *)
From Coq Require Import Arith NArith List Bool Lia Permutation FinFun.
From Coq Require Import Init.Byte.
From Verif Require Import Base Guts KernelSpec Impl Loops LaneLoops Lib Many Par.
From Verif Require Import Spec ApiSpec Machine.
From Verif Require Import Api ApiProof Runs Laws BatchProof SuiteProof Demo PropHash PropPar Bench BenchSpec.
Import ListNotations.
Open Scope list_scope.
Open Scope nat_scope.

(** ** Loops *)
Lemma timed_inv {T R} (f : T -> outcome (R * T)) (P : nat -> T -> Prop) (Q : nat -> R -> Prop) :
  (forall k s, P k s -> exists x s', f s = Ret (x, s') /\ Q k x /\ P (k + 1) s') ->
  forall n k s, P k s -> exists xs, timed f n s = Ret xs /\ length xs = n /\
    forall i x, nth_error xs i = Some x -> Q (k + i) x.
Proof.
  intros St n. induction n as [|n IH]; intros k s Hs; cbn [timed].
  - exists []. split; [reflexivity|]. split; [reflexivity|]. intros [|i] x; discriminate.
  - destruct (St k s Hs) as (x & s' & E & Hx & Hs'). destruct (IH (k + 1) s' Hs') as (xs & E' & L & HX).
    exists (x :: xs). rewrite E. cbn [bind]. rewrite E'. cbn [bind]. split; [reflexivity|]. split; [cbn; lia|].
    intros [|i] y; cbn [nth_error]; intros H.
    + injection H as <-. rewrite Nat.add_0_r. exact Hx.
    + replace (k + S i) with (k + 1 + i) by lia. auto.
Qed.

Lemma bench_inv {T R} (f : T -> outcome (R * T)) (P : nat -> T -> Prop) (Q : nat -> R -> Prop) :
  (forall k s, P k s -> exists x s', f s = Ret (x, s') /\ Q k x /\ P (k + 1) s') ->
  forall s, P 0 s -> exists xs, bench f s = Ret xs /\ length xs = OFFSET_PERIOD /\
    forall i x, nth_error xs i = Some x -> Q (1 + i) x.
Proof.
  intros St s Hs. destruct (St 0 s Hs) as (x & s' & E & _ & Hs'). unfold bench. rewrite E. cbn [bind].
  exact (timed_inv f P Q St OFFSET_PERIOD 1 s' Hs').
Qed.

(** ** One window *)
Lemma skipn_seq n a k : skipn k (seq a n) = seq (a + k) (n - k).
Proof.
  revert n a. induction k as [|k IH]; intros [|n] a; cbn [skipn seq Nat.sub]; rewrite ?Nat.add_0_r; try reflexivity.
  rewrite IH. f_equal. lia.
Qed.
Lemma firstn_seq n a k : k <= n -> firstn k (seq a n) = seq a k.
Proof.
  revert n a. induction k as [|k IH]; intros [|n] a H; cbn [firstn seq]; try reflexivity; [lia|]. f_equal. apply IH. lia.
Qed.
Lemma window_ok m size off len : off + len <= size ->
  window m (map (m_byte m) (seq 0 size)) off len =
  Ret {| sv_at := N.add (m_at m) (N.of_nat off); sv_bytes := map (m_byte m) (seq off len) |}.
Proof.
  intros H. unfold window, slice_from, slice. rewrite map_length, seq_length.
  destruct (Nat.leb_spec off size) as [H1|H1]; [|lia]. cbn [bind]. rewrite skipn_map, skipn_seq, map_length, seq_length.
  destruct (Nat.leb_spec 0 len) as [H2|H2]; [|lia]. destruct (Nat.leb_spec len (size - off)) as [H3|H3]; [|lia]. cbn [andb bind skipn].
  rewrite Nat.sub_0_r, firstn_map, firstn_seq by lia. reflexivity.
Qed.

Lemma wrap p k : 0 < p -> (if Nat.leb p (k mod p + 1) then 0 else k mod p + 1) = (k + 1) mod p.
Proof.
  intros H. pose proof (Nat.mod_upper_bound k p ltac:(lia)) as B. pose proof (Nat.div_mod_eq k p) as D.
  destruct (Nat.leb_spec p (k mod p + 1)) as [L|L].
  - replace (k + 1) with ((k / p + 1) * p) by nia. symmetry. apply Nat.mod_mul. lia.
  - apply (Nat.mod_unique (k + 1) p (k / p)); lia.
Qed.

Lemma nodup_map {A B} (f : A -> B) (l : list A) : (forall x y, In x l -> In y l -> f x = f y -> x = y) -> NoDup l -> NoDup (map f l).
Proof.
  intros H D. induction D as [|x l N D IH]; cbn [map]; constructor.
  - intros I. apply in_map_iff in I as (y & E & I). apply N. rewrite (H x y); cbn; auto.
  - apply IH. intros a b Ia Ib. apply H; cbn; auto.
Qed.

(** A period's worth of consecutive numbers has every remainder once. *)
Lemma residues p k c : 0 < p ->
  Permutation (map (fun j => N.modulo (c + N.of_nat ((k + j) mod p)) (N.of_nat p)) (seq 0 p)) (map N.of_nat (seq 0 p)).
Proof.
  intros H. assert (NZ : N.of_nat p <> 0%N) by lia.
  assert (E : forall j, N.modulo (c + N.of_nat ((k + j) mod p)) (N.of_nat p) = N.of_nat ((N.to_nat c + k + j) mod p)).
  { intros j. rewrite Nat2N.inj_mod. rewrite N.add_mod_idemp_r by exact NZ. rewrite Nat2N.inj_mod. f_equal. lia. }
  rewrite (map_ext _ (fun j => N.of_nat ((N.to_nat c + k + j) mod p)) E).
  rewrite <- (map_map (fun j => (N.to_nat c + k + j) mod p) N.of_nat). apply Permutation_map.
  apply NoDup_Permutation_bis.
  - apply nodup_map; [|apply seq_NoDup].
    intros i j Hi Hj EQ. apply in_seq in Hi, Hj. set (a := N.to_nat c + k) in *.
    pose proof (Nat.div_mod_eq (a + i) p) as D1. pose proof (Nat.div_mod_eq (a + j) p) as D2. rewrite EQ in D1.
    assert ((a + i) / p = (a + j) / p) by nia. nia.
  - rewrite map_length. lia.
  - intros x Hx. apply in_map_iff in Hx as (j & <- & Hj). apply in_seq. pose proof (Nat.mod_upper_bound (N.to_nat c + k + j) p). lia.
Qed.

(** ** The rotating input *)
Definition turned (m : memory) (len k : nat) : offset_input :=
  let o := offset_input_new m len in
  {| oi_mem := m; oi_buf := oi_buf o; oi_len := len;
     oi_offsets := {| vi_vec := vi_vec (oi_offsets o); vi_i := k mod OFFSET_PERIOD |} |}.
Definition expected (m : memory) (len k : nat) (x : served) : Prop :=
  lies_in m (len + OFFSET_PERIOD) len x /\ N.modulo (sv_at x) (N.of_nat OFFSET_PERIOD) = N.of_nat (k mod OFFSET_PERIOD).
Lemma period_pos : 0 < OFFSET_PERIOD. Proof. unfold OFFSET_PERIOD. lia. Qed.
Global Opaque OFFSET_PERIOD.
Lemma turned_0 m len : offset_input_new m len = turned m len 0.
Proof. unfold turned, offset_input_new. rewrite Nat.mod_0_l by (pose proof period_pos; lia). reflexivity. Qed.

Lemma oi_get_ok m len k : exists x, oi_get (turned m len k) = Ret (x, turned m len (k + 1)) /\ expected m len k x.
Proof.
  pose proof period_pos as PP. set (p := OFFSET_PERIOD) in *.
  set (a := p - N.to_nat (N.modulo (m_at m) (N.of_nat p))).
  set (off := (k mod p + a) mod p).
  assert (B : off < p) by (apply Nat.mod_upper_bound; lia).
  exists {| sv_at := N.add (m_at m) (N.of_nat off); sv_bytes := map (m_byte m) (seq off len) |}. split.
  - unfold oi_get, vi_next, turned, offset_input_new. cbn [oi_mem oi_buf oi_len oi_offsets vi_vec vi_i]. fold p a.
    assert (NE : nth_error (map (fun off => (off + a) mod p) (seq 0 p)) (k mod p) = Some off).
    { rewrite nth_error_map, (nth_error_nth' (seq 0 p) 0) by (rewrite seq_length; apply Nat.mod_upper_bound; lia).
      rewrite seq_nth by (apply Nat.mod_upper_bound; lia). reflexivity. }
    rewrite NE. cbn [bind oi_mem oi_buf oi_len oi_offsets vi_vec vi_i]. rewrite window_ok by lia. cbn [bind].
    rewrite map_length, seq_length, wrap by lia. reflexivity.
  - split.
    + exists off. cbn. repeat split; lia.
    + cbn [sv_at]. fold p. unfold off, a. pose proof (N.mod_upper_bound (m_at m) (N.of_nat p) ltac:(lia)) as U.
      rewrite Nat2N.inj_mod, N.add_mod_idemp_r by lia.
      pose proof (N.div_mod (m_at m) (N.of_nat p) ltac:(lia)) as D.
      set (r := N.modulo (m_at m) (N.of_nat p)) in *. set (q := N.div (m_at m) (N.of_nat p)) in *.
      replace (m_at m + N.of_nat (k mod p + (p - N.to_nat r)))%N with (N.of_nat (k mod p) + (q + 1) * N.of_nat p)%N by lia.
      rewrite N.mod_add by lia. rewrite N.mod_small; [reflexivity|]. pose proof (Nat.mod_upper_bound k p). lia.
Qed.

Lemma rotation m len n k : exists xs, timed oi_get n (turned m len k) = Ret xs /\ length xs = n /\
  forall i x, nth_error xs i = Some x -> expected m len (k + i) x.
Proof.
  apply (timed_inv oi_get (fun k s => s = turned m len k) (expected m len)); [|reflexivity].
  intros j s ->. destruct (oi_get_ok m len j) as (x & E & H). eauto.
Qed.

(** What follows for a period's worth of inputs. *)
Lemma nth_map_seq {A B} (f : A -> B) (g : nat -> B) (l : list A) : (forall i x, nth_error l i = Some x -> f x = g i) ->
  map f l = map g (seq 0 (length l)).
Proof.
  revert g. induction l as [|x l IH]; intros g H; [reflexivity|]. cbn [map length seq]. f_equal.
  - exact (H 0 x eq_refl).
  - rewrite <- seq_shift, map_map. apply IH. intros i y E. exact (H (S i) y E).
Qed.
Lemma period_residues (xs : list served) k : length xs = OFFSET_PERIOD ->
  (forall i x, nth_error xs i = Some x -> N.modulo (sv_at x) (N.of_nat OFFSET_PERIOD) = N.of_nat ((k + i) mod OFFSET_PERIOD)) ->
  Permutation (starts (N.of_nat OFFSET_PERIOD) xs) (map N.of_nat (seq 0 OFFSET_PERIOD)).
Proof.
  intros L H. unfold starts. pose proof period_pos as PP.
  rewrite (nth_map_seq _ (fun i => N.of_nat ((k + i) mod OFFSET_PERIOD)) xs H), L.
  rewrite <- (residues OFFSET_PERIOD k 0%N PP) at 1. erewrite map_ext; [apply Permutation_refl|]. intros j. cbn beta.
  rewrite N.add_0_l. symmetry. apply N.mod_small. pose proof (Nat.mod_upper_bound (k + j) OFFSET_PERIOD). lia.
Qed.

(** ** One input per run *)
Lemma lies_len m size len x : lies_in m size len x -> length (sv_bytes x) = len.
Proof. intros (off & _ & _ & ->). rewrite map_length, seq_length. reflexivity. Qed.
Lemma total_app a b : total (a ++ b) = N.add (total a) (total b).
Proof. unfold total. induction a as [|x a IH]; cbn [map fold_right app]; [reflexivity|]. rewrite IH. lia. Qed.
Lemma total_const xs len : Forall (fun x => length (sv_bytes x) = len) xs -> total xs = N.mul (N.of_nat (length xs)) (N.of_nat len).
Proof. unfold total. induction 1 as [|x xs H _ IH]; cbn [map fold_right length]; [reflexivity|]. rewrite IH, H. lia. Qed.

Lemma one_per_run (g : list byte -> outcome hash) (G : list byte -> hash -> Prop) m len :
  (forall b, exists h, g b = Ret h /\ G b h) ->
  exists runs,
    bench (fun input => do '(x, input) <- oi_get input; do h <- g (sv_bytes x); Ret ((x, h), input)) (offset_input_new m len) = Ret runs /\
    length runs = OFFSET_PERIOD /\
    Permutation (starts (N.of_nat OFFSET_PERIOD) (map fst runs)) (map N.of_nat (seq 0 OFFSET_PERIOD)) /\
    Forall (lies_in m (len + OFFSET_PERIOD) len) (map fst runs) /\
    Forall2 (fun x h => G (sv_bytes x) h) (map fst runs) (map snd runs).
Proof.
  intros Hg.
  destruct (bench_inv (fun input => do '(x, input) <- oi_get input; do h <- g (sv_bytes x); Ret ((x, h), input))
    (fun k s => s = turned m len k) (fun k r => expected m len k (fst r) /\ G (sv_bytes (fst r)) (snd r))) with (s := offset_input_new m len)
    as (runs & E & L & H).
  - intros k s ->. destruct (oi_get_ok m len k) as (x & E & X). destruct (Hg (sv_bytes x)) as (h & Eh & Gh).
    exists (x, h), (turned m len (k + 1)). rewrite E. cbn [bind]. rewrite Eh. cbn [bind fst snd]. auto.
  - apply turned_0.
  - exists runs. split; [exact E|]. split; [exact L|]. split; [|split].
    + apply (period_residues _ 1); [now rewrite map_length|]. intros i x N.
      rewrite nth_error_map in N. destruct (nth_error runs i) as [[x' h]|] eqn:E1; [|discriminate]. injection N as <-.
      apply (H i (x', h) E1).
    + apply Forall_map, Forall_forall. intros [x h] I. apply In_nth_error in I as (i & I). apply (H i _ I).
    + assert (A : Forall (fun r => G (sv_bytes (fst r)) (snd r)) runs).
      { apply Forall_forall. intros [x h] I. apply In_nth_error in I as (i & I). apply (H i _ I). }
      clear - A. induction A; cbn [map]; constructor; auto.
Qed.

(** ** Batches *)
Definition request_of (imp : platform) (x : served) : request := (imp, [], sv_bytes x).
Lemma degree_fits v t : degree v (detect t) <= max_degree v (t_x86 t).
Proof.
  unfold detect, max_degree. destruct (t_x86 t).
  - destruct v, (avx2_if_supported t) as [[]|], (sse41_if_supported t) as [[]|]; cbn; lia.
  - destruct v; cbn; lia.
Qed.
Lemma degree_divides v t : N.mul (N.of_nat (many_degree v t)) (N.div 1000000 (N.of_nat (many_degree v t))) = 1000000%N.
Proof. unfold many_degree. destruct v, (detect t); reflexivity. Qed.

Lemma batch_hashes v e imp xs : supported e imp ->
  exists jobs jobs' n hs, mapM (fun x => hash_many_job_new v e (params_new v imp) (sv_bytes x)) xs = Ret jobs /\ length jobs = length xs /\
    hash_many v e jobs (map (fun i => Some (i, tt)) (seq 0 (length jobs))) = Ret (jobs', n) /\
    mapM (to_hash v e) jobs' = Ret hs /\ hashes_of v xs hs.
Proof.
  intros Su.
  destruct (hash_many_all v e (map (request_of imp) xs) (seq 0 (length (map (request_of imp) xs)))) as (jobs & jobs' & E & EH & ET).
  - apply Forall_map, Forall_forall. intros x _. split; [exact Su|constructor].
  - apply Permutation_refl.
  - rewrite mapM_map in E. change (mapM (fun x => hash_many_job_new v e (params_new v imp) (sv_bytes x)) xs = Ret jobs) in E.
    assert (L : length jobs = length xs) by (clear - E; revert jobs E; induction xs as [|x xs IH]; cbn [mapM]; intros jobs E; [injection E as <-; reflexivity|]; destruct (hash_many_job_new _ _ _ _) as [j| | |]; try discriminate; cbn [bind] in E; destruct (mapM _ xs) as [js| | |]; try discriminate; injection E as <-; cbn [length]; now rewrite IH).
    rewrite mapM_map in ET.
    destruct (mapM_ex (fun x => hash_alone v e (request_of imp x)) (fun x h => as_bytes h = Ret (rfc7693 (fl v) (max_out (fl v)) [] (sv_bytes x))) xs)
      as (hs & E3 & F).
    { intros x _. exact (C01_one_shot_is_blake2 v e imp (sv_bytes x) Su). }
    rewrite E3 in ET. rewrite map_length in EH.
    exists jobs, jobs', (S (length xs)), hs. rewrite L. repeat split; assumption.
Qed.

Lemma get_jobs_ok v e t len k : supported e (detect t) -> forall ms jobs, length jobs + length ms <= max_degree v (t_x86 t) ->
  exists new xs, get_jobs v e t (map (fun m => turned m len k) ms) jobs =
    Ret (jobs ++ new, xs, map (fun m => turned m len (k + 1)) ms) /\
    mapM (fun x => hash_many_job_new v e (params_new v (detect t)) (sv_bytes x)) xs = Ret new /\
    Forall2 (fun m x => expected m len k x) ms xs.
Proof.
  intros Su ms. induction ms as [|m ms IH]; intros jobs L; cbn [map get_jobs].
  - exists [], []. rewrite app_nil_r. repeat split. constructor.
  - destruct (oi_get_ok m len k) as (x & E & X). rewrite E. cbn [bind].
    assert (J : exists j, hash_many_job_new v e (params_new v (detect t)) (sv_bytes x) = Ret j).
    { unfold hash_many_job_new. cbn. eauto. }
    destruct J as (j & J). rewrite J. cbn [bind]. cbn [length] in L.
    unfold assert_. destruct (Nat.ltb_spec (length jobs) (max_degree v (t_x86 t))) as [B|B]; [|lia]. cbn [bind].
    destruct (IH (jobs ++ [j])) as (new & xs & E2 & E3 & F); [rewrite app_length; cbn [length]; lia|].
    rewrite E2. cbn [bind]. exists (j :: new), (x :: xs). rewrite <- app_assoc. split; [reflexivity|]. split.
    + cbn [mapM]. rewrite J. cbn [bind]. rewrite E3. reflexivity.
    + constructor; assumption.
Qed.

Lemma many_runs v e t (ms : list memory) len : supported e (detect t) -> length ms <= max_degree v (t_x86 t) ->
  exists runs,
    bench (fun inputs =>
      do '(jobs, xs, inputs) <- get_jobs v e t inputs [];
      do '(jobs, _) <- hash_many v e jobs (map (fun i => Some (i, tt)) (seq 0 (length jobs)));
      Ret ((xs, jobs), inputs)) (map (fun m => offset_input_new m len) ms) = Ret runs /\
    length runs = OFFSET_PERIOD /\
    forall i xs jobs, nth_error runs i = Some (xs, jobs) ->
      Forall2 (fun m x => expected m len (1 + i) x) ms xs /\ exists hs, mapM (to_hash v e) jobs = Ret hs /\ hashes_of v xs hs.
Proof.
  intros Su L.
  destruct (bench_inv (fun inputs =>
      do '(jobs, xs, inputs) <- get_jobs v e t inputs [];
      do '(jobs, _) <- hash_many v e jobs (map (fun i => Some (i, tt)) (seq 0 (length jobs)));
      Ret ((xs, jobs), inputs))
    (fun k s => s = map (fun m => turned m len k) ms)
    (fun k r => Forall2 (fun m x => expected m len k x) ms (fst r) /\ exists hs, mapM (to_hash v e) (snd r) = Ret hs /\ hashes_of v (fst r) hs))
    with (s := map (fun m => offset_input_new m len) ms) as (runs & E & LR & H).
  - intros k s ->. destruct (get_jobs_ok v e t len k Su ms [] L) as (new & xs & E & EJ & F). rewrite E. cbn [bind app].
    destruct (batch_hashes v e (detect t) xs Su) as (jobs & jobs' & n & hs & EJ' & _ & EH & ET & HH).
    rewrite EJ' in EJ. injection EJ as ->. rewrite EH. cbn [bind].
    exists (xs, jobs'), (map (fun m => turned m len (k + 1)) ms). cbn [fst snd]. eauto 6.
  - apply map_ext. intros m. apply turned_0.
  - exists runs. split; [exact E|]. split; [exact LR|]. intros i xs jobs N. exact (H i _ N).
Qed.

(** ** The input at random page offsets *)
Definition spun (page : nat) (perm : list nat) (m : memory) (len k : nat) : random_input :=
  {| ri_mem := m; ri_buf := map (m_byte m) (seq 0 (len + page)); ri_len := len; ri_offsets := perm; ri_index := k mod page |}.
Definition at_page (page : nat) (perm : list nat) (m : memory) (len k : nat) (x : served) : Prop :=
  lies_in m (len + page) len x /\ sv_at x = N.add (m_at m) (N.of_nat (nth (k mod page) perm 0)).
Lemma perm_facts page perm : Permutation perm (seq 0 page) -> length perm = page /\ Forall (fun off => off < page) perm.
Proof.
  intros P. split; [rewrite (Permutation_length P); apply seq_length|].
  apply Forall_forall. intros x I. apply (Permutation_in _ P), in_seq in I. lia.
Qed.
Lemma ri_get_ok page perm m len k : 0 < page -> Permutation perm (seq 0 page) ->
  exists x, ri_get (spun page perm m len k) = Ret (x, spun page perm m len (k + 1)) /\ at_page page perm m len k x.
Proof.
  intros H P. destruct (perm_facts page perm P) as (L & B).
  assert (I : k mod page < length perm) by (rewrite L; apply Nat.mod_upper_bound; lia).
  pose proof (nth_error_nth' perm 0 I) as NE. set (off := nth (k mod page) perm 0) in *.
  assert (O : off < page) by (rewrite Forall_forall in B; apply B, nth_In, I).
  exists {| sv_at := N.add (m_at m) (N.of_nat off); sv_bytes := map (m_byte m) (seq off len) |}. split.
  - unfold ri_get, spun. cbn [ri_mem ri_buf ri_len ri_offsets ri_index]. rewrite NE.
    rewrite window_ok by lia. cbn [bind]. rewrite L, wrap by lia. reflexivity.
  - split; [|reflexivity]. exists off. cbn. repeat split; lia.
Qed.
Lemma spun_0 page order m bytes len : 0 < page -> snd (random_input_new page order m bytes len) = spun page (order (seq 0 page)) m len 0.
Proof. intros H. unfold random_input_new, spun. rewrite Nat.mod_0_l by lia. reflexivity. Qed.

Lemma page_residues page perm m len k xs : 0 < page -> Permutation perm (seq 0 page) -> length xs = page ->
  (forall i x, nth_error xs i = Some x -> at_page page perm m len (k + i) x) ->
  Permutation (starts (N.of_nat page) xs) (map N.of_nat (seq 0 page)).
Proof.
  intros H P L A. unfold starts.
  rewrite (nth_map_seq _ (fun i => N.modulo (m_at m + N.of_nat (nth ((k + i) mod page) perm 0)) (N.of_nat page)) xs).
  2: { intros i x E. destruct (A i x E) as (_ & ->). reflexivity. }
  rewrite L.
  set (g := fun o => N.modulo (m_at m + N.of_nat o) (N.of_nat page)).
  change (Permutation (map (fun i => g (nth ((k + i) mod page) perm 0)) (seq 0 page)) (map N.of_nat (seq 0 page))).
  rewrite <- (map_map (fun i => (k + i) mod page) (fun i => g (nth i perm 0))).
  assert (P1 : Permutation (map (fun i => (k + i) mod page) (seq 0 page)) (seq 0 page)).
  { pose proof (residues page k 0%N H) as R. erewrite map_ext in R.
    2: { intros j. rewrite N.add_0_l, N.mod_small; [reflexivity|]. pose proof (Nat.mod_upper_bound (k + j) page). lia. }
    rewrite <- (map_map (fun j => (k + j) mod page) N.of_nat) in R. apply (Permutation_map N.to_nat) in R.
    rewrite !map_map in R. rewrite !(map_ext (fun x => N.to_nat (N.of_nat _)) _ (fun x => Nat2N.id _)) in R.
    rewrite map_id in R. exact R. }
  rewrite P1. rewrite <- (map_map (fun i => nth i perm 0) g).
  destruct (perm_facts page perm P) as (LP & _).
  assert (P2 : map (fun i => nth i perm 0) (seq 0 page) = perm).
  { rewrite <- LP. clear. induction perm as [|a perm IH]; [reflexivity|]. cbn [length seq map nth]. f_equal.
    rewrite <- seq_shift, map_map. exact IH. }
  rewrite P2, P. unfold g. rewrite <- (residues page 0 (m_at m) H) at 1. erewrite map_ext_in; [apply Permutation_refl|].
  intros j I. apply in_seq in I. cbn beta. rewrite (Nat.mod_small (0 + j)) by lia. reflexivity.
Qed.

Lemma one_per_iteration (g : list byte -> outcome hash) (G : list byte -> hash -> Prop) page perm m len n k :
  0 < page -> Permutation perm (seq 0 page) -> (forall b, exists h, g b = Ret h /\ G b h) ->
  exists runs,
    timed (fun input => do '(x, input) <- ri_get input; do h <- g (sv_bytes x); Ret ((x, h), input)) n (spun page perm m len k) = Ret runs /\
    length runs = n /\ Forall (lies_in m (len + page) len) (map fst runs) /\
    Forall2 (fun x h => G (sv_bytes x) h) (map fst runs) (map snd runs).
Proof.
  intros H P Hg.
  destruct (timed_inv (fun input => do '(x, input) <- ri_get input; do h <- g (sv_bytes x); Ret ((x, h), input))
    (fun k s => s = spun page perm m len k) (fun k r => at_page page perm m len k (fst r) /\ G (sv_bytes (fst r)) (snd r)))
    with (n := n) (k := k) (s := spun page perm m len k) as (runs & E & L & HR).
  - intros j s ->. destruct (ri_get_ok page perm m len j H P) as (x & E & X). destruct (Hg (sv_bytes x)) as (h & Eh & Gh).
    exists (x, h), (spun page perm m len (j + 1)). rewrite E. cbn [bind]. rewrite Eh. cbn [bind fst snd]. auto.
  - reflexivity.
  - exists runs. split; [exact E|]. split; [exact L|]. split.
    + apply Forall_map, Forall_forall. intros [x h] I. apply In_nth_error in I as (i & I). apply (HR i _ I).
    + assert (A : Forall (fun r => G (sv_bytes (fst r)) (snd r)) runs).
      { apply Forall_forall. intros [x h] I. apply In_nth_error in I as (i & I). apply (HR i _ I). }
      clear - A. induction A; cbn [map]; constructor; auto.
Qed.

Lemma random_inputs_ok page len : 0 < page -> forall n ms order bytes,
  fst (random_inputs page ms order len n bytes) = N.add bytes (N.mul (N.of_nat n) (N.of_nat len)) /\
  snd (random_inputs page ms order len n bytes) = map (fun i => spun page (order i (seq 0 page)) (ms i) len 0) (seq 0 n).
Proof.
  intros H n. induction n as [|n IH]; intros ms order bytes; cbn [random_inputs]; [split; cbn; [lia|reflexivity]|].
  destruct (random_input_new page (order 0) (ms 0) bytes len) as (bytes' & input) eqn:E.
  assert (E1 : bytes' = N.add bytes (N.of_nat len)) by (unfold random_input_new in E; congruence).
  assert (E2 : input = spun page (order 0 (seq 0 page)) (ms 0) len 0) by (rewrite <- (spun_0 _ _ _ bytes _ H), E; reflexivity).
  destruct (IH (fun i => ms (S i)) (fun i => order (S i)) bytes') as (F & G).
  destruct (random_inputs page (fun i => ms (S i)) (fun i => order (S i)) len n bytes') as (b2 & rest). cbn [fst snd] in *. split.
  - subst. lia.
  - cbn [seq map]. f_equal; [exact E2|]. rewrite G, <- seq_shift, map_map. reflexivity.
Qed.

Lemma ri_jobs_ok v e imp page len k : 0 < page -> forall (l : list (memory * list nat)),
  Forall (fun '(_, perm) => Permutation perm (seq 0 page)) l ->
  exists jobs xs, ri_jobs v e (params_new v imp) (map (fun '(m, perm) => spun page perm m len k) l) =
    Ret (jobs, xs, map (fun '(m, perm) => spun page perm m len (k + 1)) l) /\
    mapM (fun x => hash_many_job_new v e (params_new v imp) (sv_bytes x)) xs = Ret jobs /\
    Forall2 (fun '(m, perm) x => at_page page perm m len k x) l xs.
Proof.
  intros H l. induction 1 as [|[m perm] l P _ IH]; cbn [map ri_jobs].
  - exists [], []. repeat split. constructor.
  - destruct (ri_get_ok page perm m len k H P) as (x & E & X). rewrite E. cbn [bind].
    assert (J : exists j, hash_many_job_new v e (params_new v imp) (sv_bytes x) = Ret j).
    { unfold hash_many_job_new. cbn. eauto. }
    destruct J as (j & J). rewrite J. cbn [bind]. destruct IH as (jobs & xs & E2 & E3 & F). rewrite E2. cbn [bind].
    exists (j :: jobs), (x :: xs). split; [reflexivity|]. split.
    + cbn [mapM]. rewrite J. cbn [bind]. rewrite E3. reflexivity.
    + constructor; assumption.
Qed.

Lemma many_iterations v e imp page len n : 0 < page -> supported e imp -> forall (l : list (memory * list nat)),
  Forall (fun '(_, perm) => Permutation perm (seq 0 page)) l ->
  exists runs, timed (many_closure v e (params_new v imp)) n (map (fun '(m, perm) => spun page perm m len 0) l) = Ret runs /\
    length runs = n /\
    Forall (fun '(xs, hs) => Forall2 (fun '(m, perm) x => lies_in m (len + page) len x) l xs /\ hashes_of v xs hs) runs.
Proof.
  intros H Su l P.
  destruct (timed_inv (many_closure v e (params_new v imp)) (fun k s => s = map (fun '(m, perm) => spun page perm m len k) l)
    (fun k r => let '(xs, hs) := r in Forall2 (fun '(m, perm) x => lies_in m (len + page) len x) l xs /\ hashes_of v xs hs))
    with (n := n) (k := 0) (s := map (fun '(m, perm) => spun page perm m len 0) l) as (runs & E & L & HR).
  - intros k s ->. unfold many_closure. destruct (ri_jobs_ok v e imp page len k H l P) as (jobs & xs & E & EJ & F). rewrite E. cbn [bind].
    destruct (batch_hashes v e imp xs Su) as (jobs0 & jobs' & c & hs & EJ' & _ & EH & ET & HH).
    rewrite EJ' in EJ. injection EJ as ->. rewrite EH. cbn [bind]. rewrite ET. cbn [bind].
    exists (xs, hs), (map (fun '(m, perm) => spun page perm m len (k + 1)) l). split; [reflexivity|]. split; [|reflexivity].
    split; [|exact HH]. clear - F. induction F as [|[m perm] x l xs (A & _) _ IH]; constructor; auto.
  - reflexivity.
  - exists runs. split; [exact E|]. split; [exact L|]. apply Forall_forall. intros r I. apply In_nth_error in I as (i & I). exact (HR i _ I).
Qed.
