(** C58: what the objects that an interrupted batch has left half way give away.

    Vocabulary: CasualtySpec.v ([midstate]: the chaining value after the key's
    block and some blocks of a message; [cut_digest]: a digest with blocks left
    out; [go_on]: the digest of data of which the chaining value half way is
    known, computed without key or parameters) and, from Crashes.v,
    [panics_after l]: the caller's iterator gives the items [l] and panics. *)
From Coq Require Import Arith NArith List Bool Lia.
From Coq Require Import Init.Byte.
From Verif Require Import Base Guts KernelSpec Simd Impl Sched Lib Many.
From Verif Require Import Spec ApiSpec Machine History CasualtySpec.
From Verif Require Import Loops LaneLoops StateProof ParamsProof FedProof ManyProof Api ApiProof Runs BatchProof Demo Unwind Crashes UnwindProof CasualtyProof SplicedProof.
Import ListNotations.
Open Scope N_scope.

(** ** HashManyJobs *)
(** After an interrupted hash_many every job that the iterator gave out has the
    hash of its input, except for fewer than degree() of them.  Those hand out,
    with no panic in any build, the internal chaining value after some of their
    blocks. *)
Theorem C58_jobs_left_half_way (v : variant) (e : env) (reqs : list request) (l : list (nat * unit)) :
  Forall (askable e) reqs -> exclusive (length reqs) l ->
  exists jobs left hurt, mapM (make_job v e) reqs = Ret jobs /\
    hash_many_unwinding v e jobs (panics_after l) = Unwound left /\
    length left = length reqs /\ NoDup hurt /\ (length hurt < lanes v hj_imp jobs l)%nat /\
    (forall i, In i hurt -> In i (map fst l)) /\
    forall i imp ss msg j, nth_error reqs i = Some (imp, ss, msg) -> nth_error left i = Some j ->
      let c := configure (fl v) ss (default_config (fl v)) in
      (In i (map fst l) -> ~ In i hurt ->
         exists h, to_hash v e j = Ret h /\ as_bytes h = Ret (digest (fl v) c msg)) /\
      (In i hurt -> exists k h, (k = 0%nat \/ (k * block_len (fl v) < length msg)%nat) /\
         to_hash v e j = Ret h /\
         as_bytes h = Ret (firstn (N.to_nat (digest_length (c_params c))) (words_to_bytes (fl v) (midstate (fl v) c msg k)))).
Proof.
  intros A X. destruct (hash_casualties v e reqs l A X) as (jobs & left & hurt & E & U & L & ND & K & IN & H).
  exists jobs, left, hurt. do 6 (split; [assumption|]). intros i imp ss msg j Hr Hj. cbv zeta.
  assert (AR : askable e (imp, ss, msg)) by (rewrite Forall_forall in A; apply A; eapply nth_error_In; eauto).
  destruct (H i _ j Hr Hj) as [H1 H2]. split.
  - intros I NI. rewrite (H1 I NI), (hash_alone_spec v e _ AR). eexists. split; [reflexivity|]. cbn [request_config request_msg].
    apply hash_value_bytes, build_wf, AR.
  - intros I. destruct (H2 I) as (k & Hk & T). exists k. eexists. split; [exact Hk|]. split; [exact T|].
    unfold as_bytes. cbn [h_bytes h_len request_config request_msg]. apply slice0_ok.
    unfold midstate. rewrite absorb_chain, <- words_to_bytes_eq, words_to_bytes_length
      by (apply chain_ok, initial_state_ok).
    pose proof (wf_digest _ _ (build_wf v ss (proj2 AR))) as DL. rewrite max_out_fl in DL. lia.
Qed.
Print Assumptions C58_jobs_left_half_way.

(** With a digest of full length that value is enough to compute the digest of
    every message that begins with the same blocks: nothing on the right of the
    equation depends on the key or the parameters. *)
Theorem C58_length_extension (v : variant) (ss : list setting) (msg : list byte) (k : nat) (z : list byte) :
  Forall typed ss ->
  let c := configure (fl v) ss (default_config (fl v)) in
  digest_length (c_params c) = N.of_nat (max_out (fl v)) ->
  (k * block_len (fl v) <= length msg)%nat -> z <> [] ->
  digest (fl v) c (firstn (k * block_len (fl v)) msg ++ z) =
  go_on (fl v) (words_to_bytes (fl v) (midstate (fl v) c msg k)) ((key_blocks c + k) * block_len (fl v)) z (c_last_node c).
Proof. intros T c. apply digest_goes_on, build_wf, T. Qed.
Print Assumptions C58_length_extension.

(** So whoever sees the bytes that one job left half way hands out can forge
    the (keyed) hash of every extension of its first blocks. *)
Theorem C58_forgery (v : variant) (e : env) (reqs : list request) (l : list (nat * unit)) :
  Forall (askable e) reqs -> exclusive (length reqs) l ->
  exists jobs left hurt, mapM (make_job v e) reqs = Ret jobs /\
    hash_many_unwinding v e jobs (panics_after l) = Unwound left /\
    forall i imp ss msg j, nth_error reqs i = Some (imp, ss, msg) -> nth_error left i = Some j ->
      let c := configure (fl v) ss (default_config (fl v)) in
      (In i (map fst l) -> ~ In i hurt -> to_hash v e j = hash_alone v e (imp, ss, msg)) /\
      (In i hurt -> digest_length (c_params c) = N.of_nat (max_out (fl v)) ->
       exists h leak k, to_hash v e j = Ret h /\ as_bytes h = Ret leak /\ (k * block_len (fl v) <= length msg)%nat /\
         forall z, z <> [] ->
           digest (fl v) c (firstn (k * block_len (fl v)) msg ++ z) =
           go_on (fl v) leak ((key_blocks c + k) * block_len (fl v)) z (c_last_node c)).
Proof.
  intros A X. destruct (C58_jobs_left_half_way v e reqs l A X) as (jobs & left & hurt & E & U & L & ND & K & IN & H).
  destruct (hash_casualties v e reqs l A X) as (jobs' & left' & hurt' & E' & U' & _ & _ & _ & _ & H').
  rewrite E' in E. injection E as <-. rewrite U' in U. injection U as <-.
  exists jobs', left', hurt'. split; [exact E'|]. split; [exact U'|]. intros i imp ss msg j Hr Hj c. split.
  - apply (H' i _ j Hr Hj).
  - intros I DL. assert (AR : askable e (imp, ss, msg)) by (rewrite Forall_forall in A; apply A; eapply nth_error_In; eauto).
    destruct (proj2 (H' i _ j Hr Hj) I) as (k & Hk & T). cbn [request_config request_msg] in T, Hk. fold c in T.
    eexists _, (words_to_bytes (fl v) (midstate (fl v) c msg k)), k. split; [exact T|].
    assert (OK : words_ok v (midstate (fl v) c msg k)) by (unfold midstate; rewrite absorb_chain; apply chain_ok, initial_state_ok).
    split; [|split].
    + unfold as_bytes. cbn [h_bytes h_len]. rewrite DL, Nat2N.id.
      assert (LL : length (words_to_bytes (fl v) (midstate (fl v) c msg k)) = max_out (fl v)).
      { rewrite max_out_fl, <- words_to_bytes_eq, words_to_bytes_length by exact OK. reflexivity. }
      rewrite slice0_ok by lia. rewrite <- LL at 1. rewrite firstn_all. reflexivity.
    + destruct Hk as [->|Hk]; [cbn; lia|lia].
    + intros z NE. apply C58_length_extension; auto; [apply AR|]. destruct Hk as [->|Hk]; [cbn; lia|lia].
Qed.
Print Assumptions C58_forgery.

(** It does happen, on every SIMD implementation, with one job whose iterator
    panics when asked for a second one: what the job then hands out is all that
    is needed for the hash of any message at all under the same key. *)
Theorem C58_one_job_gives_the_key_away (v : variant) (e : env) (imp : platform) (ss : list setting) (msg : list byte) :
  supported e imp -> Forall typed ss -> (2 <= degree v imp)%nat ->
  let c := configure (fl v) ss (default_config (fl v)) in
  (c_key c = [] \/ msg <> []) -> digest_length (c_params c) = N.of_nat (max_out (fl v)) ->
  exists j j' h leak, make_job v e (imp, ss, msg) = Ret j /\
    hash_many_unwinding v e [j] (panics_after [(0%nat, tt)]) = Unwound [j'] /\
    to_hash v e j' = Ret h /\ as_bytes h = Ret leak /\
    forall z, z <> [] -> digest (fl v) c z = go_on (fl v) leak (key_blocks c * block_len (fl v)) z (c_last_node c).
Proof.
  intros S T D c NB DL. destruct (one_job_leaks v e imp ss msg (conj S T) D NB) as (j & j' & E & U & TH). fold c in TH.
  exists j, j'. eexists _, (words_to_bytes (fl v) (midstate (fl v) c msg 0)). split; [exact E|]. split; [exact U|]. split; [exact TH|].
  assert (OK : words_ok v (midstate (fl v) c msg 0)) by (unfold midstate; rewrite absorb_chain; apply chain_ok, initial_state_ok).
  split.
  - unfold as_bytes. cbn [h_bytes h_len]. rewrite DL, Nat2N.id.
    assert (LL : length (words_to_bytes (fl v) (midstate (fl v) c msg 0)) = max_out (fl v)).
    { rewrite max_out_fl, <- words_to_bytes_eq, words_to_bytes_length by exact OK. reflexivity. }
    rewrite slice0_ok by lia. rewrite <- LL at 1. rewrite firstn_all. reflexivity.
  - intros z NE. pose proof (C58_length_extension v ss msg 0 z T DL ltac:(cbn; lia) NE) as LE. fold c in LE.
    cbn [Nat.mul firstn app] in LE. rewrite Nat.add_0_r in LE. exact LE.
Qed.
Print Assumptions C58_one_job_gives_the_key_away.

(** The same bytes come out of a job that has not been run at all, in a build
    without debug assertions; with them, to_hash panics. *)
Theorem C58_job_never_run (v : variant) (e : env) (imp : platform) (ss : list setting) (msg : list byte) :
  supported e imp -> Forall typed ss ->
  let c := configure (fl v) ss (default_config (fl v)) in
  (c_key c = [] \/ msg <> []) ->
  exists j, make_job v e (imp, ss, msg) = Ret j /\
    (e_dbg e = true -> to_hash v e j = Panic) /\
    (e_dbg e = false -> digest_length (c_params c) = N.of_nat (max_out (fl v)) ->
       exists h leak, to_hash v e j = Ret h /\ as_bytes h = Ret leak /\
       forall z, z <> [] -> digest (fl v) c z = go_on (fl v) leak (key_blocks c * block_len (fl v)) z (c_last_node c)).
Proof.
  intros S T c NB. pose proof (build_wf v ss T) as W. fold c in W.
  cbn [make_job]. rewrite build_spec. fold c.
  destruct (job_new_spec v e imp c msg) as (j & EJ & IM & _ & PC & FN); auto.
  rewrite EJ. exists j. split; [reflexivity|].
  assert (F : hj_finished j = false).
  { rewrite FN. unfold keyed. destruct NB as [->|NE]; [reflexivity|]. destruct msg; [congruence|]. apply andb_false_r. }
  destruct PC as [P|P]; [|rewrite (cj_fin _ _ _ _ _ P) in F; discriminate].
  unfold to_hash. rewrite F. split; [intros ->; reflexivity|]. intros -> DL. cbn [debug_assert bind].
  assert (OK : words_ok v (midstate (fl v) c msg 0)) by (unfold midstate; rewrite absorb_chain; apply chain_ok, initial_state_ok).
  rewrite words_to_bytes_eq by apply P. rewrite (proj1 (pending_start v e c msg j P)), (pj_len _ _ _ _ _ P).
  eexists _, (words_to_bytes (fl v) (midstate (fl v) c msg 0)). split; [reflexivity|]. split.
  - unfold as_bytes. cbn [h_bytes h_len]. rewrite DL, Nat2N.id.
    assert (LL : length (words_to_bytes (fl v) (midstate (fl v) c msg 0)) = max_out (fl v)).
    { rewrite max_out_fl, <- words_to_bytes_eq, words_to_bytes_length by exact OK. reflexivity. }
    unfold midstate in *. rewrite absorb_chain, Nat.add_0_r in *. rewrite slice0_ok by lia. rewrite <- LL at 1. rewrite firstn_all. reflexivity.
  - intros z NE. pose proof (C58_length_extension v ss msg 0 z T DL ltac:(cbn; lia) NE) as LE. fold c in LE.
    cbn [Nat.mul firstn app] in LE. rewrite Nat.add_0_r in LE. exact LE.
Qed.
Print Assumptions C58_job_never_run.

(** A job left half way stays so: no later batch, complete or interrupted, touches
    a job that an interrupted batch was given. *)
Theorem C58_jobs_stay (v : variant) (e : env) (jobs left : list hash_many_job) (l l' : list (nat * unit)) :
  Forall (handled_job v e) jobs -> exclusive (length jobs) l -> exclusive (length jobs) l' ->
  hash_many_unwinding v e jobs (panics_after l) = Unwound left ->
  exists again interrupted, hash_many v e left (ends_after l') = Ret (again, S (length l')) /\
    hash_many_unwinding v e left (panics_after l') = Unwound interrupted /\
    forall i, In i (map fst l) -> nth_error again i = nth_error left i /\ nth_error interrupted i = nth_error left i.
Proof. intros H X X' U. exact (jobs_stay v e jobs l left H X U l' X'). Qed.
Print Assumptions C58_jobs_stay.

Definition demo_key_settings : list setting := [Key (demo_msg 7)].
Example C58_job_example (v : variant) :
  let c := configure (fl v) demo_key_settings (default_config (fl v)) in
  supported (demo_env true) AVX2 /\ Forall typed demo_key_settings /\ (2 <= degree v AVX2)%nat /\
  c_key c = demo_msg 7 /\ key_blocks c = 1%nat /\ digest_length (c_params c) = N.of_nat (max_out (fl v)).
Proof. split; [apply demo_supported|]. split; [repeat constructor|]. destruct v; cbn; repeat split; lia. Qed.
Example C58_batch_example (v : variant) :
  let reqs := [(AVX2, demo_key_settings, demo_msg 300); (Portable, [], []); (SSE41, [], demo_msg 5)] in
  Forall (askable (demo_env true)) reqs /\ exclusive (length reqs) [(2, tt); (0, tt)]%nat.
Proof.
  cbv zeta. split.
  - repeat constructor; try apply demo_supported.
  - split; [repeat constructor; cbn; intuition discriminate|]. intros r x H. cbn in H.
    destruct H as [H|[H|[]]]; injection H as <- <-; cbn; lia.
Qed.
(** The hash of a message, from the leaked bytes. *)
Check (ltac:(vm_compute; reflexivity) :
  let c := configure F2s demo_key_settings (default_config F2s) in
  go_on F2s (words_to_bytes F2s (midstate F2s c [] 0)) 64 (demo_msg 100) false = digest F2s c (demo_msg 100)).
(** ** States *)
(** After an interrupted update_many every State that the iterator gave out goes
    on as if it had been fed its input, except for fewer than degree() of them.
    A State left half way, if it is finalized next, shows a hash in which whole
    blocks of the new input, the last block never among them, have been left out. *)
Theorem C58_states_left_half_way (v : variant) (e : env) (us : list used) (l : list (nat * list byte)) :
  Forall (usable e) us -> exclusive (length us) l ->
  exists left hurt, update_many_unwinding v e (map (use v e) us) (panics_after l) = Unwound left /\
    length left = length us /\ NoDup hurt /\ (length hurt < lanes v s_imp (map (use v e) us) l)%nat /\
    (forall i, In i hurt -> In i (map fst l)) /\
    forall i imp ss pre x s, nth_error us i = Some (imp, ss, pre) -> In (i, x) l -> nth_error left i = Some s ->
      let c := flagged (configure (fl v) ss (default_config (fl v))) pre in
      let shown := snd (do_op v e s DoFinalize) in
      (~ In i hurt -> shown = Bytes (digest (fl v) c (fed pre ++ x))) /\
      (In i hurt -> exists k,
         (length (data (fl v) (c_key c) (fed pre)) <= k * block_len (fl v))%nat /\
         (k + 1 < num_blocks (fl v) (data (fl v) (c_key c) (fed pre ++ x)))%nat /\
         shown = Bytes (cut_digest (fl v) c (fed pre ++ x) k)).
Proof.
  intros A X. destruct (update_casualties v e us l A X) as (left & hurt & U & L & ND & K & IN & H).
  exists left, hurt. do 5 (split; [assumption|]). intros i imp ss pre x s Hu Hx Hs.
  exact (H i (imp, ss, pre) x s Hu Hx Hs).
Qed.
Print Assumptions C58_states_left_half_way.

(** The damage stays, whatever is done later: from every later hash the same
    blocks are missing.  Nothing else shows it: every other call shows what it
    would show had the State been fed its input. *)
Theorem C58_damage_stays (v : variant) (e : env) (us : list used) (l : list (nat * list byte)) :
  Forall (usable e) us -> exclusive (length us) l ->
  exists left hurt, update_many_unwinding v e (map (use v e) us) (panics_after l) = Unwound left /\
    length left = length us /\ NoDup hurt /\ (length hurt < lanes v s_imp (map (use v e) us) l)%nat /\
    (forall i, In i hurt -> In i (map fst l)) /\
    forall i imp ss pre x s, nth_error us i = Some (imp, ss, pre) -> In (i, x) l -> nth_error left i = Some s ->
      let c := configure (fl v) ss (default_config (fl v)) in
      let so_far := pre ++ [DoUpdate x] in
      let before := data (fl v) (c_key c) (fed pre) in
      let d := data (fl v) (c_key c) (fed so_far) in
      (~ In i hurt -> forall post o,
         snd (do_op v e (after (do_op v e) s post) o) = shown (fl v) (e_dbg e) c (so_far ++ post) o) /\
      (In i hurt -> exists k b,
         (length before <= k * block_len (fl v))%nat /\ (k < b)%nat /\
         (b * block_len (fl v) < length d)%nat /\ (b + 1 = num_blocks (fl v) d)%nat /\
         forall post,
           (forall o, o <> DoFinalize ->
              snd (do_op v e (after (do_op v e) s post) o) = shown (fl v) (e_dbg e) c (so_far ++ post) o) /\
           snd (do_op v e (after (do_op v e) s post) DoFinalize) =
             Bytes (spliced_digest (fl v) (flagged c (so_far ++ post)) (fed (so_far ++ post)) k b)).
Proof. exact (states_go_on v e us l). Qed.
Print Assumptions C58_damage_stays.

(** What [spliced_digest] is if no block is left out, and if all of the rest but the last block is. *)
Theorem C58_spliced (f : flavour) (c : config) (msg : list byte) (k : nat) :
  let last := (num_blocks f (data f (c_key c) msg) - 1)%nat in
  (k <= last)%nat -> spliced_digest f c msg k k = digest f c msg /\ spliced_digest f c msg k last = cut_digest f c msg k.
Proof.
  intros last K. split.
  - unfold spliced_digest, digest, blake2, hash_words, absorb. cbv zeta. fold last. rewrite <- fold_left_app, <- seq_app.
    replace (k + (last - k))%nat with last by lia. reflexivity.
  - unfold spliced_digest, cut_digest. cbv zeta. fold last. rewrite Nat.sub_diag. reflexivity.
Qed.
Print Assumptions C58_spliced.

(** Leaving out no block gives the digest. *)
Theorem C58_cut_nothing (f : flavour) (c : config) (msg : list byte) :
  cut_digest f c msg (num_blocks f (data f (c_key c) msg) - 1) = digest f c msg.
Proof. reflexivity. Qed.
Print Assumptions C58_cut_nothing.

(** It does happen: a new State, an input of more than a block, and an iterator
    that panics when asked for a second item.  The whole input but for its last
    block is left out of the hash. *)
Theorem C58_one_state_forgets (v : variant) (e : env) (imp : platform) (ss : list setting) (x : list byte) :
  supported e imp -> Forall typed ss -> (2 <= degree v imp)%nat -> (block_len (fl v) < length x)%nat ->
  let c := configure (fl v) ss (default_config (fl v)) in
  exists s, update_many_unwinding v e [to_state v (build v imp ss)] (panics_after [(0%nat, x)]) = Unwound [s] /\
    snd (do_op v e s DoFinalize) = Bytes (cut_digest (fl v) c x (key_blocks c)).
Proof. intros S T D L. exact (one_state_cut v e imp ss x S T D L). Qed.
Print Assumptions C58_one_state_forgets.

(** So different inputs get the same hash: all those of one length with the same last bytes. *)
Theorem C58_one_state_collides (v : variant) (e : env) (imp : platform) (ss : list setting) (a b z : list byte) :
  supported e imp -> Forall typed ss -> (2 <= degree v imp)%nat ->
  length a = length b -> (exists n, length a = (S n * block_len (fl v))%nat) -> z <> [] ->
  exists s t, 
    update_many_unwinding v e [to_state v (build v imp ss)] (panics_after [(0%nat, a ++ z)]) = Unwound [s] /\
    update_many_unwinding v e [to_state v (build v imp ss)] (panics_after [(0%nat, b ++ z)]) = Unwound [t] /\
    snd (do_op v e s DoFinalize) = snd (do_op v e t DoFinalize) /\
    exists h, snd (do_op v e s DoFinalize) = Bytes h.
Proof.
  intros S T D LL [n La] NE. rewrite block_len_fl in La.
  assert (B : forall y, length y = length a -> (block_len (fl v) < length (y ++ z))%nat).
  { intros y Ly. rewrite app_length, Ly, La, block_len_fl. destruct z; [congruence|]. cbn [length]. lia. }
  destruct (C58_one_state_forgets v e imp ss (a ++ z) S T D (B a eq_refl)) as (s & U1 & E1).
  destruct (C58_one_state_forgets v e imp ss (b ++ z) S T D (B b (eq_sym LL))) as (t & U2 & E2).
  exists s, t. split; [exact U1|]. split; [exact U2|]. rewrite E1, E2. split; [|eexists; reflexivity].
  f_equal. apply (cut_digest_tail v _ a b z (Datatypes.S n)); auto. apply build_wf, T.
Qed.
Print Assumptions C58_one_state_collides.

Example C58_state_example (v : variant) :
  let a := demo_msg (block_len (fl v)) in let b := repeat x00 (block_len (fl v)) in
  supported (demo_env true) AVX2 /\ Forall typed demo_key_settings /\ (2 <= degree v AVX2)%nat /\
  length a = length b /\ (exists n, length a = (S n * block_len (fl v))%nat) /\ a <> b /\ demo_msg 3 <> [].
Proof.
  cbv zeta. split; [apply demo_supported|]. split; [repeat constructor|]. destruct v; (split; [cbn; lia|]).
  all: split; [reflexivity|]; split; [exists 0%nat; reflexivity|]; split; discriminate.
Qed.
Example C58_used_example (v : variant) :
  let us := [(AVX2, demo_key_settings, demo_history); (Portable, [], []); (SSE41, demo_settings, [DoUpdate (demo_msg 5)])] in
  Forall (usable (demo_env true)) us /\ exclusive (length us) [(0%nat, demo_msg 1000); (2%nat, demo_msg 700)].
Proof.
  cbv zeta. split.
  - repeat constructor; try apply demo_supported.
  - split; [repeat constructor; cbn; intuition discriminate|]. intros r x H. cbn [In] in H.
    destruct H as [H|[H|[]]]; injection H as <- _; cbn; lia.
Qed.
