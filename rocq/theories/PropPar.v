(** Properties of BLAKE2bp and BLAKE2sp (for [V2b]: blake2bp, for [V2s]: blake2sp).

    Vocabulary: Spec.blake2p is the published 4-way / 8-way tree hash,
    [pconfigure] what a list of settings means, [plive v e s] (Runs.v) says that
    a program can have the State [s]. *)
From Coq Require Import String Ascii.
From Coq Require Import Arith NArith List Bool Lia.
From Coq Require Import Init.Byte.
From Verif Require Import Base Guts KernelSpec Impl Lib Many Par.
From Verif Require Import Spec ApiSpec Machine History Words.
From Verif Require Import Loops Api Runs Laws ParLaws Demo.
Import ListNotations.
Open Scope list_scope.
Open Scope N_scope.
Local Notation length := List.length.

Local Notation pconfig_of v ss := (pconfigure (fl v) ss (pdefault_config (fl v))).

(** ** C14 *)
Theorem C14_parallel_hash_is_standard (v : variant) (e : env) (imp : platform) (ss : list psetting) (m : list byte) :
  supported e imp ->
  exists h, p_hash v e (pbuild v imp ss) m = Ret h /\
    let c := pconfig_of v ss in
    as_bytes h = Ret (blake2p (fl v) (pc_hash_length c) (pc_key c) m).
Proof. exact (phash_is_digest v e imp ss m). Qed.
Print Assumptions C14_parallel_hash_is_standard.
Theorem C14_one_shot (v : variant) (e : env) (imp : platform) (m : list byte) :
  supported e imp ->
  exists h, blake2p_default v e imp m = Ret h /\ as_bytes h = Ret (blake2p (fl v) (max_out (fl v)) [] m).
Proof. intros S. exact (phash_is_digest v e imp [] m S). Qed.
Print Assumptions C14_one_shot.
Example C14_example : pc_hash_length (pconfig_of V2b demo_psettings) = 20%nat /\
  pc_key (pconfig_of V2b demo_psettings) = demo_msg 7.
Proof. split; reflexivity. Qed.

(** ** C15 *)
Theorem C15_parallel_incremental_is_one_shot (v : variant) (e : env) (imp : platform) (ss : list psetting)
    (chunks : list (list byte)) :
  supported e imp ->
  exists s0 s, p_to_state v (pbuild v imp ss) = Ret s0 /\ p_update_all v e s0 chunks = Ret s /\
    p_finalize v e s = p_hash v e (pbuild v imp ss) (concat chunks).
Proof. exact (p_incremental_is_hash v e imp ss chunks). Qed.
Print Assumptions C15_parallel_incremental_is_one_shot.
(** At any point of any history: updates, writes, finalize, count and Debug in any order. *)
Theorem C15_any_history (v : variant) (e : env) (imp : platform) (ss : list psetting) (pre post : list op) :
  supported e imp ->
  let c := pconfig_of v ss in
  exists s0, p_to_state v (pbuild v imp ss) = Ret s0 /\
    nth_error (watch (do_pop v e) s0 (pre ++ DoFinalize :: post)) (length pre) =
    Some (Bytes (blake2p (fl v) (pc_hash_length c) (pc_key c) (fed pre))).
Proof. intros S. exact (phistory_shows v e imp ss pre DoFinalize post S). Qed.
Print Assumptions C15_any_history.
Example C15_example : concat [demo_msg 130; []; demo_msg 900] = demo_msg 130 ++ demo_msg 900 /\
  length (fed demo_history) = 558%nat.
Proof. split; reflexivity. Qed.

(** ** C16 *)
Theorem C16_parallel_count (v : variant) (e : env) (imp : platform) (ss : list psetting) (pre post : list op) :
  supported e imp ->
  let range := match fl v with F2b => 2 ^ 128 | F2s => 2 ^ 64 end in
  let key_bytes := match fl v with F2b => 4 * 128 | F2s => 8 * 64 end in
  let keyed := negb (Nat.eqb (length (pc_key (pconfig_of v ss))) 0) in
  let n := N.of_nat (length (fed pre)) in
  exists s0, p_to_state v (pbuild v imp ss) = Ret s0 /\
  nth_error (watch (do_pop v e) s0 (pre ++ DoCount :: post)) (length pre) =
  Some (if e_dbg e && keyed && N.ltb ((key_bytes + n) mod range) key_bytes
        then Panicked
        else Number (n mod range)).
Proof. exact (p_count_is_bytes_fed v e imp ss pre post). Qed.
Print Assumptions C16_parallel_count.
Theorem C16_parallel_count_exact (v : variant) (e : env) (imp : platform) (ss : list psetting) (pre post : list op) :
  supported e imp -> N.of_nat (length (fed pre)) < 2 ^ 63 ->
  exists s0, p_to_state v (pbuild v imp ss) = Ret s0 /\
  nth_error (watch (do_pop v e) s0 (pre ++ DoCount :: post)) (length pre) =
  Some (Number (N.of_nat (length (fed pre)))).
Proof. exact (p_count_exact v e imp ss pre post). Qed.
Print Assumptions C16_parallel_count_exact.
Example C16_example : N.of_nat (length (fed demo_history)) = 558.
Proof. reflexivity. Qed.

(** ** C10 for the parallel functions *)
Theorem C10_parallel_returns (v : variant) (e : env) (imp : platform) (ss : list psetting) (m : list byte) (s : pstate) :
  supported e imp -> plive v e s ->
  (exists h, p_hash v e (pbuild v imp ss) m = Ret h) /\
  exists s' h, p_update v e s m = Ret s' /\ p_finalize v e s = Ret h.
Proof.
  intros S L. split; [|exact (plive_returns v e s m L)].
  destruct (phash_is_digest v e imp ss m S) as (h & E & _). eauto.
Qed.
Print Assumptions C10_parallel_returns.

(** ** C23 for the parallel functions *)
Theorem C23_parallel_length (v : variant) (e : env) (imp : platform) (ss : list psetting) (m : list byte) :
  supported e imp ->
  exists h bytes, p_hash v e (pbuild v imp ss) m = Ret h /\ as_bytes h = Ret bytes /\
    length bytes = pc_hash_length (pconfig_of v ss) /\
    (1 <= length bytes <= max_out (fl v))%nat /\ length (h_bytes h) = max_out (fl v).
Proof. exact (p_hash_length_ok v e imp ss m). Qed.
Print Assumptions C23_parallel_length.
Theorem C23_parallel_states (v : variant) (e : env) (s : pstate) : plive v e s ->
  exists h bytes, p_finalize v e s = Ret h /\ as_bytes h = Ret bytes /\
    length bytes = N.to_nat (ps_hash_length s) /\
    (1 <= length bytes <= max_out (fl v))%nat /\ length (h_bytes h) = max_out (fl v).
Proof. exact (plive_length v e s). Qed.
Print Assumptions C23_parallel_states.
Example C23_parallel_example v dbg : exists s0, p_to_state v (pbuild v AVX2 demo_psettings) = Ret s0 /\
  plive v (demo_env dbg) (after (do_pop v (demo_env dbg)) s0 demo_history).
Proof.
  destruct (phistory_shows v (demo_env dbg) AVX2 demo_psettings [] DoCount [] (demo_supported _ _)) as (s0 & E & _).
  exists s0. split; [exact E|]. apply plive_after. eapply plive_new; [apply (demo_supported dbg AVX2)|exact E].
Qed.

(** ** C31: the same tree built by a caller from Params and State.  The leaves
    contribute all OUTBYTES bytes, which as_array gives for full-length hashes,
    and in release builds for all.  (With a key the root's parameter block
    carries the key length while no key block is hashed; Params has no such
    setting, so the property is about unkeyed hashes.) *)
Theorem C31_tree_by_hand (v : variant) (e : env) (imp imp' : platform) (n : nat) (msg : list byte)
    (chunks : nat -> list (list byte)) :
  supported e imp -> supported e imp' -> (1 <= n <= max_out (fl v))%nat ->
  n = max_out (fl v) \/ e_dbg e = false ->
  (forall i, (i < leaves (fl v))%nat -> concat (chunks i) = leaf_message (fl v) i msg) ->
  exists leaf_hashes h,
    mapM (fun i => do h <- node_state v e imp (leaf_settings (fl v) n i) (chunks i); as_array v e h)
      (seq 0 (leaves (fl v))) = Ret leaf_hashes /\
    node_state v e imp (root_settings (fl v) n) leaf_hashes = Ret h /\
    p_hash v e (pbuild v imp' [PHashLength n]) msg = Ret h.
Proof. exact (tree_by_hand v e imp imp' n msg chunks). Qed.
Print Assumptions C31_tree_by_hand.
(** A caller that deals out the blocks of 700 bytes to 4 leaves. *)
Example C31_example : let msg := demo_msg 700 in
  let chunks i := if Nat.eqb i 0 then [firstn 128 msg; skipn 512 (firstn 640 msg)]
                  else if Nat.eqb i 1 then [firstn 128 (skipn 128 msg); skipn 640 msg]
                  else [firstn 128 (skipn (128 * i) msg)] in
  forall i, (i < leaves F2b)%nat -> concat (chunks i) = leaf_message F2b i msg.
Proof.
  cbv zeta. intros i Hi. cbn in Hi. destruct i as [|[|[|[|i]]]]; [..|lia]; reflexivity.
Qed.

(** ** C32 for the parallel functions: equal bytes fed, equal behaviour *)
Theorem C32_parallel_no_stale_bytes (v : variant) (e : env) (imp imp' : platform) (ss : list psetting)
    (ops ops' more : list op) :
  supported e imp -> supported e imp' -> fed ops = fed ops' ->
  exists s s', p_to_state v (pbuild v imp ss) = Ret s /\ p_to_state v (pbuild v imp' ss) = Ret s' /\
  watch (do_pop v e) (after (do_pop v e) s ops) more =
  watch (do_pop v e) (after (do_pop v e) s' ops') more.
Proof. exact (p_no_stale_bytes v e imp imp' ss ops ops' more). Qed.
Print Assumptions C32_parallel_no_stale_bytes.
Example C32_parallel_example : fed demo_history = fed [DoUpdate (demo_msg 130 ++ demo_msg 300); DoFinalize; DoWrite (demo_msg 128)].
Proof. reflexivity. Qed.
