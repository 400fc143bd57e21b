(** Properties of hashing with Params, State and Hash.

    Vocabulary: Spec.v (BLAKE2 as published), ApiSpec.v (what settings mean),
    History.v (call histories of a State), Words.v and Calls.v.  The model of
    the code: Lib.v, with Api.build running the setters.  [supported e imp]
    says that the CPU [e] has the instructions that back end [imp] needs. *)
From Coq Require Import String Ascii.
From Coq Require Import Arith NArith List Bool Lia.
From Coq Require Import Init.Byte.
From Verif Require Import Base Guts KernelSpec Impl Lib Many Par.
From Verif Require Import Spec ApiSpec Machine History Calls Words.
From Verif Require Import Loops Api Runs Laws InjProof BatchProof Demo.
From Verif Require ParamsProof FedProof HistoryProof ApiProof.
Import ListNotations.
Open Scope list_scope.
Open Scope N_scope.
Local Notation length := List.length.

(** The configuration that a list of settings describes. *)
Local Notation config_of v ss := (configure (fl v) ss (default_config (fl v))).
Local Notation pconfig_of v ss := (pconfigure (fl v) ss (pdefault_config (fl v))).

(** ** C01 *)
Theorem C01_one_shot_is_blake2 (v : variant) (e : env) (imp : platform) (m : list byte) :
  supported e imp ->
  exists h, blake2_default v e imp m = Ret h /\
    as_bytes h = Ret (rfc7693 (fl v) (max_out (fl v)) [] m).
Proof. intros S. exact (hash_is_digest v e imp [] m S (Forall_nil _)). Qed.
Print Assumptions C01_one_shot_is_blake2.
Example C01_example : exists h, blake2_default V2b (demo_env true) AVX2 (demo_msg 1000) = Ret h /\
    as_bytes h = Ret (rfc7693 F2b 64 [] (demo_msg 1000)).
Proof. exact (C01_one_shot_is_blake2 V2b (demo_env true) AVX2 (demo_msg 1000) (demo_supported _ _)). Qed.

(** ** C02 *)
Theorem C02_parameters_have_their_meaning (v : variant) (e : env) (imp : platform)
    (ss : list setting) (m : list byte) :
  supported e imp -> Forall typed ss ->
  exists h, params_hash v e (build v imp ss) m = Ret h /\
    let c := config_of v ss in
    as_bytes h = Ret (blake2 (fl v) (c_params c) (c_key c) m (c_last_node c)).
Proof. exact (hash_is_digest v e imp ss m). Qed.
Print Assumptions C02_parameters_have_their_meaning.
Example C02_example :
  c_params (config_of V2s demo_settings) =
    {| digest_length := 20; key_length := 7; fanout := 2; depth := 3; leaf_length := 100000;
       node_offset := 281474976710655; node_depth := 1; inner_length := 32;
       salt := demo_msg 5; personal := demo_msg 8 |} /\
  c_key (config_of V2s demo_settings) = demo_msg 7 /\ c_last_node (config_of V2s demo_settings) = true /\
  exists h, params_hash V2s (demo_env true) (build V2s SSE41 demo_settings) (demo_msg 100) = Ret h.
Proof.
  repeat split.
  destruct (C02_parameters_have_their_meaning V2s (demo_env true) SSE41 demo_settings (demo_msg 100)
    (demo_supported _ _) demo_typed) as (h & E & _). eauto.
Qed.

(** ** C03 *)
Theorem C03_incremental_is_one_shot (v : variant) (e : env) (imp : platform)
    (ss : list setting) (chunks : list (list byte)) :
  supported e imp -> Forall typed ss ->
  exists s, update_all v e (to_state v (build v imp ss)) chunks = Ret s /\
    finalize v e s = params_hash v e (build v imp ss) (concat chunks).
Proof. exact (incremental_is_hash v e imp ss chunks). Qed.
Print Assumptions C03_incremental_is_one_shot.
Example C03_example : exists s,
  update_all V2b (demo_env false) (to_state V2b (build V2b SSE41 demo_settings))
    [demo_msg 1; []; demo_msg 127; demo_msg 128; demo_msg 1000] = Ret s.
Proof.
  destruct (C03_incremental_is_one_shot V2b (demo_env false) SSE41 demo_settings
    [demo_msg 1; []; demo_msg 127; demo_msg 128; demo_msg 1000] (demo_supported _ _) demo_typed) as (s & E & _). eauto.
Qed.

(** ** C04: whatever happened before ([pre]: updates, earlier finalizes and
    counts, flags) and whatever follows, a finalize shows the digest of all
    bytes fed before it; the other observers do not occur on the right. *)
Theorem C04_finalize_is_pure (v : variant) (e : env) (imp : platform) (ss : list setting) (pre post : list op) :
  supported e imp -> Forall typed ss ->
  nth_error (watch (do_op v e) (to_state v (build v imp ss)) (pre ++ DoFinalize :: post)) (length pre) =
  Some (Bytes (digest (fl v) (flagged (config_of v ss) pre) (fed pre))).
Proof. exact (history_shows v e imp ss pre DoFinalize post). Qed.
Print Assumptions C04_finalize_is_pure.
(** Leaving out observers changes no later observation. *)
Theorem C04_observers_leave_no_trace (v : variant) (e : env) (imp : platform) (ss : list setting)
    (pre obs post : list op) :
  supported e imp -> Forall typed ss ->
  (forall o, In o obs -> o = DoFinalize \/ o = DoCount \/ o = DoShow \/ o = DoFlush) ->
  let s := to_state v (build v imp ss) in
  watch (do_op v e) s (pre ++ obs ++ post) =
  watch (do_op v e) s pre ++ watch (do_op v e) (after (do_op v e) s pre) obs ++
  skipn (length pre) (watch (do_op v e) s (pre ++ post)).
Proof. exact (observers_leave_no_trace v e imp ss pre obs post). Qed.
Print Assumptions C04_observers_leave_no_trace.
Example C04_example : digest F2b (flagged (config_of V2b demo_settings) demo_history) (fed demo_history) =
  digest F2b (apply (LastNode false) (config_of V2b demo_settings)) (demo_msg 130 ++ demo_msg 300 ++ demo_msg 128).
Proof. reflexivity. Qed.

(** ** C05 *)
Theorem C05_last_node_any_time (v : variant) (e : env) (imp : platform) (ss : list setting) (pre post : list op) :
  supported e imp -> Forall typed ss ->
  let b := last_flag (c_last_node (config_of v ss)) pre in
  exists h, params_hash v e (build v imp (ss ++ [LastNode b])) (fed pre) = Ret h /\
  exists bytes, as_bytes h = Ret bytes /\
  nth_error (watch (do_op v e) (to_state v (build v imp ss)) (pre ++ DoFinalize :: post)) (length pre) =
  Some (Bytes bytes).
Proof. exact (last_node_any_time v e imp ss pre post). Qed.
Print Assumptions C05_last_node_any_time.
Example C05_example : last_flag true demo_history = false /\ last_flag false (demo_history ++ [DoSetLastNode true; DoUpdate (demo_msg 3)]) = true.
Proof. split; reflexivity. Qed.

(** ** C06 *)
Theorem C06_count_is_bytes_fed (v : variant) (e : env) (imp : platform) (ss : list setting) (pre post : list op) :
  supported e imp -> Forall typed ss ->
  let range := match fl v with F2b => 2 ^ 128 | F2s => 2 ^ 64 end in
  let block := match fl v with F2b => 128 | F2s => 64 end in
  let keyed := negb (Nat.eqb (length (c_key (config_of v ss))) 0) in
  let n := N.of_nat (length (fed pre)) in
  nth_error (watch (do_op v e) (to_state v (build v imp ss)) (pre ++ DoCount :: post)) (length pre) =
  Some (if e_dbg e && keyed && N.ltb ((block + n) mod range) block
        then Panicked
        else Number (n mod range)).
Proof. exact (count_is_bytes_fed v e imp ss pre post). Qed.
Print Assumptions C06_count_is_bytes_fed.
(** In particular it is exact, and does not panic, below the range. *)
Theorem C06_count_exact (v : variant) (e : env) (imp : platform) (ss : list setting) (pre post : list op) :
  supported e imp -> Forall typed ss ->
  N.of_nat (length (fed pre)) < 2 ^ 63 ->
  nth_error (watch (do_op v e) (to_state v (build v imp ss)) (pre ++ DoCount :: post)) (length pre) =
  Some (Number (N.of_nat (length (fed pre)))).
Proof. exact (count_exact v e imp ss pre post). Qed.
Print Assumptions C06_count_exact.
Example C06_example : N.of_nat (length (fed demo_history)) = 558.
Proof. reflexivity. Qed.
(** The debug panic does occur: some keyed history of 2^64 - 64 bytes. *)
Theorem C06_count_debug_panic (e : env) (imp : platform) (k : list byte) :
  supported e imp -> e_dbg e = true -> (0 < length k <= 32)%nat ->
  exists x, N.of_nat (length x) = 2 ^ 64 - 64 /\
  watch (do_op V2s e) (to_state V2s (build V2s imp [Key k])) [DoUpdate x; DoCount] = [Unit; Panicked].
Proof. exact (count_debug_panic e imp k). Qed.
Print Assumptions C06_count_debug_panic.

(** ** C17 *)
Theorem C17_setters_accept_the_documented_range (v : variant) (p : Lib.params) (s : setting) :
  (legal (fl v) s = true -> snd (call_setter v s p) = Ret tt) /\
  (legal (fl v) s = false -> call_setter v s p = (p, Panic)).
Proof. exact (conj (setter_accepts v s p) (setter_refuses v s p)). Qed.
Print Assumptions C17_setters_accept_the_documented_range.
Theorem C17_parallel_setters (v : variant) (p : pparams) (s : psetting) :
  (plegal (fl v) s = true -> snd (call_psetter v s p) = Ret tt) /\
  (plegal (fl v) s = false -> call_psetter v s p = (p, Panic)).
Proof. exact (conj (psetter_accepts v s p) (psetter_refuses v s p)). Qed.
Print Assumptions C17_parallel_setters.
Example C17_example : map (legal F2b) demo_settings =
  [true; true; false; false; false; true; true; false; true; true; true; true; true; true; true; false; true] /\
  legal F2s (NodeOffset (2 ^ 48)) = false /\ legal F2s (NodeOffset (2 ^ 48 - 1)) = true.
Proof. repeat split. Qed.

(** ** C18 *)
Theorem C18_last_value_wins (v : variant) (imp : platform) (ss ss' : list setting) :
  (forall k, last_accepted (fl v) k ss = last_accepted (fl v) k ss') ->
  build v imp ss = build v imp ss'.
Proof. exact (build_last v imp ss ss'). Qed.
Print Assumptions C18_last_value_wins.
Theorem C18_zero_padded (v : variant) (imp : platform) (ss : list setting) (s : list byte) (n : nat) :
  (length s + n <= salt_len (fl v))%nat ->
  build v imp (ss ++ [Salt (s ++ repeat x00 n)]) = build v imp (ss ++ [Salt s]) /\
  build v imp (ss ++ [Personal (s ++ repeat x00 n)]) = build v imp (ss ++ [Personal s]).
Proof. exact (fun H => conj (build_salt_padded v imp ss s n H) (build_personal_padded v imp ss s n H)). Qed.
Print Assumptions C18_zero_padded.
(** Calls for different settings may be made in either order. *)
Theorem C18_commute (v : variant) (imp : platform) (ss ss' : list setting) (a b : setting) :
  field_of a <> field_of b ->
  build v imp (ss ++ a :: b :: ss') = build v imp (ss ++ b :: a :: ss').
Proof.
  intros N. apply build_last. intros k. unfold last_accepted. rewrite !rev_app_distr. cbn [rev]. rewrite <- !app_assoc. cbn [app].
  assert (F : forall l x y r, same_field (field_of x) k && legal (fl v) x = false \/ same_field (field_of y) k && legal (fl v) y = false ->
    find (fun s => same_field (field_of s) k && legal (fl v) s) (l ++ x :: y :: r) =
    find (fun s => same_field (field_of s) k && legal (fl v) s) (l ++ y :: x :: r)).
  { intros l x y r H. induction l as [|z l IH]; cbn [app find].
    - destruct H as [-> | ->]; destruct (_ && _); reflexivity.
    - rewrite IH. reflexivity. }
  apply F. destruct (same_field (field_of b) k) eqn:B; [|now left]. destruct (same_field (field_of a) k) eqn:A; [|now right].
  exfalso. apply N. clear - A B. destruct (field_of a), (field_of b), k; (reflexivity || discriminate).
Qed.
Print Assumptions C18_commute.
(** BLAKE2bp and BLAKE2sp: the last accepted length and the last accepted key, or the defaults. *)
Theorem C18_parallel (v : variant) (imp : platform) (ss : list psetting) :
  let accepted := rev (filter (plegal (fl v)) ss) in
  let n := match find (fun s => negb (is_pkey s)) accepted with Some (PHashLength n) => n | _ => max_out (fl v) end in
  let k := match find is_pkey accepted with Some (PKey k) => k | _ => [] end in
  pbuild v imp ss = pbuild v imp [PHashLength n; PKey k].
Proof.
  cbv zeta. assert (G : pconfigure (fl v) ss (pdefault_config (fl v)) =
    {| pc_hash_length := match find (fun s => negb (is_pkey s)) (rev (filter (plegal (fl v)) ss)) with Some (PHashLength n) => n | _ => max_out (fl v) end;
       pc_key := match find is_pkey (rev (filter (plegal (fl v)) ss)) with Some (PKey k) => k | _ => [] end |}
    /\ forall s, In s (filter (plegal (fl v)) ss) -> plegal (fl v) s = true).
  { split; [|intros s I; now apply filter_In in I].
    induction ss as [|s ss IH] using rev_ind; [reflexivity|]. unfold pconfigure in *. rewrite fold_left_app, filter_app, rev_app_distr.
    cbn [fold_left filter]. rewrite IH. destruct (plegal (fl v) s); [|reflexivity]. destruct s; reflexivity. }
  destruct G as (G & L). rewrite !ApiProof.pbuild_spec, G.
  set (accepted := rev (filter (plegal (fl v)) ss)) in *.
  assert (L' : forall s, In s accepted -> plegal (fl v) s = true) by (intros s I; apply L; now apply in_rev).
  unfold pconfigure. cbn [fold_left].
  assert (A : plegal (fl v) (PHashLength match find (fun s => negb (is_pkey s)) accepted with Some (PHashLength n) => n | _ => max_out (fl v) end) = true).
  { destruct (find (fun s => negb (is_pkey s)) accepted) as [[n|k]|] eqn:F; [apply find_some in F; apply L', F| |]; destruct v; reflexivity. }
  assert (B : plegal (fl v) (PKey match find is_pkey accepted with Some (PKey k) => k | _ => [] end) = true).
  { destruct (find is_pkey accepted) as [[n|k]|] eqn:F; [|apply find_some in F; apply L', F|]; reflexivity. }
  rewrite A. rewrite B. reflexivity.
Qed.
Print Assumptions C18_parallel.
Example C18_example : forall k, last_accepted F2b k demo_settings =
  last_accepted F2b k [LastNode true; InnerHashLength 32; NodeDepth 1; NodeOffset 281474976710655; MaxLeafLength 100000; MaxDepth 3;
    Fanout 2; Personal (demo_msg 8); Salt (demo_msg 5); Key (demo_msg 7); HashLength 20].
Proof. intros []; reflexivity. Qed.
Example C18_parallel_example :
  filter (plegal F2s) [PKey (demo_msg 3); PHashLength 33; PHashLength 9; PKey (demo_msg 33); PKey (demo_msg 5)] =
  [PKey (demo_msg 3); PHashLength 9; PKey (demo_msg 5)] /\ field_of (Salt (demo_msg 3)) <> field_of (Personal (demo_msg 3)).
Proof. split; [reflexivity|discriminate]. Qed.

(** ** C19 *)
Theorem C19_empty_key_is_no_key (v : variant) (imp : platform) (ss : list setting) (pss : list psetting) :
  build v imp (ss ++ [Key []]) = build v imp (filter (fun s => negb (is_key s)) ss) /\
  pbuild v imp (pss ++ [PKey []]) = pbuild v imp (filter (fun s => negb (is_pkey s)) pss).
Proof. exact (conj (build_no_key v imp ss) (pbuild_no_key v imp pss)). Qed.
Print Assumptions C19_empty_key_is_no_key.
Theorem C19_key_is_one_leading_block (v : variant) (e : env) (imp : platform) (ss : list setting) (k m : list byte) :
  supported e imp -> Forall typed ss -> (0 < length k <= max_out (fl v))%nat ->
  let c := config_of v (ss ++ [Key k]) in
  exists h, params_hash v e (build v imp (ss ++ [Key k])) m = Ret h /\
    as_bytes h = Ret (firstn (N.to_nat (digest_length (c_params c))) (words_to_bytes (fl v)
      (hash_words (fl v) (initial_state (fl v) (c_params c))
         (k ++ repeat x00 (block_len (fl v) - length k) ++ m) (c_last_node c)))).
Proof. exact (key_is_one_leading_block v e imp ss k m). Qed.
Print Assumptions C19_key_is_one_leading_block.
Example C19_example : filter (fun s => negb (is_key s)) [HashLength 3; Key (demo_msg 4); Fanout 2] = [HashLength 3; Fanout 2] /\
  (0 < length (demo_msg 32) <= max_out F2s)%nat.
Proof. split; [reflexivity|cbn; lia]. Qed.

(** ** C20 *)
Theorem C20_parameter_block_injective (v : variant) (imp imp' : platform) (ss ss' : list setting) :
  Forall typed ss -> Forall typed ss' ->
  (s_words (to_state v (build v imp ss)) = s_words (to_state v (build v imp' ss')) <->
   same_fields (fl v) (salt_len (fl v)) (c_params (config_of v ss)) (c_params (config_of v ss'))).
Proof. exact (parameter_block_injective v imp imp' ss ss'). Qed.
Print Assumptions C20_parameter_block_injective.
(** Another digest length gives another initial state, hence no truncation. *)
Theorem C20_no_truncation (v : variant) (imp : platform) (ss : list setting) (n n' : nat) :
  Forall typed ss -> (1 <= n <= max_out (fl v))%nat -> (1 <= n' <= max_out (fl v))%nat -> n <> n' ->
  s_words (to_state v (build v imp (ss ++ [HashLength n]))) <>
  s_words (to_state v (build v imp (ss ++ [HashLength n']))).
Proof. exact (no_truncation v imp ss n n'). Qed.
Print Assumptions C20_no_truncation.
Example C20_example : ~ same_fields F2b 16 (c_params (config_of V2b demo_settings)) (c_params (config_of V2b (demo_settings ++ [Salt (demo_msg 6)]))).
Proof. unfold same_fields. intros (_ & _ & _ & _ & _ & _ & _ & _ & H & _). discriminate. Qed.

(** ** C21: the hash is the result of the compression calls [calls] on the
    initial words, and these determine the key, the message and the flag. *)
Theorem C21_hash_is_its_calls (v : variant) (e : env) (imp : platform) (ss : list setting) (m : list byte) :
  supported e imp -> Forall typed ss ->
  let c := config_of v ss in
  exists h, params_hash v e (build v imp ss) m = Ret h /\
    h_bytes h = words_to_bytes (fl v)
      (make_calls (fl v) (s_words (to_state v (build v imp ss))) (calls (fl v) (c_key c) m (c_last_node c))).
Proof. exact (hash_is_its_calls v e imp ss m). Qed.
Print Assumptions C21_hash_is_its_calls.
Theorem C21_padding_unambiguous (v : variant) (imp imp' : platform) (ss ss' : list setting) (m m' : list byte) :
  Forall typed ss -> Forall typed ss' ->
  let c := config_of v ss in let c' := config_of v ss' in
  s_words (to_state v (build v imp ss)) = s_words (to_state v (build v imp' ss')) ->
  calls (fl v) (c_key c) m (c_last_node c) = calls (fl v) (c_key c') m' (c_last_node c') ->
  c_key c = c_key c' /\ m = m' /\ c_last_node c = c_last_node c' /\
  same_fields (fl v) (salt_len (fl v)) (c_params c) (c_params c').
Proof. exact (padding_unambiguous v imp imp' ss ss' m m'). Qed.
Print Assumptions C21_padding_unambiguous.
(** The hypotheses hold for two ways to set up the same thing ... *)
Example C21_example : s_words (to_state V2b (build V2b AVX2 demo_settings)) =
  s_words (to_state V2b (build V2b Portable (demo_settings ++ [Salt (demo_msg 5 ++ [x00])]))).
Proof. apply parameter_block_injective; [exact demo_typed|apply Forall_app; split; [exact demo_typed|repeat constructor]|].
  repeat split; reflexivity. Qed.
(** ... and the calls differ for a trailing zero and for a byte moved from key to message. *)
Example C21_example2 : calls F2b [x01] [x02] false <> calls F2b [x01] [x02; x00] false /\
  calls F2b [x01; x02] [x03] false <> calls F2b [x01] [x02; x03] false.
Proof. split; discriminate. Qed.

(** ** C22 *)
Theorem C22_equality_is_byte_equality (h h' : hash) (a b : list byte) :
  as_bytes h = Ret a -> as_bytes h' = Ret b ->
  (exists r, hash_eq h h' = Ret r /\ (r = true <-> a = b)) /\
  (forall c, exists r, hash_eq_slice h c = Ret r /\ (r = true <-> a = c)).
Proof. exact (fun A B => conj (hash_eq_iff h h' a b A B) (fun c => hash_eq_slice_iff h a c A)). Qed.
Print Assumptions C22_equality_is_byte_equality.
Theorem C22_equivalence (h1 h2 h3 : hash) (a b c : list byte) :
  as_bytes h1 = Ret a -> as_bytes h2 = Ret b -> as_bytes h3 = Ret c ->
  hash_eq h1 h1 = Ret true /\ hash_eq h1 h2 = hash_eq h2 h1 /\
  (hash_eq h1 h2 = Ret true -> hash_eq h2 h3 = Ret true -> hash_eq h1 h3 = Ret true).
Proof. exact (hash_eq_equivalence h1 h2 h3 a b c). Qed.
Print Assumptions C22_equivalence.
(** Bytes beyond the length do not matter. *)
Theorem C22_tail_is_ignored (bytes tail tail' : list byte) (n : N) (h : hash) :
  length bytes = N.to_nat n ->
  hash_eq {| h_bytes := bytes ++ tail; h_len := n |} h = hash_eq {| h_bytes := bytes ++ tail'; h_len := n |} h.
Proof. exact (hash_eq_tail bytes tail tail' n h). Qed.
Print Assumptions C22_tail_is_ignored.
Example C22_example : as_bytes {| h_bytes := demo_msg 64; h_len := 20 |} = Ret (demo_msg 20).
Proof. reflexivity. Qed.

(** ** C23 (for the other producers of a Hash see PropMany.v and PropPar.v) *)
Theorem C23_length (v : variant) (e : env) (imp : platform) (ss : list setting) (m : list byte) :
  supported e imp -> Forall typed ss ->
  exists h bytes, params_hash v e (build v imp ss) m = Ret h /\ as_bytes h = Ret bytes /\
    length bytes = N.to_nat (digest_length (c_params (config_of v ss))) /\
    (1 <= length bytes <= max_out (fl v))%nat /\ length (h_bytes h) = max_out (fl v).
Proof. exact (hash_length_ok v e imp ss m). Qed.
Print Assumptions C23_length.
Theorem C23_live_states (v : variant) (e : env) (s : state) : live v e s ->
  exists h bytes, finalize v e s = Ret h /\ as_bytes h = Ret bytes /\
    length bytes = N.to_nat (s_hash_length s) /\
    (1 <= length bytes <= max_out (fl v))%nat /\ length (h_bytes h) = max_out (fl v).
Proof. exact (live_length v e s). Qed.
Print Assumptions C23_live_states.
Theorem C23_array_roundtrip (v : variant) (e : env) (bytes : list byte) (h : hash) :
  length bytes = max_out (fl v) ->
  as_array v e (hash_from v bytes) = Ret bytes /\ as_bytes (hash_from v bytes) = Ret bytes /\
  (as_bytes h = Ret bytes -> length (h_bytes h) = max_out (fl v) ->
     as_array v e h = Ret bytes /\ hash_from v bytes = h).
Proof. exact (array_roundtrip v e bytes h). Qed.
Print Assumptions C23_array_roundtrip.
Example C23_example : digest_length (c_params (config_of V2b demo_settings)) = 20 /\
  length (demo_msg 64) = max_out F2b /\ as_bytes (hash_from V2b (demo_msg 64)) = Ret (demo_msg 64).
Proof. repeat split. Qed.

(** ** C24 *)
Theorem C24_hex (v : variant) (h : hash) (b : list byte) :
  as_bytes h = Ret b -> (length b <= max_out (fl v))%nat ->
  exists t, to_hex v h = Ret t /\ String.length t = (2 * length b)%nat /\ unhex t = Some b.
Proof. exact (hex_roundtrip v h b). Qed.
Print Assumptions C24_hex.
Theorem C24_hex_injective (v : variant) (h h' : hash) (b b' : list byte) :
  as_bytes h = Ret b -> as_bytes h' = Ret b' ->
  (length b <= max_out (fl v))%nat -> (length b' <= max_out (fl v))%nat ->
  (to_hex v h = to_hex v h' <-> hash_eq h h' = Ret true).
Proof. exact (hex_injective v h h' b b'). Qed.
Print Assumptions C24_hex_injective.
Example C24_example : to_hex V2s {| h_bytes := x0f :: xa0 :: demo_msg 30; h_len := 3 |} = Ret "0fa000"%string.
Proof. reflexivity. Qed.

(** ** C27 *)
Theorem C27_write_is_update (v : variant) (e : env) (s : state) (x : list byte) : live v e s ->
  exists s', update v e s x = Ret s' /\
    write v e s x = Ret (s', length x) /\ write_all (write v e) s x = Ret s' /\ flush s = Ret s.
Proof. exact (write_is_update v e s x). Qed.
Print Assumptions C27_write_is_update.
Theorem C27_parallel_write_is_update (v : variant) (e : env) (s : pstate) (x : list byte) : plive v e s ->
  exists s', p_update v e s x = Ret s' /\
    p_write v e s x = Ret (s', length x) /\ write_all (p_write v e) s x = Ret s'.
Proof. exact (p_write_is_update v e s x). Qed.
Print Assumptions C27_parallel_write_is_update.
Example C27_example : live V2b (demo_env true) (after (do_op V2b (demo_env true)) (to_state V2b (build V2b AVX2 demo_settings)) demo_history).
Proof. apply live_after, live_new; [apply demo_supported|exact demo_typed]. Qed.

(** ** C32 *)
Theorem C32_no_stale_bytes (v : variant) (e : env) (imp imp' : platform) (ss : list setting) (ops ops' more : list op) :
  supported e imp -> supported e imp' -> Forall typed ss ->
  fed ops = fed ops' -> last_flag (c_last_node (config_of v ss)) ops = last_flag (c_last_node (config_of v ss)) ops' ->
  watch (do_op v e) (after (do_op v e) (to_state v (build v imp ss)) ops) more =
  watch (do_op v e) (after (do_op v e) (to_state v (build v imp' ss)) ops') more.
Proof. exact (no_stale_bytes v e imp imp' ss ops ops' more). Qed.
Print Assumptions C32_no_stale_bytes.
Example C32_example : fed demo_history = fed [DoUpdate (demo_msg 130 ++ demo_msg 300 ++ demo_msg 128)] /\
  last_flag true demo_history = last_flag true [DoSetLastNode false].
Proof. split; reflexivity. Qed.
