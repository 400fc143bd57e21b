(** BLAKE2bp / BLAKE2sp: Params, State. *)
From Coq Require Import ZArith Arith NArith List Bool Lia ZifyBool ZifyNat ZifyN.
From Verif Require Import Base ByteLemmas Guts Portable KernelSpec Simd Impl Loops LaneLoops Sched SchedProof
  Lib StateProof ParamsProof FedProof ManyProof Par Stripe.
From Verif Require Spec ApiSpec.
Import ListNotations.
Open Scope N_scope.

Ltac pstf := cbn [ps_leaf_words ps_root_words ps_buf ps_buf_len ps_count ps_hash_length ps_imp ps_is_keyed
  set_ps_leaves set_ps_buf set_ps_buf_len set_ps_count] in *.

(** *** Parameters *)
Record wf_pconfig (f : Spec.flavour) (c : ApiSpec.pconfig) : Prop := {
  wfp_len : (1 <= ApiSpec.pc_hash_length c <= Spec.max_out f)%nat;
  wfp_key : (length (ApiSpec.pc_key c) <= Spec.max_out f)%nat }.

Lemma wfp_default f : wf_pconfig f (ApiSpec.pdefault_config f).
Proof. destruct f; constructor; cbn; lia. Qed.
Lemma wfp_apply f s c : ApiSpec.plegal f s = true -> wf_pconfig f c -> wf_pconfig f (ApiSpec.papply s c).
Proof. intros H [A B]. destruct s; cbn [ApiSpec.plegal] in *; constructor; cbn [ApiSpec.papply ApiSpec.pc_hash_length ApiSpec.pc_key]; auto; lia. Qed.
Lemma wfp_configure f ss c : wf_pconfig f c -> wf_pconfig f (ApiSpec.pconfigure f ss c).
Proof.
  unfold ApiSpec.pconfigure. revert c. induction ss as [|s ss IH]; intros c W; auto. cbn [fold_left]. apply IH.
  destruct (ApiSpec.plegal f s) eqn:E; auto using wfp_apply.
Qed.

Definition pparams_of (v : variant) (imp : platform) (c : ApiSpec.pconfig) : pparams :=
  {| pp_hash_length := N.of_nat (ApiSpec.pc_hash_length c);
     pp_key_length := N.of_nat (length (ApiSpec.pc_key c));
     pp_key := Spec.pad_to (keybytes v) (ApiSpec.pc_key c);
     pp_imp := imp |}.

Lemma pparams_new_of v imp : pparams_new v imp = pparams_of v imp (ApiSpec.pdefault_config (fl v)).
Proof. destruct v; reflexivity. Qed.

Definition psetter (v : variant) (s : ApiSpec.psetting) : method pparams :=
  match s with
  | ApiSpec.PHashLength n => p_set_hash_length v n
  | ApiSpec.PKey k => p_set_key v k
  end.

Lemma psetter_spec v imp s c :
  psetter v s (pparams_of v imp c) =
  if ApiSpec.plegal (fl v) s then (pparams_of v imp (ApiSpec.papply s c), Ret tt)
  else (pparams_of v imp c, Panic).
Proof.
  pose proof (outbytes_lt v) as OB.
  destruct s; cbn [psetter ApiSpec.plegal].
  - unfold p_set_hash_length, m_seq, m_assert, m_assign, assert_. rewrite max_out_fl.
    destruct (Nat.leb 1 n && Nat.leb n (outbytes v)) eqn:E; [|reflexivity].
    unfold pparams_of, set_pp_hash_length. cbn. rewrite as_u8_small by lia. reflexivity.
  - unfold p_set_key, m_seq, m_assert, m_assign, m_try, assert_. rewrite max_out_fl.
    change (keybytes v) with (outbytes v).
    destruct (Nat.leb (length k) (outbytes v)) eqn:E; [|reflexivity].
    cbn [set_pp_key pp_key]. rewrite copy_zeros by lia. cbn [bind].
    unfold pparams_of, set_pp_key, set_pp_key_length. cbn. rewrite as_u8_small by lia. reflexivity.
Qed.

Definition run_psettings (v : variant) (ss : list ApiSpec.psetting) (p : pparams) : pparams :=
  fold_left (fun p s => fst (psetter v s p)) ss p.
Lemma run_psettings_spec v imp ss c :
  run_psettings v ss (pparams_of v imp c) = pparams_of v imp (ApiSpec.pconfigure (fl v) ss c).
Proof.
  unfold run_psettings, ApiSpec.pconfigure. revert c. induction ss as [|s ss IH]; intros c; auto.
  cbn [fold_left]. rewrite psetter_spec. destruct (ApiSpec.plegal (fl v) s); apply IH.
Qed.

(** Initial words of leaf [i] and of the root. *)
Definition leaf_h0 (v : variant) (c : ApiSpec.pconfig) (i : nat) : list N :=
  Spec.initial_state (fl v)
    (Spec.tree_node (fl v) (ApiSpec.pc_hash_length c) (length (ApiSpec.pc_key c)) (N.of_nat i) 0).
Definition root_h0 (v : variant) (c : ApiSpec.pconfig) : list N :=
  Spec.initial_state (fl v)
    (Spec.tree_node (fl v) (ApiSpec.pc_hash_length c) (length (ApiSpec.pc_key c)) 0 1).

Lemma run_seq {Q} (a b : method Q) p p' : a p = (p', Ret tt) -> run (a ;; b) p = run b p'.
Proof. intros H. unfold run, m_seq. rewrite H. reflexivity. Qed.
Lemma m_seq_ret {Q} (a b : method Q) p p' : a p = (p', Ret tt) -> (a ;; b) p = b p'.
Proof. intros H. unfold m_seq. rewrite H. reflexivity. Qed.

Lemma setter_ok v imp s c : ApiSpec.legal (fl v) s = true ->
  setter v s (params_of v imp c) = (params_of v imp (ApiSpec.apply s c), Ret tt).
Proof. intros H. rewrite setter_spec, H. reflexivity. Qed.

(** A chain of legal settings. *)
Lemma run_setters v imp ss : forall s c, forallb (ApiSpec.legal (fl v)) (s :: ss) = true ->
  run (fold_left (fun m s => m ;; setter v s) ss (setter v s)) (params_of v imp c) =
  Ret (params_of v imp (fold_left (fun c s => ApiSpec.apply s c) (s :: ss) c)).
Proof.
  intros s c H. cbn [forallb] in H. apply andb_true_iff in H. destruct H as [H1 H2].
  assert (G : forall ss m c c', forallb (ApiSpec.legal (fl v)) ss = true ->
     m (params_of v imp c) = (params_of v imp c', Ret tt) ->
     fold_left (fun m s => m ;; setter v s) ss m (params_of v imp c) =
     (params_of v imp (fold_left (fun c s => ApiSpec.apply s c) ss c'), Ret tt)).
  { clear. induction ss as [|s ss IH]; intros m c c' H E; auto.
    cbn [forallb] in H. apply andb_true_iff in H. destruct H as [H1 H2]. cbn [fold_left].
    apply IH; auto. rewrite (m_seq_ret _ _ _ _ E). apply setter_ok. exact H1. }
  unfold run. rewrite (G ss _ c (ApiSpec.apply s c)); auto using setter_ok.
Qed.

Lemma p_to_words_spec v imp c : wf_pconfig (fl v) c ->
  p_to_words v (pparams_of v imp c) =
  Ret (map (leaf_h0 v c) (seq 0 (par_degree v)), root_h0 v c).
Proof.
  intros [W1 W2]. rewrite max_out_fl in *. unfold p_to_words.
  set (n := ApiSpec.pc_hash_length c) in *. set (k := ApiSpec.pc_key c) in *.
  cbn [pparams_of pp_key pp_key_length pp_hash_length pp_imp]. fold n k.
  rewrite !Nat2N.id.
  assert (KL : length (Spec.pad_to (keybytes v) k) = keybytes v) by (apply pad_to_length; exact W2).
  rewrite slice0_ok by (rewrite KL; exact W2). cbn [bind].
  replace (firstn (length k) (Spec.pad_to (keybytes v) k)) with k.
  2:{ unfold Spec.pad_to. rewrite firstn_app, Nat.sub_diag, firstn_all. cbn [firstn]. rewrite app_nil_r. reflexivity. }
  set (ss := [ApiSpec.Key k; ApiSpec.Fanout (as_u8 (par_degree v)); ApiSpec.MaxDepth 2;
              ApiSpec.MaxLeafLength 0; ApiSpec.InnerHashLength (outbytes v)]).
  rewrite params_new_of.
  set (bc := fold_left (fun c s => ApiSpec.apply s c) (ApiSpec.HashLength n :: ss) (ApiSpec.default_config (fl v))).
  assert (LG : forallb (ApiSpec.legal (fl v)) (ApiSpec.HashLength n :: ss) = true).
  { unfold ss. cbn [forallb ApiSpec.legal]. rewrite max_out_fl.
    destruct (Nat.leb_spec 1 n); [|lia]. destruct (Nat.leb_spec n (outbytes v)); [|lia].
    destruct (Nat.leb_spec (length k) (outbytes v)); [|lia].
    destruct (Nat.leb_spec (outbytes v) (outbytes v)); [|lia]. reflexivity. }
  pose proof (run_setters v imp ss (ApiSpec.HashLength n) (ApiSpec.default_config (fl v)) LG) as RB.
  fold bc in RB. unfold ss in RB. cbn [fold_left setter] in RB.
  rewrite RB. cbn [bind].
  assert (ND : forall i dp, (i < 256)%nat ->
    run (node_offset v (N.of_nat i) ;; node_depth dp) (params_of v imp bc) =
    Ret (params_of v imp (ApiSpec.apply (ApiSpec.NodeDepth dp) (ApiSpec.apply (ApiSpec.NodeOffset (N.of_nat i)) bc)))).
  { intros i dp Hi.
    apply (run_setters v imp [ApiSpec.NodeDepth dp] (ApiSpec.NodeOffset (N.of_nat i)) bc).
    cbn [forallb ApiSpec.legal]. destruct v; cbn [fl]; auto. rewrite !andb_true_r. apply N.ltb_lt. lia. }
  assert (TW : forall i dp, (i < 256)%nat -> (dp < 2) ->
    to_words v (params_of v imp (ApiSpec.apply (ApiSpec.NodeDepth dp) (ApiSpec.apply (ApiSpec.NodeOffset (N.of_nat i)) bc)))
    = Spec.initial_state (fl v) (Spec.tree_node (fl v) n (length k) (N.of_nat i) dp)).
  { intros i dp Hi Hd. rewrite to_words_spec.
    - f_equal. unfold bc, ss. destruct v; reflexivity.
    - unfold bc, ss. pose proof (outbytes_lt v). pose proof (par_degree_pos v).
      constructor; cbn [fold_left ApiSpec.apply ApiSpec.c_params ApiSpec.c_key Spec.digest_length Spec.key_length Spec.fanout
         Spec.depth Spec.leaf_length Spec.node_offset Spec.node_depth Spec.inner_length Spec.salt Spec.personal];
      rewrite ?max_out_fl; auto; try lia; try (destruct v; cbn; lia). }
  rewrite (mapM_Ret _ (leaf_h0 v c)).
  2:{ intros i Hi. apply in_seq in Hi. assert (i < 256)%nat by (destruct v; cbn in Hi; lia).
      rewrite ND by auto. cbn [bind]. rewrite TW by (auto; lia). reflexivity. }
  cbn [bind]. change 0 with (N.of_nat 0) at 1. rewrite ND by lia. cbn [bind]. rewrite TW by lia. reflexivity.
Qed.

(** *** The leaves are compressed independently *)
Lemma upto_none_map {A} (l : list (nat * A)) : upto_none (map Some l) = l.
Proof. induction l; cbn; congruence. Qed.

Lemma map_fst_combine {A B} (l : list A) : forall (m : list B), length l = length m -> map fst (combine l m) = l.
Proof. induction l as [|a l IH]; intros [|b m] H; cbn in *; try discriminate; auto. f_equal. apply IH. lia. Qed.
Lemma nth_error_ext {A} (l : list A) : forall m, (forall i, nth_error l i = nth_error m i) -> l = m.
Proof.
  induction l as [|a l IH]; intros [|b m] H; auto.
  - specialize (H 0%nat). discriminate.
  - specialize (H 0%nat). discriminate.
  - pose proof (H 0%nat) as H0. injection H0 as ->. f_equal. apply IH. intros i. apply (H (S i)).
Qed.

Lemma find_combine {A} (jobs : list A) : forall n o r, (length jobs = n)%nat ->
  find (fun p => Nat.eqb (fst p) r) (combine (seq o n) jobs) =
  if Nat.leb o r then option_map (fun a => (r, a)) (nth_error jobs (r - o)) else None.
Proof.
  induction jobs as [|a jobs IH]; intros n o r H; cbn in H; subst n.
  - cbn [seq combine find]. destruct (Nat.leb o r); auto. destruct (r - o)%nat; reflexivity.
  - cbn [seq combine find fst length]. destruct (Nat.eqb_spec o r) as [->|Ne].
    + rewrite Nat.leb_refl, Nat.sub_diag. reflexivity.
    + rewrite IH by auto. destruct (Nat.leb_spec (S o) r), (Nat.leb_spec o r); auto; try lia.
      replace (r - o)%nat with (S (r - S o)) by lia. reflexivity.
Qed.

Lemma compress_leaves_spec v e imp fin (h : nat -> list N) (x : nat -> list byte) c (ln : nat -> bool) :
  supported e imp -> aligned v c ->
  (forall i, (i < par_degree v)%nat -> words_ok v (h i) /\ input_ok v fin (x i)) ->
  compress_leaves v e imp fin (map h (seq 0 (par_degree v)))
    (map (fun i => (x i, c, ln i)) (seq 0 (par_degree v))) =
  Ret (map (fun i => C1 v Parallel fin (ln i) (x i) (h i) c) (seq 0 (par_degree v))).
Proof.
  intros SU AL H. unfold compress_leaves.
  set (D := par_degree v) in *. set (jobs := map (fun i => (x i, c, ln i)) (seq 0 D)).
  set (lv := map h (seq 0 D)).
  assert (LJ : length jobs = D) by (unfold jobs; rewrite map_length, seq_length; auto).
  assert (LL : length lv = D) by (unfold lv; rewrite map_length, seq_length; auto).
  rewrite LL.
  set (it := {| i_peeked := None; i_src := map Some (combine (seq 0 D) jobs); i_done := false; i_calls := 0 |}).
  assert (PE : pend it = combine (seq 0 D) jobs).
  { unfold pend, it. cbn [i_done i_peeked i_src app]. apply upto_none_map. }
  assert (NJ : forall i, (i < D)%nat -> nth_error jobs i = Some (x i, c, ln i)).
  { intros i Hi. unfold jobs. rewrite nth_error_map, nth_error_nth' with (d := 0%nat) by (rewrite seq_length; auto).
    rewrite seq_nth by auto. reflexivity. }
  assert (NL : forall i, (i < D)%nat -> nth_error lv i = Some (h i)).
  { intros i Hi. unfold lv. rewrite nth_error_map, nth_error_nth' with (d := 0%nat) by (rewrite seq_length; auto).
    rewrite seq_nth by auto. reflexivity. }
  destruct (compress_many_spec (fun ws : list N => ws) (fun _ ws => ws) leaf_prep v e imp fin Parallel
              ltac:(reflexivity) ltac:(reflexivity) it lv) as (it' & lv' & E & _ & _ & _ & Len & T).
  - exact SU.
  - rewrite PE, map_fst_combine by (rewrite seq_length; auto). apply seq_NoDup.
  - intros r a Hin. rewrite PE in Hin. pose proof (in_combine_l _ _ _ _ Hin) as Hr. apply in_seq in Hr.
    exists (h r). split; [apply NL; lia|]. unfold prep_good, leaf_prep.
    apply (find_ref (combine (seq 0 D) jobs) r a) in Hin.
    2:{ rewrite map_fst_combine by (rewrite seq_length; auto). apply seq_NoDup. }
    rewrite find_combine in Hin by auto. cbn [Nat.leb] in Hin. rewrite Nat.sub_0_r, NJ in Hin by lia.
    cbn [option_map] in Hin. injection Hin as <-. destruct (H r ltac:(lia)) as [H1 H2].
    split; [exact H1|]. split; [exact AL|exact H2].
  - rewrite E. cbn [bind]. f_equal. apply nth_error_ext. intros r. rewrite T. unfold target_of. rewrite PE, find_combine by auto.
    cbn [Nat.leb]. rewrite Nat.sub_0_r. destruct (Nat.lt_ge_cases r D) as [Hr|Hr].
    + rewrite NJ by auto. cbn [option_map]. rewrite NL by auto. cbn [option_map].
      unfold done, leaf_prep. rewrite nth_error_map, nth_error_nth' with (d := 0%nat) by (rewrite seq_length; auto).
      rewrite seq_nth by auto. reflexivity.
    + rewrite (proj2 (nth_error_None jobs r)) by lia. cbn [option_map].
      rewrite (proj2 (nth_error_None lv r)) by lia. symmetry. apply nth_error_None. rewrite map_length, seq_length. lia.
Qed.

(** *** The state *)
Notation D v := (par_degree v).

Record pabs (v : variant) (h : nat -> list N) (X : list byte) (k : nat) (s : pstate) : Prop := {
  pa_leaves : ps_leaf_words s = map (fun i => chain v (L v i (firstn (k * P v) X)) (h i) 0 k) (seq 0 (D v));
  pa_count : ps_count s = N.of_nat (k * blockbytes v) mod cmod v;
  pa_len : (length X = k * P v + ps_buf_len s)%nat;
  pa_buf : firstn (ps_buf_len s) (ps_buf s) = skipn (k * P v) X;
  pa_buflen : length (ps_buf s) = (2 * P v)%nat;
  pa_le : (ps_buf_len s <= 2 * P v)%nat;
  pa_h : forall i, (i < D v)%nat -> words_ok v (h i) }.

Definition same_pconfig (s s' : pstate) : Prop :=
  ps_root_words s' = ps_root_words s /\ ps_hash_length s' = ps_hash_length s /\
  ps_imp s' = ps_imp s /\ ps_is_keyed s' = ps_is_keyed s.
Lemma same_pconfig_trans a b c : same_pconfig a b -> same_pconfig b c -> same_pconfig a c.
Proof. unfold same_pconfig. intuition congruence. Qed.

Lemma P_lt v : (P v < 1000)%nat.
Proof. destruct v; cbn; lia. Qed.
Lemma P_pos v : (0 < P v)%nat.
Proof. apply padded_pos. Qed.

Lemma p_fill_buf_spec v e h X k s x : pabs v h X k s ->
  let t := Nat.min (2 * P v - ps_buf_len s) (length x) in
  exists s', p_fill_buf e s x = Ret (s', skipn t x) /\ pabs v h (X ++ firstn t x) k s' /\
    ps_buf_len s' = (ps_buf_len s + t)%nat /\ same_pconfig s s'.
Proof.
  intros [A1 A2 A3 A4 A5 A6 A7]. cbv zeta. unfold p_fill_buf. rewrite A5.
  set (t := Nat.min (2 * P v - ps_buf_len s) (length x)).
  pose proof (P_lt v) as PL.
  assert (Ht : (t <= length x /\ ps_buf_len s + t <= 2 * P v)%nat) by (unfold t; lia).
  clearbody t. rewrite slice0_ok by lia. cbn [bind].
  assert (Lt : length (firstn t x) = t) by (apply firstn_length_le; lia).
  rewrite copy_into_ok by lia. cbn [bind]. unfold add_u16.
  rewrite N.mod_small by lia. rewrite Nat2N.id.
  destruct (N.ltb_spec (N.of_nat (ps_buf_len s) + N.of_nat t) 65536); [|lia]. cbn [bind].
  rewrite slice_from_ok by lia. cbn [bind].
  eexists. split; [reflexivity|]. pstf.
  split; [|split; [reflexivity|repeat split]].
  assert (Lb : length (firstn (ps_buf_len s) (ps_buf s)) = ps_buf_len s) by (apply firstn_length_le; lia).
  constructor; pstf.
  - rewrite A1. apply map_ext. intros i. rewrite firstn_app. replace (k * P v - length X)%nat with 0%nat by lia.
    cbn [firstn]. rewrite app_nil_r. reflexivity.
  - exact A2.
  - rewrite app_length, A3, Lt. lia.
  - rewrite app_assoc, firstn_app, firstn_all2 by (rewrite app_length; lia).
    rewrite app_length, Lb, Lt, Nat.sub_diag. cbn [firstn]. rewrite app_nil_r, A4.
    rewrite skipn_app. replace (k * P v - length X)%nat with 0%nat by lia. reflexivity.
  - rewrite !app_length, Lb, Lt, skipn_length. lia.
  - lia.
  - exact A7.
Qed.

(** Compressing n+1 stripes. *)
Lemma compress_to_leaves_spec v e imp (h : nat -> list N) X k n leaves :
  supported e imp -> (forall i, (i < D v)%nat -> words_ok v (h i)) ->
  ((k + S n) * P v <= length X)%nat ->
  leaves = map (fun i => chain v (L v i (firstn (k * P v) X)) (h i) 0 k) (seq 0 (D v)) ->
  compress_to_leaves v e imp leaves (firstn (S n * P v) (skipn (k * P v) X))
    (N.of_nat (k * blockbytes v) mod cmod v) =
  Ret (map (fun i => chain v (L v i (firstn ((k + S n) * P v) X)) (h i) 0 (k + S n)) (seq 0 (D v)),
       N.of_nat ((k + S n) * blockbytes v) mod cmod v).
Proof.
  intros SU HO HL ->. unfold compress_to_leaves.
  set (y := firstn (S n * P v) (skipn (k * P v) X)).
  assert (Ly : length y = (S n * P v)%nat).
  { unfold y. rewrite firstn_length, skipn_length. nia. }
  pose proof (P_pos v) as PP. pose proof (blockbytes_pos v) as BP. pose proof (par_degree_pos v) as DP.
  rewrite (mapM_Ret _ (fun i => (skipn (i * blockbytes v) y, N.of_nat (k * blockbytes v) mod cmod v, false))).
  2:{ intros i Hi. apply in_seq in Hi. rewrite slice_from_ok; [reflexivity|]. rewrite Ly, P_eq. nia. }
  cbn [bind].
  rewrite (compress_leaves_spec v e imp false
             (fun i => chain v (L v i (firstn (k * P v) X)) (h i) 0 k) (fun i => skipn (i * blockbytes v) y)
             _ (fun _ => false)).
  - cbn [bind]. f_equal. f_equal.
    + apply map_ext_in. intros i Hi. apply in_seq in Hi.
      rewrite (C1_parallel v i ltac:(lia) false false (length y)) by lia.
      assert (EZ : firstn ((k + S n) * P v) X = firstn (k * P v) X ++ y).
      { unfold y. rewrite Nat.mul_add_distr_r.
        rewrite <- (firstn_skipn (k * P v) X) at 1. rewrite firstn_app, firstn_length.
        rewrite Nat.min_l by nia. rewrite firstn_all2 by (rewrite firstn_length; nia).
        do 2 f_equal. lia. }
      assert (LK : length (firstn (k * P v) X) = (k * P v)%nat) by (rewrite firstn_length; nia).
      rewrite EZ, (L_app v i ltac:(lia) k) by exact LK.
      pose proof (L_length_mult v i ltac:(lia) k _ LK) as L1.
      pose proof (L_length_mult v i ltac:(lia) (S n) _ Ly) as L2.
      set (a := L v i (firstn (k * P v) X)) in *. set (b := L v i y) in *.
      replace b with (firstn (S n * blockbytes v) (skipn (k * blockbytes v) (a ++ b))) at 1.
      2:{ rewrite skipn_app, skipn_all2, L1, Nat.sub_diag by lia. cbn [skipn app]. apply firstn_all2. lia. }
      rewrite C1_nonfinal by (rewrite app_length; nia).
      rewrite (chain_add v (a ++ b) (h i) 0 k). cbn [Nat.add]. rewrite (chain_app v a b (h i) 0 k) by lia. reflexivity.
    + rewrite count_step. f_equal. f_equal. rewrite Ly, P_eq.
      replace (S n * (par_degree v * blockbytes v))%nat with ((S n * blockbytes v) * par_degree v)%nat by nia.
      rewrite Nat.div_mul by lia. nia.
  - exact SU.
  - apply aligned_blocks.
  - intros i Hi. split; [apply chain_ok; auto|].
    apply (input_ok_full v _ ((S n * par_degree v - i) - 1)). rewrite skipn_length, Ly, P_eq. nia.
Qed.

(** With a non-empty tail for every leaf. *)
Definition tail (v : variant) : nat := ((D v - 1) * blockbytes v)%nat.
Definition tail_ok (v : variant) (k : nat) (s : pstate) : Prop := (0 < k -> tail v < ps_buf_len s)%nat.

Lemma tail_P v : (tail v + blockbytes v = P v)%nat.
Proof. destruct v; reflexivity. Qed.

(** bulk_bytes *)
Lemma bulk_props v len :
  let b := (len - (tail v + 1))%nat in
  exists n, (b - b mod P v = n * P v /\
    (len <= tail v -> n = 0) /\
    (tail v < len -> n * P v + tail v < len /\ len <= n * P v + P v + tail v))%nat.
Proof.
  cbv zeta. pose proof (P_pos v) as PP. set (b := (len - (tail v + 1))%nat).
  exists (b / P v)%nat. pose proof (Nat.div_mod b (P v) ltac:(lia)) as E.
  pose proof (Nat.mod_upper_bound b (P v) ltac:(lia)) as U.
  rewrite (Nat.mul_comm (b / P v)).
  assert (Q : (b = 0 -> b / P v = 0)%nat) by (intros ->; apply Nat.div_0_l; lia).
  revert E U Q. generalize (b mod P v)%nat as m. generalize (b / P v)%nat as q. intros q m E U Q.
  assert (PQ : exists pq, (P v * q = pq)%nat) by eauto. destruct PQ as [pq PQ]. rewrite PQ in *. unfold b in *.
  split; [lia|]. split; lia.
Qed.

Lemma p_update_spec v e h X k s x : supported e (ps_imp s) -> pabs v h X k s -> tail_ok v k s ->
  exists s' k', p_update v e s x = Ret s' /\ pabs v h (X ++ x) k' s' /\ same_pconfig s s' /\ tail_ok v k' s'.
Proof.
  intros SU A TO. unfold p_update. rewrite <- P_eq. fold (tail v).
  pose proof (P_pos v) as PP. pose proof (P_lt v) as PL. pose proof (tail_P v) as TP. pose proof (blockbytes_pos v) as BP.
  (* first phase *)
  match goal with |- context [bind ?a _] => set (ph1 := a) end.
  assert (PH1 : exists s1 t k1, ph1 = Ret (s1, skipn t x) /\ (t <= length x)%nat /\
    pabs v h (X ++ firstn t x) k1 s1 /\ same_pconfig s s1 /\
    ((skipn t x = [] /\ tail_ok v k1 s1) \/
     (ps_buf_len s1 = 0%nat /\ (k1 = 0%nat \/ tail v < length (skipn t x))%nat) \/
     (ps_buf_len s1 = P v /\ length (skipn t x) <= tail v)%nat)).
  { unfold ph1. destruct (Nat.ltb_spec 0 (ps_buf_len s)) as [Pos|Zero].
    - destruct (p_fill_buf_spec v e h X k s x A) as (s1 & E & A1 & B1 & SC1). cbv zeta in E, A1, B1.
      set (t := Nat.min (2 * P v - ps_buf_len s) (length x)) in *.
      assert (Ht : (t <= length x)%nat) by (unfold t; lia).
      rewrite E. cbn [bind]. destruct (skipn t x) as [|b r] eqn:R.
      + exists s1, t, k. rewrite R. split; [reflexivity|]. split; [auto|]. split; [exact A1|]. split; [exact SC1|].
        left. split; auto.
        intros Hk. specialize (TO Hk). lia.
      + assert (Lx : (t < length x)%nat).
        { apply (f_equal (@length byte)) in R. rewrite skipn_length in R. cbn [length] in R. lia. }
        assert (Full : ps_buf_len s1 = (2 * P v)%nat) by (pose proof (pa_le _ _ _ _ _ A); unfold t in *; lia).
        destruct A1 as [A1 A2 A3 A4 A5 A6 A7]. destruct SC1 as (SC1 & SC2 & SC3 & SC4).
        set (X1 := X ++ firstn t x) in *.
        assert (EB : ps_buf s1 = firstn (2 * P v) (skipn (k * P v) X1)).
        { rewrite <- A4, Full, firstn_firstn, Nat.min_id, firstn_all2; auto. lia. }
        destruct (Nat.ltb_spec (tail v) (length (b :: r))) as [Big|Small].
        * rewrite A2, EB.
          rewrite (compress_to_leaves_spec v e _ h X1 k 1) by (try (rewrite SC3; exact SU); auto; lia).
          cbn [bind]. eexists _, t, (k + 2)%nat. rewrite R. fold X1. clearbody X1. split; [reflexivity|]. split; [auto|].
          split; [|split; [repeat split; auto|right; left; split; [reflexivity|right; exact Big]]].
          constructor; pstf; auto; try lia.
          cbn [firstn]. symmetry. apply skipn_all2. lia.
        * rewrite slice0_ok by lia. cbn [bind]. rewrite A2.
          assert (EF : firstn (P v) (ps_buf s1) = firstn (1 * P v) (skipn (k * P v) X1)).
          { rewrite EB, firstn_firstn. f_equal. lia. }
          rewrite EF.
          rewrite (compress_to_leaves_spec v e _ h X1 k 0) by (try (rewrite SC3; exact SU); auto; lia).
          cbn [bind]. pstf. rewrite slice0_ok by lia. cbn [bind]. rewrite slice_from_ok by lia. cbn [bind].
          rewrite (proj2 (Nat.eqb_eq _ _)) by (rewrite firstn_length, skipn_length; lia). cbn [bind].
          eexists _, t, (k + 1)%nat. rewrite R. fold X1. clearbody X1. split; [reflexivity|]. split; [auto|].
          rewrite N.mod_small by lia. rewrite Nat2N.id. pstf.
          split; [|split; [repeat split; auto|right; right; split; [reflexivity|exact Small]]].
          assert (LS : length (skipn (P v) (ps_buf s1)) = P v) by (rewrite skipn_length; lia).
          constructor; pstf; auto; try lia.
          -- rewrite firstn_app, LS, Nat.sub_diag. cbn [firstn]. rewrite app_nil_r.
             rewrite firstn_all2 by lia. rewrite EB, skipn_firstn_comm, skipn_skipn_add.
             rewrite firstn_all2 by (rewrite skipn_length; lia). f_equal. lia.
          -- rewrite app_length. lia.
    - exists s, 0%nat, k. cbn [firstn skipn]. rewrite app_nil_r. split; [reflexivity|]. split; [lia|]. split; [exact A|].
      split; [repeat split|]. right. left. split; [lia|]. left. unfold tail_ok in TO. lia. }
  destruct PH1 as (s1 & t & k1 & E1 & Ht & A1 & SC1 & CASES). rewrite E1. cbn [bind]. clear ph1 E1.
  set (y := skipn t x) in *. unfold sat_sub.
  assert (EX : (X ++ firstn t x) ++ y = X ++ x).
  { rewrite <- app_assoc. f_equal. apply firstn_skipn. }
  set (X1 := X ++ firstn t x) in *. clearbody X1.
  destruct (bulk_props v (length y)) as (n & En & Hn0 & Hn1). cbv zeta in En. rewrite En.
  (* second phase *)
  match goal with |- context [bind ?a _] => set (ph2 := a) end.
  assert (PH2 : exists s2 k2 z, ph2 = Ret (s2, z) /\ exists w, X1 ++ y = w ++ z /\
     pabs v h w k2 s2 /\ same_pconfig s s2 /\ (ps_buf_len s2 + length z <= 2 * P v)%nat /\
     (0 < k2 -> tail v < ps_buf_len s2 + length z)%nat).
  { unfold ph2. destruct (Nat.ltb_spec 0 (n * P v)) as [Pos|Zero].
    - assert (T : (tail v < length y)%nat).
      { destruct (Nat.le_gt_cases (length y) (tail v)) as [C|C]; auto. specialize (Hn0 C). subst n. lia. }
      specialize (Hn1 T). destruct Hn1 as [Hn1 Hn2].
      destruct n as [|n]; [lia|].
      assert (B0 : ps_buf_len s1 = 0%nat).
      { destruct CASES as [[C _]|[[C _]|[_ C]]]; auto; [rewrite C in T; cbn in T; lia|lia]. }
      rewrite slice0_ok by lia. cbn [bind].
      destruct A1 as [A1 A2 A3 A4 A5 A6 A7]. rewrite B0, Nat.add_0_r in A3.
      assert (EF : firstn (S n * P v) y = firstn (S n * P v) (skipn (k1 * P v) (X1 ++ y))).
      { rewrite skipn_app, skipn_all2, A3, Nat.sub_diag by lia. reflexivity. }
      rewrite A2, EF.
      assert (SU1 : supported e (ps_imp s1)). { destruct SC1 as (_ & _ & -> & _). exact SU. }
      rewrite (compress_to_leaves_spec v e _ h (X1 ++ y) k1 n).
      2:{ exact SU1. }
      2:{ exact A7. }
      2:{ rewrite app_length. nia. }
      2:{ rewrite A1. apply map_ext. intros i. rewrite firstn_app, A3, Nat.sub_diag.
          cbn [firstn]. rewrite app_nil_r. reflexivity. }
      cbn [bind]. rewrite slice_from_ok by lia. cbn [bind].
      eexists _, (k1 + S n)%nat, _. split; [reflexivity|].
      exists (X1 ++ firstn (S n * P v) y). split; [rewrite <- app_assoc, firstn_skipn; reflexivity|].
      assert (LF : length (firstn (S n * P v) y) = (S n * P v)%nat) by (rewrite firstn_length; lia).
      rewrite skipn_length. pstf. split; [|split; [|split]].
      + constructor; pstf; auto.
        * apply map_ext. intros i. do 2 f_equal.
          rewrite <- (firstn_skipn (S n * P v) y) at 1. rewrite app_assoc, firstn_app.
          rewrite app_length, LF, A3. replace ((k1 + S n) * P v - (k1 * P v + S n * P v))%nat with 0%nat by nia.
          cbn [firstn]. rewrite app_nil_r. reflexivity.
        * rewrite app_length, LF, A3. nia.
        * rewrite B0. cbn [firstn]. symmetry. apply skipn_all2. rewrite app_length, LF, A3. nia.
      + destruct SC1 as (? & ? & ? & ?). repeat split; auto.
      + lia.
      + lia.
    - exists s1, k1, y. split; [reflexivity|]. exists X1. split; [reflexivity|]. split; [exact A1|]. split; [exact SC1|].
      assert (n = 0)%nat by nia. subst n.
      pose proof (pa_le _ _ _ _ _ A1). 
      destruct CASES as [[C1 C2]|[[C1 C2]|[C1 C2]]].
      + rewrite C1. cbn [length]. split; [lia|]. intros Hk. specialize (C2 Hk). lia.
      + rewrite C1. destruct (Nat.le_gt_cases (length y) (tail v)) as [T|T].
        * split; [lia|]. lia.
        * specialize (Hn1 T). lia.
      + split; lia. }
  destruct PH2 as (s2 & k2 & z & E2 & w & EW & A2 & SC2 & LZ & TZ). rewrite E2. cbn [bind]. clear ph2 E2.
  destruct (p_fill_buf_spec v e h w k2 s2 z A2) as (s3 & E3 & A3 & B3 & SC3). cbv zeta in E3, A3, B3.
  rewrite Nat.min_r in E3, A3, B3 by lia. rewrite firstn_all in A3. rewrite skipn_all in E3.
  rewrite E3. cbn [bind length].
  assert (DA : debug_assert (e_dbg e) (Nat.eqb 0 0) = Ret tt) by (unfold debug_assert; destruct (e_dbg e); reflexivity).
  rewrite DA. cbn [bind]. exists s3, k2. split; [reflexivity|]. rewrite <- EX, EW. split; [exact A3|].
  split; [eapply same_pconfig_trans; eauto|]. intros Hk. specialize (TZ Hk). lia.
Qed.
