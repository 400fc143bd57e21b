(** Laws of BLAKE2bp / BLAKE2sp that the property files state (C14-C16, C23, C31, C32). *)
From Coq Require Import String Ascii.
From Coq Require Import ZArith Arith NArith List Bool Lia ZifyBool ZifyNat ZifyN.
From Coq Require Import Init.Byte.
From Verif Require Import Base ByteLemmas Guts Portable KernelSpec Simd Impl Loops LaneLoops Sched Lib StateProof
  ParamsProof FedProof Many ManyProof Par Stripe ParProof ParFed HashProof Machine Api ApiProof
  History Runs HistoryProof BatchProof Words Laws.
From Verif Require Spec ApiSpec.
Import ListNotations.
Open Scope list_scope.
Open Scope N_scope.
Local Notation length := List.length.

(** *** C31: the tree by hand *)
Section Tree.
Import ApiSpec.
Lemma leaf_config v n i : (1 <= n <= Spec.max_out (fl v))%nat -> (i < Spec.leaves (fl v))%nat ->
  configure (fl v) (leaf_settings (fl v) n i) (default_config (fl v)) =
  {| c_params := Spec.tree_node (fl v) n 0 (N.of_nat i) 0; c_key := [];
     c_last_node := Nat.eqb i (Spec.leaves (fl v) - 1) |}.
Proof.
  intros Hn Hi. unfold leaf_settings, configure. cbn [fold_left].
  assert (A1 : legal (fl v) (HashLength n) = true).
  { cbn [legal]. apply andb_true_intro. split; apply Nat.leb_le; lia. }
  assert (A2 : legal (fl v) (NodeOffset (N.of_nat i)) = true).
  { destruct v; cbn [legal fl]; auto. apply N.ltb_lt. cbn in Hi. change (2 ^ 48) with 281474976710656. lia. }
  rewrite A1, A2. destruct v; reflexivity.
Qed.
Lemma root_config v n : (1 <= n <= Spec.max_out (fl v))%nat ->
  configure (fl v) (root_settings (fl v) n) (default_config (fl v)) =
  {| c_params := Spec.tree_node (fl v) n 0 0 1; c_key := []; c_last_node := true |}.
Proof.
  intros Hn. unfold root_settings, configure. cbn [fold_left].
  assert (A1 : legal (fl v) (HashLength n) = true).
  { cbn [legal]. apply andb_true_intro. split; apply Nat.leb_le; lia. }
  rewrite A1. destruct v; reflexivity.
Qed.
Lemma leaf_typed v n i : (i < Spec.leaves (fl v))%nat -> Forall typed (leaf_settings (fl v) n i).
Proof.
  intros Hi. unfold leaf_settings.
  assert (N.of_nat i < 2 ^ 64). { change (2 ^ 64) with 18446744073709551616. destruct v; cbn in Hi; lia. }
  repeat (apply Forall_cons; [|]); try apply Forall_nil; cbn [typed]; auto; destruct v; reflexivity.
Qed.
Lemma root_typed v n : Forall typed (root_settings (fl v) n).
Proof. unfold root_settings. repeat (apply Forall_cons; [|]); try apply Forall_nil; cbn [typed]; auto; destruct v; reflexivity. Qed.

Lemma node_value v e imp ss chunks : supported e imp -> Forall typed ss ->
  node_state v e imp ss chunks = Ret (hash_value v (configure (fl v) ss (default_config (fl v))) (concat chunks)).
Proof.
  intros S T. unfold node_state. destruct (incremental_is_hash v e imp ss chunks S T) as (s & E & F). rewrite E. cbn [bind].
  rewrite F, build_spec. apply params_hash_spec; auto. apply build_wf; auto.
Qed.

Lemma tree_by_hand v e imp imp' n msg chunks :
  supported e imp -> supported e imp' -> (1 <= n <= Spec.max_out (fl v))%nat ->
  n = Spec.max_out (fl v) \/ e_dbg e = false ->
  (forall i, (i < Spec.leaves (fl v))%nat -> concat (chunks i) = Spec.leaf_message (fl v) i msg) ->
  exists leaves h,
    mapM (fun i => do h <- node_state v e imp (leaf_settings (fl v) n i) (chunks i); as_array v e h)
      (seq 0 (Spec.leaves (fl v))) = Ret leaves /\
    node_state v e imp (root_settings (fl v) n) leaves = Ret h /\
    p_hash v e (pbuild v imp' [PHashLength n]) msg = Ret h.
Proof.
  intros S S' Hn HA HC.
  exists (map (Spec.leaf_hash (fl v) n [] msg) (seq 0 (Spec.leaves (fl v)))).
  eexists. split; [|split].
  - assert (H : forall l, (forall i, In i l -> (i < Spec.leaves (fl v))%nat) ->
      mapM (fun i => do h <- node_state v e imp (leaf_settings (fl v) n i) (chunks i); as_array v e h) l =
      Ret (map (Spec.leaf_hash (fl v) n [] msg) l)).
    { induction l as [|i l IH]; intros Hl; [reflexivity|]. cbn [mapM map].
      assert (Hi : (i < Spec.leaves (fl v))%nat) by (apply Hl; left; auto).
      rewrite node_value by (auto using leaf_typed). cbn [bind]. rewrite leaf_config, HC by auto.
      unfold as_array at 1, hash_value. cbn [h_len h_bytes c_params c_key c_last_node Spec.tree_node Spec.digest_length].
      assert (D : debug_assert (e_dbg e) (N.of_nat n =? N.of_nat (outbytes v)) = Ret tt).
      { destruct HA as [-> | ->]; [|reflexivity]. rewrite max_out_fl, N.eqb_refl. destruct (e_dbg e); reflexivity. }
      rewrite D. cbn [bind]. rewrite IH by (intros; apply Hl; right; auto). cbn [bind]. reflexivity. }
    apply H. intros i I. apply in_seq in I. lia.
  - rewrite node_value by (auto using root_typed). rewrite root_config by auto. reflexivity.
  - rewrite pbuild_spec. unfold pconfigure. cbn [fold_left].
    assert (A1 : plegal (fl v) (PHashLength n) = true).
    { cbn [plegal]. apply andb_true_intro. split; apply Nat.leb_le; lia. }
    rewrite A1. rewrite p_hash_spec; auto.
    + unfold phash_value, hash_value, root_h0. cbn [papply pdefault_config pc_hash_length pc_key c_params c_key c_last_node Spec.data].
      rewrite <- flat_map_concat_map. reflexivity.
    + pose proof (wfp_configure (fl v) [PHashLength n] _ (wfp_default (fl v))) as W.
      unfold pconfigure in W. cbn [fold_left] in W. rewrite A1 in W. exact W.
Qed.
End Tree.

(** *** Histories of a parallel State *)
Lemma p_count_is_bytes_fed v e imp ss pre post :
  supported e imp ->
  let range := match fl v with Spec.F2b => 2 ^ 128 | Spec.F2s => 2 ^ 64 end in
  let key_bytes := match fl v with Spec.F2b => 4 * 128 | Spec.F2s => 8 * 64 end in
  let keyed := negb (Nat.eqb (length (ApiSpec.pc_key (ApiSpec.pconfigure (fl v) ss (ApiSpec.pdefault_config (fl v))))) 0) in
  let n := N.of_nat (length (fed pre)) in
  exists s0, p_to_state v (pbuild v imp ss) = Ret s0 /\
  nth_error (watch (do_pop v e) s0 (pre ++ DoCount :: post)) (length pre) =
  Some (if e_dbg e && keyed && N.ltb ((key_bytes + n) mod range) key_bytes
        then Panicked
        else Number (n mod range)).
Proof.
  intros S. cbv zeta. destruct (phistory_shows v e imp ss pre DoCount post S) as (s0 & E & H). exists s0. split; [exact E|].
  rewrite H. cbn [pshown]. f_equal. unfold count_of.
  set (c := ApiSpec.pconfigure _ _ _). set (k := ApiSpec.pc_key c). set (n := length (fed pre)).
  replace (match fl v with Spec.F2b => 2 ^ 128 | Spec.F2s => 2 ^ 64 end) with (counter_range (fl v)) by (destruct v; reflexivity).
  destruct k as [|b k]; cbn [key_block_len length Nat.eqb negb].
  - rewrite andb_false_r. rewrite Nat.mul_0_r. replace (N.ltb _ (N.of_nat 0)) with false by (symmetry; apply N.ltb_ge; lia).
    rewrite andb_false_r. reflexivity.
  - rewrite andb_true_r. rewrite Nnat.Nat2N.inj_add.
    replace (N.of_nat (Spec.leaves (fl v) * Spec.block_len (fl v))) with (match fl v with Spec.F2b => 4 * 128 | Spec.F2s => 8 * 64 end)
      by (destruct v; reflexivity).
    destruct (_ && _); reflexivity.
Qed.

Lemma p_count_exact v e imp ss pre post :
  supported e imp -> N.of_nat (length (fed pre)) < 2 ^ 63 ->
  exists s0, p_to_state v (pbuild v imp ss) = Ret s0 /\
  nth_error (watch (do_pop v e) s0 (pre ++ DoCount :: post)) (length pre) =
  Some (Number (N.of_nat (length (fed pre)))).
Proof.
  intros S L. destruct (p_count_is_bytes_fed v e imp ss pre post S) as (s0 & E & H). exists s0. split; [exact E|]. rewrite H.
  set (n := N.of_nat (length (fed pre))) in *. change (2 ^ 63) with 9223372036854775808 in L.
  destruct v; cbn [fl].
  - change (2 ^ 128) with 340282366920938463463374607431768211456. change (4 * 128) with 512.
    rewrite !N.mod_small by lia. replace (N.ltb (512 + n) 512) with false by (symmetry; apply N.ltb_ge; lia).
    rewrite andb_false_r. reflexivity.
  - change (2 ^ 64) with 18446744073709551616. change (8 * 64) with 512.
    rewrite !N.mod_small by lia. replace (N.ltb (512 + n) 512) with false by (symmetry; apply N.ltb_ge; lia).
    rewrite andb_false_r. reflexivity.
Qed.

Lemma p_after_holds v e c ops : forall msg s, pholds v e c msg s ->
  pholds v e c (msg ++ fed ops) (after (do_pop v e) s ops).
Proof.
  induction ops as [|o ops IH]; intros msg s H.
  - unfold fed. cbn. rewrite app_nil_r. exact H.
  - unfold after. cbn [do_ops]. destruct (do_pop_holds _ _ _ _ _ o H) as (s' & E & H'). rewrite E.
    destruct (do_ops (do_pop v e) s' ops) as [s2 xs] eqn:D.
    specialize (IH _ _ H'). unfold after in IH. rewrite D in IH.
    replace (msg ++ fed (o :: ops)) with ((msg ++ fed_by o) ++ fed ops); [exact IH|].
    unfold fed. cbn [flat_map]. rewrite app_assoc. reflexivity.
Qed.

Lemma p_same_watch v e c msg s s' ops : pholds v e c msg s -> pholds v e c msg s' ->
  watch (do_pop v e) s ops = watch (do_pop v e) s' ops.
Proof.
  revert msg s s'. induction ops as [|o ops IH]; intros msg s s' H H'; auto.
  destruct (do_pop_holds _ _ _ _ _ o H) as (s1 & E1 & H1). destruct (do_pop_holds _ _ _ _ _ o H') as (s2 & E2 & H2).
  specialize (IH _ _ _ H1 H2). unfold watch in *. cbn [do_ops]. rewrite E1, E2.
  destruct (do_ops (do_pop v e) s1 ops), (do_ops (do_pop v e) s2 ops). cbn [snd] in *. congruence.
Qed.

Lemma p_no_stale_bytes v e imp imp' ss ops ops' more :
  supported e imp -> supported e imp' -> fed ops = fed ops' ->
  exists s s', p_to_state v (pbuild v imp ss) = Ret s /\ p_to_state v (pbuild v imp' ss) = Ret s' /\
  watch (do_pop v e) (after (do_pop v e) s ops) more =
  watch (do_pop v e) (after (do_pop v e) s' ops') more.
Proof.
  intros S S' E. rewrite !pbuild_spec. pose proof (wfp_configure (fl v) ss _ (wfp_default (fl v))) as W.
  destruct (pholds_new v e imp _ W S) as (s & E1 & H1 & _). destruct (pholds_new v e imp' _ W S') as (s' & E2 & H2 & _).
  exists s, s'. split; [exact E1|]. split; [exact E2|].
  pose proof (p_after_holds v e _ ops _ _ H1) as A1. pose proof (p_after_holds v e _ ops' _ _ H2) as A2. rewrite <- E in A2.
  eapply p_same_watch; eauto.
Qed.

Lemma p_hash_length_ok v e imp ss m : supported e imp ->
  exists h bytes, p_hash v e (pbuild v imp ss) m = Ret h /\ as_bytes h = Ret bytes /\
    length bytes = ApiSpec.pc_hash_length (ApiSpec.pconfigure (fl v) ss (ApiSpec.pdefault_config (fl v))) /\
    (1 <= length bytes <= Spec.max_out (fl v))%nat /\ length (h_bytes h) = Spec.max_out (fl v).
Proof.
  intros S. pose proof (wfp_configure (fl v) ss _ (wfp_default (fl v))) as W. rewrite pbuild_spec.
  destruct (Rh_size v _ _ (Rh_phash v _ m W)) as (b & A & B & C). eexists _, b. split; [apply p_hash_spec; auto|].
  split; [exact A|]. rewrite B. cbn [h_len phash_value]. rewrite Nat2N.id. split; [reflexivity|].
  rewrite B in C. cbn [h_len phash_value] in C. rewrite Nat2N.id in C. exact C.
Qed.

Lemma plive_length v e s : plive v e s ->
  exists h bytes, p_finalize v e s = Ret h /\ as_bytes h = Ret bytes /\
    length bytes = N.to_nat (ps_hash_length s) /\
    (1 <= length bytes <= Spec.max_out (fl v))%nat /\ length (h_bytes h) = Spec.max_out (fl v).
Proof.
  intros L. destruct (plive_holds _ _ _ L) as (c & msg & H).
  destruct (Rh_size v _ _ (Rh_phash v _ msg (ph_wf _ _ _ _ _ H))) as (b & A & B & C).
  eexists _, b. split; [apply (pholds_finalize _ _ _ _ _ H)|]. split; [exact A|].
  rewrite (ph_len _ _ _ _ _ H). split; [exact B|exact C].
Qed.

(** Every entry point returns. *)
Lemma plive_returns v e s x : plive v e s ->
  exists s' h, p_update v e s x = Ret s' /\ p_finalize v e s = Ret h.
Proof.
  intros L. destruct (plive_holds _ _ _ L) as (c & msg & H). destruct (pholds_update _ _ _ _ _ x H) as (s' & E & _).
  eexists _, _. split; [exact E|]. apply (pholds_finalize _ _ _ _ _ H).
Qed.
