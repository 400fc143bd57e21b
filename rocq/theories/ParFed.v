(** BLAKE2bp / BLAKE2sp seen from outside. *)
From Coq Require Import ZArith Arith NArith List Bool Lia ZifyBool ZifyNat ZifyN.
From Verif Require Import Base ByteLemmas Guts Portable KernelSpec Simd Impl Loops LaneLoops Sched SchedProof
  Lib StateProof ParamsProof FedProof ManyProof Par Stripe ParProof.
From Verif Require Spec ApiSpec.
Import ListNotations.
Open Scope N_scope.

Definition pkeyed (c : ApiSpec.pconfig) : bool :=
  match ApiSpec.pc_key c with [] => false | _ => true end.

(** The byte stream that is dealt out to the leaves. *)
Definition key_stripe (v : variant) (c : ApiSpec.pconfig) : list byte :=
  if pkeyed c then concat (repeat (Spec.pad_to (blockbytes v) (ApiSpec.pc_key c)) (D v)) else [].

Lemma pkey_block_length v c : wf_pconfig (fl v) c ->
  length (Spec.pad_to (blockbytes v) (ApiSpec.pc_key c)) = blockbytes v.
Proof.
  intros [_ W]. apply pad_to_length. rewrite max_out_fl in W. unfold outbytes, blockbytes in *. lia.
Qed.

Lemma concat_repeat_length {A} (b : list A) n : length (concat (repeat b n)) = (n * length b)%nat.
Proof. induction n; cbn [repeat concat]; rewrite ?app_length; cbn; lia. Qed.

Lemma key_stripe_length v c : wf_pconfig (fl v) c ->
  length (key_stripe v c) = if pkeyed c then P v else 0%nat.
Proof.
  intros W. unfold key_stripe. destruct (pkeyed c); auto.
  rewrite concat_repeat_length, pkey_block_length, P_eq by auto. reflexivity.
Qed.

Lemma concat_repeat_nth {A} (b : list A) n i : (i < n)%nat ->
  firstn (length b) (skipn (i * length b) (concat (repeat b n))) = b.
Proof.
  revert i. induction n as [|n IH]; intros i H; [lia|]. cbn [repeat concat]. destruct i as [|i].
  - cbn [Nat.mul skipn]. rewrite firstn_app, Nat.sub_diag, firstn_all. cbn [firstn]. apply app_nil_r.
  - rewrite skipn_app, skipn_all2 by (cbn; lia). cbn [app].
    replace (S i * length b - length b)%nat with (i * length b)%nat by (cbn; lia). apply IH. lia.
Qed.

Lemma L_stream v c msg i : wf_pconfig (fl v) c -> (i < D v)%nat ->
  L v i (key_stripe v c ++ msg) = Spec.data (fl v) (ApiSpec.pc_key c) (Spec.leaf_message (fl v) i msg).
Proof.
  intros W Hi. pose proof (key_stripe_length v c W) as KL. unfold Spec.data.
  destruct (pkeyed c) eqn:K.
  - rewrite (L_app v i Hi 1) by lia. rewrite L_small by (auto; lia).
    unfold key_stripe. rewrite K. pose proof (pkey_block_length v c W) as BL.
    pose proof (concat_repeat_nth (Spec.pad_to (blockbytes v) (ApiSpec.pc_key c)) (D v) i Hi) as CN. rewrite BL in CN. rewrite CN, block_len_fl.
    unfold pkeyed in K. destruct (ApiSpec.pc_key c); [discriminate|]. reflexivity.
  - unfold key_stripe. rewrite K. unfold pkeyed in K. destruct (ApiSpec.pc_key c); [|discriminate]. reflexivity.
Qed.

Record pholds (v : variant) (e : env) (c : ApiSpec.pconfig) (msg : list byte) (s : pstate) : Prop := {
  ph_wf : wf_pconfig (fl v) c;
  ph_sup : supported e (ps_imp s);
  ph_abs : exists k, pabs v (leaf_h0 v c) (key_stripe v c ++ msg) k s /\ tail_ok v k s;
  ph_root : ps_root_words s = root_h0 v c;
  ph_len : ps_hash_length s = N.of_nat (ApiSpec.pc_hash_length c);
  ph_keyed : ps_is_keyed s = pkeyed c }.

Definition phash_value (v : variant) (c : ApiSpec.pconfig) (msg : list byte) : hash :=
  {| h_bytes := Spec.words_to_bytes (fl v)
       (Spec.hash_words (fl v) (root_h0 v c)
          (flat_map (Spec.leaf_hash (fl v) (ApiSpec.pc_hash_length c) (ApiSpec.pc_key c) msg)
             (seq 0 (Spec.leaves (fl v)))) true);
     h_len := N.of_nat (ApiSpec.pc_hash_length c) |}.

Lemma leaf_h0_ok v c i : words_ok v (leaf_h0 v c i).
Proof. apply initial_state_ok. Qed.
Lemma root_h0_ok v c : words_ok v (root_h0 v c).
Proof. apply initial_state_ok. Qed.

Lemma phash_value_bytes v c msg : wf_pconfig (fl v) c ->
  as_bytes (phash_value v c msg) = Ret (ApiSpec.pdigest (fl v) c msg).
Proof.
  intros [W _]. unfold as_bytes, phash_value. cbn [h_bytes h_len]. rewrite Nat2N.id.
  rewrite slice0_ok; [reflexivity|].
  rewrite <- words_to_bytes_eq, words_to_bytes_length by (apply hash_words_ok, root_h0_ok).
  rewrite max_out_fl in W. lia.
Qed.

(** *** Creation *)
Lemma zeros_app a b : zeros (a + b) = zeros a ++ zeros b.
Proof. apply repeat_app. Qed.

Lemma copy_keys_spec v k : (length k <= blockbytes v)%nat -> forall n j m, (n <= m)%nat ->
  copy_keys v k (seq j n) (concat (repeat (Spec.pad_to (blockbytes v) k) j) ++ zeros (m * blockbytes v)) =
  Ret (concat (repeat (Spec.pad_to (blockbytes v) k) (j + n)) ++ zeros ((m - n) * blockbytes v)).
Proof.
  intros K. set (kb := Spec.pad_to (blockbytes v) k).
  assert (KL : length kb = blockbytes v) by (apply pad_to_length; auto).
  induction n as [|n IH]; intros j m H.
  - cbn [seq copy_keys]. rewrite Nat.add_0_r, Nat.sub_0_r. reflexivity.
  - cbn [seq copy_keys].
    assert (CL : length (concat (repeat kb j)) = (j * blockbytes v)%nat) by (rewrite concat_repeat_length, KL; auto).
    assert (ZL : length (zeros (m * blockbytes v)) = (m * blockbytes v)%nat) by apply repeat_length.
    rewrite copy_into_ok by (rewrite app_length, CL, ZL; nia). cbn [bind].
    rewrite firstn_app, CL, Nat.sub_diag, firstn_all2 by lia. cbn [firstn]. rewrite app_nil_r.
    rewrite skipn_app, skipn_all2, CL by lia. cbn [app].
    replace (j * blockbytes v + length k - j * blockbytes v)%nat with (length k) by lia.
    destruct m as [|m]; [lia|].
    replace (S m * blockbytes v)%nat with (length k + ((blockbytes v - length k) + m * blockbytes v))%nat by nia.
    rewrite zeros_app, skipn_app, skipn_all2 by (unfold zeros; rewrite repeat_length; lia).
    unfold zeros at 1. rewrite repeat_length, Nat.sub_diag. cbn [skipn app]. rewrite zeros_app.
    replace (concat (repeat kb j) ++ k ++ zeros (blockbytes v - length k) ++ zeros (m * blockbytes v))
      with (concat (repeat kb (S j)) ++ zeros (m * blockbytes v)).
    2:{ replace (S j) with (j + 1)%nat by lia. rewrite repeat_app, concat_app. cbn [repeat concat].
        rewrite app_nil_r.
        assert (KE : kb = k ++ zeros (blockbytes v - length k)) by reflexivity.
        rewrite KE at 2. rewrite <- !app_assoc. reflexivity. }
    rewrite IH by lia. replace (S j + n)%nat with (j + S n)%nat by lia. reflexivity.
Qed.

Lemma pholds_new v e imp c : wf_pconfig (fl v) c -> supported e imp ->
  exists s, p_to_state v (pparams_of v imp c) = Ret s /\ pholds v e c [] s /\ ps_imp s = imp.
Proof.
  intros W SU. unfold p_to_state, p_with_params. rewrite p_to_words_spec by auto. cbn [bind].
  pose proof (key_stripe_length v c W) as KL. pose proof (P_lt v) as PL. pose proof (P_pos v) as PP.
  cbn [pparams_of pp_key_length pp_key pp_hash_length pp_imp].
  assert (KP : N.ltb 0 (N.of_nat (length (ApiSpec.pc_key c))) = pkeyed c).
  { unfold pkeyed. destruct (ApiSpec.pc_key c); reflexivity. }
  rewrite KP.
  assert (E2 : (2 * par_degree v * blockbytes v = 2 * P v)%nat) by (rewrite P_eq; lia).
  destruct (pkeyed c) eqn:K.
  - rewrite Nat2N.id. destruct W as [W1 W2].
    assert (KB : length (Spec.pad_to (keybytes v) (ApiSpec.pc_key c)) = keybytes v).
    { apply pad_to_length. rewrite max_out_fl in W2. exact W2. }
    rewrite slice0_ok by (rewrite KB; rewrite max_out_fl in W2; exact W2). cbn [bind].
    replace (firstn (length (ApiSpec.pc_key c)) (Spec.pad_to (keybytes v) (ApiSpec.pc_key c))) with (ApiSpec.pc_key c).
    2:{ unfold Spec.pad_to. rewrite firstn_app, Nat.sub_diag, firstn_all. cbn [firstn]. rewrite app_nil_r. reflexivity. }
    change (zeros (2 * par_degree v * blockbytes v)) with
      (concat (repeat (Spec.pad_to (blockbytes v) (ApiSpec.pc_key c)) 0) ++ zeros ((2 * par_degree v) * blockbytes v)).
    rewrite copy_keys_spec.
    2:{ rewrite max_out_fl in W2. unfold outbytes, blockbytes in *. lia. }
    2:{ lia. }
    cbn [bind]. eexists. split; [reflexivity|]. split; [|reflexivity].
    assert (EB : N.to_nat (N.of_nat (blockbytes v * par_degree v) mod 65536) = P v).
    { rewrite P_eq in *. rewrite N.mod_small by lia. rewrite Nat2N.id. lia. }
    constructor; pstf; auto; try congruence.
    + constructor; auto.
    + exists 0%nat. split; [|intros X; lia]. cbn [Nat.add].
      assert (KS : concat (repeat (Spec.pad_to (blockbytes v) (ApiSpec.pc_key c)) (par_degree v)) = key_stripe v c).
      { unfold key_stripe. rewrite K. reflexivity. }
      rewrite KS, app_nil_r.
      constructor; pstf; cbn [Nat.mul skipn firstn]; rewrite ?EB; auto; try lia.
      * rewrite firstn_app, KL, Nat.sub_diag, firstn_all2 by lia. cbn [firstn]. apply app_nil_r.
      * rewrite app_length, KL. unfold zeros. rewrite repeat_length. rewrite P_eq. nia.
      * intros. apply leaf_h0_ok.
  - cbn [bind]. eexists. split; [reflexivity|]. split; [|reflexivity].
    constructor; pstf; auto; try congruence.
    exists 0%nat. split; [|intros X; lia]. unfold key_stripe. rewrite K. cbn [app].
    constructor; pstf; cbn [Nat.mul skipn firstn length Nat.add]; auto; try lia.
    + unfold zeros. rewrite repeat_length. lia.
    + intros. apply leaf_h0_ok.
Qed.

Lemma pholds_update v e c msg s x : pholds v e c msg s ->
  exists s', p_update v e s x = Ret s' /\ pholds v e c (msg ++ x) s' /\ ps_imp s' = ps_imp s.
Proof.
  intros [W SU (k & A & TO) R LN K].
  destruct (p_update_spec v e _ _ k s x SU A TO) as (s' & k' & E & A' & (C1 & C2 & C3 & C4) & TO').
  exists s'. split; [exact E|]. split; [|auto]. constructor; auto; try congruence.
  exists k'. rewrite app_assoc. auto.
Qed.

(** *** Finalization *)
Lemma flat_map_concat {A B} (f : A -> list B) (ls : list (list A)) :
  flat_map f (concat ls) = flat_map (flat_map f) ls.
Proof. induction ls as [|l ls IH]; auto. cbn [concat flat_map]. rewrite flat_map_app, IH. reflexivity. Qed.

Lemma flat_map_map {A B C} (f : B -> list C) (g : A -> B) (l : list A) :
  flat_map f (map g l) = flat_map (fun x => f (g x)) l.
Proof. induction l as [|a l IH]; auto. cbn [map flat_map]. rewrite IH. reflexivity. Qed.

Lemma flat_map_ext_in {A B} (f g : A -> list B) (l : list A) : (forall x, In x l -> f x = g x) ->
  flat_map f l = flat_map g l.
Proof.
  induction l as [|a l IH]; intros H; auto. cbn [flat_map]. rewrite (H a ltac:(left; auto)), IH; auto.
  intros x Hx. apply H. right. auto.
Qed.

Lemma finalize_root_spec v e imp c msg (g : nat -> list N) :
  supported e imp ->
  (forall i, (i < D v)%nat -> Spec.words_to_bytes (fl v) (g i) =
     Spec.leaf_hash (fl v) (ApiSpec.pc_hash_length c) (ApiSpec.pc_key c) msg i) ->
  finalize_root_words v e (map g (seq 0 (D v))) (root_h0 v c) (N.of_nat (ApiSpec.pc_hash_length c)) imp =
  Ret (phash_value v c msg).
Proof.
  intros SU G. unfold finalize_root_words.
  replace (debug_assert (e_dbg e) (Nat.eqb (outbytes v) (8 * wbytes v))) with (Ret tt).
  2:{ change (8 * wbytes v)%nat with (outbytes v). rewrite Nat.eqb_refl. unfold debug_assert. destruct (e_dbg e); reflexivity. }
  cbn [bind].
  rewrite compress1_loop_spec; auto using root_h0_ok; [|left; reflexivity]. cbn [bind].
  rewrite C1_whole by apply root_h0_ok.
  rewrite words_to_bytes_eq by (apply hash_words_ok, root_h0_ok). unfold phash_value. do 4 f_equal.
  rewrite flat_map_concat, flat_map_map, leaves_fl. apply flat_map_ext_in. intros i Hi. apply in_seq in Hi.
  rewrite <- G by lia. unfold Spec.words_to_bytes. apply flat_map_ext_in. intros x _. rewrite word_len_fl, encode_to_le. reflexivity.
Qed.

Lemma leaf_final v c msg i k : wf_pconfig (fl v) c -> (i < D v)%nat ->
  let X := key_stripe v c ++ msg in
  (k * P v <= length X)%nat -> (0 < k -> k * P v + tail v < length X)%nat ->
  Spec.words_to_bytes (fl v)
    (C1 v Parallel true (Nat.eqb i (D v - 1)) (skipn (i * blockbytes v) (skipn (k * P v) X))
       (chain v (L v i (firstn (k * P v) X)) (leaf_h0 v c i) 0 k) (N.of_nat (k * blockbytes v) mod cmod v))
  = Spec.leaf_hash (fl v) (ApiSpec.pc_hash_length c) (ApiSpec.pc_key c) msg i.
Proof.
  intros W Hi X LE TO. unfold Spec.leaf_hash. rewrite leaves_fl. f_equal.
  rewrite (C1_parallel v i Hi true _ (length X)) by (rewrite skipn_length; lia).
  rewrite <- (L_stream v c msg i W Hi). fold X. fold (leaf_h0 v c i).
  assert (LK : length (firstn (k * P v) X) = (k * P v)%nat) by (rewrite firstn_length; lia).
  assert (EL : L v i X = L v i (firstn (k * P v) X) ++ L v i (skipn (k * P v) X)).
  { rewrite <- (L_app v i Hi k) by auto. rewrite firstn_skipn. reflexivity. }
  pose proof (L_length_mult v i Hi k _ LK) as L1.
  set (a := L v i (firstn (k * P v) X)) in *. set (b := L v i (skipn (k * P v) X)) in *.
  rewrite EL.
  replace b with (skipn (k * blockbytes v) (a ++ b)) at 1
    by (rewrite skipn_app, skipn_all2, L1, Nat.sub_diag by lia; reflexivity).
  rewrite <- (chain_app v a b (leaf_h0 v c i) 0 k) by lia.
  apply C1_from; [apply leaf_h0_ok|]. intros Hk. specialize (TO Hk).
  rewrite app_length, L1. assert (NE : b <> []).
  { apply L_nonempty; auto. rewrite skipn_length. pose proof (tail_P v). unfold tail in *. nia. }
  destruct b; [congruence|cbn [length]; lia].
Qed.

Lemma pholds_finalize v e c msg s : pholds v e c msg s -> p_finalize v e s = Ret (phash_value v c msg).
Proof.
  intros [W SU (k & A & TO) R LN K]. destruct A as [A1 A2 A3 A4 A5 A6 A7]. unfold p_finalize.
  set (X := key_stripe v c ++ msg) in *.
  rewrite (mapM_Ret _ (fun i => (skipn (i * blockbytes v) (skipn (k * P v) X),
                                 N.of_nat (k * blockbytes v) mod cmod v, Nat.eqb i (D v - 1)))).
  2:{ intros i Hi. rewrite slice_ok by lia. cbn [bind]. rewrite A2.
      apply (f_equal (fun y => Ret (y, _, _))).
      rewrite <- A4, <- skipn_firstn_comm.
      destruct (Nat.le_gt_cases (i * blockbytes v) (ps_buf_len s)).
      - rewrite Nat.min_l by lia. reflexivity.
      - rewrite Nat.min_r by lia. rewrite !skipn_all2; auto; rewrite firstn_length; lia. }
  cbn [bind]. rewrite A1.
  rewrite (compress_leaves_spec v e _ true (fun i => chain v (L v i (firstn (k * P v) X)) (leaf_h0 v c i) 0 k)
    (fun i => skipn (i * blockbytes v) (skipn (k * P v) X)) _ (fun i => Nat.eqb i (D v - 1))); auto using aligned_blocks.
  2:{ intros i Hi. split; [apply chain_ok; auto|left; reflexivity]. }
  cbn [bind]. rewrite R, LN. apply finalize_root_spec; auto.
  intros i Hi. apply leaf_final; auto; fold X; [lia|]. intros Hk. specialize (TO Hk). lia.
Qed.

(** *** One-shot hashing *)
Lemma p_hash_spec v e imp c msg : wf_pconfig (fl v) c -> supported e imp ->
  p_hash v e (pparams_of v imp c) msg = Ret (phash_value v c msg).
Proof.
  intros W SU. unfold p_hash. cbn [pparams_of pp_key_length pp_hash_length pp_imp].
  assert (KP : N.ltb 0 (N.of_nat (length (ApiSpec.pc_key c))) = pkeyed c).
  { unfold pkeyed. destruct (ApiSpec.pc_key c); reflexivity. }
  rewrite KP. destruct (pkeyed c) eqn:K.
  - destruct (pholds_new v e imp c W SU) as (s & E & H & _). rewrite E. cbn [bind].
    destruct (pholds_update v e c [] s msg H) as (s' & E' & H' & _). rewrite E'. cbn [bind].
    apply pholds_finalize. exact H'.
  - fold (pparams_of v imp c). rewrite p_to_words_spec by auto. cbn [bind].
    rewrite (mapM_Ret _ (fun i => (skipn (i * blockbytes v) msg, 0, Nat.eqb i (D v - 1)))).
    2:{ intros i Hi. rewrite slice_from_ok by lia. cbn [bind]. do 3 f_equal.
        destruct (Nat.le_gt_cases (i * blockbytes v) (length msg)).
        - rewrite Nat.min_r by lia. reflexivity.
        - rewrite Nat.min_l by lia. rewrite !skipn_all2; auto; lia. }
    cbn [bind].
    rewrite (compress_leaves_spec v e imp true (leaf_h0 v c) (fun i => skipn (i * blockbytes v) msg) 0 (fun i => Nat.eqb i (D v - 1)));
      auto.
    3:{ intros i Hi. split; [apply leaf_h0_ok|left; reflexivity]. }
    2:{ split; [destruct v; reflexivity|]. apply N.mod_0_l. destruct v; cbn; lia. }
    cbn [bind]. apply finalize_root_spec; auto. intros i Hi.
    pose proof (leaf_final v c msg i 0 W Hi) as F. cbv zeta in F. unfold key_stripe in F. rewrite K in F.
    cbn [app Nat.mul firstn skipn] in F. change (N.of_nat 0 mod cmod v) with (0 mod cmod v) in F.
    rewrite N.mod_0_l in F by apply cmod_nz. apply F; lia.
Qed.

(** *** Counting *)
Lemma pholds_count v e c msg s : pholds v e c msg s ->
  let kb := if pkeyed c then P v else 0%nat in
  let total := N.of_nat (kb + length msg) mod cmod v in
  p_count v e s = if pkeyed c then count_sub v e total (N.of_nat (P v)) else Ret total.
Proof.
  intros [W SU (k & A & TO) R LN K]. cbv zeta. unfold p_count. rewrite K, <- P_eq.
  destruct A as [A1 A2 A3 A4 A5 A6 A7].
  assert (E : count_wrapping_add v ((ps_count s * N.of_nat (par_degree v)) mod cmod v) (N.of_nat (ps_buf_len s)) =
              N.of_nat ((if pkeyed c then P v else 0) + length msg) mod cmod v).
  { rewrite app_length, key_stripe_length in A3 by auto. rewrite A3, A2. unfold count_wrapping_add.
    rewrite N.mul_mod_idemp_l by apply cmod_nz. rewrite N.add_mod_idemp_l by apply cmod_nz.
    f_equal. rewrite P_eq. lia. }
  rewrite E. reflexivity.
Qed.
