(** The modelled crate refines the abstract machine, for every program. *)
From Coq Require Import String.
From Coq Require Import ZArith Arith NArith List Bool Lia ZifyBool ZifyNat ZifyN.
From Verif Require Import Base ByteLemmas Guts Portable KernelSpec Simd Impl Loops LaneLoops Sched SchedProof
  Lib StateProof ParamsProof FedProof Many ManyProof Par Stripe ParProof ParFed HashProof Machine Api.
From Verif Require Spec ApiSpec.
Import ListNotations.
Open Scope list_scope.
Open Scope N_scope.
Local Notation length := List.length.

(** ** Pointwise related stores *)
Lemma F2_length {A B} (R : A -> B -> Prop) l m : Forall2 R l m -> length l = length m.
Proof. induction 1; cbn; auto. Qed.

Lemma F2_nth {A B} (R : A -> B -> Prop) l m i : Forall2 R l m ->
  match nth_error l i, nth_error m i with
  | Some a, Some b => R a b | None, None => True | _, _ => False end.
Proof. intros H. revert i. induction H; intros [|i]; cbn; auto. apply IHForall2. Qed.

Lemma F2_intro {A B} (R : A -> B -> Prop) l : forall m, length l = length m ->
  (forall i a b, nth_error l i = Some a -> nth_error m i = Some b -> R a b) -> Forall2 R l m.
Proof.
  induction l as [|a l IH]; intros [|b m] L H; cbn in L; try discriminate; constructor.
  - apply (H 0%nat); reflexivity.
  - apply IH; [lia|]. intros i x y Hx Hy. apply (H (S i)); auto.
Qed.

Lemma F2_snoc {A B} (R : A -> B -> Prop) l m a b : Forall2 R l m -> R a b -> Forall2 R (l ++ [a]) (m ++ [b]).
Proof. intros H K. apply Forall2_app; auto. Qed.

Lemma replace_set {A} (l : list A) : forall i x, (i < length l)%nat -> replace l i x = set l i x.
Proof.
  unfold replace. induction l as [|y l IH]; intros i x H; cbn [length] in H; [lia|].
  destruct i as [|i]; [reflexivity|]. cbn [firstn skipn app set]. rewrite <- IH by lia. reflexivity.
Qed.

Lemma nth_error_lt {A} (l : list A) i x : nth_error l i = Some x -> (i < length l)%nat.
Proof. intros H. apply nth_error_Some. congruence. Qed.

Lemma F2_set {A B} (R : A -> B -> Prop) l m : Forall2 R l m -> forall i a b, R a b -> Forall2 R (set l i a) (set m i b).
Proof.
  induction 1 as [|x y l m Hxy H IH]; intros i a b K; [constructor|]. destruct i; cbn [set]; constructor; auto.
Qed.

Lemma F2_set_l {A B} (R : A -> B -> Prop) l m : Forall2 R l m -> forall i a b, nth_error m i = Some b -> R a b ->
  Forall2 R (set l i a) m.
Proof.
  induction 1 as [|x y l m Hxy H IH]; intros i a b E K; [constructor|].
  destruct i; cbn [set nth_error] in *; constructor; eauto. congruence.
Qed.

(** ** The relation between objects *)
Definition Rp v e (x : Lib.params) (c : ApiSpec.config) : Prop :=
  wf_config (fl v) c /\ exists imp, supported e imp /\ x = params_of v imp c.
Definition Rs v e (s : state) (a : astate) : Prop := holds v e (fst a) (snd a) s.
Definition Rj v e (j : hash_many_job) (a : ajob) : Prop :=
  if aj_run a then complete v e (aj_config a) (aj_msg a) j else pending v e (aj_config a) (aj_msg a) j.
Definition Rpp v e (x : pparams) (c : ApiSpec.pconfig) : Prop :=
  wf_pconfig (fl v) c /\ exists imp, supported e imp /\ x = pparams_of v imp c.
Definition Rps v e (s : pstate) (a : apstate) : Prop := pholds v e (fst a) (snd a) s.
Definition Rh v (h : hash) (a : ahash) : Prop :=
  h_bytes h = ah_array a /\ h_len h = N.of_nat (ah_len a) /\
  length (ah_array a) = outbytes v /\ (1 <= ah_len a <= outbytes v)%nat.

Record R v e (w : world) (a : aworld) : Prop := {
  R_params : Forall2 (Rp v e) (w_params w) (a_params a);
  R_states : Forall2 (Rs v e) (w_states w) (a_states a);
  R_jobs : Forall2 (Rj v e) (w_jobs w) (a_jobs a);
  R_pparams : Forall2 (Rpp v e) (w_pparams w) (a_pparams a);
  R_pstates : Forall2 (Rps v e) (w_pstates w) (a_pstates a);
  R_hashes : Forall2 (Rh v) (w_hashes w) (a_hashes a) }.

(** ** Hash values *)
Lemma spec_bytes_length v h0 d ln : words_ok v h0 ->
  length (Spec.words_to_bytes (fl v) (Spec.hash_words (fl v) h0 d ln)) = outbytes v.
Proof. intros H. rewrite <- words_to_bytes_eq, words_to_bytes_length by (apply hash_words_ok, H). reflexivity. Qed.

Lemma Rh_hash v c msg : wf_config (fl v) c -> Rh v (hash_value v c msg) (hash_of (fl v) c msg).
Proof.
  intros W. pose proof (wf_digest _ _ W) as D. rewrite max_out_fl in D.
  unfold Rh, hash_value, hash_of. cbn [h_bytes h_len ah_array ah_len]. split; [reflexivity|]. split; [lia|].
  split; [apply spec_bytes_length, initial_state_ok|]. lia.
Qed.

Lemma Rh_phash v c msg : wf_pconfig (fl v) c -> Rh v (phash_value v c msg) (phash_of (fl v) c msg).
Proof.
  intros [W _]. rewrite max_out_fl in W.
  unfold Rh, phash_value, phash_of. cbn [h_bytes h_len ah_array ah_len]. split; [reflexivity|]. split; [lia|].
  split; [apply spec_bytes_length, initial_state_ok|]. lia.
Qed.

Lemma first_words_ok v c : words_ok v (first_words v c).
Proof.
  unfold first_words. destruct (ApiSpec.c_key c); [apply initial_state_ok|]. apply F_ok, initial_state_ok.
Qed.

Lemma as_bytes_R v h a : Rh v h a -> as_bytes h = Ret (visible a).
Proof.
  intros (E1 & E2 & L1 & L2). unfold as_bytes, visible. rewrite E1, E2, Nat2N.id. apply slice0_ok. lia.
Qed.

(** ** Counting *)
Lemma cmod_range v : cmod v = counter_range (fl v).
Proof. destruct v; reflexivity. Qed.

Lemma count_R v e kb msg (K : (N.of_nat kb < cmod v)) :
  (if Nat.eqb kb 0 then Ret (N.of_nat (length msg) mod cmod v)
   else count_sub v e (N.of_nat (kb + length msg) mod cmod v) (N.of_nat kb)) =
  match count_of (fl v) (e_dbg e) kb msg with Some n => Ret n | None => Panic end.
Proof.
  unfold count_of. rewrite <- cmod_range. pose proof (cmod_nz v) as NZ.
  destruct (Nat.eqb_spec kb 0) as [->|NK].
  - cbn [Nat.add N.of_nat]. destruct (N.ltb_spec (N.of_nat (length msg) mod cmod v) 0); [lia|].
    rewrite andb_false_r. reflexivity.
  - unfold count_sub. rewrite Nat2N.inj_add.
    set (a := N.of_nat kb) in *. set (m := N.of_nat (length msg)). clearbody m.
    destruct (N.leb_spec a ((a + m) mod cmod v)) as [LE|GT].
    + destruct (N.ltb_spec ((a + m) mod cmod v) a); [lia|]. rewrite andb_false_r. f_equal.
      rewrite <- (N.add_mod_idemp_r a m) in * by auto. pose proof (N.mod_lt m _ NZ) as ML.
      destruct (N.lt_ge_cases (a + m mod cmod v) (cmod v)) as [S|S].
      * rewrite (N.mod_small (a + _)) by auto. lia.
      * rewrite (N.mod_eq (a + _)) in LE by auto.
        assert (Q : (a + m mod cmod v) / cmod v = 1).
        { symmetry. apply N.div_unique with (r := a + m mod cmod v - cmod v); lia. }
        rewrite Q in LE. lia.
    + destruct (N.ltb_spec ((a + m) mod cmod v) a); [|lia]. rewrite andb_true_r.
      destruct (e_dbg e); auto. f_equal.
      rewrite <- (N.add_mod_idemp_r a m) in * by auto. pose proof (N.mod_lt m _ NZ) as ML.
      destruct (N.lt_ge_cases (a + m mod cmod v) (cmod v)) as [S|S].
      * rewrite (N.mod_small (a + _)) in GT by auto. lia.
      * rewrite (N.mod_eq (a + _)) by auto.
        assert (Q : (a + m mod cmod v) / cmod v = 1).
        { symmetry. apply N.div_unique with (r := a + m mod cmod v - cmod v); lia. }
        rewrite Q. lia.
Qed.

Lemma count_state_R v e c msg s : holds v e c msg s ->
  count v e s = match count_of (fl v) (e_dbg e) (key_block_len (fl v) (ApiSpec.c_key c)) msg with
                | Some n => Ret n | None => Panic end.
Proof.
  intros H. rewrite (holds_count _ _ _ _ _ H). unfold key_bytes, keyed, key_block_len. rewrite block_len_fl.
  rewrite <- count_R.
  - destruct (ApiSpec.c_key c); [reflexivity|]. destruct v; reflexivity.
  - destruct (ApiSpec.c_key c); destruct v; reflexivity.
Qed.

Lemma count_pstate_R v e c msg s : pholds v e c msg s ->
  p_count v e s = match count_of (fl v) (e_dbg e) (Spec.leaves (fl v) * key_block_len (fl v) (ApiSpec.pc_key c)) msg with
                | Some n => Ret n | None => Panic end.
Proof.
  intros H. rewrite (pholds_count _ _ _ _ _ H). unfold pkeyed, key_block_len. rewrite block_len_fl, leaves_fl.
  rewrite <- count_R.
  - destruct (ApiSpec.pc_key c).
    + rewrite Nat.mul_0_r. reflexivity.
    + rewrite <- P_eq. pose proof (P_pos v). destruct (Nat.eqb_spec (P v) 0); [lia|reflexivity].
  - destruct (ApiSpec.pc_key c); destruct v; reflexivity.
Qed.

(** ** io::Write *)
Lemma write_all_once {S} (wr : S -> list byte -> outcome (S * nat)) s s' buf :
  buf <> [] -> wr s buf = Ret (s', length buf) -> write_all wr s buf = Ret s'.
Proof.
  intros NE E. unfold write_all. destruct buf as [|b r]; [congruence|].
  cbn [write_all_loop length]. rewrite E. cbn [bind length].
  change (Nat.eqb (Datatypes.S (length r)) 0) with false. cbv iota.
  rewrite slice_from_ok by (cbn; lia). cbn [bind].
  rewrite skipn_all2 by (cbn; lia). destruct (length r); reflexivity.
Qed.

(** ** Batches *)
Lemma until_upto {A} (xs : list (option (nat * A))) : until_none xs = upto_none xs.
Proof. induction xs as [|[x|] xs IH]; cbn; auto. rewrite IH. reflexivity. Qed.

Lemma no_repeats_NoDup l : no_repeats l = true -> NoDup l.
Proof.
  induction l as [|x l IH]; cbn [no_repeats]; intros H; constructor.
  - apply andb_prop in H. destruct H as [H _]. intros Hin. apply negb_true_iff in H.
    assert (E : existsb (Nat.eqb x) l = true) by (apply existsb_exists; exists x; split; auto; apply Nat.eqb_refl). congruence.
  - apply andb_prop in H. apply IH, H.
Qed.

Lemma feed_length l x : length (feed l x) = length l.
Proof.
  unfold feed. destruct (nth_error l (fst x)) as [[c msg]|] eqn:E; auto.
  rewrite replace_set by (eapply nth_error_lt; eauto). apply set_length.
Qed.
Lemma feeds_length xs : forall l, length (fold_left feed xs l) = length l.
Proof. induction xs as [|x xs IH]; intros l; cbn; auto. rewrite IH. apply feed_length. Qed.

Lemma feed_other l x r : r <> fst x -> nth_error (feed l x) r = nth_error l r.
Proof.
  intros H. unfold feed. destruct (nth_error l (fst x)) as [[c msg]|] eqn:E; auto.
  rewrite replace_set by (eapply nth_error_lt; eauto). apply nth_error_set_ne. auto.
Qed.
Lemma feeds_other xs : forall l r, ~ In r (map fst xs) -> nth_error (fold_left feed xs l) r = nth_error l r.
Proof.
  induction xs as [|x xs IH]; intros l r H; auto. cbn [fold_left map] in *. rewrite IH by (intros K; apply H; right; auto).
  apply feed_other. intros K. apply H. left. auto.
Qed.
Lemma feeds_in xs : forall l r x c msg, NoDup (map fst xs) -> In (r, x) xs -> nth_error l r = Some (c, msg) ->
  nth_error (fold_left feed xs l) r = Some (c, msg ++ x).
Proof.
  induction xs as [|y xs IH]; intros l r x c msg ND H E; [destruct H|]. cbn [fold_left map] in *. inversion ND; subst.
  destruct H as [->|H].
  - rewrite feeds_other by auto. unfold feed. cbn [fst snd]. unfold astate in *. rewrite E.
    rewrite replace_set by (eapply nth_error_lt; eauto). apply nth_error_set_eq. eapply nth_error_lt; eauto.
  - eapply IH; eauto. rewrite feed_other; auto. intros ->. apply H2. apply in_map_iff. exists (fst y, x). auto.
Qed.

Lemma run_length l x : length (run_job l x) = length l.
Proof.
  unfold run_job. destruct (nth_error l x) as [j|] eqn:E; auto.
  rewrite replace_set by (eapply nth_error_lt; eauto). apply set_length.
Qed.
Lemma runs_length xs : forall l, length (fold_left run_job xs l) = length l.
Proof. induction xs as [|x xs IH]; intros l; cbn; auto. rewrite IH. apply run_length. Qed.
Lemma run_other l x r : r <> x -> nth_error (run_job l x) r = nth_error l r.
Proof.
  intros H. unfold run_job. destruct (nth_error l x) as [j|] eqn:E; auto.
  rewrite replace_set by (eapply nth_error_lt; eauto). apply nth_error_set_ne. auto.
Qed.
Lemma runs_other xs : forall l r, ~ In r xs -> nth_error (fold_left run_job xs l) r = nth_error l r.
Proof.
  induction xs as [|x xs IH]; intros l r H; auto. cbn [fold_left] in *. rewrite IH by (intros K; apply H; right; auto).
  apply run_other. intros K. apply H. left. auto.
Qed.
Lemma runs_in xs : forall l r j, NoDup xs -> In r xs -> nth_error l r = Some j ->
  nth_error (fold_left run_job xs l) r = Some {| aj_config := aj_config j; aj_msg := aj_msg j; aj_run := true |}.
Proof.
  induction xs as [|y xs IH]; intros l r j ND H E; [destruct H|]. cbn [fold_left] in *. inversion ND; subst.
  destruct H as [->|H].
  - rewrite runs_other by auto. unfold run_job. rewrite E.
    rewrite replace_set by (eapply nth_error_lt; eauto). apply nth_error_set_eq. eapply nth_error_lt; eauto.
  - eapply IH; eauto. rewrite run_other; auto. intros ->. auto.
Qed.

Lemma update_many_R v e ss aa xs : Forall2 (Rs v e) ss aa ->
  borrowable (length ss) (map fst (until_none xs)) = true ->
  exists ss', update_many v e ss xs = Ret (ss', S (length (until_none xs))) /\
    Forall2 (Rs v e) ss' (fold_left feed (until_none xs) aa).
Proof.
  intros H B. unfold borrowable in B. apply andb_prop in B. destruct B as [B1 B2]. apply no_repeats_NoDup in B1.
  rewrite forallb_forall in B2. rewrite until_upto in *.
  destruct (update_many_spec v e ss xs B1) as (ss' & E & L & U & T).
  - intros r x Hin. assert (r < length ss)%nat.
    { assert (In r (map fst (upto_none xs))) as K by (apply in_map_iff; exists (r, x); auto). specialize (B2 _ K). lia. }
    pose proof (F2_nth _ _ _ r H) as K. destruct (nth_error ss r) as [s|] eqn:Es; [|apply nth_error_None in Es; lia].
    destruct (nth_error aa r) as [[c msg]|]; [|destruct K]. exists s, c, msg. auto.
  - exists ss'. split; [exact E|]. apply F2_intro.
    + rewrite L, feeds_length. eapply F2_length; eauto.
    + intros i s a Es Ea. destruct (in_dec Nat.eq_dec i (map fst (upto_none xs))) as [Hin|Hin].
      * apply in_map_iff in Hin. destruct Hin as ([r x] & <- & Hin). cbn [fst] in *.
        assert (Hr : (r < length ss)%nat) by (rewrite <- L; eapply nth_error_lt; eauto).
        pose proof (F2_nth _ _ _ r H) as K. destruct (nth_error ss r) as [s0|] eqn:Es0; [|apply nth_error_None in Es0; lia].
        destruct (nth_error aa r) as [[c msg]|] eqn:Ea0; [|destruct K].
        destruct (T r x s0 c msg Hin Es0 K) as (s' & Es' & Hh & _).
        rewrite (feeds_in _ _ _ _ _ _ B1 Hin Ea0) in Ea. injection Ea as <-. rewrite Es in Es'. injection Es' as <-. exact Hh.
      * rewrite feeds_other in Ea by auto. rewrite U in Es by auto.
        pose proof (F2_nth _ _ _ i H) as K. rewrite Es, Ea in K. exact K.
Qed.

Lemma until_map xs : upto_none (map (option_map (fun r : nat => (r, tt))) xs) = map (fun r => (r, tt)) (until_none xs).
Proof. induction xs as [|[x|] xs IH]; cbn; auto. rewrite IH. reflexivity. Qed.

Lemma hash_many_R v e js aa xs : Forall2 (Rj v e) js aa ->
  borrowable (length js) (until_none xs) = true ->
  exists js', hash_many v e js (map (option_map (fun r => (r, tt))) xs) = Ret (js', S (length (until_none xs))) /\
    Forall2 (Rj v e) js' (fold_left run_job (until_none xs) aa).
Proof.
  intros H B. unfold borrowable in B. apply andb_prop in B. destruct B as [B1 B2]. apply no_repeats_NoDup in B1.
  rewrite forallb_forall in B2.
  assert (MF : map fst (map (fun r : nat => (r, tt)) (until_none xs)) = until_none xs) by (rewrite map_map; apply map_id).
  assert (RJ : forall j a, Rj v e j a ->
    pending v e (aj_config a) (aj_msg a) j \/ complete v e (aj_config a) (aj_msg a) j).
  { intros j a. unfold Rj. destruct (aj_run a); auto. }
  destruct (hash_many_spec v e js (map (option_map (fun r => (r, tt))) xs)) as (js' & E & L & U & T).
  - rewrite until_map, MF. exact B1.
  - intros r x Hin. rewrite until_map in Hin. apply in_map_iff in Hin. destruct Hin as (r' & K & Hin). injection K as -> <-.
    specialize (B2 _ Hin). pose proof (F2_nth _ _ _ r H) as K.
    destruct (nth_error js r) as [j|] eqn:Ej; [|apply nth_error_None in Ej; lia].
    destruct (nth_error aa r) as [a|]; [|destruct K]. exists j, (aj_config a), (aj_msg a). auto.
  - rewrite until_map in *. rewrite map_length in E. rewrite MF in U.
    exists js'. split; [exact E|]. apply F2_intro.
    + rewrite L, runs_length. eapply F2_length; eauto.
    + intros i j a Ej Ea. destruct (in_dec Nat.eq_dec i (until_none xs)) as [Hin|Hin].
      * assert (Hr : (i < length js)%nat) by (rewrite <- L; eapply nth_error_lt; eauto).
        pose proof (F2_nth _ _ _ i H) as K. destruct (nth_error js i) as [j0|] eqn:Ej0; [|apply nth_error_None in Ej0; lia].
        destruct (nth_error aa i) as [a0|] eqn:Ea0; [|destruct K].
        destruct (T i tt j0 (aj_config a0) (aj_msg a0)) as (j' & Ej' & Hh & _); auto.
        { apply in_map_iff. exists i. auto. }
        rewrite (runs_in _ _ _ _ B1 Hin Ea0) in Ea. injection Ea as <-. rewrite Ej in Ej'. injection Ej' as <-. exact Hh.
      * rewrite runs_other in Ea by auto. rewrite U in Ej by auto.
        pose proof (F2_nth _ _ _ i H) as K. rewrite Ej, Ea in K. exact K.
Qed.

(** ** Texts *)
Lemma params_debug_R v imp c : params_debug (params_of v imp c) =
  show_params (fl v) (ApiSpec.c_params c) (ApiSpec.c_last_node c).
Proof. unfold params_debug, show_params, params_of. destruct v; reflexivity. Qed.

Lemma borrowable_eq {A} (n : nat) (l : list (nat * A)) :
  borrowable n (map fst l) = no_repeats (map fst l) && forallb (fun x => Nat.ltb (fst x) n) l.
Proof. unfold borrowable. f_equal. induction l as [|x l IH]; auto. cbn [map forallb]. rewrite IH. reflexivity. Qed.

(** ** One call *)
Ltac wsimp := cbn [w_params w_states w_jobs w_pparams w_pstates w_hashes with_w_params with_w_states with_w_jobs
  with_w_pparams with_w_pstates with_w_hashes a_params a_states a_jobs a_pparams a_pstates a_hashes with_a_params
  with_a_states with_a_jobs with_a_pparams with_a_pstates with_a_hashes fst snd put_state put_pstate].

Ltac keepR := constructor; wsimp; auto using F2_snoc.

(** Look up one object in both stores. *)
Ltac obj H i :=
  let K := fresh "K" in pose proof (F2_nth _ _ _ i H) as K;
  unfold on_obj, with_obj in *;
  match type of K with
  | match nth_error ?l i with Some _ => _ | None => _ end =>
      let El := fresh "El" in destruct (nth_error l i) eqn:El
  end;
  match type of K with
  | match nth_error ?m i with Some _ => _ | None => _ end =>
      let Em := fresh "Em" in destruct (nth_error m i) eqn:Em; try (destruct K; fail)
  end.

Definition agree v e (x : world * obs) (y : aworld * obs) : Prop := snd x = snd y /\ R v e (fst x) (fst y).

Lemma agree_hash v e w a h b : R v e w a -> Rh v h b -> agree v e (push_hash w h) (new_hash a b).
Proof. intros [] Hb. unfold push_hash, new_hash. split; [reflexivity|]. keepR. Qed.

Lemma R_put_state v e w a i s x y : R v e w a -> nth_error (w_states w) i = Some x -> nth_error (a_states a) i = Some y ->
  forall b, Rs v e s b -> R v e (put_state w i s) (with_a_states (replace (a_states a) i b) a).
Proof.
  intros [] E1 E2 b K. rewrite replace_set by (eapply nth_error_lt; eauto). unfold put_state. keepR. apply F2_set; auto.
Qed.
Lemma R_put_pstate v e w a i s x y : R v e w a -> nth_error (w_pstates w) i = Some x -> nth_error (a_pstates a) i = Some y ->
  forall b, Rps v e s b -> R v e (put_pstate w i s) (with_a_pstates (replace (a_pstates a) i b) a).
Proof.
  intros [] E1 E2 b K. rewrite replace_set by (eapply nth_error_lt; eauto). unfold put_pstate. keepR. apply F2_set; auto.
Qed.

Lemma step_R v e imp w a c : supported e imp -> R v e w a -> well_typed (fl v) c ->
  agree v e (step v e imp w c) (astep (fl v) (e_dbg e) a c).
Proof.
  intros SU RW T. pose proof RW as [RP RS RJ RPP RPS RH].
  assert (DC : Rp v e (params_new v imp) (ApiSpec.default_config (fl v))).
  { split; [apply wf_default|]. exists imp. split; auto. apply params_new_of. }
  assert (DPC : Rpp v e (pparams_new v imp) (ApiSpec.pdefault_config (fl v))).
  { split; [apply wfp_default|]. exists imp. split; auto. apply pparams_new_of. }
  destruct c; cbn [step astep].
  - (* NewParams *) split; [reflexivity|]. keepR.
  - obj RP p; (split; [reflexivity|]); auto. keepR.
  - (* Set_ *) obj RP p; [|split; auto]. destruct K as (W & imp' & SU' & ->).
    change (call_setter v s) with (setter v s). unfold run_method. rewrite setter_spec.
    rewrite replace_set by (eapply nth_error_lt; eauto).
    destruct (ApiSpec.legal (fl v) s) eqn:LG; (split; [reflexivity|]); keepR.
    + apply F2_set; auto. split; [apply wf_apply; auto|]. exists imp'. auto.
    + eapply F2_set_l; eauto. split; auto. exists imp'. auto.
  - (* ForcePortable *) obj RP p; [|split; auto]. destruct K as (W & imp' & SU' & ->).
    split; [reflexivity|]. unfold run_method. cbn [force_portable m_assign]. keepR.
    eapply F2_set_l; eauto. split; auto. exists Portable. split; [exact I|]. reflexivity.
  - (* ShowParams *) obj RP p; [|split; auto]. destruct K as (W & imp' & SU' & ->).
    split; auto. cbn [snd]. rewrite params_debug_R. reflexivity.
  - (* OneShot *) unfold blake2_default. rewrite params_new_of, params_hash_spec by (auto using wf_default).
    apply agree_hash; auto. apply Rh_hash, wf_default.
  - (* HashWith *) obj RP p; [|split; auto]. destruct K as (W & imp' & SU' & ->).
    rewrite params_hash_spec by auto. apply agree_hash; auto. apply Rh_hash; auto.
  - (* NewState *) split; [reflexivity|]. keepR. apply F2_snoc; auto. rewrite params_new_of.
    apply holds_new; auto using wf_default.
  - (* ToState *) obj RP p; [|split; auto]. destruct K as (W & imp' & SU' & ->).
    split; [reflexivity|]. keepR. apply F2_snoc; auto. apply holds_new; auto.
  - obj RS s; (split; [reflexivity|]); auto. keepR.
  - (* Update *) obj RS s; [|split; auto]. destruct a0 as [cf msg].
    destruct (holds_update _ _ _ _ _ m K) as (s' & E & Hh & _). rewrite E. split; [reflexivity|].
    eapply R_put_state; eauto.
  - (* Write *) obj RS s; [|split; auto]. destruct a0 as [cf msg]. unfold write.
    destruct (holds_update _ _ _ _ _ m K) as (s' & E & Hh & _). rewrite E. split; [reflexivity|].
    eapply R_put_state; eauto.
  - (* WriteAll *) obj RS s; [|split; auto]. destruct a0 as [cf msg].
    destruct m as [|b0 m0] eqn:Em0.
    + change (write_all (write v e) s0 []) with (Ret s0). split; [reflexivity|]. eapply R_put_state; eauto.
      cbn [snd fst]. rewrite app_nil_r. exact K.
    + rewrite <- Em0 in *. destruct (holds_update _ _ _ _ _ m K) as (s' & E & Hh & _).
      rewrite (write_all_once _ _ s'); [|congruence|unfold write; rewrite E; reflexivity].
      split; [reflexivity|]. eapply R_put_state; eauto.
  - (* Flush *) obj RS s; [|split; auto]. split; [reflexivity|]. cbn [flush finish fst]. unfold put_state. keepR.
    eapply F2_set_l; eauto.
  - (* SetLastNode *) obj RS s; [|split; auto]. destruct a0 as [cf msg]. split; [reflexivity|].
    eapply R_put_state; eauto. apply holds_set_last_node. exact K.
  - (* Finalize *) obj RS s; [|split; auto]. destruct a0 as [cf msg].
    rewrite (holds_finalize _ _ _ _ _ K). apply agree_hash; auto. apply Rh_hash, K.
  - (* Count *) obj RS s; [|split; auto]. destruct a0 as [cf msg].
    rewrite (count_state_R _ _ _ _ _ K). unfold report. destruct (count_of _ _ _ _); split; auto.
  - (* ShowState *) obj RS s; [|split; auto]. destruct a0 as [cf msg]. unfold state_debug.
    rewrite (count_state_R _ _ _ _ _ K). unfold report.
    destruct (count_of _ _ _ _); split; auto. cbn [finish bind snd]. destruct K. rewrite hd_ln, hd_len. reflexivity.
  - (* UpdateMany *) cbv zeta. rewrite <- borrowable_eq. rewrite (F2_length _ _ _ RS).
    destruct (borrowable _ _) eqn:B; [|split; auto]. rewrite <- (F2_length _ _ _ RS) in B.
    destruct (update_many_R v e _ _ xs RS B) as (ss' & E & F). rewrite E. split; [reflexivity|]. keepR.
  - (* NewJob *) obj RP p; [|split; auto]. destruct K as (W & imp' & SU' & ->).
    destruct (job_new_spec v e imp' c m W SU') as (j & E & _ & _ & PC & FN). rewrite E.
    split; [reflexivity|]. keepR. apply F2_snoc; auto. unfold Rj. cbn [aj_run aj_config aj_msg].
    replace (match ApiSpec.c_key c, m with _ :: _, [] => true | _, _ => false end) with (hj_finished j).
    2:{ rewrite FN. unfold keyed. destruct (ApiSpec.c_key c), m; reflexivity. }
    destruct PC as [PC|PC].
    + rewrite (pj_fin _ _ _ _ _ PC). exact PC.
    + rewrite (cj_fin _ _ _ _ _ PC). exact PC.
  - obj RJ j; (split; [reflexivity|]); auto. keepR.
  - (* HashMany *) cbv zeta. fold (borrowable (length (a_jobs a)) (until_none xs)). rewrite (F2_length _ _ _ RJ).
    destruct (borrowable _ _) eqn:B; [|split; auto]. rewrite <- (F2_length _ _ _ RJ) in B.
    destruct (hash_many_R v e _ _ xs RJ B) as (js' & E & F). rewrite E. split; [reflexivity|]. keepR.
  - (* ToHash *) obj RJ j; [|split; auto]. unfold Rj in K. destruct (aj_run a0).
    + rewrite (to_hash_complete _ _ _ _ _ K). apply agree_hash; auto. apply Rh_hash, K.
    + unfold to_hash. rewrite (pj_fin _ _ _ _ _ K). destruct (e_dbg e); [split; auto|].
      cbn [debug_assert bind finish]. apply agree_hash; auto.
      rewrite (pj_pre _ _ _ _ _ K), (pj_len _ _ _ _ _ K).
      pose proof (wf_digest _ _ (pj_wf _ _ _ _ _ K)) as D. rewrite max_out_fl in D.
      unfold Rh, premature. cbn [h_bytes h_len ah_array ah_len].
      rewrite <- words_to_bytes_eq by apply first_words_ok.
      split; [unfold first_words; rewrite words_to_bytes_eq by apply first_words_ok; reflexivity|].
      split; [lia|]. split; [|lia].
      fold (first_words v (aj_config a0)). rewrite words_to_bytes_length by apply first_words_ok. reflexivity.
  - (* ShowJob *) obj RJ j; [|split; auto]. split; auto. cbn [snd]. unfold hash_many_job_debug, show_job.
    assert (KB : N.of_nat (key_block_len (fl v) (ApiSpec.c_key (aj_config a0))) = N.of_nat (key_bytes v (aj_config a0))).
    { unfold key_block_len, key_bytes, keyed. rewrite block_len_fl. destruct (ApiSpec.c_key (aj_config a0)); reflexivity. }
    rewrite KB. unfold Rj in K. destruct (aj_run a0); destruct K.
    + rewrite cj_input, cj_ln, cj_cnt, cj_len. reflexivity.
    + rewrite pj_input, pj_ln, pj_cnt, pj_len. reflexivity.
  - (* PNewParams *) split; [reflexivity|]. keepR.
  - obj RPP p; (split; [reflexivity|]); auto. keepR.
  - (* PSet *) obj RPP p; [|split; auto]. destruct K as (W & imp' & SU' & ->).
    change (call_psetter v s) with (psetter v s). unfold run_method. rewrite psetter_spec.
    rewrite replace_set by (eapply nth_error_lt; eauto).
    destruct (ApiSpec.plegal (fl v) s) eqn:LG; (split; [reflexivity|]); keepR.
    + apply F2_set; auto. split; [apply wfp_apply; auto|]. exists imp'. auto.
    + eapply F2_set_l; eauto. split; auto. exists imp'. auto.
  - (* PForcePortable *) obj RPP p; [|split; auto]. destruct K as (W & imp' & SU' & ->).
    split; [reflexivity|]. unfold run_method. cbn [p_force_portable m_assign]. keepR.
    eapply F2_set_l; eauto. split; auto. exists Portable. split; [exact I|]. reflexivity.
  - (* PShowParams *) obj RPP p; [|split; auto]. destruct K as (W & imp' & SU' & ->). split; auto.
  - (* POneShot *) unfold blake2p_default. rewrite pparams_new_of, p_hash_spec by (auto using wfp_default).
    apply agree_hash; auto. apply Rh_phash, wfp_default.
  - (* PHashWith *) obj RPP p; [|split; auto]. destruct K as (W & imp' & SU' & ->).
    rewrite p_hash_spec by auto. apply agree_hash; auto. apply Rh_phash; auto.
  - (* PNewState *) rewrite pparams_new_of.
    destruct (pholds_new v e imp (ApiSpec.pdefault_config (fl v))) as (s & E & Hh & _); auto using wfp_default.
    rewrite E. cbn [finish]. split; [reflexivity|]. keepR.
  - (* PToState *) obj RPP p; [|split; auto]. destruct K as (W & imp' & SU' & ->).
    destruct (pholds_new v e imp' p1 W SU') as (s & E & Hh & _). rewrite E. cbn [finish]. split; [reflexivity|]. keepR.
  - obj RPS s; (split; [reflexivity|]); auto. keepR.
  - (* PUpdate *) obj RPS s; [|split; auto]. destruct a0 as [cf msg].
    destruct (pholds_update _ _ _ _ _ m K) as (s' & E & Hh & _). rewrite E. split; [reflexivity|].
    eapply R_put_pstate; eauto.
  - (* PWrite *) obj RPS s; [|split; auto]. destruct a0 as [cf msg]. unfold p_write.
    destruct (pholds_update _ _ _ _ _ m K) as (s' & E & Hh & _). rewrite E. split; [reflexivity|].
    eapply R_put_pstate; eauto.
  - (* PWriteAll *) obj RPS s; [|split; auto]. destruct a0 as [cf msg].
    destruct m as [|b0 m0] eqn:Em0.
    + change (write_all (p_write v e) p []) with (Ret p). split; [reflexivity|]. eapply R_put_pstate; eauto.
      cbn [snd fst]. rewrite app_nil_r. exact K.
    + rewrite <- Em0 in *. destruct (pholds_update _ _ _ _ _ m K) as (s' & E & Hh & _).
      rewrite (write_all_once _ _ s'); [|congruence|unfold p_write; rewrite E; reflexivity].
      split; [reflexivity|]. eapply R_put_pstate; eauto.
  - (* PFlush *) obj RPS s; [|split; auto]. split; [reflexivity|]. cbn [fst]. unfold put_pstate. keepR.
    eapply F2_set_l; eauto.
  - (* PFinalize *) obj RPS s; [|split; auto]. destruct a0 as [cf msg].
    rewrite (pholds_finalize _ _ _ _ _ K). apply agree_hash; auto. apply Rh_phash, K.
  - (* PCount *) obj RPS s; [|split; auto]. destruct a0 as [cf msg].
    rewrite (count_pstate_R _ _ _ _ _ K). unfold report. destruct (count_of _ _ _ _); split; auto.
  - (* PShowState *) obj RPS s; [|split; auto]. destruct a0 as [cf msg]. unfold pstate_debug.
    rewrite (count_pstate_R _ _ _ _ _ K). unfold report.
    destruct (count_of _ _ _ _); split; auto. cbn [finish bind snd]. destruct K. rewrite ph_len. reflexivity.
  - (* HashFrom *) apply agree_hash; auto. unfold Rh, hash_from. cbn [h_bytes h_len ah_array ah_len well_typed] in *.
    rewrite max_out_fl in *. rewrite T. split; [reflexivity|]. split; [destruct v; reflexivity|]. split; [reflexivity|]. destruct v; cbn; lia.
  - obj RH h; [|split; auto]. rewrite (as_bytes_R _ _ _ K). split; auto.
  - (* AsArray *) obj RH h; [|split; auto]. destruct K as (E1 & E2 & L1 & L2). unfold as_array. rewrite E1, E2, max_out_fl.
    unfold debug_assert, assert_.
    replace (N.eqb (N.of_nat (ah_len a0)) (N.of_nat (outbytes v))) with (Nat.eqb (ah_len a0) (outbytes v)) by lia.
    destruct (e_dbg e); [destruct (Nat.eqb _ _)|]; split; auto.
  - (* ToHex *) obj RH h; [|split; auto]. unfold to_hex. rewrite (as_bytes_R _ _ _ K). cbn [bind].
    rewrite bytes_to_hex_spec; [split; auto|]. destruct K as (E1 & E2 & L1 & L2). unfold visible. rewrite firstn_length. lia.
  - (* ShowHash *) obj RH h; [|split; auto]. unfold hash_debug, to_hex. rewrite (as_bytes_R _ _ _ K). cbn [bind].
    rewrite bytes_to_hex_spec; [split; auto|]. destruct K as (E1 & E2 & L1 & L2). unfold visible. rewrite firstn_length. lia.
  - (* EqHash *) obj RH h; [|split; auto].
    pose proof (F2_nth _ _ _ h' RH) as K2.
    destruct (nth_error (w_hashes w) h'), (nth_error (a_hashes a) h'); try (destruct K2; fail); [|split; auto].
    unfold hash_eq. rewrite (as_bytes_R _ _ _ K), (as_bytes_R _ _ _ K2). cbn [bind finish].
    rewrite constant_time_eq_dec. split; auto.
  - (* EqSlice *) obj RH h; [|split; auto]. unfold hash_eq_slice. rewrite (as_bytes_R _ _ _ K). cbn [bind finish].
    rewrite constant_time_eq_dec. split; auto.
Qed.

(** ** Whole programs *)
Lemma run_R v e imp prog : supported e imp -> forall w a, R v e w a -> Forall (well_typed (fl v)) prog ->
  run_from v e imp w prog = arun (fl v) (e_dbg e) a prog.
Proof.
  intros SU. induction prog as [|c prog IH]; intros w a RW T; [reflexivity|]. inversion T; subst.
  cbn [run_from arun]. destruct (step_R v e imp w a c SU RW) as [E RW']; auto.
  destruct (step v e imp w c) as [w' o], (astep (fl v) (e_dbg e) a c) as [a' o']. cbn [fst snd] in *.
  subst. f_equal. apply IH; auto.
Qed.

Lemma R_empty v e : R v e empty_world empty_aworld.
Proof. constructor; constructor. Qed.

Lemma detect_supported t e : honest t e -> supported e (detect t).
Proof.
  intros [H1 H2 H3 H4 H5]. unfold detect, avx2_if_supported, sse41_if_supported.
  destruct (t_x86 t); [|exact I]. destruct (t_tf_avx2 t); [split; auto|].
  destruct (t_std t); cbn [andb]; [destruct (t_cpu_avx2 t)|].
  - split; auto.
  - destruct (t_tf_sse41 t); [cbn; auto|]. destruct (t_cpu_sse41 t); cbn; auto.
  - destruct (t_tf_sse41 t); cbn; auto.
Qed.

Theorem program_refines v t e prog : honest t e -> Forall (well_typed (fl v)) prog ->
  run_program v t e prog = behaviour (fl v) (e_dbg e) prog.
Proof. intros H T. apply run_R; auto using detect_supported, R_empty. Qed.

(** ** Building and feeding *)
Lemma build_spec v imp ss : build v imp ss = params_of v imp (ApiSpec.configure (fl v) ss (ApiSpec.default_config (fl v))).
Proof. unfold build. rewrite params_new_of. apply run_settings_spec. Qed.
Lemma pbuild_spec v imp ss : pbuild v imp ss = pparams_of v imp (ApiSpec.pconfigure (fl v) ss (ApiSpec.pdefault_config (fl v))).
Proof. unfold pbuild. rewrite pparams_new_of. apply run_psettings_spec. Qed.

Lemma update_all_holds v e c chunks : forall msg s, holds v e c msg s ->
  exists s', update_all v e s chunks = Ret s' /\ holds v e c (msg ++ concat chunks) s'.
Proof.
  induction chunks as [|x r IH]; intros msg s H; cbn [update_all concat].
  - exists s. rewrite app_nil_r. auto.
  - destruct (holds_update _ _ _ _ _ x H) as (s1 & E & H1 & _). rewrite E. cbn [bind].
    destruct (IH _ _ H1) as (s2 & E2 & H2). exists s2. rewrite app_assoc. auto.
Qed.
Lemma p_update_all_holds v e c chunks : forall msg s, pholds v e c msg s ->
  exists s', p_update_all v e s chunks = Ret s' /\ pholds v e c (msg ++ concat chunks) s'.
Proof.
  induction chunks as [|x r IH]; intros msg s H; cbn [p_update_all concat].
  - exists s. rewrite app_nil_r. auto.
  - destruct (pholds_update _ _ _ _ _ x H) as (s1 & E & H1 & _). rewrite E. cbn [bind].
    destruct (IH _ _ H1) as (s2 & E2 & H2). exists s2. rewrite app_assoc. auto.
Qed.
