(** The work of whole programs. *)
From Coq Require Import String Ascii.
From Coq Require Import ZArith Arith NArith List Bool Lia ZifyBool ZifyNat ZifyN.
From Verif Require Import Base ByteLemmas Guts Portable Intrinsics KernelSpec Simd Impl Loops LaneLoops Sched SchedProof.
From Verif Require Import Lib StateProof ParamsProof FedProof Many ManyProof Par Stripe ParProof ParFed HashProof.
From Verif Require Spec ApiSpec.
From Verif Require Import Machine Api ApiProof Leak LeakErase WorkSpec WorkProof WorkSched WorkLib WorkPar.
Import ListNotations.
Open Scope list_scope.
Open Scope nat_scope.
Local Notation length := List.length.

(** ** Calls that compress nothing *)
Lemma q_with_params v p : ks (with_params_lk v p) = [].
Proof. unfold with_params_lk, emit. cbn [fst]. destruct (N.ltb _ _); reflexivity. Qed.
Lemma q_count v e s : ks (count_lk v e s) = [].
Proof. unfold count_lk, count_sub_lk. qt. Qed.
Lemma q_state_debug v e s : ks (state_debug_lk v e s) = [].
Proof. unfold state_debug_lk. apply q_bind; [apply q_count|]. qt. Qed.
Lemma q_p_count v e s : ks (p_count_lk v e s) = [].
Proof. unfold p_count_lk, count_sub_lk. qt. Qed.
Lemma q_pstate_debug v e s : ks (pstate_debug_lk v e s) = [].
Proof. unfold pstate_debug_lk. apply q_bind; [apply q_p_count|]. qt. Qed.
Lemma q_to_hash v e j : ks (to_hash_lk v e j) = [].
Proof. unfold to_hash_lk. qt. Qed.
Lemma q_as_array v e h : ks (as_array_lk v e h) = [].
Proof. unfold as_array_lk. qt. Qed.
Lemma q_ct_loop ps : forall i t, ks (ct_loop_lk i ps t) = [].
Proof. induction ps as [|p ps IH]; intros i t; cbn [ct_loop_lk]; [reflexivity|]. apply q_tell; auto. Qed.
Lemma q_cte a b : ks (constant_time_eq_lk a b) = [].
Proof. unfold constant_time_eq_lk. apply q_branch; [|reflexivity]. apply q_bind; [apply q_ct_loop|]. reflexivity. Qed.
Lemma q_hash_eq a b : ks (hash_eq_lk a b) = [].
Proof. unfold hash_eq_lk. apply q_bind; [reflexivity|]. intros. apply q_bind; [reflexivity|]. intros. apply q_cte. Qed.
Lemma q_hash_eq_slice a b : ks (hash_eq_slice_lk a b) = [].
Proof. unfold hash_eq_slice_lk. apply q_bind; [reflexivity|]. intros. apply q_cte. Qed.
Lemma q_push_hex v bs : forall s, ks (push_hex_lk v s bs) = [].
Proof.
  induction bs as [|b bs IH]; intros s; cbn [push_hex_lk]; [reflexivity|]. apply q_tell; [reflexivity|].
  apply q_bind; [unfold push_byte_lk; qt|]. auto.
Qed.
Lemma q_to_hex v h : ks (to_hex_lk v h) = [].
Proof. unfold to_hex_lk, bytes_to_hex_lk. apply q_bind; [reflexivity|]. intros. apply q_bind; [apply q_push_hex|]. reflexivity. Qed.
Lemma q_hash_debug v h : ks (hash_debug_lk v h) = [].
Proof. unfold hash_debug_lk. apply q_bind; [apply q_to_hex|]. reflexivity. Qed.

Lemma run_method_q {Q} (m : lmethod Q) p upd : qm m -> compressions (fst (run_method_lk m p upd)) = [].
Proof. intros H. unfold run_method_lk. specialize (H p). destruct (m p) as [t [p' o]]. exact H. Qed.

(** ** io::Write *)
Lemma write_all_ks {S} (wr : S -> list byte -> Leak.L (S * nat)) s s' buf :
  buf <> [] -> snd (wr s buf) = Ret (s', length buf) -> ks (write_all_lk wr s buf) = ks (wr s buf).
Proof.
  intros NE E. unfold write_all_lk. destruct buf as [|b r]; [congruence|]. cbn [write_all_loop_lk length].
  rewrite ks_tell. cbn [compressions flat_map app]. rewrite (lbind_ks _ _ _ E). rewrite ks_branch.
  change (Nat.eqb (length (b :: r)) 0) with false. cbv iota.
  assert (Q : ks (ldo rest <- slice_from_lk (b :: r) (length (b :: r)); write_all_loop_lk wr (length r) s' rest) = []).
  { assert (Z : snd (slice_from_lk (b :: r) (length (b :: r))) = Ret []).
    { unfold slice_from_lk, emit. cbn [snd]. rewrite slice_from_ok by lia. rewrite skipn_all. reflexivity. }
    rewrite (lbind_ks _ _ _ Z). destruct (length r); reflexivity. }
  rewrite Q. apply app_nil_r.
Qed.

Lemma write_ks v e s m : ks (write_lk v e s m) = ks (update_lk v e s m).
Proof. unfold write_lk, lbind. destruct (snd (update_lk v e s m)); cbn [fst]; rewrite ?ks_app, ?app_nil_r; reflexivity. Qed.
Lemma p_write_ks v e s m : ks (p_write_lk v e s m) = ks (p_update_lk v e s m).
Proof. unfold p_write_lk, lbind. destruct (snd (p_update_lk v e s m)); cbn [fst]; rewrite ?ks_app, ?app_nil_r; reflexivity. Qed.

Lemma update_nil f key msg : update_blocks f key msg [] = 0.
Proof. unfold update_blocks. rewrite app_nil_r. lia. Qed.

Lemma write_all_holds_ks v e c msg s m : holds v e c msg s ->
  ks (write_all_lk (write_lk v e) s m) = match m with [] => [] | _ => ks (update_lk v e s m) end.
Proof.
  intros H. destruct m as [|b r] eqn:M; [reflexivity|]. rewrite <- M. destruct (holds_update _ _ _ _ _ m H) as (s' & E & _).
  rewrite <- write_ks. apply (write_all_ks _ _ s'); [congruence|]. rewrite write_erase. unfold write. rewrite E. reflexivity.
Qed.
Lemma p_write_all_holds_ks v e c msg s m : pholds v e c msg s ->
  ks (write_all_lk (p_write_lk v e) s m) = match m with [] => [] | _ => ks (p_update_lk v e s m) end.
Proof.
  intros H. destruct m as [|b r] eqn:M; [reflexivity|]. rewrite <- M. destruct (pholds_update _ _ _ _ _ m H) as (s' & E & _).
  rewrite <- p_write_ks. apply (write_all_ks _ _ s'); [congruence|]. rewrite p_write_erase. unfold p_write. rewrite E. reflexivity.
Qed.

(** ** The ledger *)
Definition accounts (v : variant) (ss : list pstate) (aa : list apstate) (ld : list nat) : Prop :=
  length ld = length aa /\
  forall i s a, nth_error ss i = Some s -> nth_error aa i = Some a ->
  exists k, nth_error ld i = Some (D v * k) /\ done_stripes v (fst a) (snd a) s k.

Ltac objl H i :=
  let K := fresh "K" in pose proof (F2_nth _ _ _ i H) as K;
  unfold on_obj_lk, of_obj in *;
  match type of K with
  | match nth_error ?l i with Some _ => _ | None => _ end =>
      let El := fresh "El" in destruct (nth_error l i) eqn:El
  end;
  match type of K with
  | match nth_error ?m i with Some _ => _ | None => _ end =>
      let Em := fresh "Em" in destruct (nth_error m i) eqn:Em; try (destruct K; fail)
  end; try reflexivity.
Ltac quietly l := cbn [fst finish_lk]; match goal with |- list_sum ?t = 0 => change (list_sum t = list_sum []); f_equal; apply l end.

Lemma borrows_eq n l : borrows_ok n l = borrowable n l.
Proof. reflexivity. Qed.
Lemma borrowable_nodup n l : borrowable n l = true -> NoDup l /\ forall r, In r l -> r < n.
Proof.
  unfold borrowable. rewrite andb_true_iff, forallb_forall. intros [H1 H2]. split; [apply no_repeats_NoDup; auto|].
  intros r I. specialize (H2 r I). lia.
Qed.

Definition update_cost (f : Spec.flavour) (a : aworld) (x : nat * list byte) : nat :=
  of_obj (a_states a) (fst x) (fun s => update_blocks f (ApiSpec.c_key (fst s)) (snd s) (snd x)).
Definition job_cost (f : Spec.flavour) (a : aworld) (r : nat) : nat := of_obj (a_jobs a) r (job_blocks f).

Lemma list_max_in l x : In x l -> x <= list_max l.
Proof. intros I. pose proof (proj1 (list_max_le l (list_max l)) ltac:(lia)) as F. rewrite Forall_forall in F. auto. Qed.

Lemma update_many_api v e w a xs : R v e w a -> borrowable (length (a_states a)) (map fst (until_none xs)) = true ->
  let t := ks (update_many_lk v e (w_states w) xs) in
  let cost := update_cost (fl v) a in
  list_sum t = list_sum (map cost (until_none xs)) /\
  (forall imp, Forall (fun s => s_imp s = imp) (w_states w) -> let d := degree v imp in
   d * length t <= list_sum t + (d - 1) * length (until_none xs) + (d - 1) * (d - 1) * list_max (map cost (until_none xs))).
Proof.
  intros RW B t cost. destruct (borrowable_nodup _ _ B) as [ND LT].
  destruct (update_many_work v e (w_states w) xs cost (list_max (map cost (until_none xs)))) as [W1 W2].
  - rewrite <- until_upto. exact ND.
  - intros r x I. rewrite <- until_upto in I. specialize (LT r (in_map fst _ _ I)).
    destruct RW as [_ RS _ _ _ _]. pose proof (F2_nth _ _ _ r RS) as K.
    destruct (nth_error (a_states a) r) as [[c msg]|] eqn:Ea; [|apply nth_error_None in Ea; lia].
    destruct (nth_error (w_states w) r) as [s|] eqn:Es; [|destruct K]. exists s, c, msg. split; [auto|]. split; [exact K|].
    unfold cost, update_cost, of_obj. cbn [fst snd]. rewrite Ea. reflexivity.
  - intros p I. rewrite <- until_upto in I. apply list_max_in, in_map. exact I.
  - rewrite <- until_upto in *. split; [exact W1|]. intros imp FI. apply W2. intros r x s _ E.
    rewrite Forall_forall in FI. apply FI. eapply nth_error_In; eauto.
Qed.

Lemma hash_many_api v e w a xs : R v e w a -> borrowable (length (a_jobs a)) (until_none xs) = true ->
  let t := ks (hash_many_lk v e (w_jobs w) (map (option_map (fun r => (r, tt))) xs)) in
  let cost := job_cost (fl v) a in
  list_sum t = list_sum (map cost (until_none xs)) /\
  (forall imp, Forall (fun j => hj_imp j = imp) (w_jobs w) -> let d := degree v imp in
   d * length t <= list_sum t + (d - 1) * (d - 1) * list_max (map cost (until_none xs))).
Proof.
  intros RW B t cost. destruct (borrowable_nodup _ _ B) as [ND LT].
  assert (FM : forall l : list nat, map fst (map (fun r => (r, tt)) l) = l) by (intros l; rewrite map_map; apply map_id).
  destruct (hash_many_work v e (w_jobs w) (map (option_map (fun r => (r, tt))) xs) (fun p => cost (fst p))
              (list_max (map cost (until_none xs)))) as [W1 W2].
  - rewrite until_map, FM. exact ND.
  - intros r x I. rewrite until_map in I. apply in_map_iff in I. destruct I as (r' & E & I). injection E as -> <-.
    specialize (LT r I). destruct RW as [_ _ RJ _ _ _]. pose proof (F2_nth _ _ _ r RJ) as K.
    destruct (nth_error (a_jobs a) r) as [j|] eqn:Ea; [|apply nth_error_None in Ea; lia].
    destruct (nth_error (w_jobs w) r) as [s|] eqn:Es; [|destruct K]. exists s, (aj_config j), (aj_msg j). split; [auto|].
    unfold Rj in K. unfold cost, job_cost, of_obj, job_blocks. cbn [fst]. rewrite Ea. destruct (aj_run j).
    + split; [auto|]. rewrite (cj_fin _ _ _ _ _ K). reflexivity.
    + split; [auto|]. rewrite (pj_fin _ _ _ _ _ K). reflexivity.
  - intros p I. rewrite until_map in I. apply in_map_iff in I. destruct I as (r' & <- & I). apply list_max_in, in_map. exact I.
  - rewrite until_map in W1, W2. rewrite map_map in W1. split; [exact W1|]. intros imp FI. apply W2. intros r x s _ E.
    rewrite Forall_forall in FI. apply FI. eapply nth_error_In; eauto.
Qed.

Lemma step_work v e imp w a ld c : supported e imp -> R v e w a -> accounts v (w_pstates w) (a_pstates a) ld ->
  work_of (fl v) a ld c (blocks_compressed (fst (step_lk v e imp w c))).
Proof.
  intros SU RW [LL AC]. pose proof RW as [RP RS RJ RPP RPS RH]. unfold blocks_compressed.
  destruct c; cbn [step_lk work_of]; try reflexivity.
  - objl RP p.
  - objl RP p. rewrite run_method_q by apply qm_call_setter. reflexivity.
  - objl RP p.
  - objl RP p.
  - cbn [fst finish_lk]. unfold blake2_default_lk. rewrite params_new_of, params_hash_work by (auto using wf_default). reflexivity.
  - objl RP p. destruct K as (W & imp' & SU' & ->). cbn [fst finish_lk]. apply params_hash_work; auto.
  - objl RP p. quietly q_with_params.
  - objl RS s.
  - objl RS s. cbn [fst finish_lk]. destruct a0. apply (update_holds_work v e); auto.
  - objl RS s. cbn [fst finish_lk]. destruct a0. rewrite write_ks. apply (update_holds_work v e); auto.
  - objl RS s. cbn [fst finish_lk]. destruct a0 as [cf msg]. rewrite (write_all_holds_ks _ _ _ _ _ m K). cbn [fst snd].
    destruct m; [rewrite update_nil; reflexivity|]. apply (update_holds_work v e); auto.
  - objl RS s.
  - objl RS s.
  - objl RS s. cbn [fst finish_lk]. destruct a0. rewrite (finalize_holds_work _ _ _ _ _ K). reflexivity.
  - objl RS s. quietly q_count.
  - objl RS s. quietly q_state_debug.
  - (* UpdateMany *) change borrows_ok with borrowable. rewrite (F2_length _ _ _ RS).
    destruct (borrowable (length (a_states a)) _) eqn:B; [|reflexivity]. cbn [fst finish_lk].
    apply (update_many_api v e w a xs RW B).
  - objl RP p. destruct K as (W & imp' & SU' & ->). cbn [fst finish_lk]. apply job_new_work; auto.
  - objl RJ j.
  - change borrows_ok with borrowable. rewrite (F2_length _ _ _ RJ).
    destruct (borrowable (length (a_jobs a)) _) eqn:B; [|reflexivity]. cbn [fst finish_lk].
    apply (hash_many_api v e w a xs RW B).
  - objl RJ j. quietly q_to_hash.
  - objl RJ j.
  - objl RPP p.
  - objl RPP p. rewrite run_method_q by apply qm_call_psetter. reflexivity.
  - objl RPP p.
  - objl RPP p.
  - cbn [fst finish_lk]. unfold blake2p_default_lk. rewrite pparams_new_of, p_hash_work by (auto using wfp_default). reflexivity.
  - objl RPP p. destruct K as (W & imp' & SU' & ->). cbn [fst finish_lk]. apply p_hash_work; auto.
  - quietly q_p_with_params.
  - objl RPP p. quietly q_p_with_params.
  - objl RPS s.
  - objl RPS s. destruct (AC s p a0 El Em) as (k & _ & DS). cbn [fst finish_lk].
    destruct (p_update_holds_work v e _ _ _ m k K DS) as (s' & k' & _ & _ & _ & LE).
    rewrite leaves_fl, block_len_fl, <- P_eq. exact LE.
  - objl RPS s. destruct (AC s p a0 El Em) as (k & _ & DS). cbn [fst finish_lk]. rewrite p_write_ks.
    destruct (p_update_holds_work v e _ _ _ m k K DS) as (s' & k' & _ & _ & _ & LE).
    rewrite leaves_fl, block_len_fl, <- P_eq. exact LE.
  - objl RPS s. destruct (AC s p a0 El Em) as (k & _ & DS). cbn [fst finish_lk].
    rewrite (p_write_all_holds_ks _ _ _ _ _ m K). destruct m as [|b r] eqn:M; [apply Nat.le_0_l|]. rewrite <- M.
    destruct (p_update_holds_work v e _ _ _ m k K DS) as (s' & k' & _ & _ & _ & LE).
    rewrite leaves_fl, block_len_fl, <- P_eq. exact LE.
  - objl RPS s.
  - objl RPS s.
    + destruct (AC s p a0 El Em) as (k & -> & DS). cbn [fst finish_lk]. rewrite leaves_fl.
      destruct (p_finalize_holds_work v e _ _ _ K) as (k' & DS' & E & LE). split; [|exact LE].
      unfold done_stripes in *. pose proof (P_pos v). assert (k = k') by nia. subst k'. exact E.
    + cbn. split; [|lia]. destruct (nth_error ld s) eqn:X; [|reflexivity].
      apply nth_error_lt in X. apply nth_error_None in Em. lia.
  - objl RPS s. quietly q_p_count.
  - objl RPS s. quietly q_pstate_debug.
  - objl RH h.
  - objl RH h. quietly q_as_array.
  - objl RH h. quietly q_to_hex.
  - objl RH h. quietly q_hash_debug.
  - objl RH h. destruct (nth_error (w_hashes w) h'); [|reflexivity]. quietly q_hash_eq.
  - objl RH h. quietly q_hash_eq_slice.
Qed.

(** The ledger is kept. *)
Lemma accounts_push v ss aa ld s a k : length ss = length aa -> accounts v ss aa ld -> done_stripes v (fst a) (snd a) s k ->
  accounts v (ss ++ [s]) (aa ++ [a]) (ld ++ [D v * k]).
Proof.
  intros LE [LL AC] DS. split; [rewrite !app_length, LL; reflexivity|]. intros i s0 a0 H1 H2.
  destruct (Nat.lt_ge_cases i (length ss)) as [LT|GE].
  - rewrite nth_error_app1 in H1 by auto. rewrite nth_error_app1 in H2 by lia. destruct (AC i s0 a0 H1 H2) as (k0 & E & D0).
    exists k0. rewrite nth_error_app1 by lia. auto.
  - assert (i = length ss). { apply nth_error_lt in H1. rewrite app_length in H1. cbn in H1. lia. } subst i.
    rewrite nth_error_app2, Nat.sub_diag in H1 by auto. rewrite nth_error_app2, <- LE, Nat.sub_diag in H2 by lia.
    injection H1 as <-. injection H2 as <-. exists k. split; [|exact DS].
    rewrite nth_error_app2, LL, LE, Nat.sub_diag by lia. reflexivity.
Qed.
Lemma accounts_put v ss aa ld i s a k : accounts v ss aa ld -> i < length aa -> done_stripes v (fst a) (snd a) s k ->
  accounts v (set ss i s) (set aa i a) (set ld i (D v * k)).
Proof.
  intros [LL AC] LT DS. split; [rewrite !set_length; exact LL|]. intros j s0 a0 H1 H2.
  destruct (Nat.eq_dec i j) as [<-|NE].
  - rewrite nth_error_set_eq in H2 by auto. injection H2 as <-. exists k. split; [apply nth_error_set_eq; lia|].
    assert (i < length ss). { apply nth_error_lt in H1. rewrite set_length in H1. exact H1. }
    rewrite nth_error_set_eq in H1 by auto. injection H1 as <-. exact DS.
  - rewrite nth_error_set_ne in H1 by auto. rewrite nth_error_set_ne in H2 by auto. rewrite nth_error_set_ne by auto. auto.
Qed.
Lemma accounts_same v ss aa ld i s : accounts v ss aa ld -> nth_error ss i = Some s -> accounts v (set ss i s) aa ld.
Proof.
  intros [LL AC] E. split; [exact LL|]. intros j s0 a0 H1 H2. apply AC; auto. destruct (Nat.eq_dec i j) as [<-|NE].
  - rewrite nth_error_set_eq in H1 by (eapply nth_error_lt; eauto). congruence.
  - rewrite nth_error_set_ne in H1 by auto. exact H1.
Qed.

Lemma finish_pstates {A} w (x : outcome A) k : (forall y, w_pstates (fst (k y)) = w_pstates w) -> w_pstates (fst (finish w x k)) = w_pstates w.
Proof. intros H. destruct x; cbn; auto. Qed.
Lemma method_pstates {Q} w (m : lmethod Q) p upd : (forall y, w_pstates (upd y) = w_pstates w) ->
  w_pstates (fst (snd (run_method_lk m p upd))) = w_pstates w.
Proof. intros H. unfold run_method_lk. destruct (m p) as [t [p' o]]. cbn. apply H. Qed.

Lemma new_done v e imp c s : wf_pconfig (fl v) c -> supported e imp -> p_to_state v (pparams_of v imp c) = Ret s -> done_stripes v c [] s 0.
Proof.
  intros W SU E. destruct (pholds_new v e imp c W SU) as (s0 & E0 & HS & _). assert (s0 = s) by congruence. subst s0.
  destruct HS as [_ _ (k & A & TO) _ _ _]. unfold done_stripes. pose proof (pa_len _ _ _ _ _ A) as LA.
  rewrite app_nil_r in *. cbn [Nat.mul Nat.add] in *. destruct k as [|k]; [exact LA|].
  specialize (TO ltac:(lia)). rewrite key_stripe_length in LA by auto. pose proof (P_pos v). destruct (pkeyed c); nia.
Qed.

Lemma step_accounts v e imp w a ld c : supported e imp -> R v e w a -> accounts v (w_pstates w) (a_pstates a) ld ->
  accounts v (w_pstates (fst (snd (step_lk v e imp w c)))) (a_pstates (fst (astep (fl v) (e_dbg e) a c)))
    (ledger_after a ld c (blocks_compressed (fst (step_lk v e imp w c)))).
Proof.
  intros SU RW ACC. pose proof RW as [RP RS RJ RPP RPS RH]. unfold blocks_compressed.
  assert (SAME : forall ss aa, ss = w_pstates w -> aa = a_pstates a -> accounts v ss aa ld) by (intros; subst; auto).
  destruct c; cbn [step_lk astep ledger_after]; unfold on_obj_lk, with_obj; cbv zeta;
    try (apply SAME; [|
      repeat lazymatch goal with
      | |- a_pstates (fst (match ?x with _ => _ end)) = _ => destruct x
      | |- a_pstates (fst (if ?x then _ else _)) = _ => destruct x
      end; unfold new_hash, report; try reflexivity];
      repeat lazymatch goal with
      | |- context [match nth_error ?l ?i with _ => _ end] => destruct (nth_error l i)
      | |- context [if borrowable ?n ?l then _ else _] => destruct (borrowable n l)
      end; try reflexivity; cbn [snd finish_lk fst quiet];
      first [apply finish_pstates; intros; repeat match goal with x : _ * _ |- _ => destruct x end; reflexivity
            | apply method_pstates; reflexivity ]; fail).
  - (* PNewState *) rewrite pparams_new_of. cbn [snd finish_lk]. unfold p_to_state_lk. rewrite p_with_params_erase.
    destruct (pholds_new v e imp _ (wfp_default (fl v)) SU) as (s & E & _). pose proof E as E'. unfold p_to_state in E. rewrite E. cbn.
    replace 0 with (D v * 0) by lia. apply accounts_push; auto; [apply (F2_length _ _ _ RPS)|].
    eapply new_done; eauto using wfp_default.
  - (* PToState *) pose proof (F2_nth _ _ _ p RPP) as K. destruct (nth_error (w_pparams w) p), (nth_error (a_pparams a) p); try (destruct K; fail); [|exact ACC].
    destruct K as (W & imp' & SU' & ->). cbn [snd finish_lk]. unfold p_to_state_lk. rewrite p_with_params_erase.
    destruct (pholds_new v e imp' _ W SU') as (s & E & _). pose proof E as E'. unfold p_to_state in E. rewrite E. cbn.
    replace 0 with (D v * 0) by lia. apply accounts_push; auto; [apply (F2_length _ _ _ RPS)|].
    eapply new_done; eauto.
  - (* PCloneState *) pose proof (F2_nth _ _ _ s RPS) as K. destruct (nth_error (w_pstates w) s) eqn:E1, (nth_error (a_pstates a) s) eqn:E2; try (destruct K; fail).
    + destruct (proj2 ACC s _ _ E1 E2) as (k & E3 & DS). rewrite E3. cbn. apply accounts_push; auto. apply (F2_length _ _ _ RPS).
    + destruct (nth_error ld s) eqn:E3; [|exact ACC]. apply nth_error_lt in E3. apply nth_error_None in E2. destruct ACC. lia.
  - (* PUpdate *) pose proof (F2_nth _ _ _ s RPS) as K. destruct (nth_error (w_pstates w) s) eqn:E1, (nth_error (a_pstates a) s) eqn:E2; try (destruct K; fail).
    + destruct (proj2 ACC s _ _ E1 E2) as (k & E3 & DS). rewrite E3. destruct a0 as [cf msg].
      destruct (p_update_holds_work v e _ _ _ m k K DS) as (s' & k' & U & DS' & EQ & _). cbn [snd finish_lk fst]. rewrite U. cbn. rewrite EQ.
      rewrite !replace_set by (first [eapply nth_error_lt; eauto | apply nth_error_lt in E3; exact E3]). apply accounts_put; auto. eapply nth_error_lt; eauto.
    + destruct (nth_error ld s) eqn:E3; [|exact ACC]. apply nth_error_lt in E3. apply nth_error_None in E2. destruct ACC. lia.
  - (* PWrite *) pose proof (F2_nth _ _ _ s RPS) as K. destruct (nth_error (w_pstates w) s) eqn:E1, (nth_error (a_pstates a) s) eqn:E2; try (destruct K; fail).
    + destruct (proj2 ACC s _ _ E1 E2) as (k & E3 & DS). rewrite E3. destruct a0 as [cf msg].
      destruct (p_update_holds_work v e _ _ _ m k K DS) as (s' & k' & U & DS' & EQ & _). cbn [snd finish_lk fst].
      rewrite p_write_ks, p_write_erase. unfold p_write. rewrite p_update_erase in U. rewrite U. cbn. rewrite EQ.
      rewrite !replace_set by (first [eapply nth_error_lt; eauto | apply nth_error_lt in E3; exact E3]). apply accounts_put; auto. eapply nth_error_lt; eauto.
    + destruct (nth_error ld s) eqn:E3; [|exact ACC]. apply nth_error_lt in E3. apply nth_error_None in E2. destruct ACC. lia.
  - (* PWriteAll *) pose proof (F2_nth _ _ _ s RPS) as K. destruct (nth_error (w_pstates w) s) eqn:E1, (nth_error (a_pstates a) s) eqn:E2; try (destruct K; fail).
    + destruct (proj2 ACC s _ _ E1 E2) as (k & E3 & DS). rewrite E3. destruct a0 as [cf msg]. cbn [snd finish_lk fst].
      rewrite (p_write_all_holds_ks _ _ _ _ _ m K), write_all_erase with (wr := p_write v e) by (intros; apply p_write_erase). cbn [fst snd] in *.
      destruct m as [|b r] eqn:M.
      * change (write_all (p_write v e) p []) with (Ret p). cbn. rewrite app_nil_r, Nat.add_0_r.
        rewrite !replace_set by (first [eapply nth_error_lt; eauto | apply nth_error_lt in E3; exact E3]). apply (accounts_put v _ _ _ s p (cf, msg) k); auto. eapply nth_error_lt; eauto.
      * rewrite <- M. destruct (p_update_holds_work v e _ _ _ m k K DS) as (s' & k' & U & DS' & EQ & _).
        rewrite p_update_erase in U. rewrite (write_all_once _ _ s'); [|congruence|unfold p_write; rewrite U; reflexivity]. cbn. rewrite EQ.
        rewrite !replace_set by (first [eapply nth_error_lt; eauto | apply nth_error_lt in E3; exact E3]). apply (accounts_put v _ _ _ s s' (cf, msg ++ m) k'); auto. eapply nth_error_lt; eauto.
    + destruct (nth_error ld s) eqn:E3; [|exact ACC]. apply nth_error_lt in E3. apply nth_error_None in E2. destruct ACC. lia.
  - (* PFlush *) destruct (nth_error (w_pstates w) s) eqn:E1.
    + assert (X : a_pstates (fst match nth_error (a_pstates a) s with Some _ => (a, Unit) | None => (a, Inexpressible) end) = a_pstates a)
        by (destruct (nth_error (a_pstates a) s); reflexivity). rewrite X. cbn. apply accounts_same; auto.
    + destruct (nth_error (a_pstates a) s); exact ACC.
Qed.

(** ** Pace *)
Definition ones (t : list nat) : Prop := Forall (eq 1) t.
Lemma ones_app a b : ones a -> ones b -> ones (a ++ b).
Proof. intros. apply Forall_app. auto. Qed.
Lemma ones_sum t : ones t -> length t = list_sum t.
Proof. induction 1 as [|x t <- _ IH]; [reflexivity|]. cbn [length]. rewrite list_sum_cons, IH. reflexivity. Qed.
Lemma o_nil x : x = [] -> ones x.
Proof. intros ->. constructor. Qed.
Lemma o_bind {A B} (x : Leak.L A) (f : A -> Leak.L B) : ones (ks x) -> (forall a, ones (ks (f a))) -> ones (ks (lbind x f)).
Proof. unfold lbind. intros H1 H2. destruct (snd x); cbn [fst]; rewrite ?ks_app; auto using ones_app. Qed.
Lemma o_branch {A} c (x y : Leak.L A) : ones (ks x) -> ones (ks y) -> ones (ks (branch c x y)).
Proof. rewrite ks_branch. destruct c; auto. Qed.
Lemma o_c1_iter v k rd input fo fb fl0 flb fln st : (forall l o n, ks (rd l o n) = []) ->
  forall fuel o count words, ones (ks (compress1_iter_lk v k rd fuel input fo fb fl0 flb fln st o count words)).
Proof.
  intros RD. induction fuel as [|fuel IH]; intros o count words; cbn [compress1_iter_lk]; [constructor|].
  apply o_bind.
  - apply o_branch; [constructor|]. apply o_nil. apply q_bind; [apply RD|]. qt.
  - intros [[[b c] lb] ln]. rewrite ks_tell. apply ones_app; [repeat constructor|]. apply o_branch; [constructor|]. apply IH.
Qed.
Lemma o_c1_gen v k rd d input ws c ln fin st : (forall l o n, ks (rd l o n) = []) -> ones (ks (compress1_loop_gen_lk v k rd d input ws c ln fin st)).
Proof.
  intros RD. unfold compress1_loop_gen_lk. apply o_bind; [apply o_nil, q_asserts|]. intros _.
  apply o_bind; [constructor|]. intros. apply o_bind; [constructor|]. intros. apply o_bind; [apply o_nil, q_final_block|].
  intros [[fb fl0] ff]. apply o_bind; [constructor|]. intros. apply o_bind; [constructor|]. intros. apply o_c1_iter. exact RD.
Qed.
Lemma o_c1 v e imp input ws c ln fin st : ones (ks (compress1_loop_lk v e imp input ws c ln fin st)).
Proof.
  unfold compress1_loop_lk. rewrite ks_tell. apply ones_app; [constructor|]. unfold target_feature_lk.
  destruct v, imp; try (destruct (e_avx2 e)); try (destruct (e_sse41 e)); try constructor; apply o_c1_gen; reflexivity.
Qed.
Lemma o_cbip v e s x : ones (ks (compress_buffer_if_possible_lk v e s x)).
Proof.
  unfold compress_buffer_if_possible_lk. apply o_branch; [|constructor]. apply o_bind; [apply o_nil, q_fill|]. intros [s1 y].
  apply o_branch; [constructor|]. apply o_bind; [apply o_c1|]. constructor.
Qed.
Lemma o_update v e s x : ones (ks (update_lk v e s x)).
Proof.
  unfold update_lk. apply o_bind; [apply o_cbip|]. intros [s1 y]. apply o_bind; [constructor|]. intros. apply o_bind; [constructor|]. intros.
  apply o_bind; [|intros [s2 z]; apply o_nil, q_bind; [apply q_fill|intros [? ?]; reflexivity]].
  apply o_branch; [|constructor]. apply o_bind; [constructor|]. intros. apply o_bind; [apply o_c1|]. intros. apply o_nil. qt.
Qed.
Lemma o_finalize v e s : ones (ks (finalize_lk v e s)).
Proof. unfold finalize_lk. apply o_bind; [constructor|]. intros. apply o_bind; [apply o_c1|]. constructor. Qed.
Lemma o_params_hash v e p m : ones (ks (params_hash_lk v e p m)).
Proof.
  unfold params_hash_lk. apply o_branch.
  - apply o_bind; [apply o_nil, q_with_params|]. intros. apply o_bind; [apply o_update|]. intros. apply o_finalize.
  - apply o_bind; [apply o_c1|]. constructor.
Qed.
Lemma o_job_new v e p m : ones (ks (hash_many_job_new_lk v e p m)).
Proof.
  unfold hash_many_job_new_lk. cbv zeta. apply o_bind; [|intros [[? ?] ?]; constructor]. apply o_branch; [|constructor].
  rewrite ks_tell. apply ones_app; [constructor|]. apply o_bind; [apply o_c1|]. constructor.
Qed.

(** Batches keep what every step keeps. *)
Section KeepAll.
Context {C A : Type}.
Variable Q : C -> Prop.
Variable get : C -> list N.
Variable put : C -> list N -> C.
Variable prep : A -> C -> outcome (C * prepared).
Variables (v : variant) (e : env) (imp : platform) (finalize : bool) (st : stride).
Hypothesis Qput : forall c ws, Q c -> Q (put c ws).
Hypothesis Qprep : forall a c c' p, prep a c = Ret (c', p) -> Q c -> Q c'.

Lemma all_set_ (l : list C) i x : Forall Q l -> Q x -> Forall Q (set l i x).
Proof. revert i. induction l as [|a l IH]; intros [|i] H X; cbn [set]; auto; inversion H; subst; constructor; auto. Qed.
Lemma all_cell l r c : Forall Q l -> cell l r = Ret c -> Q c.
Proof.
  intros F. unfold cell. destruct (nth_error l r) eqn:E; [|discriminate]. intros H. injection H as <-.
  rewrite Forall_forall in F. apply F. eapply nth_error_In; eauto.
Qed.
Lemma start_all cells p cells' o : Forall Q cells -> start prep cells p = Ret (cells', o) -> Forall Q cells'.
Proof.
  intros F. destruct p as [r a]. unfold start, prepared. intros H. destruct (bind_inv _ _ _ H) as (c & H0 & H1). apply (all_cell _ _ _ F) in H0.
  destruct (bind_inv _ _ _ H1) as ([c' q] & H3 & H2). apply Qprep in H3; auto. destruct q as [[[i n] l]|]; injection H2 as <- _; apply all_set_; auto.
Qed.
Lemma pull_all src : forall calls cells it' cells' o, Forall Q cells -> pull_src prep src calls cells = Ret (it', cells', o) -> Forall Q cells'.
Proof.
  induction src as [|[p|] src IH]; intros calls cells it' cells' o F H; cbn [pull_src] in H.
  - injection H as _ <- _. auto.
  - destruct (bind_inv _ _ _ H) as ([cs q] & H1 & H2). apply start_all in H1; auto. destruct q.
    + injection H2 as _ <- _. exact H1.
    + apply IH in H2; auto.
  - injection H as _ <- _. auto.
Qed.
Lemma next_all it cells it' cells' o : Forall Q cells -> next prep it cells = Ret (it', cells', o) -> Forall Q cells'.
Proof.
  intros F. unfold next. destruct (i_done it); [intros H; injection H as _ <- _; auto|].
  destruct (i_peeked it) as [p|]; [|apply pull_all; auto].
  intros H. destruct (bind_inv _ _ _ H) as ([cs q] & H1 & H2). apply start_all in H1; auto. destruct q.
  - injection H2 as _ <- _. exact H1.
  - apply pull_all in H2; auto.
Qed.
Lemma fill_all k : forall it cells vec it' cells' vec', Forall Q cells -> fill prep v k it cells vec = Ret (it', cells', vec') -> Forall Q cells'.
Proof.
  induction k as [|k IH]; intros it cells vec it' cells' vec' F H; cbn [fill] in H.
  - injection H as _ <- _. auto.
  - destruct (bind_inv _ _ _ H) as ([[it1 cs] q] & H1 & H2). apply next_all in H1; auto. destruct q.
    + destruct (bind_inv _ _ _ H2) as (u & _ & H3). apply IH in H3; auto.
    + injection H2 as _ <- _. exact H1.
Qed.
Lemma store_all cells r ws cells' : Forall Q cells -> store_words put cells r ws = Ret cells' -> Forall Q cells'.
Proof. intros F H. destruct (bind_inv _ _ _ H) as (c & H0 & H1). apply (all_cell _ _ _ F) in H0. injection H1 as <-. apply all_set_; auto. Qed.
Lemma store_jobs_all js : forall cells cells' vs, Forall Q cells -> store_jobs put cells js = Ret (cells', vs) -> Forall Q cells'.
Proof.
  induction js as [|[j k] js IH]; intros cells cells' vs F H; cbn [store_jobs] in H.
  - injection H as <- _. auto.
  - destruct (bind_inv _ _ _ H) as (cs & H1 & H2). apply store_all in H1; auto.
    destruct (bind_inv _ _ _ H2) as ([cs2 vs2] & H3 & H4). apply IH in H3; auto. injection H4 as <- _. auto.
Qed.
Lemma batch_all loop n fuel : forall it cells vec it' cells' vec', Forall Q cells ->
  batch_loop get put prep v e loop n fuel it cells vec = Ret (it', cells', vec') -> Forall Q cells'.
Proof.
  induction fuel as [|fuel IH]; intros it cells vec it' cells' vec' F H; [discriminate|]. cbn [batch_loop] in H.
  destruct (bind_inv _ _ _ H) as ([[it1 cs] vec1] & H1 & H2). unfold fill_jobs_vec in H1. apply fill_all in H1; auto.
  destruct (Nat.ltb (length vec1) n); [injection H2 as _ <- _; exact H1|].
  destruct (bind_inv _ _ _ H2) as ([cs2 vec2] & H3 & H4). destruct (bind_inv _ _ _ H4) as (vec3 & _ & H5).
  unfold run_jobs in H3. destruct (bind_inv _ _ _ H3) as (a1 & _ & H6). destruct (bind_inv _ _ _ H6) as (a2 & _ & H7).
  destruct (bind_inv _ _ _ H7) as (a3 & _ & H8). destruct (bind_inv _ _ _ H8) as ([a4 a5] & H9 & H10). apply store_jobs_all in H9; auto.
  injection H10 as <- _. apply IH in H5; auto.
Qed.
Lemma one_all cells j cells' : Forall Q cells -> run_one get put v e imp finalize st cells j = Ret cells' -> Forall Q cells'.
Proof.
  intros F H. unfold run_one in H. destruct (bind_inv _ _ _ H) as (a1 & _ & H6). destruct (bind_inv _ _ _ H6) as (a2 & _ & H7).
  eapply store_all; eauto.
Qed.
Lemma vec_all vec : forall cells cells', Forall Q cells -> run_vec get put v e imp finalize st cells vec = Ret cells' -> Forall Q cells'.
Proof.
  induction vec as [|j vec IH]; intros cells cells' F H; cbn [run_vec] in H; [congruence|].
  destruct (bind_inv _ _ _ H) as (cs & H1 & H2). apply one_all in H1; auto. apply IH in H2; auto.
Qed.
Lemma rest_all fuel : forall it cells it' cells', Forall Q cells ->
  run_rest get put prep v e imp finalize st fuel it cells = Ret (it', cells') -> Forall Q cells'.
Proof.
  induction fuel as [|fuel IH]; intros it cells it' cells' F H; [discriminate|]. cbn [run_rest] in H.
  destruct (bind_inv _ _ _ H) as ([[it1 cs] q] & H1 & H2). apply next_all in H1; auto. destruct q.
  - destruct (bind_inv _ _ _ H2) as (cs2 & H3 & H4). apply one_all in H3; auto. apply IH in H4; auto.
  - injection H2 as _ <-. exact H1.
Qed.
Lemma compress_many_all it cells it' cells' : Forall Q cells ->
  compress_many get put prep v e imp finalize st it cells = Ret (it', cells') -> Forall Q cells'.
Proof.
  intros F H. unfold compress_many in H. destruct (bind_inv _ _ _ H) as ([[it1 c1] vec1] & H1 & H2). clear H.
  destruct (bind_inv _ _ _ H2) as ([[it2 c2] vec2] & H3 & H4). clear H2.
  destruct (bind_inv _ _ _ H4) as (c3 & H5 & H6).
  assert (F1 : Forall Q c1).
  { destruct (Nat.leb _ _) in H1; [eapply batch_all; eauto|congruence]. }
  assert (F2 : Forall Q c2).
  { destruct (Nat.leb _ _) in H3; [eapply batch_all; eauto|congruence]. }
  apply vec_all in H5; auto. apply rest_all in H6; auto.
Qed.
End KeepAll.

Lemma fill_imp v e s x s' y : fill_buf v e s x = Ret (s', y) -> s_imp s' = s_imp s.
Proof.
  unfold fill_buf. intros H. destruct (bind_inv _ _ _ H) as (? & _ & H1). destruct (bind_inv _ _ _ H1) as (? & _ & H2).
  destruct (bind_inv _ _ _ H2) as (? & _ & H3). destruct (bind_inv _ _ _ H3) as (? & _ & H4). injection H4 as <- _. reflexivity.
Qed.
Lemma cbip_imp v e s x s' y : compress_buffer_if_possible v e s x = Ret (s', y) -> s_imp s' = s_imp s.
Proof.
  unfold compress_buffer_if_possible. destruct (Nat.ltb 0 (s_buflen s)); [|intros H; injection H as <- _; reflexivity].
  intros H. destruct (bind_inv _ _ _ H) as ([s1 z] & H1 & H2). apply fill_imp in H1. destruct z.
  - injection H2 as <- _. exact H1.
  - destruct (bind_inv _ _ _ H2) as (ws & _ & H3). injection H3 as <- _. exact H1.
Qed.
Lemma update_prep_imp v e x s s' p : update_prep v e x s = Ret (s', p) -> s_imp s' = s_imp s.
Proof.
  unfold update_prep. intros H. destruct (bind_inv _ _ _ H) as ([s1 y] & H1 & H2). apply cbip_imp in H1. rewrite <- H1. clear H H1.
  destruct y; [injection H2 as <- _; reflexivity|]. cbv zeta in H2.
  destruct (bind_inv _ _ _ H2) as (? & _ & H3). destruct (bind_inv _ _ _ H3) as (? & _ & H4).
  destruct (bind_inv _ _ _ H4) as (? & _ & H5). destruct x0; injection H5 as <- _; reflexivity.
Qed.
Lemma update_many_imp v e ss xs ss' n imp : Forall (fun s => s_imp s = imp) ss -> update_many v e ss xs = Ret (ss', n) ->
  Forall (fun s => s_imp s = imp) ss'.
Proof.
  intros F. unfold update_many. destruct (i_peeked (peek xs)) as [[r a]|]; [|intros H; injection H as <- _; exact F].
  intros H. destruct (bind_inv _ _ _ H) as (s0 & _ & H1). destruct (bind_inv _ _ _ H1) as ([it ss2] & H2 & H3). injection H3 as <- _.
  refine (compress_many_all _ _ _ _ _ _ _ _ _ _ _ _ _ _ _ F H2); [intros c ws X; exact X|].
  intros a0 c c' p E X. rewrite (update_prep_imp _ _ _ _ _ _ E). exact X.
Qed.
Lemma hash_many_imp v e js xs js' n imp : Forall (fun j => hj_imp j = imp) js -> hash_many v e js xs = Ret (js', n) ->
  Forall (fun j => hj_imp j = imp) js'.
Proof.
  intros F. unfold hash_many. destruct (i_peeked (peek xs)) as [[r a]|]; [|intros H; injection H as <- _; exact F].
  intros H. destruct (bind_inv _ _ _ H) as (s0 & _ & H1). destruct (bind_inv _ _ _ H1) as ([it ss2] & H2 & H3). injection H3 as <- _.
  refine (compress_many_all _ _ _ _ _ _ _ _ _ _ _ _ _ _ _ F H2); [intros c ws X; exact X|].
  intros a0 c c' p E X. unfold hash_prep in E. destruct (hj_finished c); injection E as <- _; exact X.
Qed.

(** Without force_portable every object runs on the platform detected at the start. *)
Definition uniform (imp : platform) (w : world) : Prop :=
  Forall (fun p => p_imp p = imp) (w_params w) /\ Forall (fun s => s_imp s = imp) (w_states w) /\
  Forall (fun j => hj_imp j = imp) (w_jobs w) /\ Forall (fun p => pp_imp p = imp) (w_pparams w) /\ Forall (fun s => ps_imp s = imp) (w_pstates w).

Lemma Forall_nth_ {A} (Q : A -> Prop) l i x : Forall Q l -> nth_error l i = Some x -> Q x.
Proof. intros F E. rewrite Forall_forall in F. apply F. eapply nth_error_In; eauto. Qed.
Lemma Forall_snoc {A} (Q : A -> Prop) l x : Forall Q l -> Q x -> Forall Q (l ++ [x]).
Proof. intros. apply Forall_app. auto. Qed.

Definition keeps {Q} (imp : Q -> platform) (m : method Q) : Prop := forall p, imp (fst (m p)) = imp p.
Lemma keeps_assert {Q} (imp : Q -> platform) c : keeps imp (m_assert c).
Proof. intros p. reflexivity. Qed.
Lemma keeps_assign {Q} (imp : Q -> platform) f : (forall p, imp (f p) = imp p) -> keeps imp (m_assign f).
Proof. intros H p. apply H. Qed.
Lemma keeps_try {Q} (imp : Q -> platform) f : (forall p p', f p = Ret p' -> imp p' = imp p) -> keeps imp (m_try f).
Proof. intros H p. unfold m_try. destruct (f p) eqn:E; auto. Qed.
Lemma keeps_seq {Q} (imp : Q -> platform) a b : keeps imp a -> keeps imp b -> keeps imp (m_seq a b).
Proof.
  intros H1 H2 p. unfold m_seq. specialize (H1 p). destruct (a p) as [p' o]. cbn in H1. destruct o; cbn; auto.
  rewrite H2. auto.
Qed.
Ltac keepst := repeat first
    [ apply keeps_seq | apply keeps_assert | apply keeps_assign; reflexivity
    | apply keeps_try; let p0 := fresh in let p' := fresh in let H := fresh in let H1 := fresh in
      intros p0 p' H; destruct (bind_inv _ _ _ H) as (? & _ & H1); injection H1 as <-; reflexivity ].
Lemma setter_imp v s : keeps p_imp (call_setter v s).
Proof. destruct s; cbn [call_setter]; keepst. Qed.
Lemma psetter_imp v s : keeps pp_imp (call_psetter v s).
Proof. destruct s; cbn [call_psetter]; keepst. Qed.
Lemma to_state_imp v p : s_imp (to_state v p) = p_imp p.
Proof. unfold to_state, with_params. cbv zeta. destruct (N.ltb 0 (p_key_length p)); reflexivity. Qed.
Lemma update_imp v e s x s' : update v e s x = Ret s' -> s_imp s' = s_imp s.
Proof.
  unfold update. intros H. destruct (bind_inv _ _ _ H) as ([s1 y] & H1 & H2). apply cbip_imp in H1. rewrite <- H1.
  destruct (bind_inv _ _ _ H2) as ([s2 z] & H3 & H4). destruct (bind_inv _ _ _ H4) as ([s3 ?] & H5 & H6). apply fill_imp in H5.
  injection H6 as <-. rewrite H5. revert H3. clear.
  repeat match goal with |- context [if ?b then _ else _] => destruct b end; intros H; repeat match goal with
  | H : bind _ _ = Ret _ |- _ => let a := fresh in let Ha := fresh in let Hb := fresh in destruct (bind_inv _ _ _ H) as (a & Ha & Hb); clear H
  | H : Ret _ = Ret _ |- _ => injection H as <- _ end; reflexivity.
Qed.
Lemma write_all_keep {S} (Q : S -> Prop) (wr : S -> list byte -> outcome (S * nat)) :
  (forall s b s' n, wr s b = Ret (s', n) -> Q s -> Q s') ->
  forall fuel s b s', write_all_loop wr fuel s b = Ret s' -> Q s -> Q s'.
Proof.
  intros H. induction fuel as [|fuel IH]; intros s b s' E QS; cbn [write_all_loop] in E; destruct b; try congruence.
  destruct (bind_inv _ _ _ E) as ([s1 n] & H1 & H2). apply H in H1; auto. destruct (Nat.eqb n 0); [discriminate|].
  destruct (bind_inv _ _ _ H2) as (rest & _ & H3). eauto.
Qed.
Lemma job_new_imp v e p m j : hash_many_job_new v e p m = Ret j -> hj_imp j = p_imp p.
Proof.
  unfold hash_many_job_new. cbv zeta. intros H. destruct (bind_inv _ _ _ H) as ([[ws c] f] & _ & H2). injection H2 as <-. reflexivity.
Qed.

Lemma p_fill_imp e s x s' y : p_fill_buf e s x = Ret (s', y) -> ps_imp s' = ps_imp s.
Proof.
  unfold p_fill_buf. intros H. destruct (bind_inv _ _ _ H) as (? & _ & H1). destruct (bind_inv _ _ _ H1) as (? & _ & H2).
  destruct (bind_inv _ _ _ H2) as (? & _ & H3). destruct (bind_inv _ _ _ H3) as (? & _ & H4). injection H4 as <- _. reflexivity.
Qed.
Lemma p_update_imp v e s x s' : p_update v e s x = Ret s' -> ps_imp s' = ps_imp s.
Proof.
  unfold p_update. cbv zeta. intros H. destruct (bind_inv _ _ _ H) as ([s1 y] & H1 & H2). clear H.
  assert (I1 : ps_imp s1 = ps_imp s).
  { destruct (Nat.ltb 0 (ps_buf_len s)); [|injection H1 as <- _; reflexivity].
    destruct (bind_inv _ _ _ H1) as ([s2 z] & H3 & H4). apply p_fill_imp in H3. rewrite <- H3. clear - H4.
    destruct z as [|b r]; [injection H4 as <- _; reflexivity|]. destruct (Nat.ltb _ _).
    - destruct (bind_inv _ _ _ H4) as ([lv c] & _ & H5). injection H5 as <- _. reflexivity.
    - destruct (bind_inv _ _ _ H4) as (fr & _ & H5). destruct (bind_inv _ _ _ H5) as ([lv c] & _ & H6).
      destruct (bind_inv _ _ _ H6) as (? & _ & H7). destruct (bind_inv _ _ _ H7) as (? & _ & H8).
      destruct (bind_inv _ _ _ H8) as (? & _ & H9). injection H9 as <- _. reflexivity. }
  rewrite <- I1. clear I1 H1. destruct (bind_inv _ _ _ H2) as ([s2 z] & H3 & H4). clear H2.
  destruct (bind_inv _ _ _ H4) as ([s3 z3] & H5 & H6). apply p_fill_imp in H5. destruct (bind_inv _ _ _ H6) as (u & _ & H7). injection H7 as <-.
  rewrite H5. destruct (Nat.ltb _ _) in H3; [|injection H3 as <- _; reflexivity].
  destruct (bind_inv _ _ _ H3) as (? & _ & H7). destruct (bind_inv _ _ _ H7) as ([lv c] & _ & H8). destruct (bind_inv _ _ _ H8) as (? & _ & H9).
  injection H9 as <- _. reflexivity.
Qed.

Lemma step_uniform v e imp w c : no_force c = true -> uniform imp w -> uniform imp (fst (step v e imp w c)).
Proof.
  intros NF U. pose proof U as (UP & US & UJ & UPP & UPS).
  assert (PW : forall P', Forall (fun p => p_imp p = imp) P' -> uniform imp (with_w_params P' w)) by (intros; repeat split; auto).
  assert (SW : forall S', Forall (fun p => s_imp p = imp) S' -> uniform imp (with_w_states S' w)) by (intros; repeat split; auto).
  assert (JW : forall J', Forall (fun p => hj_imp p = imp) J' -> uniform imp (with_w_jobs J' w)) by (intros; repeat split; auto).
  assert (PPW : forall P', Forall (fun p => pp_imp p = imp) P' -> uniform imp (with_w_pparams P' w)) by (intros; repeat split; auto).
  assert (PSW : forall S', Forall (fun p => ps_imp p = imp) S' -> uniform imp (with_w_pstates S' w)) by (intros; repeat split; auto).
  assert (SP : forall i x, s_imp x = imp -> uniform imp (put_state w i x)) by (intros; apply SW, all_set_; auto).
  assert (PSP : forall i x, ps_imp x = imp -> uniform imp (put_pstate w i x)) by (intros; apply PSW, all_set_; auto).
  destruct c; try discriminate NF; cbn [step]; unfold on_obj, run_method;
    repeat match goal with
    | |- context [match nth_error ?l ?i with _ => _ end] => let E := fresh "E" in destruct (nth_error l i) eqn:E
    | |- context [if borrowable ?n ?l then _ else _] => destruct (borrowable n l)
    end; try exact U;
    try (match goal with |- context [finish w ?x _] => destruct x end; exact U);
    try (match goal with |- context [let '(_, _) := ?x in _] => destruct x end; exact U).
  - apply PW, Forall_snoc; auto.
  - apply PW, Forall_snoc; auto. exact (Forall_nth_ _ _ _ _ UP E).
  - destruct (call_setter v s p0) as [p' o] eqn:S. cbn. apply PW, all_set_; auto.
    change p' with (fst (p', o)). rewrite <- S, setter_imp. exact (Forall_nth_ _ _ _ _ UP E).
  - apply SW, Forall_snoc; auto.
  - apply SW, Forall_snoc; auto. rewrite to_state_imp. exact (Forall_nth_ _ _ _ _ UP E).
  - apply SW, Forall_snoc; auto. exact (Forall_nth_ _ _ _ _ US E).
  - destruct (update v e s0 m) eqn:X; try exact U. apply SP. rewrite (update_imp _ _ _ _ _ X). exact (Forall_nth_ _ _ _ _ US E).
  - unfold write. destruct (update v e s0 m) eqn:X; try exact U. apply SP. rewrite (update_imp _ _ _ _ _ X). exact (Forall_nth_ _ _ _ _ US E).
  - destruct (write_all (write v e) s0 m) eqn:X; try exact U. apply SP.
    refine (write_all_keep (fun s => s_imp s = imp) _ _ _ _ _ _ X (Forall_nth_ _ _ _ _ US E)).
    intros s1 b s' n W. unfold write in W. destruct (bind_inv _ _ _ W) as (s2 & H1 & H2). injection H2 as <- _.
    rewrite (update_imp _ _ _ _ _ H1). auto.
  - apply SP. exact (Forall_nth_ _ _ _ _ US E).
  - apply SP. exact (Forall_nth_ _ _ _ _ US E).
  - destruct (update_many v e (w_states w) xs) as [[ss n]| | |] eqn:X; try exact U. apply SW. eapply update_many_imp; eauto.
  - destruct (hash_many_job_new v e p0 m) eqn:X; try exact U. apply JW, Forall_snoc; auto. rewrite (job_new_imp _ _ _ _ _ X).
    exact (Forall_nth_ _ _ _ _ UP E).
  - apply JW, Forall_snoc; auto. exact (Forall_nth_ _ _ _ _ UJ E).
  - destruct (hash_many v e (w_jobs w) _) as [[js n]| | |] eqn:X; try exact U. apply JW. eapply hash_many_imp; eauto.
  - apply PPW, Forall_snoc; auto.
  - apply PPW, Forall_snoc; auto. exact (Forall_nth_ _ _ _ _ UPP E).
  - destruct (call_psetter v s p0) as [p' o] eqn:S. cbn. apply PPW, all_set_; auto.
    change p' with (fst (p', o)). rewrite <- S, psetter_imp. exact (Forall_nth_ _ _ _ _ UPP E).
  - destruct (p_to_state v (pparams_new v imp)) eqn:X; try exact U. apply PSW, Forall_snoc; auto. rewrite (p_with_params_imp _ _ _ X). reflexivity.
  - destruct (p_to_state v p0) eqn:X; try exact U. apply PSW, Forall_snoc; auto. rewrite (p_with_params_imp _ _ _ X). exact (Forall_nth_ _ _ _ _ UPP E).
  - apply PSW, Forall_snoc; auto. exact (Forall_nth_ _ _ _ _ UPS E).
  - destruct (p_update v e p m) eqn:X; try exact U. apply PSP. rewrite (p_update_imp _ _ _ _ _ X). exact (Forall_nth_ _ _ _ _ UPS E).
  - unfold p_write. destruct (p_update v e p m) eqn:X; try exact U. apply PSP. rewrite (p_update_imp _ _ _ _ _ X). exact (Forall_nth_ _ _ _ _ UPS E).
  - destruct (write_all (p_write v e) p m) eqn:X; try exact U. apply PSP.
    refine (write_all_keep (fun s => ps_imp s = imp) _ _ _ _ _ _ X (Forall_nth_ _ _ _ _ UPS E)).
    intros s1 b s' n W. unfold p_write in W. destruct (bind_inv _ _ _ W) as (s2 & H1 & H2). injection H2 as <- _.
    rewrite (p_update_imp _ _ _ _ _ H1). auto.
  - apply PSP. exact (Forall_nth_ _ _ _ _ UPS E).
Qed.
Lemma o_write_all v e : forall fuel s b, ones (ks (write_all_loop_lk (write_lk v e) fuel s b)).
Proof.
  induction fuel as [|fuel IH]; intros s b; cbn [write_all_loop_lk]; destruct b; try constructor.
  rewrite ks_tell. apply ones_app; [constructor|]. apply o_bind; [rewrite write_ks; apply o_update|]. intros [s1 n].
  apply o_branch; [constructor|]. apply o_bind; [apply o_nil; qt|]. intros. apply IH.
Qed.
Lemma step_ones v e imp w c : match c with
  | UpdateMany _ | HashMany _ | POneShot _ | PHashWith _ _ | PUpdate _ _ | PWrite _ _ | PWriteAll _ _ | PFinalize _ => True
  | _ => ones (compressions (fst (step_lk v e imp w c))) end.
Proof.
  destruct c; cbn [step_lk]; try exact I; unfold on_obj_lk;
    repeat match goal with
    | |- context [match nth_error ?l ?i with _ => _ end] => destruct (nth_error l i)
    end; try (constructor; fail); cbn [fst finish_lk];
    try (apply o_nil; first [apply run_method_q, qm_call_setter | apply run_method_q, qm_call_psetter
      | apply q_with_params | apply q_count | apply q_state_debug | apply q_to_hash | apply q_p_with_params | apply q_p_count
      | apply q_pstate_debug | apply q_as_array | apply q_to_hex | apply q_hash_debug | apply q_hash_eq | apply q_hash_eq_slice]; fail).
  - apply o_params_hash.
  - apply o_params_hash.
  - apply o_update.
  - rewrite write_ks. apply o_update.
  - apply o_write_all.
  - apply o_finalize.
  - apply o_job_new.
Qed.

Lemma step_pace v e imp w a c : supported e imp -> uniform imp w -> R v e w a ->
  let t := fst (step_lk v e imp w c) in
  pace_of (fl v) (degree v imp) a c (blocks_compressed t) (kernel_runs t).
Proof.
  intros SU (UP & US & UJ & UPP & UPS) RW t. pose proof (step_ones v e imp w c) as O. unfold t, blocks_compressed, kernel_runs.
  destruct c; cbn [pace_of]; try (apply ones_sum; exact O); clear t O; cbn [step_lk]; pose proof RW as [RP RS RJ RPP RPS RH].
  - rewrite (F2_length _ _ _ RS).
    destruct (borrowable (length (a_states a)) _) eqn:B; [|cbn; lia]. cbn [fst finish_lk].
    apply (update_many_api v e w a xs RW B). exact US.
  - rewrite (F2_length _ _ _ RJ).
    destruct (borrowable (length (a_jobs a)) _) eqn:B; [|cbn; lia]. cbn [fst finish_lk].
    apply (hash_many_api v e w a xs RW B). exact UJ.
  - cbn [fst finish_lk]. unfold blake2p_default_lk. rewrite pparams_new_of, leaves_fl. apply p_hash_pace; auto using wfp_default.
  - pose proof (F2_nth _ _ _ p RPP) as K. unfold on_obj_lk. destruct (nth_error (w_pparams w) p) eqn:E; [|cbn; lia].
    destruct (nth_error (a_pparams a) p); [|destruct K]. pose proof (Forall_nth_ _ _ _ _ UPP E) as EI. cbn beta in EI.
    destruct K as (W & imp' & SU' & ->). change (imp' = imp) in EI. subst imp'. cbn [fst finish_lk]. rewrite leaves_fl. apply p_hash_pace; auto.
  - pose proof (F2_nth _ _ _ s RPS) as K. unfold on_obj_lk. destruct (nth_error (w_pstates w) s) eqn:E; [|cbn; lia].
    destruct (nth_error (a_pstates a) s); [|destruct K]. pose proof (Forall_nth_ _ _ _ _ UPS E) as EI. cbn beta in EI.
    destruct (p_update_holds_pace v e _ _ _ m K) as [PK _]. rewrite EI in PK. unfold packed in PK. cbn [fst finish_lk]. lia.
  - pose proof (F2_nth _ _ _ s RPS) as K. unfold on_obj_lk. destruct (nth_error (w_pstates w) s) eqn:E; [|cbn; lia].
    destruct (nth_error (a_pstates a) s); [|destruct K]. pose proof (Forall_nth_ _ _ _ _ UPS E) as EI. cbn beta in EI.
    destruct (p_update_holds_pace v e _ _ _ m K) as [PK _]. rewrite EI in PK. unfold packed in PK. cbn [fst finish_lk]. rewrite p_write_ks. lia.
  - pose proof (F2_nth _ _ _ s RPS) as K. unfold on_obj_lk. destruct (nth_error (w_pstates w) s) eqn:E; [|cbn; lia].
    destruct (nth_error (a_pstates a) s); [|destruct K]. pose proof (Forall_nth_ _ _ _ _ UPS E) as EI. cbn beta in EI.
    destruct (p_update_holds_pace v e _ _ _ m K) as [PK _]. rewrite EI in PK. unfold packed in PK. cbn [fst finish_lk].
    rewrite (p_write_all_holds_ks _ _ _ _ _ m K). destruct m; [cbn; lia|]. lia.
  - pose proof (F2_nth _ _ _ s RPS) as K. unfold on_obj_lk. destruct (nth_error (w_pstates w) s) eqn:E; [|cbn; lia].
    destruct (nth_error (a_pstates a) s); [|destruct K]. pose proof (Forall_nth_ _ _ _ _ UPS E) as EI. cbn beta in EI.
    pose proof (p_finalize_holds_pace v e _ _ _ K) as PK. rewrite EI in PK. cbn [fst finish_lk]. rewrite leaves_fl. exact PK.
Qed.

(** ** Programs *)
Lemma run_works v e imp : supported e imp -> forall prog w a ld, R v e w a -> accounts v (w_pstates w) (a_pstates a) ld ->
  Forall (well_typed (fl v)) prog ->
  works_of (fl v) (e_dbg e) a ld prog (map (fun x => blocks_compressed (fst x)) (run_from_lk v e imp w prog)).
Proof.
  intros SU. induction prog as [|c r IH]; intros w a ld RW ACC WT; cbn [run_from_lk map works_of]; [exact I|].
  inversion WT; subst. pose proof (step_work v e imp w a ld c SU RW ACC) as W. pose proof (step_accounts v e imp w a ld c SU RW ACC) as W2.
  pose proof (step_R v e imp w a c SU RW H1) as [_ RS]. rewrite <- step_erase in RS.
  destruct (step_lk v e imp w c) as [t [w' o]]. cbn [map fst snd works_of] in *. split; [exact W|]. apply IH; auto.
Qed.

Lemma run_paces v e imp : supported e imp -> forall prog w a, R v e w a -> uniform imp w ->
  Forall (well_typed (fl v)) prog -> forallb no_force prog = true ->
  paces_of (fl v) (e_dbg e) (degree v imp) a prog
    (map (fun x => (blocks_compressed (fst x), kernel_runs (fst x))) (run_from_lk v e imp w prog)).
Proof.
  intros SU. induction prog as [|c r IH]; intros w a RW U WT NF; cbn [run_from_lk map paces_of]; [exact I|].
  inversion WT; subst. cbn [forallb] in NF. apply andb_true_iff in NF. destruct NF as [NF1 NF2].
  pose proof (step_pace v e imp w a c SU U RW) as W. pose proof (step_uniform v e imp w c NF1 U) as U2.
  pose proof (step_R v e imp w a c SU RW H1) as [_ RS]. rewrite <- step_erase in RS, U2.
  destruct (step_lk v e imp w c) as [t [w' o]]. cbn [map fst snd paces_of] in *. split; [exact W|]. apply IH; auto.
Qed.
