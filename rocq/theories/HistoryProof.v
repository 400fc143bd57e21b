(** Every history on one State shows what History.v says. *)
From Coq Require Import String.
From Coq Require Import ZArith Arith NArith List Bool Lia ZifyBool ZifyNat ZifyN.
From Verif Require Import Base ByteLemmas Guts Portable KernelSpec Simd Impl Loops LaneLoops Sched SchedProof
  Lib StateProof ParamsProof FedProof Many ManyProof Par Stripe ParProof ParFed HashProof Machine Api ApiProof
  History Runs.
From Verif Require Spec ApiSpec.
Import ListNotations.
Open Scope list_scope.
Open Scope N_scope.
Local Notation length := List.length.

Lemma do_ops_app {S} (step : S -> op -> S * obs) a : forall s b,
  do_ops step s (a ++ b) =
  (after step (after step s a) b, watch step s a ++ watch step (after step s a) b).
Proof.
  unfold after, watch. induction a as [|o a IH]; intros s b; cbn [do_ops app].
  - cbn [fst snd app]. destruct (do_ops step s b); reflexivity.
  - destruct (step s o) as [s1 x]. rewrite IH. destruct (do_ops step s1 a) as [s2 xs]. reflexivity.
Qed.
Lemma after_app {S} (step : S -> op -> S * obs) s a b : after step s (a ++ b) = after step (after step s a) b.
Proof. unfold after at 1. rewrite do_ops_app. reflexivity. Qed.
Lemma watch_app {S} (step : S -> op -> S * obs) s a b :
  watch step s (a ++ b) = watch step s a ++ watch step (after step s a) b.
Proof. unfold watch at 1. rewrite do_ops_app. reflexivity. Qed.
Lemma watch_length {S} (step : S -> op -> S * obs) ops : forall s, length (watch step s ops) = length ops.
Proof.
  unfold watch. induction ops as [|o ops IH]; intros s; cbn [do_ops]; auto.
  destruct (step s o) as [s1 x]. specialize (IH s1). destruct (do_ops step s1 ops). cbn in *. lia.
Qed.

(** *** State *)
Definition next_config (c : ApiSpec.config) (o : op) : ApiSpec.config :=
  match o with DoSetLastNode b => ApiSpec.apply (ApiSpec.LastNode b) c | _ => c end.

(** What a call shows on a State that holds [msg]. *)
Definition shown_now (f : Spec.flavour) (dbg : bool) (c : ApiSpec.config) (msg : list byte) (o : op) : obs :=
  match o with
  | DoUpdate _ | DoWriteAll _ | DoFlush | DoSetLastNode _ => Unit
  | DoWrite x => Wrote (length x)
  | DoFinalize => Bytes (ApiSpec.digest f c msg)
  | DoCount => match count_of f dbg (key_block_len f (ApiSpec.c_key c)) msg with
               | Some n => Number n | None => Panicked end
  | DoShow => match count_of f dbg (key_block_len f (ApiSpec.c_key c)) msg with
              | Some n => Text (show_state n (Spec.digest_length (ApiSpec.c_params c)) (ApiSpec.c_last_node c))
              | None => Panicked end
  end.

Lemma do_op_holds v e c msg s o : holds v e c msg s ->
  exists s', do_op v e s o = (s', shown_now (fl v) (e_dbg e) c msg o) /\
    holds v e (next_config c o) (msg ++ fed_by o) s'.
Proof.
  intros H. destruct o; cbn [do_op shown_now next_config fed_by]; rewrite ?app_nil_r.
  - destruct (holds_update _ _ _ _ _ x H) as (s' & E & H' & _). rewrite E. cbn [seen]. eauto.
  - destruct (holds_update _ _ _ _ _ x H) as (s' & E & H' & _). unfold write. rewrite E. cbn [bind seen]. eauto.
  - destruct (holds_update _ _ _ _ _ x H) as (s' & E & H' & _). destruct x as [|b x].
    + cbn [write_all write_all_loop length seen]. exists s. rewrite app_nil_r. auto.
    + rewrite (write_all_once _ s s'); [cbn [seen]; eauto|discriminate|]. unfold write. rewrite E. reflexivity.
  - cbn [flush seen]. eauto.
  - exists (set_last_node b s). split; auto. apply holds_set_last_node. auto.
  - rewrite (holds_finalize _ _ _ _ _ H). cbn [bind]. rewrite hash_value_bytes by apply H. cbn [seen]. eauto.
  - rewrite (count_state_R _ _ _ _ _ H). destruct (count_of _ _ _ _); cbn [seen]; eauto.
  - unfold state_debug. rewrite (count_state_R _ _ _ _ _ H). destruct (count_of _ _ _ _); cbn [seen bind]; [|eauto].
    exists s. split; auto. f_equal. rewrite (hd_ln _ _ _ _ _ H), (hd_len _ _ _ _ _ H). reflexivity.
Qed.

Lemma flagged_nil c : flagged c [] = c.
Proof. destruct c; reflexivity. Qed.
Lemma flagged_snoc c ops o : flagged c (ops ++ [o]) = next_config (flagged c ops) o.
Proof. unfold flagged, last_flag. rewrite fold_left_app. destruct c, o; reflexivity. Qed.
Lemma fed_snoc ops o : fed (ops ++ [o]) = fed ops ++ fed_by o.
Proof. unfold fed. rewrite flat_map_app. cbn [flat_map]. rewrite app_nil_r. reflexivity. Qed.

Lemma after_holds v e c msg s ops : holds v e c msg s ->
  holds v e (flagged c ops) (msg ++ fed ops) (after (do_op v e) s ops).
Proof.
  intros H. induction ops as [|o ops IH] using rev_ind.
  - rewrite flagged_nil. unfold fed. cbn [flat_map]. rewrite app_nil_r. exact H.
  - rewrite after_app, flagged_snoc, fed_snoc, app_assoc. destruct (do_op_holds _ _ _ _ _ o IH) as (s' & E & H').
    unfold after at 1. cbn [do_ops]. rewrite E. exact H'.
Qed.

Lemma watch_at {S} (step : S -> op -> S * obs) s pre o post :
  nth_error (watch step s (pre ++ o :: post)) (length pre) = Some (snd (step (after step s pre) o)).
Proof.
  rewrite watch_app, nth_error_app2 by (rewrite watch_length; lia). rewrite watch_length, Nat.sub_diag.
  unfold watch. cbn [do_ops]. destruct (step (after step s pre) o) as [s1 x]. destruct (do_ops step s1 post). reflexivity.
Qed.

Lemma watch_shown v e c s pre o post : holds v e c [] s ->
  nth_error (watch (do_op v e) s (pre ++ o :: post)) (length pre) = Some (shown (fl v) (e_dbg e) c pre o).
Proof.
  intros H. rewrite watch_at. pose proof (after_holds _ _ _ _ _ pre H) as A. cbn [app] in A.
  destruct (do_op_holds _ _ _ _ _ o A) as (s' & E & _). rewrite E. reflexivity.
Qed.

(** States that hold the same cannot be told apart. *)
Lemma same_watch v e ops : forall c msg s s', holds v e c msg s -> holds v e c msg s' ->
  watch (do_op v e) s ops = watch (do_op v e) s' ops.
Proof.
  unfold watch. induction ops as [|o ops IH]; intros c msg s s' H H'; auto. cbn [do_ops].
  destruct (do_op_holds _ _ _ _ _ o H) as (s1 & E1 & H1). destruct (do_op_holds _ _ _ _ _ o H') as (s2 & E2 & H2).
  rewrite E1, E2. specialize (IH _ _ _ _ H1 H2).
  destruct (do_ops _ s1 ops), (do_ops _ s2 ops). cbn [snd] in *. rewrite IH. reflexivity.
Qed.

(** *** BLAKE2bp / BLAKE2sp State *)
Definition pshown_now (f : Spec.flavour) (dbg : bool) (c : ApiSpec.pconfig) (msg : list byte) (o : op) : obs :=
  match o with
  | DoUpdate _ | DoWriteAll _ | DoFlush => Unit
  | DoSetLastNode _ => Inexpressible
  | DoWrite x => Wrote (length x)
  | DoFinalize => Bytes (ApiSpec.pdigest f c msg)
  | DoCount => match count_of f dbg (Spec.leaves f * key_block_len f (ApiSpec.pc_key c)) msg with
               | Some n => Number n | None => Panicked end
  | DoShow => match count_of f dbg (Spec.leaves f * key_block_len f (ApiSpec.pc_key c)) msg with
              | Some n => Text (show_pstate n (ApiSpec.pc_hash_length c)) | None => Panicked end
  end.

Lemma do_pop_holds v e c msg s o : pholds v e c msg s ->
  exists s', do_pop v e s o = (s', pshown_now (fl v) (e_dbg e) c msg o) /\ pholds v e c (msg ++ fed_by o) s'.
Proof.
  intros H. destruct o; cbn [do_pop pshown_now fed_by]; rewrite ?app_nil_r.
  - destruct (pholds_update _ _ _ _ _ x H) as (s' & E & H' & _). rewrite E. cbn [seen]. eauto.
  - destruct (pholds_update _ _ _ _ _ x H) as (s' & E & H' & _). unfold p_write. rewrite E. cbn [bind seen]. eauto.
  - destruct (pholds_update _ _ _ _ _ x H) as (s' & E & H' & _). destruct x as [|b x].
    + cbn [write_all write_all_loop length seen]. exists s. rewrite app_nil_r. auto.
    + rewrite (write_all_once _ s s'); [cbn [seen]; eauto|discriminate|]. unfold p_write. rewrite E. reflexivity.
  - eauto.
  - eauto.
  - rewrite (pholds_finalize _ _ _ _ _ H). cbn [bind]. rewrite phash_value_bytes by apply H. cbn [seen]. eauto.
  - rewrite (count_pstate_R _ _ _ _ _ H). destruct (count_of _ _ _ _); cbn [seen]; eauto.
  - unfold pstate_debug. rewrite (count_pstate_R _ _ _ _ _ H). destruct (count_of _ _ _ _); cbn [seen bind]; [|eauto].
    exists s. split; auto. f_equal. rewrite (ph_len _ _ _ _ _ H). reflexivity.
Qed.

Lemma pafter_holds v e c msg s ops : pholds v e c msg s ->
  pholds v e c (msg ++ fed ops) (after (do_pop v e) s ops).
Proof.
  intros H. induction ops as [|o ops IH] using rev_ind.
  - unfold fed. cbn [flat_map]. rewrite app_nil_r. exact H.
  - rewrite after_app, fed_snoc, app_assoc. destruct (do_pop_holds _ _ _ _ _ o IH) as (s' & E & H').
    unfold after at 1. cbn [do_ops]. rewrite E. exact H'.
Qed.

Lemma pwatch_shown v e c s pre o post : pholds v e c [] s ->
  nth_error (watch (do_pop v e) s (pre ++ o :: post)) (length pre) = Some (pshown (fl v) (e_dbg e) c pre o).
Proof.
  intros H. rewrite watch_at. pose proof (pafter_holds _ _ _ _ _ pre H) as A. cbn [app] in A.
  destruct (do_pop_holds _ _ _ _ _ o A) as (s' & E & _). rewrite E. reflexivity.
Qed.

Lemma psame_watch v e ops : forall c msg s s', pholds v e c msg s -> pholds v e c msg s' ->
  watch (do_pop v e) s ops = watch (do_pop v e) s' ops.
Proof.
  unfold watch. induction ops as [|o ops IH]; intros c msg s s' H H'; auto. cbn [do_ops].
  destruct (do_pop_holds _ _ _ _ _ o H) as (s1 & E1 & H1). destruct (do_pop_holds _ _ _ _ _ o H') as (s2 & E2 & H2).
  rewrite E1, E2. specialize (IH _ _ _ _ H1 H2).
  destruct (do_ops _ s1 ops), (do_ops _ s2 ops). cbn [snd] in *. rewrite IH. reflexivity.
Qed.
