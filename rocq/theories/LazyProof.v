(** Calling the iterator when the code does is the same as collecting it first. *)
From Coq Require Import Arith NArith List Bool Lia.
From Verif Require Import Base Guts Simd Impl Sched Lib Many Lazy LazySpec SchedProof.
Import ListNotations.
Open Scope N_scope.

Lemma exchange_set {C} (l : list C) : forall r c, exchange l r c = set l r c.
Proof. induction l as [|x l IH]; intros [|r] c; cbn; [| | |rewrite IH]; reflexivity. Qed.
Lemma set_length' {C} (l : list C) : forall r c, length (set l r c) = length l.
Proof. induction l as [|x l IH]; intros [|r] c; cbn; auto. Qed.

Section Sim.
Context {C A S : Type}.
Variable get : C -> list N.
Variable put : C -> list N -> C.
Variable prep : A -> C -> outcome (C * prepared).
Variable step : machine S C A.
Variable fine : S -> list C -> Prop.
Variable out : S -> list nat.
Hypothesis B : borrows step fine out.
Variables (v : variant) (e : env) (imp : platform) (fin : bool) (st : stride).
Variable P : nat.
Variable sF : S.

Lemma collect_set : forall n s cb l s2 cp r c, fine s cb -> In r (out s) ->
  collect step n s cb = Some (l, s2, cp) -> collect step n s (set cb r c) = Some (l, s2, set cp r c).
Proof.
  induction n as [|n IH]; intros s cb l s2 cp r c F O; cbn [collect]; [discriminate|].
  destruct (step s cb) as [[s' cb'] o] eqn:E. rewrite <- exchange_set, (unseen _ _ _ B _ _ _ _ _ r c F E O).
  destruct o as [p|].
  - destruct (collect step n s' cb') as [[[l' s''] c'']|] eqn:EC; [|discriminate].
    intros X. injection X as <- <- <-. rewrite exchange_set.
    rewrite (IH _ _ _ _ _ r c (stays_fine _ _ _ B _ _ _ _ _ F E) (stays_out _ _ _ B _ _ _ _ _ _ F E O) EC). reflexivity.
  - intros X. injection X as <- <- <-. rewrite exchange_set. reflexivity.
Qed.

Lemma collect_nth : forall n s cb l s2 cp r, fine s cb -> In r (out s) ->
  collect step n s cb = Some (l, s2, cp) -> nth_error cp r = nth_error cb r.
Proof.
  induction n as [|n IH]; intros s cb l s2 cp r F O; cbn [collect]; [discriminate|].
  destruct (step s cb) as [[s' cb'] o] eqn:E. destruct o as [p|].
  - destruct (collect step n s' cb') as [[[l' s''] c'']|] eqn:EC; [|discriminate].
    intros X. injection X as <- <- <-.
    rewrite (IH _ _ _ _ _ r (stays_fine _ _ _ B _ _ _ _ _ F E) (stays_out _ _ _ B _ _ _ _ _ _ F E O) EC).
    apply (untouched _ _ _ B _ _ _ _ _ _ F E O).
  - intros X. injection X as <- <- <-. apply (untouched _ _ _ B _ _ _ _ _ _ F E O).
Qed.

Lemma collect_nodup : forall n s cb l s2 cp, fine s cb -> collect step n s cb = Some (l, s2, cp) ->
  NoDup (map fst l) /\ (forall r, In r (map fst l) -> ~ In r (out s)) /\
  (forall r, In r (map fst l) -> (r < length cp)%nat).
Proof.
  induction n as [|n IH]; intros s cb l s2 cp F; cbn [collect]; [discriminate|].
  destruct (step s cb) as [[s' cb'] o] eqn:E. destruct o as [[r0 a0]|].
  - destruct (collect step n s' cb') as [[[l' s''] c'']|] eqn:EC; [|discriminate].
    intros X. injection X as <- <- <-. pose proof (stays_fine _ _ _ B _ _ _ _ _ F E) as F'.
    destruct (IH _ _ _ _ _ F' EC) as (N1 & N2 & N3). destruct (goes_out _ _ _ B _ _ _ _ _ _ F E) as (G1 & G2 & G3).
    cbn [map fst]. split; [|split].
    + constructor; auto. intros X. exact (N2 _ X G2).
    + intros r [<-|X]; auto. intros Y. apply (N2 _ X). apply (stays_out _ _ _ B _ _ _ _ _ _ F E Y).
    + intros r [<-|X]; auto. apply nth_error_Some. rewrite (collect_nth _ _ _ _ _ _ r0 F' G2 EC).
      apply nth_error_Some. exact G3.
  - intros X. injection X as <- <- <-. cbn. split; [constructor|]. split; intros r [].
Qed.

(** The lazy run (left) and the run on what was collected (right). *)
Inductive Rel (R : list nat) : liter A S -> list C -> iter A -> list C -> Prop :=
| Rel_done lit it cb : l_done lit = true -> i_done it = true -> l_calls lit = i_calls it ->
    l_state lit = sF -> Rel R lit cb it cb
| Rel_on lit it cb cp n l : l_done lit = false -> i_done it = false -> l_calls lit = i_calls it ->
    l_peeked lit = i_peeked it -> i_src it = map Some l -> (n <= P)%nat ->
    fine (l_state lit) cb -> collect step n (l_state lit) cb = Some (l, sF, cp) ->
    (forall r, In r R -> In r (out (l_state lit))) ->
    (forall r a, l_peeked lit = Some (r, a) -> In r (out (l_state lit))) ->
    Rel R lit cb it cp.

Lemma Rel_less R R' lit cb it cp : (forall r, In r R' -> In r R) -> Rel R lit cb it cp -> Rel R' lit cb it cp.
Proof. intros H [?|? ? ? ? n l]; [constructor|eapply (Rel_on _ _ _ _ _ n l)]; eauto. Qed.

Lemma cell_rel R lit cb it cp r : Rel R lit cb it cp -> In r R -> cell cb r = cell cp r.
Proof.
  intros H I. destruct H as [|? ? ? ? n l]; auto. unfold cell. rewrite (collect_nth n (l_state lit) cb l sF cp r); auto.
Qed.
Lemma set_rel R lit cb it cp r c : Rel R lit cb it cp -> In r R -> Rel R lit (set cb r c) it (set cp r c).
Proof.
  intros H I. destruct H as [|? ? ? ? n l]; [constructor; auto|].
  eapply (Rel_on _ _ _ _ _ n l); auto.
  - rewrite <- exchange_set. apply (fine_anyway _ _ _ B); auto.
  - apply collect_set; auto.
Qed.

Definition refs_of (o : option vjob) : list nat := match o with Some j => [v_ref j] | None => [] end.

Lemma start_sim n s cb l cp r a cp' o : fine s cb -> In r (out s) -> collect step n s cb = Some (l, sF, cp) ->
  start prep cp (r, a) = Ret (cp', o) ->
  exists cb', start prep cb (r, a) = Ret (cb', o) /\ collect step n s cb' = Some (l, sF, cp') /\ fine s cb' /\
    (forall q, In q (refs_of o) -> q = r).
Proof.
  intros F O EC. unfold start, cell. rewrite (collect_nth _ _ _ _ _ _ _ F O EC).
  destruct (nth_error cb r) as [c|]; cbn [bind]; [|discriminate].
  destruct (prep a c) as [[c' p]| | |]; cbn [bind]; try discriminate.
  assert (EC' := collect_set _ _ _ _ _ _ r c' F O EC).
  assert (F' : fine s (set cb r c')) by (rewrite <- exchange_set; apply (fine_anyway _ _ _ B); auto).
  destruct p as [[[input count] ln]|]; intros X; injection X as <- <-; eexists; (split; [reflexivity|]);
    (split; [exact EC'|]); (split; [exact F'|]); cbn; [intros q [<-|[]]; auto|intros q []].
Qed.

Lemma pull_sim R : forall n f s calls cb l cp it' cp' o, (n <= f)%nat -> (n <= P)%nat ->
  fine s cb -> (forall r, In r R -> In r (out s)) -> collect step n s cb = Some (l, sF, cp) ->
  pull_src prep (map Some l) calls cp = Ret (it', cp', o) ->
  exists lit' cb', lpull prep step f s calls cb = Ret (lit', cb', o) /\ Rel (refs_of o ++ R) lit' cb' it' cp'.
Proof.
  induction n as [|n IH]; intros f s calls cb l cp it' cp' o Hf HP F HR EC; [discriminate EC|].
  destruct f as [|f]; [lia|]. cbn [collect] in EC. cbn [lpull].
  destruct (step s cb) as [[s' cb'] oi] eqn:E. destruct oi as [[r a]|].
  - destruct (collect step n s' cb') as [[[l' s''] c'']|] eqn:EC'; [|discriminate EC].
    injection EC as <- -> ->. cbn [map pull_src].
    pose proof (stays_fine _ _ _ B _ _ _ _ _ F E) as F'. destruct (goes_out _ _ _ B _ _ _ _ _ _ F E) as (_ & G2 & _).
    assert (HR' : forall q, In q R -> In q (out s')) by (intros q X; apply (stays_out _ _ _ B _ _ _ _ _ _ F E); auto).
    destruct (start prep cp (r, a)) as [[cp1 o1]| | |] eqn:ES; cbn [bind]; try discriminate.
    destruct (start_sim _ _ _ _ _ _ _ _ _ F' G2 EC' ES) as (cb1 & -> & EC1 & F1 & Q). cbn [bind].
    destruct o1 as [j|].
    + intros X. injection X as <- <- <-. eexists _, _. split; [reflexivity|].
      eapply (Rel_on _ _ _ _ _ n l'); cbn; auto; try lia; [|discriminate].
      intros q [<-|X]; auto. rewrite (Q (v_ref j)); auto. cbn. auto.
    + intros X. apply (IH f s' _ cb1 l' cp1); auto; lia.
  - injection EC as <- -> ->. cbn [map pull_src]. intros X. injection X as <- <- <-. eexists _, _. split; [reflexivity|].
    constructor; auto.
Qed.

Lemma next_sim R lit cb it cp it' cp' o : Rel R lit cb it cp -> next prep it cp = Ret (it', cp', o) ->
  exists lit' cb', lnext prep step P lit cb = Ret (lit', cb', o) /\ Rel (refs_of o ++ R) lit' cb' it' cp'.
Proof.
  intros H. unfold next, lnext. destruct H as [lit it cb D1 D2 EN ES|lit it cb cp n l D1 D2 EN EP EI HP F EC HR HK].
  - rewrite D1, D2. intros X. injection X as <- <- <-. eexists _, _. split; [reflexivity|]. constructor; auto.
  - rewrite D1, D2, EP, EI, EN. destruct (i_peeked it) as [[r a]|] eqn:EK.
    + destruct (start prep cp (r, a)) as [[cp1 o1]| | |] eqn:ES; cbn [bind]; try discriminate.
      assert (HO : In r (out (l_state lit))) by (apply (HK r a); congruence).
      destruct (start_sim _ _ _ _ _ _ _ _ _ F HO EC ES) as (cb1 & -> & EC1 & F1 & Q). cbn [bind].
      destruct o1 as [j|].
      * intros X. injection X as <- <- <-. eexists _, _. split; [reflexivity|].
        eapply (Rel_on _ _ _ _ _ n l); cbn; auto; [|discriminate].
        intros q [<-|X]; auto. rewrite (Q (v_ref j)); auto. cbn. auto.
      * apply (pull_sim R n P); auto.
    + apply (pull_sim R n P); auto.
Qed.

Lemma fill_sim : forall k lit cb it cp vec it' cp' vec', Rel (map v_ref vec) lit cb it cp ->
  fill prep v k it cp vec = Ret (it', cp', vec') ->
  exists lit' cb', lfill prep step v P k lit cb vec = Ret (lit', cb', vec') /\ Rel (map v_ref vec') lit' cb' it' cp'.
Proof.
  induction k as [|k IH]; intros lit cb it cp vec it' cp' vec' H; cbn [fill lfill].
  - intros X. injection X as <- <- <-. eauto.
  - destruct (next prep it cp) as [[[it1 cp1] o]| | |] eqn:EN; cbn [bind]; try discriminate.
    destruct (next_sim _ _ _ _ _ _ _ _ H EN) as (lit1 & cb1 & -> & H1). cbn [bind].
    destruct o as [j|].
    + destruct (assert_ _) as [[]| | |]; cbn [bind]; try discriminate. apply IH.
      eapply Rel_less; [|exact H1]. intros r. rewrite map_app, in_app_iff. cbn. tauto.
    + intros X. injection X as <- <- <-. eauto.
Qed.

Lemma mapM_load_sim R lit cb it cp : Rel R lit cb it cp -> forall front,
  (forall r, In r (map v_ref front) -> In r R) ->
  mapM (load_job get cb) front = mapM (load_job get cp) front.
Proof.
  intros H. induction front as [|j front IH]; intros I; auto. cbn [mapM]. unfold load_job at 1 3.
  rewrite (cell_rel _ _ _ _ _ (v_ref j) H) by (apply I; left; auto). rewrite IH; auto. intros r X. apply I. right. auto.
Qed.

Lemma store_sim R lit it : forall js cb cp cp' vs, Rel R lit cb it cp ->
  (forall r, In r (map (fun p => v_ref (fst p)) js) -> In r R) ->
  store_jobs put cp js = Ret (cp', vs) ->
  exists cb', store_jobs put cb js = Ret (cb', vs) /\ Rel R lit cb' it cp' /\
    map v_ref vs = map (fun p => v_ref (fst p)) js.
Proof.
  induction js as [|[j k] js IH]; intros cb cp cp' vs H I; cbn [store_jobs].
  - intros X. injection X as <- <-. eauto.
  - unfold store_words. rewrite (cell_rel _ _ _ _ _ (v_ref j) H) by (apply I; left; auto).
    destruct (cell cp (v_ref j)) as [c| | |]; cbn [bind]; try discriminate.
    destruct (store_jobs put (set cp (v_ref j) (put c (j_words k))) js) as [[cp1 vs1]| | |] eqn:E; cbn [bind]; try discriminate.
    intros X. injection X as <- <-.
    destruct (IH (set cb (v_ref j) (put c (j_words k))) _ _ _ (set_rel _ _ _ _ _ (v_ref j) (put c (j_words k)) H ltac:(apply I; left; auto)) ltac:(intros r X; apply I; right; auto) E)
      as (cb' & -> & H' & M). cbn [bind]. eexists. split; [reflexivity|]. split; [exact H'|]. cbn. f_equal. exact M.
Qed.

Lemma run_jobs_sim loop n lit cb it cp vec cp' vec' : Rel (map v_ref vec) lit cb it cp ->
  run_jobs get put loop n cp vec = Ret (cp', vec') ->
  exists cb', run_jobs get put loop n cb vec = Ret (cb', vec') /\ Rel (map v_ref vec') lit cb' it cp'.
Proof.
  intros H. unfold run_jobs, slice. destruct (_ && _) eqn:ES; cbn [bind]; try discriminate. cbn [skipn Nat.sub].
  rewrite Nat.sub_0_r. set (front := firstn n vec).
  assert (FI : forall r, In r (map v_ref front) -> In r (map v_ref vec)).
  { intros r. subst front. rewrite <- (firstn_skipn n vec) at 2. rewrite map_app, in_app_iff. auto. }
  rewrite (mapM_load_sim _ _ _ _ _ H front FI).
  destruct (mapM (load_job get cp) front) as [js| | |]; cbn [bind]; try discriminate.
  destruct (loop js) as [js'| | |]; cbn [bind]; try discriminate.
  destruct (store_jobs put cp (combine front js')) as [[cp1 vs]| | |] eqn:E; cbn [bind]; try discriminate.
  intros X. injection X as <- <-.
  assert (CI : forall m js2, forall r, In r (map (fun p : vjob * job => v_ref (fst p)) (combine m js2)) -> In r (map v_ref m)).
  { induction m as [|j m IH]; intros [|k js2] r; cbn; try tauto. intros [X|X]; [left; auto|right; eapply IH; eauto]. }
  destruct (store_sim _ _ _ _ _ _ _ _ H ltac:(intros r X; apply FI; eapply CI; exact X) E) as (cb' & -> & H' & M).
  cbn [bind]. eexists. split; [reflexivity|]. eapply Rel_less; [|exact H']. intros r. rewrite map_app, in_app_iff, M.
  intros [X|X]; [apply FI; eapply CI; exact X|]. rewrite <- (firstn_skipn n vec), map_app, in_app_iff. auto.
Qed.

Lemma pop_at_in vec i r : In r (map v_ref (pop_at vec i)) -> In r (map v_ref vec).
Proof.
  unfold pop_at. rewrite map_app, in_app_iff. intros [X|X].
  - rewrite <- (firstn_skipn i vec), map_app, in_app_iff. auto.
  - rewrite <- (firstn_skipn (Datatypes.S i) vec), map_app, in_app_iff. auto.
Qed.
Lemma evict_in : forall n vec vec', evict_finished e vec n = Ret vec' ->
  forall r, In r (map v_ref vec') -> In r (map v_ref vec).
Proof.
  induction n as [|n IH]; intros vec vec'; cbn [evict_finished].
  - intros X. injection X as <-. auto.
  - destruct (debug_assert _ _) as [[]| | |]; cbn [bind]; try discriminate. intros X r I.
    specialize (IH _ _ X r I). destruct (nth_error vec n) as [j|]; auto. destruct (v_input j); auto. eapply pop_at_in; eauto.
Qed.

Lemma batch_sim loop n : forall f f' lit cb it cp vec it' cp' vec', (f <= f')%nat ->
  Rel (map v_ref vec) lit cb it cp ->
  batch_loop get put prep v e loop n f it cp vec = Ret (it', cp', vec') ->
  exists lit' cb', lbatch_loop get put prep step v e P loop n f' lit cb vec = Ret (lit', cb', vec') /\
    Rel (map v_ref vec') lit' cb' it' cp'.
Proof.
  induction f as [|f IH]; intros f' lit cb it cp vec it' cp' vec' L H; cbn [batch_loop]; [discriminate|].
  destruct f' as [|f']; [lia|]. cbn [lbatch_loop]. unfold fill_jobs_vec.
  destruct (fill prep v (n - length vec) it cp vec) as [[[it1 cp1] vec1]| | |] eqn:E; cbn [bind]; try discriminate.
  destruct (fill_sim _ _ _ _ _ _ _ _ _ H E) as (lit1 & cb1 & -> & H1). cbn [bind].
  destruct (Nat.ltb (length vec1) n).
  - intros X. injection X as <- <- <-. eauto.
  - destruct (run_jobs get put loop n cp1 vec1) as [[cp2 vec2]| | |] eqn:E2; cbn [bind]; try discriminate.
    destruct (run_jobs_sim _ _ _ _ _ _ _ _ _ H1 E2) as (cb2 & -> & H2). cbn [bind].
    destruct (evict_finished e vec2 n) as [vec3| | |] eqn:E3; cbn [bind]; try discriminate.
    apply IH; [lia|]. eapply Rel_less; [|exact H2]. apply (evict_in _ _ _ E3).
Qed.

Lemma run_one_sim R lit cb it cp j cp' : Rel R lit cb it cp -> In (v_ref j) R ->
  run_one get put v e imp fin st cp j = Ret cp' ->
  exists cb', run_one get put v e imp fin st cb j = Ret cb' /\ Rel R lit cb' it cp'.
Proof.
  intros H I. unfold run_one, store_words. rewrite (cell_rel _ _ _ _ _ _ H I).
  destruct (cell cp (v_ref j)) as [c| | |]; cbn [bind]; try discriminate.
  destruct (compress1_loop _ _ _ _ _ _ _ _ _) as [ws| | |]; cbn [bind]; try discriminate.
  intros X. injection X as <-. eexists. split; [reflexivity|]. apply set_rel; auto.
Qed.

Lemma run_vec_sim R lit it : forall vec cb cp cp', Rel R lit cb it cp -> (forall r, In r (map v_ref vec) -> In r R) ->
  run_vec get put v e imp fin st cp vec = Ret cp' ->
  exists cb', run_vec get put v e imp fin st cb vec = Ret cb' /\ Rel R lit cb' it cp'.
Proof.
  induction vec as [|j vec IH]; intros cb cp cp' H I; cbn [run_vec].
  - intros X. injection X as <-. eauto.
  - destruct (run_one get put v e imp fin st cp j) as [cp1| | |] eqn:E; cbn [bind]; try discriminate.
    destruct (run_one_sim _ _ _ _ _ _ _ H ltac:(apply I; left; auto) E) as (cb1 & -> & H1). cbn [bind].
    apply IH; auto. intros r X. apply I. right. auto.
Qed.

Lemma rest_sim : forall f f' lit cb it cp it' cp', (f <= f')%nat -> Rel [] lit cb it cp ->
  run_rest get put prep v e imp fin st f it cp = Ret (it', cp') ->
  exists lit' cb', lrun_rest get put prep step v e imp fin st P f' lit cb = Ret (lit', cb') /\ Rel [] lit' cb' it' cp'.
Proof.
  induction f as [|f IH]; intros f' lit cb it cp it' cp' L H; cbn [run_rest]; [discriminate|].
  destruct f' as [|f']; [lia|]. cbn [lrun_rest].
  destruct (next prep it cp) as [[[it1 cp1] o]| | |] eqn:E; cbn [bind]; try discriminate.
  destruct (next_sim _ _ _ _ _ _ _ _ H E) as (lit1 & cb1 & -> & H1). cbn [bind]. destruct o as [j|].
  - destruct (run_one get put v e imp fin st cp1 j) as [cp2| | |] eqn:E2; cbn [bind]; try discriminate.
    destruct (run_one_sim _ _ _ _ _ _ _ H1 ltac:(left; auto) E2) as (cb2 & -> & H2). cbn [bind].
    apply IH; [lia|]. eapply Rel_less; [|exact H2]. intros r [].
  - intros X. injection X as <- <-. eauto.
Qed.

Lemma compress_many_sim lit cb it cp it' cp' : (length (i_src it) <= P)%nat -> Rel [] lit cb it cp ->
  compress_many get put prep v e imp fin st it cp = Ret (it', cp') ->
  exists lit' cb', lcompress_many get put prep step v e imp fin st P lit cb = Ret (lit', cb') /\ Rel [] lit' cb' it' cp'.
Proof.
  intros L H. unfold compress_many, lcompress_many.
  set (x := if Nat.leb (wide v) (degree v imp) then batch_loop _ _ _ _ _ _ _ _ _ _ _ else _).
  destruct x as [[[it1 cp1] vec1]| | |] eqn:E1; cbn [bind]; try discriminate. subst x.
  assert (S1 : exists lit1 cb1, (if Nat.leb (wide v) (degree v imp)
     then lbatch_loop get put prep step v e P (fun js => compress_wide_loop v e imp js fin st) (wide v) (2 + P) lit cb []
     else Ret (lit, cb, [])) = Ret (lit1, cb1, vec1) /\ Rel (map v_ref vec1) lit1 cb1 it1 cp1).
  { destruct (Nat.leb (wide v) (degree v imp)).
    - eapply batch_sim; [|exact H|exact E1]. lia.
    - injection E1 as <- <- <-. eauto. }
  destruct S1 as (lit1 & cb1 & -> & H1). cbn [bind].
  set (x := if Nat.leb (narrow v) (degree v imp) then batch_loop _ _ _ _ _ _ _ _ _ _ _ else _).
  destruct x as [[[it2 cp2] vec2]| | |] eqn:E2; cbn [bind]; try discriminate. subst x.
  assert (S2 : exists lit2 cb2, (if Nat.leb (narrow v) (degree v imp)
     then lbatch_loop get put prep step v e P (fun js => compress_narrow_loop v e imp js fin st) (narrow v) (2 + P + length vec1) lit1 cb1 vec1
     else Ret (lit1, cb1, vec1)) = Ret (lit2, cb2, vec2) /\ Rel (map v_ref vec2) lit2 cb2 it2 cp2).
  { destruct (Nat.leb (narrow v) (degree v imp)).
    - eapply batch_sim; [|exact H1|exact E2]. lia.
    - injection E2 as <- <- <-. eauto. }
  destruct S2 as (lit2 & cb2 & -> & H2). cbn [bind].
  destruct (run_vec get put v e imp fin st cp2 vec2) as [cp3| | |] eqn:E3; cbn [bind]; try discriminate.
  destruct (run_vec_sim _ _ _ _ _ _ _ H2 (fun r X => X) E3) as (cb3 & -> & H3). cbn [bind].
  apply rest_sim; [lia|]. eapply Rel_less; [|exact H3]. intros r [].
Qed.

Lemma pull_none : forall src calls cp it' cp', pull_src prep src calls cp = Ret (it', cp', None) -> i_done it' = true.
Proof.
  induction src as [|[p|] src IH]; intros calls cp it' cp'; cbn [pull_src].
  - intros X. injection X as <- _. reflexivity.
  - destruct (start prep cp p) as [[cp1 [j|]]| | |]; cbn [bind]; try discriminate. apply IH.
  - intros X. injection X as <- _. reflexivity.
Qed.
Lemma next_none it cp it' cp' : next prep it cp = Ret (it', cp', None) -> i_done it' = true.
Proof.
  unfold next. destruct (i_done it) eqn:D; [intros X; injection X as <- _; exact D|].
  destruct (i_peeked it) as [p|]; [|apply pull_none].
  destruct (start prep cp p) as [[cp1 [j|]]| | |]; cbn [bind]; try discriminate. apply pull_none.
Qed.
Lemma rest_done : forall f it cp it' cp', run_rest get put prep v e imp fin st f it cp = Ret (it', cp') -> i_done it' = true.
Proof.
  induction f as [|f IH]; intros it cp it' cp'; cbn [run_rest]; [discriminate|].
  destruct (next prep it cp) as [[[it1 cp1] [j|]]| | |] eqn:E; cbn [bind]; try discriminate.
  - destruct (run_one _ _ _ _ _ _ _ _ _) as [cp2| | |]; cbn [bind]; try discriminate. apply IH.
  - intros X. injection X as <- _. eapply next_none; eauto.
Qed.
Lemma compress_many_done it cp it' cp' : compress_many get put prep v e imp fin st it cp = Ret (it', cp') -> i_done it' = true.
Proof.
  unfold compress_many.
  destruct (if Nat.leb (wide v) (degree v imp) then _ else _) as [[[it1 cp1] vec1]| | |]; cbn [bind]; try discriminate.
  destruct (if Nat.leb (narrow v) (degree v imp) then _ else _) as [[[it2 cp2] vec2]| | |]; cbn [bind]; try discriminate.
  destruct (run_vec _ _ _ _ _ _ _ _ _) as [cp3| | |]; cbn [bind]; try discriminate. apply rest_done.
Qed.

(** From the peeked iterator to the end. *)
Lemma compress_many_lazy m s cb l cp r a it' cp' : (m <= P)%nat -> fine s cb -> In r (out s) ->
  collect step m s cb = Some (l, sF, cp) ->
  compress_many get put prep v e imp fin st
    {| i_peeked := Some (r, a); i_src := map Some l; i_done := false; i_calls := 1 |} cp = Ret (it', cp') ->
  exists lit', lcompress_many get put prep step v e imp fin st P
      {| l_peeked := Some (r, a); l_state := s; l_done := false; l_calls := 1 |} cb = Ret (lit', cp') /\
    l_state lit' = sF /\ l_calls lit' = i_calls it'.
Proof.
  intros HP F O EC E. pose proof (compress_many_done _ _ _ _ E) as D.
  assert (LL : forall n s cb l s2 cp, collect step n s cb = Some (l, s2, cp) -> (length l <= n)%nat).
  { clear. induction n as [|n IH]; intros s cb l s2 cp; cbn [collect]; [discriminate|].
    destruct (step s cb) as [[s' cb'] [p|]].
    - destruct (collect step n s' cb') as [[[l' s''] c'']|] eqn:E; [|discriminate]. intros X. injection X as <- _ _.
      apply IH in E. cbn. lia.
    - intros X. injection X as <- _ _. cbn. lia. }
  assert (HL : (length (map Some l) <= P)%nat) by (rewrite map_length; pose proof (LL _ _ _ _ _ _ EC); lia).
  assert (H : Rel [] {| l_peeked := Some (r, a); l_state := s; l_done := false; l_calls := 1 |} cb
                {| i_peeked := Some (r, a); i_src := map Some l; i_done := false; i_calls := 1 |} cp).
  { eapply (Rel_on _ _ _ _ _ m l); cbn; auto; [intros q []|intros q b X; injection X as <- _; exact O]. }
  edestruct compress_many_sim with (2 := H) (3 := E) as (lit' & cb' & E' & H'); [exact HL|].
  inversion H' as [? ? ? D1 D2 EN ES|]; subst; [|congruence]. exists lit'. auto.
Qed.

End Sim.

(** Peeking, then all the rest, against collect. *)
Section Batch.
Context {S : Type}.
Variables (v : variant) (e : env).

Lemma update_many_collected (step : machine S state (list byte)) fine out n s states items s' states' states'' calls :
  borrows step fine out -> fine s states -> collect step n s states = Some (items, s', states') ->
  update_many v e states' (map Some items) = Ret (states'', calls) ->
  update_many_lazy v e n step s states = Ret (s', states'', calls).
Proof.
  intros B F EC. unfold update_many_lazy, lpeek. destruct n as [|n]; [discriminate EC|]. cbn [collect] in EC.
  destruct (step s states) as [[s1 st1] o] eqn:E. destruct o as [[r a]|].
  - destruct (collect step n s1 st1) as [[[l s2] st2]|] eqn:EC'; [|discriminate EC]. injection EC as <- -> ->.
    pose proof (stays_fine _ _ _ B _ _ _ _ _ F E) as F'. destruct (goes_out _ _ _ B _ _ _ _ _ _ F E) as (_ & G2 & _).
    cbn [map l_peeked]. unfold update_many. cbn [peek i_peeked]. unfold cell.
    rewrite (collect_nth _ _ _ B _ _ _ _ _ _ r F' G2 EC'). destruct (nth_error st1 r) as [s0|]; cbn [bind]; [|discriminate].
    destruct (compress_many _ _ _ _ _ _ _ _ _ _) as [[it' cp']| | |] eqn:EM; cbn [bind]; try discriminate.
    intros X. injection X as <- <-.
    destruct (compress_many_lazy _ _ _ step fine out B _ _ _ _ _ (Datatypes.S n) s' _ _ _ _ _ _ _ _ _ (Nat.le_succ_diag_r n) F' G2 EC' EM)
      as (lit' & -> & ES & EN). cbn [bind]. rewrite ES, EN. reflexivity.
  - injection EC as <- -> ->. cbn. intros X. injection X as <- <-. reflexivity.
Qed.

Lemma hash_many_collected (step : machine S hash_many_job unit) fine out n s jobs items s' jobs' jobs'' calls :
  borrows step fine out -> fine s jobs -> collect step n s jobs = Some (items, s', jobs') ->
  hash_many v e jobs' (map Some items) = Ret (jobs'', calls) ->
  hash_many_lazy v e n step s jobs = Ret (s', jobs'', calls).
Proof.
  intros B F EC. unfold hash_many_lazy, lpeek. destruct n as [|n]; [discriminate EC|]. cbn [collect] in EC.
  destruct (step s jobs) as [[s1 st1] o] eqn:E. destruct o as [[r a]|].
  - destruct (collect step n s1 st1) as [[[l s2] st2]|] eqn:EC'; [|discriminate EC]. injection EC as <- -> ->.
    pose proof (stays_fine _ _ _ B _ _ _ _ _ F E) as F'. destruct (goes_out _ _ _ B _ _ _ _ _ _ F E) as (_ & G2 & _).
    cbn [map l_peeked]. unfold hash_many. cbn [peek i_peeked]. unfold cell.
    rewrite (collect_nth _ _ _ B _ _ _ _ _ _ r F' G2 EC'). destruct (nth_error st1 r) as [s0|]; cbn [bind]; [|discriminate].
    destruct (compress_many _ _ _ _ _ _ _ _ _ _) as [[it' cp']| | |] eqn:EM; cbn [bind]; try discriminate.
    intros X. injection X as <- <-.
    destruct (compress_many_lazy _ _ _ step fine out B _ _ _ _ _ (Datatypes.S n) s' _ _ _ _ _ _ _ _ _ (Nat.le_succ_diag_r n) F' G2 EC' EM)
      as (lit' & -> & ES & EN). cbn [bind]. rewrite ES, EN. reflexivity.
  - injection EC as <- -> ->. cbn. intros X. injection X as <- <-. reflexivity.
Qed.
End Batch.
