(** Calling an iterator that may panic when the code does is the same as draining it first. *)
From Coq Require Import Arith NArith List Bool Lia.
From Verif Require Import Base Guts Simd Impl Sched Lib Many Lazy LazySpec BurstSpec LazyUnwind Unwind Crashes SchedProof LazyProof.
Import ListNotations.
Open Scope N_scope.

Section Sim.
Context {C A S : Type}.
Variable get : C -> list N.
Variable put : C -> list N -> C.
Variable prep : A -> C -> outcome (C * prepared).
Variable step : device S C A.
Variable fine : S -> list C -> Prop.
Variable out : S -> list nat.
Hypothesis B : lends step fine out.
Variables (v : variant) (e : env) (imp : platform) (fin : bool) (st : stride).
Variable P : nat.
Variable sF : S.
Variable ended : bool.

Lemma drain_set : forall n s cb l en s2 cp r c, fine s cb -> In r (out s) ->
  drain step n s cb = Some (l, en, s2, cp) -> drain step n s (set cb r c) = Some (l, en, s2, set cp r c).
Proof.
  induction n as [|n IH]; intros s cb l en s2 cp r c F O; cbn [drain]; [discriminate|].
  destruct (step s cb) as [[s' cb'] o] eqn:E. rewrite <- exchange_set, (not_seen _ _ _ B _ _ _ _ _ r c F E O).
  destruct o as [p| |].
  - destruct (drain step n s' cb') as [[[[l' en'] s''] c'']|] eqn:EC; [|discriminate].
    intros X. injection X as <- <- <- <-. rewrite exchange_set.
    rewrite (IH _ _ _ _ _ _ r c (remains_fine _ _ _ B _ _ _ _ _ F E) (remains_out _ _ _ B _ _ _ _ _ _ F E O) EC). reflexivity.
  - intros X. injection X as <- <- <- <-. rewrite exchange_set. reflexivity.
  - intros X. injection X as <- <- <- <-. rewrite exchange_set. reflexivity.
Qed.

Lemma drain_nth : forall n s cb l en s2 cp r, fine s cb -> In r (out s) ->
  drain step n s cb = Some (l, en, s2, cp) -> nth_error cp r = nth_error cb r.
Proof.
  induction n as [|n IH]; intros s cb l en s2 cp r F O; cbn [drain]; [discriminate|].
  destruct (step s cb) as [[s' cb'] o] eqn:E. destruct o as [p| |].
  - destruct (drain step n s' cb') as [[[[l' en'] s''] c'']|] eqn:EC; [|discriminate].
    intros X. injection X as <- <- <- <-.
    rewrite (IH _ _ _ _ _ _ r (remains_fine _ _ _ B _ _ _ _ _ F E) (remains_out _ _ _ B _ _ _ _ _ _ F E O) EC).
    apply (not_touched _ _ _ B _ _ _ _ _ _ F E O).
  - intros X. injection X as <- <- <- <-. apply (not_touched _ _ _ B _ _ _ _ _ _ F E O).
  - intros X. injection X as <- <- <- <-. apply (not_touched _ _ _ B _ _ _ _ _ _ F E O).
Qed.

Lemma drain_nodup : forall n s cb l en s2 cp, fine s cb -> drain step n s cb = Some (l, en, s2, cp) ->
  NoDup (map fst l) /\ (forall r, In r (map fst l) -> ~ In r (out s)) /\
  (forall r, In r (map fst l) -> (r < length cp)%nat).
Proof.
  induction n as [|n IH]; intros s cb l en s2 cp F; cbn [drain]; [discriminate|].
  destruct (step s cb) as [[s' cb'] o] eqn:E. destruct o as [[r0 a0]| |].
  - destruct (drain step n s' cb') as [[[[l' en'] s''] c'']|] eqn:EC; [|discriminate].
    intros X. injection X as <- <- <- <-. pose proof (remains_fine _ _ _ B _ _ _ _ _ F E) as F'.
    destruct (IH _ _ _ _ _ _ F' EC) as (N1 & N2 & N3). destruct (passes_out _ _ _ B _ _ _ _ _ _ F E) as (G1 & G2 & G3).
    cbn [map fst]. split; [|split].
    + constructor; auto. intros X. exact (N2 _ X G2).
    + intros r [<-|X]; auto. intros Y. apply (N2 _ X). apply (remains_out _ _ _ B _ _ _ _ _ _ F E Y).
    + intros r [<-|X]; auto. apply nth_error_Some. rewrite (drain_nth _ _ _ _ _ _ _ r0 F' G2 EC).
      apply nth_error_Some. exact G3.
  - intros X. injection X as <- <- <- <-. cbn. split; [constructor|]. split; intros r [].
  - intros X. injection X as <- <- <- <-. cbn. split; [constructor|]. split; intros r [].
Qed.

Definition tail : list (option (nat * A)) := if ended then [None] else [].

(** The lazy run (left) and the run on what was drained (right). *)
Inductive Rel (R : list nat) : liter A S -> list C -> iter A -> list C -> Prop :=
| Rel_done lit it cb : l_done lit = true -> i_done it = true -> l_calls lit = i_calls it ->
    l_state lit = sF -> Rel R lit cb it cb
| Rel_on lit it cb cp n l : l_done lit = false -> i_done it = false -> l_calls lit = i_calls it ->
    l_peeked lit = i_peeked it -> i_src it = map Some l ++ tail -> (n <= P)%nat ->
    fine (l_state lit) cb -> drain step n (l_state lit) cb = Some (l, ended, sF, cp) ->
    (forall r, In r R -> In r (out (l_state lit))) ->
    (forall r a, l_peeked lit = Some (r, a) -> In r (out (l_state lit))) ->
    Rel R lit cb it cp.

Lemma Rel_less R R' lit cb it cp : (forall r, In r R' -> In r R) -> Rel R lit cb it cp -> Rel R' lit cb it cp.
Proof. intros H [?|? ? ? ? n l]; [constructor|eapply (Rel_on _ _ _ _ _ n l)]; eauto. Qed.

Lemma cell_rel R lit cb it cp r : Rel R lit cb it cp -> In r R -> cell cb r = cell cp r.
Proof.
  intros H I. destruct H as [|? ? ? ? n l]; auto. unfold cell. rewrite (drain_nth n (l_state lit) cb l ended sF cp r); auto.
Qed.
Lemma set_rel R lit cb it cp r c : Rel R lit cb it cp -> In r R -> Rel R lit (set cb r c) it (set cp r c).
Proof.
  intros H I. destruct H as [|? ? ? ? n l]; [constructor; auto|].
  eapply (Rel_on _ _ _ _ _ n l); auto.
  - rewrite <- exchange_set. apply (fine_still _ _ _ B); auto.
  - apply drain_set; auto.
Qed.

(** Results correspond: values as related, a panic with the same objects. *)
Definition agree {X Y} (K : Y -> X -> Prop) (l : lunwinding S C Y) (r : unwinding C X) : Prop :=
  match r with
  | Value x => exists y, l = LValue y /\ K y x
  | Unwound cp => l = LUnwound sF cp /\ ended = false
  | Stuck => True
  end.
Lemma agree_bind {X Y X' Y'} (K : Y -> X -> Prop) (K' : Y' -> X' -> Prop) l r f g :
  agree K l r -> (forall y x, K y x -> agree K' (f y) (g x)) -> agree K' (lubind l f) (ubind r g).
Proof.
  intros H F. destruct r as [x|cp|]; cbn [ubind agree] in *; auto.
  - destruct H as (y & -> & k). cbn [lubind]. auto.
  - destruct H as (-> & ->). auto.
Qed.
Lemma agree_inside {X Y} (K : Y -> X -> Prop) l r :
  (forall x, r = Ret x -> exists y, l = Ret y /\ K y x) -> agree K (linside l) (inside r).
Proof. intros H. destruct r as [x| | |]; cbn [inside agree]; auto. destruct (H x eq_refl) as (y & -> & k). exists y. auto. Qed.

Definition refs_of (o : option vjob) : list nat := match o with Some j => [v_ref j] | None => [] end.
Definition Knext (R : list nat) (y : liter A S * list C * option vjob) (x : iter A * list C * option vjob) : Prop :=
  let '(lit, cb, o) := y in let '(it, cp, o') := x in o = o' /\ Rel (refs_of o ++ R) lit cb it cp.

Lemma start_sim n s cb l cp r a cp' o : fine s cb -> In r (out s) -> drain step n s cb = Some (l, ended, sF, cp) ->
  start prep cp (r, a) = Ret (cp', o) ->
  exists cb', start prep cb (r, a) = Ret (cb', o) /\ drain step n s cb' = Some (l, ended, sF, cp') /\ fine s cb' /\
    (forall q, In q (refs_of o) -> q = r).
Proof.
  intros F O EC. unfold start, cell. rewrite (drain_nth _ _ _ _ _ _ _ _ F O EC).
  destruct (nth_error cb r) as [c|]; cbn [bind]; [|discriminate].
  destruct (prep a c) as [[c' p]| | |]; cbn [bind]; try discriminate.
  assert (EC' := drain_set _ _ _ _ _ _ _ r c' F O EC).
  assert (F' : fine s (set cb r c')) by (rewrite <- exchange_set; apply (fine_still _ _ _ B); auto).
  destruct p as [[[input count] ln]|]; intros X; injection X as <- <-; eexists; (split; [reflexivity|]);
    (split; [exact EC'|]); (split; [exact F'|]); cbn; [intros q [<-|[]]; auto|intros q []].
Qed.

Lemma pull_sim R : forall n f s calls cb l cp, (n <= f)%nat -> (n <= P)%nat ->
  fine s cb -> (forall r, In r R -> In r (out s)) -> drain step n s cb = Some (l, ended, sF, cp) ->
  agree (Knext R) (bpull prep step f s calls cb) (upull_src prep (map Some l ++ tail) calls cp).
Proof.
  induction n as [|n IH]; intros f s calls cb l cp Hf HP F HR EC; [discriminate EC|].
  destruct f as [|f]; [lia|]. cbn [drain] in EC. cbn [bpull].
  destruct (step s cb) as [[s' cb'] oi] eqn:E. destruct oi as [[r a]| |].
  - destruct (drain step n s' cb') as [[[[l' en'] s''] c'']|] eqn:EC'; [|discriminate EC].
    injection EC as <- -> -> ->. cbn [map app upull_src].
    pose proof (remains_fine _ _ _ B _ _ _ _ _ F E) as F'. destruct (passes_out _ _ _ B _ _ _ _ _ _ F E) as (_ & G2 & _).
    assert (HR' : forall q, In q R -> In q (out s')) by (intros q X; apply (remains_out _ _ _ B _ _ _ _ _ _ F E); auto).
    destruct (start prep cp (r, a)) as [[cp1 o1]| | |] eqn:ES; cbn [inside ubind agree]; auto.
    destruct (start_sim _ _ _ _ _ _ _ _ _ F' G2 EC' ES) as (cb1 & -> & EC1 & F1 & Q). cbn [linside lubind].
    destruct o1 as [j|].
    + eexists. split; [reflexivity|]. split; [reflexivity|].
      eapply (Rel_on _ _ _ _ _ n l'); cbn; auto; try lia; [|discriminate].
      intros q [<-|X]; auto. rewrite (Q (v_ref j)); auto. cbn. auto.
    + apply IH; auto; lia.
  - injection EC as <- EN -> ->. unfold tail. rewrite <- EN. cbn [map app upull_src agree]. eexists. split; [reflexivity|].
    split; [reflexivity|]. constructor; auto.
  - injection EC as <- EN -> ->. unfold tail. rewrite <- EN. cbn [map app upull_src agree]. auto.
Qed.

Lemma next_sim R lit cb it cp : Rel R lit cb it cp ->
  agree (Knext R) (bnext prep step P lit cb) (unext prep it cp).
Proof.
  intros H. unfold unext, bnext. destruct H as [lit it cb D1 D2 EN ES|lit it cb cp n l D1 D2 EN EP EI HP F EC HR HK].
  - rewrite D1, D2. eexists. split; [reflexivity|]. split; [reflexivity|]. constructor; auto.
  - rewrite D1, D2, EP, EI, EN. destruct (i_peeked it) as [[r a]|] eqn:EK.
    + destruct (start prep cp (r, a)) as [[cp1 o1]| | |] eqn:ES; cbn [inside ubind agree]; auto.
      assert (HO : In r (out (l_state lit))) by (apply (HK r a); congruence).
      destruct (start_sim _ _ _ _ _ _ _ _ _ F HO EC ES) as (cb1 & -> & EC1 & F1 & Q). cbn [linside lubind].
      destruct o1 as [j|].
      * eexists. split; [reflexivity|]. split; [reflexivity|].
        eapply (Rel_on _ _ _ _ _ n l); cbn; auto; [|discriminate].
        intros q [<-|X]; auto. rewrite (Q (v_ref j)); auto. cbn. auto.
      * apply (pull_sim R n P); auto.
    + apply (pull_sim R n P); auto.
Qed.

Definition Kfill (y : liter A S * list C * list vjob) (x : iter A * list C * list vjob) : Prop :=
  let '(lit, cb, vec) := y in let '(it, cp, vec') := x in vec = vec' /\ Rel (map v_ref vec) lit cb it cp.

Lemma fill_sim : forall k lit cb it cp vec, Rel (map v_ref vec) lit cb it cp ->
  agree Kfill (bfill prep step v P k lit cb vec) (ufill prep v k it cp vec).
Proof.
  induction k as [|k IH]; intros lit cb it cp vec H; cbn [ufill bfill].
  - eexists. split; [reflexivity|]. split; auto.
  - eapply agree_bind; [apply next_sim, H|]. intros [[lit1 cb1] o] [[it1 cp1] o'] [<- H1].
    destruct o as [j|].
    + destruct (assert_ _) as [[]| | |]; cbn [inside linside ubind lubind agree]; auto. apply IH.
      eapply Rel_less; [|exact H1]. intros r. rewrite map_app, in_app_iff. cbn. tauto.
    + eexists. split; [reflexivity|]. split; auto.
Qed.

Lemma mapM_load_sim R lit cb it cp : Rel R lit cb it cp -> forall front,
  (forall r, In r (map v_ref front) -> In r R) ->
  mapM (load_job get cb) front = mapM (load_job get cp) front.
Proof.
  intros H. induction front as [|j front IH]; intros I; auto. cbn [mapM]. unfold load_job at 1 3.
  rewrite (cell_rel _ _ _ _ _ (v_ref j) H) by (apply I; left; auto). rewrite IH; auto. intros r X. apply I. right. auto.
Qed.

Lemma store_sim R lit it : forall js cb cp cp' vs, Rel R lit cb it cp ->
  (forall r, In r (map (fun p => v_ref (fst p)) js) -> In r R) ->
  store_jobs put cp js = Ret (cp', vs) ->
  exists cb', store_jobs put cb js = Ret (cb', vs) /\ Rel R lit cb' it cp' /\
    map v_ref vs = map (fun p => v_ref (fst p)) js.
Proof.
  induction js as [|[j k] js IH]; intros cb cp cp' vs H I; cbn [store_jobs].
  - intros X. injection X as <- <-. eauto.
  - unfold store_words. rewrite (cell_rel _ _ _ _ _ (v_ref j) H) by (apply I; left; auto).
    destruct (cell cp (v_ref j)) as [c| | |]; cbn [bind]; try discriminate.
    destruct (store_jobs put (set cp (v_ref j) (put c (j_words k))) js) as [[cp1 vs1]| | |] eqn:E; cbn [bind]; try discriminate.
    intros X. injection X as <- <-.
    destruct (IH (set cb (v_ref j) (put c (j_words k))) _ _ _ (set_rel _ _ _ _ _ (v_ref j) (put c (j_words k)) H ltac:(apply I; left; auto)) ltac:(intros r X; apply I; right; auto) E)
      as (cb' & -> & H' & M). cbn [bind]. eexists. split; [reflexivity|]. split; [exact H'|]. cbn. f_equal. exact M.
Qed.

Lemma run_jobs_sim loop n lit cb it cp vec cp' vec' : Rel (map v_ref vec) lit cb it cp ->
  run_jobs get put loop n cp vec = Ret (cp', vec') ->
  exists cb', run_jobs get put loop n cb vec = Ret (cb', vec') /\ Rel (map v_ref vec') lit cb' it cp'.
Proof.
  intros H. unfold run_jobs, slice. destruct (_ && _) eqn:ES; cbn [bind]; try discriminate. cbn [skipn Nat.sub].
  rewrite Nat.sub_0_r. set (front := firstn n vec).
  assert (FI : forall r, In r (map v_ref front) -> In r (map v_ref vec)).
  { intros r. subst front. rewrite <- (firstn_skipn n vec) at 2. rewrite map_app, in_app_iff. auto. }
  rewrite (mapM_load_sim _ _ _ _ _ H front FI).
  destruct (mapM (load_job get cp) front) as [js| | |]; cbn [bind]; try discriminate.
  destruct (loop js) as [js'| | |]; cbn [bind]; try discriminate.
  destruct (store_jobs put cp (combine front js')) as [[cp1 vs]| | |] eqn:E; cbn [bind]; try discriminate.
  intros X. injection X as <- <-.
  assert (CI : forall m js2, forall r, In r (map (fun p : vjob * job => v_ref (fst p)) (combine m js2)) -> In r (map v_ref m)).
  { induction m as [|j m IH]; intros [|k js2] r; cbn; try tauto. intros [X|X]; [left; auto|right; eapply IH; eauto]. }
  destruct (store_sim _ _ _ _ _ _ _ _ H ltac:(intros r X; apply FI; eapply CI; exact X) E) as (cb' & -> & H' & M).
  cbn [bind]. eexists. split; [reflexivity|]. eapply Rel_less; [|exact H']. intros r. rewrite map_app, in_app_iff, M.
  intros [X|X]; [apply FI; eapply CI; exact X|]. rewrite <- (firstn_skipn n vec), map_app, in_app_iff. auto.
Qed.

Lemma run_one_sim R lit cb it cp j cp' : Rel R lit cb it cp -> In (v_ref j) R ->
  run_one get put v e imp fin st cp j = Ret cp' ->
  exists cb', run_one get put v e imp fin st cb j = Ret cb' /\ Rel R lit cb' it cp'.
Proof.
  intros H I. unfold run_one, store_words. rewrite (cell_rel _ _ _ _ _ _ H I).
  destruct (cell cp (v_ref j)) as [c| | |]; cbn [bind]; try discriminate.
  destruct (compress1_loop _ _ _ _ _ _ _ _ _) as [ws| | |]; cbn [bind]; try discriminate.
  intros X. injection X as <-. eexists. split; [reflexivity|]. apply set_rel; auto.
Qed.

Lemma run_vec_sim R lit it : forall vec cb cp cp', Rel R lit cb it cp -> (forall r, In r (map v_ref vec) -> In r R) ->
  run_vec get put v e imp fin st cp vec = Ret cp' ->
  exists cb', run_vec get put v e imp fin st cb vec = Ret cb' /\ Rel R lit cb' it cp'.
Proof.
  induction vec as [|j vec IH]; intros cb cp cp' H I; cbn [run_vec].
  - intros X. injection X as <-. eauto.
  - destruct (run_one get put v e imp fin st cp j) as [cp1| | |] eqn:E; cbn [bind]; try discriminate.
    destruct (run_one_sim _ _ _ _ _ _ _ H ltac:(apply I; left; auto) E) as (cb1 & -> & H1). cbn [bind].
    apply IH; auto. intros r X. apply I. right. auto.
Qed.


Lemma batch_sim loop n : forall f f' lit cb it cp vec, (f <= f')%nat ->
  Rel (map v_ref vec) lit cb it cp ->
  agree Kfill (bbatch_loop get put prep step v e P loop n f' lit cb vec) (ubatch_loop get put prep v e loop n f it cp vec).
Proof.
  induction f as [|f IH]; intros f' lit cb it cp vec L H; cbn [ubatch_loop]; [exact I|].
  destruct f' as [|f']; [lia|]. cbn [bbatch_loop].
  eapply agree_bind; [apply fill_sim, H|]. intros [[lit1 cb1] vec1] [[it1 cp1] vec1'] [<- H1].
  destruct (Nat.ltb (length vec1) n). { eexists. split; [reflexivity|]. split; auto. }
  eapply (agree_bind (fun y x => snd y = snd x /\ Rel (map v_ref (snd y)) lit1 (fst y) it1 (fst x))).
  - apply agree_inside. intros [cp2 vec2] E2. destruct (run_jobs_sim _ _ _ _ _ _ _ _ _ H1 E2) as (cb2 & -> & H2).
    eexists. split; [reflexivity|]. split; auto.
  - intros [cb2 vec2] [cp2 vec2'] [E2 H2]. cbn [fst snd] in *. subst vec2'.
    destruct (evict_finished e vec2 n) as [vec3| | |] eqn:E3; cbn [inside linside ubind lubind agree]; auto.
    apply IH; [lia|]. eapply Rel_less; [|exact H2]. apply (evict_in _ _ _ _ E3).
Qed.

Definition Krest (y : liter A S * list C) (x : iter A * list C) : Prop := Rel [] (fst y) (snd y) (fst x) (snd x).

Lemma rest_sim : forall f f' lit cb it cp, (f <= f')%nat -> Rel [] lit cb it cp ->
  agree Krest (brun_rest get put prep step v e imp fin st P f' lit cb) (urun_rest get put prep v e imp fin st f it cp).
Proof.
  induction f as [|f IH]; intros f' lit cb it cp L H; cbn [urun_rest]; [exact I|].
  destruct f' as [|f']; [lia|]. cbn [brun_rest].
  eapply agree_bind; [apply next_sim, H|]. intros [[lit1 cb1] o] [[it1 cp1] o'] [<- H1]. destruct o as [j|].
  - destruct (run_one get put v e imp fin st cp1 j) as [cp2| | |] eqn:E2; cbn [inside ubind agree]; auto.
    destruct (run_one_sim _ _ _ _ _ _ _ H1 ltac:(left; auto) E2) as (cb2 & -> & H2). cbn [linside lubind].
    apply IH; [lia|]. eapply Rel_less; [|exact H2]. intros r [].
  - eexists. split; [reflexivity|]. exact H1.
Qed.

Lemma compress_many_sim lit cb it cp : (length (i_src it) <= P)%nat -> Rel [] lit cb it cp ->
  agree Krest (bcompress_many get put prep step v e imp fin st P lit cb) (ucompress_many get put prep v e imp fin st it cp).
Proof.
  intros L H. unfold ucompress_many, bcompress_many.
  eapply (agree_bind Kfill).
  { destruct (Nat.leb (wide v) (degree v imp)).
    - apply batch_sim; [lia|]. exact H.
    - eexists. split; [reflexivity|]. split; auto. }
  intros [[lit1 cb1] vec1] [[it1 cp1] vec1'] [<- H1].
  eapply (agree_bind Kfill).
  { destruct (Nat.leb (narrow v) (degree v imp)).
    - apply batch_sim; [lia|]. exact H1.
    - eexists. split; [reflexivity|]. split; auto. }
  intros [[lit2 cb2] vec2] [[it2 cp2] vec2'] [<- H2].
  destruct (run_vec get put v e imp fin st cp2 vec2) as [cp3| | |] eqn:E3; cbn [inside ubind agree]; auto.
  destruct (run_vec_sim _ _ _ _ _ _ _ H2 (fun r X => X) E3) as (cb3 & -> & H3). cbn [linside lubind].
  apply rest_sim; [lia|]. eapply Rel_less; [|exact H3]. intros r [].
Qed.

Lemma upull_none : forall src calls cp it' cp', upull_src prep src calls cp = Value (it', cp', None) -> i_done it' = true.
Proof.
  induction src as [|[p|] src IH]; intros calls cp it' cp'; cbn [upull_src].
  - discriminate.
  - destruct (start prep cp p) as [[cp1 [j|]]| | |]; cbn [inside ubind]; try discriminate. apply IH.
  - intros X. injection X as <- _. reflexivity.
Qed.
Lemma unext_none it cp it' cp' : unext prep it cp = Value (it', cp', None) -> i_done it' = true.
Proof.
  unfold unext. destruct (i_done it) eqn:D; [intros X; injection X as <- _; exact D|].
  destruct (i_peeked it) as [p|]; [|apply upull_none].
  destruct (start prep cp p) as [[cp1 [j|]]| | |]; cbn [inside ubind]; try discriminate. apply upull_none.
Qed.
Lemma urest_done : forall f it cp it' cp', urun_rest get put prep v e imp fin st f it cp = Value (it', cp') -> i_done it' = true.
Proof.
  induction f as [|f IH]; intros it cp it' cp'; cbn [urun_rest]; [discriminate|].
  destruct (unext prep it cp) as [[[it1 cp1] [j|]]| |] eqn:E; cbn [ubind]; try discriminate.
  - destruct (run_one _ _ _ _ _ _ _ _ _) as [cp2| | |]; cbn [inside ubind]; try discriminate. apply IH.
  - intros X. injection X as <- _. eapply unext_none; eauto.
Qed.
Lemma ucompress_many_done it cp it' cp' : ucompress_many get put prep v e imp fin st it cp = Value (it', cp') -> i_done it' = true.
Proof.
  unfold ucompress_many.
  destruct (if Nat.leb (wide v) (degree v imp) then _ else _) as [[[it1 cp1] vec1]| |]; cbn [ubind]; try discriminate.
  destruct (if Nat.leb (narrow v) (degree v imp) then _ else _) as [[[it2 cp2] vec2]| |]; cbn [ubind]; try discriminate.
  destruct (run_vec _ _ _ _ _ _ _ _ _) as [cp3| | |]; cbn [inside ubind]; try discriminate. apply urest_done.
Qed.

(** From the peeked iterator to the end. *)
Definition Kmany (y : liter A S * list C) (x : iter A * list C) : Prop :=
  l_state (fst y) = sF /\ l_calls (fst y) = i_calls (fst x) /\ snd y = snd x.
Lemma compress_many_bursting m s cb l cp r a : (m <= P)%nat -> fine s cb -> In r (out s) ->
  drain step m s cb = Some (l, ended, sF, cp) ->
  agree Kmany
    (bcompress_many get put prep step v e imp fin st P
      {| l_peeked := Some (r, a); l_state := s; l_done := false; l_calls := 1 |} cb)
    (ucompress_many get put prep v e imp fin st
      {| i_peeked := Some (r, a); i_src := map Some l ++ tail; i_done := false; i_calls := 1 |} cp).
Proof.
  intros HP F O EC.
  assert (LL : forall n s cb l en s2 cp, drain step n s cb = Some (l, en, s2, cp) -> (1 + length l <= n)%nat).
  { clear. induction n as [|n IH]; intros s cb l en s2 cp; cbn [drain]; [discriminate|].
    destruct (step s cb) as [[s' cb'] [p| |]].
    - destruct (drain step n s' cb') as [[[[l' en'] s''] c'']|] eqn:E; [|discriminate]. intros X. injection X as <- _ _ _.
      apply IH in E. cbn [length]. lia.
    - intros X. injection X as <- _ _ _. cbn. lia.
    - intros X. injection X as <- _ _ _. cbn. lia. }
  assert (HL : (length (map Some l ++ tail) <= P)%nat).
  { rewrite app_length, map_length. pose proof (LL _ _ _ _ _ _ _ EC). unfold tail. destruct ended; cbn [length]; lia. }
  assert (H : Rel [] {| l_peeked := Some (r, a); l_state := s; l_done := false; l_calls := 1 |} cb
                {| i_peeked := Some (r, a); i_src := map Some l ++ tail; i_done := false; i_calls := 1 |} cp).
  { eapply (Rel_on _ _ _ _ _ m l); cbn; auto; [intros q []|intros q b X; injection X as <- _; exact O]. }
  pose proof (fun L => compress_many_sim _ _ _ _ L H) as X. specialize (X HL).
  destruct (ucompress_many _ _ _ _ _ _ _ _ _ _) as [[it' cp']|c|] eqn:E; cbn [agree] in *; auto.
  destruct X as ([lit' cb'] & EL & K). exists (lit', cb'). split; [exact EL|].
  apply ucompress_many_done in E. unfold Krest in K. cbn [fst snd] in K.
  inversion K as [? ? ? D1 D2 EN ES|]; subst; [|congruence]. split; auto.
Qed.
End Sim.

(** Peeking, then all the rest, against drain. *)
Section Batch.
Context {S : Type}.
Variables (v : variant) (e : env).
Definition Kall {C} (sF : S) (y : S * list C * nat) (x : list C * nat) : Prop := y = (sF, fst x, snd x).

Lemma update_many_drained (step : device S state (list byte)) fine out n s states items ended s' states' :
  lends step fine out -> fine s states -> drain step n s states = Some (items, ended, s', states') ->
  agree s' ended (Kall s') (update_many_bursting v e n step s states)
    (update_many_unwinding v e states' (map Some items ++ tail ended)).
Proof.
  intros B F EC. unfold update_many_bursting. destruct n as [|n]; [discriminate EC|]. cbn [drain] in EC.
  destruct (step s states) as [[s1 st1] o] eqn:E. destruct o as [[r a]| |].
  - destruct (drain step n s1 st1) as [[[[l en] s2] st2]|] eqn:EC'; [|discriminate EC]. injection EC as <- -> -> ->.
    pose proof (remains_fine _ _ _ B _ _ _ _ _ F E) as F'. destruct (passes_out _ _ _ B _ _ _ _ _ _ F E) as (_ & G2 & _).
    cbn [map app]. unfold update_many_unwinding. cbn [peek i_peeked].
    eapply (agree_bind _ _ eq).
    { unfold cell. rewrite (drain_nth _ _ _ B _ _ _ _ _ _ _ r F' G2 EC'). apply agree_inside. eauto. }
    intros first ? <-.
    eapply agree_bind.
    + apply (compress_many_bursting _ _ _ step fine out B _ _ _ _ _ (Datatypes.S n) s' ended n); auto.
    + intros [lit cb] [it cp] (K1 & K2 & K3). cbn [fst snd] in *. eexists. split; [reflexivity|]. unfold Kall. cbn [fst snd]. congruence.
  - injection EC as <- <- -> ->. eexists. split; reflexivity.
  - injection EC as <- <- -> ->. split; reflexivity.
Qed.

Lemma hash_many_drained (step : device S hash_many_job unit) fine out n s jobs items ended s' jobs' :
  lends step fine out -> fine s jobs -> drain step n s jobs = Some (items, ended, s', jobs') ->
  agree s' ended (Kall s') (hash_many_bursting v e n step s jobs)
    (hash_many_unwinding v e jobs' (map Some items ++ tail ended)).
Proof.
  intros B F EC. unfold hash_many_bursting. destruct n as [|n]; [discriminate EC|]. cbn [drain] in EC.
  destruct (step s jobs) as [[s1 st1] o] eqn:E. destruct o as [[r a]| |].
  - destruct (drain step n s1 st1) as [[[[l en] s2] st2]|] eqn:EC'; [|discriminate EC]. injection EC as <- -> -> ->.
    pose proof (remains_fine _ _ _ B _ _ _ _ _ F E) as F'. destruct (passes_out _ _ _ B _ _ _ _ _ _ F E) as (_ & G2 & _).
    cbn [map app]. unfold hash_many_unwinding. cbn [peek i_peeked].
    eapply (agree_bind _ _ eq).
    { unfold cell. rewrite (drain_nth _ _ _ B _ _ _ _ _ _ _ r F' G2 EC'). apply agree_inside. eauto. }
    intros first ? <-.
    eapply agree_bind.
    + apply (compress_many_bursting _ _ _ step fine out B _ _ _ _ _ (Datatypes.S n) s' ended n); auto.
    + intros [lit cb] [it cp] (K1 & K2 & K3). cbn [fst snd] in *. eexists. split; [reflexivity|]. unfold Kall. cbn [fst snd]. congruence.
  - injection EC as <- <- -> ->. eexists. split; reflexivity.
  - injection EC as <- <- -> ->. split; reflexivity.
Qed.
End Batch.
