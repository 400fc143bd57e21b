(** The batch scheduler: every pulled item ends up in the state its own job
    prescribes, whatever the grouping; it terminates. *)
From Coq Require Import ZArith Arith NArith List Bool Lia ZifyBool ZifyNat ZifyN.
From Verif Require Import Base ByteLemmas Guts KernelSpec Simd Transposed Impl Loops LaneLoops Sched.
Import ListNotations.
Open Scope N_scope.

(** *** Lists *)
Lemma nth_error_set_eq {A} (l : list A) i x : (i < length l)%nat -> nth_error (set l i x) i = Some x.
Proof. revert i. induction l; intros [|i] H; cbn in *; try lia; auto. apply IHl. lia. Qed.
Lemma nth_error_set_ne {A} (l : list A) i j x : i <> j -> nth_error (set l i x) j = nth_error l j.
Proof. revert i j. induction l; intros [|i] [|j] H; cbn; auto; try congruence. Qed.
Lemma nth_error_lt {A} (l : list A) i x : nth_error l i = Some x -> (i < length l)%nat.
Proof. intros H. apply nth_error_Some. congruence. Qed.

Lemma NoDup_app_inv {A} (l m : list A) : NoDup (l ++ m) ->
  NoDup l /\ NoDup m /\ forall x, In x l -> ~ In x m.
Proof.
  induction l as [|a l IH]; cbn; intros H.
  - repeat split; auto. constructor.
  - inversion H as [|? ? H1 H2]; subst. destruct (IH H2) as (A1 & A2 & A3). repeat split; auto.
    + constructor; auto. intros X. apply H1, in_or_app. auto.
    + intros x [<-|X]; auto. intros Y. apply H1, in_or_app. auto.
Qed.

Section Proof.
Context {C A : Type}.
Variable get : C -> list N.
Variable put : C -> list N -> C.
Variable prep : A -> C -> outcome (C * prepared).
Variables (v : variant) (e : env) (imp : platform) (fin : bool) (st : stride).
Hypothesis get_put : forall c w, get (put c w) = w.
Hypothesis put_put : forall c w w', put (put c w) w' = put c w'.

Definition as_job (j : vjob) (c : C) : job :=
  {| j_input := v_input j; j_words := get c; j_count := v_count j; j_last_node := v_last_node j |}.

(** The item's object after its job alone. *)
Definition done (a : A) (c : C) : C :=
  match prep a c with
  | Ret (c', Some (input, count, ln)) => put c' (C1 v st fin ln input (get c') count)
  | Ret (c', None) => c'
  | _ => c
  end.

Definition prep_good (a : A) (c : C) : Prop :=
  match prep a c with
  | Ret (c', Some (input, count, ln)) =>
      job_ok v fin {| j_input := input; j_words := get c'; j_count := count; j_last_node := ln |}
  | Ret (_, None) => True
  | _ => False
  end.

(** Items still to come out of the caller's iterator. *)
Fixpoint upto_none (src : list (option (nat * A))) : list (nat * A) :=
  match src with Some it :: r => it :: upto_none r | _ => [] end.
Fixpoint after_none (src : list (option (nat * A))) : list (option (nat * A)) :=
  match src with Some _ :: r => after_none r | None :: r => r | [] => [] end.
Definition pend (it : iter A) : list (nat * A) :=
  if i_done it then []
  else match i_peeked it with Some p => [p] | None => [] end ++ upto_none (i_src it).
(** Total number of next() calls, and what is left in the source, at the end. *)
Definition total_calls (it : iter A) : nat :=
  if i_done it then i_calls it else (i_calls it + S (length (upto_none (i_src it))))%nat.
Definition final_src (it : iter A) : list (option (nat * A)) :=
  if i_done it then i_src it else after_none (i_src it).
Definition same_fate (it it' : iter A) : Prop :=
  total_calls it' = total_calls it /\ final_src it' = final_src it.

Lemma same_fate_refl it : same_fate it it.
Proof. split; reflexivity. Qed.
Lemma same_fate_trans a b c : same_fate a b -> same_fate b c -> same_fate a c.
Proof. intros [H1 H2] [H3 H4]. split; congruence. Qed.

Section Target.
Variable tgt : nat -> option C.

Definition live (cells : list C) (j : vjob) : Prop :=
  exists c, nth_error cells (v_ref j) = Some c /\ job_ok v fin (as_job j c) /\
    tgt (v_ref j) = Some (put c (job_result v st fin (as_job j c))).
Definition waiting (cells : list C) (p : nat * A) : Prop :=
  exists c, nth_error cells (fst p) = Some c /\ prep_good (snd p) c /\
    tgt (fst p) = Some (done (snd p) c).
Definition settled (cells : list C) (r : nat) : Prop := nth_error cells r = tgt r.

Record Inv (items : list (nat * A)) (vec : list vjob) (cells : list C) : Prop := {
  inv_nodup : NoDup (map v_ref vec ++ map fst items);
  inv_live : forall j, In j vec -> live cells j;
  inv_wait : forall p, In p items -> waiting cells p;
  inv_rest : forall r, ~ In r (map v_ref vec ++ map fst items) -> settled cells r }.

Lemma live_frame cells cells' j :
  nth_error cells' (v_ref j) = nth_error cells (v_ref j) -> live cells j -> live cells' j.
Proof. intros E (c & H). exists c. rewrite E. exact H. Qed.
Lemma waiting_frame cells cells' p :
  nth_error cells' (fst p) = nth_error cells (fst p) -> waiting cells p -> waiting cells' p.
Proof. intros E (c & H). exists c. rewrite E. exact H. Qed.

Lemma start_spec p items vec cells : Inv (p :: items) vec cells ->
  exists cells' o, start prep cells p = Ret (cells', o) /\ length cells' = length cells /\
    match o with
    | None => Inv items vec cells'
    | Some j => Inv items (vec ++ [j]) cells'
    end.
Proof.
  intros I. destruct p as [r a].
  destruct (inv_wait _ _ _ I (r, a) ltac:(left; auto)) as (c & H1 & H2 & H3). cbn [fst snd] in *.
  unfold start, cell. rewrite H1. cbn [bind]. unfold prep_good, done in *.
  destruct (prep a c) as [[c' p]| | |] eqn:EP; try contradiction. cbn [bind].
  pose proof (inv_nodup _ _ _ I) as ND. cbn [map fst] in ND.
  assert (ND' : NoDup (map v_ref vec ++ map fst items) /\ ~ In r (map v_ref vec ++ map fst items)).
  { split; [eapply NoDup_remove_1; eauto | eapply NoDup_remove_2; eauto]. }
  destruct ND' as [ND1 ND2].
  assert (Lr := nth_error_lt _ _ _ H1).
  assert (Fr : forall q, q <> r -> nth_error (set cells r c') q = nth_error cells q).
  { intros q Hq. apply nth_error_set_ne. auto. }
  assert (Nv : forall j, In j vec -> v_ref j <> r).
  { intros j Hj <-. apply ND2, in_or_app. left. apply in_map. auto. }
  assert (Ni : forall q, In q items -> fst q <> r).
  { intros q Hq <-. apply ND2, in_or_app. right. apply in_map. auto. }
  destruct p as [[[input count] ln]|].
  - eexists _, _. split; [reflexivity|]. split; [apply set_length|].
    constructor.
    + rewrite map_app, <- app_assoc. exact ND.
    + intros j Hj. apply in_app_or in Hj. destruct Hj as [Hj|[<-|[]]].
      * eapply live_frame; [|apply (inv_live _ _ _ I); auto]. auto.
      * exists c'. cbn [v_ref]. rewrite nth_error_set_eq by auto. repeat split; try apply H2. exact H3.
    + intros q Hq. eapply waiting_frame; [|apply (inv_wait _ _ _ I); right; auto]. auto.
    + intros q Hq. rewrite map_app, <- app_assoc in Hq. cbn [map app v_ref] in Hq.
      assert (q <> r). { intros ->. apply Hq, in_or_app. right. left. auto. }
      unfold settled. rewrite Fr by auto. apply (inv_rest _ _ _ I). exact Hq.
  - eexists _, _. split; [reflexivity|]. split; [apply set_length|].
    constructor.
    + exact ND1.
    + intros j Hj. eapply live_frame; [|apply (inv_live _ _ _ I); auto]. auto.
    + intros q Hq. eapply waiting_frame; [|apply (inv_wait _ _ _ I); right; auto]. auto.
    + intros q Hq. unfold settled. destruct (Nat.eq_dec q r) as [->|Nq].
      * rewrite nth_error_set_eq by auto. symmetry. exact H3.
      * rewrite Fr by auto. apply (inv_rest _ _ _ I). cbn [map fst]. intros X. apply Hq.
        apply in_app_or in X. apply in_or_app. destruct X as [X|[X|X]]; auto. congruence.
Qed.

(** Outcome of pulling one job. *)
Definition pulled (vec : list vjob) (n0 : nat) (it0 : iter A) (len : nat)
    (it' : iter A) (cells' : list C) (o : option vjob) : Prop :=
  same_fate it0 it' /\ length cells' = len /\
  match o with
  | None => i_done it' = true /\ Inv [] vec cells'
  | Some j => Inv (pend it') (vec ++ [j]) cells' /\ (S (length (pend it')) <= n0)%nat
  end.

Lemma pull_src_spec : forall src calls vec cells it0 n0,
  Inv (upto_none src) vec cells ->
  same_fate it0 {| i_peeked := None; i_src := src; i_done := false; i_calls := calls |} ->
  (length (upto_none src) <= n0)%nat ->
  exists it' cells' o, pull_src prep src calls cells = Ret (it', cells', o) /\
    pulled vec n0 it0 (length cells) it' cells' o.
Proof.
  induction src as [|[p|] src IH]; intros calls vec cells it0 n0 I SF L0; cbn [pull_src upto_none] in *.
  - eexists _, _, _. split; [reflexivity|]. split; [|split; auto].
    destruct SF as [S1 S2]. split; [rewrite <- S1|rewrite <- S2]; unfold total_calls, final_src; cbn; auto; lia.
  - destruct (start_spec _ _ _ _ I) as (cells' & o & E & L & H). rewrite E. cbn [bind].
    destruct o as [j|].
    + eexists _, _, _. split; [reflexivity|]. split; [|split; [auto|]].
      * destruct SF as [S1 S2]. split; [rewrite <- S1|rewrite <- S2]; unfold total_calls, final_src; cbn; auto; lia.
      * split; [exact H|]. cbn in *. lia.
    + rewrite <- L. apply IH; auto. destruct SF as [S1 S2]. split; [rewrite <- S1|rewrite <- S2];
        unfold total_calls, final_src; cbn; auto; lia. cbn in L0. lia.
  - eexists _, _, _. split; [reflexivity|]. split; [|split; auto].
    destruct SF as [S1 S2]. split; [rewrite <- S1|rewrite <- S2]; unfold total_calls, final_src; cbn; auto; lia.
Qed.

Lemma next_spec it vec cells : Inv (pend it) vec cells ->
  exists it' cells' o, next prep it cells = Ret (it', cells', o) /\
    pulled vec (length (pend it)) it (length cells) it' cells' o.
Proof.
  intros I. unfold next. destruct (i_done it) eqn:D.
  - eexists _, _, _. split; [reflexivity|]. split; [apply same_fate_refl|split; auto].
    split; auto. unfold pend in I. rewrite D in I. exact I.
  - unfold pend in *. rewrite D in *. destruct (i_peeked it) as [p|] eqn:P.
    + cbn [app] in I. destruct (start_spec _ _ _ _ I) as (cells' & o & E & L & H). rewrite E. cbn [bind].
      destruct o as [j|].
      * eexists _, _, _. split; [reflexivity|]. split; [|split; [auto|]].
        -- unfold same_fate, total_calls, final_src. rewrite D. cbn. auto.
        -- split; [exact H|]. cbn. lia.
      * rewrite <- L. apply pull_src_spec; auto.
        -- unfold same_fate, total_calls, final_src. rewrite D. cbn. auto.
        -- cbn. lia.
    + cbn [app] in *. apply pull_src_spec; auto.
      unfold same_fate, total_calls, final_src. rewrite D. cbn. auto.
Qed.

Lemma pend_done it : i_done it = true -> pend it = [].
Proof. unfold pend. intros ->. reflexivity. Qed.

Lemma fill_spec : forall k it cells vec,
  Inv (pend it) vec cells -> (length vec + k <= max_degree v true)%nat ->
  exists it' cells' vec', fill prep v k it cells vec = Ret (it', cells', vec') /\
    same_fate it it' /\ length cells' = length cells /\
    Inv (pend it') vec' cells' /\
    (length vec' + length (pend it') <= length vec + length (pend it))%nat /\
    (length vec' <= length vec + k)%nat /\
    (length vec' = length vec + k \/ i_done it' = true)%nat /\
    exists new, vec' = vec ++ new.
Proof.
  induction k as [|k IH]; intros it cells vec I L; cbn [fill].
  - eexists _, _, _. split; [reflexivity|]. split; [apply same_fate_refl|].
    repeat (split; [auto; lia|]). exists []. rewrite app_nil_r. auto.
  - destruct (next_spec it vec cells I) as (it' & cells' & o & E & SF & Lc & H). rewrite E. cbn [bind].
    destruct o as [j|].
    + destruct H as [H1 H2].
      destruct (Nat.ltb_spec (length vec) (max_degree v true)); [|lia]. cbn [assert_ bind].
      destruct (IH it' cells' (vec ++ [j]) H1) as (it2 & cells2 & vec2 & E2 & SF2 & Lc2 & I2 & M2 & N2 & O2 & new & Enew).
      { rewrite app_length. cbn [length]. lia. }
      rewrite app_length in M2, N2, O2. cbn [length] in M2, N2, O2.
      eexists _, _, _. split; [exact E2|]. split; [eapply same_fate_trans; eauto|].
      split; [lia|]. split; [auto|]. split; [lia|]. split; [lia|].
      split; [destruct O2; [left; lia|right; auto]|].
      exists (j :: new). rewrite Enew, <- app_assoc. reflexivity.
    + destruct H as [H1 H2]. eexists _, _, _. split; [reflexivity|]. split; [auto|]. split; [auto|].
      rewrite (pend_done _ H1). split; [auto|]. cbn. split; [lia|]. split; [lia|]. split; [auto|].
      exists []. rewrite app_nil_r. auto.
Qed.

(** *** One pass over a full batch *)
Definition loop_ok (loop : list job -> outcome (list job)) (n : nat) : Prop :=
  forall jobs, length jobs = n -> (forall j, In j jobs -> job_ok v fin j) ->
  exists jobs', loop jobs = Ret jobs' /\ length jobs' = n /\
    (forall l, (l < n)%nat -> advance v st fin (nth l jobs job0) (nth l jobs' job0)) /\
    exists l, (l < n)%nat /\ j_input (nth l jobs' job0) = [].

Definition emptyb (j : vjob) : bool := match v_input j with [] => true | _ => false end.

Lemma evict_spec : forall front tail,
  evict_finished e (front ++ tail) (length front) = Ret (filter (fun j => negb (emptyb j)) front ++ tail).
Proof.
  intros front. induction front as [|x front IH] using rev_ind; intros tail; [reflexivity|].
  rewrite app_length, Nat.add_1_r. cbn [evict_finished].
  assert (E : Nat.ltb (length front) (length ((front ++ [x]) ++ tail)) = true).
  { apply Nat.ltb_lt. rewrite !app_length. cbn. lia. }
  rewrite E. replace (debug_assert (e_dbg e) true) with (Ret tt) by (destruct (e_dbg e); reflexivity).
  cbn [bind]. rewrite <- app_assoc, nth_error_app2 by lia. rewrite Nat.sub_diag. cbn [app nth_error].
  rewrite filter_app. cbn [filter]. unfold emptyb at 2. unfold pop_at.
  destruct (v_input x) as [|b r].
  - rewrite firstn_app, Nat.sub_diag, firstn_all. cbn [firstn]. rewrite app_nil_r.
    replace (skipn (S (length front)) (front ++ x :: tail)) with tail.
    + rewrite IH. cbn [negb]. rewrite app_nil_r. reflexivity.
    + rewrite skipn_app, skipn_all2 by lia. replace (S (length front) - length front)%nat with 1%nat by lia. reflexivity.
  - cbn [negb]. rewrite <- app_assoc. cbn [app].
    change (front ++ x :: tail) with (front ++ ([x] ++ tail)). rewrite IH. reflexivity.
Qed.

(** Result of storing a batch back. *)
Lemma store_jobs_spec : forall front ks cells,
  length ks = length front -> NoDup (map v_ref front) ->
  (forall j, In j front -> exists c, nth_error cells (v_ref j) = Some c) ->
  exists cells', store_jobs put cells (combine front ks) =
      Ret (cells', map (fun p => {| v_ref := v_ref (fst p); v_input := j_input (snd p);
                                    v_count := j_count (snd p); v_last_node := j_last_node (snd p) |})
                       (combine front ks)) /\
    length cells' = length cells /\
    (forall j k, In (j, k) (combine front ks) -> forall c, nth_error cells (v_ref j) = Some c ->
       nth_error cells' (v_ref j) = Some (put c (j_words k))) /\
    (forall r, ~ In r (map v_ref front) -> nth_error cells' r = nth_error cells r).
Proof.
  induction front as [|j front IH]; intros ks cells L ND H; destruct ks as [|k ks]; try discriminate L.
  - exists cells. cbn. repeat split; auto. intros ? ? [].
  - cbn [combine store_jobs map fst snd]. destruct (H j ltac:(left; auto)) as (c & Hc).
    unfold store_words, cell. rewrite Hc. cbn [bind].
    pose proof (nth_error_lt _ _ _ Hc) as Lc.
    cbn [map] in ND. inversion ND as [|? ? N1 N2]; subst.
    destruct (IH ks (set cells (v_ref j) (put c (j_words k)))) as (cells' & E & L' & P1 & P2).
    + cbn in L. lia.
    + exact N2.
    + intros j' Hj'. destruct (H j' ltac:(right; auto)) as (c' & Hc').
      exists c'. rewrite nth_error_set_ne; auto. intros X. apply N1. rewrite X. apply in_map. auto.
    + rewrite E. cbn [bind]. eexists. split; [reflexivity|]. rewrite set_length in L'. split; [exact L'|]. split.
      * intros j' k' [X|X] c' Hc'.
        -- inversion X; subst. rewrite P2 by auto. rewrite nth_error_set_eq by auto. congruence.
        -- apply P1; auto. rewrite nth_error_set_ne; auto. intros Y. apply N1. rewrite Y.
           apply in_map. apply in_combine_l in X. auto.
      * intros r Hr. cbn [map] in Hr. rewrite P2 by (intros X; apply Hr; right; auto).
        apply nth_error_set_ne. intros X. apply Hr. left. auto.
Qed.

Lemma mapM_load cells front : (forall j, In j front -> live cells j) ->
  exists js, mapM (load_job get cells) front = Ret js /\ length js = length front /\
    forall l d1 d2, (l < length front)%nat -> exists c, nth_error cells (v_ref (nth l front d1)) = Some c /\
       nth l js d2 = as_job (nth l front d1) c.
Proof.
  induction front as [|j front IH]; intros H.
  - exists []. cbn. repeat split; auto. intros. lia.
  - destruct (H j ltac:(left; auto)) as (c & Hc & _).
    destruct IH as (js & E & L & P). { intros; apply H; right; auto. }
    exists (as_job j c :: js). cbn [mapM]. unfold load_job at 1, cell. rewrite Hc. cbn [bind]. rewrite E. cbn [bind].
    split; [reflexivity|]. split; [cbn; lia|].
    intros [|l] d1 d2 Hl; cbn [nth].
    + eauto.
    + apply P. cbn in Hl. lia.
Qed.

Definition vjob0 : vjob := {| v_ref := 0; v_input := []; v_count := 0; v_last_node := false |}.

(** Where the jobs that are still waiting come from. *)
Definition came_from (vec : list vjob) (cells : list C) (vec' : list vjob) (cells' : list C) : Prop :=
  forall j' c', In j' vec' -> nth_error cells' (v_ref j') = Some c' ->
  exists j c, In j vec /\ v_ref j = v_ref j' /\ nth_error cells (v_ref j) = Some c /\
    (as_job j' c' = as_job j c \/ (advance v st fin (as_job j c) (as_job j' c') /\ v_input j' <> [])).

Lemma batch_pass loop n items vec cells :
  loop_ok loop n -> Inv items vec cells -> (n <= length vec)%nat ->
  exists cells' vec' vec'', run_jobs get put loop n cells vec = Ret (cells', vec') /\
    evict_finished e vec' n = Ret vec'' /\
    length cells' = length cells /\ Inv items vec'' cells' /\ (length vec'' < length vec)%nat /\
    came_from vec cells vec'' cells'.
Proof.
  intros LO I Ln. unfold run_jobs.
  set (front := firstn n vec). set (rest := skipn n vec).
  assert (EV : vec = front ++ rest) by (symmetry; apply firstn_skipn).
  assert (LF : length front = n) by (apply firstn_length_le; auto).
  unfold slice. cbn [Nat.leb andb]. destruct (Nat.leb_spec n (length vec)); [|lia].
  cbn [bind]. rewrite Nat.sub_0_r. cbn [skipn]. fold front.
  pose proof (inv_nodup _ _ _ I) as ND. rewrite EV, map_app, <- app_assoc in ND.
  destruct (NoDup_app_inv _ _ ND) as (NDf & NDr & NDx).
  assert (HF : forall j, In j front -> live cells j).
  { intros j Hj. apply (inv_live _ _ _ I). rewrite EV. apply in_or_app. auto. }
  destruct (mapM_load cells front HF) as (js & Ejs & Ljs & Pjs). rewrite Ejs. cbn [bind].
  destruct (LO js) as (js' & E' & L' & Adv & (l0 & Hl0 & Hempty)).
  { lia. }
  { intros j Hj. destruct (In_nth _ _ job0 Hj) as (l & Ll & <-).
    destruct (Pjs l vjob0 job0 ltac:(lia)) as (c & Hc & ->).
    destruct (HF (nth l front vjob0)) as (c2 & Hc2 & Ok & _). { apply nth_In. lia. }
    rewrite Hc in Hc2. injection Hc2 as <-. exact Ok. }
  rewrite E'. cbn [bind].
  destruct (store_jobs_spec front js' cells) as (cells' & ES & Lc & P1 & P2); auto.
  { lia. }
  { intros j Hj. destruct (HF j Hj) as (c & Hc & _). eauto. }
  rewrite ES. cbn [bind]. set (mk := fun p : vjob * job => _) in ES |- *.
  set (front' := map mk (combine front js')).
  assert (LF' : length front' = n).
  { unfold front'. rewrite map_length, combine_length. lia. }
  exists cells', (front' ++ skipn n vec), (filter (fun j => negb (emptyb j)) front' ++ rest).
  split; [reflexivity|]. split; [fold rest; pose proof (evict_spec front' rest) as EV'; rewrite LF' in EV'; exact EV'|]. split; [exact Lc|].
  (* facts on each element of the batch *)
  assert (NTH : forall l, (l < n)%nat -> nth l front' vjob0 =
     {| v_ref := v_ref (nth l front vjob0); v_input := j_input (nth l js' job0);
        v_count := j_count (nth l js' job0); v_last_node := j_last_node (nth l js' job0) |}).
  { intros l Hl. unfold front'. rewrite (nth_map_lt mk _ _ (vjob0, job0)) by (rewrite combine_length; lia).
    rewrite combine_nth by lia. reflexivity. }
  assert (RF : map v_ref front' = map v_ref front).
  { unfold front', mk. rewrite map_map. cbn [v_ref].
    rewrite <- (map_map fst v_ref). f_equal.
    clear -L' LF. revert js' L' LF. generalize n. induction front as [|a f IH]; intros n0 [|b js'] L' LF; cbn in *; try lia; auto.
    f_equal. apply (IH (Nat.pred n0)); lia. }
  assert (EL : forall l, (l < n)%nat ->
      let j' := nth l front' vjob0 in
      (emptyb j' = true -> settled cells' (v_ref j')) /\ (emptyb j' = false -> live cells' j' /\
         forall c', nth_error cells' (v_ref j') = Some c' ->
         exists j c, In j vec /\ v_ref j = v_ref j' /\ nth_error cells (v_ref j) = Some c /\
           advance v st fin (as_job j c) (as_job j' c'))).
  { intros l Hl. cbv zeta. rewrite NTH by auto. cbn [v_ref].
    destruct (HF (nth l front vjob0)) as (c & Hc & Ok & Tg). { apply nth_In. lia. }
    destruct (Pjs l vjob0 job0 ltac:(lia)) as (c2 & Hc2 & Ejob). rewrite Hc in Hc2. injection Hc2 as <-.
    pose proof (Adv l Hl) as AV. rewrite Ejob in AV. pose proof AV as AV0.
    destruct AV as (AL & AW & _ & _ & AD).
    assert (ST : nth_error cells' (v_ref (nth l front vjob0)) = Some (put c (j_words (nth l js' job0)))).
    { apply P1; auto. rewrite <- combine_nth by lia. apply nth_In. rewrite combine_length. lia. }
    unfold emptyb. cbn [v_input]. destruct AD as [(Ei & Ew)|(Ni & Ok' & Er & _)].
    - rewrite Ei. split; [|discriminate]. intros _. unfold settled. rewrite ST, Tg, Ew. reflexivity.
    - destruct (j_input (nth l js' job0)) as [|b bs] eqn:Ei; [congruence|]. split; [discriminate|]. intros _.
      assert (EJ : as_job {| v_ref := v_ref (nth l front vjob0); v_input := b :: bs;
            v_count := j_count (nth l js' job0); v_last_node := j_last_node (nth l js' job0) |}
            (put c (j_words (nth l js' job0))) = nth l js' job0).
      { unfold as_job. cbn [v_input v_count v_last_node]. rewrite get_put, <- Ei.
        destruct (nth l js' job0); reflexivity. }
      split.
      + exists (put c (j_words (nth l js' job0))). cbn [v_ref]. split; [exact ST|].
        rewrite EJ. split; [exact Ok'|]. rewrite put_put, Er. exact Tg.
      + intros c' Hc'. rewrite ST in Hc'. injection Hc' as <-. exists (nth l front vjob0), c.
        split; [rewrite EV; apply in_or_app; left; apply nth_In; lia|]. split; [reflexivity|]. split; [exact Hc|].
        rewrite EJ. exact AV0. }
  assert (FI0 : forall j, In j front' -> (emptyb j = true -> settled cells' (v_ref j)) /\ (emptyb j = false -> live cells' j /\
         forall c', nth_error cells' (v_ref j) = Some c' ->
         exists j0 c, In j0 vec /\ v_ref j0 = v_ref j /\ nth_error cells (v_ref j0) = Some c /\
           advance v st fin (as_job j0 c) (as_job j c'))).
  { intros j Hj. destruct (In_nth _ _ vjob0 Hj) as (l & Ll & <-). apply EL. lia. }
  assert (FI : forall j, In j front' -> (emptyb j = true -> settled cells' (v_ref j)) /\ (emptyb j = false -> live cells' j)).
  { intros j Hj. destruct (FI0 j Hj) as [F1 F2]. split; [exact F1|]. intros X. apply (F2 X). }
  split; [|split].
  - constructor.
    + rewrite map_app, <- app_assoc.
      assert (NF : forall l : list vjob, NoDup (map v_ref l) -> NoDup (map v_ref (filter (fun j => negb (emptyb j)) l)) /\
                   forall x, In x (map v_ref (filter (fun j => negb (emptyb j)) l)) -> In x (map v_ref l)).
      { clear. induction l as [|a l IH]; cbn; intros H; [split; auto|].
        inversion H as [|? ? H1 H2]; subst. destruct (IH H2) as [A1 A2].
        destruct (negb (emptyb a)); cbn; split; auto.
        - constructor; auto.
        - intros x [X|X]; auto. }
      rewrite <- RF in NDf. destruct (NF front' NDf) as [N1 N2].
      assert (NA : forall (X : Type) (l m : list X), NoDup l -> NoDup m -> (forall x, In x l -> ~ In x m) -> NoDup (l ++ m)).
      { clear. induction l as [|a l IH]; cbn; intros m H1 H2 H3; auto.
        inversion H1; subst. constructor; [|apply IH; auto].
        intros Y. apply in_app_or in Y. destruct Y; auto. apply (H3 a); auto. }
      apply NA; auto. intros x Hx. apply NDx. rewrite <- RF. auto.
    + intros j Hj. apply in_app_or in Hj. destruct Hj as [Hj|Hj].
      * apply filter_In in Hj. destruct Hj as [Hj Hb]. apply (FI j Hj). destruct (emptyb j); auto; discriminate.
      * eapply live_frame; [|apply (inv_live _ _ _ I); rewrite EV; apply in_or_app; right; exact Hj].
        apply P2. intros X. apply (NDx _ X). apply in_or_app. left. apply in_map. exact Hj.
    + intros p Hp. eapply waiting_frame; [|apply (inv_wait _ _ _ I); exact Hp].
      apply P2. intros X. apply (NDx _ X). apply in_or_app. right. apply in_map. exact Hp.
    + intros r Hr. rewrite map_app, <- app_assoc in Hr.
      destruct (in_dec Nat.eq_dec r (map v_ref front)) as [Hin|Hout].
      * rewrite <- RF in Hin. apply in_map_iff in Hin. destruct Hin as (j & <- & Hj).
        apply (FI j Hj). destruct (emptyb j) eqn:Eb; auto. exfalso. apply Hr. apply in_or_app. left.
        apply in_map. apply filter_In. rewrite Eb. auto.
      * unfold settled. rewrite P2 by auto. apply (inv_rest _ _ _ I). rewrite EV, map_app, <- app_assoc.
        intros X. apply in_app_or in X. destruct X as [X|X]; auto. apply Hr. apply in_or_app. right. auto.
  - rewrite EV, !app_length. apply Nat.add_lt_mono_r. rewrite LF, <- LF'.
    assert (HE : In (nth l0 front' vjob0) front') by (apply nth_In; lia).
    assert (Eb : emptyb (nth l0 front' vjob0) = true).
    { rewrite NTH by auto. unfold emptyb. cbn [v_input]. rewrite Hempty. reflexivity. }
    clear -HE Eb. revert HE Eb. generalize (nth l0 front' vjob0). intros x HE Eb.
    induction front' as [|a f IH]; [destruct HE|]. cbn [filter length].
    assert (LE : (length (filter (fun j => negb (emptyb j)) f) <= length f)%nat).
    { clear. induction f as [|b f IH]; cbn; auto. destruct (negb (emptyb b)); cbn; lia. }
    destruct HE as [->|HE].
    + rewrite Eb. cbn [negb]. lia.
    + specialize (IH HE). destruct (negb (emptyb a)); cbn [length]; lia.
  - intros j' c' Hj' Hc'. apply in_app_or in Hj'. destruct Hj' as [Hj'|Hj'].
    + apply filter_In in Hj'. destruct Hj' as [Hj' Hb]. apply negb_true_iff in Hb.
      destruct (proj2 (FI0 j' Hj') Hb) as [_ TR]. destruct (TR c' Hc') as (j & c & A1 & A2 & A3 & A4).
      exists j, c. split; [exact A1|]. split; [exact A2|]. split; [exact A3|]. right. split; [exact A4|].
      unfold emptyb in Hb. destruct (v_input j'); [discriminate|congruence].
    + assert (R : ~ In (v_ref j') (map v_ref front)).
      { intros X. apply (NDx _ X). apply in_or_app. left. apply in_map. exact Hj'. }
      exists j', c'. split; [rewrite EV; apply in_or_app; right; exact Hj'|]. split; [reflexivity|].
      split; [rewrite <- P2 by exact R; exact Hc'|]. left. reflexivity.
Qed.

Lemma batch_loop_spec loop n : loop_ok loop n -> (n <= max_degree v true)%nat ->
  forall fuel it cells vec, Inv (pend it) vec cells ->
  (length vec <= max_degree v true)%nat ->
  (length vec + length (pend it) < fuel)%nat ->
  exists it' cells' vec', batch_loop get put prep v e loop n fuel it cells vec = Ret (it', cells', vec') /\
    same_fate it it' /\ length cells' = length cells /\ Inv (pend it') vec' cells' /\
    (length vec' < n)%nat /\ i_done it' = true.
Proof.
  intros LO Hn. induction fuel as [|fuel IH]; intros it cells vec I Lv Lf; [lia|].
  cbn [batch_loop]. unfold fill_jobs_vec.
  destruct (fill_spec (n - length vec) it cells vec I) as (it' & cells' & vec' & E & SF & Lc & I' & M & N1 & O & new & En).
  { lia. }
  rewrite E. cbn [bind].
  destruct (Nat.ltb_spec (length vec') n).
  - eexists _, _, _. split; [reflexivity|]. split; [auto|]. split; [auto|]. split; [auto|]. split; [auto|].
    destruct O as [O|O]; auto. rewrite En, app_length in *. lia.
  - destruct (batch_pass loop n _ _ _ LO I' H) as (cells2 & vec2 & vec3 & E2 & E3 & L2 & I2 & D2 & _).
    rewrite E2. cbn [bind]. rewrite E3. cbn [bind].
    destruct (IH it' cells2 vec3 I2) as (it4 & cells4 & vec4 & E4 & SF4 & L4 & I4 & N4 & D4).
    { lia. } { lia. }
    eexists _, _, _. split; [exact E4|]. split; [eapply same_fate_trans; eauto|]. split; [lia|]. auto.
Qed.

Hypothesis imp_supported : supported e imp.

Lemma run_one_spec items vec1 j vec2 cells : Inv items (vec1 ++ j :: vec2) cells ->
  exists cells', run_one get put v e imp fin st cells j = Ret cells' /\
    length cells' = length cells /\ Inv items (vec1 ++ vec2) cells'.
Proof.
  intros I. destruct (inv_live _ _ _ I j) as (c & Hc & (O1 & O2 & O3) & Tg).
  { apply in_or_app. right. left. auto. }
  unfold run_one, cell. rewrite Hc. cbn [bind]. rewrite compress1_loop_spec by auto. cbn [bind].
  unfold store_words, cell. rewrite Hc. cbn [bind].
  pose proof (nth_error_lt _ _ _ Hc) as Lc.
  pose proof (inv_nodup _ _ _ I) as ND. rewrite map_app, <- app_assoc in ND. cbn [map app] in ND.
  pose proof (NoDup_remove_1 _ _ _ ND) as ND1. pose proof (NoDup_remove_2 _ _ _ ND) as ND2.
  eexists. split; [reflexivity|]. split; [apply set_length|]. constructor.
  - rewrite map_app, <- app_assoc. exact ND1.
  - intros j' Hj. eapply live_frame.
    + apply nth_error_set_ne. intros X. apply ND2. rewrite X. rewrite app_assoc, <- map_app. apply in_or_app. left.
      apply in_map. exact Hj.
    + apply (inv_live _ _ _ I). apply in_app_or in Hj. apply in_or_app. destruct Hj; auto. right. right. auto.
  - intros p Hp. eapply waiting_frame; [|apply (inv_wait _ _ _ I); exact Hp].
    apply nth_error_set_ne. intros X. apply ND2. rewrite X. apply in_or_app. right. apply in_or_app. right.
    apply in_map. auto.
  - intros r Hr. unfold settled. destruct (Nat.eq_dec r (v_ref j)) as [->|Nr].
    + rewrite nth_error_set_eq by auto. symmetry. exact Tg.
    + rewrite nth_error_set_ne by auto. apply (inv_rest _ _ _ I). rewrite map_app, <- app_assoc.
      rewrite map_app, <- app_assoc in Hr. intros X. apply Hr. apply in_app_or in X. apply in_or_app.
      cbn [map app] in X. destruct X as [X|[X|X]]; auto. congruence.
Qed.

Lemma run_vec_spec : forall vec items cells, Inv items vec cells ->
  exists cells', run_vec get put v e imp fin st cells vec = Ret cells' /\
    length cells' = length cells /\ Inv items [] cells'.
Proof.
  induction vec as [|j vec IH]; intros items cells I; cbn [run_vec].
  - eauto.
  - destruct (run_one_spec items [] j vec cells I) as (cells' & E & L & I'). rewrite E. cbn [bind].
    destruct (IH items cells' I') as (cells2 & E2 & L2 & I2). exists cells2. split; [auto|]. split; [lia|auto].
Qed.

Lemma run_rest_spec : forall fuel it cells, Inv (pend it) [] cells ->
  (length (pend it) < fuel)%nat ->
  exists it' cells', run_rest get put prep v e imp fin st fuel it cells = Ret (it', cells') /\
    same_fate it it' /\ length cells' = length cells /\ i_done it' = true /\ Inv [] [] cells'.
Proof.
  induction fuel as [|fuel IH]; intros it cells I L; [lia|]. cbn [run_rest].
  destruct (next_spec it [] cells I) as (it' & cells' & o & E & SF & Lc & H). rewrite E. cbn [bind].
  destruct o as [j|].
  - destruct H as [H1 H2]. destruct (run_one_spec _ [] j [] cells' H1) as (cells2 & E2 & L2 & I2).
    rewrite E2. cbn [bind]. destruct (IH it' cells2 I2) as (it3 & cells3 & E3 & SF3 & L3 & D3 & I3). { lia. }
    eexists _, _. split; [exact E3|]. split; [eapply same_fate_trans; eauto|]. split; [lia|]. auto.
  - destruct H as [H1 H2]. eexists _, _. split; [reflexivity|]. auto.
Qed.

Lemma wide_loop_ok : (wide v <= degree v imp)%nat ->
  loop_ok (fun js => compress_wide_loop v e imp js fin st) (wide v) /\ (wide v <= max_degree v true)%nat.
Proof.
  intros H. split; [|destruct v; cbn; lia].
  assert (imp = AVX2). { destruct v, imp; cbn in H; auto; lia. } subst imp.
  intros jobs L J. cbn in imp_supported. destruct imp_supported as [S1 S2].
  unfold compress_wide_loop, target_feature. rewrite S1.
  destruct v; [apply (compressn_loop_spec avx2b) | apply (compressn_loop_spec avx2s)];
    auto using avx2b_ok, avx2s_ok.
Qed.

Lemma narrow_loop_ok : (narrow v <= degree v imp)%nat ->
  loop_ok (fun js => compress_narrow_loop v e imp js fin st) (narrow v) /\ (narrow v <= max_degree v true)%nat.
Proof.
  intros H. split; [|destruct v; cbn; lia].
  assert (imp <> Portable /\ e_sse41 e = true) as [NP S2].
  { destruct v, imp; cbn in H, imp_supported; try lia; split; try congruence; try apply imp_supported. }
  intros jobs L J. unfold compress_narrow_loop, target_feature. rewrite S2.
  assert (X : forall S, simd_ok S -> s_degree S = narrow v -> s_var S = v ->
     exists jobs', compressn_loop S (e_dbg e) jobs fin st = Ret jobs' /\ length jobs' = narrow v /\
      (forall l, (l < narrow v)%nat -> advance v st fin (nth l jobs job0) (nth l jobs' job0)) /\
      exists l, (l < narrow v)%nat /\ j_input (nth l jobs' job0) = []).
  { intros S OK Hd Hv. pose proof (compressn_loop_spec S (e_dbg e) jobs fin st OK) as X.
    rewrite Hd, Hv in X. apply X; auto. }
  destruct imp; [congruence| |];
    (destruct v; [apply (X sse41b sse41b_ok) | apply (X sse41s sse41s_ok)]; reflexivity).
Qed.

Lemma compress_many_inv it cells : Inv (pend it) [] cells ->
  (length (pend it) <= 1 + length (i_src it))%nat ->
  exists it' cells', compress_many get put prep v e imp fin st it cells = Ret (it', cells') /\
    same_fate it it' /\ length cells' = length cells /\ i_done it' = true /\ Inv [] [] cells'.
Proof.
  intros I LP. unfold compress_many. set (fuel := (2 + length (i_src it))%nat).
  assert (W : exists it1 cells1 vec1,
    (if Nat.leb (wide v) (degree v imp)
     then batch_loop get put prep v e (fun js => compress_wide_loop v e imp js fin st) (wide v) fuel it cells []
     else Ret (it, cells, [])) = Ret (it1, cells1, vec1) /\
    same_fate it it1 /\ length cells1 = length cells /\ Inv (pend it1) vec1 cells1 /\
    (length vec1 <= max_degree v true)%nat /\ (length (pend it1) < fuel)%nat).
  { destruct (Nat.leb_spec (wide v) (degree v imp)) as [Hw|Hw].
    - destruct (wide_loop_ok Hw) as [LO Hn].
      destruct (batch_loop_spec _ _ LO Hn fuel it cells [] I) as (it1 & c1 & v1 & E & SF & L & I1 & N1 & D1).
      { cbn; lia. } { unfold fuel. cbn; lia. }
      exists it1, c1, v1. split; [exact E|]. split; [auto|]. split; [auto|]. split; [auto|]. split; [lia|].
      rewrite pend_done by auto. unfold fuel. cbn. lia.
    - exists it, cells, []. split; [reflexivity|]. split; [apply same_fate_refl|]. split; [auto|]. split; [auto|].
      split; [cbn; lia|]. unfold fuel. lia. }
  destruct W as (it1 & cells1 & vec1 & E1 & SF1 & L1 & I1 & M1 & P1). rewrite E1. cbn [bind].
  assert (X : exists it2 cells2 vec2,
    (if Nat.leb (narrow v) (degree v imp)
     then batch_loop get put prep v e (fun js => compress_narrow_loop v e imp js fin st) (narrow v)
            (fuel + length vec1) it1 cells1 vec1
     else Ret (it1, cells1, vec1)) = Ret (it2, cells2, vec2) /\
    same_fate it it2 /\ length cells2 = length cells /\ Inv (pend it2) vec2 cells2 /\
    (length (pend it2) < fuel)%nat).
  { destruct (Nat.leb_spec (narrow v) (degree v imp)) as [Hw|Hw].
    - destruct (narrow_loop_ok Hw) as [LO Hn].
      destruct (batch_loop_spec _ _ LO Hn (fuel + length vec1) it1 cells1 vec1 I1) as (it2 & c2 & v2 & E & SF & L & I2 & N2 & D2).
      { lia. } { lia. }
      exists it2, c2, v2. split; [exact E|]. split; [eapply same_fate_trans; eauto|]. split; [lia|]. split; [auto|].
      rewrite pend_done by auto. unfold fuel. cbn. lia.
    - exists it1, cells1, vec1. auto. }
  destruct X as (it2 & cells2 & vec2 & E2 & SF2 & L2 & I2 & P2). rewrite E2. cbn [bind].
  destruct (run_vec_spec vec2 _ _ I2) as (cells3 & E3 & L3 & I3). rewrite E3. cbn [bind].
  destruct (run_rest_spec fuel it2 cells3 I3 P2) as (it4 & cells4 & E4 & SF4 & L4 & D4 & I4).
  exists it4, cells4. split; [exact E4|]. split; [eapply same_fate_trans; eauto|]. split; [lia|]. auto.
Qed.
End Target.

(** *** The statement without invariants *)
Definition target_of (items : list (nat * A)) (cells : list C) (r : nat) : option C :=
  match find (fun p => Nat.eqb (fst p) r) items with
  | Some (_, a) => option_map (done a) (nth_error cells r)
  | None => nth_error cells r
  end.

Lemma find_ref items r a : NoDup (map (@fst nat A) items) -> In (r, a) items ->
  find (fun p => Nat.eqb (fst p) r) items = Some (r, a).
Proof.
  induction items as [|[q b] items IH]; intros ND H; [destruct H|]. cbn [find fst].
  cbn [map fst] in ND. inversion ND as [|? ? N1 N2]; subst. destruct H as [H|H].
  - inversion H; subst. rewrite Nat.eqb_refl. reflexivity.
  - destruct (Nat.eqb_spec q r) as [->|_]; auto. exfalso. apply N1. apply (in_map fst) in H. exact H.
Qed.

Lemma find_ref_none items r : ~ In r (map (@fst nat A) items) ->
  find (fun p => Nat.eqb (fst p) r) items = None.
Proof.
  induction items as [|[q b] items IH]; intros H; auto. cbn [find fst map] in *.
  destruct (Nat.eqb_spec q r) as [->|_]; [exfalso; apply H; left; auto|].
  apply IH. intros X. apply H. right. auto.
Qed.

Theorem compress_many_spec it cells :
  supported e imp ->
  NoDup (map fst (pend it)) ->
  (forall r a, In (r, a) (pend it) -> exists c, nth_error cells r = Some c /\ prep_good a c) ->
  exists it' cells', compress_many get put prep v e imp fin st it cells = Ret (it', cells') /\
    i_done it' = true /\ i_calls it' = total_calls it /\ i_src it' = final_src it /\
    length cells' = length cells /\
    forall r, nth_error cells' r = target_of (pend it) cells r.
Proof.
  intros SUP ND H.
  destruct (compress_many_inv (target_of (pend it) cells) SUP it cells) as (it' & cells' & E & SF & L & D & I).
  - constructor.
    + exact ND.
    + intros j [].
    + intros [r a] Hp. destruct (H r a Hp) as (c & Hc & Hg). exists c. cbn [fst snd]. split; [auto|]. split; [auto|].
      unfold target_of. rewrite (find_ref _ _ _ ND Hp), Hc. reflexivity.
    + intros r Hr. unfold settled, target_of. rewrite find_ref_none; auto.
  - unfold pend. destruct (i_done it); [cbn; lia|].
    assert (LU : forall src : list (option (nat * A)), (length (upto_none src) <= length src)%nat).
    { induction src as [|[p|] src IH]; cbn; lia. }
    rewrite app_length. pose proof (LU (i_src it)). destruct (i_peeked it); cbn; lia.
  - exists it', cells'. split; [exact E|]. split; [exact D|]. destruct SF as [S1 S2].
    unfold total_calls in S1 at 1. unfold final_src in S2 at 1. rewrite D in S1, S2.
    split; [auto|]. split; [auto|]. split; [auto|]. intros r. apply (inv_rest _ _ _ _ I). intros [].
Qed.
End Proof.
