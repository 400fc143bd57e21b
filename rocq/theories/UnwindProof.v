(** Batches whose iterator panics: what the caller's objects are left as (C41). *)
From Coq Require Import ZArith Arith NArith List Bool Lia ZifyBool ZifyNat ZifyN.
From Verif Require Import Base ByteLemmas Guts KernelSpec Simd Transposed Impl Loops LaneLoops Sched SchedProof
  Lib StateProof ParamsProof FedProof Many ManyProof Machine Api ApiProof History Runs BatchProof Unwind Crashes.
From Verif Require Spec ApiSpec.
Import ListNotations.
Open Scope N_scope.

(** *** An iterator that ends: nothing new *)
Section Ends.
Context {C A : Type}.
Variable get : C -> list N.
Variable put : C -> list N -> C.
Variable prep : A -> C -> outcome (C * prepared).
Variables (v : variant) (e : env) (imp : platform) (fin : bool) (st : stride).

Definition ends (it : iter A) : Prop := i_done it = true \/ In None (i_src it).

Lemma upull_ends : forall src calls cells, In None src ->
  upull_src prep src calls cells = inside (pull_src prep src calls cells) /\
  forall it' cells' o, pull_src prep src calls cells = Ret (it', cells', o) -> ends it'.
Proof.
  induction src as [|[p|] src IH]; intros calls cells H; cbn [upull_src pull_src].
  - destruct H.
  - destruct H as [H|H]; [discriminate|]. destruct (start prep cells p) as [[cells' [j|]]| | |]; cbn [inside ubind bind]; try (split; [reflexivity|discriminate]).
    + split; [reflexivity|]. intros ? ? ? E. injection E as <- _ _. right. exact H.
    + apply IH, H.
  - split; [reflexivity|]. intros ? ? ? E. injection E as <- _ _. left. reflexivity.
Qed.

Lemma unext_ends it cells : ends it ->
  unext prep it cells = inside (next prep it cells) /\
  forall it' cells' o, next prep it cells = Ret (it', cells', o) -> ends it'.
Proof.
  intros H. unfold unext, next. destruct (i_done it) eqn:D.
  - split; [reflexivity|]. intros ? ? ? E. injection E as <- _ _. exact H.
  - destruct H as [H|H]; [congruence|]. destruct (i_peeked it) as [p|].
    + destruct (start prep cells p) as [[cells' [j|]]| | |]; cbn [inside ubind bind]; try (split; [reflexivity|discriminate]).
      * split; [reflexivity|]. intros ? ? ? E. injection E as <- _ _. right. exact H.
      * apply upull_ends, H.
    + apply upull_ends, H.
Qed.

Lemma ufill_ends : forall k it cells vec, ends it ->
  ufill prep v k it cells vec = inside (fill prep v k it cells vec) /\
  forall it' cells' vec', fill prep v k it cells vec = Ret (it', cells', vec') -> ends it'.
Proof.
  induction k as [|k IH]; intros it cells vec H; cbn [ufill fill].
  - split; [reflexivity|]. intros ? ? ? E. injection E as <- _ _. exact H.
  - destruct (unext_ends it cells H) as [E N]. rewrite E.
    destruct (next prep it cells) as [[[it' cells'] o]| | |]; cbn [inside ubind bind]; try (split; [reflexivity|discriminate]).
    specialize (N _ _ _ eq_refl). destruct o as [j|].
    + destruct (assert_ _) as [[]| | |]; cbn [inside ubind bind]; try (split; [reflexivity|discriminate]). apply IH, N.
    + split; [reflexivity|]. intros ? ? ? E'. injection E' as <- _ _. exact N.
Qed.

Lemma ubatch_ends loop n : forall fuel it cells vec, ends it ->
  ubatch_loop get put prep v e loop n fuel it cells vec = inside (batch_loop get put prep v e loop n fuel it cells vec) /\
  forall it' cells' vec', batch_loop get put prep v e loop n fuel it cells vec = Ret (it', cells', vec') -> ends it'.
Proof.
  induction fuel as [|fuel IH]; intros it cells vec H; cbn [ubatch_loop batch_loop]; [split; [reflexivity|discriminate]|].
  unfold fill_jobs_vec. destruct (ufill_ends (n - length vec) it cells vec H) as [E N]. rewrite E.
  destruct (fill prep v (n - length vec) it cells vec) as [[[it' cells'] vec']| | |]; cbn [inside ubind bind]; try (split; [reflexivity|discriminate]).
  specialize (N _ _ _ eq_refl). destruct (Nat.ltb (length vec') n).
  - split; [reflexivity|]. intros ? ? ? E'. injection E' as <- _ _. exact N.
  - destruct (run_jobs get put loop n cells' vec') as [[cells2 vec2]| | |]; cbn [inside ubind bind]; try (split; [reflexivity|discriminate]).
    destruct (evict_finished e vec2 n) as [vec3| | |]; cbn [inside ubind bind]; try (split; [reflexivity|discriminate]).
    apply IH, N.
Qed.

Lemma urun_ends : forall fuel it cells, ends it ->
  urun_rest get put prep v e imp fin st fuel it cells = inside (run_rest get put prep v e imp fin st fuel it cells).
Proof.
  induction fuel as [|fuel IH]; intros it cells H; cbn [urun_rest run_rest]; [reflexivity|].
  destruct (unext_ends it cells H) as [E N]. rewrite E.
  destruct (next prep it cells) as [[[it' cells'] o]| | |]; cbn [inside ubind bind]; try reflexivity.
  specialize (N _ _ _ eq_refl). destruct o as [j|]; [|reflexivity].
  destruct (run_one get put v e imp fin st cells' j) as [cells2| | |]; cbn [inside ubind bind]; try reflexivity.
  apply IH, N.
Qed.

Lemma ucompress_ends it cells : ends it ->
  ucompress_many get put prep v e imp fin st it cells = inside (compress_many get put prep v e imp fin st it cells).
Proof.
  intros H. unfold ucompress_many, compress_many. generalize (2 + length (i_src it))%nat. intros fuel. cbv zeta.
  assert (S1 : forall b : bool, let m := if b then batch_loop get put prep v e (fun js => compress_wide_loop v e imp js fin st) (wide v) fuel it cells [] else Ret (it, cells, []) in
    (if b then ubatch_loop get put prep v e (fun js => compress_wide_loop v e imp js fin st) (wide v) fuel it cells [] else Value (it, cells, [])) = inside m /\
    forall it' cells' vec', m = Ret (it', cells', vec') -> ends it').
  { intros [|]; cbv zeta; [apply ubatch_ends, H|]. split; [reflexivity|]. intros ? ? ? E. injection E as <- _ _. exact H. }
  destruct (S1 (Nat.leb (wide v) (degree v imp))) as [E1 N1]. rewrite E1. clear S1 E1.
  match type of N1 with forall _ _ _, ?m = _ -> _ => destruct m as [[[it1 cells1] vec1]| | |] end; cbn [inside ubind bind]; try reflexivity.
  specialize (N1 _ _ _ eq_refl).
  assert (S2 : forall b : bool, let m := if b then batch_loop get put prep v e (fun js => compress_narrow_loop v e imp js fin st) (narrow v) (fuel + length vec1) it1 cells1 vec1 else Ret (it1, cells1, vec1) in
    (if b then ubatch_loop get put prep v e (fun js => compress_narrow_loop v e imp js fin st) (narrow v) (fuel + length vec1) it1 cells1 vec1 else Value (it1, cells1, vec1)) = inside m /\
    forall it' cells' vec', m = Ret (it', cells', vec') -> ends it').
  { intros [|]; cbv zeta; [apply ubatch_ends, N1|]. split; [reflexivity|]. intros ? ? ? E. injection E as <- _ _. exact N1. }
  destruct (S2 (Nat.leb (narrow v) (degree v imp))) as [E2 N2]. rewrite E2. clear S2 E2.
  match type of N2 with forall _ _ _, ?m = _ -> _ => destruct m as [[[it2 cells2] vec2]| | |] end; cbn [inside ubind bind]; try reflexivity.
  specialize (N2 _ _ _ eq_refl).
  destruct (run_vec get put v e imp fin st cells2 vec2) as [cells3| | |]; cbn [inside ubind bind]; try reflexivity.
  apply urun_ends, N2.
Qed.
End Ends.

Lemma degree_wide v imp : (wide v <= degree v imp)%nat -> wide v = degree v imp.
Proof. destruct v, imp; cbn; lia. Qed.
Lemma degree_narrow v imp : (degree v imp < wide v)%nat -> (narrow v <= degree v imp)%nat -> narrow v = degree v imp.
Proof. destruct v, imp; cbn; lia. Qed.
Lemma wide_pos v : (0 < wide v)%nat.
Proof. destruct v; cbn; lia. Qed.
Lemma narrow_pos v : (0 < narrow v)%nat.
Proof. destruct v; cbn; lia. Qed.

(** *** An iterator that panics *)
Section Panics.
Context {C A : Type}.
Variable get : C -> list N.
Variable put : C -> list N -> C.
Variable prep : A -> C -> outcome (C * prepared).
Variables (v : variant) (e : env) (imp : platform) (fin : bool) (st : stride).
Hypothesis get_put : forall c w, get (put c w) = w.
Hypothesis put_put : forall c w w', put (put c w) w' = put c w'.
Variable tgt : nat -> option C.

Local Notation Inv := (Inv get put prep v fin st tgt).

Definition open (it : iter A) : Prop := i_done it = false /\ exists l, i_src it = map Some l.

(** *** What each step can touch *)
Definition makes_job (a : A) (c : C) : Prop := exists c' j, prep a c = Ret (c', Some j).

Lemma set_ne (cells : list C) i c j : i <> j -> nth_error (set cells i c) j = nth_error cells j.
Proof. apply nth_error_set_ne. Qed.

Lemma start_frame cells p cells' o : start prep cells p = Ret (cells', o) ->
  (forall r, r <> fst p -> nth_error cells' r = nth_error cells r) /\
  (forall j, o = Some j -> v_ref j = fst p /\ exists c c', nth_error cells (fst p) = Some c /\
     prep (snd p) c = Ret (c', Some (v_input j, v_count j, v_last_node j)) /\ nth_error cells' (fst p) = Some c').
Proof.
  destruct p as [r a]. unfold start, cell. destruct (nth_error cells r) as [c|] eqn:Ec; cbn [bind]; [|discriminate].
  destruct (prep a c) as [[c' [[[i n] ln]|]]| | |] eqn:E; cbn [bind]; intros H; try discriminate; injection H as <- <-; cbn [fst snd].
  - split; [intros q Hq; apply set_ne; congruence|]. intros j Ej. injection Ej as <-. cbn [v_ref].
    split; [reflexivity|]. exists c, c'. cbn [v_input v_count v_last_node]. split; [exact Ec|]. split; [exact E|].
    apply nth_error_set_eq. apply (nth_error_lt _ _ _ Ec).
  - split; [intros q Hq; apply set_ne; congruence|discriminate].
Qed.

Lemma store_frame : forall js cells cells' vs, store_jobs put cells js = Ret (cells', vs) ->
  map v_ref vs = map (fun p => v_ref (fst p)) js /\
  forall r, ~ In r (map (fun p => v_ref (fst p)) js) -> nth_error cells' r = nth_error cells r.
Proof.
  induction js as [|[j k] js IH]; intros cells cells' vs; cbn [store_jobs map fst].
  - intros H. injection H as <- <-. auto.
  - unfold store_words, cell. destruct (nth_error cells (v_ref j)) as [c|]; cbn [bind]; [|discriminate].
    destruct (store_jobs put _ js) as [[cells2 vs2]| | |] eqn:E; cbn [bind]; try discriminate.
    intros H. injection H as <- <-. destruct (IH _ _ _ E) as [A1 A2]. cbn [map v_ref]. split; [rewrite A1; reflexivity|].
    intros r Hr. rewrite A2 by (intros X; apply Hr; right; exact X). apply set_ne. intros X. apply Hr. left. exact X.
Qed.

Lemma run_jobs_frame loop n cells vec cells' vec' : run_jobs get put loop n cells vec = Ret (cells', vec') ->
  (forall r, In r (map v_ref vec') -> In r (map v_ref vec)) /\
  (forall r, ~ In r (map v_ref vec) -> nth_error cells' r = nth_error cells r).
Proof.
  unfold run_jobs, slice. cbn [Nat.leb andb]. destruct (Nat.leb n (length vec)); cbn [bind]; [|discriminate].
  rewrite Nat.sub_0_r. cbn [skipn].
  destruct (mapM (load_job get cells) (firstn n vec)) as [js| | |]; cbn [bind]; try discriminate.
  destruct (loop js) as [js'| | |]; cbn [bind]; try discriminate.
  destruct (store_jobs put cells (combine (firstn n vec) js')) as [[cells2 front]| | |] eqn:E; cbn [bind]; try discriminate.
  intros H. injection H as <- <-. destruct (store_frame _ _ _ _ E) as [A1 A2].
  assert (IN : forall r, In r (map (fun p : vjob * job => v_ref (fst p)) (combine (firstn n vec) js')) -> In r (map v_ref vec)).
  { intros r Hr. apply in_map_iff in Hr. destruct Hr as ([j k] & <- & Hr). apply in_combine_l in Hr. cbn [fst].
    apply in_map. rewrite <- (firstn_skipn n vec). apply in_or_app. left. exact Hr. }
  split.
  - intros r Hr. rewrite map_app in Hr. apply in_app_or in Hr. destruct Hr as [Hr|Hr].
    + apply IN. rewrite <- A1. exact Hr.
    + rewrite <- (firstn_skipn n vec), map_app. apply in_or_app. right. exact Hr.
  - intros r Hr. apply A2. intros X. apply Hr, IN, X.
Qed.

Lemma evict_frame : forall n vec vec', evict_finished e vec n = Ret vec' -> forall j, In j vec' -> In j vec.
Proof.
  induction n as [|n IH]; intros vec vec'; cbn [evict_finished].
  - intros H. injection H as <-. auto.
  - destruct (debug_assert _ _) as [[]| | |]; cbn [bind]; try discriminate. intros H j Hj. specialize (IH _ _ H j Hj).
    destruct (nth_error vec n) as [x|]; [|exact IH]. destruct (v_input x); [|exact IH].
    unfold pop_at in IH. apply in_app_or in IH. destruct IH as [X|X].
    + rewrite <- (firstn_skipn n vec). apply in_or_app. left. exact X.
    + rewrite <- (firstn_skipn (S n) vec). apply in_or_app. right. exact X.
Qed.

Lemma run_one_frame cells j cells' : run_one get put v e imp fin st cells j = Ret cells' ->
  forall r, r <> v_ref j -> nth_error cells' r = nth_error cells r.
Proof.
  unfold run_one, store_words, cell. destruct (nth_error cells (v_ref j)) as [c|]; cbn [bind]; [|discriminate].
  destruct (compress1_loop _ _ _ _ _ _ _ _ _) as [ws| | |]; cbn [bind]; try discriminate.
  intros H. injection H as <-. intros r Hr. apply set_ne. congruence.
Qed.

(** *** The invariant, and the objects whose jobs can be in flight *)
Variable Q : nat -> job -> Prop.
Hypothesis Q_step : forall r j j', Q r j -> advance v st fin j j' -> j_input j' <> [] -> Q r j'.
Record UInv (items : list (nat * A)) (vec : list vjob) (cells : list C) : Prop := {
  u_inv : Inv items vec cells;
  u_vec : forall j c, In j vec -> nth_error cells (v_ref j) = Some c -> Q (v_ref j) (as_job get j c);
  u_items : forall p c c' input count ln, In p items -> nth_error cells (fst p) = Some c ->
    prep (snd p) c = Ret (c', Some (input, count, ln)) ->
    Q (fst p) {| j_input := input; j_words := get c'; j_count := count; j_last_node := ln |} }.

Lemma start_open p items vec cells : UInv (p :: items) vec cells ->
  exists cells' o, start prep cells p = Ret (cells', o) /\ length cells' = length cells /\
    match o with None => UInv items vec cells' | Some j => UInv items (vec ++ [j]) cells' end.
Proof.
  intros [I V T]. destruct (start_spec get put prep v fin st tgt _ _ _ _ I) as (cells' & o & E & L & H).
  exists cells', o. split; [exact E|]. split; [exact L|]. destruct (start_frame _ _ _ _ E) as [F1 F2].
  pose proof (inv_nodup _ _ _ _ _ _ _ _ _ _ I) as ND. cbn [map] in ND. apply NoDup_remove_2 in ND.
  assert (T' : forall q c c' input count ln, In q items -> nth_error cells' (fst q) = Some c ->
    prep (snd q) c = Ret (c', Some (input, count, ln)) ->
    Q (fst q) {| j_input := input; j_words := get c'; j_count := count; j_last_node := ln |}).
  { intros q c c' input count ln Hq Hc. apply (T q c); [right; exact Hq|]. rewrite <- F1; [exact Hc|]. intros X. apply ND.
    apply in_or_app. right. rewrite <- X. apply in_map, Hq. }
  assert (V' : forall k c, In k vec -> nth_error cells' (v_ref k) = Some c -> Q (v_ref k) (as_job get k c)).
  { intros k c Hk Hc. apply V; [exact Hk|]. rewrite <- F1; [exact Hc|]. intros X. apply ND.
    apply in_or_app. left. rewrite <- X. apply in_map, Hk. }
  destruct o as [j|]; constructor; auto.
  intros k c Hk Hc. apply in_app_or in Hk. destruct Hk as [Hk|[<-|[]]]; [auto|].
  destruct (F2 _ eq_refl) as (R & c0 & c' & Hc0 & EP & Hc'). rewrite R in Hc |- *. rewrite Hc' in Hc. injection Hc as <-.
  apply (T p c0 c' _ _ _ (or_introl eq_refl) Hc0 EP).
Qed.

(** The objects at a panic with at most k jobs waiting. *)
Definition left_at (k len : nat) (cells : list C) : Prop :=
  exists vec, UInv [] vec cells /\ (length vec <= k)%nat /\ length cells = len.

Lemma upto_somes (l : list (nat * A)) : upto_none (map Some l) = l.
Proof. induction l as [|x l IH]; cbn; auto. rewrite IH. reflexivity. Qed.

Lemma upull_open : forall l calls vec cells n0,
  UInv l vec cells -> (length l <= n0)%nat ->
  (exists cells', upull_src prep (map Some l) calls cells = Unwound cells' /\ left_at (length vec) (length cells) cells') \/
  (exists it' cells' j, upull_src prep (map Some l) calls cells = Value (it', cells', Some j) /\ open it' /\
     length cells' = length cells /\ UInv (pend it') (vec ++ [j]) cells' /\ (S (length (pend it')) <= n0)%nat).
Proof.
  induction l as [|p l IH]; intros calls vec cells n0 I L; cbn [map upull_src].
  - left. eexists. split; [reflexivity|]. exists vec. auto.
  - destruct (start_open _ _ _ _ I) as (cells' & o & E & Lc & H). rewrite E. cbn [inside ubind].
    destruct o as [j|].
    + right. eexists _, _, _. split; [reflexivity|]. split; [split; [reflexivity|exists l; reflexivity]|]. split; [exact Lc|].
      assert (EP : forall n, pend {| i_peeked := None; i_src := map Some l; i_done := false; i_calls := n |} = l).
      { intros n. apply upto_somes. }
      rewrite EP. split; [exact H|]. cbn in L. lia.
    + rewrite <- Lc. apply IH; auto. cbn in L. lia.
Qed.

Lemma unext_open it vec cells : open it -> UInv (pend it) vec cells ->
  (exists cells', unext prep it cells = Unwound cells' /\ left_at (length vec) (length cells) cells') \/
  (exists it' cells' j, unext prep it cells = Value (it', cells', Some j) /\ open it' /\
     length cells' = length cells /\ UInv (pend it') (vec ++ [j]) cells' /\ (S (length (pend it')) <= length (pend it))%nat).
Proof.
  intros (D & l & S) I. unfold unext.
  assert (EP : pend it = match i_peeked it with Some p => [p] | None => [] end ++ l).
  { unfold pend. rewrite D, S, upto_somes. reflexivity. }
  rewrite EP in *. rewrite D, S. clear EP.
  destruct (i_peeked it) as [p|].
  - cbn [app] in I |- *. destruct (start_open _ _ _ _ I) as (cells' & o & E & Lc & H). rewrite E. cbn [inside ubind].
    destruct o as [j|].
    + right. eexists _, _, _. split; [reflexivity|]. split; [split; [reflexivity|exists l; reflexivity]|]. split; [exact Lc|].
      unfold pend. cbn [i_done i_peeked i_src app length]. rewrite upto_somes. split; [exact H|]. lia.
    + rewrite <- Lc. destruct (upull_open l (i_calls it) vec cells' (length (p :: l)) H) as [X|X]; [cbn; lia|left|right]; exact X.
  - cbn [app] in I |- *. apply (upull_open l (i_calls it) vec cells (length l) I). lia.
Qed.

Lemma ufill_open : forall k it cells vec, open it ->
  UInv (pend it) vec cells -> (length vec + k <= max_degree v true)%nat ->
  (exists cells', ufill prep v k it cells vec = Unwound cells' /\ (0 < k)%nat /\
     left_at (length vec + k - 1) (length cells) cells') \/
  (exists it' cells' vec', ufill prep v k it cells vec = Value (it', cells', vec') /\ open it' /\
     length cells' = length cells /\ UInv (pend it') vec' cells' /\
     length vec' = (length vec + k)%nat /\
     (length vec' + length (pend it') <= length vec + length (pend it))%nat).
Proof.
  induction k as [|k IH]; intros it cells vec O I L; cbn [ufill].
  - right. eexists _, _, _. split; [reflexivity|]. repeat (split; [auto|]). lia.
  - destruct (unext_open it vec cells O I) as [(cells' & E & LA)|(it' & cells' & j & E & O' & Lc & H1 & H2)]; rewrite E; cbn [ubind].
    + left. eexists. split; [reflexivity|]. split; [lia|]. destruct LA as (w & A1 & A2 & A3). exists w. split; [exact A1|]. split; [lia|exact A3].
    + destruct (Nat.ltb_spec (length vec) (max_degree v true)); [|lia]. cbn [assert_ inside ubind].
      destruct (IH it' cells' (vec ++ [j]) O' H1) as [(cells2 & E2 & K2 & LA)|(it2 & cells2 & vec2 & E2 & O2 & Lc2 & I2 & N2 & M2)].
      { rewrite app_length. cbn [length]. lia. }
      * left. eexists. split; [exact E2|]. split; [lia|]. rewrite app_length in LA. cbn [length] in LA.
        rewrite Lc in LA. replace (length vec + S k - 1)%nat with (length vec + 1 + k - 1)%nat by lia. exact LA.
      * right. rewrite app_length in N2, M2. cbn [length] in N2, M2. eexists _, _, _. split; [exact E2|]. split; [exact O2|].
        split; [lia|]. split; [exact I2|]. split; lia.
Qed.

(** Steps that touch only the objects of the jobs at hand. *)
Lemma uinv_step items vec cells vec' cells' : UInv items vec cells ->
  Inv items vec' cells' ->
  came_from get v fin st vec cells vec' cells' ->
  (forall r, ~ In r (map v_ref vec) -> nth_error cells' r = nth_error cells r) ->
  UInv items vec' cells'.
Proof.
  intros [I V T] I' R F. constructor; [exact I'| |].
  - intros j c Hj Hc. destruct (R j c Hj Hc) as (k & d & Hk & <- & Hd & [->|[AD NE]]); [auto|].
    apply (Q_step _ _ _ (V k d Hk Hd) AD). exact NE.
  - intros p c c' input count ln Hp Hc. apply (T p c c' input count ln Hp). rewrite <- F; [exact Hc|].
    pose proof (inv_nodup _ _ _ _ _ _ _ _ _ _ I) as ND. destruct (NoDup_app_inv _ _ ND) as (_ & _ & X).
    intros Y. apply (X _ Y). apply in_map, Hp.
Qed.

Lemma ubatch_open loop n : loop_ok v fin st loop n -> (0 < n <= max_degree v true)%nat ->
  forall fuel it cells vec, open it -> UInv (pend it) vec cells ->
  (length vec < n)%nat -> (length vec + length (pend it) < fuel)%nat ->
  exists cells', ubatch_loop get put prep v e loop n fuel it cells vec = Unwound cells' /\
    left_at (n - 1) (length cells) cells'.
Proof.
  intros LO Hn. induction fuel as [|fuel IH]; intros it cells vec O I Lv Lf; [lia|]. cbn [ubatch_loop].
  destruct (ufill_open (n - length vec) it cells vec O I) as [(cells' & E & K & LA)|(it' & cells' & vec' & E & O' & Lc & I' & N' & M')].
  { lia. }
  - rewrite E. cbn [ubind]. eexists. split; [reflexivity|].
    replace (length vec + (n - length vec) - 1)%nat with (n - 1)%nat in LA by lia. exact LA.
  - rewrite E. cbn [ubind]. destruct (Nat.ltb_spec (length vec') n) as [X|X]; [lia|].
    destruct (batch_pass get put prep v e fin st get_put put_put tgt loop n _ _ _ LO (u_inv _ _ _ I') X) as (cells2 & vec2 & vec3 & E2 & E3 & L2 & I2 & D2 & CF).
    rewrite E2. cbn [inside ubind]. rewrite E3. cbn [inside ubind].
    destruct (run_jobs_frame _ _ _ _ _ _ E2) as [R1 R2].
    assert (U2 : UInv (pend it') vec3 cells2).
    { exact (uinv_step _ _ _ _ _ I' I2 CF R2). }
    destruct (IH it' cells2 vec3 O' U2) as (cells4 & E4 & LA); [lia|lia|].
    exists cells4. split; [exact E4|]. rewrite L2, Lc in LA. exact LA.
Qed.

Hypothesis imp_supported : supported e imp.

Lemma urun_open : forall fuel it cells, open it -> UInv (pend it) [] cells -> (length (pend it) < fuel)%nat ->
  exists cells', urun_rest get put prep v e imp fin st fuel it cells = Unwound cells' /\
    left_at 0 (length cells) cells'.
Proof.
  induction fuel as [|fuel IH]; intros it cells O I L; [lia|]. cbn [urun_rest].
  destruct (unext_open it [] cells O I) as [(cells' & E & LA)|(it' & cells' & j & E & O' & Lc & H1 & H2)]; rewrite E; cbn [ubind].
  - eexists. split; [reflexivity|]. exact LA.
  - destruct (run_one_spec get put prep v e imp fin st tgt imp_supported _ [] j [] cells' (u_inv _ _ _ H1)) as (cells2 & E2 & L2 & I2).
    rewrite E2. cbn [inside ubind].
    assert (U2 : UInv (pend it') [] cells2).
    { apply (uinv_step _ _ _ _ _ H1 I2); [intros k c []|]. intros r Hr. apply (run_one_frame _ _ _ E2). intros X. apply Hr. left. auto. }
    destruct (IH it' cells2 O' U2) as (cells3 & E3 & LA); [lia|].
    exists cells3. split; [exact E3|]. rewrite L2, Lc in LA. exact LA.
Qed.

Lemma ucompress_open it cells : open it -> UInv (pend it) [] cells ->
  (length (pend it) <= 1 + length (i_src it))%nat ->
  exists cells', ucompress_many get put prep v e imp fin st it cells = Unwound cells' /\
    left_at (degree v imp - 1) (length cells) cells'.
Proof.
  intros O I L. unfold ucompress_many. cbv zeta.
  destruct (Nat.leb_spec (wide v) (degree v imp)) as [W|W].
  - destruct (wide_loop_ok v e imp fin st imp_supported W) as [LO Hm].
    destruct (ubatch_open _ _ LO (conj (wide_pos v) Hm) (2 + length (i_src it)) it cells [] O I) as (cells' & E & LA).
    { apply wide_pos. } { cbn [length]. lia. }
    rewrite E. cbn [ubind]. exists cells'. split; [reflexivity|].
    replace (degree v imp) with (wide v); [exact LA|]. apply degree_wide; exact W.
  - cbn [ubind]. destruct (Nat.leb_spec (narrow v) (degree v imp)) as [NW|NW].
    + destruct (narrow_loop_ok v e imp fin st imp_supported NW) as [LO Hm].
      destruct (ubatch_open _ _ LO (conj (narrow_pos v) Hm) (2 + length (i_src it) + length (@nil vjob)) it cells [] O I) as (cells' & E & LA).
      { apply narrow_pos. } { cbn [length]. lia. }
      rewrite E. cbn [ubind]. exists cells'. split; [reflexivity|].
      replace (degree v imp) with (narrow v); [exact LA|]. apply degree_narrow; assumption.
    + cbn [ubind run_vec inside].
      destruct (urun_open (2 + length (i_src it)) it cells O I ltac:(lia)) as (cells' & E & LA).
      rewrite E. exists cells'. split; [reflexivity|]. destruct LA as (w & A1 & A2 & A3). exists w. split; [exact A1|]. split; [lia|exact A3].
Qed.
End Panics.

(** *** Without invariants *)
(** The job of item [a] on object [c], some whole blocks (not all) later. *)
Definition halfway {C A} (get : C -> list N) (prep : A -> C -> outcome (C * prepared)) v st (a : A) (c : C) (j : job) : Prop :=
  exists c' input count ln m, prep a c = Ret (c', Some (input, count, ln)) /\
    steps v st m input (get c') count = (j_input j, j_words j, j_count j) /\
    (m = 0%nat \/ (m * padded_blockbytes v st < length input)%nat).
(** Its words are [w]. *)
Definition under_way {C A} (get : C -> list N) (prep : A -> C -> outcome (C * prepared)) v st (a : A) (c : C) (w : list N) : Prop :=
  exists c' input count ln m, prep a c = Ret (c', Some (input, count, ln)) /\
    snd (fst (steps v st m input (get c') count)) = w /\
    (m = 0%nat \/ (m * padded_blockbytes v st < length input)%nat).

Lemma steps_input v st m : forall input ws c, fst (fst (steps v st m input ws c)) = skipn (m * padded_blockbytes v st) input.
Proof.
  induction m as [|m IH]; intros input ws c; cbn [steps Nat.mul]; [reflexivity|].
  rewrite IH, skipn_skipn_add. reflexivity.
Qed.

Lemma halfway_advance {C A} (get : C -> list N) (prep : A -> C -> outcome (C * prepared)) v st fin a c j j' :
  halfway get prep v st a c j -> advance v st fin j j' -> j_input j' <> [] -> halfway get prep v st a c j'.
Proof.
  intros (c' & input & count & ln & m & E & S & L) (_ & _ & _ & _ & [[X _]|(_ & _ & _ & _ & k & K)]) NE; [congruence|].
  exists c', input, count, ln, (m + k)%nat. split; [exact E|].
  rewrite (steps_add _ _ _ _ _ _ _ _ _ _ S). split; [exact K|]. right.
  pose proof (steps_input v st (m + k) input (get c') count) as SI. rewrite (steps_add _ _ _ _ _ _ _ _ _ _ S), K in SI. cbn [fst] in SI.
  rewrite SI in NE. destruct (Nat.lt_ge_cases ((m + k) * padded_blockbytes v st) (length input)) as [|X]; [auto|].
  exfalso. apply NE, skipn_all2. lia.
Qed.

Theorem ucompress_spec {C A} (get : C -> list N) (put : C -> list N -> C) (prep : A -> C -> outcome (C * prepared))
    v e imp fin st r0 a0 (l : list (nat * A)) cells :
  (forall c w, get (put c w) = w) -> (forall c w w', put (put c w) w' = put c w') ->
  supported e imp ->
  NoDup (map fst ((r0, a0) :: l)) ->
  (forall r a, In (r, a) ((r0, a0) :: l) -> exists c, nth_error cells r = Some c /\ prep_good get prep v fin a c) ->
  exists cells' hurt,
    ucompress_many get put prep v e imp fin st
      {| i_peeked := Some (r0, a0); i_src := map Some l; i_done := false; i_calls := 1 |} cells = Unwound cells' /\
    length cells' = length cells /\ NoDup hurt /\ (length hurt < degree v imp)%nat /\
    (forall r, ~ In r hurt -> nth_error cells' r = target_of get put prep v fin st ((r0, a0) :: l) cells r) /\
    (forall r, In r hurt -> exists a c c' w, In (r, a) ((r0, a0) :: l) /\ nth_error cells r = Some c /\ makes_job prep a c /\
       nth_error cells' r = Some c' /\ words_ok v (get c') /\
       target_of get put prep v fin st ((r0, a0) :: l) cells r = Some (put c' w) /\
       under_way get prep v st a c (get c')).
Proof.
  intros GP PP SUP ND H. set (items := (r0, a0) :: l) in *.
  set (it := {| i_peeked := Some (r0, a0); i_src := map Some l; i_done := false; i_calls := 1 |}).
  assert (EP : pend it = items) by (unfold it, pend; cbn [i_done i_peeked i_src app]; rewrite upto_somes; reflexivity).
  set (Q := fun r j => exists a c, In (r, a) items /\ nth_error cells r = Some c /\ halfway get prep v st a c j).
  destruct (ucompress_open get put prep v e imp fin st GP PP (target_of get put prep v fin st items cells) Q) with (it := it) (cells := cells)
    as (cells' & E & vec & [I V _] & Lv & Lc).
  - intros r j j' (a & c & A1 & A2 & A3) AD NE. exists a, c. split; [exact A1|]. split; [exact A2|]. eapply halfway_advance; eauto.
  - exact SUP.
  - split; [reflexivity|]. exists l. reflexivity.
  - rewrite EP. constructor.
    + constructor.
      * exact ND.
      * intros j [].
      * intros [r a] Hp. destruct (H r a Hp) as (c & Hc & Hg). exists c. cbn [fst snd]. split; [auto|]. split; [auto|].
        unfold target_of. rewrite (find_ref _ _ _ ND Hp), Hc. reflexivity.
      * intros r Hr. unfold settled, target_of. rewrite find_ref_none; auto.
    + intros j c [].
    + intros [r a] c c' input count ln Hp Hc EPr. cbn [fst snd] in *. exists a, c. split; [exact Hp|]. split; [exact Hc|].
      exists c', input, count, ln, 0%nat. split; [exact EPr|]. split; [reflexivity|]. left. reflexivity.
  - rewrite EP. unfold it, items. cbn [i_src length]. rewrite map_length. lia.
  - exists cells', (map v_ref vec). split; [exact E|]. split; [exact Lc|].
    pose proof (inv_nodup _ _ _ _ _ _ _ _ _ _ I) as NV. cbn [map] in NV. rewrite app_nil_r in NV.
    split; [exact NV|]. split. { rewrite map_length. assert (0 < degree v imp)%nat by (destruct v, imp; cbn; lia). lia. }
    split.
    + intros r Hr. apply (inv_rest _ _ _ _ _ _ _ _ _ _ I). cbn [map]. rewrite app_nil_r. exact Hr.
    + intros r Hr. apply in_map_iff in Hr. destruct Hr as (j & <- & Hj).
      destruct (inv_live _ _ _ _ _ _ _ _ _ _ I j Hj) as (c' & B1 & B2 & B3).
      destruct (V j c' Hj B1) as (a & c & A1 & A2 & c1 & input & count & ln & m & A3 & A4 & A5).
      exists a, c, c', (job_result v st fin (as_job get j c')).
      split; [exact A1|]. split; [exact A2|]. split; [exists c1, (input, count, ln); exact A3|]. split; [exact B1|].
      split; [apply B2|]. split; [exact B3|]. exists c1, input, count, ln, m. split; [exact A3|]. split; [|exact A5].
      cbn [as_job j_input j_words j_count] in A4. rewrite A4. reflexivity.
Qed.

(** *** States that can be used, whatever words they hold *)
Record sane (v : variant) (e : env) (s : state) : Prop := {
  sn_sup : supported e (s_imp s);
  sn_words : words_ok v (s_words s);
  sn_count : aligned v (s_count s);
  sn_buf : length (s_buf s) = blockbytes v;
  sn_len : (s_buflen s <= blockbytes v)%nat;
  sn_out : s_hash_length s <= N.of_nat (outbytes v) }.

Lemma holds_sane v e c msg s : holds v e c msg s -> sane v e s.
Proof.
  intros [W SU (k & [A1 A2 A3 A4 A5 A6 A7] & NE) L H K]. constructor; auto.
  - rewrite A1. apply chain_ok, A7.
  - rewrite A2. apply aligned_blocks.
  - rewrite H. pose proof (wf_digest _ _ W) as WD. clear -WD. destruct WD as [_ WD]. destruct v; exact WD.
Qed.
Lemma live_sane v e s : live v e s -> sane v e s.
Proof. intros L. destruct (live_holds _ _ _ L) as (c & m & H). exact (holds_sane _ _ _ _ _ H). Qed.

Lemma aligned_blocks_add v c n : aligned v c -> aligned v (count_wrapping_add v c (N.of_nat (n * blockbytes v))).
Proof.
  intros A. induction n as [|n IH].
  - cbn [Nat.mul]. unfold count_wrapping_add. rewrite N.add_0_r, N.mod_small by apply A. exact A.
  - replace (N.of_nat (S n * blockbytes v)) with (N.of_nat (n * blockbytes v) + N.of_nat (blockbytes v)) by lia.
    rewrite <- cwa_assoc. apply aligned_add, IH.
Qed.

Lemma fill_sane v e s x : sane v e s ->
  let t := Nat.min (blockbytes v - s_buflen s) (length x) in
  exists s', fill_buf v e s x = Ret (s', skipn t x) /\ sane v e s' /\ s_buflen s' = (s_buflen s + t)%nat.
Proof.
  intros [A1 A2 A3 A4 A5 A6] t. unfold fill_buf. fold t. pose proof (bb_lt_256 v) as B.
  assert (Ht : (t <= length x /\ s_buflen s + t <= blockbytes v)%nat) by (unfold t; lia).
  clearbody t. rewrite slice0_ok by lia. cbn [bind].
  assert (Lt : length (firstn t x) = t) by (apply firstn_length_le; lia).
  rewrite copy_into_ok by lia. cbn [bind]. unfold add_small. rewrite as_u8_id by lia.
  destruct (Nat.ltb_spec (s_buflen s + t) 256); [|lia]. cbn [bind].
  rewrite slice_from_ok by lia. cbn [bind]. eexists. split; [reflexivity|]. split; [|reflexivity].
  constructor; stf; auto; [|lia]. rewrite !app_length, firstn_length, skipn_length. lia.
Qed.

Lemma cb_sane v e s x : sane v e s ->
  exists s' t, compress_buffer_if_possible v e s x = Ret (s', skipn t x) /\ (t <= length x)%nat /\ sane v e s' /\
    (skipn t x <> [] -> s_buflen s' = 0%nat).
Proof.
  intros A. unfold compress_buffer_if_possible. destruct (Nat.ltb_spec 0 (s_buflen s)) as [P|Z].
  - destruct (fill_sane v e s x A) as (s' & E & A' & L). cbv zeta in E, L.
    set (t := Nat.min (blockbytes v - s_buflen s) (length x)) in *. rewrite E. cbn [bind].
    destruct (skipn t x) as [|b r] eqn:R.
    + exists s', t. rewrite R. split; [reflexivity|]. split; [unfold t; lia|]. split; [exact A'|congruence].
    + destruct A' as [A1 A2 A3 A4 A5 A6]. rewrite compress1_loop_spec; auto.
      2: { apply (input_ok_full v _ 0). lia. }
      cbn [bind]. eexists _, t. rewrite R. split; [reflexivity|]. split; [unfold t; lia|]. split; [|reflexivity].
      constructor; stf; auto; [apply C1_ok, A2|apply aligned_add, A3|lia].
  - exists s, 0%nat. split; [reflexivity|]. split; [lia|]. split; [exact A|]. intros _. lia.
Qed.

Lemma update_sane v e s x : sane v e s -> exists s', update v e s x = Ret s' /\ sane v e s'.
Proof.
  intros A. unfold update. destruct (cb_sane v e s x A) as (s1 & t & E & Lt & A1 & _). rewrite E. cbn [bind]. clear E.
  set (y := skipn t x) in *. unfold sat_sub. destruct (last_start v (length y)) as (n & En & H1 & H2). cbv zeta in En, H1, H2.
  set (en := ((length y - 1) - (length y - 1) mod blockbytes v)%nat) in *. clearbody en.
  destruct (Nat.ltb_spec 0 en) as [Pos|Zero].
  - destruct n as [|n]; [lia|]. destruct A1 as [B1 B2 B3 B4 B5 B6]. rewrite slice0_ok by lia. cbn [bind].
    rewrite compress1_loop_spec; auto.
    2: { apply (input_ok_full v _ n). rewrite firstn_length. lia. }
    cbn [bind]. rewrite slice_from_ok by lia. cbn [bind].
    assert (A2 : sane v e (set_s_count (count_wrapping_add v (s_count s1) (N.of_nat en))
       (set_s_words (C1 v Serial false (s_last_node s1) (firstn en y) (s_words s1) (s_count s1)) s1))).
    { constructor; stf; auto; [apply C1_ok, B2|]. rewrite En. apply aligned_blocks_add, B3. }
    destruct (fill_sane v e _ (skipn en y) A2) as (s3 & E3 & A3 & _). stf. rewrite E3. cbn [bind]. eauto.
  - cbn [bind]. destruct (fill_sane v e s1 y A1) as (s3 & E3 & A3 & _). rewrite E3. cbn [bind]. eauto.
Qed.

Lemma finalize_sane v e s : sane v e s -> exists b, (do h <- finalize v e s; as_bytes h) = Ret b.
Proof.
  intros [A1 A2 A3 A4 A5 A6]. unfold finalize. rewrite slice0_ok by lia. cbn [bind].
  rewrite compress1_loop_spec; auto. 2: { left. reflexivity. }
  cbn [bind]. unfold as_bytes. cbn [h_bytes h_len]. rewrite slice0_ok; [eauto|].
  rewrite words_to_bytes_length by (apply C1_ok, A2). lia.
Qed.

Lemma do_op_sane v e s o : sane v e s -> sane v e (fst (do_op v e s o)) /\
  snd (do_op v e s o) <> Broken /\
  (o <> DoCount -> o <> DoShow -> snd (do_op v e s o) <> Panicked).
Proof.
  intros A.
  assert (CT : forall m : outcome N, m = count v e s -> m <> UB /\ m <> Diverge).
  { intros m ->. unfold count. destruct (s_is_keyed s); [|split; discriminate]. unfold count_sub.
    destruct (N.leb _ _); [split; discriminate|]. destruct (e_dbg e); split; discriminate. }
  destruct o; cbn [do_op].
  - destruct (update_sane v e s x A) as (s' & E & A'). rewrite E. (split; [assumption|split; [discriminate|intros; discriminate]]).
  - unfold write. destruct (update_sane v e s x A) as (s' & E & A'). rewrite E. cbn [bind seen]. (split; [assumption|split; [discriminate|intros; discriminate]]).
  - destruct x as [|b r].
    + change (write_all (write v e) s []) with (Ret s). (split; [assumption|split; [discriminate|intros; discriminate]]).
    + destruct (update_sane v e s (b :: r) A) as (s' & E & A').
      rewrite (write_all_once _ _ s'); [|congruence|unfold write; rewrite E; reflexivity]. (split; [assumption|split; [discriminate|intros; discriminate]]).
  - (split; [assumption|split; [discriminate|intros; discriminate]]).
  - cbn [fst snd]. split; [|split; [discriminate|intros; discriminate]]. destruct A; constructor; assumption.
  - destruct (finalize_sane v e s A) as (b & E). rewrite E. (split; [assumption|split; [discriminate|intros; discriminate]]).
  - destruct (CT _ eq_refl) as [C1' C2']. destruct (count v e s); cbn [seen fst snd]; (split; [assumption|split; [congruence|intros; congruence]]).
  - unfold state_debug. destruct (CT _ eq_refl) as [C1' C2']. destruct (count v e s); cbn [seen bind fst snd]; (split; [assumption|split; [congruence|intros; congruence]]).
Qed.

Lemma prep_sane v e s x : sane v e s ->
  prep_good s_words (update_prep v e) v false x s /\
  sane v e (done s_words (fun s ws => set_s_words ws s) (update_prep v e) v false Serial x s) /\
  (makes_job (update_prep v e) x s -> (blockbytes v < length x)%nat).
Proof.
  intros A. unfold prep_good, done, makes_job, update_prep.
  destruct (cb_sane v e s x A) as (s1 & t & E & Lt & A1 & Z). rewrite E. cbn [bind]. clear E.
  assert (Ly0 : (length (skipn t x) <= length x)%nat) by (rewrite skipn_length; lia).
  destruct (skipn t x) as [|b r] eqn:Y.
  - split; [exact I|]. split; [exact A1|]. intros (c' & j & E). discriminate.
  - specialize (Z ltac:(discriminate)). set (y := b :: r) in *.
    assert (Ly : (0 < length y)%nat) by (unfold y; cbn [length]; lia). clearbody y. clear Y.
    destruct (last_start v (length y)) as (n & En & H1 & H2). cbv zeta in En, H1, H2.
    set (en := ((length y - 1) - (length y - 1) mod blockbytes v)%nat) in *. clearbody en.
    pose proof (bb_lt_256 v) as B256. destruct A1 as [B1 B2 B3 B4 B5 B6].
    rewrite slice0_ok by lia. cbn [bind]. rewrite slice_from_ok by lia. cbn [bind].
    assert (Ll : length (skipn en y) = (length y - en)%nat) by apply skipn_length.
    rewrite copy_into_ok by lia. cbn [bind firstn app Nat.add]. rewrite as_u8_id by lia.
    assert (Lb : length (skipn en y ++ skipn (length (skipn en y)) (s_buf s1)) = blockbytes v).
    { rewrite app_length, !skipn_length. lia. }
    destruct (firstn en y) as [|b0 bs] eqn:FB.
    + split; [exact I|]. split; [|intros (c' & j & E); discriminate]. constructor; stf; auto. lia.
    + set (blocks := b0 :: bs) in *.
      assert (Lbl : length blocks = en) by (rewrite <- FB, firstn_length; lia).
      assert (0 < en)%nat by (rewrite <- Lbl; unfold blocks; cbn; lia).
      destruct n as [|n]; [lia|]. clearbody blocks. stf. split; [|split].
      * split; [exact B2|]. split; [exact B3|]. apply (input_ok_full v _ n). cbn [j_input]. lia.
      * constructor; stf; auto; [apply C1_ok, B2| |lia]. rewrite Lbl, En. apply aligned_blocks_add, B3.
      * intros _. lia.
Qed.

Lemma sane_set_words v e s w : words_ok v (s_words s) -> sane v e (set_s_words w s) -> sane v e s.
Proof. intros O [A1 A2 A3 A4 A5 A6]. constructor; auto. Qed.

(** *** update_many on such states *)
Lemma find_target {C A} (get : C -> list N) put (prep : A -> C -> outcome (C * prepared)) v fin st items cells r c' :
  target_of get put prep v fin st items cells r = Some c' ->
  exists c, nth_error cells r = Some c /\ (c' = c \/ exists a, In (r, a) items /\ c' = done get put prep v fin st a c).
Proof.
  unfold target_of. destruct (find (fun p => Nat.eqb (fst p) r) items) as [[q a]|] eqn:F.
  - pose proof (find_some _ _ F) as [I Q]. apply Nat.eqb_eq in Q. cbn [fst] in Q. subst q.
    destruct (nth_error cells r) as [c|]; cbn [option_map]; [|discriminate]. intros E. injection E as <-. eauto 6.
  - intros E. exists c'. auto.
Qed.

Lemma sane_at v e states r : Forall (sane v e) states -> (r < length states)%nat ->
  exists s, nth_error states r = Some s /\ sane v e s.
Proof.
  intros F L. destruct (nth_error states r) as [s|] eqn:E; [|apply nth_error_None in E; lia].
  exists s. split; [reflexivity|]. rewrite Forall_forall in F. apply F. eapply nth_error_In; eauto.
Qed.

Lemma target_sane v e states l r s' : Forall (sane v e) states ->
  update_result v e l states r = Some s' -> sane v e s'.
Proof.
  intros F T. destruct (find_target _ _ _ _ _ _ _ _ _ _ T) as (c & Hc & H).
  assert (SC : sane v e c) by (rewrite Forall_forall in F; apply F; eapply nth_error_In; eauto).
  destruct H as [->|(a & _ & ->)]; [exact SC|]. apply prep_sane, SC.
Qed.

Lemma Forall_nth_error {X} (P : X -> Prop) (l : list X) : (forall r x, nth_error l r = Some x -> P x) -> Forall P l.
Proof. intros H. apply Forall_forall. intros x Hx. destruct (In_nth_error _ _ Hx) as (r & E). eauto. Qed.

Lemma update_many_sane v e states l : Forall (sane v e) states -> exclusive (length states) l ->
  exists states', update_many v e states (map Some l) = Ret (states', S (length l)) /\
    length states' = length states /\
    (forall r, nth_error states' r = update_result v e l states r) /\ Forall (sane v e) states'.
Proof.
  intros F [ND RG].
  assert (G : exists states', update_many v e states (map Some l) = Ret (states', S (length l)) /\
    length states' = length states /\ (forall r, nth_error states' r = update_result v e l states r)).
  { unfold update_many. destruct l as [|[r0 x0] l]; cbn [map peek i_peeked].
    - exists states. split; [reflexivity|]. split; reflexivity.
    - destruct (sane_at v e states r0 F) as (s0 & Hs0 & S0). { apply (RG r0 x0). left. reflexivity. }
      unfold cell. rewrite Hs0. cbn [bind].
      set (it := {| i_peeked := Some (r0, x0); i_src := map Some l; i_done := false; i_calls := 1 |}).
      assert (EP : pend it = (r0, x0) :: l) by (unfold it, pend; cbn [i_done i_peeked i_src app]; rewrite upto_somes; reflexivity).
      destruct (compress_many_spec s_words (fun s ws => set_s_words ws s) (update_prep v e) v e (s_imp s0) false Serial
                ltac:(reflexivity) ltac:(reflexivity) it states)
        as (it' & states' & E & _ & Ec & _ & Len & T).
      + apply S0.
      + rewrite EP. exact ND.
      + rewrite EP. intros r x Hin. destruct (sane_at v e states r F (RG _ _ Hin)) as (s & Hs & HS). exists s. split; auto.
        eapply prep_sane; eauto.
      + rewrite E. cbn [bind]. exists states'. split; [rewrite Ec; unfold it, total_calls; cbn [i_done i_calls i_src]; rewrite upto_somes; reflexivity|].
        split; [exact Len|]. intros r. rewrite T, EP. reflexivity. }
  destruct G as (states' & E & Len & T). exists states'. repeat (split; [assumption|]).
  apply Forall_nth_error. intros r s H. rewrite T in H. eapply target_sane; eauto.
Qed.

Theorem update_unwound v e states l : Forall (sane v e) states -> exclusive (length states) l ->
  exists states' hurt,
    update_many_unwinding v e states (map Some l) = Unwound states' /\
    length states' = length states /\ NoDup hurt /\ (length hurt < lanes v s_imp states l)%nat /\
    (forall r, ~ In r hurt -> nth_error states' r = update_result v e l states r) /\
    (forall r, In r hurt -> exists x s' w, In (r, x) l /\ (blockbytes v < length x)%nat /\
       nth_error states' r = Some s' /\ update_result v e l states r = Some (set_s_words w s') /\
       exists s, nth_error states r = Some s /\ under_way s_words (update_prep v e) v Serial x s (s_words s')) /\
    Forall (sane v e) states'.
Proof.
  intros F [ND RG].
  assert (G : exists states' hurt,
    update_many_unwinding v e states (map Some l) = Unwound states' /\
    length states' = length states /\ NoDup hurt /\ (length hurt < lanes v s_imp states l)%nat /\
    (forall r, ~ In r hurt -> nth_error states' r = update_result v e l states r) /\
    (forall r, In r hurt -> exists x s s' w, In (r, x) l /\ nth_error states r = Some s /\ makes_job (update_prep v e) x s /\
       nth_error states' r = Some s' /\ words_ok v (s_words s') /\ update_result v e l states r = Some (set_s_words w s') /\
       under_way s_words (update_prep v e) v Serial x s (s_words s'))).
  { unfold update_many_unwinding. destruct l as [|[r0 x0] l]; cbn [map peek i_peeked].
    - exists states, []. split; [reflexivity|]. split; [reflexivity|]. split; [constructor|]. split; [cbn; lia|].
      split; [reflexivity|]. intros r [].
    - destruct (sane_at v e states r0 F) as (s0 & Hs0 & S0). { apply (RG r0 x0). left. reflexivity. }
      unfold cell. rewrite Hs0. cbn [inside ubind lanes]. rewrite Hs0.
      destruct (ucompress_spec s_words (fun s ws => set_s_words ws s) (update_prep v e) v e (s_imp s0) false Serial r0 x0 l states
                ltac:(reflexivity) ltac:(reflexivity) (sn_sup _ _ _ S0) ND) as (states' & hurt & E & G).
      + intros r x Hin. destruct (sane_at v e states r F (RG _ _ Hin)) as (s & Hs & HS). exists s. split; auto.
        eapply prep_sane; eauto.
      + rewrite E. cbn [ubind]. exists states', hurt. split; [reflexivity|]. exact G. }
  destruct G as (states' & hurt & E & Len & NDh & Lh & T & H). exists states', hurt.
  repeat (split; [assumption|]). split.
  - intros r Hr. destruct (H r Hr) as (x & s & s' & w & A1 & A2 & A3 & A4 & A5 & A6 & A7). exists x, s', w.
    split; [exact A1|]. split; [|split; [exact A4|]; split; [exact A6|]; exists s; auto].
    assert (HS : sane v e s) by (rewrite Forall_forall in F; apply F; eapply nth_error_In; eauto).
    apply (prep_sane v e s x HS). exact A3.
  - apply Forall_nth_error. intros r s Hs. destruct (in_dec Nat.eq_dec r hurt) as [Hr|Hr].
    + destruct (H r Hr) as (x & s0 & s' & w & A1 & A2 & A3 & A4 & A5 & A6 & _).
      rewrite A4 in Hs. injection Hs as <-. apply (sane_set_words v e s' w A5). eapply target_sane; eauto.
    + rewrite T in Hs by exact Hr. eapply target_sane; eauto.
Qed.

(** An iterator that ends: as without panics. *)
Lemma update_ending v e states pairs : In None pairs ->
  update_many_unwinding v e states pairs = inside (update_many v e states pairs).
Proof.
  intros H. unfold update_many_unwinding, update_many. destruct pairs as [|p r]; [destruct H|].
  destruct p as [[q x]|]; cbn [peek i_peeked].
  - destruct (cell states q) as [s| | |]; cbn [inside ubind bind]; try reflexivity.
    rewrite ucompress_ends.
    + destruct (compress_many _ _ _ _ _ _ _ _ _ _) as [[it' st']| | |]; reflexivity.
    + right. destruct H as [H|H]; [discriminate|exact H].
  - reflexivity.
Qed.
Lemma hash_ending v e jobs refs : In None refs ->
  hash_many_unwinding v e jobs refs = inside (hash_many v e jobs refs).
Proof.
  intros H. unfold hash_many_unwinding, hash_many. destruct refs as [|p r]; [destruct H|].
  destruct p as [[q x]|]; cbn [peek i_peeked].
  - destruct (cell jobs q) as [s| | |]; cbn [inside ubind bind]; try reflexivity.
    rewrite ucompress_ends.
    + destruct (compress_many _ _ _ _ _ _ _ _ _ _) as [[it' st']| | |]; reflexivity.
    + right. destruct H as [H|H]; [discriminate|exact H].
  - reflexivity.
Qed.

(** *** hash_many *)
Record sane_job (v : variant) (e : env) (j : hash_many_job) : Prop := {
  sj_sup : supported e (hj_imp j);
  sj_words : words_ok v (hj_words j);
  sj_count : aligned v (hj_count j) }.

Lemma holds_sane_job v e c msg j : pending v e c msg j \/ complete v e c msg j -> sane_job v e j.
Proof.
  intros [[W S O A L F I1 I2 I3 I4 R]|[W S L F I1 I2 I3 E]]; constructor; auto.
  - rewrite E. apply hash_words_ok, initial_state_ok.
  - rewrite I3. unfold key_bytes. destruct (keyed c).
    + replace (N.of_nat (blockbytes v)) with (N.of_nat (1 * blockbytes v) mod cmod v).
      * apply aligned_blocks.
      * rewrite Nat.mul_1_l. destruct v; reflexivity.
    + destruct v; split; reflexivity.
Qed.
Lemma live_job_sane v e j : live_job v e j -> sane_job v e j.
Proof. intros L. destruct (live_job_holds _ _ _ L) as (c & m & H). exact (holds_sane_job _ _ _ _ _ H). Qed.

Lemma hprep_sane v e j x : sane_job v e j ->
  prep_good hj_words hash_prep v true x j /\
  sane_job v e (done hj_words (fun j ws => set_hj_words ws j) hash_prep v true Serial x j) /\
  (makes_job hash_prep x j -> hj_finished j = false).
Proof.
  intros [A1 A2 A3]. unfold prep_good, done, makes_job, hash_prep. destruct (hj_finished j) eqn:F.
  - split; [exact I|]. split; [constructor; auto|]. intros (c' & k & E). discriminate.
  - cbn [set_hj_finished hj_input hj_count hj_last_node hj_words]. split; [|split].
    + split; [exact A2|]. split; [exact A3|]. left. reflexivity.
    + constructor; cbn [set_hj_words hj_imp hj_words hj_count]; auto. apply C1_ok, A2.
    + reflexivity.
Qed.

Lemma sane_job_at v e jobs r : Forall (sane_job v e) jobs -> (r < length jobs)%nat ->
  exists j, nth_error jobs r = Some j /\ sane_job v e j.
Proof.
  intros F L. destruct (nth_error jobs r) as [s|] eqn:E; [|apply nth_error_None in E; lia].
  exists s. split; [reflexivity|]. rewrite Forall_forall in F. apply F. eapply nth_error_In; eauto.
Qed.

Lemma target_sane_job v e jobs l r j' : Forall (sane_job v e) jobs ->
  hash_result v l jobs r = Some j' -> sane_job v e j'.
Proof.
  intros F T. destruct (find_target _ _ _ _ _ _ _ _ _ _ T) as (c & Hc & H).
  assert (SC : sane_job v e c) by (rewrite Forall_forall in F; apply F; eapply nth_error_In; eauto).
  destruct H as [->|(a & _ & ->)]; [exact SC|]. apply hprep_sane, SC.
Qed.

Lemma hash_many_sane v e jobs l : Forall (sane_job v e) jobs -> exclusive (length jobs) l ->
  exists jobs', hash_many v e jobs (map Some l) = Ret (jobs', S (length l)) /\
    length jobs' = length jobs /\
    (forall r, nth_error jobs' r = hash_result v l jobs r) /\ Forall (sane_job v e) jobs'.
Proof.
  intros F [ND RG].
  assert (G : exists jobs', hash_many v e jobs (map Some l) = Ret (jobs', S (length l)) /\
    length jobs' = length jobs /\ (forall r, nth_error jobs' r = hash_result v l jobs r)).
  { unfold hash_many. destruct l as [|[r0 x0] l]; cbn [map peek i_peeked].
    - exists jobs. split; [reflexivity|]. split; reflexivity.
    - destruct (sane_job_at v e jobs r0 F) as (s0 & Hs0 & S0). { apply (RG r0 x0). left. reflexivity. }
      unfold cell. rewrite Hs0. cbn [bind].
      set (it := {| i_peeked := Some (r0, x0); i_src := map Some l; i_done := false; i_calls := 1 |}).
      assert (EP : pend it = (r0, x0) :: l) by (unfold it, pend; cbn [i_done i_peeked i_src app]; rewrite upto_somes; reflexivity).
      destruct (compress_many_spec hj_words (fun s ws => set_hj_words ws s) hash_prep v e (hj_imp s0) true Serial
                ltac:(reflexivity) ltac:(reflexivity) it jobs)
        as (it' & jobs' & E & _ & Ec & _ & Len & T).
      + apply S0.
      + rewrite EP. exact ND.
      + rewrite EP. intros r x Hin. destruct (sane_job_at v e jobs r F (RG _ _ Hin)) as (s & Hs & HS). exists s. split; auto.
        apply (hprep_sane v e s x HS).
      + rewrite E. cbn [bind]. exists jobs'. split; [rewrite Ec; unfold it, total_calls; cbn [i_done i_calls i_src]; rewrite upto_somes; reflexivity|].
        split; [exact Len|]. intros r. rewrite T, EP. reflexivity. }
  destruct G as (jobs' & E & Len & T). exists jobs'. repeat (split; [assumption|]).
  apply Forall_nth_error. intros r s H. rewrite T in H. eapply target_sane_job; eauto.
Qed.

Theorem hash_unwound v e jobs l : Forall (sane_job v e) jobs -> exclusive (length jobs) l ->
  exists jobs' hurt,
    hash_many_unwinding v e jobs (map Some l) = Unwound jobs' /\
    length jobs' = length jobs /\ NoDup hurt /\ (length hurt < lanes v hj_imp jobs l)%nat /\
    (forall r, ~ In r hurt -> nth_error jobs' r = hash_result v l jobs r) /\
    (forall r, In r hurt -> exists x j j' w, In (r, x) l /\ nth_error jobs r = Some j /\ hj_finished j = false /\
       nth_error jobs' r = Some j' /\ hash_result v l jobs r = Some (set_hj_words w j') /\
       under_way hj_words hash_prep v Serial x j (hj_words j')) /\
    Forall (sane_job v e) jobs'.
Proof.
  intros F [ND RG].
  assert (G : exists jobs' hurt,
    hash_many_unwinding v e jobs (map Some l) = Unwound jobs' /\
    length jobs' = length jobs /\ NoDup hurt /\ (length hurt < lanes v hj_imp jobs l)%nat /\
    (forall r, ~ In r hurt -> nth_error jobs' r = hash_result v l jobs r) /\
    (forall r, In r hurt -> exists x s s' w, In (r, x) l /\ nth_error jobs r = Some s /\ makes_job hash_prep x s /\
       nth_error jobs' r = Some s' /\ words_ok v (hj_words s') /\ hash_result v l jobs r = Some (set_hj_words w s') /\
       under_way hj_words hash_prep v Serial x s (hj_words s'))).
  { unfold hash_many_unwinding. destruct l as [|[r0 x0] l]; cbn [map peek i_peeked].
    - exists jobs, []. split; [reflexivity|]. split; [reflexivity|]. split; [constructor|]. split; [cbn; lia|].
      split; [reflexivity|]. intros r [].
    - destruct (sane_job_at v e jobs r0 F) as (s0 & Hs0 & S0). { apply (RG r0 x0). left. reflexivity. }
      unfold cell. rewrite Hs0. cbn [inside ubind lanes]. rewrite Hs0.
      destruct (ucompress_spec hj_words (fun s ws => set_hj_words ws s) hash_prep v e (hj_imp s0) true Serial r0 x0 l jobs
                ltac:(reflexivity) ltac:(reflexivity) (sj_sup _ _ _ S0) ND) as (jobs' & hurt & E & G).
      + intros r x Hin. destruct (sane_job_at v e jobs r F (RG _ _ Hin)) as (s & Hs & HS). exists s. split; auto.
        apply (hprep_sane v e s x HS).
      + rewrite E. cbn [ubind]. exists jobs', hurt. split; [reflexivity|]. exact G. }
  destruct G as (jobs' & hurt & E & Len & NDh & Lh & T & H). exists jobs', hurt.
  repeat (split; [assumption|]). split.
  - intros r Hr. destruct (H r Hr) as (x & s & s' & w & A1 & A2 & A3 & A4 & A5 & A6 & A7). exists x, s, s', w.
    split; [exact A1|]. split; [exact A2|]. split; [|auto].
    assert (HS : sane_job v e s) by (rewrite Forall_forall in F; apply F; eapply nth_error_In; eauto).
    apply (hprep_sane v e s x HS). exact A3.
  - apply Forall_nth_error. intros r s Hs. destruct (in_dec Nat.eq_dec r hurt) as [Hr|Hr].
    + destruct (H r Hr) as (x & s0 & s' & w & A1 & A2 & A3 & A4 & A5 & A6 & _).
      rewrite A4 in Hs. injection Hs as <-. destruct (target_sane_job v e jobs l r _ F A6) as [B1 B2 B3]. constructor; auto.
    + rewrite T in Hs by exact Hr. eapply target_sane_job; eauto.
Qed.

(** *** Every object a program can be left with *)
Lemma until_ends {A} (l : list (nat * A)) : upto_none (ends_after l) = l.
Proof. unfold ends_after. apply upto_none_end. Qed.
Lemma ends_has_none {A} (l : list (nat * A)) : In None (ends_after l).
Proof. unfold ends_after. apply in_or_app. right. left. reflexivity. Qed.

Lemma update_many_upto v e states l src0 : Forall (sane v e) states -> exclusive (length states) l -> upto_none src0 = l ->
  exists states', update_many v e states src0 = Ret (states', S (length l)) /\
    update_many v e states (map Some l) = Ret (states', S (length l)) /\ Forall (sane v e) states'.
Proof.
  intros F [ND RG] HS0. destruct (update_many_sane v e states l F (conj ND RG)) as (st' & E & L & T & Sn).
  exists st'. split; [|split; assumption]. rewrite <- E.
  (* both runs give the same results *)
  unfold update_many in *. destruct l as [|[r0 x0] l].
  { destruct src0 as [|[p|] src0]; [reflexivity|discriminate|reflexivity]. }
  destruct src0 as [|[p|] src0]; try discriminate. cbn [upto_none] in HS0. injection HS0 as -> HS0. cbn [map peek i_peeked] in *.
  destruct (sane_at v e states r0 F) as (s0 & Hs0 & S0). { apply (RG r0 x0). left. reflexivity. }
  unfold cell in *. rewrite Hs0 in *. cbn [bind] in *.
  assert (G : forall src, upto_none src = l -> exists states2, 
    (do '(it, states3) <- compress_many s_words (fun s ws => set_s_words ws s) (update_prep v e) v e (s_imp s0) false Serial
      {| i_peeked := Some (r0, x0); i_src := src; i_done := false; i_calls := 1 |} states; Ret (states3, i_calls it)) = Ret (states2, S (S (length l))) /\
    forall r, nth_error states2 r = update_result v e ((r0, x0) :: l) states r).
  { intros src Hsrc. set (it := {| i_peeked := _; i_src := src; i_done := false; i_calls := 1 |}).
    assert (EP : pend it = (r0, x0) :: l) by (unfold it, pend; cbn [i_done i_peeked i_src app]; rewrite Hsrc; reflexivity).
    destruct (compress_many_spec s_words (fun s ws => set_s_words ws s) (update_prep v e) v e (s_imp s0) false Serial
                ltac:(reflexivity) ltac:(reflexivity) it states)
        as (it' & states' & E' & _ & Ec & _ & Len & T').
    + apply S0.
    + rewrite EP. exact ND.
    + rewrite EP. intros r x Hin. destruct (sane_at v e states r F (RG _ _ Hin)) as (s & Hs & HS). exists s. split; auto.
      eapply prep_sane; eauto.
    + rewrite E'. cbn [bind]. exists states'. split; [rewrite Ec; unfold it, total_calls; cbn [i_done i_calls i_src]; rewrite Hsrc; reflexivity|].
      intros r. rewrite T', EP. reflexivity. }
  destruct (G src0 HS0) as (s1 & E1 & T1).
  destruct (G (map Some l) (upto_none_somes l)) as (s2 & E2 & T2).
  rewrite E1, E2. repeat f_equal. apply nth_error_ext. intros r. rewrite T1, T2. reflexivity.
Qed.

Lemma hash_many_upto v e jobs l src0 : Forall (sane_job v e) jobs -> exclusive (length jobs) l -> upto_none src0 = l ->
  exists jobs', hash_many v e jobs src0 = Ret (jobs', S (length l)) /\
    hash_many v e jobs (map Some l) = Ret (jobs', S (length l)) /\ Forall (sane_job v e) jobs'.
Proof.
  intros F [ND RG] HS0. destruct (hash_many_sane v e jobs l F (conj ND RG)) as (st' & E & L & T & Sn).
  exists st'. split; [|split; assumption]. rewrite <- E.
  unfold hash_many in *. destruct l as [|[r0 x0] l].
  { destruct src0 as [|[p|] src0]; [reflexivity|discriminate|reflexivity]. }
  destruct src0 as [|[p|] src0]; try discriminate. cbn [upto_none] in HS0. injection HS0 as -> HS0. cbn [map peek i_peeked] in *.
  destruct (sane_job_at v e jobs r0 F) as (s0 & Hs0 & S0). { apply (RG r0 x0). left. reflexivity. }
  unfold cell in *. rewrite Hs0 in *. cbn [bind] in *.
  assert (G : forall src, upto_none src = l -> exists jobs2, 
    (do '(it, jobs3) <- compress_many hj_words (fun s ws => set_hj_words ws s) hash_prep v e (hj_imp s0) true Serial
      {| i_peeked := Some (r0, x0); i_src := src; i_done := false; i_calls := 1 |} jobs; Ret (jobs3, i_calls it)) = Ret (jobs2, S (S (length l))) /\
    forall r, nth_error jobs2 r = hash_result v ((r0, x0) :: l) jobs r).
  { intros src Hsrc. set (it := {| i_peeked := _; i_src := src; i_done := false; i_calls := 1 |}).
    assert (EP : pend it = (r0, x0) :: l) by (unfold it, pend; cbn [i_done i_peeked i_src app]; rewrite Hsrc; reflexivity).
    destruct (compress_many_spec hj_words (fun s ws => set_hj_words ws s) hash_prep v e (hj_imp s0) true Serial
                ltac:(reflexivity) ltac:(reflexivity) it jobs)
        as (it' & jobs' & E' & _ & Ec & _ & Len & T').
    + apply S0.
    + rewrite EP. exact ND.
    + rewrite EP. intros r x Hin. destruct (sane_job_at v e jobs r F (RG _ _ Hin)) as (s & Hs & HS). exists s. split; auto.
      apply (hprep_sane v e s x HS).
    + rewrite E'. cbn [bind]. exists jobs'. split; [rewrite Ec; unfold it, total_calls; cbn [i_done i_calls i_src]; rewrite Hsrc; reflexivity|].
      intros r. rewrite T', EP. reflexivity. }
  destruct (G src0 HS0) as (s1 & E1 & T1).
  destruct (G (map Some l) (upto_none_somes l)) as (s2 & E2 & T2).
  rewrite E1, E2. repeat f_equal. apply nth_error_ext. intros r. rewrite T1, T2. reflexivity.
Qed.

Lemma update_many_ends v e states l : Forall (sane v e) states -> exclusive (length states) l ->
  exists states', update_many v e states (ends_after l) = Ret (states', S (length l)) /\
    update_many v e states (map Some l) = Ret (states', S (length l)) /\ Forall (sane v e) states'.
Proof. intros F X. apply update_many_upto; auto. apply until_ends. Qed.
Lemma hash_many_ends v e jobs l : Forall (sane_job v e) jobs -> exclusive (length jobs) l ->
  exists jobs', hash_many v e jobs (ends_after l) = Ret (jobs', S (length l)) /\
    hash_many v e jobs (map Some l) = Ret (jobs', S (length l)) /\ Forall (sane_job v e) jobs'.
Proof. intros F X. apply hash_many_upto; auto. apply until_ends. Qed.

Section HandledInd.
Variables (v : variant) (e : env) (P : state -> Prop).
Hypothesis Hnew : forall imp ss, supported e imp -> Forall ApiSpec.typed ss -> P (to_state v (build v imp ss)).
Hypothesis Hop : forall s o, P s -> P (fst (do_op v e s o)).
Hypothesis Hmany : forall states l states' n i s,
  Forall P states -> exclusive (length states) l ->
  update_many_unwinding v e states (ends_after l) = Value (states', n) -> nth_error states' i = Some s -> P s.
Hypothesis Hpanic : forall states l states' i s,
  Forall P states -> exclusive (length states) l ->
  update_many_unwinding v e states (panics_after l) = Unwound states' -> nth_error states' i = Some s -> P s.
Fixpoint handled_rect' s (L : handled v e s) {struct L} : P s :=
  let all := (fix all l (F : Forall (handled v e) l) {struct F} : Forall P l :=
           match F in Forall _ l return Forall P l with
           | Forall_nil _ => Forall_nil P
           | @Forall_cons _ _ x l L F => @Forall_cons _ P x l (handled_rect' x L) (all l F)
           end) in
  match L in handled _ _ s return P s with
  | handled_new _ _ imp ss SU TY => Hnew imp ss SU TY
  | handled_op _ _ s o L => Hop s o (handled_rect' s L)
  | handled_many _ _ states l states' n i s F X E NE => Hmany states l states' n i s (all states F) X E NE
  | handled_panic _ _ states l states' i s F X E NE => Hpanic states l states' i s (all states F) X E NE
  end.
End HandledInd.

Section HandledJobInd.
Variables (v : variant) (e : env) (P : hash_many_job -> Prop).
Hypothesis Hnew : forall r j, askable e r -> make_job v e r = Ret j -> P j.
Hypothesis Hmany : forall jobs l jobs' n i j,
  Forall P jobs -> exclusive (length jobs) l ->
  hash_many_unwinding v e jobs (ends_after l) = Value (jobs', n) -> nth_error jobs' i = Some j -> P j.
Hypothesis Hpanic : forall jobs l jobs' i j,
  Forall P jobs -> exclusive (length jobs) l ->
  hash_many_unwinding v e jobs (panics_after l) = Unwound jobs' -> nth_error jobs' i = Some j -> P j.
Fixpoint handled_job_rect' s (L : handled_job v e s) {struct L} : P s :=
  let all := (fix all l (F : Forall (handled_job v e) l) {struct F} : Forall P l :=
           match F in Forall _ l return Forall P l with
           | Forall_nil _ => Forall_nil P
           | @Forall_cons _ _ x l L F => @Forall_cons _ P x l (handled_job_rect' x L) (all l F)
           end) in
  match L in handled_job _ _ s return P s with
  | handled_job_new _ _ r j A E => Hnew r j A E
  | handled_job_many _ _ jobs l jobs' n i j F X E NE => Hmany jobs l jobs' n i j (all jobs F) X E NE
  | handled_job_panic _ _ jobs l jobs' i j F X E NE => Hpanic jobs l jobs' i j (all jobs F) X E NE
  end.
End HandledJobInd.

Lemma handled_sane v e s : handled v e s -> sane v e s.
Proof.
  apply handled_rect'.
  - intros imp ss S T. apply live_sane, live_new; auto.
  - intros s0 o A. apply do_op_sane, A.
  - intros states l states' n i s0 F X E NE. rewrite update_ending in E by apply ends_has_none.
    destruct (update_many_ends v e states l F X) as (st2 & E2 & _ & F2). rewrite E2 in E. cbn [inside] in E. injection E as <- _.
    rewrite Forall_forall in F2. apply F2. eapply nth_error_In; eauto.
  - intros states l states' i s0 F X E NE. unfold panics_after in E.
    destruct (update_unwound v e states l F X) as (st2 & h & E2 & _ & _ & _ & _ & _ & F2). rewrite E2 in E. injection E as <-.
    rewrite Forall_forall in F2. apply F2. eapply nth_error_In; eauto.
Qed.

Lemma handled_job_sane v e j : handled_job v e j -> sane_job v e j.
Proof.
  apply handled_job_rect'.
  - intros r j0 A E. apply live_job_sane. eapply live_job_new; eauto.
  - intros states l states' n i s0 F X E NE. rewrite hash_ending in E by apply ends_has_none.
    destruct (hash_many_ends v e states l F X) as (st2 & E2 & _ & F2). rewrite E2 in E. cbn [inside] in E. injection E as <- _.
    rewrite Forall_forall in F2. apply F2. eapply nth_error_In; eauto.
  - intros states l states' i s0 F X E NE. unfold panics_after in E.
    destruct (hash_unwound v e states l F X) as (st2 & h & E2 & _ & _ & _ & _ & _ & F2). rewrite E2 in E. injection E as <-.
    rewrite Forall_forall in F2. apply F2. eapply nth_error_In; eauto.
Qed.

Lemma Forall_and2 {X} (P Q : X -> Prop) l : Forall (fun x => P x /\ Q x) l -> Forall P l /\ Forall Q l.
Proof. induction 1 as [|x l [H1 H2] _ [IH1 IH2]]; split; constructor; auto. Qed.

Lemma live_handled v e s : live v e s -> handled v e s.
Proof.
  apply live_rect'.
  - intros. apply handled_new; auto.
  - intros s0 o H. apply handled_op, H.
  - intros states pairs states' n i s0 F ND RG E NE. rewrite until_upto in *.
    set (l := upto_none pairs) in *. assert (X : exclusive (length states) l) by (split; auto).
    assert (FS : Forall (sane v e) states) by (eapply Forall_impl; [|exact F]; intros; apply handled_sane; auto).
    destruct (update_many_upto v e states l pairs FS X eq_refl) as (st1 & E1 & E2 & _).
    destruct (update_many_ends v e states l FS X) as (st3 & E3 & E4 & _).
    rewrite E in E1. injection E1 as <- ->. rewrite E2 in E4. injection E4 as <-.
    apply (handled_many v e states l states' (S (length l)) i s0 F X); auto.
    rewrite update_ending by apply ends_has_none. rewrite E3. reflexivity.
Qed.
Lemma live_handled_job v e j : live_job v e j -> handled_job v e j.
Proof.
  apply live_job_rect'.
  - intros. eapply handled_job_new; eauto.
  - intros states pairs states' n i s0 F ND RG E NE. rewrite until_upto in *.
    set (l := upto_none pairs) in *. assert (X : exclusive (length states) l) by (split; auto).
    assert (FS : Forall (sane_job v e) states) by (eapply Forall_impl; [|exact F]; intros; apply handled_job_sane; auto).
    destruct (hash_many_upto v e states l pairs FS X eq_refl) as (st1 & E1 & E2 & _).
    destruct (hash_many_ends v e states l FS X) as (st3 & E3 & E4 & _).
    rewrite E in E1. injection E1 as <- ->. rewrite E2 in E4. injection E4 as <-.
    apply (handled_job_many v e states l states' (S (length l)) i s0 F X); auto.
    rewrite hash_ending by apply ends_has_none. rewrite E3. reflexivity.
Qed.

(** *** The statements of the property file *)
Theorem update_interrupted v e states l : Forall (handled v e) states -> exclusive (length states) l ->
  exists finished left hurt,
    update_many v e states (ends_after l) = Ret (finished, S (length l)) /\
    update_many_unwinding v e states (panics_after l) = Unwound left /\
    length left = length states /\ (length hurt < lanes v s_imp states l)%nat /\
    (forall i, ~ In i hurt -> nth_error left i = nth_error finished i) /\
    (forall i, ~ In i (map fst l) -> nth_error left i = nth_error states i) /\
    (forall i, In i hurt -> exists x s s', In (i, x) l /\ (blockbytes v < length x)%nat /\
       nth_error left i = Some s /\ nth_error finished i = Some s' /\ set_s_words (s_words s') s = s').
Proof.
  intros F X. assert (FS : Forall (sane v e) states) by (eapply Forall_impl; [|exact F]; intros; apply handled_sane; auto).
  destruct (update_many_ends v e states l FS X) as (fi & E1 & E2 & _).
  destruct (update_many_sane v e states l FS X) as (fi' & E2' & _ & T & _). rewrite E2 in E2'. injection E2' as <-.
  destruct (update_unwound v e states l FS X) as (le & hurt & E3 & L3 & N3 & K3 & T3 & H3 & _).
  exists fi, le, hurt. repeat (split; [assumption|]).
  assert (IN : forall i, In i hurt -> In i (map fst l)).
  { intros i Hi. destruct (H3 i Hi) as (x & _ & _ & I & _). apply (in_map fst) in I. exact I. }
  split; [|split].
  - intros i Hi. rewrite T, T3 by auto. reflexivity.
  - intros i Hi. rewrite T3 by auto. unfold update_result, target_of. rewrite find_ref_none by auto. reflexivity.
  - intros i Hi. destruct (H3 i Hi) as (x & s & w & A1 & A2 & A3 & A4 & _). exists x, s, (set_s_words w s).
    split; [exact A1|]. split; [exact A2|]. split; [exact A3|]. split; [rewrite T; exact A4|reflexivity].
Qed.

Theorem hash_interrupted v e jobs l : Forall (handled_job v e) jobs -> exclusive (length jobs) l ->
  exists finished left hurt,
    hash_many v e jobs (ends_after l) = Ret (finished, S (length l)) /\
    hash_many_unwinding v e jobs (panics_after l) = Unwound left /\
    length left = length jobs /\ (length hurt < lanes v hj_imp jobs l)%nat /\
    (forall i, ~ In i hurt -> nth_error left i = nth_error finished i) /\
    (forall i, ~ In i (map fst l) -> nth_error left i = nth_error jobs i) /\
    (forall i, In i hurt -> exists j0 j j', In i (map fst l) /\
       nth_error jobs i = Some j0 /\ hj_finished j0 = false /\
       nth_error left i = Some j /\ nth_error finished i = Some j' /\ set_hj_words (hj_words j') j = j' /\
       exists h, to_hash v e j = Ret h).
Proof.
  intros F X. assert (FS : Forall (sane_job v e) jobs) by (eapply Forall_impl; [|exact F]; intros; apply handled_job_sane; auto).
  destruct (hash_many_ends v e jobs l FS X) as (fi & E1 & E2 & _).
  destruct (hash_many_sane v e jobs l FS X) as (fi' & E2' & _ & T & _). rewrite E2 in E2'. injection E2' as <-.
  destruct (hash_unwound v e jobs l FS X) as (le & hurt & E3 & L3 & N3 & K3 & T3 & H3 & _).
  exists fi, le, hurt. repeat (split; [assumption|]).
  assert (IN : forall i, In i hurt -> In i (map fst l)).
  { intros i Hi. destruct (H3 i Hi) as (x & _ & _ & _ & I & _). apply (in_map fst) in I. exact I. }
  split; [|split].
  - intros i Hi. rewrite T, T3 by auto. reflexivity.
  - intros i Hi. rewrite T3 by auto. unfold hash_result, target_of. rewrite find_ref_none by auto. reflexivity.
  - intros i Hi. destruct (H3 i Hi) as (x & s & s' & w & A1 & A2 & A3 & A4 & A5 & _). exists s, s', (set_hj_words w s').
    split; [auto|]. split; [exact A2|]. split; [exact A3|]. split; [exact A4|]. split; [rewrite T; exact A5|]. split; [reflexivity|].
    assert (FN : hj_finished s' = true).
    { unfold hash_result, target_of in A5. rewrite (find_ref _ _ _ (proj1 X) A1), A2 in A5. cbn [option_map] in A5.
      unfold done, hash_prep in A5. rewrite A3 in A5. apply (f_equal (option_map hj_finished)) in A5. cbn in A5. congruence. }
    unfold to_hash. rewrite FN. unfold debug_assert. destruct (e_dbg e); cbn [assert_ bind]; eauto.
Qed.

(** ** While a batch is under way *)
Lemma target_prefix {C A} (get : C -> list N) put (prep : A -> C -> outcome (C * prepared)) v fin st l rest cells r :
  In r (map fst l) -> target_of get put prep v fin st (l ++ rest) cells r = target_of get put prep v fin st l cells r.
Proof.
  intros H. unfold target_of. assert (E : find (fun p => Nat.eqb (fst p) r) (l ++ rest) = find (fun p => Nat.eqb (fst p) r) l); [|rewrite E; reflexivity].
  induction l as [|[r' a] l IH]; [destruct H|]. cbn [app find fst]. destruct (Nat.eqb_spec r' r); [reflexivity|].
  apply IH. destruct H as [H|H]; [contradiction|exact H].
Qed.
Lemma exclusive_prefix {A} n (l rest : list (nat * A)) : exclusive n (l ++ rest) -> exclusive n l.
Proof.
  intros [ND RG]. split; [|intros r x H; apply (RG r x); apply in_or_app; auto].
  rewrite map_app in ND. revert ND. generalize (map fst l) as a, (map fst rest) as b. induction a as [|y a IH]; intros b ND; [constructor|].
  inversion ND; subst. constructor; [intros H; apply H1, in_or_app; auto|eapply IH; eassumption].
Qed.

Theorem update_streams v e states l rest : Forall (handled v e) states -> exclusive (length states) (l ++ rest) ->
  exists final now hurt,
    update_many v e states (ends_after (l ++ rest)) = Ret (final, S (length (l ++ rest))) /\
    update_many_unwinding v e states (panics_after l) = Unwound now /\
    (length hurt < lanes v s_imp states l)%nat /\
    (forall i, In i (map fst l) -> ~ In i hurt -> nth_error now i = nth_error final i) /\
    (forall i, ~ In i (map fst l) -> nth_error now i = nth_error states i).
Proof.
  intros F X. assert (FS : Forall (sane v e) states) by (eapply Forall_impl; [|exact F]; intros; apply handled_sane; auto).
  destruct (update_many_ends v e states _ FS X) as (fi & E1 & E2 & _).
  destruct (update_many_sane v e states _ FS X) as (fi' & E2' & _ & T & _). rewrite E2 in E2'. injection E2' as <-.
  pose proof (exclusive_prefix _ _ _ X) as X'.
  destruct (update_unwound v e states l FS X') as (le & hurt & E3 & L3 & N3 & K3 & T3 & H3 & _).
  exists fi, le, hurt. split; [exact E1|]. split; [exact E3|]. split; [exact K3|]. split.
  - intros i Hi Hn. rewrite T3, T by auto. unfold update_result. rewrite target_prefix by auto. reflexivity.
  - intros i Hi. rewrite T3.
    + unfold update_result, target_of. rewrite find_ref_none by auto. reflexivity.
    + intros Hh. destruct (H3 i Hh) as (x & _ & _ & I & _). apply (in_map fst) in I. auto.
Qed.

Theorem hash_streams v e jobs l rest : Forall (handled_job v e) jobs -> exclusive (length jobs) (l ++ rest) ->
  exists final now hurt,
    hash_many v e jobs (ends_after (l ++ rest)) = Ret (final, S (length (l ++ rest))) /\
    hash_many_unwinding v e jobs (panics_after l) = Unwound now /\
    (length hurt < lanes v hj_imp jobs l)%nat /\
    (forall i, In i (map fst l) -> ~ In i hurt -> nth_error now i = nth_error final i) /\
    (forall i, ~ In i (map fst l) -> nth_error now i = nth_error jobs i).
Proof.
  intros F X. assert (FS : Forall (sane_job v e) jobs) by (eapply Forall_impl; [|exact F]; intros; apply handled_job_sane; auto).
  destruct (hash_many_ends v e jobs _ FS X) as (fi & E1 & E2 & _).
  destruct (hash_many_sane v e jobs _ FS X) as (fi' & E2' & _ & T & _). rewrite E2 in E2'. injection E2' as <-.
  pose proof (exclusive_prefix _ _ _ X) as X'.
  destruct (hash_unwound v e jobs l FS X') as (le & hurt & E3 & L3 & N3 & K3 & T3 & H3 & _).
  exists fi, le, hurt. split; [exact E1|]. split; [exact E3|]. split; [exact K3|]. split.
  - intros i Hi Hn. rewrite T3, T by auto. unfold hash_result. rewrite target_prefix by auto. reflexivity.
  - intros i Hi. rewrite T3.
    + unfold hash_result, target_of. rewrite find_ref_none by auto. reflexivity.
    + intros Hh. destruct (H3 i Hh) as (x & _ & _ & _ & I & _). apply (in_map fst) in I. auto.
Qed.
