(** The scheduler compresses each block of each job once, and uses the widest
    kernel for all but a bounded rest. *)
From Coq Require Import ZArith Arith NArith List Bool Lia ZifyBool ZifyNat ZifyN.
From Verif Require Import Base ByteLemmas Guts Portable Intrinsics KernelSpec Simd Impl Loops LaneLoops Sched SchedProof.
From Verif Require Import Leak LeakErase WorkSpec WorkProof.
Import ListNotations.
Open Scope list_scope.
Open Scope nat_scope.
Local Notation length := List.length.

Lemma list_sum_repeat a n : list_sum (repeat a n) = a * n.
Proof. induction n; cbn [repeat list_sum fold_right]; [lia|]. fold (list_sum (repeat a n)). lia. Qed.
Lemma list_sum_cons a l : list_sum (a :: l) = a + list_sum l.
Proof. reflexivity. Qed.
Lemma list_sum_le_bound l M : Forall (fun x => x <= M) l -> list_sum l <= length l * M.
Proof. induction 1; [cbn; lia|]. rewrite list_sum_cons. cbn [length]. lia. Qed.
Lemma runs_le_sum l : Forall (fun x => 1 <= x) l -> length l <= list_sum l.
Proof. induction 1; [cbn; lia|]. rewrite list_sum_cons. cbn [length]. lia. Qed.

(** One pass over a job of [len] bytes that takes [it] strides. *)
Lemma need_rest pb len m : 0 < pb -> m <= len -> let it := S ((m - 1) / pb) in
  S ((len - 1) / pb) = it + match len - it * pb with 0 => 0 | S _ => S ((len - it * pb - 1) / pb) end.
Proof.
  intros P LE it. pose proof (Nat.div_mod (len - 1) pb ltac:(lia)) as D.
  pose proof (Nat.mod_upper_bound (len - 1) pb ltac:(lia)) as U.
  assert (MI : it - 1 <= (len - 1) / pb). { unfold it. cbn. rewrite Nat.sub_0_r. apply Nat.div_le_mono; lia. }
  destruct (len - it * pb) as [|x] eqn:E.
  - assert (len <= it * pb) by lia.
    assert ((len - 1) / pb < it). { apply Nat.div_lt_upper_bound; [lia|]. assert (0 < it) by (unfold it; lia). nia. }
    lia.
  - replace (len - 1) with (it * pb + (S x - 1)) by lia. rewrite Nat.div_add_l by lia. lia.
Qed.

Lemma ge1_repeat n q : 0 < n -> Forall (fun x => 1 <= x) (repeat n q).
Proof. intros H. induction q; cbn; constructor; auto. Qed.

Section Work.
Context {C A : Type}.
Variable get : C -> list N.
Variable put : C -> list N -> C.
Variable prep : A -> C -> L (C * prepared).
Variables (v : variant) (e : env) (imp : platform) (fin : bool) (st : stride).
Variable cells0 : list C.
Variable M : nat.
Notation pb := (padded_blockbytes v st).

Definition jneed (j : vjob) : nat := need v st (length (v_input j)).
Definition icost (a : A) (c : C) : nat :=
  list_sum (ks (prep a c)) +
  match snd (prep a c) with Ret (_, Some (input, _, _)) => need v st (length input) | _ => 0 end.
Definition item_cost (p : nat * A) : nat :=
  match nth_error cells0 (fst p) with Some c => icost (snd p) c | None => 0 end.
Definition phi (items : list (nat * A)) (vec : list vjob) : nat :=
  list_sum (map jneed vec) + list_sum (map item_cost items).
(** The runs of a kernel while a job is set up. *)
Definition iruns (a : A) (c : C) : nat := length (ks (prep a c)).
Definition item_runs (p : nat * A) : nat :=
  match nth_error cells0 (fst p) with Some c => iruns (snd p) c | None => 0 end.
Definition pruns (items : list (nat * A)) : nat := list_sum (map item_runs items).
Definition positive (t : list nat) : Prop := Forall (fun x => 1 <= x) t.
Hypothesis prep_pos : forall a c x, snd (prep a c) = Ret x -> positive (ks (prep a c)).
Lemma positive_app t u : positive t -> positive u -> positive (t ++ u).
Proof. apply Forall_app_2 || (intros; apply Forall_app; auto). Qed.
Lemma pruns_cons p items : pruns (p :: items) = item_runs p + pruns items.
Proof. reflexivity. Qed.

Record J (items : list (nat * A)) (vec : list vjob) (cells : list C) : Prop := {
  J_nodup : NoDup (map v_ref vec ++ map fst items);
  J_keep : forall p, In p items -> nth_error cells (fst p) = nth_error cells0 (fst p);
  J_vec : forall j, In j vec -> jneed j <= M;
  J_items : forall p, In p items -> item_cost p <= M }.

Lemma phi_snoc items vec j : phi items (vec ++ [j]) = phi items vec + jneed j.
Proof. unfold phi. rewrite map_app, list_sum_app. cbn [map]. rewrite list_sum_cons. cbn [list_sum fold_right]. lia. Qed.
Lemma phi_cons p items vec : phi (p :: items) vec = item_cost p + phi items vec.
Proof. unfold phi. cbn [map]. rewrite list_sum_cons. lia. Qed.
Lemma phi_app items a b : phi items (a ++ b) = list_sum (map jneed a) + phi items b.
Proof. unfold phi. rewrite map_app, list_sum_app. lia. Qed.

Definition opt (o : option vjob) : list vjob := match o with Some j => [j] | None => [] end.

Lemma start_work p items vec cells cells' o : J (p :: items) vec cells ->
  snd (start_lk prep cells p) = Ret (cells', o) ->
  J items (vec ++ opt o) cells' /\
  list_sum (ks (start_lk prep cells p)) + phi items (vec ++ opt o) = phi (p :: items) vec /\
  positive (ks (start_lk prep cells p)) /\ length (ks (start_lk prep cells p)) + pruns items = pruns (p :: items).
Proof.
  intros [ND KE JV JI] H. destruct p as [r a]. unfold start_lk in *.
  destruct (lbind_inv _ _ _ H) as (c & H1 & H2 & E). rewrite E. clear H E.
  change (ks (cell_lk cells r)) with (@nil nat). cbn [app].
  destruct (lbind_inv _ _ _ H2) as ([c' p] & H3 & H4 & E). rewrite E. clear H2 E.
  assert (Hc : nth_error cells0 r = Some c).
  { pose proof (KE (r, a) ltac:(left; auto)) as K0. cbn [fst] in K0. rewrite <- K0. revert H1. unfold cell_lk, cell, emit. cbn [snd].
    destruct (nth_error cells r); [congruence|discriminate]. }
  pose proof (NoDup_remove_1 _ _ _ ND) as ND1. pose proof (NoDup_remove_2 _ _ _ ND) as ND2. cbn [fst] in ND2.
  assert (K' : forall q, In q items -> nth_error (set cells r c') (fst q) = nth_error cells0 (fst q)).
  { intros q Hq. rewrite nth_error_set_ne.
    - apply KE. right. auto.
    - intros EQ. apply ND2, in_or_app. right. rewrite EQ || rewrite <- EQ. apply in_map. exact Hq. }
  pose proof (JI (r, a) ltac:(left; auto)) as JA. unfold item_cost in JA. cbn [fst snd] in JA. rewrite Hc in JA.
  rewrite pruns_cons. unfold item_runs. cbn [fst snd]. rewrite Hc. unfold iruns.
  rewrite phi_cons. unfold item_cost at 1. cbn [fst snd]. rewrite Hc. unfold icost in JA |- *. rewrite H3 in JA |- *.
  destruct p as [[[input count] ln]|]; injection H4 as <- <-; cbn [opt].
  - rewrite ks_tell, ks_ret. cbn [app compressions flat_map]. rewrite app_nil_r. split; [|split].
    + constructor; auto.
      * rewrite map_app, <- app_assoc. exact ND.
      * intros j Hj. apply in_app_or in Hj. destruct Hj as [Hj|[<-|[]]]; auto. unfold jneed. cbn [v_input]. lia.
      * intros q Hq. apply JI. right. auto.
    + rewrite phi_snoc. unfold jneed. cbn [v_input]. lia.
    + split; [eapply prep_pos; exact H3|lia].
  - rewrite ks_tell, ks_ret. cbn [app compressions flat_map]. rewrite !app_nil_r. split; [|split].
    + constructor; auto. intros q Hq. apply JI. right. auto.
    + lia.
    + split; [eapply prep_pos; exact H3|lia].
Qed.

Definition pulled_ok (items : list (nat * A)) (vec : list vjob) (t : list nat) (x : iter A * list C * option vjob) : Prop :=
  let '(it', cells', o) := x in
  J (pend it') (vec ++ opt o) cells' /\
  list_sum t + phi (pend it') (vec ++ opt o) = phi items vec /\
  (o = None -> pend it' = []) /\ positive t /\ length t + pruns (pend it') = pruns items.

Lemma pull_src_work vec : forall src calls cells x, J (upto_none src) vec cells ->
  snd (pull_src_lk prep src calls cells) = Ret x ->
  pulled_ok (upto_none src) vec (ks (pull_src_lk prep src calls cells)) x.
Proof.
  induction src as [|[p|] src IH]; intros calls cells x HJ H; cbn [pull_src_lk upto_none] in *.
  - injection H as <-. cbn. rewrite app_nil_r. repeat split; auto; try apply HJ; constructor.
  - rewrite snd_tell in H. rewrite ks_tell. cbn [compressions flat_map app].
    destruct (lbind_inv _ _ _ H) as ([cells' o] & H1 & H2 & ->).
    destruct (start_work _ _ _ _ _ _ HJ H1) as (J1 & P1 & S1).
    destruct o as [j|]; cbn [opt] in J1, P1.
    + injection H2 as <-. rewrite ks_tell, ks_ret. cbn [compressions flat_map app]. rewrite app_nil_r.
      unfold pulled_ok. cbn [opt]. unfold pend. cbn [i_done i_peeked i_src app].
      split; [exact J1|]. split; [exact P1|]. split; [discriminate|exact S1].
    + rewrite snd_tell in H2. rewrite ks_tell. cbn [compressions flat_map app].
      rewrite app_nil_r in J1, P1. specialize (IH _ _ _ J1 H2). destruct x as [[it' cells''] o].
      destruct IH as (J2 & P2 & N2 & S2 & R2), S1 as [S1 R1]. unfold pulled_ok. rewrite list_sum_app, app_length.
      split; [exact J2|]. split; [lia|]. split; [exact N2|]. split; [apply positive_app; auto|lia].
  - injection H as <-. cbn. rewrite app_nil_r. repeat split; auto; try apply HJ; constructor.
Qed.

Lemma next_work it vec cells x : J (pend it) vec cells -> snd (next_lk prep it cells) = Ret x ->
  pulled_ok (pend it) vec (ks (next_lk prep it cells)) x.
Proof.
  intros HJ H. unfold next_lk in *. rewrite ks_branch. rewrite snd_branch in H. unfold pend in HJ |- *.
  destruct (i_done it) eqn:D.
  - injection H as <-. cbn [pulled_ok opt]. unfold pend. rewrite D, app_nil_r. cbn. repeat split; auto; try apply HJ; constructor.
  - destruct (i_peeked it) as [p|] eqn:P; cbn [app] in *.
    + rewrite snd_tell in H. rewrite ks_tell. cbn [compressions flat_map app].
      destruct (lbind_inv _ _ _ H) as ([cells' o] & H1 & H2 & ->).
      destruct (start_work _ _ _ _ _ _ HJ H1) as (J1 & P1 & S1).
      destruct o as [j|]; cbn [opt] in J1, P1.
      * injection H2 as <-. rewrite ks_tell, ks_ret. cbn [compressions flat_map app]. rewrite app_nil_r.
        unfold pulled_ok, pend. cbn [opt i_done i_peeked i_src app]. split; [exact J1|]. split; [exact P1|]. split; [discriminate|exact S1].
      * rewrite snd_tell in H2. rewrite ks_tell. cbn [compressions flat_map app].
        rewrite app_nil_r in J1, P1. pose proof (pull_src_work _ _ _ _ _ J1 H2) as IH. destruct x as [[it' cells''] o].
        destruct IH as (J2 & P2 & N2 & S2 & R2), S1 as [S1 R1]. unfold pulled_ok. rewrite list_sum_app, app_length.
        split; [exact J2|]. split; [lia|]. split; [exact N2|]. split; [apply positive_app; auto|lia].
    + rewrite snd_tell in H. rewrite ks_tell. cbn [compressions flat_map app]. apply pull_src_work; auto.
Qed.

Lemma fill_work : forall k it cells vec it' cells' vec', J (pend it) vec cells ->
  snd (fill_lk prep v k it cells vec) = Ret (it', cells', vec') ->
  J (pend it') vec' cells' /\
  list_sum (ks (fill_lk prep v k it cells vec)) + phi (pend it') vec' = phi (pend it) vec /\
  length vec' <= length vec + k /\
  (length vec' = length vec + k \/ pend it' = []) /\ positive (ks (fill_lk prep v k it cells vec)) /\
  length (ks (fill_lk prep v k it cells vec)) + pruns (pend it') = pruns (pend it).
Proof.
  induction k as [|k IH]; intros it cells vec it' cells' vec' HJ H; cbn [fill_lk] in *.
  - injection H as <- <- <-. cbn. repeat split; auto; try lia; try apply HJ. constructor.
  - rewrite snd_tell in H. rewrite ks_tell. cbn [compressions flat_map app].
    destruct (lbind_inv _ _ _ H) as (x & H1 & H2 & ->). clear H.
    pose proof (next_work _ _ _ _ HJ H1) as W. destruct x as [[it1 cells1] o]. destruct W as (J1 & P1 & N1 & S1 & R1).
    destruct o as [j|]; cbn [opt] in J1, P1.
    + rewrite snd_tell in H2. rewrite ks_tell. cbn [compressions flat_map app].
      destruct (lbind_inv _ _ _ H2) as (u & _ & H3 & ->). clear H2.
      change (ks (assert_lk _)) with (@nil nat). cbn [app].
      destruct (IH _ _ _ _ _ _ J1 H3) as (J2 & P2 & L2 & N2 & S2 & R2). rewrite app_length in L2, N2. cbn [length] in L2, N2.
      rewrite list_sum_app. split; [exact J2|]. split; [lia|]. split; [lia|]. split; [destruct N2; [left; lia|auto]|].
      rewrite app_length. split; [apply positive_app; auto|lia].
    + injection H2 as <- <- <-. rewrite ks_tell, ks_ret. cbn [compressions flat_map app]. rewrite !app_nil_r in *.
      split; [exact J1|]. split; [exact P1|]. split; [lia|]. split; [right; auto|]. split; [exact S1|exact R1].
Qed.

(** *** Batches *)
Definition loop_work (loop : list job -> L (list job)) (n : nat) : Prop :=
  forall js r, snd (loop js) = Ret r ->
  exists m, (forall j, In j js -> m <= length (j_input j)) /\
    ks (loop js) = repeat n (need v st m) /\
    Forall2 (fun j j' => length (j_input j') = length (j_input j) - need v st m * pb) js r.

Lemma load_inv cells j y : snd (load_job_lk get cells j) = Ret y -> j_input y = v_input j.
Proof.
  unfold load_job_lk. intros H. destruct (lbind_inv _ _ _ H) as (c & _ & H2 & _). injection H2 as <-. reflexivity.
Qed.

Lemma store_work : forall js cells cells' vs, snd (store_jobs_lk put cells js) = Ret (cells', vs) ->
  ks (store_jobs_lk put cells js) = [] /\
  Forall2 (fun p j' => v_ref j' = v_ref (fst p) /\ v_input j' = j_input (snd p)) js vs /\
  forall r, ~ In r (map (fun p => v_ref (fst p)) js) -> nth_error cells' r = nth_error cells r.
Proof.
  induction js as [|[j k] js IH]; intros cells cells' vs H; cbn [store_jobs_lk] in *.
  - injection H as <- <-. repeat split; auto.
  - destruct (lbind_inv _ _ _ H) as (c1 & H1 & H2 & ->). clear H.
    destruct (lbind_inv _ _ _ H2) as ([c2 vs'] & H3 & H4 & ->). clear H2. injection H4 as <- <-.
    unfold store_words_lk in *. destruct (lbind_inv _ _ _ H1) as (c & H5 & H6 & ->). injection H6 as <-.
    destruct (IH _ _ _ H3) as (K & F & E). rewrite K. split; [reflexivity|]. split.
    + constructor; auto.
    + intros r Hr. cbn [map fst] in Hr. rewrite E by (intros X; apply Hr; right; auto).
      apply nth_error_set_ne. intros EQ. apply Hr. left. cbn [v_ref] in EQ. congruence.
Qed.

Lemma Forall2_len {X Y} (R : X -> Y -> Prop) l l' : Forall2 R l l' -> length l = length l'.
Proof. induction 1; cbn; auto. Qed.
Lemma Forall2_combine {X Y Z} (R : X -> Y -> Prop) (Q : X * Y -> Z -> Prop) l : forall m r,
  Forall2 R l m -> Forall2 Q (combine l m) r -> Forall2 (fun x z => exists y, R x y /\ Q (x, y) z) l r.
Proof.
  induction l as [|x l IH]; intros m r H1 H2; inversion H1; subst; cbn [combine] in H2; inversion H2; subst; constructor; eauto.
Qed.
Lemma Forall2_trans {X Y Z} (R : X -> Y -> Prop) (Q : Y -> Z -> Prop) l m : Forall2 R l m -> forall r,
  Forall2 Q m r -> Forall2 (fun x z => exists y, R x y /\ Q y z) l r.
Proof. induction 1; intros r H2; inversion H2; subst; constructor; eauto. Qed.
Lemma map_v_ref (l : list vjob) m : Forall2 (fun j j' => v_ref j' = v_ref j) l m -> map v_ref m = map v_ref l.
Proof. induction 1; cbn; congruence. Qed.

(** The first [n] jobs of a batch after one pass. *)
Lemma run_jobs_work loop n cells vec cells' vec' : loop_work loop n -> length vec >= n ->
  snd (run_jobs_lk get put loop n cells vec) = Ret (cells', vec') ->
  exists m front', (forall j, In j (firstn n vec) -> m <= length (v_input j)) /\ vec' = front' ++ skipn n vec /\
    ks (run_jobs_lk get put loop n cells vec) = repeat n (need v st m) /\
    Forall2 (fun j j' => v_ref j' = v_ref j /\ length (v_input j') = length (v_input j) - need v st m * pb) (firstn n vec) front' /\
    forall r, ~ In r (map v_ref (firstn n vec)) -> nth_error cells' r = nth_error cells r.
Proof.
  intros LW LE H. unfold run_jobs_lk in *.
  destruct (lbind_inv _ _ _ H) as (front & H1 & H2 & ->). clear H. apply slice_inv in H1. destruct H1 as [EF _].
  rewrite Nat.sub_0_r in EF. cbn [skipn] in EF. subst front.
  destruct (lbind_inv _ _ _ H2) as (js & H3 & H4 & ->). clear H2.
  destruct (lbind_inv _ _ _ H4) as (js' & H5 & H6 & ->). clear H4.
  destruct (lbind_inv _ _ _ H6) as ([c1 front'] & H7 & H8 & ->). clear H6. injection H8 as <- <-.
  apply mapM_inv in H3. destruct (LW js js' H5) as (m & MJ & K & F).
  destruct (store_work _ _ _ _ H7) as (KS & FS & ES). rewrite K, KS.
  rewrite q_mapM by (intros; unfold load_job_lk; qt). change (ks (slice_lk vec 0 n)) with (@nil nat). rewrite ks_ret.
  cbn [app]. rewrite !app_nil_r.
  assert (FI : Forall2 (fun j y => j_input y = v_input j) (firstn n vec) js).
  { clear - H3. induction H3; constructor; auto. eapply load_inv; eauto. }
  pose proof (Forall2_trans _ _ _ _ FI _ F) as F2.
  exists m, front'. split; [|split; [reflexivity|]]; [|split; [reflexivity|]]; [|split].
  - intros j Hj. destruct (In_nth _ _ {| v_ref := 0; v_input := []; v_count := 0; v_last_node := false |} Hj) as (i & Li & Ei).
    clear - FI MJ Hj. revert MJ. induction FI as [|j0 y l m0 E0 _ IH]; intros MJ; [destruct Hj|].
    destruct Hj as [->|Hj]; [|apply IH; auto; intros; apply MJ; right; auto]. rewrite <- E0. apply MJ. left. auto.
  - pose proof (Forall2_combine _ _ _ _ _ F2 FS) as F3. clear - F3.
    induction F3 as [|j j' l l' (y & (z & H1 & H2) & H3 & H4) _ IH]; constructor; auto. cbn [fst snd] in *.
    split; [auto|]. rewrite H4, H2, H1. reflexivity.
  - intros r Hr. apply ES. intros X. apply Hr. clear - X F2.
    apply in_map_iff in X. destruct X as ([j k] & <- & X). cbn [fst]. apply in_combine_l in X. apply in_map. auto.
Qed.

Definition left_over (j : vjob) : nat := if emptyb j then 0 else jneed j.

Lemma pass_sum m front front' : (forall j, In j front -> m <= length (v_input j)) ->
  Forall2 (fun j j' => v_ref j' = v_ref j /\ length (v_input j') = length (v_input j) - need v st m * pb) front front' ->
  list_sum (map jneed front) = length front * need v st m + list_sum (map jneed (filter (fun j => negb (emptyb j)) front')) /\
  ((forall j, In j front -> jneed j <= M) -> forall j, In j (filter (fun j => negb (emptyb j)) front') -> jneed j <= M).
Proof.
  intros MJ F. pose proof (pb_pos v st) as PB. induction F as [|j j' l l' [_ E] _ IH]; [split; [reflexivity|intros _ j []]|].
  destruct IH as [IH1 IH2]; [intros; apply MJ; right; auto|].
  pose proof (need_rest pb (length (v_input j)) m PB (MJ j ltac:(left; auto))) as NR. cbv zeta in NR.
  fold (need v st m) in NR. fold (need v st (length (v_input j))) in NR. fold (jneed j) in NR. rewrite <- E in NR.
  assert (Q : jneed j = need v st m + (if emptyb j' then 0 else jneed j')).
  { rewrite NR. unfold emptyb, jneed, need. destruct (v_input j'); reflexivity. }
  cbn [filter map]. rewrite list_sum_cons. cbn [length]. destruct (emptyb j') eqn:EB; cbn [negb].
  - split; [lia|]. intros B. apply IH2. intros; apply B; right; auto.
  - cbn [map]. rewrite list_sum_cons. split; [lia|]. intros B x [<-|Hx].
    + specialize (B j ltac:(left; auto)). lia.
    + apply IH2; auto. intros; apply B; right; auto.
Qed.

Lemma evict_ks n : forall vec, ks (evict_finished_lk e vec n) = [].
Proof.
  induction n as [|n IH]; intros; cbn [evict_finished_lk]; [reflexivity|]. apply q_tell; [reflexivity|].
  apply q_bind; [apply q_debug|]. intros _. apply q_bind; [|intros; apply IH].
  destruct (nth_error vec n); [|reflexivity]. apply q_branch; reflexivity.
Qed.

Lemma NoDup_sub {X} (a a' b : list X) : NoDup (a ++ b) -> NoDup a' -> (forall x, In x a' -> In x a) -> NoDup (a' ++ b).
Proof.
  intros H1 H2 H3. destruct (NoDup_app_inv _ _ H1) as (_ & N2 & N3).
  induction a' as [|x a' IH]; cbn [app]; [exact N2|]. inversion H2; subst. constructor.
  - intros Y. apply in_app_or in Y. destruct Y as [Y|Y]; [auto|]. apply (N3 x); auto. apply H3. left. auto.
  - apply IH; auto. intros; apply H3; right; auto.
Qed.

Lemma filter_refs (f : vjob -> bool) (l : list vjob) : NoDup (map v_ref l) -> NoDup (map v_ref (filter f l)) /\
  forall x, In x (map v_ref (filter f l)) -> In x (map v_ref l).
Proof.
  induction l as [|j l IH]; intros H; cbn [map filter] in *; [auto|]. inversion H; subst. destruct (IH H3) as [A1 A2].
  destruct (f j); cbn [map].
  - split; [constructor; auto|]. intros x [<-|X]; [left; auto|right; auto].
  - split; [auto|]. intros x X. right. auto.
Qed.

Lemma J_pass n items vec cells cells' front' : J items vec cells ->
  map v_ref front' = map v_ref (firstn n vec) ->
  (forall r, ~ In r (map v_ref (firstn n vec)) -> nth_error cells' r = nth_error cells r) ->
  (forall j, In j (filter (fun j => negb (emptyb j)) front') -> jneed j <= M) ->
  J items (filter (fun j => negb (emptyb j)) front' ++ skipn n vec) cells'.
Proof.
  intros [JN JK JV JI] FR ES PM. assert (SPL : vec = firstn n vec ++ skipn n vec) by (symmetry; apply firstn_skipn).
  assert (ND : NoDup (map v_ref front' ++ (map v_ref (skipn n vec) ++ map fst items))).
  { rewrite FR, app_assoc, <- map_app, <- SPL. exact JN. }
  destruct (NoDup_app_inv _ _ ND) as (N1' & N2' & N3').
  destruct (filter_refs (fun j => negb (emptyb j)) front' N1') as [K1 K2].
  constructor.
  - rewrite map_app, <- app_assoc. eapply NoDup_sub; eauto.
  - intros p Hp. rewrite ES; [apply JK; auto|]. rewrite <- FR. intros X. apply (N3' _ X). apply in_or_app. right.
    apply in_map. auto.
  - intros j Hj. apply in_app_or in Hj. destruct Hj as [Hj|Hj]; [auto|].
    apply JV. rewrite SPL. apply in_or_app. auto.
  - exact JI.
Qed.

Lemma batch_work loop n : loop_work loop n -> 0 < n -> forall fuel it cells vec it' cells' vec',
  J (pend it) vec cells ->
  snd (batch_loop_lk get put prep v e loop n fuel it cells vec) = Ret (it', cells', vec') ->
  J (pend it') vec' cells' /\
  list_sum (ks (batch_loop_lk get put prep v e loop n fuel it cells vec)) + phi (pend it') vec' = phi (pend it) vec /\
  length vec' < n /\ pend it' = [] /\
  (let t := ks (batch_loop_lk get put prep v e loop n fuel it cells vec) in
   positive t /\ n * length t <= list_sum t + (n - 1) * pruns (pend it)).
Proof.
  intros LW NP. induction fuel as [|fuel IH]; intros it cells vec it' cells' vec' HJ H; cbn [batch_loop_lk] in *; [discriminate|].
  destruct (lbind_inv _ _ _ H) as ([[it1 cells1] vec1] & H1 & H2 & ->). clear H.
  unfold fill_jobs_vec_lk in *.
  destruct (fill_work _ _ _ _ _ _ _ HJ H1) as (J1 & P1 & L1 & N1 & S1 & R1).
  rewrite ks_branch. rewrite snd_branch in H2. destruct (Nat.ltb_spec (length vec1) n) as [LT|GE].
  - injection H2 as <- <- <-. rewrite ks_ret, app_nil_r. split; [exact J1|]. split; [exact P1|]. split; [exact LT|].
    split; [destruct N1; [lia|auto]|]. cbv zeta. split; [exact S1|].
    pose proof (runs_le_sum _ S1). nia.
  - destruct (lbind_inv _ _ _ H2) as ([cells2 vec2] & H3 & H4 & ->). clear H2.
    destruct (lbind_inv _ _ _ H4) as (vec3 & H5 & H6 & ->). clear H4. rewrite evict_ks. cbn [app].
    destruct (run_jobs_work loop n cells1 vec1 cells2 vec2 LW GE H3) as (m & front' & MJ & EV & K & F & ES). rewrite K.
    rewrite evict_erase in H5. pose proof (Forall2_len _ _ _ F) as LF.
    assert (LN : length front' = n) by (rewrite <- LF, firstn_length; lia).
    subst vec2. rewrite <- LN in H5 at 2. rewrite evict_spec in H5. injection H5 as <-.
    destruct (pass_sum m _ _ MJ F) as [PS PM].
    set (kept := filter (fun j => negb (emptyb j)) front') in *.
    assert (SPL : vec1 = firstn n vec1 ++ skipn n vec1) by (symmetry; apply firstn_skipn).
    assert (FR : map v_ref front' = map v_ref (firstn n vec1)).
    { apply map_v_ref. clear - F. induction F as [|? ? ? ? [E _]]; constructor; auto. }
    assert (J2 : J (pend it1) (kept ++ skipn n vec1) cells2).
    { apply (J_pass n _ _ cells1); auto. apply PM. intros j0 Hj0. apply (J_vec _ _ _ J1). rewrite SPL. apply in_or_app. auto. }
    destruct (IH _ _ _ _ _ _ J2 H6) as (J3 & P3 & L3 & N3 & S3 & R3). cbv zeta in R3.
    split; [exact J3|]. split; [|split; [exact L3|split; [exact N3|]]].
    + rewrite !list_sum_app, list_sum_repeat. rewrite phi_app in P3.
      assert (E1 : phi (pend it1) vec1 = list_sum (map jneed (firstn n vec1)) + phi (pend it1) (skipn n vec1)).
      { rewrite <- phi_app, <- SPL. reflexivity. }
      rewrite PS in E1. rewrite firstn_length, Nat.min_l in E1 by lia. lia.
    + cbv zeta. split; [apply positive_app; [exact S1|apply positive_app; [apply ge1_repeat; exact NP|exact S3]]|].
      rewrite !app_length, !list_sum_app, list_sum_repeat, repeat_length. pose proof (runs_le_sum _ S1).
      match goal with |- _ * (?a + (?b + ?c)) <= ?x + (?y + ?z) + _ =>
        assert (n * a <= x + (n - 1) * a) by nia; assert (n * c <= z + (n - 1) * pruns (pend it1)) by exact R3 end.
      rewrite <- R1. nia.
Qed.

(** *** One at a time *)
Lemma run_one_work items j vec cells cells' : J items (j :: vec) cells ->
  snd (run_one_lk get put v e imp fin st cells j) = Ret cells' ->
  J items vec cells' /\ ks (run_one_lk get put v e imp fin st cells j) = repeat 1 (jneed j).
Proof.
  intros [JN JK JV JI] H. unfold run_one_lk in *.
  destruct (lbind_inv _ _ _ H) as (c & H1 & H2 & ->). clear H.
  destruct (lbind_inv _ _ _ H2) as (ws & H3 & H4 & ->). clear H2.
  rewrite (ks_c1 _ _ _ _ _ _ _ _ _ _ H3). unfold store_words_lk in *.
  destruct (lbind_inv _ _ _ H4) as (c' & _ & H5 & ->). injection H5 as <-.
  change (ks (cell_lk cells (v_ref j))) with (@nil nat). rewrite ks_ret. cbn [app]. rewrite app_nil_r. split; [|reflexivity].
  cbn [map app] in JN. inversion JN as [|? ? X Y]; subst. constructor; auto.
  - intros p Hp. rewrite nth_error_set_ne; [apply JK; auto|]. intros E. apply X. rewrite E. apply in_or_app. right. apply in_map. auto.
  - intros; apply JV; right; auto.
Qed.

Lemma run_vec_work items : forall vec cells cells', J items vec cells ->
  snd (run_vec_lk get put v e imp fin st cells vec) = Ret cells' ->
  J items [] cells' /\ ks (run_vec_lk get put v e imp fin st cells vec) = repeat 1 (list_sum (map jneed vec)).
Proof.
  induction vec as [|j vec IH]; intros cells cells' HJ H; cbn [run_vec_lk] in *.
  - injection H as <-. split; [exact HJ|reflexivity].
  - rewrite snd_tell in H. rewrite ks_tell. cbn [compressions flat_map app].
    destruct (lbind_inv _ _ _ H) as (c & H1 & H2 & ->). destruct (run_one_work _ _ _ _ _ HJ H1) as [J1 K1].
    destruct (IH _ _ J1 H2) as [J2 K2]. rewrite K1, K2. split; [exact J2|]. cbn [map]. rewrite list_sum_cons, repeat_app. reflexivity.
Qed.

Lemma run_rest_work : forall fuel it cells it' cells', J (pend it) [] cells ->
  snd (run_rest_lk get put prep v e imp fin st fuel it cells) = Ret (it', cells') ->
  list_sum (ks (run_rest_lk get put prep v e imp fin st fuel it cells)) = list_sum (map item_cost (pend it)) /\
  positive (ks (run_rest_lk get put prep v e imp fin st fuel it cells)).
Proof.
  induction fuel as [|fuel IH]; intros it cells it' cells' HJ H; cbn [run_rest_lk] in *; [discriminate|].
  destruct (lbind_inv _ _ _ H) as (x & H1 & H2 & ->). clear H.
  pose proof (next_work _ _ _ _ HJ H1) as W. destruct x as [[it1 cells1] o]. destruct W as (J1 & P1 & N1 & S1 & _).
  destruct o as [j|]; cbn [opt app] in J1, P1.
  - rewrite snd_tell in H2. rewrite ks_tell. cbn [compressions flat_map app].
    destruct (lbind_inv _ _ _ H2) as (c & H3 & H4 & ->). destruct (run_one_work _ _ _ _ _ J1 H3) as [J2 K2].
    destruct (IH _ _ _ _ J2 H4) as [E3 S3]. rewrite K2, !list_sum_app, list_sum_repeat, E3. unfold phi in P1.
    cbn [map] in P1. rewrite list_sum_cons in P1. cbn [list_sum fold_right] in P1. split; [lia|].
    apply positive_app; [exact S1|apply positive_app; [apply ge1_repeat; lia|exact S3]].
  - injection H2 as <- <-. rewrite ks_tell, ks_ret. cbn [compressions flat_map app]. rewrite app_nil_r.
    rewrite (N1 eq_refl) in P1. unfold phi in P1. cbn in P1. split; [cbn; lia|]. exact S1.
Qed.

(** *** The whole *)
Lemma wide_work : loop_work (fun js => compress_wide_loop_lk v e imp js fin st) (wide v).
Proof.
  intros js r H. unfold compress_wide_loop_lk in *. rewrite snd_tell in H. rewrite ks_tell. cbn [compressions flat_map app].
  destruct imp; try discriminate. unfold target_feature_lk in *. destruct (e_avx2 e); [|discriminate].
  destruct (ks_cn _ _ _ _ _ _ H) as (m & M1 & _ & K & F). exists m. destruct v; auto.
Qed.
Lemma narrow_work : loop_work (fun js => compress_narrow_loop_lk v e imp js fin st) (narrow v).
Proof.
  intros js r H. unfold compress_narrow_loop_lk in *. rewrite snd_tell in H. rewrite ks_tell. cbn [compressions flat_map app].
  unfold target_feature_lk in *.
  destruct imp; try discriminate; (destruct (e_sse41 e); [|discriminate]);
  (destruct (ks_cn _ _ _ _ _ _ H) as (m & M1 & _ & K & F); exists m; destruct v; auto).
Qed.

Lemma compress_many_work it cells it' cells' : J (pend it) [] cells ->
  snd (compress_many_lk get put prep v e imp fin st it cells) = Ret (it', cells') ->
  list_sum (ks (compress_many_lk get put prep v e imp fin st it cells)) = list_sum (map item_cost (pend it)) /\
  (let d := degree v imp in
   let t := ks (compress_many_lk get put prep v e imp fin st it cells) in
   d * length t <= list_sum t + (d - 1) * pruns (pend it) + (d - 1) * (d - 1) * M).
Proof.
  intros HJ H. unfold compress_many_lk in *. set (fuel := 2 + length (i_src it)) in *. clearbody fuel.
  destruct (lbind_inv _ _ _ H) as ([[it1 cells1] vec1] & H1 & H2 & ->). clear H. rewrite ks_tell, ks_branch in *.
  rewrite snd_tell, snd_branch in H1. cbn [compressions flat_map app] in *.
  destruct (lbind_inv _ _ _ H2) as ([[it2 cells2] vec2] & H3 & H4 & ->). clear H2. rewrite ks_tell, ks_branch in *.
  rewrite snd_tell, snd_branch in H3. cbn [compressions flat_map app] in *.
  destruct (lbind_inv _ _ _ H4) as (cells3 & H5 & H6 & ->). clear H4.
  assert (WP : 0 < wide v /\ 0 < narrow v) by (destruct v; cbn; lia). destruct WP as [WP NP].
  set (t1 := if Nat.leb (wide v) (degree v imp) then _ else ks (ret (it, cells, []))) in *.
  set (t2 := if Nat.leb (narrow v) (degree v imp) then _ else ks (ret (it1, cells1, vec1))) in *.
  assert (X1 : J (pend it1) vec1 cells1 /\ list_sum t1 + phi (pend it1) vec1 = phi (pend it) [] /\ positive t1 /\
    (wide v <= degree v imp -> length vec1 < wide v /\ pend it1 = [] /\
       wide v * length t1 <= list_sum t1 + (wide v - 1) * pruns (pend it)) /\
    (degree v imp < wide v -> t1 = [] /\ vec1 = [] /\ it1 = it)).
  { subst t1. destruct (Nat.leb_spec (wide v) (degree v imp)) as [Hw|Hw].
    - destruct (batch_work _ _ wide_work WP _ _ _ _ _ _ _ HJ H1) as (A1 & A2 & A3 & A4 & A5 & A6).
      repeat (split; auto); try lia.
    - injection H1 as <- <- <-. rewrite ks_ret. repeat (split; auto); try lia. constructor. }
  destruct X1 as (J1 & P1 & S1 & F1 & E1).
  assert (X2 : J (pend it2) vec2 cells2 /\ list_sum t2 + phi (pend it2) vec2 = phi (pend it1) vec1 /\ positive t2 /\
    (narrow v <= degree v imp -> length vec2 < narrow v /\ pend it2 = [] /\
       narrow v * length t2 <= list_sum t2 + (narrow v - 1) * pruns (pend it1))).
  { subst t2. destruct (Nat.leb_spec (narrow v) (degree v imp)) as [Hw|Hw].
    - destruct (batch_work _ _ narrow_work NP _ _ _ _ _ _ _ J1 H3) as (A1 & A2 & A3 & A4 & A5 & A6).
      repeat (split; auto); try lia.
    - injection H3 as <- <- <-. rewrite ks_ret. repeat (split; auto); try lia. constructor. }
  destruct X2 as (J2 & P2 & S2 & F2). clearbody t1 t2.
  destruct (run_vec_work _ _ _ _ J2 H5) as [J3 K3]. destruct (run_rest_work _ _ _ _ _ J3 H6) as [E4 S4].
  set (t3 := ks (run_vec_lk get put v e imp fin st cells2 vec2)) in *.
  set (t4 := ks (run_rest_lk get put prep v e imp fin st fuel it2 cells3)) in *. clearbody t3 t4.
  assert (E3 : list_sum t3 = list_sum (map jneed vec2)) by (rewrite K3, list_sum_repeat; lia).
  assert (S3 : positive t3) by (rewrite K3; apply ge1_repeat; lia).
  assert (TOT : list_sum (t1 ++ t2 ++ t3 ++ t4) = list_sum (map item_cost (pend it))).
  { rewrite !list_sum_app, E4, E3. unfold phi in *. cbn [map] in P1. change (list_sum (@nil nat)) with 0 in P1. lia. }
  split; [exact TOT|]. cbv zeta.
  assert (BS : forall vec : list vjob, (forall j, In j vec -> jneed j <= M) -> list_sum (map jneed vec) <= length vec * M).
  { intros vec BV. rewrite <- (map_length jneed vec). apply list_sum_le_bound. apply Forall_forall. intros x Hx.
    apply in_map_iff in Hx. destruct Hx as (j & <- & Hj). auto. }
  pose proof (BS vec1 (J_vec _ _ _ J1)) as BS1. pose proof (BS vec2 (J_vec _ _ _ J2)) as BS2.
  pose proof (runs_le_sum _ S1) as R1. pose proof (runs_le_sum _ S2) as R2.
  pose proof (runs_le_sum _ S3) as R3. pose proof (runs_le_sum _ S4) as R4.
  rewrite !app_length, !list_sum_app.
  unfold phi in P1, P2. cbn [map] in P1. change (list_sum (@nil nat)) with 0 in P1.
  assert (DEG : degree v imp = wide v \/ degree v imp = narrow v \/ degree v imp = 1) by (destruct v, imp; cbn; auto).
  assert (NW : narrow v < wide v) by (destruct v; cbn; lia).
  destruct DEG as [ DE | [ DE | DE ] ]; rewrite DE in *.
  - destruct (F1 ltac:(lia)) as (L1 & EP & Q1). rewrite EP in P2.
    destruct (F2 ltac:(lia)) as (L2 & EP2 & _). rewrite EP2 in *. cbn [map] in P2, E4. change (list_sum (@nil nat)) with 0 in P2, E4.
    assert (list_sum (map jneed vec1) <= (wide v - 1) * M) by nia.
    assert (length t2 + (length t3 + length t4) <= list_sum (map jneed vec1)) by lia. nia.
  - destruct (E1 ltac:(lia)) as (-> & -> & ->).
    destruct (F2 ltac:(lia)) as (L2 & EP2 & Q2). rewrite EP2 in *. cbn [map] in P2, E4. change (list_sum (@nil nat)) with 0 in P2, E4.
    assert (list_sum (map jneed vec2) <= (narrow v - 1) * M) by nia.
    assert (length t3 + length t4 <= list_sum (map jneed vec2)) by lia. cbn [length list_sum fold_right]. nia.
  - lia.
Qed.
End Work.
