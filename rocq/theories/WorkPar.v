(** The work of the tree modes. *)
From Coq Require Import String Ascii.
From Coq Require Import ZArith Arith NArith List Bool Lia ZifyBool ZifyNat ZifyN.
From Verif Require Import Base ByteLemmas Guts Portable Intrinsics KernelSpec Simd Impl Loops LaneLoops Sched SchedProof.
From Verif Require Import Lib StateProof ParamsProof FedProof Many ManyProof Par Leak LeakErase Stripe ParProof ParFed.
From Verif Require Spec ApiSpec.
From Verif Require Import WorkSpec WorkProof WorkSched WorkEven WorkLib.
Import ListNotations.
Open Scope list_scope.
Open Scope nat_scope.
Local Notation length := List.length.

(** ** Leaves *)
Lemma leaf_need v i x : i < D v ->
  need v Serial (length (Stripe.L v i x)) = need v Parallel (length x - i * blockbytes v).
Proof.
  intros Hi. unfold need. cbn [padded_blockbytes]. fold (P v). f_equal.
  pose proof (P_pos v) as PP. pose proof (blockbytes_pos v) as BP. pose proof (iB_le v i Hi) as IB.
  remember (length x) as n eqn:En. revert x En. induction n as [n IH] using (well_founded_induction lt_wf). intros x En.
  destruct (Nat.le_gt_cases n (i * blockbytes v)) as [S|G].
  - rewrite L_empty by (auto; lia). replace (n - i * blockbytes v) with 0 by lia. cbn [length Nat.sub].
    rewrite !Nat.div_0_l by lia. reflexivity.
  - rewrite L_step by auto. rewrite app_length, firstn_length, skipn_length, <- En.
    destruct (Nat.le_gt_cases n (P v + i * blockbytes v)) as [S|G2].
    + rewrite (L_empty v i Hi (skipn (P v) x)) by (rewrite skipn_length; lia). cbn [length].
      rewrite !Nat.div_small by lia. reflexivity.
    + assert (NE : Stripe.L v i (skipn (P v) x) <> []) by (apply L_nonempty; auto; rewrite skipn_length; lia).
      specialize (IH (n - P v) ltac:(lia) (skipn (P v) x) ltac:(rewrite skipn_length; lia)).
      set (l := Stripe.L v i (skipn (P v) x)) in *. destruct l as [|b r] eqn:El; [congruence|]. rewrite Nat.min_l by lia.
      replace (blockbytes v + length (b :: r) - 1) with (1 * blockbytes v + (length (b :: r) - 1)) by (cbn [length]; lia).
      rewrite Nat.div_add_l, IH by lia.
      replace (n - i * blockbytes v - 1) with (1 * P v + (n - P v - i * blockbytes v - 1)) by lia.
      rewrite Nat.div_add_l by lia. reflexivity.
Qed.

Lemma need_stripes v k n : (0 < k -> 0 < n) -> need v Parallel (k * P v + n) = k + need v Parallel n.
Proof.
  intros H. unfold need. pose proof (P_pos v) as PP. destruct k as [|k]; [reflexivity|].
  replace (S k * P v + n - 1) with (S k * P v + (n - 1)) by lia. rewrite Nat.div_add_l by lia. lia.
Qed.

Lemma need_whole v q i : 0 < q -> i < D v -> need v Parallel (q * P v - i * blockbytes v) = q.
Proof.
  intros Hq Hi. pose proof (iB_le v i Hi) as IB. pose proof (blockbytes_pos v) as BP. pose proof (P_pos v) as PP.
  destruct q as [|q]; [lia|]. replace (S q * P v - i * blockbytes v) with (q * P v + (P v - i * blockbytes v)) by nia.
  rewrite need_stripes by lia. unfold need. rewrite Nat.div_small by lia. lia.
Qed.

Lemma leaf_prep_q a c : ks (leaf_prep_lk a c) = [].
Proof. reflexivity. Qed.

Lemma combine_nth {A} (l : list A) : forall o r a, In (r, a) (combine (seq o (length l)) l) ->
  o <= r < o + length l /\ nth_error l (r - o) = Some a.
Proof.
  induction l as [|x l IH]; intros o r a H; cbn [length seq combine] in H; [destruct H|]. cbn [length].
  destruct H as [H|H].
  - injection H as <- <-. rewrite Nat.sub_diag. split; [lia|reflexivity].
  - destruct (IH (S o) r a H) as [R E]. split; [lia|]. replace (r - o) with (S (r - S o)) by lia. exact E.
Qed.

Definition job_need (v : variant) (j : list byte * N * bool) : nat := need v Parallel (length (fst (fst j))).

Lemma compress_leaves_work v e imp fin leaves jobs r : length leaves = length jobs ->
  snd (compress_leaves_lk v e imp fin leaves jobs) = Ret r ->
  list_sum (ks (compress_leaves_lk v e imp fin leaves jobs)) = list_sum (map (job_need v) jobs).
Proof.
  intros LL H. unfold compress_leaves_lk in *.
  destruct (lbind_inv _ _ _ H) as ([it' lv] & H1 & _ & ->). rewrite ks_ret, app_nil_r. clear H.
  set (it := {| i_peeked := None; i_src := _; i_done := false; i_calls := 0 |}) in *.
  assert (PE : pend it = combine (seq 0 (length jobs)) jobs).
  { unfold pend, it. cbn [i_done i_peeked i_src app]. rewrite LL. apply upto_none_map. }
  assert (IC : forall p, In p (pend it) -> item_cost leaf_prep_lk v Parallel leaves p = job_need v (snd p)).
  { intros [i [[x c] l]] I. rewrite PE in I. destruct (combine_nth _ _ _ _ I) as [R _]. unfold item_cost. cbn [fst snd].
    destruct (nth_error leaves i) eqn:E; [|apply nth_error_None in E; lia]. reflexivity. }
  destruct (compress_many_work (fun ws => ws) (fun _ ws => ws) leaf_prep_lk v e imp fin Parallel leaves
    (list_sum (map (item_cost leaf_prep_lk v Parallel leaves) (pend it)))
    (fun a c x _ => eq_ind_r positive pos_nil (leaf_prep_q a c)) it leaves it' lv) as [W _].
  - constructor.
    + cbn [map app]. rewrite PE, map_fst_combine by apply seq_length. apply seq_NoDup.
    + auto.
    + intros j [].
    + intros p I. generalize (pend it), I. intros l. induction l as [|q l IH]; intros [].
      * subst. cbn [map]. rewrite list_sum_cons. lia.
      * cbn [map]. rewrite list_sum_cons. specialize (IH H). lia.
  - exact H1.
  - rewrite W. rewrite (sum_map_ext _ (fun p => job_need v (snd p))) by auto. rewrite PE.
    rewrite <- map_map. f_equal. f_equal. generalize 0 as o. clear. induction jobs as [|j jobs IH]; intros o; [reflexivity|].
    cbn [length seq combine map snd]. f_equal. apply IH.
Qed.

(** At most [x] runs of a kernel have idle lanes. *)
Definition packed (d x : nat) (t : list nat) : Prop := d * length t <= list_sum t + (d - 1) * x.
Lemma packed_nil d : packed d 0 [].
Proof. unfold packed. cbn. lia. Qed.
Lemma packed_app d x y t u : packed d x t -> packed d y u -> packed d (x + y) (t ++ u).
Proof. unfold packed. rewrite app_length, list_sum_app. nia. Qed.
Lemma packed_ones d n : packed d n (repeat 1 n).
Proof. unfold packed. rewrite repeat_length, list_sum_repeat. destruct d; nia. Qed.
Lemma packed_le d x y t : packed d x t -> x <= y -> packed d y t.
Proof. unfold packed. nia. Qed.

Lemma compress_leaves_pace v e imp fin leaves jobs r c dl : length leaves = D v -> length jobs = D v -> dl <= c -> dl <= 1 ->
  Forall (fun j => c - dl <= job_need v j <= c) jobs ->
  snd (compress_leaves_lk v e imp fin leaves jobs) = Ret r ->
  packed (degree v imp) (dl * D v) (ks (compress_leaves_lk v e imp fin leaves jobs)).
Proof.
  intros LL LJ DC D1 FJ H. unfold compress_leaves_lk in *.
  destruct (lbind_inv _ _ _ H) as ([it' lv] & H1 & _ & ->). rewrite ks_ret, app_nil_r. clear H.
  set (it := {| i_peeked := None; i_src := _; i_done := false; i_calls := 0 |}) in *.
  assert (PE : pend it = combine (seq 0 (length jobs)) jobs).
  { unfold pend, it. cbn [i_done i_peeked i_src app]. rewrite LL, LJ. apply upto_none_map. }
  assert (IC : forall p, In p (pend it) -> item_cost leaf_prep_lk v Parallel leaves p = job_need v (snd p)).
  { intros [i [[x n] l]] I. rewrite PE in I. destruct (combine_nth _ _ _ _ I) as [R _]. unfold item_cost. cbn [fst snd].
    destruct (nth_error leaves i) eqn:E; [|apply nth_error_None in E; lia]. reflexivity. }
  assert (FI : Forall (fun x => c - dl <= x <= c) (map (item_cost leaf_prep_lk v Parallel leaves) (pend it))).
  { apply Forall_forall. intros y Hy. apply in_map_iff in Hy. destruct Hy as (p & <- & Hp). rewrite IC by auto.
    rewrite Forall_forall in FJ. apply FJ. rewrite PE in Hp. destruct p as [i j]. apply in_combine_r in Hp. exact Hp. }
  pose proof (compress_many_even (fun ws => ws) (fun _ ws => ws) leaf_prep_lk v e imp fin Parallel leaves c c dl
    (fun a x => leaf_prep_q a x)) as W. cbv zeta in W. 
  assert (DV : D v = D v / degree v imp * degree v imp) by (destruct v, imp; reflexivity).
  unfold packed. eapply Nat.le_trans; [refine (W _ it leaves it' lv (D v / degree v imp) _ _ _ _ H1)|].
  - intros a x y E. injection E as <-. eexists. reflexivity.
  - constructor.
    + cbn [map app]. rewrite PE, map_fst_combine by apply seq_length. apply seq_NoDup.
    + auto.
    + intros j [].
    + intros p I. rewrite Forall_forall in FI. apply FI. apply in_map. exact I.
  - exact DC.
  - rewrite PE, combine_length, seq_length, LJ, Nat.min_id. exact DV.
  - exact FI.
  - apply Nat.add_le_mono_l. rewrite <- Nat.mul_assoc. apply Nat.mul_le_mono_l. rewrite DV at 2.
    generalize (D v / degree v imp). intros k. nia.
Qed.

Lemma mapM_lk_ret {A B} (f : A -> Leak.L B) (g : A -> B) l ys : (forall x, In x l -> snd (f x) = Ret (g x)) ->
  snd (mapM_lk f l) = Ret ys -> ys = map g l.
Proof.
  intros H1 H2. apply mapM_inv in H2. induction H2 as [|x y l ys E _ IH]; [reflexivity|]. cbn [map]. f_equal.
  - specialize (H1 x ltac:(left; auto)). congruence.
  - apply IH. intros; apply H1; right; auto.
Qed.

(** Batches keep the number of objects. *)
Lemma bind_inv {A B} (x : outcome A) (f : A -> outcome B) b : bind x f = Ret b -> exists a, x = Ret a /\ f a = Ret b.
Proof. destruct x; cbn; try discriminate. eauto. Qed.

Section Keep.
Context {C A : Type}.
Variable get : C -> list N.
Variable put : C -> list N -> C.
Variable prep : A -> C -> outcome (C * prepared).
Variables (v : variant) (e : env) (imp : platform) (finalize : bool) (st : stride).

Lemma start_length cells p cells' o : start prep cells p = Ret (cells', o) -> length cells' = length cells.
Proof.
  destruct p as [r a]. unfold start, prepared. intros H. destruct (bind_inv _ _ _ H) as (c & _ & H1).
  destruct (bind_inv _ _ _ H1) as ([c' q] & _ & H2). destruct q as [[[i n] l]|]; injection H2 as <- _; apply set_length.
Qed.
Lemma pull_length src : forall calls cells it' cells' o, pull_src prep src calls cells = Ret (it', cells', o) -> length cells' = length cells.
Proof.
  induction src as [|[p|] src IH]; intros calls cells it' cells' o H; cbn [pull_src] in H.
  - injection H as _ <- _. reflexivity.
  - destruct (bind_inv _ _ _ H) as ([cs q] & H1 & H2). apply start_length in H1. destruct q.
    + injection H2 as _ <- _. exact H1.
    + apply IH in H2. congruence.
  - injection H as _ <- _. reflexivity.
Qed.
Lemma next_length it cells it' cells' o : next prep it cells = Ret (it', cells', o) -> length cells' = length cells.
Proof.
  unfold next. destruct (i_done it); [intros H; injection H as _ <- _; reflexivity|].
  destruct (i_peeked it) as [p|]; [|apply pull_length].
  intros H. destruct (bind_inv _ _ _ H) as ([cs q] & H1 & H2). apply start_length in H1. destruct q.
  - injection H2 as _ <- _. exact H1.
  - apply pull_length in H2. congruence.
Qed.
Lemma fill_length k : forall it cells vec it' cells' vec', fill prep v k it cells vec = Ret (it', cells', vec') -> length cells' = length cells.
Proof.
  induction k as [|k IH]; intros it cells vec it' cells' vec' H; cbn [fill] in H.
  - injection H as _ <- _. reflexivity.
  - destruct (bind_inv _ _ _ H) as ([[it1 cs] q] & H1 & H2). apply next_length in H1. destruct q.
    + destruct (bind_inv _ _ _ H2) as (u & _ & H3). apply IH in H3. congruence.
    + injection H2 as _ <- _. exact H1.
Qed.
Lemma store_length cells r ws cells' : store_words put cells r ws = Ret cells' -> length cells' = length cells.
Proof. intros H. destruct (bind_inv _ _ _ H) as (c & _ & H1). injection H1 as <-. apply set_length. Qed.
Lemma store_jobs_length js : forall cells cells' vs, store_jobs put cells js = Ret (cells', vs) -> length cells' = length cells.
Proof.
  induction js as [|[j k] js IH]; intros cells cells' vs H; cbn [store_jobs] in H.
  - injection H as <- _. reflexivity.
  - destruct (bind_inv _ _ _ H) as (cs & H1 & H2). apply store_length in H1.
    destruct (bind_inv _ _ _ H2) as ([cs2 vs2] & H3 & H4). apply IH in H3. injection H4 as <- _. congruence.
Qed.
Lemma batch_length loop n fuel : forall it cells vec it' cells' vec',
  batch_loop get put prep v e loop n fuel it cells vec = Ret (it', cells', vec') -> length cells' = length cells.
Proof.
  induction fuel as [|fuel IH]; intros it cells vec it' cells' vec' H; [discriminate|]. cbn [batch_loop] in H.
  destruct (bind_inv _ _ _ H) as ([[it1 cs] vec1] & H1 & H2). unfold fill_jobs_vec in H1. apply fill_length in H1.
  destruct (Nat.ltb (length vec1) n); [injection H2 as _ <- _; exact H1|].
  destruct (bind_inv _ _ _ H2) as ([cs2 vec2] & H3 & H4). destruct (bind_inv _ _ _ H4) as (vec3 & _ & H5). apply IH in H5.
  unfold run_jobs in H3. destruct (bind_inv _ _ _ H3) as (a1 & _ & H6). destruct (bind_inv _ _ _ H6) as (a2 & _ & H7).
  destruct (bind_inv _ _ _ H7) as (a3 & _ & H8). destruct (bind_inv _ _ _ H8) as ([a4 a5] & H9 & H10). apply store_jobs_length in H9.
  injection H10 as <- _. congruence.
Qed.
Lemma one_length cells j cells' : run_one get put v e imp finalize st cells j = Ret cells' -> length cells' = length cells.
Proof.
  intros H. unfold run_one in H. destruct (bind_inv _ _ _ H) as (a1 & _ & H6). destruct (bind_inv _ _ _ H6) as (a2 & _ & H7).
  eapply store_length; eauto.
Qed.
Lemma vec_length vec : forall cells cells', run_vec get put v e imp finalize st cells vec = Ret cells' -> length cells' = length cells.
Proof.
  induction vec as [|j vec IH]; intros cells cells' H; cbn [run_vec] in H; [congruence|].
  destruct (bind_inv _ _ _ H) as (cs & H1 & H2). apply one_length in H1. apply IH in H2. congruence.
Qed.
Lemma rest_length fuel : forall it cells it' cells',
  run_rest get put prep v e imp finalize st fuel it cells = Ret (it', cells') -> length cells' = length cells.
Proof.
  induction fuel as [|fuel IH]; intros it cells it' cells' H; [discriminate|]. cbn [run_rest] in H.
  destruct (bind_inv _ _ _ H) as ([[it1 cs] q] & H1 & H2). apply next_length in H1. destruct q.
  - destruct (bind_inv _ _ _ H2) as (cs2 & H3 & H4). apply one_length in H3. apply IH in H4. congruence.
  - injection H2 as _ <-. exact H1.
Qed.
Lemma compress_many_length it cells it' cells' :
  compress_many get put prep v e imp finalize st it cells = Ret (it', cells') -> length cells' = length cells.
Proof.
  intros H. unfold compress_many in H. destruct (bind_inv _ _ _ H) as ([[it1 c1] vec1] & H1 & H2). clear H.
  destruct (bind_inv _ _ _ H2) as ([[it2 c2] vec2] & H3 & H4). clear H2.
  destruct (bind_inv _ _ _ H4) as (c3 & H5 & H6). apply vec_length in H5. apply rest_length in H6.
  assert (length c1 = length cells).
  { destruct (Nat.leb _ _) in H1; [eapply batch_length; eauto|congruence]. }
  assert (length c2 = length c1).
  { destruct (Nat.leb _ _) in H3; [eapply batch_length; eauto|congruence]. }
  congruence.
Qed.
End Keep.

(** A pass over whole stripes. *)
Lemma stripes_work v e imp leaves input count lv c' q : length leaves = D v -> length input = q * P v -> 0 < q ->
  snd (compress_to_leaves_lk v e imp leaves input count) = Ret (lv, c') ->
  list_sum (ks (compress_to_leaves_lk v e imp leaves input count)) = D v * q /\ length lv = D v /\
  packed (degree v imp) 0 (ks (compress_to_leaves_lk v e imp leaves input count)).
Proof.
  intros LL LI Q H. unfold compress_to_leaves_lk in *.
  destruct (lbind_inv _ _ _ H) as (jobs & H1 & H2 & ->). clear H.
  rewrite q_mapM by (intros; qt). cbn [app].
  assert (EJ : jobs = map (fun i => (skipn (i * blockbytes v) input, count, false)) (seq 0 (D v))).
  { refine (mapM_lk_ret _ _ _ _ _ H1). intros i Hi. apply in_seq in Hi.
    pose proof (iB_le v i ltac:(lia)). assert (P v <= q * P v) by nia.
    unfold lbind, slice_from_lk, emit. cbn [snd fst]. rewrite slice_from_ok by lia. reflexivity. }
  destruct (lbind_inv _ _ _ H2) as (lv0 & H3 & H4 & ->). clear H2. rewrite snd_tell in H4. injection H4 as -> _.
  change (ks (tell _ (ret _))) with (@nil nat). rewrite app_nil_r.
  assert (LJ : length jobs = D v) by (rewrite EJ, map_length, seq_length; reflexivity).
  rewrite (compress_leaves_work _ _ _ _ _ _ _ (eq_trans LL (eq_sym LJ)) H3). split; [|split].
  - subst jobs. rewrite map_map.
    rewrite (sum_map_ext _ (fun _ => q)).
    + clear. generalize 0 as o. induction (D v) as [|n IH]; intros o; [reflexivity|]. cbn [seq map]. rewrite list_sum_cons, IH. lia.
    + intros i Hi. apply in_seq in Hi. unfold job_need. cbn [fst]. rewrite skipn_length, LI. apply need_whole; lia.
  - clear - H3 LL. rewrite compress_leaves_erase in H3. unfold compress_leaves in H3.
    destruct (bind_inv _ _ _ H3) as ([it' l'] & H1 & H2). injection H2 as <-. apply compress_many_length in H1. congruence.
  - apply (compress_leaves_pace v e imp false leaves jobs lv q 0 LL LJ ltac:(lia) ltac:(lia)) in H3; [exact H3|].
    apply Forall_forall. intros j Hj. subst jobs. apply in_map_iff in Hj. destruct Hj as (i & <- & Hi). apply in_seq in Hi.
    unfold job_need. cbn [fst]. rewrite skipn_length, LI, need_whole by lia. lia.
Qed.

(** ** The state *)
Record pbuffer_ok (v : variant) (s : pstate) : Prop := {
  pb_leaves : length (ps_leaf_words s) = D v;
  pb_len : length (ps_buf s) = 2 * P v;
  pb_le : ps_buf_len s <= 2 * P v }.
Lemma pbuffer_of v h X k s : pabs v h X k s -> pbuffer_ok v s.
Proof. intros A. constructor; [|apply A|apply A]. rewrite (pa_leaves _ _ _ _ _ A), map_length, seq_length. reflexivity. Qed.

Lemma q_p_fill e s x : ks (p_fill_buf_lk e s x) = [].
Proof. unfold p_fill_buf_lk. qt. Qed.
Lemma p_fill_inv v e s x s' y : pbuffer_ok v s -> snd (p_fill_buf_lk e s x) = Ret (s', y) ->
  pbuffer_ok v s' /\ ps_imp s' = ps_imp s /\ length y = length x - (2 * P v - ps_buf_len s) /\
  ps_buf_len s' = ps_buf_len s + Nat.min (2 * P v - ps_buf_len s) (length x).
Proof.
  intros [B0 B1 B2] H. rewrite p_fill_buf_erase in H. unfold p_fill_buf in H. rewrite B1 in H.
  set (t := Nat.min (2 * P v - ps_buf_len s) (length x)) in *. pose proof (P_lt v) as B.
  assert (Ht : t <= length x /\ ps_buf_len s + t <= 2 * P v) by (unfold t; lia).
  rewrite slice0_ok in H by lia. cbn [bind] in H.
  assert (Lt : length (firstn t x) = t) by (apply firstn_length_le; lia).
  rewrite copy_into_ok in H by lia. cbn [bind] in H. unfold add_u16 in H. rewrite N.mod_small, Nat2N.id in H by lia.
  destruct (N.ltb_spec (N.of_nat (ps_buf_len s) + N.of_nat t) 65536); [|lia]. cbn [bind] in H.
  rewrite slice_from_ok in H by lia. cbn [bind] in H. injection H as <- <-. pstf.
  rewrite skipn_length. split; [|split; [reflexivity|split; [unfold t; lia|reflexivity]]].
  constructor; pstf; auto; [|lia]. rewrite !app_length, firstn_length, skipn_length, Lt. lia.
Qed.

Lemma p_update_work v e s x s' : pbuffer_ok v s -> snd (p_update_lk v e s x) = Ret s' ->
  exists q, list_sum (ks (p_update_lk v e s x)) = D v * q /\ ps_buf_len s + length x = q * P v + ps_buf_len s' /\
  packed (degree v (ps_imp s)) 0 (ks (p_update_lk v e s x)) /\ ps_imp s' = ps_imp s.
Proof.
  intros B H. unfold p_update_lk in *. cbv zeta in *. rewrite <- P_eq in *. fold (tail v) in *.
  pose proof (P_pos v) as PP. pose proof (P_lt v) as PL. pose proof (tail_P v) as TP. pose proof (blockbytes_pos v) as BP.
  destruct (lbind_inv _ _ _ H) as ([s1 y] & H1 & H2 & ->). clear H. rewrite list_sum_app.
  match type of H1 with snd ?t = _ => set (ph1 := t) in * end.
  assert (PH1 : exists q, list_sum (ks ph1) = D v * q /\ pbuffer_ok v s1 /\ ps_buf_len s + length x = q * P v + (ps_buf_len s1 + length y) /\
     packed (degree v (ps_imp s)) 0 (ks ph1) /\ ps_imp s1 = ps_imp s /\
     (ps_buf_len s1 = 0 \/ y = [] \/ (ps_buf_len s1 = P v /\ length y <= tail v))).
  { unfold ph1 in *. clear ph1 H2. rewrite snd_branch in H1. rewrite ks_branch. destruct (Nat.ltb_spec 0 (ps_buf_len s)) as [Pos|Zero].
    - destruct (lbind_inv _ _ _ H1) as ([s2 z] & K1 & K2 & ->). clear H1. rewrite q_p_fill. cbn [app].
      destruct (p_fill_inv _ _ _ _ _ _ B K1) as (B2 & I2 & L2 & L3). rewrite I2 in *. rewrite snd_branch in K2. rewrite ks_branch.
      pose proof (pb_le _ _ B) as LE.
      destruct z as [|b r]; cbn [is_empty] in *.
      + injection K2 as <- <-. exists 0. rewrite ks_ret. cbn [length] in *. split; [cbn; lia|]. split; [exact B2|]. split; [lia|]. split; [apply packed_nil|auto].
      + set (z := b :: r) in *. assert (Lz : 0 < length z) by (cbn; lia). clearbody z.
        rewrite snd_branch in K2. rewrite ks_branch. destruct (Nat.ltb_spec (tail v) (length z)) as [Big|Small].
        * destruct (lbind_inv _ _ _ K2) as ([lv c'] & K3 & K4 & ->). injection K4 as <- <-. rewrite ks_ret, app_nil_r.
          destruct (stripes_work v e _ _ _ _ _ _ 2 (pb_leaves _ _ B2) (pb_len _ _ B2) ltac:(lia) K3) as (W & LL & PK).
          exists 2. split; [exact W|]. pstf. split; [constructor; pstf; [exact LL|apply B2|lia]|]. split; [lia|]. split; [exact PK|auto].
        * destruct (lbind_inv _ _ _ K2) as (fr & K3 & K4 & ->). clear K2. change (ks (slice_lk _ _ _)) with (@nil nat). cbn [app].
          apply slice_inv in K3. destruct K3 as [-> K3]. cbn [skipn] in *. rewrite Nat.sub_0_r in *.
          destruct (lbind_inv _ _ _ K4) as ([lv c'] & K5 & K6 & ->). clear K4.
          destruct (stripes_work v e _ _ (firstn (P v) (ps_buf s2)) _ _ _ 1 (pb_leaves _ _ B2)
                     ltac:(rewrite firstn_length, (pb_len _ _ B2); lia) ltac:(lia) K5) as (W & LL & PK).
          destruct (lbind_inv _ _ _ K6) as (bf & K7 & K8 & ->). clear K6. change (ks (slice_lk _ _ _)) with (@nil nat). cbn [app].
          destruct (lbind_inv _ _ _ K8) as (bb & K9 & K10 & ->). clear K8. change (ks (slice_from_lk _ _)) with (@nil nat). cbn [app].
          destruct (lbind_inv _ _ _ K10) as (bf' & K11 & K12 & ->). clear K10. rewrite ks_branch, ks_ret, app_nil_r.
          assert (Z : (if Nat.eqb (length bf) (length bb) then ks (emit [Access 0 (length bb)] (Ret bb)) else ks (@emit (list byte) [] Panic)) = [])
            by (destruct (Nat.eqb _ _); reflexivity). rewrite Z, app_nil_r. clear Z.
          rewrite snd_branch in K11. destruct (Nat.eqb_spec (length bf) (length bb)) as [LB|]; [|discriminate]. injection K11 as <-.
          injection K12 as <- <-. pstf. apply slice_from_inv in K9. destruct K9 as [-> K9]. pstf.
          rewrite skipn_length, (pb_len _ _ B2) in *. rewrite <- ?P_eq. rewrite N.mod_small, Nat2N.id by lia.
          exists 1. split; [exact W|]. split; [|split; [lia|split; [exact PK|split; [exact I2|right; right; split; [reflexivity|lia]]]]].
          constructor; pstf; [exact LL| |lia]. rewrite app_length, skipn_length, (pb_len _ _ B2). lia.
    - injection H1 as <- <-. exists 0. rewrite ks_ret. split; [cbn; lia|]. split; [exact B|]. split; [lia|]. split; [apply packed_nil|split; [reflexivity|left; lia]]. }
  destruct PH1 as (q1 & W1 & B1 & L1 & PK1 & I1 & CS). rewrite W1. clear W1 H1. clearbody ph1.
  destruct (lbind_inv _ _ _ H2) as (e1 & H3 & H4 & ->). clear H2. injection H3 as <-. change (ks (sat_sub_lk _ _)) with (@nil nat). cbn [app].
  destruct (lbind_inv _ _ _ H4) as (e2 & H5 & H6 & ->). clear H4. injection H5 as <-. change (ks (round_down_lk _ _)) with (@nil nat). cbn [app].
  unfold sat_sub in *. rewrite <- ?P_eq in *. destruct (bulk_props v (length y)) as (n & En & Hn0 & Hn1). cbv zeta in En. rewrite En in *. clear En.
  destruct (lbind_inv _ _ _ H6) as ([s2 z] & H7 & H8 & ->). clear H6. rewrite list_sum_app.
  assert (PH2 : list_sum (ks (branch (Nat.ltb 0 (n * P v))
      (ldo bulk <- slice_lk y 0 (n * P v);
       ldo '(leaves, count) <- compress_to_leaves_lk v e (ps_imp s1) (ps_leaf_words s1) bulk (ps_count s1);
       ldo rest <- slice_from_lk y (n * P v); ret (set_ps_count count (set_ps_leaves leaves s1), rest)) (ret (s1, y)))) = D v * n /\
     packed (degree v (ps_imp s)) 0 (ks (branch (Nat.ltb 0 (n * P v))
      (ldo bulk <- slice_lk y 0 (n * P v);
       ldo '(leaves, count) <- compress_to_leaves_lk v e (ps_imp s1) (ps_leaf_words s1) bulk (ps_count s1);
       ldo rest <- slice_from_lk y (n * P v); ret (set_ps_count count (set_ps_leaves leaves s1), rest)) (ret (s1, y)))) /\ ps_imp s2 = ps_imp s /\
     pbuffer_ok v s2 /\ ps_buf_len s1 + length y = n * P v + (ps_buf_len s2 + length z) /\ ps_buf_len s2 + length z <= 2 * P v).
  { rewrite snd_branch in H7. rewrite ks_branch. destruct (Nat.ltb_spec 0 (n * P v)) as [Pos|Zero].
    - destruct (lbind_inv _ _ _ H7) as (bk & K1 & K2 & ->). clear H7. change (ks (slice_lk _ _ _)) with (@nil nat). cbn [app].
      apply slice_inv in K1. destruct K1 as [-> K1]. cbn [skipn] in *. rewrite Nat.sub_0_r in *.
      destruct (lbind_inv _ _ _ K2) as ([lv c'] & K3 & K4 & ->). clear K2.
      destruct (stripes_work v e _ _ (firstn (n * P v) y) _ _ _ n (pb_leaves _ _ B1) ltac:(rewrite firstn_length; lia) ltac:(nia) K3) as (W & LL & PK).
      destruct (lbind_inv _ _ _ K4) as (rs & K5 & K6 & ->). clear K4. change (ks (slice_from_lk _ _)) with (@nil nat). cbn [app].
      rewrite ks_ret, app_nil_r. injection K6 as <- <-. apply slice_from_inv in K5. destruct K5 as [-> K5]. pstf. rewrite skipn_length.
      assert (TY : tail v < length y) by (destruct (Nat.le_gt_cases (length y) (tail v)) as [C|C]; auto; specialize (Hn0 C); subst n; lia).
      destruct (Hn1 TY) as [N1 N2].
      assert (Z : ps_buf_len s1 = 0).
      { destruct CS as [C|[C|[_ C]]]; auto; [subst y; cbn in TY|]; lia. }
      split; [exact W|]. split; [rewrite <- I1; exact PK|]. split; [exact I1|]. split; [constructor; pstf; [exact LL|apply B1|apply B1]|]. lia.
    - assert (n = 0) by nia. subst n. injection H7 as <- <-. rewrite ks_ret. split; [cbn; lia|]. split; [apply packed_nil|]. split; [exact I1|]. split; [exact B1|]. split; [lia|].
      pose proof (pb_le _ _ B1).
      destruct CS as [C|[C|[C1 C2]]]; [|subst y; cbn [length]; lia|lia].
      destruct (Nat.le_gt_cases (length y) (tail v)) as [T|T]; [lia|]. specialize (Hn1 T). lia. }
  destruct PH2 as (W2 & PK2 & I2 & B2 & L2 & L2'). rewrite W2. clear W2 H7.
  destruct (lbind_inv _ _ _ H8) as ([s3 z'] & H9 & H10 & ->). rewrite q_p_fill. cbn [app].
  destruct (lbind_inv _ _ _ H10) as (u & _ & H11 & ->). injection H11 as <-. rewrite q_debug, ks_ret.
  destruct (p_fill_inv _ _ _ _ _ _ B2 H9) as (_ & I3 & L3 & L4). change (list_sum ([] ++ [])) with 0.
  exists (q1 + n). split; [lia|]. rewrite L4, Nat.min_r by lia. split; [nia|]. split; [|congruence].
  apply (packed_app _ 0 0); auto. apply (packed_app _ 0 0); auto. apply packed_nil.
Qed.

(** ** The root *)
Lemma root_work v e lv rw hl imp h : length lv = D v -> Forall (fun ws => length ws = 8) lv ->
  snd (finalize_root_words_lk v e lv rw hl imp) = Ret h ->
  list_sum (ks (finalize_root_words_lk v e lv rw hl imp)) = root_blocks (fl v).
Proof.
  intros LL L8 H. unfold finalize_root_words_lk in *. destruct (lbind_inv _ _ _ H) as (u & _ & H1 & ->). clear H.
  rewrite q_debug. cbn [app]. destruct (lbind_inv _ _ _ H1) as (ws & H2 & _ & ->). rewrite ks_ret, app_nil_r, ks_tell.
  rewrite snd_tell in H2. rewrite (ks_c1 _ _ _ _ _ _ _ _ _ _ H2).
  assert (Q : forall A (f : A -> nat) g l, compressions (map (fun i => Access (f i) g) l) = []) by (intros A f g l; induction l; auto).
  rewrite Q. cbn [app]. rewrite list_sum_repeat.
  assert (LB : length (flat_map (to_le (wbytes v)) (concat lv)) = wbytes v * (8 * D v)).
  { rewrite <- LL. clear - L8. induction L8 as [|w lv H _ IH]; cbn [concat flat_map length]; [lia|].
    rewrite flat_map_app, app_length, IH.
    assert (E : length (flat_map (to_le (wbytes v)) w) = wbytes v * length w).
    { clear. induction w as [|a w IH]; cbn [flat_map length]; [lia|]. rewrite app_length, to_le_length, IH. lia. }
    rewrite E, H. lia. }
  rewrite LB. unfold need, root_blocks. destruct v; reflexivity.
Qed.

Lemma tree_end_work v e imp (h0 : nat -> list N) (x : nat -> list byte) c ln rw hl h :
  supported e imp -> aligned v c -> (forall i, i < D v -> words_ok v (h0 i)) ->
  let k := ldo lv <- compress_leaves_lk v e imp true (map h0 (seq 0 (D v))) (map (fun i => (x i, c, ln i)) (seq 0 (D v)));
           finalize_root_words_lk v e lv rw hl imp in
  snd k = Ret h -> list_sum (ks k) = list_sum (map (fun i => need v Parallel (length (x i))) (seq 0 (D v))) + root_blocks (fl v).
Proof.
  intros SU AL WO k H. unfold k in *. clear k. destruct (lbind_inv _ _ _ H) as (lv & H1 & H2 & ->).
  rewrite list_sum_app. f_equal.
  - rewrite (compress_leaves_work _ _ _ _ _ _ _ (eq_trans (map_length _ _) (eq_sym (map_length _ _))) H1). rewrite map_map. reflexivity.
  - rewrite compress_leaves_erase in H1. rewrite (compress_leaves_spec v e imp true h0 x c ln SU AL) in H1.
    2:{ intros i Hi. split; [auto|left; reflexivity]. }
    injection H1 as <-. apply (root_work _ _ _ _ _ _ _) with (3 := H2).
    + rewrite map_length, seq_length. reflexivity.
    + apply Forall_forall. intros ws Hw. apply in_map_iff in Hw. destruct Hw as (i & <- & Hi). apply in_seq in Hi.
      apply (C1_ok v Parallel true (ln i) (x i) (h0 i) c (WO i ltac:(lia))).
Qed.

(** The blocks of the leaves of a stream. *)
Lemma tree_blocks_eq v c msg : wf_pconfig (fl v) c ->
  tree_blocks (fl v) (ApiSpec.pc_key c) msg =
  list_sum (map (fun i => need v Parallel (length (key_stripe v c ++ msg) - i * blockbytes v)) (seq 0 (D v))) + root_blocks (fl v).
Proof.
  intros W. unfold tree_blocks. rewrite leaves_fl. f_equal. apply sum_map_ext. intros i Hi. apply in_seq in Hi.
  rewrite <- L_stream by (auto; lia). rewrite nb_need. apply leaf_need. lia.
Qed.

Lemma rest_blocks v k bl : (0 < k -> tail v < bl) ->
  list_sum (map (fun i => need v Parallel (k * P v + bl - i * blockbytes v)) (seq 0 (D v))) =
  D v * k + list_sum (map (fun i => need v Parallel (bl - i * blockbytes v)) (seq 0 (D v))).
Proof.
  intros T. transitivity (list_sum (map (fun i => k + need v Parallel (bl - i * blockbytes v)) (seq 0 (D v)))).
  - apply sum_map_ext. intros i Hi. apply in_seq in Hi. destruct k as [|k]; [reflexivity|].
    specialize (T ltac:(lia)). pose proof (tail_P v). unfold tail in *. assert (i * blockbytes v <= (D v - 1) * blockbytes v) by nia.
    replace (S k * P v + bl - i * blockbytes v) with (S k * P v + (bl - i * blockbytes v)) by lia. apply need_stripes. lia.
  - clear. replace (D v * k) with (length (seq 0 (D v)) * k) by (rewrite seq_length; reflexivity).
    induction (seq 0 (D v)) as [|i l IH]; [reflexivity|]. cbn [map length]. rewrite !list_sum_cons, IH. lia.
Qed.

(** A state that has compressed [k] stripes has the rest to do. *)
Definition done_stripes (v : variant) (c : ApiSpec.pconfig) (msg : list byte) (s : pstate) (k : nat) : Prop :=
  length (key_stripe v c ++ msg) = k * P v + ps_buf_len s.

Lemma p_finalize_holds_work v e c msg s : pholds v e c msg s ->
  exists k, done_stripes v c msg s k /\
    D v * k + list_sum (ks (p_finalize_lk v e s)) = tree_blocks (fl v) (ApiSpec.pc_key c) msg /\
    list_sum (ks (p_finalize_lk v e s)) <= 2 * D v + root_blocks (fl v).
Proof.
  intros H. pose proof (pholds_finalize _ _ _ _ _ H) as F. rewrite <- p_finalize_erase in F.
  destruct H as [W SU (k & A & TO) R LN K]. exists k.
  assert (DS : done_stripes v c msg s k) by apply A. split; [exact DS|].
  unfold p_finalize_lk in *. cbv zeta in *. destruct (lbind_inv _ _ _ F) as (jobs & H1 & H2 & ->). clear F.
  rewrite q_mapM by (intros; qt). cbn [app].
  set (x := fun i => firstn (ps_buf_len s - Nat.min (i * blockbytes v) (ps_buf_len s)) (skipn (Nat.min (i * blockbytes v) (ps_buf_len s)) (ps_buf s))).
  assert (EJ : jobs = map (fun i => (x i, ps_count s, Nat.eqb i (D v - 1))) (seq 0 (D v))).
  { refine (mapM_lk_ret _ _ _ _ _ H1). intros i Hi. unfold lbind, slice_lk, min_lk, emit. cbn [snd fst].
    rewrite slice_ok by (pose proof (pa_le _ _ _ _ _ A); pose proof (pa_buflen _ _ _ _ _ A); lia). reflexivity. }
  subst jobs. rewrite (pa_leaves _ _ _ _ _ A) in H2. rewrite (pa_leaves _ _ _ _ _ A).
  rewrite (tree_end_work _ _ _ _ _ _ _ _ _ _ SU) with (3 := H2).
  2:{ rewrite (pa_count _ _ _ _ _ A). apply aligned_blocks. }
  2:{ intros i Hi. apply chain_ok. apply A. auto. }
  assert (LX : forall i, length (x i) = ps_buf_len s - i * blockbytes v).
  { intros i. unfold x. rewrite firstn_length, skipn_length, (pa_buflen _ _ _ _ _ A). pose proof (pa_le _ _ _ _ _ A). lia. }
  rewrite (sum_map_ext _ (fun i => need v Parallel (ps_buf_len s - i * blockbytes v))) by (intros; rewrite LX; reflexivity).
  split.
  - rewrite tree_blocks_eq by auto. unfold done_stripes in DS. rewrite DS, rest_blocks by exact TO. lia.
  - apply Nat.add_le_mono_r. replace (2 * D v) with (length (seq 0 (D v)) * 2) by (rewrite seq_length; lia). apply sum_map_le.
    intros i _. unfold need. cbn [padded_blockbytes]. fold (P v). pose proof (P_pos v). pose proof (pa_le _ _ _ _ _ A).
    enough ((ps_buf_len s - i * blockbytes v - 1) / P v < 2) by lia. apply Nat.div_lt_upper_bound; lia.
Qed.

Lemma p_update_holds_work v e c msg s x k : pholds v e c msg s -> done_stripes v c msg s k ->
  exists s' k', snd (p_update_lk v e s x) = Ret s' /\ done_stripes v c (msg ++ x) s' k' /\
    D v * k + list_sum (ks (p_update_lk v e s x)) = D v * k' /\
    list_sum (ks (p_update_lk v e s x)) <= D v * (length x / P v + 2).
Proof.
  intros H DS. destruct (pholds_update _ _ _ _ _ x H) as (s' & U & H' & _). rewrite <- p_update_erase in U.
  destruct H as [W SU (k0 & A & TO) R LN K].
  destruct (p_update_work _ _ _ _ _ (pbuffer_of _ _ _ _ _ A) U) as (q & E & L). exists s', (k + q). split; [exact U|].
  pose proof (P_pos v) as PP. split; [|split].
  - unfold done_stripes in *. rewrite app_assoc, app_length, DS. lia.
  - rewrite E. lia.
  - rewrite E. apply Nat.mul_le_mono_l. pose proof (pa_le _ _ _ _ _ A) as LE. assert (q * P v <= length x + 2 * P v) by lia.
    transitivity ((length x + 2 * P v) / P v); [apply Nat.div_le_lower_bound; lia|]. rewrite Nat.div_add by lia. lia.
Qed.

Lemma run_seq_q {Q} (a b : lmethod Q) p : compressions (fst (a p)) = [] -> (forall p, compressions (fst (b p)) = []) ->
  compressions (fst ((a ;;; b) p)) = [].
Proof.
  intros H1 H2. unfold lm_seq. destruct (a p) as [t [p' o]]. cbn [fst] in H1. destruct o; cbn [fst]; auto.
  specialize (H2 p'). destruct (b p') as [t' x]. cbn [fst] in *. rewrite ks_app, H1, H2. reflexivity.
Qed.

(** ** Methods that compress nothing *)
Definition qm {Q} (m : lmethod Q) : Prop := forall p, compressions (fst (m p)) = [].
Lemma qm_seq {Q} (a b : lmethod Q) : qm a -> qm b -> qm (a ;;; b).
Proof. intros H1 H2 p. apply run_seq_q; auto. Qed.
Lemma qm_assert {Q} c : qm (@lm_assert Q c).
Proof. intros p. reflexivity. Qed.
Lemma qm_assign {Q} (f : Q -> Q) : qm (lm_assign f).
Proof. intros p. reflexivity. Qed.
Lemma qm_try {Q} (f : Q -> Leak.L Q) : (forall p, ks (f p) = []) -> qm (lm_try f).
Proof. intros H p. apply H. Qed.
Lemma qm_run {Q} (m : lmethod Q) p : qm m -> ks (run_lk m p) = [].
Proof. intros H. unfold run_lk. specialize (H p). destruct (m p) as [t [p' o]]. exact H. Qed.
Ltac qmt := repeat (apply qm_seq); first [apply qm_assert | apply qm_assign | apply qm_try; qt | idtac].

Lemma qm_call_setter v s : qm (call_setter_lk v s).
Proof.
  destruct s; unfold call_setter_lk, hash_length_lk, key_lk, salt_lk, personal_lk, fanout_lk, max_depth_lk, max_leaf_length_lk,
    node_offset_lk, node_depth_lk, inner_hash_length_lk; qmt; intros p; reflexivity.
Qed.
Lemma qm_call_psetter v s : qm (call_psetter_lk v s).
Proof. destruct s; unfold call_psetter_lk, p_set_hash_length_lk, p_set_key_lk; qmt. Qed.

Lemma q_p_to_words v p : ks (p_to_words_lk v p) = [].
Proof.
  unfold p_to_words_lk. qt; try (apply qm_run);
  unfold hash_length_lk, key_lk, fanout_lk, max_depth_lk, max_leaf_length_lk, node_offset_lk, node_depth_lk, inner_hash_length_lk; qmt.
Qed.
Lemma q_copy_keys v k is : forall buf, ks (copy_keys_lk v k is buf) = [].
Proof. induction is as [|i is IH]; intros buf; cbn [copy_keys_lk]; [reflexivity|]. qt. apply IH. Qed.
Lemma q_p_with_params v p : ks (p_with_params_lk v p) = [].
Proof.
  unfold p_with_params_lk. apply q_bind; [apply q_p_to_words|]. intros [lw rw]. apply q_bind; [|intros [a b]; reflexivity].
  apply q_branch; [|reflexivity]. apply q_bind; [reflexivity|]. intros k. apply q_bind; [apply q_copy_keys|]. reflexivity.
Qed.

(** ** One-shot hashing *)
Lemma p_hash_work v e imp c m : wf_pconfig (fl v) c -> supported e imp ->
  list_sum (ks (p_hash_lk v e (pparams_of v imp c) m)) = tree_blocks (fl v) (ApiSpec.pc_key c) m.
Proof.
  intros W SU. pose proof (p_hash_spec v e imp c m W SU) as H. rewrite <- p_hash_erase in H. unfold p_hash_lk in *.
  rewrite snd_branch in H. rewrite ks_branch.
  assert (KP : N.ltb 0 (pp_key_length (pparams_of v imp c)) = pkeyed c).
  { unfold pkeyed. cbn [pparams_of pp_key_length]. destruct (ApiSpec.pc_key c); reflexivity. }
  rewrite KP in *. destruct (pkeyed c) eqn:K.
  - destruct (pholds_new v e imp c W SU) as (s & E & HS & _). 
    destruct (lbind_inv _ _ _ H) as (s0 & H1 & H2 & ->). clear H. unfold p_to_state_lk in *. rewrite q_p_with_params. cbn [app].
    rewrite p_with_params_erase in H1. unfold p_to_state in E. rewrite E in H1. injection H1 as <-.
    assert (DS : done_stripes v c [] s 0).
    { destruct HS as [_ _ (k & A & TO) _ _ _]. unfold done_stripes. pose proof (pa_len _ _ _ _ _ A) as LA.
      rewrite app_nil_r in *. cbn [Nat.mul Nat.add] in *. destruct k as [|k]; [exact LA|].
      specialize (TO ltac:(lia)). rewrite key_stripe_length, K in LA by auto. pose proof (P_pos v). nia. }
    destruct (p_update_holds_work _ _ _ _ _ m 0 HS DS) as (s1 & k & U & DS1 & E1 & _).
    destruct (lbind_inv _ _ _ H2) as (s2 & H3 & H4 & ->). clear H2.
    destruct (pholds_update _ _ _ _ _ m HS) as (s3 & U3 & HS3 & _). rewrite <- p_update_erase in U3.
    assert (s3 = s1) by congruence. assert (s2 = s1) by congruence. subst s2 s3. cbn [app] in *.
    destruct (p_finalize_holds_work _ _ _ _ _ HS3) as (k' & DS2 & E2 & _).
    rewrite list_sum_app, <- E2. unfold done_stripes in *. pose proof (P_pos v). assert (k = k') by nia. subst. lia.
  - destruct (lbind_inv _ _ _ H) as ([lw rw] & H1 & H2 & ->). clear H. rewrite q_p_to_words. cbn [app].
    rewrite p_to_words_erase, p_to_words_spec in H1 by auto. injection H1 as <- <-.
    destruct (lbind_inv _ _ _ H2) as (jobs & H3 & H4 & ->). clear H2. rewrite q_mapM by (intros; qt). cbn [app].
    set (x := fun i => skipn (Nat.min (length m) (i * blockbytes v)) m).
    assert (EJ : jobs = map (fun i => (x i, 0%N, Nat.eqb i (D v - 1))) (seq 0 (D v))).
    { refine (mapM_lk_ret _ _ _ _ _ H3). intros i Hi. unfold lbind, slice_from_lk, min_lk, emit. cbn [snd fst].
      rewrite slice_from_ok by lia. reflexivity. }
    subst jobs. change (pp_imp (pparams_of v imp c)) with imp in *. rewrite (tree_end_work _ _ _ _ _ _ _ _ _ _ SU) with (3 := H4).
    2:{ split; [destruct v; reflexivity|]. apply N.mod_0_l. destruct v; cbn; lia. }
    2:{ intros; apply leaf_h0_ok. }
    rewrite tree_blocks_eq by auto. f_equal. apply sum_map_ext. intros i _. unfold x, key_stripe. rewrite K. cbn [app].
    rewrite skipn_length. f_equal. lia.
Qed.

(** ** How full the lanes are *)
Lemma root_ones v e lv rw hl imp h : snd (finalize_root_words_lk v e lv rw hl imp) = Ret h ->
  exists n, ks (finalize_root_words_lk v e lv rw hl imp) = repeat 1 n.
Proof.
  intros H. unfold finalize_root_words_lk in *. destruct (lbind_inv _ _ _ H) as (u & _ & H1 & ->). clear H.
  rewrite q_debug. cbn [app]. destruct (lbind_inv _ _ _ H1) as (ws & H2 & _ & ->). rewrite ks_ret, app_nil_r, ks_tell.
  rewrite snd_tell in H2. rewrite (ks_c1 _ _ _ _ _ _ _ _ _ _ H2).
  assert (Q : forall A (f : A -> nat) g l, compressions (map (fun i => Access (f i) g) l) = []) by (intros A f g l; induction l; auto).
  rewrite Q. cbn [app]. eexists. reflexivity.
Qed.

Lemma tree_end_pace v e imp (h0 : nat -> list N) (x : nat -> list byte) c ln rw hl h len :
  supported e imp -> aligned v c -> (forall i, i < D v -> words_ok v (h0 i)) ->
  (forall i, i < D v -> length (x i) = len - i * blockbytes v) ->
  let k := ldo lv <- compress_leaves_lk v e imp true (map h0 (seq 0 (D v))) (map (fun i => (x i, c, ln i)) (seq 0 (D v)));
           finalize_root_words_lk v e lv rw hl imp in
  snd k = Ret h -> packed (degree v imp) (D v + root_blocks (fl v)) (ks k).
Proof.
  intros SU AL WO LX k H. unfold k in *. clear k. destruct (lbind_inv _ _ _ H) as (lv & H1 & H2 & ->).
  apply packed_app.
  - apply (packed_le _ (1 * D v)); [|lia]. apply (compress_leaves_pace v e imp true) with (c := need v Parallel len) (6 := H1);
      rewrite ?map_length, ?seq_length; auto; [unfold need; apply le_n_S, Nat.le_0_l|].
    apply Forall_forall. intros j Hj. apply in_map_iff in Hj. destruct Hj as (i & <- & Hi). apply in_seq in Hi.
    unfold job_need. cbn [fst]. rewrite LX by lia. unfold need. cbn [padded_blockbytes]. fold (P v).
    pose proof (P_pos v) as PP. pose proof (iB_le v i ltac:(lia)) as IB. pose proof (blockbytes_pos v) as BP.
    assert (U : (len - i * blockbytes v - 1) / P v <= (len - 1) / P v) by (apply Nat.div_le_mono; lia).
    assert (V : (len - 1) / P v <= S ((len - i * blockbytes v - 1) / P v)).
    { transitivity ((len - i * blockbytes v - 1 + 1 * P v) / P v); [apply Nat.div_le_mono; lia|]. rewrite Nat.div_add by lia. lia. }
    revert U V. generalize ((len - i * blockbytes v - 1) / P v), ((len - 1) / P v). intros; lia.
  - rewrite compress_leaves_erase in H1. rewrite (compress_leaves_spec v e imp true h0 x c ln SU AL) in H1.
    2:{ intros i Hi. split; [auto|left; reflexivity]. }
    injection H1 as <-. destruct (root_ones _ _ _ _ _ _ _ H2) as (n & E).
    assert (S : list_sum (ks (finalize_root_words_lk v e (map (fun i => C1 v Parallel true (ln i) (x i) (h0 i) c) (seq 0 (D v))) rw hl imp)) = root_blocks (fl v)).
    { apply (root_work _ _ _ _ _ _ _) with (3 := H2).
      + rewrite map_length, seq_length. reflexivity.
      + apply Forall_forall. intros ws Hw. apply in_map_iff in Hw. destruct Hw as (i & <- & Hi). apply in_seq in Hi.
        apply (C1_ok v Parallel true (ln i) (x i) (h0 i) c (WO i ltac:(lia))). }
    rewrite E in *. rewrite list_sum_repeat in S. rewrite Nat.mul_1_l in S. rewrite <- S. apply packed_ones.
Qed.

Lemma p_finalize_holds_pace v e c msg s : pholds v e c msg s ->
  packed (degree v (ps_imp s)) (D v + root_blocks (fl v)) (ks (p_finalize_lk v e s)).
Proof.
  intros H. pose proof (pholds_finalize _ _ _ _ _ H) as F. rewrite <- p_finalize_erase in F.
  destruct H as [W SU (k & A & TO) R LN K].
  unfold p_finalize_lk in *. cbv zeta in *. destruct (lbind_inv _ _ _ F) as (jobs & H1 & H2 & ->). clear F.
  rewrite q_mapM by (intros; qt). cbn [app].
  set (x := fun i => firstn (ps_buf_len s - Nat.min (i * blockbytes v) (ps_buf_len s)) (skipn (Nat.min (i * blockbytes v) (ps_buf_len s)) (ps_buf s))).
  assert (EJ : jobs = map (fun i => (x i, ps_count s, Nat.eqb i (D v - 1))) (seq 0 (D v))).
  { refine (mapM_lk_ret _ _ _ _ _ H1). intros i Hi. unfold lbind, slice_lk, min_lk, emit. cbn [snd fst].
    rewrite slice_ok by (pose proof (pa_le _ _ _ _ _ A); pose proof (pa_buflen _ _ _ _ _ A); lia). reflexivity. }
  subst jobs. rewrite (pa_leaves _ _ _ _ _ A) in H2. rewrite (pa_leaves _ _ _ _ _ A).
  apply (tree_end_pace v e _ _ _ _ _ _ _ _ (ps_buf_len s) SU) with (4 := H2).
  - rewrite (pa_count _ _ _ _ _ A). apply aligned_blocks.
  - intros i Hi. apply chain_ok. apply A. auto.
  - intros i Hi. unfold x. rewrite firstn_length, skipn_length, (pa_buflen _ _ _ _ _ A). pose proof (pa_le _ _ _ _ _ A). lia.
Qed.

Lemma p_update_holds_pace v e c msg s x : pholds v e c msg s ->
  packed (degree v (ps_imp s)) 0 (ks (p_update_lk v e s x)) /\
  forall s', snd (p_update_lk v e s x) = Ret s' -> ps_imp s' = ps_imp s.
Proof.
  intros H. destruct (pholds_update _ _ _ _ _ x H) as (s' & U & H' & _). rewrite <- p_update_erase in U.
  destruct H as [W SU (k0 & A & TO) R LN K].
  destruct (p_update_work _ _ _ _ _ (pbuffer_of _ _ _ _ _ A) U) as (q & _ & _ & PK & I). split; [exact PK|]. congruence.
Qed.

Lemma p_with_params_imp v p s : p_with_params v p = Ret s -> ps_imp s = pp_imp p.
Proof.
  unfold p_with_params. intros H. destruct (bind_inv _ _ _ H) as ([lw rw] & _ & H2). cbv zeta in H2.
  destruct (bind_inv _ _ _ H2) as ([b n] & _ & H3). injection H3 as <-. reflexivity.
Qed.

Lemma p_hash_pace v e imp c m : wf_pconfig (fl v) c -> supported e imp ->
  packed (degree v imp) (D v + root_blocks (fl v)) (ks (p_hash_lk v e (pparams_of v imp c) m)).
Proof.
  intros W SU. pose proof (p_hash_spec v e imp c m W SU) as H. rewrite <- p_hash_erase in H. unfold p_hash_lk in *.
  rewrite snd_branch in H. rewrite ks_branch. destruct (N.ltb 0 (pp_key_length (pparams_of v imp c))) eqn:KP.
  - destruct (pholds_new v e imp c W SU) as (s & E & HS & _).
    destruct (lbind_inv _ _ _ H) as (s0 & H1 & H2 & ->). clear H. unfold p_to_state_lk in *. rewrite q_p_with_params. cbn [app].
    rewrite p_with_params_erase in H1. unfold p_to_state in E. rewrite E in H1. injection H1 as <-.
    pose proof (p_with_params_imp _ _ _ E) as IM. change (pp_imp (pparams_of v imp c)) with imp in IM.
    destruct (p_update_holds_pace _ _ _ _ _ m HS) as [PK IK]. rewrite IM in PK, IK.
    destruct (lbind_inv _ _ _ H2) as (s2 & H3 & H4 & ->). clear H2.
    destruct (pholds_update _ _ _ _ _ m HS) as (s3 & U3 & HS3 & _). rewrite <- p_update_erase in U3.
    assert (s2 = s3) by congruence. subst s2. pose proof (p_finalize_holds_pace _ _ _ _ _ HS3) as PF. rewrite (IK s3 U3) in PF.
    apply (packed_app _ 0); auto.
  - destruct (lbind_inv _ _ _ H) as ([lw rw] & H1 & H2 & ->). clear H. rewrite q_p_to_words. cbn [app].
    rewrite p_to_words_erase, p_to_words_spec in H1 by auto. injection H1 as <- <-.
    destruct (lbind_inv _ _ _ H2) as (jobs & H3 & H4 & ->). clear H2. rewrite q_mapM by (intros; qt). cbn [app].
    set (x := fun i => skipn (Nat.min (length m) (i * blockbytes v)) m).
    assert (EJ : jobs = map (fun i => (x i, 0%N, Nat.eqb i (D v - 1))) (seq 0 (D v))).
    { refine (mapM_lk_ret _ _ _ _ _ H3). intros i Hi. unfold lbind, slice_from_lk, min_lk, emit. cbn [snd fst].
      rewrite slice_from_ok by lia. reflexivity. }
    subst jobs. change (pp_imp (pparams_of v imp c)) with imp in *.
    apply (tree_end_pace v e _ _ _ _ _ _ _ _ (length m) SU) with (4 := H4).
    + split; [destruct v; reflexivity|]. apply N.mod_0_l. destruct v; cbn; lia.
    + intros; apply leaf_h0_ok.
    + intros i _. unfold x. rewrite skipn_length. lia.
Qed.
