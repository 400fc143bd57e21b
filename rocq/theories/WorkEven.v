(** The scheduler when the jobs are of the same length, give or take one block:
    the lanes stay full to the end. *)
From Coq Require Import ZArith Arith NArith List Bool Lia ZifyBool ZifyNat ZifyN.
From Verif Require Import Base ByteLemmas Guts Portable Intrinsics KernelSpec Simd Impl Loops LaneLoops Sched SchedProof.
From Verif Require Import Leak LeakErase WorkSpec WorkProof WorkSched.
Import ListNotations.
Open Scope list_scope.
Open Scope nat_scope.
Local Notation length := List.length.

Section Even.
Context {C A : Type}.
Variable get : C -> list N.
Variable put : C -> list N -> C.
Variable prep : A -> C -> L (C * prepared).
Variables (v : variant) (e : env) (imp : platform) (fin : bool) (st : stride).
Variable cells0 : list C.
Variable M : nat.
Variables (c dl : nat).
Hypothesis silent : forall a x, ks (prep a x) = [].
Hypothesis full : forall a x y, snd (prep a x) = Ret y -> exists p, snd y = Some p.
Notation jneed := (jneed v st).
Notation item_cost := (item_cost prep v st cells0).
Notation phi := (phi prep v st cells0).
Notation J := (J prep v st cells0 M).
Notation pruns := (pruns prep cells0).

Lemma full_pos : forall a x y, snd (prep a x) = Ret y -> positive (ks (prep a x)).
Proof. intros a x y H. rewrite silent. constructor. Qed.

Lemma start_even p items vec cells cells' o : J (p :: items) vec cells ->
  snd (start_lk prep cells p) = Ret (cells', o) -> exists j, o = Some j /\ jneed j = item_cost p.
Proof.
  intros HJ H. destruct (start_work get put prep v st cells0 M full_pos p items vec cells cells' o HJ H) as (_ & P & _).
  destruct p as [r a]. unfold start_lk in *.
  destruct (lbind_inv _ _ _ H) as (x & H1 & H2 & E). rewrite E in P. clear H E.
  destruct (lbind_inv _ _ _ H2) as ([x' q] & H3 & H4 & E). rewrite E in P. clear H2 E.
  pose proof (silent a x) as K. destruct (full _ _ _ H3) as [[[i n] l] Q]. cbn [snd] in Q. subst q. injection H4 as <- <-.
  rewrite K, ks_tell, ks_ret in P. change (ks (cell_lk cells r)) with (@nil nat) in P.
  cbn [opt] in P. rewrite phi_snoc, phi_cons in P. cbn in P. eexists. split; [reflexivity|]. lia.
Qed.

Lemma next_even it p items vec cells it' cells' o : J (pend it) vec cells -> pend it = p :: items ->
  snd (next_lk prep it cells) = Ret (it', cells', o) -> exists j, o = Some j /\ jneed j = item_cost p /\ pend it' = items.
Proof.
  intros HJ EP H. unfold next_lk in *. rewrite snd_branch in H. unfold pend in HJ, EP.
  destruct (i_done it) eqn:D; [discriminate|]. destruct (i_peeked it) as [q|] eqn:P; cbn [app] in *.
  - injection EP as -> <-. rewrite snd_tell in H. destruct (lbind_inv _ _ _ H) as ([cells1 o1] & H1 & H2 & _).
    destruct (start_even _ _ _ _ _ _ HJ H1) as (j & -> & E). injection H2 as <- <- <-. exists j. auto.
  - rewrite snd_tell in H. destruct (i_src it) as [|[q|] src]; cbn [upto_none] in EP; try discriminate. injection EP as -> <-.
    cbn [pull_src_lk] in H. rewrite snd_tell in H. destruct (lbind_inv _ _ _ H) as ([cells1 o1] & H1 & H2 & _).
    destruct (start_even _ _ _ _ _ _ HJ H1) as (j & -> & E). injection H2 as <- <- <-. exists j. auto.
Qed.

Lemma fill_even : forall k it cells vec it' cells' vec', J (pend it) vec cells ->
  snd (fill_lk prep v k it cells vec) = Ret (it', cells', vec') ->
  exists new, vec' = vec ++ new /\ map jneed new ++ map item_cost (pend it') = map item_cost (pend it).
Proof.
  induction k as [|k IH]; intros it cells vec it' cells' vec' HJ H; cbn [fill_lk] in *.
  - injection H as <- <- <-. exists []. rewrite app_nil_r. auto.
  - rewrite snd_tell in H. destruct (lbind_inv _ _ _ H) as ([[it1 cells1] o] & H1 & H2 & _). clear H.
    pose proof (next_work get put prep v st cells0 M full_pos _ _ _ _ HJ H1) as W. destruct W as (J1 & P1 & N1 & S1 & R1).
    destruct (pend it) as [|p items] eqn:EP.
    + destruct o as [j|]; cbn [opt] in *.
      * exfalso. unfold next_lk in H1. rewrite snd_branch in H1. unfold pend in EP. destruct (i_done it); [discriminate|].
        destruct (i_peeked it); [discriminate|]. cbn [app] in EP. rewrite snd_tell in H1.
        destruct (i_src it) as [|[q|] src]; cbn in *; try discriminate.
      * injection H2 as <- <- <-. exists []. rewrite app_nil_r. rewrite (N1 eq_refl). auto.
    + rewrite <- EP in HJ. destruct (next_even _ _ _ _ _ _ _ _ HJ EP H1) as (j & -> & EJ & EI). cbn [opt] in *.
      rewrite snd_tell in H2. destruct (lbind_inv _ _ _ H2) as (u & _ & H3 & _).
      destruct (IH _ _ _ _ _ _ J1 H3) as (new & -> & EN). exists (j :: new). rewrite <- app_assoc. split; [reflexivity|].
      cbn [map app]. rewrite EN, EI, EJ. reflexivity.
Qed.

(** Each lane has taken [t] jobs so far, the last of which is in the lane. *)
Definition busy (T need t : nat) : Prop := 1 <= t /\ t * (c - dl) <= T + need <= t * c /\ (t - 1) * (c - dl) <= T.
Definition idle (T t : nat) : Prop := t * (c - dl) <= T <= t * c.
Definition lanes (n total T : nat) (needs : list nat) (items : nat) : Prop :=
  exists ts fs, Forall2 (busy T) needs ts /\ Forall (idle T) fs /\ length ts + length fs = n /\ list_sum ts + list_sum fs + items = total.

Lemma lanes_fill n total T new : forall needs items, lanes n total T needs (length new + items) ->
  length needs + length new <= n -> Forall (fun x => c - dl <= x <= c) new -> lanes n total T (needs ++ new) items.
Proof.
  induction new as [|x new IH]; intros needs items H L F; cbn [length] in *; [rewrite app_nil_r; exact H|].
  inversion F; subst. change (needs ++ x :: new) with (needs ++ [x] ++ new). rewrite app_assoc. apply IH; auto.
  - destruct H as (ts & fs & B & I & LN & S). pose proof (Forall2_len _ _ _ B) as LB.
    destruct fs as [|f fs]; [cbn [length] in LN; lia|]. inversion I; subst. exists (ts ++ [S f]), fs. split; [|split; [auto|]].
    + apply Forall2_app; auto. constructor; [|constructor]. unfold busy, idle in *. replace (Datatypes.S f - 1) with f by lia. nia.
    + rewrite app_length, list_sum_app. cbn [length] in *. rewrite !list_sum_cons in *. change (list_sum []) with 0. lia.
  - rewrite app_length. cbn [length]. lia.
Qed.

(** One pass: every lane is busy, and each loses [q] blocks. *)
Lemma lanes_pass n total T q needs items : length needs = n -> lanes n total T needs items -> Forall (fun x => q <= x) needs ->
  lanes n total (T + q) (filter (fun x => negb (Nat.eqb x 0)) (map (fun x => x - q) needs)) items.
Proof.
  intros LN (ts & fs & B & I & L & S) F. pose proof (Forall2_len _ _ _ B) as LB.
  destruct fs; [|cbn [length] in L; lia]. clear I. cbn [length] in *. change (list_sum []) with 0 in S.
  assert (X : exists ts' fs', Forall2 (busy (T + q)) (filter (fun x => negb (Nat.eqb x 0)) (map (fun x => x - q) needs)) ts' /\
    Forall (idle (T + q)) fs' /\ length ts' + length fs' = length ts /\ list_sum ts' + list_sum fs' = list_sum ts).
  { clear - B F. induction B as [|x t needs ts H _ IH]; [exists [], []; repeat split; constructor|].
    inversion F; subst. destruct (IH H3) as (ts' & fs' & B' & I' & L' & S'). cbn [map filter].
    unfold busy in H. destruct (Nat.eqb_spec (x - q) 0) as [Z|Z]; cbn [negb].
    - exists ts', (t :: fs'). split; [exact B'|]. split; [constructor; auto; unfold idle; lia|]. cbn [length]. rewrite !list_sum_cons. lia.
    - exists (t :: ts'), fs'. split; [constructor; auto; unfold busy; lia|]. split; [auto|]. cbn [length]. rewrite !list_sum_cons. lia. }
  destruct X as (ts' & fs' & B' & I' & L' & S'). exists ts', fs'. repeat (split; auto); lia.
Qed.

Lemma sum_all (ts : list nat) k : Forall (fun t => t <= k) ts -> list_sum ts <= length ts * k.
Proof. apply list_sum_le_bound. Qed.
Lemma list_sum_lt_in (ts : list nat) k : list_sum ts <= length ts * k -> (exists t, In t ts /\ k < t) -> exists t, In t ts /\ t < k.
Proof.
  intros S (t & I & G). destruct (existsb (fun x => Nat.ltb x k) ts) eqn:E.
  - apply existsb_exists in E. destruct E as (x & I2 & L). exists x. split; [auto|]. lia.
  - exfalso. assert (F : forall x, In x ts -> k <= x).
    { intros x Hx. destruct (Nat.ltb_spec x k); [|lia]. rewrite <- not_true_iff_false in E. exfalso. apply E. apply existsb_exists.
      exists x. split; [auto|lia]. }
    apply in_split in I. destruct I as (l1 & l2 & ->). rewrite list_sum_app, app_length in S. cbn [length] in S. rewrite list_sum_cons in S.
    assert (LB : forall l, (forall x, In x l -> k <= x) -> length l * k <= list_sum l).
    { clear. induction l as [|a l IH]; intros H; [cbn; lia|]. cbn [length]. rewrite list_sum_cons. specialize (IH (fun x Hx => H x (or_intror Hx))).
      specialize (H a (or_introl eq_refl)). lia. }
    pose proof (LB l1 ltac:(intros; apply F, in_or_app; auto)). pose proof (LB l2 ltac:(intros; apply F, in_or_app; right; right; auto)). nia.
Qed.
Lemma list_sum_gt_in (ts : list nat) k : length ts * k <= list_sum ts -> (exists t, In t ts /\ t < k) -> exists t, In t ts /\ k < t.
Proof.
  intros S (t & I & G). destruct (existsb (fun x => Nat.ltb k x) ts) eqn:E.
  - apply existsb_exists in E. destruct E as (x & I2 & L). exists x. split; [auto|]. lia.
  - exfalso. assert (F : forall x, In x ts -> x <= k).
    { intros x Hx. destruct (Nat.ltb_spec k x); [|lia]. rewrite <- not_true_iff_false in E. exfalso. apply E. apply existsb_exists.
      exists x. split; [auto|lia]. }
    apply in_split in I. destruct I as (l1 & l2 & ->). rewrite list_sum_app, app_length in S. cbn [length] in S. rewrite list_sum_cons in S.
    pose proof (list_sum_le_bound l1 k ltac:(apply Forall_forall; intros; apply F, in_or_app; auto)).
    pose proof (list_sum_le_bound l2 k ltac:(apply Forall_forall; intros; apply F, in_or_app; right; right; auto)). nia.
Qed.

Lemma lanes_end n k T needs : 0 < n -> dl <= c -> lanes n (k * n) T needs 0 -> length needs < n -> Forall (fun x => x <= c) needs ->
  list_sum needs <= (n - 1) * (k * dl).
Proof.
  intros NP DC (ts & fs & B & I & L & S) LT F. pose proof (Forall2_len _ _ _ B) as LB.
  destruct (Nat.le_gt_cases c (k * dl)) as [SM|BG].
  { transitivity (length needs * (k * dl)); [apply list_sum_le_bound; eapply Forall_impl; [|exact F]; cbn; intros; lia|]. apply Nat.mul_le_mono_r. lia. }
  destruct fs as [|f fs]; [cbn [length] in L; lia|].
  assert (LO : forall t, In t (ts ++ f :: fs) -> (t - 1) * (c - dl) <= T /\ T <= t * c).
  { intros t Ht. apply in_app_or in Ht. destruct Ht as [Ht|Ht].
    - clear - B Ht. induction B as [|x t0 needs ts [_ [H1 H2]] _ IH]; [destruct Ht|]. destruct Ht as [->|Ht]; [lia|auto].
    - rewrite Forall_forall in I. destruct (I t Ht) as [H1 H2]. nia. }
  assert (SU : list_sum (ts ++ f :: fs) = length (ts ++ f :: fs) * k) by (rewrite list_sum_app, app_length; lia).
  assert (UP : forall t, In t (ts ++ f :: fs) -> t <= k).
  { intros t Ht. destruct (Nat.le_gt_cases t k) as [|G]; [auto|exfalso].
    destruct (list_sum_lt_in (ts ++ f :: fs) k ltac:(lia) (ex_intro _ t (conj Ht G))) as (t' & Ht' & G').
    destruct (LO t Ht) as [H1 _], (LO t' Ht') as [_ H2].
    assert (k * (c - dl) <= (t - 1) * (c - dl)) by (apply Nat.mul_le_mono_r; lia).
    assert (t' * c <= (k - 1) * c) by (apply Nat.mul_le_mono_r; lia). nia. }
  assert (ALL : forall t, In t (ts ++ f :: fs) -> t = k).
  { intros t Ht. destruct (Nat.lt_ge_cases t k) as [G|]; [|pose proof (UP t Ht); lia].
    destruct (list_sum_gt_in (ts ++ f :: fs) k ltac:(lia) (ex_intro _ t (conj Ht G))) as (t' & Ht' & G').
    pose proof (UP t' Ht'). lia. }
  assert (TK : k * (c - dl) <= T).
  { rewrite Forall_forall in I. destruct (I f ltac:(left; auto)) as [H1 _]. rewrite (ALL f) in H1; [exact H1|]. apply in_or_app. right. left. auto. }
  transitivity (length needs * (k * dl)); [|apply Nat.mul_le_mono_r; lia]. apply list_sum_le_bound. apply Forall_forall. intros x Hx.
  assert (ALL' : forall t, In t ts -> t = k) by (intros; apply ALL, in_or_app; auto). clear - B Hx ALL' TK DC.
  induction B as [|x0 t needs ts [_ [H1 _]] _ IH]; [destruct Hx|]. destruct Hx as [->|Hx].
  - rewrite (ALL' t ltac:(left; auto)) in H1. nia.
  - apply IH; auto. intros; apply ALL'; right; auto.
Qed.

Lemma needs_pass m front : forall front', (forall j, In j front -> m <= length (v_input j)) ->
  Forall2 (fun j j' => v_ref j' = v_ref j /\ length (v_input j') = length (v_input j) - need v st m * padded_blockbytes v st) front front' ->
  map jneed (filter (fun j => negb (emptyb j)) front') =
    filter (fun x => negb (Nat.eqb x 0)) (map (fun x => x - need v st m) (map jneed front)) /\
  Forall (fun x => need v st m <= x) (map jneed front).
Proof.
  intros front' MJ F. pose proof (pb_pos v st) as PB. induction F as [|j j' l l' [_ E] _ IH]; [split; constructor|].
  destruct IH as [IH1 IH2]; [intros; apply MJ; right; auto|].
  pose proof (need_rest _ (length (v_input j)) m PB (MJ j ltac:(left; auto))) as NR. cbv zeta in NR.
  fold (need v st m) in NR. fold (need v st (length (v_input j))) in NR. fold (WorkSched.jneed v st j) in NR. rewrite <- E in NR.
  assert (Q : jneed j = need v st m + (if emptyb j' then 0 else jneed j')).
  { rewrite NR. unfold emptyb, WorkSched.jneed, need. destruct (v_input j'); reflexivity. }
  assert (JP : 0 < jneed j') by (unfold WorkSched.jneed, need; apply Nat.lt_0_succ).
  cbn [filter map]. rewrite <- IH1. split; [|constructor; [lia|auto]].
  destruct (emptyb j') eqn:EB; cbn [negb].
  - replace (Nat.eqb (jneed j - need v st m) 0) with true by lia. reflexivity.
  - replace (Nat.eqb (jneed j - need v st m) 0) with false by lia. cbn [negb map]. f_equal. lia.
Qed.

Lemma batch_even loop n k : loop_work v st loop n -> 0 < n -> dl <= c -> forall fuel it cells vec it' cells' vec' T,
  J (pend it) vec cells ->
  length vec <= n -> lanes n (k * n) T (map jneed vec) (length (pend it)) ->
  Forall (fun x => x <= c) (map jneed vec) -> Forall (fun x => c - dl <= x <= c) (map item_cost (pend it)) ->
  snd (batch_loop_lk get put prep v e loop n fuel it cells vec) = Ret (it', cells', vec') ->
  list_sum (map jneed vec') <= (n - 1) * (k * dl).
Proof.
  intros LW NP DC. induction fuel as [|fuel IH]; intros it cells vec it' cells' vec' T HJ LV LA FV FI H; cbn [batch_loop_lk] in *; [discriminate|].
  destruct (lbind_inv _ _ _ H) as ([[it1 cells1] vec1] & H1 & H2 & _). clear H.
  unfold fill_jobs_vec_lk in *.
  destruct (fill_work get put prep v st cells0 M full_pos _ _ _ _ _ _ _ HJ H1) as (J1 & P1 & L1 & N1 & S1 & R1).
  destruct (fill_even _ _ _ _ _ _ _ HJ H1) as (new & EV & EN).
  assert (FN : Forall (fun x => c - dl <= x <= c) (map jneed new) /\ Forall (fun x => c - dl <= x <= c) (map item_cost (pend it1)))
    by (rewrite <- EN in FI; apply Forall_app in FI; exact FI). destruct FN as [FN FI1].
  assert (LC : length (map jneed new) + length (pend it1) = length (pend it)).
  { rewrite <- (map_length item_cost (pend it1)), <- app_length, EN, map_length. reflexivity. }
  assert (LV1 : length vec1 <= n) by lia.
  assert (LA1 : lanes n (k * n) T (map jneed vec1) (length (pend it1))).
  { subst vec1. rewrite map_app. apply lanes_fill; auto; [rewrite LC; exact LA|]. rewrite app_length in LV1. rewrite !map_length. lia. }
  assert (FV1 : Forall (fun x => x <= c) (map jneed vec1)).
  { subst vec1. rewrite map_app. apply Forall_app. split; [auto|]. eapply Forall_impl; [|exact FN]. cbn. intros; lia. }
  rewrite snd_branch in H2. destruct (Nat.ltb_spec (length vec1) n) as [LT|GE].
  - injection H2 as <- <- <-. assert (E0 : pend it1 = []) by (destruct N1; [lia|auto]). rewrite E0 in LA1.
    apply (lanes_end n k T); auto. rewrite map_length. exact LT.
  - destruct (lbind_inv _ _ _ H2) as ([cells2 vec2] & H3 & H4 & _). clear H2.
    destruct (lbind_inv _ _ _ H4) as (vec3 & H5 & H6 & _). clear H4.
    destruct (run_jobs_work get put v st loop n cells1 vec1 cells2 vec2 LW GE H3) as (m & front' & MJ & EV2 & K & F & ES).
    rewrite evict_erase in H5. pose proof (Forall2_len _ _ _ F) as LF.
    assert (LN : length front' = n) by (rewrite <- LF, firstn_length; lia).
    subst vec2. rewrite <- LN in H5 at 2. rewrite evict_spec in H5. injection H5 as <-.
    rewrite skipn_all2, app_nil_r in H6 by lia. rewrite firstn_all2 in MJ, F, ES by lia.
    destruct (needs_pass m _ _ MJ F) as [NE NF].
    apply (IH _ _ _ _ _ _ (T + need v st m)) in H6; auto.
    + rewrite <- (app_nil_r (filter _ _)), <- (skipn_all2 vec1 (n := n)) by lia.
      apply (J_pass prep v st cells0 M n _ _ cells1); auto; rewrite ?firstn_all2 by lia; auto.
      * apply map_v_ref. clear - F. induction F as [|? ? ? ? [E _]]; constructor; auto.
      * apply (pass_sum v st M m _ _ MJ F). apply J1.
    + rewrite <- LN. clear. induction front' as [|x l IHl]; cbn [filter length]; [lia|]. destruct (negb _); cbn [length]; lia.
    + rewrite NE. apply lanes_pass; auto. rewrite map_length. lia.
    + rewrite NE. apply Forall_forall. intros x Hx. apply filter_In in Hx. destruct Hx as [Hx _]. apply in_map_iff in Hx.
      destruct Hx as (y & <- & Hy). rewrite Forall_forall in FV1. specialize (FV1 y Hy). lia.
Qed.

Lemma compress_many_even it cells it' cells' k : let d := degree v imp in
  J (pend it) [] cells -> dl <= c -> length (pend it) = k * d -> Forall (fun x => c - dl <= x <= c) (map item_cost (pend it)) ->
  snd (compress_many_lk get put prep v e imp fin st it cells) = Ret (it', cells') ->
  let t := ks (compress_many_lk get put prep v e imp fin st it cells) in
  d * length t <= list_sum t + (d - 1) * (d - 1) * (k * dl).
Proof.
  intros d HJ DC LI FI H t. unfold t. clear t.
  assert (PR : forall l, pruns l = 0).
  { intros l. unfold WorkSched.pruns. induction l as [|p l IH]; [reflexivity|]. cbn [map]. rewrite list_sum_cons, IH.
    unfold item_runs. destruct (nth_error cells0 (fst p)) as [x|]; [|reflexivity]. unfold iruns. rewrite silent. reflexivity. }
  unfold compress_many_lk in *. set (fuel := 2 + length (i_src it)) in *. clearbody fuel.
  destruct (lbind_inv _ _ _ H) as ([[it1 cells1] vec1] & H1 & H2 & ->). clear H. rewrite ks_tell, ks_branch in *.
  rewrite snd_tell, snd_branch in H1. cbn [compressions flat_map app] in *.
  destruct (lbind_inv _ _ _ H2) as ([[it2 cells2] vec2] & H3 & H4 & ->). clear H2. rewrite ks_tell, ks_branch in *.
  rewrite snd_tell, snd_branch in H3. cbn [compressions flat_map app] in *.
  destruct (lbind_inv _ _ _ H4) as (cells3 & H5 & H6 & ->). clear H4.
  assert (WP : 0 < wide v /\ 0 < narrow v) by (destruct v; cbn; lia). destruct WP as [WP NP].
  set (t1 := if Nat.leb (wide v) (degree v imp) then _ else ks (ret (it, cells, []))) in *.
  set (t2 := if Nat.leb (narrow v) (degree v imp) then _ else ks (ret (it1, cells1, vec1))) in *.
  assert (LA : forall n, length (pend it) = k * n -> lanes n (k * n) 0 (map jneed []) (length (pend it))).
  { intros n E. exists [], (repeat 0 n). split; [constructor|]. split; [apply Forall_forall; intros x Hx; apply repeat_spec in Hx; subst; unfold idle; lia|].
    rewrite repeat_length, list_sum_repeat, E. cbn. lia. }
  assert (FN : Forall (fun x => x <= c) (map jneed [])) by constructor.
  assert (X1 : J (pend it1) vec1 cells1 /\ list_sum t1 + phi (pend it1) vec1 = phi (pend it) [] /\ positive t1 /\
    (wide v <= degree v imp -> pend it1 = [] /\ wide v * length t1 <= list_sum t1 /\
       (degree v imp = wide v -> list_sum (map jneed vec1) <= (wide v - 1) * (k * dl))) /\
    (degree v imp < wide v -> t1 = [] /\ vec1 = [] /\ it1 = it /\ cells1 = cells)).
  { subst t1. destruct (Nat.leb_spec (wide v) (degree v imp)) as [Hw|Hw].
    - destruct (batch_work get put prep v e st cells0 M full_pos _ _ (wide_work v e imp fin st) WP _ _ _ _ _ _ _ HJ H1) as (A1 & A2 & A3 & A4 & A5 & A6).
      rewrite PR, Nat.mul_0_r, Nat.add_0_r in A6. repeat (split; auto); try lia. intros DE. subst d. rewrite DE in *.
      apply (batch_even _ _ k (wide_work v e imp fin st) WP DC _ _ _ _ _ _ _ 0 HJ) with (5 := H1); auto; cbn [length]; lia.
    - injection H1 as <- <- <-. rewrite ks_ret. repeat (split; auto); try lia. constructor. }
  destruct X1 as (J1 & P1 & S1 & F1 & E1).
  assert (X2 : J (pend it2) vec2 cells2 /\ list_sum t2 + phi (pend it2) vec2 = phi (pend it1) vec1 /\ positive t2 /\
    (narrow v <= degree v imp -> pend it2 = [] /\ narrow v * length t2 <= list_sum t2 /\
       (degree v imp = narrow v -> list_sum (map jneed vec2) <= (narrow v - 1) * (k * dl)))).
  { subst t2. destruct (Nat.leb_spec (narrow v) (degree v imp)) as [Hw|Hw].
    - destruct (batch_work get put prep v e st cells0 M full_pos _ _ (narrow_work v e imp fin st) NP _ _ _ _ _ _ _ J1 H3) as (A1 & A2 & A3 & A4 & A5 & A6).
      rewrite PR, Nat.mul_0_r, Nat.add_0_r in A6. repeat (split; auto); try lia. intros DE.
      destruct E1 as (_ & -> & -> & ->); [rewrite DE; destruct v; cbn; lia|]. subst d. rewrite DE in *.
      apply (batch_even _ _ k (narrow_work v e imp fin st) NP DC _ _ _ _ _ _ _ 0 J1) with (5 := H3); auto; cbn [length]; lia.
    - injection H3 as <- <- <-. rewrite ks_ret. repeat (split; auto); try lia. constructor. }
  destruct X2 as (J2 & P2 & S2 & F2). clearbody t1 t2.
  destruct (run_vec_work get put prep v e imp fin st cells0 M _ _ _ _ J2 H5) as [J3 K3].
  destruct (run_rest_work get put prep v e imp fin st cells0 M full_pos _ _ _ _ _ J3 H6) as [E4 S4].
  set (t3 := ks (run_vec_lk get put v e imp fin st cells2 vec2)) in *.
  set (t4 := ks (run_rest_lk get put prep v e imp fin st fuel it2 cells3)) in *. clearbody t3 t4.
  assert (E3 : list_sum t3 = list_sum (map jneed vec2)) by (rewrite K3, list_sum_repeat; lia).
  assert (S3 : positive t3) by (rewrite K3; apply ge1_repeat; lia).
  pose proof (runs_le_sum _ S1) as R1. pose proof (runs_le_sum _ S2) as R2.
  pose proof (runs_le_sum _ S3) as R3. pose proof (runs_le_sum _ S4) as R4.
  rewrite !app_length, !list_sum_app.
  unfold WorkSched.phi in P1, P2. cbn [map] in P1. change (list_sum (@nil nat)) with 0 in P1.
  assert (DEG : degree v imp = wide v \/ degree v imp = narrow v \/ degree v imp = 1) by (destruct v, imp; cbn; auto).
  assert (NW : narrow v < wide v) by (destruct v; cbn; lia). unfold d in *. clear d.
  destruct DEG as [ DE | [ DE | DE ] ]; rewrite DE in *.
  - destruct (F1 ltac:(lia)) as (EP & Q1 & B1). specialize (B1 eq_refl). rewrite EP in P2.
    destruct (F2 ltac:(lia)) as (EP2 & _ & _). rewrite EP2 in *. cbn [map] in P2, E4. change (list_sum (@nil nat)) with 0 in P2, E4.
    assert (length t2 + (length t3 + length t4) <= list_sum (map jneed vec1)) by lia. nia.
  - destruct (E1 ltac:(lia)) as (-> & -> & -> & ->).
    destruct (F2 ltac:(lia)) as (EP2 & Q2 & B2). specialize (B2 eq_refl). rewrite EP2 in *. cbn [map] in P2, E4. change (list_sum (@nil nat)) with 0 in P2, E4.
    assert (length t3 + length t4 <= list_sum (map jneed vec2)) by lia. cbn [length list_sum fold_right]. nia.
  - lia.
Qed.
End Even.
