(** The arithmetic of Usize.v never overflows: each function of Usize.v equals
    the one of the model that computes in nat, as long as the slices fit. *)
From Coq Require Import ZArith Arith NArith List Bool Lia ZifyBool ZifyNat ZifyN.
From Verif Require Import Base ByteLemmas Guts Portable Intrinsics Avx2b Sse41s Simd KernelSpec Impl Loops LaneLoops Sched SchedProof Lib StateProof
  ParamsProof FedProof Many ManyProof Par Stripe ParProof ParFed.
From Verif Require Import Machine Api ApiProof Usize.
From Verif Require Spec ApiSpec.
Import ListNotations.
Open Scope list_scope.
Open Scope N_scope.
Local Notation length := List.length.

Section Fits.
Variable M : N.
Hypothesis BIG : 65535 <= M.

Definition fits (l : list byte) : Prop := N.of_nat (length l) <= M.

(** ** Operations *)
Lemma uadd_ok dbg a b : N.of_nat a + N.of_nat b <= M -> uadd M dbg a b = Ret (a + b)%nat.
Proof. intros H. unfold uadd. apply N.leb_le in H. rewrite H. reflexivity. Qed.
Lemma usub_ok dbg a b : (b <= a)%nat -> usub M dbg a b = Ret (a - b)%nat.
Proof. intros H. unfold usub. apply Nat.leb_le in H. rewrite H. reflexivity. Qed.
Lemma umul_ok dbg a b : N.of_nat a * N.of_nat b <= M -> umul M dbg a b = Ret (a * b)%nat.
Proof. intros H. unfold umul. apply N.leb_le in H. rewrite H. reflexivity. Qed.
Lemma min_usat_add a b n : N.of_nat n <= M -> Nat.min (usat_add M a b) n = Nat.min (a + b) n.
Proof. intros H. unfold usat_add. destruct (N.leb_spec (N.of_nat a + N.of_nat b) M); [reflexivity|]. lia. Qed.
Lemma usub_mod dbg a b : (0 < b)%nat -> usub M dbg a (a mod b) = Ret (a - a mod b)%nat.
Proof. intros H. apply usub_ok. apply Nat.mod_le. lia. Qed.

Lemma padded_pos v st : (0 < padded_blockbytes v st)%nat.
Proof. destruct v, st; cbn; lia. Qed.
Lemma blockbytes_padded v st : (blockbytes v <= padded_blockbytes v st)%nat.
Proof. destruct v, st; cbn; lia. Qed.
Lemma blockbytes_pos' v : (0 < blockbytes v)%nat.
Proof. destruct v; cbn; lia. Qed.

Lemma copy_range_eq {A} (dst src : list A) a b : b = (a + length src)%nat -> copy_range dst a b src = copy_into dst a src.
Proof.
  intros ->. unfold copy_range, copy_into.
  replace (a + length src - a)%nat with (length src) by lia. rewrite Nat.eqb_refl, andb_true_r.
  replace (a <=? a + length src)%nat with true by (symmetry; apply Nat.leb_le; lia). reflexivity.
Qed.

(** ** The block loops *)
Definition reader_agrees (rd rd' : block_reader) : Prop :=
  forall l off n, N.of_nat off + N.of_nat n <= M -> rd' l off n = rd l off n.
Lemma raw_agrees : reader_agrees raw_reader raw_reader.
Proof. intros l off n _. reflexivity. Qed.
Lemma array_ref_agrees dbg : reader_agrees array_ref_reader (array_ref_reader_usz M dbg).
Proof. intros l off n H. unfold array_ref_reader_usz. rewrite uadd_ok by exact H. reflexivity. Qed.

Lemma bind_ext {A B} (x : outcome A) (f g : A -> outcome B) : (forall a, x = Ret a -> f a = g a) -> bind x f = bind x g.
Proof. intros H. destruct x; cbn; auto. Qed.

Lemma iter1_usz v k rd rd' dbg input fin fb fl_ lb ln st : reader_agrees rd rd' -> N.of_nat fin <= M ->
  forall fuel off count ws, (exists q, fin = off + q * padded_blockbytes v st)%nat ->
  compress1_iter_usz M v k rd' dbg fuel input fin fb fl_ lb ln st off count ws =
  compress1_iter v k rd fuel input fin fb fl_ lb ln st off count ws.
Proof.
  intros RA FM. induction fuel as [|fuel IH]; intros off count ws (q & Q); [reflexivity|].
  cbn [compress1_iter_usz compress1_iter]. destruct (Nat.eqb_spec off fin) as [->|NE]; [reflexivity|].
  destruct q as [|q]; [lia|]. cbn [Nat.mul] in Q. pose proof (blockbytes_padded v st).
  rewrite RA by lia. apply bind_ext. intros [[[b d] l1] l2] _.
  rewrite uadd_ok by lia. cbn [bind]. apply IH. exists q. lia.
Qed.

Lemma fin_offset_shape n pb : (0 < pb)%nat -> exists q, (n - n mod pb = 0 + q * pb)%nat.
Proof. intros H. exists (n / pb)%nat. pose proof (Nat.div_mod_eq n pb) as D. rewrite Nat.mul_comm in D. revert D.
  generalize (n / pb * pb)%nat (n mod pb)%nat. intros. lia. Qed.

Lemma loop1_usz v k rd rd' dbg input ws c ln fin st : reader_agrees rd rd' -> fits input ->
  compress1_loop_gen_usz M v k rd' dbg input ws c ln fin st = compress1_loop_gen v k rd dbg input ws c ln fin st.
Proof.
  intros RA F. unfold compress1_loop_gen_usz, compress1_loop_gen. apply bind_ext. intros [] _.
  unfold sat_sub. rewrite usub_mod by apply padded_pos. cbn [bind]. apply bind_ext. intros [[fb fl_] x] _.
  apply iter1_usz; auto; [unfold fits in F; lia|]. apply fin_offset_shape, padded_pos.
Qed.

Lemma compress1_usz v e imp input ws c ln fin st : fits input ->
  compress1_loop_usz M v e imp input ws c ln fin st = compress1_loop v e imp input ws c ln fin st.
Proof.
  intros F. unfold compress1_loop_usz, compress1_loop, portable_compress1_loop, avx2_compress1_loop, sse41_compress1_loop.
  destruct v, imp; try (unfold target_feature; match goal with |- context [if ?b then _ else _] => destruct b end; [|reflexivity]);
    apply loop1_usz; auto using raw_agrees, array_ref_agrees.
Qed.

Lemma itern_usz S dbg inputs fin fb fd lb ln st : N.of_nat fin <= M ->
  forall fuel off h lo hi, (exists q, fin = off + q * padded_blockbytes (s_var S) st)%nat ->
  compressn_iter_usz M S dbg fuel inputs fin fb fd lb ln st off h lo hi =
  compressn_iter S fuel inputs fin fb fd lb ln st off h lo hi.
Proof.
  intros FM. induction fuel as [|fuel IH]; intros off h lo hi (q & Q); [reflexivity|].
  cbn [compressn_iter_usz compressn_iter]. destruct (Nat.eqb_spec off fin) as [->|NE]; [reflexivity|].
  destruct q as [|q]; [lia|]. cbn [Nat.mul] in Q. pose proof (padded_pos (s_var S) st).
  apply bind_ext. intros [[[b d] l1] l2] _. destruct (add_to_counts _ _ _ _) as [lo' hi'].
  rewrite uadd_ok by lia. cbn [bind]. apply IH. exists q. lia.
Qed.

Lemma mapM_ext {A B} (f g : A -> outcome B) l : (forall x, In x l -> f x = g x) -> mapM f l = mapM g l.
Proof.
  induction l as [|x l IH]; intros H; [reflexivity|]. cbn [mapM]. rewrite H by (left; reflexivity).
  apply bind_ext. intros y _. rewrite IH; [reflexivity|]. intros z Hz. apply H. right. exact Hz.
Qed.

Lemma min_len_le jobs n : min_len jobs = Ret n -> Forall (fun j => fits (j_input j)) jobs -> N.of_nat n <= M.
Proof.
  destruct jobs as [|j jobs]; [discriminate|]. cbn [min_len]. intros E F. injection E as <-.
  inversion F as [|? ? F1 F2]; subst. unfold fits in F1. clear F F2. revert F1. generalize (length (j_input j)).
  induction jobs as [|k jobs IH]; intros m H; cbn [fold_left]; auto. apply IH. lia.
Qed.

Lemma loopn_usz S dbg jobs fin st : Forall (fun j => fits (j_input j)) jobs ->
  compressn_loop_usz M S dbg jobs fin st = compressn_loop S dbg jobs fin st.
Proof.
  intros F. unfold compressn_loop_usz, compressn_loop. apply bind_ext. intros ? _.
  destruct (load_counts S jobs) as [lo hi]. apply bind_ext. intros n En.
  pose proof (min_len_le jobs n En F) as L.
  unfold sat_sub. rewrite usub_mod by apply padded_pos. cbn [bind]. apply bind_ext. intros fins _.
  match goal with |- context [if fin then ?a else ?b] => destruct (if fin then a else b) as [lb ln_] end.
  rewrite itern_usz; [|lia|apply fin_offset_shape, padded_pos].
  apply bind_ext. intros [[[h lo'] hi'] off] _. apply mapM_ext. intros [i j] Hij.
  rewrite min_usat_add; [reflexivity|]. rewrite Forall_forall in F. apply (F j). eapply in_combine_r; eauto.
Qed.

(** What a SIMD loop leaves of an input is a suffix of it. *)
Lemma mapM_Forall2 {A B} (f : A -> outcome B) l : forall l', mapM f l = Ret l' -> Forall2 (fun x y => f x = Ret y) l l'.
Proof.
  induction l as [|x l IH]; intros l' E; cbn [mapM] in E.
  - injection E as <-. constructor.
  - destruct (f x) eqn:Ex; try discriminate. cbn [bind] in E. destruct (mapM f l) eqn:El; try discriminate.
    cbn [bind] in E. injection E as <-. constructor; auto.
Qed.
Lemma loopn_fits S dbg jobs fin st jobs' : Forall (fun j => fits (j_input j)) jobs ->
  compressn_loop S dbg jobs fin st = Ret jobs' -> Forall (fun j => fits (j_input j)) jobs'.
Proof.
  intros F E. unfold compressn_loop in E.
  destruct (mapM _ jobs); try discriminate. cbn [bind] in E.
  destruct (load_counts S jobs) as [lo hi]. destruct (min_len jobs) as [n| | |]; try discriminate. cbn [bind] in E.
  destruct (mapM _ jobs) as [fins| | |]; try discriminate. cbn [bind] in E.
  match type of E with context [if fin then ?a else ?b] => destruct (if fin then a else b) as [lb ln_] end.
  destruct (compressn_iter _ _ _ _ _ _ _ _ _ _ _ _ _) as [[[[h lo'] hi'] off]| | |]; try discriminate. cbn [bind] in E.
  apply mapM_Forall2 in E.
  assert (G : Forall (fun p : nat * job => fits (j_input (snd p))) (combine (seq 0 (length jobs)) jobs)).
  { rewrite Forall_forall in *. intros [i j] Hij. apply (F j). eapply in_combine_r; eauto. }
  clear F. induction E as [|[i j] y l l' H E IH]; [constructor|]. inversion G; subst. constructor; auto.
  unfold slice_from in H. destruct (_ <=? _)%nat; [|discriminate]. cbn [bind] in H. injection H as <-.
  cbn [j_input snd] in *. unfold fits in *. rewrite skipn_length. lia.
Qed.

Lemma wide_usz v e imp jobs fin st : Forall (fun j => fits (j_input j)) jobs ->
  compress_wide_loop_usz M v e imp jobs fin st = compress_wide_loop v e imp jobs fin st /\
  (forall jobs', compress_wide_loop v e imp jobs fin st = Ret jobs' -> Forall (fun j => fits (j_input j)) jobs').
Proof.
  intros F. unfold compress_wide_loop_usz, compress_wide_loop. destruct imp; try (split; [reflexivity|discriminate]).
  unfold target_feature. destruct (e_avx2 e); [|split; [reflexivity|discriminate]].
  split; [apply loopn_usz; auto|]. intros. eapply loopn_fits; eauto.
Qed.
Lemma narrow_usz v e imp jobs fin st : Forall (fun j => fits (j_input j)) jobs ->
  compress_narrow_loop_usz M v e imp jobs fin st = compress_narrow_loop v e imp jobs fin st /\
  (forall jobs', compress_narrow_loop v e imp jobs fin st = Ret jobs' -> Forall (fun j => fits (j_input j)) jobs').
Proof.
  intros F. unfold compress_narrow_loop_usz, compress_narrow_loop. destruct imp; try (split; [reflexivity|discriminate]);
  unfold target_feature; (destruct (e_sse41 e); [|split; [reflexivity|discriminate]]);
  (split; [apply loopn_usz; auto|]; intros; eapply loopn_fits; eauto).
Qed.

(** ** The scheduler *)
Section Scheduler.
Context {C A : Type}.
Variable get : C -> list N.
Variable put : C -> list N -> C.
Variables prep prep' : A -> C -> outcome (C * prepared).
Variables (v : variant) (e : env) (imp : platform) (fin : bool) (st : stride).
Variable Q : A -> Prop.
Variable P : C -> Prop.
Hypothesis PREP : forall a c, Q a -> P c -> prep' a c = prep a c.
Hypothesis KEEP : forall a c c' p, Q a -> P c -> prep a c = Ret (c', p) ->
  P c' /\ forall i n l, p = Some (i, n, l) -> fits i.
Hypothesis PUT : forall c ws, P c -> P (put c ws).

Definition item_ok (it : nat * A) : Prop := Q (snd it).
Definition iter_ok (it : iter A) : Prop :=
  i_done it = true \/
  (Forall item_ok (until_none (i_src it)) /\ forall p, i_peeked it = Some p -> item_ok p).
Definition vec_ok (vec : list vjob) : Prop := Forall (fun j => fits (v_input j)) vec.

Lemma Forall_set (R : C -> Prop) l : Forall R l -> forall i x, R x -> Forall R (set l i x).
Proof. induction 1 as [|y l Hy H IH]; intros i x K; [constructor|]. destruct i; cbn [set]; constructor; auto. Qed.
Lemma cell_P cells r c : Forall P cells -> cell cells r = Ret c -> P c.
Proof.
  unfold cell. intros F E. destruct (nth_error cells r) eqn:N; [|discriminate]. injection E as <-.
  rewrite Forall_forall in F. eapply F, nth_error_In; eauto.
Qed.

Lemma start_usz cells it : Forall P cells -> item_ok it ->
  start prep' cells it = start prep cells it /\
  (forall cells' o, start prep cells it = Ret (cells', o) ->
     Forall P cells' /\ forall j, o = Some j -> fits (v_input j)).
Proof.
  intros F I. destruct it as [r a]. unfold start, item_ok in *. cbn [snd] in I.
  destruct (cell cells r) as [c| | |] eqn:Ec; cbn [bind]; try (split; [reflexivity|discriminate]).
  pose proof (cell_P _ _ _ F Ec) as Pc. rewrite PREP by auto. split; [reflexivity|]. intros cells' o.
  destruct (prep a c) as [[c' p]| | |] eqn:Ep; cbn [bind]; try discriminate.
  destruct (KEEP a c c' p I Pc Ep) as [Pc' PF]. destruct p as [[[i n] l]|]; intros E; injection E as <- <-.
  - split; [apply Forall_set; auto|]. intros j E. injection E as <-. cbn. eapply PF; eauto.
  - split; [apply Forall_set; auto|]. discriminate.
Qed.

Definition next_post (x : outcome (iter A * list C * option vjob)) : Prop :=
  forall it cells o, x = Ret (it, cells, o) -> iter_ok it /\ Forall P cells /\ forall j, o = Some j -> fits (v_input j).

Lemma pull_usz src : Forall item_ok (until_none src) -> forall n cells, Forall P cells ->
  pull_src prep' src n cells = pull_src prep src n cells /\ next_post (pull_src prep src n cells).
Proof.
  induction src as [|o src IH]; intros S n cells F; cbn [pull_src].
  - split; [reflexivity|]. intros it cs j E. injection E as <- <- <-. split; [left; reflexivity|]. split; auto. discriminate.
  - destruct o as [it|].
    + cbn [until_none] in S. inversion S as [|? ? S1 S2]; subst.
      destruct (start_usz cells it F S1) as [E1 E2]. rewrite E1.
      destruct (start prep cells it) as [[cells' o]| | |] eqn:Es; cbn [bind]; try (split; [reflexivity|discriminate]).
      destruct (E2 _ _ eq_refl) as [F' J]. destruct o as [j|].
      * split; [reflexivity|]. intros it' cs j' E. injection E as <- <- <-. split; [right; split; [exact S2|discriminate]|].
        split; auto.
      * apply IH; auto.
    + split; [reflexivity|]. intros it cs j E. injection E as <- <- <-. split; [left; reflexivity|]. split; auto. discriminate.
Qed.

Lemma next_usz it cells : iter_ok it -> Forall P cells ->
  next prep' it cells = next prep it cells /\ next_post (next prep it cells).
Proof.
  intros I F. unfold next. destruct (i_done it) eqn:D.
  - split; [reflexivity|]. intros it' cs j E. injection E as <- <- <-. split; [left; exact D|]. split; auto. discriminate.
  - destruct I as [I|[I1 I2]]; [congruence|]. destruct (i_peeked it) as [p|].
    + destruct (start_usz cells p F (I2 p eq_refl)) as [E1 E2]. rewrite E1.
      destruct (start prep cells p) as [[cells' o]| | |] eqn:Es; cbn [bind]; try (split; [reflexivity|discriminate]).
      destruct (E2 _ _ eq_refl) as [F' J]. destruct o as [j|].
      * split; [reflexivity|]. intros it' cs j' E. injection E as <- <- <-. split; [right; split; [exact I1|discriminate]|].
        split; auto.
      * apply pull_usz; auto.
    + apply pull_usz; auto.
Qed.

Definition fill_post (x : outcome (iter A * list C * list vjob)) : Prop :=
  forall it cells vec, x = Ret (it, cells, vec) -> iter_ok it /\ Forall P cells /\ vec_ok vec.

Lemma fill_usz k : forall it cells vec, iter_ok it -> Forall P cells -> vec_ok vec ->
  fill prep' v k it cells vec = fill prep v k it cells vec /\ fill_post (fill prep v k it cells vec).
Proof.
  induction k as [|k IH]; intros it cells vec I F V; cbn [fill].
  - split; [reflexivity|]. intros it' cs vs E. injection E as <- <- <-. auto.
  - destruct (next_usz it cells I F) as [E1 E2]. rewrite E1.
    destruct (next prep it cells) as [[[it' cells'] o]| | |] eqn:En; cbn [bind]; try (split; [reflexivity|discriminate]).
    destruct (E2 _ _ _ eq_refl) as (I' & F' & J). destruct o as [j|].
    + destruct (assert_ _) as [[]| | |]; cbn [bind]; try (split; [reflexivity|discriminate]).
      apply IH; auto. apply Forall_app. split; auto.
    + split; [reflexivity|]. intros it2 cs vs E. injection E as <- <- <-. auto.
Qed.

Lemma Forall_head {X} (R : X -> Prop) n l : Forall R l -> Forall R (firstn n l).
Proof. intros H. rewrite <- (firstn_skipn n l) in H. apply Forall_app in H. apply H. Qed.
Lemma Forall_tail {X} (R : X -> Prop) n l : Forall R l -> Forall R (skipn n l).
Proof. intros H. rewrite <- (firstn_skipn n l) in H. apply Forall_app in H. apply H. Qed.
Lemma evict_ok n : forall vec vec', vec_ok vec -> evict_finished e vec n = Ret vec' -> vec_ok vec'.
Proof.
  induction n as [|n IH]; intros vec vec' V E; cbn [evict_finished] in E.
  - congruence.
  - destruct (debug_assert _ _); try discriminate. cbn [bind] in E. eapply IH; [|exact E].
    destruct (nth_error vec n) as [j|]; auto. destruct (v_input j); auto. unfold pop_at, vec_ok in *.
    apply Forall_app. split; [apply Forall_head|apply Forall_tail]; exact V.
Qed.

Lemma store_jobs_ok js : forall cells cells' vs, Forall P cells ->
  Forall (fun p => fits (j_input (snd p))) js ->
  store_jobs put cells js = Ret (cells', vs) -> Forall P cells' /\ vec_ok vs.
Proof.
  induction js as [|[j k] js IH]; intros cells cells' vs F J E; cbn [store_jobs] in E.
  - injection E as <- <-. split; auto. constructor.
  - inversion J as [|? ? J1 J2]; subst. unfold store_words in E.
    destruct (cell cells (v_ref j)) as [c| | |] eqn:Ec; try discriminate. cbn [bind] in E.
    destruct (store_jobs put _ js) as [[cells2 vs2]| | |] eqn:Es; try discriminate. cbn [bind] in E. injection E as <- <-.
    destruct (IH _ _ _ (Forall_set P cells F (v_ref j) (put c (j_words k)) (PUT _ _ (cell_P _ _ _ F Ec))) J2 Es) as [F' V'].
    split; auto. constructor; auto.
Qed.

Definition loops_agree (loop loop' : list job -> outcome (list job)) : Prop :=
  forall js, Forall (fun j => fits (j_input j)) js ->
  loop' js = loop js /\ forall js', loop js = Ret js' -> Forall (fun j => fits (j_input j)) js'.

Lemma run_jobs_usz loop loop' n cells vec : loops_agree loop loop' -> Forall P cells -> vec_ok vec ->
  run_jobs get put loop' n cells vec = run_jobs get put loop n cells vec /\
  (forall cells' vec', run_jobs get put loop n cells vec = Ret (cells', vec') -> Forall P cells' /\ vec_ok vec').
Proof.
  intros LA F V. unfold run_jobs.
  destruct (slice vec 0 n) as [front| | |] eqn:Ef; cbn [bind]; try (split; [reflexivity|discriminate]).
  assert (VF : vec_ok front).
  { unfold slice in Ef. destruct (_ && _); [|discriminate]. injection Ef as <-. cbn [skipn]. unfold vec_ok in *.
    apply Forall_head, V. }
  assert (VS : vec_ok (skipn n vec)).
  { apply Forall_tail, V. }
  destruct (mapM (load_job get cells) front) as [js| | |] eqn:Ej; cbn [bind]; try (split; [reflexivity|discriminate]).
  assert (JF : Forall (fun j => fits (j_input j)) js).
  { apply mapM_Forall2 in Ej. clear -Ej VF. induction Ej as [|j k l l' H Ej IH]; [constructor|].
    inversion VF; subst. constructor; auto. unfold load_job in H. destruct (cell cells (v_ref j)); try discriminate.
    cbn [bind] in H. injection H as <-. assumption. }
  destruct (LA js JF) as [E1 E2]. rewrite E1.
  destruct (loop js) as [js'| | |] eqn:El; cbn [bind]; try (split; [reflexivity|discriminate]).
  specialize (E2 _ eq_refl). split; [reflexivity|]. intros cells' vec' E.
  destruct (store_jobs put cells (combine front js')) as [[c2 v2]| | |] eqn:Es; try discriminate. cbn [bind] in E.
  injection E as <- <-.
  destruct (store_jobs_ok (combine front js') cells c2 v2 F) as [F' V']; auto.
  - rewrite Forall_forall in *. intros [a b] Hab. apply (E2 b). eapply in_combine_r; eauto.
  - split; auto. apply Forall_app. auto.
Qed.

Lemma batch_usz loop loop' n : loops_agree loop loop' ->
  forall fuel it cells vec, iter_ok it -> Forall P cells -> vec_ok vec ->
  batch_loop get put prep' v e loop' n fuel it cells vec = batch_loop get put prep v e loop n fuel it cells vec /\
  fill_post (batch_loop get put prep v e loop n fuel it cells vec).
Proof.
  intros LA. induction fuel as [|fuel IH]; intros it cells vec I F V; cbn [batch_loop]; [split; [reflexivity|discriminate]|].
  unfold fill_jobs_vec. destruct (fill_usz (n - length vec) it cells vec I F V) as [E1 E2]. rewrite E1.
  destruct (fill prep v (n - length vec) it cells vec) as [[[it1 c1] v1]| | |]; cbn [bind]; try (split; [reflexivity|discriminate]).
  destruct (E2 _ _ _ eq_refl) as (I1 & F1 & V1). destruct (Nat.ltb (length v1) n).
  - split; [reflexivity|]. intros it' cs vs E. injection E as <- <- <-. auto.
  - destruct (run_jobs_usz loop loop' n c1 v1 LA F1 V1) as [E3 E4]. rewrite E3.
    destruct (run_jobs get put loop n c1 v1) as [[c2 v2]| | |]; cbn [bind]; try (split; [reflexivity|discriminate]).
    destruct (E4 _ _ eq_refl) as [F2 V2].
    destruct (evict_finished e v2 n) as [v3| | |] eqn:Ev; cbn [bind]; try (split; [reflexivity|discriminate]).
    apply IH; auto. eapply evict_ok; eauto.
Qed.

Lemma run_one_eq cells j : fits (v_input j) -> run_one_usz M get put v e imp fin st cells j = run_one get put v e imp fin st cells j.
Proof. intros J. unfold run_one_usz, run_one. apply bind_ext. intros c _. rewrite compress1_usz by exact J. reflexivity. Qed.
Lemma run_one_P cells j cells' : Forall P cells -> run_one get put v e imp fin st cells j = Ret cells' -> Forall P cells'.
Proof.
  intros F E. unfold run_one in E. destruct (cell cells (v_ref j)) as [c| | |] eqn:Ec; try discriminate. cbn [bind] in E.
  destruct (compress1_loop _ _ _ _ _ _ _ _ _); try discriminate. cbn [bind] in E. unfold store_words in E. rewrite Ec in E.
  cbn [bind] in E. injection E as <-. apply Forall_set; auto. apply PUT. eapply cell_P; eauto.
Qed.

Lemma run_vec_usz_eq vec : vec_ok vec -> forall cells, Forall P cells ->
  run_vec_usz M get put v e imp fin st cells vec = run_vec get put v e imp fin st cells vec /\
  (forall cells', run_vec get put v e imp fin st cells vec = Ret cells' -> Forall P cells').
Proof.
  induction 1 as [|j vec J V IH]; intros cells F; cbn [run_vec_usz run_vec].
  - split; [reflexivity|]. intros cells' E. congruence.
  - rewrite run_one_eq by exact J.
    destruct (run_one get put v e imp fin st cells j) as [c| | |] eqn:E; cbn [bind]; try (split; [reflexivity|discriminate]).
    apply IH. eapply run_one_P; eauto.
Qed.

Lemma run_rest_usz_eq fuel : forall it cells, iter_ok it -> Forall P cells ->
  run_rest_usz M get put prep' v e imp fin st fuel it cells = run_rest get put prep v e imp fin st fuel it cells.
Proof.
  induction fuel as [|fuel IH]; intros it cells I F; [reflexivity|]. cbn [run_rest_usz run_rest].
  destruct (next_usz it cells I F) as [E1 E2]. rewrite E1.
  destruct (next prep it cells) as [[[it' cells'] o]| | |]; cbn [bind]; try reflexivity.
  destruct (E2 _ _ _ eq_refl) as (I' & F' & J). destruct o as [j|]; [|reflexivity].
  rewrite run_one_eq by (apply J; reflexivity). apply bind_ext. intros c Ec. apply IH; auto. eapply run_one_P; eauto.
Qed.

Lemma compress_many_usz_eq it cells : iter_ok it -> Forall P cells ->
  compress_many_usz M get put prep' v e imp fin st it cells = compress_many get put prep v e imp fin st it cells.
Proof.
  intros I F. unfold compress_many_usz, compress_many.
  set (x := if Nat.leb (wide v) (degree v imp) then batch_loop get put prep v e (fun js => compress_wide_loop v e imp js fin st) _ _ it cells [] else _).
  assert (W : (if Nat.leb (wide v) (degree v imp)
     then batch_loop get put prep' v e (fun js => compress_wide_loop_usz M v e imp js fin st) (wide v) (2 + length (i_src it)) it cells []
     else Ret (it, cells, [])) = x /\ fill_post x).
  { subst x. destruct (Nat.leb _ _).
    - apply batch_usz; auto; [|constructor]. intros js J. apply wide_usz; auto.
    - split; [reflexivity|]. intros it' cs vs E. injection E as <- <- <-. split; [exact I|]. split; [exact F|constructor]. }
  destruct W as [-> W]. destruct x as [[[it1 c1] v1]| | |]; cbn [bind]; auto. destruct (W _ _ _ eq_refl) as (I1 & F1 & V1). clear W.
  set (y := if Nat.leb (narrow v) (degree v imp) then batch_loop get put prep v e (fun js => compress_narrow_loop v e imp js fin st) _ _ it1 c1 v1 else _).
  match goal with |- bind ?z _ = _ => assert (W : z = y /\ fill_post y) end.
  { subst y. destruct (Nat.leb _ _).
    - apply batch_usz; auto. intros js J. apply narrow_usz; auto.
    - split; [reflexivity|]. intros it' cs vs E. injection E as <- <- <-. auto. }
  destruct W as [-> W]. destruct y as [[[it2 c2] v2]| | |]; cbn [bind]; auto. destruct (W _ _ _ eq_refl) as (I2 & F2 & V2).
  destruct (run_vec_usz_eq v2 V2 c2 F2) as [-> E2]. apply bind_ext. intros c3 E3. apply run_rest_usz_eq; auto.
Qed.
End Scheduler.

(** ** State *)
Lemma slice_length {A} (l : list A) a b x : slice l a b = Ret x -> length x = (b - a)%nat.
Proof.
  unfold slice. destruct (Nat.leb a b && Nat.leb b (length l)) eqn:E; [|discriminate].
  apply andb_prop in E. destruct E as [E1 E2]. apply Nat.leb_le in E1, E2. intros H. injection H as <-.
  rewrite firstn_length, skipn_length. lia.
Qed.
Lemma slice_fits (l : list byte) a b x : fits l -> slice l a b = Ret x -> fits x.
Proof.
  intros F H. unfold slice in H. destruct (_ && _); [|discriminate]. injection H as <-.
  unfold fits in *. rewrite firstn_length, skipn_length. lia.
Qed.
Lemma slice_from_fits (l : list byte) a x : fits l -> slice_from l a = Ret x -> fits x.
Proof.
  intros F H. unfold slice_from in H. destruct (_ <=? _)%nat; [|discriminate]. injection H as <-.
  unfold fits in *. rewrite skipn_length. lia.
Qed.
Lemma copy_into_length {A} (dst : list A) a src x : copy_into dst a src = Ret x -> length x = length dst.
Proof.
  unfold copy_into. destruct (Nat.leb_spec (a + length src) (length dst)); [|discriminate].
  intros E. injection E as <-. rewrite !app_length, firstn_length, skipn_length. lia.
Qed.
Lemma block_small v : N.of_nat (blockbytes v) <= 128.
Proof. destruct v; reflexivity || (cbn; lia). Qed.

Section Crate.
Variables (v : variant) (e : env).

Definition roomy (s : state) : Prop := (s_buflen s <= blockbytes v)%nat /\ length (s_buf s) = blockbytes v.

Lemma small_u8 n : (n <= blockbytes v)%nat -> N.to_nat (as_u8 n) = n.
Proof. intros H. pose proof (block_small v). unfold as_u8. rewrite N.mod_small by lia. lia. Qed.

Lemma fill_buf_eq s input : roomy s -> fits input ->
  fill_buf_usz M v e s input = fill_buf v e s input /\
  (forall s' rest, fill_buf v e s input = Ret (s', rest) -> roomy s' /\ fits rest).
Proof.
  intros [R1 R2] F. pose proof (block_small v) as B. unfold fill_buf_usz, fill_buf. rewrite usub_ok by exact R1. cbn [bind].
  rewrite uadd_ok by lia. cbn [bind].
  set (take := Nat.min (blockbytes v - s_buflen s) (length input)).
  destruct (slice input 0 take) as [head| | |] eqn:Eh; cbn [bind]; try (split; [reflexivity|discriminate]).
  rewrite copy_range_eq by (rewrite (slice_length _ _ _ _ Eh); lia). split; [reflexivity|].
  intros s' rest E.
  destruct (copy_into (s_buf s) (s_buflen s) head) as [buf| | |] eqn:Eb; try discriminate. cbn [bind] in E.
  rewrite small_u8 in E by lia. unfold add_small in E.
  replace (s_buflen s + take <? 256)%nat with true in E by (symmetry; apply Nat.ltb_lt; lia). cbn [bind] in E.
  destruct (slice_from input take) as [r| | |] eqn:Er; try discriminate. cbn [bind] in E. injection E as <- <-.
  split; [|eapply slice_from_fits; eauto]. split; cbn [s_buflen s_buf set_s_buflen set_s_buf]; [lia|].
  rewrite (copy_into_length _ _ _ _ Eb). exact R2.
Qed.

Lemma roomy_words s ws : roomy s -> roomy (set_s_words ws s).
Proof. exact (fun H => H). Qed.
Lemma roomy_count s n : roomy s -> roomy (set_s_count n s).
Proof. exact (fun H => H). Qed.
Lemma roomy_fits s : roomy s -> fits (s_buf s).
Proof. intros [_ R]. pose proof (block_small v). unfold fits. rewrite R. lia. Qed.

Lemma compress_buffer_eq s input : roomy s -> fits input ->
  compress_buffer_if_possible_usz M v e s input = compress_buffer_if_possible v e s input /\
  (forall s' rest, compress_buffer_if_possible v e s input = Ret (s', rest) -> roomy s' /\ fits rest).
Proof.
  intros R F. unfold compress_buffer_if_possible_usz, compress_buffer_if_possible. destruct (Nat.ltb 0 (s_buflen s)).
  2: { split; [reflexivity|]. intros s' rest E. injection E as <- <-. auto. }
  destruct (fill_buf_eq s input R F) as [E1 E2]. rewrite E1.
  destruct (fill_buf v e s input) as [[s1 i1]| | |]; cbn [bind]; try (split; [reflexivity|discriminate]).
  destruct (E2 _ _ eq_refl) as [R1 F1]. destruct i1 as [|b i1].
  - split; [reflexivity|]. intros s' rest E. injection E as <- <-. auto.
  - rewrite compress1_usz by (apply roomy_fits, R1). split; [reflexivity|].
    destruct (compress1_loop _ _ _ _ _ _ _ _ _); cbn [bind]; try discriminate. intros s' rest E. injection E as <- <-.
    split; auto. destruct R1 as [R1 R2]. split; cbn; [lia|exact R2].
Qed.

Lemma update_eq s input : roomy s -> fits input ->
  update_usz M v e s input = update v e s input /\ (forall s', update v e s input = Ret s' -> roomy s').
Proof.
  intros R F. unfold update_usz, update. destruct (compress_buffer_eq s input R F) as [E1 E2]. rewrite E1.
  destruct (compress_buffer_if_possible v e s input) as [[s1 i1]| | |]; cbn [bind]; try (split; [reflexivity|discriminate]).
  destruct (E2 _ _ eq_refl) as [R1 F1]. unfold sat_sub. rewrite usub_mod by apply blockbytes_pos'. cbn [bind].
  set (n := (length i1 - 1 - (length i1 - 1) mod blockbytes v)%nat).
  assert (X : forall (x : outcome (state * list byte)), (forall s' i', x = Ret (s', i') -> roomy s' /\ fits i') ->
     (do '(s, input) <- x; do '(s, _) <- fill_buf_usz M v e s input; Ret s) =
     (do '(s, input) <- x; do '(s, _) <- fill_buf v e s input; Ret s) /\
     (forall s', (do '(s, input) <- x; do '(s, _) <- fill_buf v e s input; Ret s) = Ret s' -> roomy s')).
  { intros x Hx. destruct x as [[s2 i2]| | |]; cbn [bind]; try (split; [reflexivity|discriminate]).
    destruct (Hx _ _ eq_refl) as [R2 F2]. destruct (fill_buf_eq s2 i2 R2 F2) as [E3 E4]. rewrite E3. split; [reflexivity|].
    destruct (fill_buf v e s2 i2) as [[s3 i3]| | |]; cbn [bind]; try discriminate.
    intros s' E. injection E as <-. apply (E4 _ _ eq_refl). }
  destruct (Nat.ltb 0 n).
  - destruct (slice i1 0 n) as [blocks| | |] eqn:Eb; cbn [bind]; try (split; [reflexivity|discriminate]).
    rewrite compress1_usz by (eapply slice_fits; eauto).
    apply X. intros s' i' E. destruct (compress1_loop _ _ _ _ _ _ _ _ _); try discriminate. cbn [bind] in E.
    destruct (slice_from i1 n) as [r| | |] eqn:Er; try discriminate. cbn [bind] in E. injection E as <- <-.
    split; [exact R1|eapply slice_from_fits; eauto].
  - apply X. intros s' i' E. injection E as <- <-. auto.
Qed.

Lemma finalize_eq s : roomy s -> finalize_usz M v e s = finalize v e s.
Proof.
  intros R. unfold finalize_usz, finalize. apply bind_ext. intros i E.
  rewrite compress1_usz; [reflexivity|]. eapply slice_fits; [apply roomy_fits, R|exact E].
Qed.

Lemma write_eq s input : roomy s -> fits input ->
  write_usz M v e s input = write v e s input /\ (forall s' n, write v e s input = Ret (s', n) -> roomy s').
Proof.
  intros R F. unfold write_usz, write. destruct (update_eq s input R F) as [E1 E2]. rewrite E1. split; [reflexivity|].
  destruct (update v e s input); cbn [bind]; try discriminate. intros s' n E. injection E as <- <-. auto.
Qed.

Lemma write_all_eq {S} (P : S -> Prop) (wr wr' : S -> list byte -> outcome (S * nat)) :
  (forall s i, P s -> fits i -> wr' s i = wr s i /\ forall s' n, wr s i = Ret (s', n) -> P s') ->
  forall s i, P s -> fits i -> write_all wr' s i = write_all wr s i.
Proof.
  intros W s i. unfold write_all. generalize (length i). intros fuel. revert s i.
  induction fuel as [|fuel IH]; intros s i HP F; destruct i as [|b i]; try reflexivity. cbn [write_all_loop].
  destruct (W s (b :: i) HP F) as [E1 E2]. rewrite E1. apply bind_ext. intros [s' n] E.
  destruct (Nat.eqb n 0); [reflexivity|]. apply bind_ext. intros r Er. apply IH; [eapply E2; eauto|].
  eapply slice_from_fits; eauto.
Qed.

Definition key_block_ok (p : Lib.params) : Prop := length (p_key_block p) = blockbytes v.

Lemma to_state_roomy p : key_block_ok p -> roomy (to_state v p).
Proof.
  intros K. unfold to_state, with_params. destruct (N.ltb 0 (p_key_length p)).
  - split; cbn [s_buflen s_buf set_s_buflen set_s_buf]; [|exact K]. rewrite K, small_u8 by lia. lia.
  - split; cbn [s_buflen s_buf]; [lia|]. apply repeat_length.
Qed.

Lemma params_hash_eq p m : key_block_ok p -> fits m -> params_hash_usz M v e p m = params_hash v e p m.
Proof.
  intros K F. unfold params_hash_usz, params_hash. destruct (N.ltb 0 (p_key_length p)).
  - destruct (update_eq (to_state v p) m (to_state_roomy p K) F) as [-> E]. apply bind_ext. intros s Es.
    apply finalize_eq. auto.
  - rewrite compress1_usz by exact F. reflexivity.
Qed.

(** ** Batches *)
Lemma update_prep_eq input s : fits input -> roomy s ->
  update_prep_usz M v e input s = update_prep v e input s /\
  (forall s' p, update_prep v e input s = Ret (s', p) -> roomy s' /\ forall i n l, p = Some (i, n, l) -> fits i).
Proof.
  intros F R. unfold update_prep_usz, update_prep. destruct (compress_buffer_eq s input R F) as [E1 E2]. rewrite E1.
  destruct (compress_buffer_if_possible v e s input) as [[s1 i1]| | |]; cbn [bind]; try (split; [reflexivity|discriminate]).
  destruct (E2 _ _ eq_refl) as [R1 F1]. destruct i1 as [|b i1].
  { split; [reflexivity|]. intros s' p E. injection E as <- <-. split; [auto|discriminate]. }
  rewrite usub_ok by (cbn [length]; lia). cbn [bind]. rewrite usub_mod by apply blockbytes_pos'. cbn [bind].
  split; [reflexivity|]. intros s' p.
  set (i := b :: i1) in *. set (n := (length i - 1 - (length i - 1) mod blockbytes v)%nat).
  destruct (slice i 0 n) as [blocks| | |] eqn:Eb; cbn [bind]; try discriminate.
  destruct (slice_from i n) as [lb| | |] eqn:El; cbn [bind]; try discriminate.
  destruct (copy_into (s_buf s1) 0 lb) as [buf| | |] eqn:Ec; cbn [bind]; try discriminate.
  assert (R2 : roomy (set_s_buflen (N.to_nat (as_u8 (length lb))) (set_s_buf buf s1))).
  { destruct R1 as [R1 R2]. pose proof (copy_into_length _ _ _ _ Ec) as L. split; cbn [s_buflen s_buf set_s_buflen set_s_buf]; [|congruence].
    unfold copy_into in Ec. destruct (Nat.leb_spec (0 + length lb) (length (s_buf s1))); [|discriminate].
    rewrite small_u8; lia. }
  destruct blocks as [|bb blocks]; intros E; injection E as <- <-.
  - split; [exact R2|discriminate].
  - split; [exact R2|]. intros j k l E. injection E as <- _ _. eapply slice_fits; eauto.
Qed.

Lemma update_many_eq states pairs : Forall roomy states -> Forall (fun x => fits (snd x)) (until_none pairs) ->
  update_many_usz M v e states pairs = update_many v e states pairs.
Proof.
  intros R F. unfold update_many_usz, update_many.
  assert (I : iter_ok fits (peek pairs)).
  { unfold peek. destruct pairs as [|[[r x]|] pairs]; try (left; reflexivity). right. cbn [until_none] in F.
    inversion F; subst. split; auto. intros p E. injection E as <-. assumption. }
  destruct (i_peeked (peek pairs)) as [[r x]|]; [|reflexivity]. apply bind_ext. intros s Es.
  rewrite (compress_many_usz_eq s_words _ (update_prep v e) (update_prep_usz M v e) v e (s_imp s) false Serial fits roomy); auto.
  - intros a c Ha Hc. apply update_prep_eq; auto.
  - intros a c c' p Ha Hc E. eapply update_prep_eq; eauto.
Qed.

Lemma hash_many_job_new_eq p m : key_block_ok p -> hash_many_job_new_usz M v e p m = hash_many_job_new v e p m.
Proof.
  intros K. unfold hash_many_job_new_usz, hash_many_job_new. destruct (N.ltb 0 (p_key_length p)); [|reflexivity].
  rewrite compress1_usz; [reflexivity|]. unfold fits. rewrite K. pose proof (block_small v). lia.
Qed.

Lemma hash_many_eq jobs refs : Forall (fun j => fits (hj_input j)) jobs ->
  hash_many_usz M v e jobs refs = hash_many v e jobs refs.
Proof.
  intros F. unfold hash_many_usz, hash_many.
  assert (T : forall l, Forall (item_ok (fun _ : unit => True)) l) by (intros; apply Forall_forall; intros; exact I).
  assert (I : iter_ok (fun _ : unit => True) (peek refs)) by (right; split; [apply T|intros; exact I]).
  destruct (i_peeked (peek refs)) as [[r x]|]; [|reflexivity]. apply bind_ext. intros j Ej.
  rewrite (compress_many_usz_eq hj_words _ hash_prep hash_prep v e (hj_imp j) true Serial (fun _ => True) (fun j => fits (hj_input j))); auto.
  intros a c c' p _ Hc. unfold hash_prep. destruct (hj_finished c); intros E; injection E as <- <-.
  - split; [exact Hc|discriminate].
  - split; [exact Hc|]. intros i n l E. injection E as <- _ _. exact Hc.
Qed.

(** ** BLAKE2bp and BLAKE2sp *)
Lemma leaf_start_ok i : (i < par_degree v)%nat -> umul M (e_dbg e) i (blockbytes v) = Ret (i * blockbytes v)%nat.
Proof.
  intros H. apply umul_ok. pose proof (block_small v) as B. assert (D : (i < 8)%nat) by (destruct v; cbn in H; lia).
  assert (N.of_nat i * N.of_nat (blockbytes v) <= 8 * 128) by (apply N.mul_le_mono; lia). lia.
Qed.
Lemma leaf_jobs_ext {B} (f : nat -> nat -> outcome B) :
  mapM (fun i => do a <- umul M (e_dbg e) i (blockbytes v); f i a) (seq 0 (par_degree v)) =
  mapM (fun i => f i (i * blockbytes v)%nat) (seq 0 (par_degree v)).
Proof. apply mapM_ext. intros i Hi. apply in_seq in Hi. rewrite leaf_start_ok by lia. reflexivity. Qed.

Lemma compress_leaves_eq imp fin leaves jobs : Forall (fun j : list byte * N * bool => fits (fst (fst j))) jobs ->
  compress_leaves_usz M v e imp fin leaves jobs = compress_leaves v e imp fin leaves jobs.
Proof.
  intros F. unfold compress_leaves_usz, compress_leaves.
  rewrite (compress_many_usz_eq (fun ws => ws) _ leaf_prep leaf_prep v e imp fin Parallel
    (fun j => fits (fst (fst j))) (fun _ => True)); auto.
  - intros a c c' p Ha _ E. unfold leaf_prep in E. injection E as <- <-. split; auto.
    intros i n l E. injection E as ->. exact Ha.
  - right. cbn [i_src i_peeked]. split; [|discriminate].
    rewrite Forall_forall in *. intros [r a] Hra. cbn [item_ok snd].
    assert (U : forall l : list (nat * (list byte * N * bool)), until_none (map Some l) = l)
      by (induction l; cbn [map until_none]; congruence).
    rewrite U in Hra. apply (F a). eapply in_combine_r; eauto.
  - apply Forall_forall. intros. exact I.
Qed.

Lemma mapM_Forall {A B} (f : A -> outcome B) (P : B -> Prop) l l' :
  (forall x y, f x = Ret y -> P y) -> mapM f l = Ret l' -> Forall P l'.
Proof. intros H E. apply mapM_Forall2 in E. induction E; constructor; eauto. Qed.

Lemma compress_to_leaves_eq imp leaves input n : fits input ->
  compress_to_leaves_usz M v e imp leaves input n = compress_to_leaves v e imp leaves input n.
Proof.
  intros F. unfold compress_to_leaves_usz, compress_to_leaves.
  rewrite (leaf_jobs_ext (fun _ a => do x <- slice_from input a; Ret (x, n, false))).
  apply bind_ext. intros jobs Ej. rewrite compress_leaves_eq; [reflexivity|].
  eapply mapM_Forall; [|exact Ej]. intros i y E. cbn beta in E.
  destruct (slice_from input (i * blockbytes v)) eqn:Es; try discriminate. cbn [bind] in E. injection E as <-.
  cbn [fst]. eapply slice_from_fits; eauto.
Qed.

Definition block8 : nat := (2 * par_degree v * blockbytes v)%nat.
Lemma block8_small : N.of_nat block8 <= 1024.
Proof. unfold block8. destruct v; vm_compute; discriminate. Qed.
Definition proomy (s : pstate) : Prop := (ps_buf_len s <= block8)%nat /\ length (ps_buf s) = block8.
Lemma proomy_fits s : proomy s -> fits (ps_buf s).
Proof. intros [_ R]. pose proof block8_small. unfold fits. rewrite R. lia. Qed.

Lemma p_fill_buf_eq s input : proomy s -> fits input ->
  p_fill_buf_usz M e s input = p_fill_buf e s input /\
  (forall s' rest, p_fill_buf e s input = Ret (s', rest) -> proomy s' /\ fits rest).
Proof.
  intros [R1 R2] F. pose proof block8_small as B. unfold p_fill_buf_usz, p_fill_buf. rewrite usub_ok by lia. cbn [bind].
  split; [reflexivity|]. intros s' rest.
  set (take := Nat.min (length (ps_buf s) - ps_buf_len s) (length input)).
  destruct (slice input 0 take) as [head| | |] eqn:Eh; cbn [bind]; try discriminate.
  destruct (copy_into (ps_buf s) (ps_buf_len s) head) as [buf| | |] eqn:Eb; cbn [bind]; try discriminate.
  rewrite (N.mod_small (N.of_nat take)) by lia. unfold add_u16. rewrite Nat2N.id.
  destruct (N.ltb_spec (N.of_nat (ps_buf_len s) + N.of_nat take) 65536); [|lia]. cbn [bind].
  destruct (slice_from input take) as [r| | |] eqn:Er; cbn [bind]; try discriminate. intros E. injection E as <- <-.
  split; [|eapply slice_from_fits; eauto]. split; cbn [ps_buf_len ps_buf set_ps_buf_len set_ps_buf]; [lia|].
  rewrite (copy_into_length _ _ _ _ Eb). exact R2.
Qed.

Lemma p_update_eq s input : proomy s -> fits input ->
  p_update_usz M v e s input = p_update v e s input /\ (forall s', p_update v e s input = Ret s' -> proomy s').
Proof.
  intros R F. unfold p_update_usz, p_update. cbv zeta.
  set (db := (par_degree v * blockbytes v)%nat). set (tail := ((par_degree v - 1) * blockbytes v)%nat).
  pose proof block8_small as B. assert (DB : block8 = (2 * db)%nat) by (unfold block8, db; lia).
  assert (DP : (0 < db)%nat) by (unfold db; destruct v; cbn; lia).
  match goal with |- bind ?z _ = bind ?y _ /\ _ =>
    assert (W : z = y /\ forall s' i', y = Ret (s', i') -> proomy s' /\ fits i') end.
  { destruct (Nat.ltb 0 (ps_buf_len s)); [|split; [reflexivity|]; intros s' i' E; injection E as <- <-; auto].
    destruct (p_fill_buf_eq s input R F) as [E1 E2]. rewrite E1.
    destruct (p_fill_buf e s input) as [[s1 i1]| | |]; cbn [bind]; try (split; [reflexivity|discriminate]).
    destruct (E2 _ _ eq_refl) as [R1 F1]. destruct i1 as [|b i1].
    { split; [reflexivity|]. intros s' i' E. injection E as <- <-. auto. }
    destruct (Nat.ltb tail (length (b :: i1))).
    - rewrite compress_to_leaves_eq by (apply proomy_fits, R1). split; [reflexivity|].
      destruct (compress_to_leaves _ _ _ _ _ _) as [[l n]| | |]; cbn [bind]; try discriminate. intros s' i' E. injection E as <- <-.
      split; auto. destruct R1 as [_ R1]. split; cbn; [lia|exact R1].
    - destruct (slice (ps_buf s1) 0 db) as [front| | |] eqn:Ef; cbn [bind]; try (split; [reflexivity|discriminate]).
      rewrite compress_to_leaves_eq by (eapply slice_fits; [apply proomy_fits, R1|exact Ef]). split; [reflexivity|].
      destruct (compress_to_leaves _ _ _ _ _ _) as [[l n]| | |]; cbn [bind]; try discriminate.
      cbn [ps_buf set_ps_buf_len set_ps_count set_ps_leaves]. rewrite Ef. cbn [bind].
      destruct (slice_from (ps_buf s1) db) as [back| | |] eqn:Ek; cbn [bind]; try discriminate.
      destruct (Nat.eqb_spec (length front) (length back)) as [EL|]; cbn [bind]; try discriminate.
      intros s' i' E. injection E as <- <-. split; auto.
      assert (L : length front = db) by (rewrite (slice_length _ _ _ _ Ef); lia).
      split; cbn [ps_buf_len ps_buf set_ps_buf_len set_ps_buf set_ps_count set_ps_leaves].
      + rewrite N.mod_small by lia. lia.
      + rewrite app_length. lia. }
  destruct W as [-> W]. match goal with |- bind ?y _ = _ /\ _ => destruct y as [[s1 i1]| | |] end; cbn [bind]; try (split; [reflexivity|discriminate]).
  destruct (W _ _ eq_refl) as [R1 F1]. clear W. unfold sat_sub. rewrite usub_mod by exact DP. cbn [bind].
  set (bulk := (length i1 - (tail + 1) - (length i1 - (tail + 1)) mod db)%nat).
  match goal with |- bind ?z _ = bind ?y _ /\ _ =>
    assert (W : z = y /\ forall s' i', y = Ret (s', i') -> proomy s' /\ fits i') end.
  { destruct (Nat.ltb 0 bulk); [|split; [reflexivity|]; intros s' i' E; injection E as <- <-; auto].
    destruct (slice i1 0 bulk) as [x| | |] eqn:Ex; cbn [bind]; try (split; [reflexivity|discriminate]).
    rewrite compress_to_leaves_eq by (eapply slice_fits; eauto). split; [reflexivity|].
    destruct (compress_to_leaves _ _ _ _ _ _) as [[l n]| | |]; cbn [bind]; try discriminate.
    destruct (slice_from i1 bulk) as [r| | |] eqn:Er; cbn [bind]; try discriminate. intros s' i' E. injection E as <- <-.
    split; [exact R1|eapply slice_from_fits; eauto]. }
  destruct W as [-> W]. match goal with |- bind ?y _ = _ /\ _ => destruct y as [[s2 i2]| | |] end; cbn [bind]; try (split; [reflexivity|discriminate]).
  destruct (W _ _ eq_refl) as [R2 F2]. clear W. destruct (p_fill_buf_eq s2 i2 R2 F2) as [E1 E2]. rewrite E1. split; [reflexivity|].
  destruct (p_fill_buf e s2 i2) as [[s3 i3]| | |]; cbn [bind]; try discriminate. destruct (E2 _ _ eq_refl) as [R3 _].
  destruct (debug_assert _ _); cbn [bind]; try discriminate. intros s' E. congruence.
Qed.

(** The root hashes the leaves' digests. *)
Lemma concat_words_fits ll : (length (concat ll) <= 64)%nat -> fits (flat_map (to_le (wbytes v)) (concat ll)).
Proof.
  intros H. unfold fits. assert (E : forall l, length (flat_map (to_le (wbytes v)) l) = (length l * wbytes v)%nat).
  { induction l as [|x l IH]; cbn [flat_map length]; [reflexivity|]. rewrite app_length, IH, to_le_length. lia. }
  rewrite E. assert (wbytes v <= 8)%nat by (destruct v; cbn; lia). nia.
Qed.
Lemma finalize_root_eq leaves root len imp : (length (concat leaves) <= 64)%nat ->
  finalize_root_words_usz M v e leaves root len imp = finalize_root_words v e leaves root len imp.
Proof.
  intros H. unfold finalize_root_words_usz, finalize_root_words. apply bind_ext. intros [] _.
  rewrite compress1_usz; [reflexivity|]. apply concat_words_fits, H.
Qed.

Lemma concat_eights (l : list (list N)) : Forall (fun x => length x = 8%nat) l -> length (concat l) = (8 * length l)%nat.
Proof. induction 1 as [|x l H F IH]; cbn [concat length]; [reflexivity|]. rewrite app_length, H, IH. lia. Qed.
Lemma root_small (g : nat -> list N) : (forall i, (i < par_degree v)%nat -> words_ok v (g i)) ->
  (length (concat (map g (seq 0 (par_degree v)))) <= 64)%nat.
Proof.
  intros H. rewrite concat_eights.
  - rewrite map_length, seq_length. destruct v; cbn; lia.
  - apply Forall_forall. intros x Hx. apply in_map_iff in Hx. destruct Hx as (i & <- & Hi). apply in_seq in Hi. apply H. lia.
Qed.

Lemma pholds_proomy c msg s : pholds v e c msg s -> proomy s.
Proof.
  intros [_ _ (k & [_ _ _ _ A5 A6 _] & _) _ _ _].
  assert (E : block8 = (2 * P v)%nat) by (unfold block8; rewrite P_eq; lia). split; lia.
Qed.

Lemma p_finalize_eq c msg s : pholds v e c msg s -> p_finalize_usz M v e s = p_finalize v e s.
Proof.
  intros H. pose proof (pholds_proomy _ _ _ H) as PR. destruct H as [W SU (k & A & TO) R LN K].
  destruct A as [A1 A2 A3 A4 A5 A6 A7]. unfold p_finalize_usz, p_finalize. cbv zeta.
  rewrite (leaf_jobs_ext (fun i a => do x <- slice (ps_buf s) (Nat.min a (ps_buf_len s)) (ps_buf_len s);
    Ret (x, ps_count s, Nat.eqb i (par_degree v - 1)))).
  set (x := fun i => firstn (ps_buf_len s - Nat.min (i * blockbytes v) (ps_buf_len s)) (skipn (Nat.min (i * blockbytes v) (ps_buf_len s)) (ps_buf s))).
  rewrite (mapM_Ret _ (fun i => (x i, ps_count s, Nat.eqb i (par_degree v - 1)))).
  2:{ intros i Hi. rewrite slice_ok by lia. reflexivity. }
  cbn [bind]. rewrite compress_leaves_eq.
  2:{ apply Forall_forall. intros y Hy. apply in_map_iff in Hy. destruct Hy as (i & <- & _). cbn [fst].
      apply proomy_fits in PR. unfold fits, x in *. rewrite firstn_length, skipn_length. lia. }
  rewrite A1, (compress_leaves_spec v e _ true _ x _ (fun i => Nat.eqb i (par_degree v - 1))); auto.
  - cbn [bind]. apply finalize_root_eq. apply root_small. intros i Hi. apply C1_ok, chain_ok; auto.
  - rewrite A2. apply aligned_blocks.
  - intros i Hi. split; [apply chain_ok; auto|left; reflexivity].
Qed.

Lemma copy_keys_eq k is_ : Forall (fun i => i < par_degree v)%nat is_ -> forall buf, copy_keys_usz M v e k is_ buf = copy_keys v k is_ buf.
Proof.
  induction 1 as [|i is_ H F IH]; intros buf; [reflexivity|]. cbn [copy_keys_usz copy_keys]. rewrite leaf_start_ok by auto.
  cbn [bind]. apply bind_ext. intros b _. apply IH.
Qed.
Lemma p_to_state_eq p : p_to_state_usz M v e p = p_to_state v p.
Proof.
  unfold p_to_state_usz, p_to_state, p_with_params. apply bind_ext. intros [lw rw] _. cbv zeta.
  destruct (N.ltb 0 (pp_key_length p)); [|reflexivity].
  destruct (slice (pp_key p) 0 (N.to_nat (pp_key_length p))); cbn [bind]; try reflexivity.
  rewrite copy_keys_eq; [reflexivity|]. apply Forall_forall. intros i Hi. apply in_seq in Hi. lia.
Qed.

Lemma p_hash_eq imp c m : wf_pconfig (fl v) c -> supported e imp -> fits m ->
  p_hash_usz M v e (pparams_of v imp c) m = p_hash v e (pparams_of v imp c) m.
Proof.
  intros W SU F. unfold p_hash_usz, p_hash. destruct (N.ltb 0 _).
  - rewrite p_to_state_eq. destruct (pholds_new v e imp c W SU) as (s & E & H & _). rewrite E. cbn [bind].
    destruct (p_update_eq s m (pholds_proomy _ _ _ H) F) as [-> _].
    destruct (pholds_update v e c [] s m H) as (s' & E' & H' & _). rewrite E'. cbn [bind].
    eapply p_finalize_eq; eauto.
  - rewrite p_to_words_spec by auto. cbn [bind].
    rewrite (leaf_jobs_ext (fun i a => do x <- slice_from m (Nat.min (length m) a); Ret (x, 0, Nat.eqb i (par_degree v - 1)))).
    set (x := fun i => skipn (Nat.min (length m) (i * blockbytes v)) m).
    rewrite (mapM_Ret _ (fun i => (x i, 0, Nat.eqb i (par_degree v - 1)))).
    2:{ intros i Hi. rewrite slice_from_ok by lia. reflexivity. }
    cbn [bind]. rewrite compress_leaves_eq.
    2:{ apply Forall_forall. intros y Hy. apply in_map_iff in Hy. destruct Hy as (i & <- & _). cbn [fst].
        unfold fits, x in *. rewrite skipn_length. lia. }
    change (pp_imp (pparams_of v imp c)) with imp.
    rewrite (compress_leaves_spec v e imp true (leaf_h0 v c) x 0 (fun i => Nat.eqb i (par_degree v - 1))); auto.
    + cbn [bind]. apply finalize_root_eq. apply root_small. intros i Hi. apply C1_ok, leaf_h0_ok.
    + split; [destruct v; reflexivity|]. apply N.mod_0_l. destruct v; cbn; lia.
    + intros i Hi. split; [apply leaf_h0_ok|left; reflexivity].
Qed.

(** ** Programs *)
Lemma holds_roomy c msg s : holds v e c msg s -> roomy s.
Proof. intros [_ _ (k & [_ _ _ _ A5 A6 _] & _) _ _ _]. split; auto. Qed.
Lemma params_key_block imp c : wf_config (fl v) c -> key_block_ok (params_of v imp c).
Proof.
  intros W. unfold key_block_ok, params_of, Spec.pad_to. cbn [p_key_block].
  rewrite app_length, repeat_length. pose proof (wf_keylen _ _ W) as K.
  assert (Spec.max_out (fl v) <= blockbytes v)%nat by (destruct v; cbn; lia). lia.
Qed.
Lemma default_key_block imp : key_block_ok (params_new v imp).
Proof. unfold key_block_ok, params_new. cbn [p_key_block]. apply repeat_length. Qed.

Definition jobs_fit (a : aworld) : Prop := Forall (fun j => fits (aj_msg j)) (a_jobs a).

Lemma states_roomy w a : R v e w a -> Forall roomy (w_states w).
Proof.
  intros RW. destruct RW as [_ RS _ _ _ _]. induction RS as [|s x l m H RS IH]; constructor; auto. eapply holds_roomy, H.
Qed.
Lemma job_input j x : Rj v e j x -> hj_input j = aj_msg x.
Proof. unfold Rj. destruct (aj_run x); intros H; destruct H; auto. Qed.
Lemma jobs_input_fit w a : R v e w a -> jobs_fit a -> Forall (fun j => fits (hj_input j)) (w_jobs w).
Proof.
  intros [_ _ RJ _ _ _] J. unfold jobs_fit in J. induction RJ as [|j x l m H RJ IH]; constructor; inversion J; subst; auto.
  rewrite (job_input _ _ H). assumption.
Qed.

Lemma obj_eq {X Y} (RR : X -> Y -> Prop) w l m i k k' : Forall2 RR l m ->
  (forall x y, RR x y -> k x = k' x) -> on_obj w l i k = on_obj w l i k'.
Proof.
  intros F H. unfold on_obj. pose proof (F2_nth _ _ _ i F) as K.
  destruct (nth_error l i), (nth_error m i); auto; [|destruct K]. eapply H; eauto.
Qed.

Lemma step_eq imp w a c : supported e imp -> R v e w a -> jobs_fit a -> slices_fit M c ->
  step_usz M v e imp w c = step v e imp w c.
Proof.
  intros SU RW JF SF. pose proof RW as [RP RS RJ RPP RPS RH]. unfold slices_fit in SF.
  destruct c; cbn [step_usz step passed] in *; try reflexivity;
    try (inversion SF as [|? ? F _]; subst; clear SF; change (fits m) in F).
  - unfold blake2_default. rewrite params_hash_eq; auto using default_key_block.
  - eapply obj_eq; [exact RP|]. intros x y (W & i & S & ->). rewrite params_hash_eq; auto using params_key_block.
  - eapply obj_eq; [exact RS|]. intros x y H. rewrite (proj1 (update_eq x m (holds_roomy _ _ _ H) F)). reflexivity.
  - eapply obj_eq; [exact RS|]. intros x y H. rewrite (proj1 (write_eq x m (holds_roomy _ _ _ H) F)). reflexivity.
  - eapply obj_eq; [exact RS|]. intros x y H.
    rewrite (write_all_eq roomy (write v e) (write_usz M v e)); auto; [|eapply holds_roomy, H].
    intros. apply write_eq; auto.
  - eapply obj_eq; [exact RS|]. intros x y H. rewrite finalize_eq; [reflexivity|eapply holds_roomy, H].
  - rewrite update_many_eq; [reflexivity|eapply states_roomy, RW|].
    rewrite Forall_map in SF. exact SF.
  - eapply obj_eq; [exact RP|]. intros x y (W & i & S & ->). rewrite hash_many_job_new_eq; auto using params_key_block.
  - rewrite hash_many_eq; [reflexivity|eapply jobs_input_fit; eauto].
  - unfold blake2p_default. rewrite pparams_new_of, p_hash_eq; auto using wfp_default.
  - eapply obj_eq; [exact RPP|]. intros x y (W & i & S & ->). rewrite p_hash_eq; auto.
  - eapply obj_eq; [exact RPP|]. intros x y _. rewrite p_to_state_eq. reflexivity.
  - eapply obj_eq; [exact RPS|]. intros x y H. rewrite (proj1 (p_update_eq x m (pholds_proomy _ _ _ H) F)). reflexivity.
  - eapply obj_eq; [exact RPS|]. intros x y H. unfold p_write_usz, p_write.
    rewrite (proj1 (p_update_eq x m (pholds_proomy _ _ _ H) F)). reflexivity.
  - eapply obj_eq; [exact RPS|]. intros x y H.
    rewrite (write_all_eq proomy (p_write v e) (p_write_usz M v e)); auto; [|eapply pholds_proomy, H].
    intros s0 i0 PR F0. unfold p_write_usz, p_write. destruct (p_update_eq s0 i0 PR F0) as [-> E2]. split; [reflexivity|].
    destruct (p_update v e s0 i0); cbn [bind]; try discriminate. intros s' n E. injection E as <- <-. auto.
  - eapply obj_eq; [exact RPS|]. intros x y H. rewrite (p_finalize_eq _ _ _ H). reflexivity.
Qed.

Lemma runs_fit xs : forall l, Forall (fun j => fits (aj_msg j)) l -> Forall (fun j => fits (aj_msg j)) (fold_left run_job xs l).
Proof.
  induction xs as [|r xs IH]; intros l H; cbn [fold_left]; auto. apply IH. unfold run_job.
  destruct (nth_error l r) as [j|] eqn:E; auto. unfold replace. apply Forall_app. split; [apply Forall_head, H|].
  constructor; [|apply Forall_tail, H]. cbn [aj_msg]. rewrite Forall_forall in H. eapply H, nth_error_In; eauto.
Qed.

Lemma astep_jobs_fit dbg a c : jobs_fit a -> slices_fit M c -> jobs_fit (fst (astep (fl v) dbg a c)).
Proof.
  unfold jobs_fit, slices_fit. intros J F.
  destruct c; cbn [astep passed] in *; unfold with_obj, new_hash, report;
    repeat match goal with
    | |- context [match nth_error ?l ?i with _ => _ end] =>
        let E := fresh "E" in destruct (nth_error l i) as [[]|] eqn:E; cbn [fst]
    | |- context [if ?b then _ else _] => destruct b; cbn [fst]
    end; cbn [fst a_jobs with_a_params with_a_states with_a_jobs with_a_pparams with_a_pstates with_a_hashes]; auto.
  all: try (apply Forall_app; split; [auto|]; constructor; [|constructor]).
  all: try (inversion F; subst; assumption).
  all: try (match goal with E : nth_error (a_jobs _) _ = Some _ |- _ =>
              rewrite Forall_forall in J; exact (J _ (nth_error_In _ _ E)) end).
  all: try (apply runs_fit, J).
Qed.

Lemma run_eq imp prog : supported e imp -> forall w a, R v e w a -> jobs_fit a ->
  Forall (well_typed (fl v)) prog -> Forall (slices_fit M) prog ->
  run_from_usz M v e imp w prog = run_from v e imp w prog.
Proof.
  intros SU. induction prog as [|c prog IH]; intros w a RW JF T F; [reflexivity|]. inversion T; inversion F; subst.
  cbn [run_from_usz run_from]. rewrite (step_eq imp w a c) by auto.
  destruct (step_R v e imp w a c SU RW) as [E RW']; auto.
  pose proof (astep_jobs_fit (e_dbg e) a c JF) as JF'.
  destruct (step v e imp w c) as [w' o], (astep (fl v) (e_dbg e) a c) as [a' o']. cbn [fst snd] in *.
  f_equal. eapply IH; eauto.
Qed.
End Crate.

Theorem program_usz v t e prog : honest t e -> Forall (well_typed (fl v)) prog -> Forall (slices_fit M) prog ->
  run_program_usz M v t e prog = run_program v t e prog.
Proof.
  intros H T F. unfold run_program_usz, run_program.
  eapply run_eq; eauto using detect_supported, R_empty. constructor.
Qed.
End Fits.
