(** Batches: exact results, order, grouping, repetition (C07-C09, C30, C36, C37). *)
From Coq Require Import String Permutation.
From Coq Require Import ZArith Arith NArith List Bool Lia ZifyBool ZifyNat ZifyN.
From Verif Require Import Base ByteLemmas Guts Portable KernelSpec Simd Impl Loops LaneLoops Sched SchedProof
  Lib StateProof ParamsProof FedProof Many ManyProof Par Stripe ParProof ParFed HashProof Machine Api ApiProof
  History Runs HistoryProof.
From Verif Require Spec ApiSpec.
Import ListNotations.
Open Scope list_scope.
Open Scope N_scope.
Local Notation length := List.length.

Lemma nth_error_ext {A} (l m : list A) : (forall i, nth_error l i = nth_error m i) -> l = m.
Proof.
  revert m. induction l as [|x l IH]; intros [|y m] H; auto.
  - specialize (H 0%nat). discriminate.
  - specialize (H 0%nat). discriminate.
  - pose proof (H 0%nat) as H0. cbn in H0. injection H0 as ->. f_equal. apply IH. intros i. apply (H (S i)).
Qed.

(** What one batch does, exactly: every object is replaced by what its own item alone makes of it. *)
Definition update_result v e (pairs : list (nat * list byte)) (states : list state) (r : nat) : option state :=
  target_of s_words (fun s ws => set_s_words ws s) (update_prep v e) v false Serial pairs states r.
Definition hash_result v (refs : list (nat * unit)) (jobs : list hash_many_job) (r : nat) : option hash_many_job :=
  target_of hj_words (fun j ws => set_hj_words ws j) hash_prep v true Serial refs jobs r.

Definition update_ready v e (states : list state) (pairs : list (nat * list byte)) : Prop :=
  NoDup (map fst pairs) /\
  forall r x, In (r, x) pairs -> exists s c msg, nth_error states r = Some s /\ holds v e c msg s.
Definition hash_ready v e (jobs : list hash_many_job) (refs : list (nat * unit)) : Prop :=
  NoDup (map fst refs) /\
  forall r x, In (r, x) refs -> exists j c msg, nth_error jobs r = Some j /\
    (pending v e c msg j \/ complete v e c msg j).

Lemma update_many_exact v e states pairs : update_ready v e states (upto_none pairs) ->
  exists states', update_many v e states pairs = Ret (states', S (length (upto_none pairs))) /\
    forall r, nth_error states' r = update_result v e (upto_none pairs) states r.
Proof.
  intros [ND H]. unfold update_many.
  destruct (i_peeked (peek pairs)) as [[r0 x0]|] eqn:EP.
  - destruct (peek_some _ _ _ EP) as (rest & -> & EPk). rewrite EPk.
    destruct (H r0 x0 ltac:(left; auto)) as (s0 & c0 & m0 & Hs0 & Hh0).
    unfold cell. rewrite Hs0. cbn [bind].
    destruct (compress_many_spec s_words (fun s ws => set_s_words ws s) (update_prep v e) v e (s_imp s0) false Serial
                ltac:(reflexivity) ltac:(reflexivity)
                {| i_peeked := Some (r0, x0); i_src := rest; i_done := false; i_calls := 1 |} states)
      as (it' & states' & E & _ & Ec & _ & Len & T).
    + apply (hd_sup _ _ _ _ _ Hh0).
    + exact ND.
    + intros r x Hin. destruct (H r x Hin) as (s & c & m & Hs & Hh). exists s. split; auto.
      eapply update_prep_spec; eauto.
    + rewrite E. cbn [bind]. exists states'. rewrite Ec. split; [reflexivity|]. exact T.
  - destruct (peek_none _ EP) as (U & Ec). rewrite Ec, U. exists states. split; [reflexivity|]. reflexivity.
Qed.

Lemma hash_many_exact v e jobs refs : hash_ready v e jobs (upto_none refs) ->
  exists jobs', hash_many v e jobs refs = Ret (jobs', S (length (upto_none refs))) /\
    forall r, nth_error jobs' r = hash_result v (upto_none refs) jobs r.
Proof.
  intros [ND H]. unfold hash_many.
  destruct (i_peeked (peek refs)) as [[r0 x0]|] eqn:EP.
  - destruct (peek_some _ _ _ EP) as (rest & -> & EPk). rewrite EPk.
    destruct (H r0 x0 ltac:(left; auto)) as (j0 & c0 & m0 & Hj0 & Hh0).
    unfold cell. rewrite Hj0. cbn [bind].
    destruct (compress_many_spec hj_words (fun j ws => set_hj_words ws j) hash_prep v e (hj_imp j0) true Serial
                ltac:(reflexivity) ltac:(reflexivity)
                {| i_peeked := Some (r0, x0); i_src := rest; i_done := false; i_calls := 1 |} jobs)
      as (it' & jobs' & E & _ & Ec & _ & Len & T).
    + destruct Hh0 as [Hh0|Hh0]; apply Hh0.
    + exact ND.
    + intros r [] Hin. destruct (H r tt Hin) as (j & c & m & Hj & Hh). exists j. split; auto.
      eapply hash_prep_spec; eauto.
    + rewrite E. cbn [bind]. exists jobs'. rewrite Ec. split; [reflexivity|]. exact T.
  - destruct (peek_none _ EP) as (U & Ec). rewrite Ec, U. exists jobs. split; [reflexivity|]. reflexivity.
Qed.

(** *** Order *)
Lemma find_perm {A} (l m : list (nat * A)) r : NoDup (map fst l) -> Permutation l m ->
  find (fun p => Nat.eqb (fst p) r) l = find (fun p => Nat.eqb (fst p) r) m.
Proof.
  intros ND P. assert (NDm : NoDup (map fst m)) by (eapply Permutation_NoDup; [apply Permutation_map, P|exact ND]).
  destruct (in_dec Nat.eq_dec r (map fst l)) as [I|I].
  - apply in_map_iff in I. destruct I as ([r' a] & <- & I). cbn [fst].
    rewrite (find_ref l r' a ND I), (find_ref m r' a NDm (Permutation_in _ P I)). reflexivity.
  - rewrite (find_ref_none l r I), find_ref_none; auto.
    intros J. apply I. eapply Permutation_in; [apply Permutation_sym, Permutation_map, P|exact J].
Qed.

Lemma upto_none_somes {A} (l : list (nat * A)) : upto_none (map Some l) = l.
Proof. induction l as [|x l IH]; cbn; auto. rewrite IH. reflexivity. Qed.
Lemma upto_none_end {A} (l : list (nat * A)) rest : upto_none (map Some l ++ None :: rest) = l.
Proof. induction l as [|x l IH]; cbn; auto. rewrite IH. reflexivity. Qed.

Lemma update_many_cong v e states p q : update_ready v e states (upto_none p) ->
  Permutation (upto_none p) (upto_none q) -> update_many v e states p = update_many v e states q.
Proof.
  intros RD P. assert (RQ : update_ready v e states (upto_none q)).
  { destruct RD as [ND H]. split; [eapply Permutation_NoDup; [apply Permutation_map, P|exact ND]|].
    intros r x I. apply (H r x). eapply Permutation_in; [apply Permutation_sym, P|exact I]. }
  destruct (update_many_exact v e states p RD) as (s1 & E1 & T1).
  destruct (update_many_exact v e states q RQ) as (s2 & E2 & T2).
  rewrite E1, E2, (Permutation_length P). repeat f_equal. apply nth_error_ext. intros r. rewrite T1, T2.
  unfold update_result, target_of. rewrite (find_perm _ _ r (proj1 RD) P). reflexivity.
Qed.

Lemma hash_many_cong v e jobs p q : hash_ready v e jobs (upto_none p) ->
  Permutation (upto_none p) (upto_none q) -> hash_many v e jobs p = hash_many v e jobs q.
Proof.
  intros RD P. assert (RQ : hash_ready v e jobs (upto_none q)).
  { destruct RD as [ND H]. split; [eapply Permutation_NoDup; [apply Permutation_map, P|exact ND]|].
    intros r x I. apply (H r x). eapply Permutation_in; [apply Permutation_sym, P|exact I]. }
  destruct (hash_many_exact v e jobs p RD) as (s1 & E1 & T1).
  destruct (hash_many_exact v e jobs q RQ) as (s2 & E2 & T2).
  rewrite E1, E2, (Permutation_length P). repeat f_equal. apply nth_error_ext. intros r. rewrite T1, T2.
  unfold hash_result, target_of. rewrite (find_perm _ _ r (proj1 RD) P). reflexivity.
Qed.

(** *** Grouping *)
Lemma find_app {A} (f : A -> bool) l m : find f (l ++ m) = match find f l with Some x => Some x | None => find f m end.
Proof. induction l as [|x l IH]; cbn; auto. destruct (f x); auto. Qed.

Lemma find_fst {A} (l : list (nat * A)) r q a : find (fun p => Nat.eqb (fst p) r) l = Some (q, a) -> q = r.
Proof. intros H. apply find_some in H. apply Nat.eqb_eq. apply H. Qed.

Lemma find_in_fst {A} (l : list (nat * A)) r x : find (fun p => Nat.eqb (fst p) r) l = Some x -> In r (map fst l).
Proof. intros H. apply find_some in H. destruct H as [I E]. apply Nat.eqb_eq in E. rewrite <- E. apply in_map, I. Qed.

Lemma target_split {C A} (get : C -> list N) put (prep : A -> C -> outcome (C * prepared)) v fin st l m cells cells' r :
  NoDup (map fst (l ++ m)) ->
  (forall q, nth_error cells' q = target_of get put prep v fin st l cells q) ->
  target_of get put prep v fin st (l ++ m) cells r = target_of get put prep v fin st m cells' r.
Proof.
  intros ND T. unfold target_of. rewrite find_app. rewrite map_app in ND.
  destruct (NoDup_app_inv _ _ ND) as (_ & _ & DJ).
  destruct (find (fun p => Nat.eqb (fst p) r) l) as [[q a]|] eqn:F.
  - pose proof (find_in_fst _ _ _ F) as I. rewrite (find_ref_none m r) by auto. rewrite T. unfold target_of. rewrite F. reflexivity.
  - destruct (find (fun p => Nat.eqb (fst p) r) m) as [[q a]|]; rewrite T; unfold target_of; rewrite F; reflexivity.
Qed.

Lemma update_many_split v e states l m : update_ready v e states (l ++ m) ->
  exists s1 s2, update_many v e states (map Some l) = Ret (s1, S (length l)) /\
    update_many v e s1 (map Some m) = Ret (s2, S (length m)) /\
    update_many v e states (map Some (l ++ m)) = Ret (s2, S (length (l ++ m))).
Proof.
  intros [ND H]. rewrite map_app in ND. destruct (NoDup_app_inv _ _ ND) as (N1 & N2 & DJ).
  assert (R1 : update_ready v e states (upto_none (map Some l))).
  { rewrite upto_none_somes. split; auto. intros r x I. apply (H r x). apply in_or_app. auto. }
  destruct (update_many_exact _ _ _ _ R1) as (s1 & E1 & T1). rewrite upto_none_somes in *.
  assert (R2 : update_ready v e s1 (upto_none (map Some m))).
  { rewrite upto_none_somes. split; auto. intros r x I. destruct (H r x ltac:(apply in_or_app; auto)) as (s & c & msg & Hs & Hh).
    exists s, c, msg. split; auto. rewrite T1. unfold update_result, target_of. rewrite find_ref_none; auto.
    intros J. apply (DJ _ J). apply (in_map fst) in I. exact I. }
  destruct (update_many_exact _ _ _ _ R2) as (s2 & E2 & T2). rewrite upto_none_somes in *.
  assert (R3 : update_ready v e states (upto_none (map Some (l ++ m)))).
  { rewrite upto_none_somes. split; auto. rewrite map_app. auto. }
  destruct (update_many_exact _ _ _ _ R3) as (s3 & E3 & T3). rewrite upto_none_somes in *.
  exists s1, s2. split; [exact E1|]. split; [exact E2|]. rewrite E3. repeat f_equal.
  apply nth_error_ext. intros r. rewrite T2, T3. apply target_split; auto. rewrite map_app. auto.
Qed.

Lemma hash_many_split v e jobs l m : hash_ready v e jobs (l ++ m) ->
  exists s1 s2, hash_many v e jobs (map Some l) = Ret (s1, S (length l)) /\
    hash_many v e s1 (map Some m) = Ret (s2, S (length m)) /\
    hash_many v e jobs (map Some (l ++ m)) = Ret (s2, S (length (l ++ m))).
Proof.
  intros [ND H]. rewrite map_app in ND. destruct (NoDup_app_inv _ _ ND) as (N1 & N2 & DJ).
  assert (R1 : hash_ready v e jobs (upto_none (map Some l))).
  { rewrite upto_none_somes. split; auto. intros r x I. apply (H r x). apply in_or_app. auto. }
  destruct (hash_many_exact _ _ _ _ R1) as (s1 & E1 & T1). rewrite upto_none_somes in *.
  assert (R2 : hash_ready v e s1 (upto_none (map Some m))).
  { rewrite upto_none_somes. split; auto. intros r x I. destruct (H r x ltac:(apply in_or_app; auto)) as (s & c & msg & Hs & Hh).
    exists s, c, msg. split; auto. rewrite T1. unfold hash_result, target_of. rewrite find_ref_none; auto.
    intros J. apply (DJ _ J). apply (in_map fst) in I. exact I. }
  destruct (hash_many_exact _ _ _ _ R2) as (s2 & E2 & T2). rewrite upto_none_somes in *.
  assert (R3 : hash_ready v e jobs (upto_none (map Some (l ++ m)))).
  { rewrite upto_none_somes. split; auto. rewrite map_app. auto. }
  destruct (hash_many_exact _ _ _ _ R3) as (s3 & E3 & T3). rewrite upto_none_somes in *.
  exists s1, s2. split; [exact E1|]. split; [exact E2|]. rewrite E3. repeat f_equal.
  apply nth_error_ext. intros r. rewrite T2, T3. apply target_split; auto. rewrite map_app. auto.
Qed.

(** *** Live objects *)
Section LiveInd.
Variables (v : variant) (e : env) (P : state -> Prop).
Hypothesis Hnew : forall imp ss, supported e imp -> Forall ApiSpec.typed ss -> P (to_state v (build v imp ss)).
Hypothesis Hop : forall s o, P s -> P (fst (do_op v e s o)).
Hypothesis Hmany : forall states pairs states' n i s,
  Forall P states -> NoDup (map fst (until_none pairs)) ->
  (forall r x, In (r, x) (until_none pairs) -> (r < length states)%nat) ->
  update_many v e states pairs = Ret (states', n) -> nth_error states' i = Some s -> P s.
Fixpoint live_rect' s (L : live v e s) {struct L} : P s :=
  match L in live _ _ s return P s with
  | live_new _ _ imp ss SU TY => Hnew imp ss SU TY
  | live_op _ _ s o L => Hop s o (live_rect' s L)
  | live_many _ _ states pairs states' n i s F ND RG E NE =>
      Hmany states pairs states' n i s
        ((fix all l (F : Forall (live v e) l) {struct F} : Forall P l :=
           match F in Forall _ l return Forall P l with
           | Forall_nil _ => Forall_nil P
           | @Forall_cons _ _ x l L F => @Forall_cons _ P x l (live_rect' x L) (all l F)
           end) states F) ND RG E NE
  end.
End LiveInd.

Lemma build_wf v ss : Forall ApiSpec.typed ss ->
  wf_config (fl v) (ApiSpec.configure (fl v) ss (ApiSpec.default_config (fl v))).
Proof. intros T. apply wf_configure; auto. apply wf_default. Qed.

Lemma new_holds v e imp ss : supported e imp -> Forall ApiSpec.typed ss ->
  holds v e (ApiSpec.configure (fl v) ss (ApiSpec.default_config (fl v))) [] (to_state v (build v imp ss)).
Proof. intros S T. rewrite build_spec. apply holds_new; auto. apply build_wf; auto. Qed.

Definition some_holds v e s := exists c msg, holds v e c msg s.

Lemma update_ready_live v e states pairs : Forall (some_holds v e) states ->
  NoDup (map fst (until_none pairs)) ->
  (forall r x, In (r, x) (until_none pairs) -> (r < length states)%nat) ->
  update_ready v e states (upto_none pairs).
Proof.
  rewrite until_upto. intros F ND RG. split; auto. intros r x I. specialize (RG r x I).
  destruct (nth_error states r) as [s|] eqn:E; [|apply nth_error_None in E; lia].
  rewrite Forall_forall in F. destruct (F s) as (c & msg & H); [eapply nth_error_In; eauto|]. eauto 6.
Qed.

Lemma live_holds v e s : live v e s -> some_holds v e s.
Proof.
  apply live_rect'.
  - intros imp ss S T. eexists _, _. apply new_holds; auto.
  - intros s0 o (c & msg & H). destruct (do_op_holds _ _ _ _ _ o H) as (s' & E & H'). rewrite E. eexists _, _. exact H'.
  - intros states pairs states' n i s0 F ND RG E NE.
    destruct (update_ready_live _ _ _ _ F ND RG) as [ND' RD].
    destruct (update_many_spec v e states pairs ND' RD) as (st2 & E2 & L2 & O2 & I2).
    rewrite E in E2. injection E2 as <- _.
    destruct (in_dec Nat.eq_dec i (map fst (upto_none pairs))) as [I|I].
    + apply in_map_iff in I. destruct I as ([r x] & R & I). cbn in R. subst r.
      destruct (RD i x I) as (s1 & c & msg & Hs & Hh). destruct (I2 i x s1 c msg I Hs Hh) as (s' & Hs' & Hh' & _).
      rewrite NE in Hs'. injection Hs' as <-. eexists _, _. exact Hh'.
    + rewrite (O2 i I) in NE. rewrite Forall_forall in F. apply F. eapply nth_error_In; eauto.
Qed.

Lemma update_many_live v e states pairs :
  Forall (live v e) states -> NoDup (map fst (until_none pairs)) ->
  (forall r x, In (r, x) (until_none pairs) -> (r < length states)%nat) ->
  exists states', update_many v e states pairs = Ret (states', S (length (until_none pairs))) /\
    length states' = length states /\
    (forall i, ~ In i (map fst (until_none pairs)) -> nth_error states' i = nth_error states i) /\
    (forall i x s, In (i, x) (until_none pairs) -> nth_error states i = Some s ->
       exists s' s1, nth_error states' i = Some s' /\ update v e s x = Ret s1 /\
         forall ops, watch (do_op v e) s' ops = watch (do_op v e) s1 ops).
Proof.
  intros F ND RG.
  assert (F' : Forall (some_holds v e) states) by (eapply Forall_impl; [|exact F]; intros; apply live_holds; auto).
  destruct (update_ready_live _ _ _ _ F' ND RG) as [ND' RD].
  destruct (update_many_spec v e states pairs ND' RD) as (st2 & E2 & L2 & O2 & I2). rewrite until_upto in *.
  exists st2. split; [exact E2|]. split; [exact L2|]. split; [exact O2|].
  intros i x s I Hs. rewrite Forall_forall in F'. destruct (F' s) as (c & msg & Hh); [eapply nth_error_In; eauto|].
  destruct (I2 i x s c msg I Hs Hh) as (s' & Hs' & Hh' & _).
  destruct (holds_update _ _ _ _ _ x Hh) as (s1 & E1 & H1 & _). exists s', s1. split; [auto|]. split; [auto|].
  intros ops. eapply same_watch; eauto.
Qed.

Lemma plive_holds v e s : plive v e s -> exists c msg, pholds v e c msg s.
Proof.
  induction 1 as [imp ss s S E|s o L IH].
  - rewrite pbuild_spec in E. destruct (pholds_new v e imp (ApiSpec.pconfigure (fl v) ss (ApiSpec.pdefault_config (fl v)))) as (s' & E' & H & _); auto.
    + apply wfp_configure, wfp_default.
    + rewrite E in E'. injection E' as <-. eauto.
  - destruct IH as (c & msg & H). destruct (do_pop_holds _ _ _ _ _ o H) as (s' & E & H'). rewrite E. eauto.
Qed.

(** *** Jobs *)
Definition request_config v (r : request) : ApiSpec.config :=
  let '(_, ss, _) := r in ApiSpec.configure (fl v) ss (ApiSpec.default_config (fl v)).
Definition request_msg (r : request) : list byte := let '(_, _, m) := r in m.
Definition at_birth v (r : request) : bool :=
  keyed (request_config v r) && match request_msg r with [] => true | _ => false end.

Definition job_state v e (r : request) (done : bool) (j : hash_many_job) : Prop :=
  if done then complete v e (request_config v r) (request_msg r) j
  else pending v e (request_config v r) (request_msg r) j.

Lemma make_jobs_spec v e reqs : Forall (askable e) reqs ->
  exists jobs, mapM (make_job v e) reqs = Ret jobs /\
    Forall2 (fun r j => job_state v e r (at_birth v r) j) reqs jobs.
Proof.
  induction 1 as [|[[imp ss] msg] reqs [S T] F IH]; cbn [mapM].
  - exists []. auto.
  - destruct IH as (jobs & E & F2). cbn [make_job]. rewrite build_spec.
    destruct (job_new_spec v e imp (ApiSpec.configure (fl v) ss (ApiSpec.default_config (fl v))) msg) as (j & EJ & _ & _ & PC & FN); auto.
    { apply build_wf; auto. }
    rewrite EJ. cbn [bind]. rewrite E. cbn [bind]. exists (j :: jobs). split; auto. constructor; auto.
    unfold job_state, at_birth. cbn [request_config request_msg]. rewrite <- FN.
    destruct PC as [PC|PC].
    + rewrite (pj_fin _ _ _ _ _ PC). exact PC.
    + rewrite (cj_fin _ _ _ _ _ PC). exact PC.
Qed.

Lemma items_fst l : map fst (upto_none (items l)) = l.
Proof. unfold items. induction l as [|i l IH]; cbn; auto. rewrite IH. reflexivity. Qed.
Lemma items_length l : length (upto_none (items l)) = length l.
Proof. rewrite <- (map_length fst), items_fst. reflexivity. Qed.

Lemma Forall2_nth_l {A B} (R : A -> B -> Prop) l m i a : Forall2 R l m -> nth_error l i = Some a ->
  exists b, nth_error m i = Some b /\ R a b.
Proof. intros F. revert i. induction F; intros [|i] NE; cbn in *; try discriminate; [injection NE as <-|]; eauto. Qed.
Lemma Forall2_nth_r {A B} (R : A -> B -> Prop) l m i b : Forall2 R l m -> nth_error m i = Some b ->
  exists a, nth_error l i = Some a /\ R a b.
Proof. intros F. revert i. induction F; intros [|i] NE; cbn in *; try discriminate; [injection NE as <-|]; eauto. Qed.

(** One batch on jobs in known states. *)
Lemma one_batch v e reqs (D : nat -> bool) jobs l :
  length jobs = length reqs ->
  (forall i r j, nth_error reqs i = Some r -> nth_error jobs i = Some j -> job_state v e r (D i) j) ->
  NoDup l -> (forall i, In i l -> (i < length reqs)%nat) ->
  exists jobs', hash_many v e jobs (items l) = Ret (jobs', S (length l)) /\
    length jobs' = length jobs /\
    (forall i r j, nth_error reqs i = Some r -> nth_error jobs' i = Some j ->
       job_state v e r (D i || existsb (Nat.eqb i) l) j) /\
    (forall i, D i = true -> nth_error jobs' i = nth_error jobs i).
Proof.
  intros L H ND RG.
  assert (PC : forall i r j, nth_error reqs i = Some r -> nth_error jobs i = Some j ->
    pending v e (request_config v r) (request_msg r) j \/ complete v e (request_config v r) (request_msg r) j).
  { intros i r j Hr Hj. specialize (H i r j Hr Hj). unfold job_state in H. destruct (D i); auto. }
  assert (GET : forall i, (i < length reqs)%nat -> exists r j, nth_error reqs i = Some r /\ nth_error jobs i = Some j).
  { intros i Hi. destruct (nth_error reqs i) eqn:E1; [|apply nth_error_None in E1; lia].
    destruct (nth_error jobs i) eqn:E2; [|apply nth_error_None in E2; lia]. eauto. }
  assert (INL : forall i x, In (i, x) (upto_none (items l)) -> In i l).
  { intros i x I. apply (in_map fst) in I. rewrite items_fst in I. exact I. }
  destruct (hash_many_spec v e jobs (items l)) as (jobs' & E & L' & O & I).
  - rewrite items_fst. auto.
  - intros r x I. destruct (GET r) as (q & j & Hq & Hj); [apply RG; eauto|]. eauto 6.
  - exists jobs'. rewrite items_length in E. split; [exact E|]. split; [exact L'|]. rewrite items_fst in O. split.
    + intros i r j Hr Hj. destruct (existsb (Nat.eqb i) l) eqn:X.
      * rewrite orb_true_r. apply existsb_exists in X. destruct X as (i' & IL & X). apply Nat.eqb_eq in X. subst i'.
        destruct (GET i (RG i IL)) as (q & j0 & Hq & Hj0). rewrite Hr in Hq. injection Hq as <-.
        assert (IT : In (i, tt) (upto_none (items l))).
        { rewrite <- (items_fst l) in IL. apply in_map_iff in IL. destruct IL as ([? []] & <- & IL). exact IL. }
        destruct (I i tt j0 _ _ IT Hj0 (PC _ _ _ Hr Hj0)) as (j' & Hj' & C & _).
        rewrite Hj in Hj'. injection Hj' as <-. exact C.
      * rewrite orb_false_r. apply H; auto. rewrite <- O; auto. intros IL.
        assert (existsb (Nat.eqb i) l = true) by (apply existsb_exists; exists i; split; auto; apply Nat.eqb_refl). congruence.
    + intros i Di. destruct (in_dec Nat.eq_dec i l) as [IL|IL]; [|auto].
      destruct (GET i (RG i IL)) as (q & j0 & Hq & Hj0).
      assert (IT : In (i, tt) (upto_none (items l))).
      { rewrite <- (items_fst l) in IL. apply in_map_iff in IL. destruct IL as ([? []] & <- & IL). exact IL. }
      destruct (I i tt j0 _ _ IT Hj0 (PC _ _ _ Hq Hj0)) as (j' & Hj' & C & Q).
      pose proof (H i q j0 Hq Hj0) as C0. unfold job_state in C0. rewrite Di in C0. rewrite Hj0, Hj', (Q C0). reflexivity.
Qed.

Definition in_some (i : nat) (batches : list (list nat)) : bool := existsb (existsb (Nat.eqb i)) batches.

Lemma some_batches v e reqs batches : forall (D : nat -> bool) jobs,
  length jobs = length reqs ->
  (forall i r j, nth_error reqs i = Some r -> nth_error jobs i = Some j -> job_state v e r (D i) j) ->
  Forall (fun l => NoDup l /\ forall i, In i l -> (i < length reqs)%nat) batches ->
  exists jobs', hash_batches v e jobs (map items batches) = Ret jobs' /\ length jobs' = length jobs /\
    (forall i r j, nth_error reqs i = Some r -> nth_error jobs' i = Some j ->
       job_state v e r (D i || in_some i batches) j).
Proof.
  induction batches as [|l batches IH]; intros D jobs L H F; cbn [map hash_batches].
  - exists jobs. split; auto. split; auto. intros i r j Hr Hj. cbn. rewrite orb_false_r. auto.
  - inversion F as [|? ? [ND RG] F']; subst. destruct (one_batch v e reqs D jobs l L H ND RG) as (j1 & E1 & L1 & H1 & _).
    rewrite E1. cbn [bind]. destruct (IH (fun i => D i || existsb (Nat.eqb i) l) j1 (eq_trans L1 L) H1 F') as (j2 & E2 & L2 & H2).
    exists j2. split; [exact E2|]. split; [lia|]. intros i r j Hr Hj. unfold in_some. cbn [existsb]. rewrite orb_assoc. apply (H2 i r j Hr Hj).
Qed.

Lemma hash_alone_spec v e r : askable e r -> hash_alone v e r = Ret (hash_value v (request_config v r) (request_msg r)).
Proof. destruct r as [[imp ss] msg]. intros [S T]. cbn. rewrite build_spec. apply params_hash_spec; auto. apply build_wf; auto. Qed.

(** Any successive batches over any jobs. *)
Theorem batches_spec v e reqs batches : Forall (askable e) reqs ->
  Forall (fun l => NoDup l /\ forall i, In i l -> (i < length reqs)%nat) batches ->
  exists jobs jobs', mapM (make_job v e) reqs = Ret jobs /\
    hash_batches v e jobs (map items batches) = Ret jobs' /\ length jobs' = length reqs /\
    forall i r j, nth_error reqs i = Some r -> nth_error jobs' i = Some j ->
      (at_birth v r || in_some i batches = true -> to_hash v e j = hash_alone v e r) /\
      (at_birth v r || in_some i batches = false -> e_dbg e = true -> to_hash v e j = Panic).
Proof.
  intros A F. destruct (make_jobs_spec v e reqs A) as (jobs & E & F2). exists jobs.
  set (D := fun i => match nth_error reqs i with Some r => at_birth v r | None => false end).
  destruct (some_batches v e reqs batches D jobs) as (jobs' & E' & L' & H).
  - symmetry. eapply F2_length; eauto.
  - intros i r j Hr Hj. destruct (Forall2_nth_l _ _ _ _ _ F2 Hr) as (j0 & Hj0 & J). rewrite Hj in Hj0. injection Hj0 as <-.
    unfold D. rewrite Hr. exact J.
  - exact F.
  - exists jobs'. split; [exact E|]. split; [exact E'|]. split; [rewrite L'; symmetry; eapply F2_length; eauto|].
    intros i r j Hr Hj. specialize (H i r j Hr Hj). unfold D in H. rewrite Hr in H. split.
    + intros T. rewrite T in H. rewrite (to_hash_complete _ _ _ _ _ H).
      rewrite hash_alone_spec; auto. rewrite Forall_forall in A. apply A. eapply nth_error_In; eauto.
    + intros T Dg. rewrite T in H. apply to_hash_unfinished; auto. apply (pj_fin _ _ _ _ _ H).
Qed.

(** *** Live jobs *)
Section LiveJobInd.
Variables (v : variant) (e : env) (P : hash_many_job -> Prop).
Hypothesis Hnew : forall r j, askable e r -> make_job v e r = Ret j -> P j.
Hypothesis Hmany : forall jobs refs jobs' n i j,
  Forall P jobs -> NoDup (map fst (until_none refs)) ->
  (forall r x, In (r, x) (until_none refs) -> (r < length jobs)%nat) ->
  hash_many v e jobs refs = Ret (jobs', n) -> nth_error jobs' i = Some j -> P j.
Fixpoint live_job_rect' j (L : live_job v e j) {struct L} : P j :=
  match L in live_job _ _ j return P j with
  | live_job_new _ _ r j A E => Hnew r j A E
  | live_job_many _ _ jobs refs jobs' n i j F ND RG E NE =>
      Hmany jobs refs jobs' n i j
        ((fix all l (F : Forall (live_job v e) l) {struct F} : Forall P l :=
           match F in Forall _ l return Forall P l with
           | Forall_nil _ => Forall_nil P
           | @Forall_cons _ _ x l L F => @Forall_cons _ P x l (live_job_rect' x L) (all l F)
           end) jobs F) ND RG E NE
  end.
End LiveJobInd.

Definition some_job v e j := exists c msg, pending v e c msg j \/ complete v e c msg j.

Lemma hash_ready_live v e jobs refs : Forall (some_job v e) jobs ->
  NoDup (map fst (until_none refs)) ->
  (forall r x, In (r, x) (until_none refs) -> (r < length jobs)%nat) ->
  hash_ready v e jobs (upto_none refs).
Proof.
  rewrite until_upto. intros F ND RG. split; auto. intros r x I. specialize (RG r x I).
  destruct (nth_error jobs r) as [s|] eqn:E; [|apply nth_error_None in E; lia].
  rewrite Forall_forall in F. destruct (F s) as (c & msg & H); [eapply nth_error_In; eauto|]. eauto 6.
Qed.

Lemma live_job_holds v e j : live_job v e j -> some_job v e j.
Proof.
  apply live_job_rect'.
  - intros [[imp ss] msg] j0 [S T]. cbn [make_job]. rewrite build_spec. intros E.
    destruct (job_new_spec v e imp (ApiSpec.configure (fl v) ss (ApiSpec.default_config (fl v))) msg) as (j1 & EJ & _ & _ & PC & _); auto.
    { apply build_wf; auto. }
    rewrite E in EJ. injection EJ as <-. eexists _, _. exact PC.
  - intros jobs refs jobs' n i j0 F ND RG E NE.
    destruct (hash_ready_live _ _ _ _ F ND RG) as [ND' RD].
    destruct (hash_many_spec v e jobs refs ND' RD) as (jb & E2 & L2 & O2 & I2).
    rewrite E in E2. injection E2 as <- _.
    destruct (in_dec Nat.eq_dec i (map fst (upto_none refs))) as [I|I].
    + apply in_map_iff in I. destruct I as ([r x] & R & I). cbn in R. subst r.
      destruct (RD i x I) as (s1 & c & msg & Hs & Hh). destruct (I2 i x s1 c msg I Hs Hh) as (s' & Hs' & Hh' & _).
      rewrite NE in Hs'. injection Hs' as <-. eexists _, _. right. exact Hh'.
    + rewrite (O2 i I) in NE. rewrite Forall_forall in F. apply F. eapply nth_error_In; eauto.
Qed.

Lemma ready_states v e states pairs : Forall (live v e) states -> NoDup (map fst (until_none pairs)) ->
  (forall r x, In (r, x) (until_none pairs) -> (r < length states)%nat) -> update_ready v e states (upto_none pairs).
Proof. intros F. apply update_ready_live. eapply Forall_impl; [|exact F]. intros; apply live_holds; auto. Qed.
Lemma ready_jobs v e jobs refs : Forall (live_job v e) jobs -> NoDup (map fst (until_none refs)) ->
  (forall r x, In (r, x) (until_none refs) -> (r < length jobs)%nat) -> hash_ready v e jobs (upto_none refs).
Proof. intros F. apply hash_ready_live. eapply Forall_impl; [|exact F]. intros; apply live_job_holds; auto. Qed.

(** *** In the form of the property files *)
Lemma until_somes {A} (l : list (nat * A)) : until_none (map Some l) = l.
Proof. rewrite until_upto. apply upto_none_somes. Qed.

Lemma update_order v e states p q : Forall (live v e) states -> NoDup (map fst p) ->
  (forall r x, In (r, x) p -> (r < length states)%nat) -> Permutation p q ->
  update_many v e states (map Some p) = update_many v e states (map Some q).
Proof.
  intros F ND RG P. apply update_many_cong; [|rewrite !upto_none_somes; exact P].
  apply ready_states; rewrite ?until_somes; auto.
Qed.
Lemma hash_order v e jobs p q : Forall (live_job v e) jobs -> NoDup p ->
  (forall r, In r p -> (r < length jobs)%nat) -> Permutation p q ->
  hash_many v e jobs (items p) = hash_many v e jobs (items q).
Proof.
  intros F ND RG P. apply hash_many_cong.
  - apply ready_jobs; auto; rewrite until_upto, ?items_fst; auto.
    intros r x I. apply RG. apply (in_map fst) in I. rewrite items_fst in I. exact I.
  - assert (H : forall l, upto_none (items l) = map (fun i => (i, tt)) l).
    { intros l. unfold items. rewrite <- (map_map (fun i => (i, tt)) Some). apply upto_none_somes. }
    rewrite !H. apply Permutation_map, P.
Qed.

Lemma update_split v e states l m : Forall (live v e) states -> NoDup (map fst (l ++ m)) ->
  (forall r x, In (r, x) (l ++ m) -> (r < length states)%nat) ->
  exists s1 s2, update_many v e states (map Some l) = Ret (s1, S (length l)) /\
    update_many v e s1 (map Some m) = Ret (s2, S (length m)) /\
    update_many v e states (map Some (l ++ m)) = Ret (s2, S (length (l ++ m))).
Proof.
  intros F ND RG. apply update_many_split.
  rewrite <- (upto_none_somes (l ++ m)). apply ready_states; rewrite ?until_somes; auto.
Qed.
Lemma hash_split v e jobs l m : Forall (live_job v e) jobs -> NoDup (l ++ m) ->
  (forall r, In r (l ++ m) -> (r < length jobs)%nat) ->
  exists s1 s2, hash_many v e jobs (items l) = Ret (s1, S (length l)) /\
    hash_many v e s1 (items m) = Ret (s2, S (length m)) /\
    hash_many v e jobs (items (l ++ m)) = Ret (s2, S (length (l ++ m))).
Proof.
  intros F ND RG.
  assert (H : forall l, items l = map Some (map (fun i => (i, tt)) l)) by (intros; unfold items; rewrite map_map; reflexivity).
  destruct (hash_many_split v e jobs (map (fun i => (i, tt)) l) (map (fun i => (i, tt)) m)) as (s1 & s2 & A & B & C).
  - rewrite <- map_app, <- (upto_none_somes (map _ (l ++ m))), <- H. apply ready_jobs; auto; rewrite until_upto, ?items_fst; auto.
    intros r x I. apply RG. apply (in_map fst) in I. rewrite items_fst in I. exact I.
  - exists s1, s2. rewrite !H. rewrite <- map_app in C. rewrite !map_length in *. auto.
Qed.

(** Nothing behind the first None matters. *)
Lemma update_lazy v e states l rest : Forall (live v e) states -> NoDup (map fst l) ->
  (forall r x, In (r, x) l -> (r < length states)%nat) ->
  exists states', update_many v e states (map Some l) = Ret (states', S (length l)) /\
    update_many v e states (map Some l ++ None :: rest) = Ret (states', S (length l)).
Proof.
  intros F ND RG.
  assert (R : update_ready v e states (upto_none (map Some l))) by (apply ready_states; rewrite ?until_somes; auto).
  destruct (update_many_exact _ _ _ _ R) as (s1 & E & _). rewrite upto_none_somes in E. exists s1. split; auto.
  rewrite <- E. symmetry. apply update_many_cong; auto. rewrite upto_none_somes, upto_none_end. apply Permutation_refl.
Qed.
Lemma hash_lazy v e jobs l rest : Forall (live_job v e) jobs -> NoDup l ->
  (forall r, In r l -> (r < length jobs)%nat) ->
  exists jobs', hash_many v e jobs (items l) = Ret (jobs', S (length l)) /\
    hash_many v e jobs (items l ++ None :: rest) = Ret (jobs', S (length l)).
Proof.
  intros F ND RG.
  assert (R : hash_ready v e jobs (upto_none (items l))).
  { apply ready_jobs; auto; rewrite until_upto, ?items_fst; auto.
    intros r x I. apply RG. apply (in_map fst) in I. rewrite items_fst in I. exact I. }
  destruct (hash_many_exact _ _ _ _ R) as (s1 & E & _). rewrite items_length in E. exists s1. split; auto.
  rewrite <- E. symmetry. apply hash_many_cong; auto.
  assert (H : forall l, items l = map Some (map (fun i => (i, tt)) l)) by (intros; unfold items; rewrite map_map; reflexivity).
  rewrite H, upto_none_somes, upto_none_end. apply Permutation_refl.
Qed.

(** One batch with all jobs. *)
Lemma mapM_pointwise {A B C} (f : A -> outcome C) (g : B -> outcome C) : forall l m,
  length l = length m -> (forall i a b, nth_error l i = Some a -> nth_error m i = Some b -> f a = g b) ->
  mapM f l = mapM g m.
Proof.
  induction l as [|a l IH]; intros [|b m] L H; try discriminate; auto. cbn [mapM].
  rewrite (H 0%nat a b eq_refl eq_refl). destruct (g b); auto. cbn [bind]. rewrite (IH m); auto.
  intros i. apply (H (S i)).
Qed.

Lemma hash_many_all v e reqs order : Forall (askable e) reqs -> Permutation order (seq 0 (length reqs)) ->
  exists jobs jobs', mapM (make_job v e) reqs = Ret jobs /\
    hash_many v e jobs (items order) = Ret (jobs', S (length reqs)) /\
    mapM (to_hash v e) jobs' = mapM (hash_alone v e) reqs.
Proof.
  intros A P. assert (IN : forall i, In i order <-> (i < length reqs)%nat).
  { intros i. split; intros I.
    - apply (Permutation_in _ P) in I. apply in_seq in I. lia.
    - apply (Permutation_in _ (Permutation_sym P)), in_seq. lia. }
  destruct (batches_spec v e reqs [order] A) as (jobs & jobs' & E & EH & L & H).
  { constructor; auto. split; [eapply Permutation_NoDup; [apply Permutation_sym, P|apply seq_NoDup]|]. intros i I. apply IN, I. }
  exists jobs, jobs'. split; auto. cbn [map hash_batches] in EH.
  destruct (make_jobs_spec v e reqs A) as (jobs0 & E0 & F2). rewrite E in E0. injection E0 as <-.
  destruct (one_batch v e reqs (fun i => match nth_error reqs i with Some r => at_birth v r | None => false end) jobs order)
    as (j2 & E2 & _).
  - symmetry. eapply F2_length; eauto.
  - intros i r j Hr Hj. destruct (Forall2_nth_l _ _ _ _ _ F2 Hr) as (j0 & Hj0 & J). rewrite Hj in Hj0. injection Hj0 as <-.
    rewrite Hr. exact J.
  - eapply Permutation_NoDup; [apply Permutation_sym, P|apply seq_NoDup].
  - intros i I. apply IN, I.
  - rewrite E2 in EH. cbn [bind] in EH. injection EH as <-. split.
    + rewrite E2, (Permutation_length P), seq_length. reflexivity.
    + apply mapM_pointwise; [auto|]. intros i j r Hj Hr. apply (H i r j Hr Hj).
      cbn. replace (existsb (Nat.eqb i) order) with true; [rewrite orb_true_r; reflexivity|].
      symmetry. apply existsb_exists. exists i. split; [|apply Nat.eqb_refl]. apply IN. apply nth_error_Some. congruence.
Qed.

(** A job that is finished as soon as it exists: a key, and an empty message. *)
Lemma at_birth_iff v r : at_birth v r = true <-> ApiSpec.c_key (request_config v r) <> [] /\ request_msg r = [].
Proof.
  unfold at_birth, keyed. destruct (ApiSpec.c_key (request_config v r)), (request_msg r); cbn.
  all: split; [intros H|intros H; destruct H as [H1 H2]]; try discriminate; try congruence; auto; split; congruence.
Qed.
Lemma in_some_iff i batches : in_some i batches = true <-> exists b, In b batches /\ In i b.
Proof.
  unfold in_some. rewrite existsb_exists. split; intros (b & I & H); exists b; split; auto.
  - apply existsb_exists in H. destruct H as (x & J & X). apply Nat.eqb_eq in X. subst. auto.
  - apply existsb_exists. exists i. split; auto. apply Nat.eqb_refl.
Qed.

Theorem batches_prop v e reqs batches : Forall (askable e) reqs ->
  Forall (fun l => NoDup l /\ forall i, In i l -> (i < length reqs)%nat) batches ->
  exists jobs jobs', mapM (make_job v e) reqs = Ret jobs /\
    hash_batches v e jobs (map items batches) = Ret jobs' /\ length jobs' = length reqs /\
    forall i r j, nth_error reqs i = Some r -> nth_error jobs' i = Some j ->
      let run := (ApiSpec.c_key (request_config v r) <> [] /\ request_msg r = []) \/ exists b, In b batches /\ In i b in
      (run -> to_hash v e j = hash_alone v e r) /\
      (e_dbg e = true -> (to_hash v e j = Panic <-> ~ run)).
Proof.
  intros A F. destruct (batches_spec v e reqs batches A F) as (jobs & jobs' & E & EH & L & H).
  exists jobs, jobs'. split; auto. split; auto. split; auto. intros i r j Hr Hj. cbv zeta.
  rewrite <- at_birth_iff, <- in_some_iff. destruct (H i r j Hr Hj) as [H1 H2]. rewrite <- orb_true_iff. split; auto.
  intros D. split.
  - intros P R. rewrite (H1 R) in P. rewrite hash_alone_spec in P; [discriminate|].
    rewrite Forall_forall in A. apply A. eapply nth_error_In; eauto.
  - intros R. apply H2; auto. destruct (at_birth v r || in_some i batches); auto. exfalso. auto.
Qed.

(** *** Passes *)
Definition retires (n : nat) (loop : list job -> outcome (list job)) (v : variant) (fin : bool) : Prop :=
  forall jobs, length jobs = n -> (forall j, In j jobs -> job_ok v fin j) ->
  exists jobs', loop jobs = Ret jobs' /\ length jobs' = n /\
    (forall l, (l < n)%nat -> exists k, j_input (nth l jobs' job0) = skipn k (j_input (nth l jobs job0))) /\
    (forall l, (l < n)%nat -> j_input (nth l jobs' job0) = [] \/
       (length (j_input (nth l jobs' job0)) < length (j_input (nth l jobs job0)))%nat) /\
    exists l, (l < n)%nat /\ j_input (nth l jobs' job0) = [].
Lemma loop_retires v fin st loop n : loop_ok v fin st loop n -> retires n loop v fin.
Proof.
  intros LO jobs L J. destruct (LO jobs L J) as (jobs' & E & L' & A & X). exists jobs'. split; auto. split; auto. split; [|split; auto].
  - intros l Hl. apply (A l Hl).
  - intros l Hl. destruct (A l Hl) as (_ & _ & _ & _ & [[? _]|(_ & _ & _ & ? & _)]); auto.
Qed.
