(** Facts about the abstract machine of Machine.v: when it panics, that debug
    and release builds agree, that it keeps secrets, and how each object evolves. *)
From Coq Require Import String.
From Coq Require Import ZArith Arith NArith List Bool Lia ZifyBool ZifyNat ZifyN.
From Coq Require Import Init.Byte.
From Verif Require Import Spec ApiSpec Machine History Views.
Import ListNotations.
Open Scope list_scope.
Open Scope N_scope.
Local Notation length := List.length.

(** ** Panics *)
Definition excused (f : flavour) (dbg : bool) (c : call) : Prop :=
  match c with
  | Set_ _ s => legal f s = false
  | PSet _ s => plegal f s = false
  | ToHash _ | AsArray _ | Count _ | ShowState _ | PCount _ | PShowState _ => dbg = true
  | _ => False
  end.

Lemma astep_panic f dbg w c : snd (astep f dbg w c) = Panicked -> excused f dbg c.
Proof.
  destruct c; cbn [astep excused]; unfold with_obj, new_hash, report, count_of; cbn [snd];
    repeat match goal with
    | |- context [match nth_error ?l ?i with _ => _ end] => destruct (nth_error l i) as [[]|]; cbn [snd]
    | |- context [if ?b then _ else _] => let E := fresh "E" in destruct b eqn:E; cbn [snd]
    end; try discriminate; auto;
    repeat match goal with H : _ && _ = true |- _ => apply andb_prop in H; destruct H end; auto.
Qed.

Lemma arun_panic f dbg prog : forall w i, nth_error (arun f dbg w prog) i = Some Panicked ->
  exists c, nth_error prog i = Some c /\ excused f dbg c.
Proof.
  induction prog as [|c prog IH]; intros w i H; [destruct i; discriminate|].
  cbn [arun] in H. destruct (astep f dbg w c) as [w' o] eqn:E. destruct i; cbn [nth_error] in *.
  - exists c. split; auto. apply (astep_panic f dbg w). rewrite E. cbn. congruence.
  - eauto.
Qed.

(** Bytes fed to any one state. *)
Definition bounded (n : N) (w : aworld) : Prop :=
  Forall (fun x : astate => N.of_nat (length (snd x)) <= n) (a_states w) /\
  Forall (fun x : apstate => N.of_nat (length (snd x)) <= n) (a_pstates w).

Lemma replace_In {A} (l : list A) i x y : In y (replace l i x) -> y = x \/ In y l.
Proof.
  unfold replace. rewrite in_app_iff. cbn [In]. intros [H|[H|H]]; auto.
  - right. rewrite <- (firstn_skipn i l), in_app_iff. auto.
  - right. rewrite <- (firstn_skipn (S i) l), in_app_iff. auto.
Qed.
Lemma Forall_replace {A} (P : A -> Prop) l i x : Forall P l -> P x -> Forall P (replace l i x).
Proof. rewrite !Forall_forall. intros H K y Hy. apply replace_In in Hy. destruct Hy; subst; auto. Qed.
Lemma Forall_snoc {A} (P : A -> Prop) l x : Forall P l -> P x -> Forall P (l ++ [x]).
Proof. intros. apply Forall_app. auto. Qed.
Lemma Forall_nth_error {A} (P : A -> Prop) l i x : Forall P l -> nth_error l i = Some x -> P x.
Proof. intros H E. rewrite Forall_forall in H. eapply H, nth_error_In; eauto. Qed.

Lemma feed_bounded items : forall n l, Forall (fun x : astate => N.of_nat (length (snd x)) <= n) l ->
  Forall (fun x : astate => N.of_nat (length (snd x)) <=
      n + N.of_nat (list_sum (map (fun x => length (snd x)) items))) (fold_left feed items l).
Proof.
  induction items as [|[r x] items IH]; intros n l H; cbn [fold_left map list_sum fold_right snd].
  - rewrite N.add_0_r. exact H.
  - eapply Forall_impl; [|apply (IH (n + N.of_nat (length x)))].
    + cbn beta. intros. unfold list_sum in *. lia.
    + unfold feed. cbn [fst snd]. destruct (nth_error l r) as [[c m]|] eqn:E.
      * apply Forall_replace; [eapply Forall_impl; [|exact H]; cbn; intros; lia|].
        pose proof (Forall_nth_error _ _ _ _ H E) as K. cbn [snd] in *. rewrite app_length. lia.
      * eapply Forall_impl; [|exact H]; cbn; intros; lia.
Qed.

Lemma astep_bounded f dbg n w c : bounded n w -> bounded (n + bytes_of c) (fst (astep f dbg w c)).
Proof.
  intros [H1 H2].
  assert (M1 : forall k, n <= k -> Forall (fun x : astate => N.of_nat (length (snd x)) <= k) (a_states w))
    by (intros; eapply Forall_impl; [|exact H1]; cbn; intros; lia).
  assert (M2 : forall k, n <= k -> Forall (fun x : apstate => N.of_nat (length (snd x)) <= k) (a_pstates w))
    by (intros; eapply Forall_impl; [|exact H2]; cbn; intros; lia).
  assert (B : forall k, n <= k -> bounded k w) by (split; auto).
  destruct c; cbn [astep bytes_of]; unfold with_obj, new_hash, report;
    try (match goal with |- context [match nth_error ?l ?i with _ => _ end] =>
           let E := fresh "E" in destruct (nth_error l i) as [[]|] eqn:E end; cbn [fst]);
    try (match goal with |- context [if ?b then _ else _] => destruct b end; cbn [fst]);
    try (apply B; lia); try (split; cbn [fst a_states a_pstates with_a_params with_a_states with_a_jobs with_a_pparams with_a_pstates with_a_hashes];
      try (apply M1; lia); try (apply M2; lia)).
  all: try (match goal with E : nth_error (a_states _) _ = Some _ |- _ => pose proof (Forall_nth_error _ _ _ _ H1 E) end).
  all: try (match goal with E : nth_error (a_pstates _) _ = Some _ |- _ => pose proof (Forall_nth_error _ _ _ _ H2 E) end).
  all: cbn [snd] in *.
  all: try (apply Forall_snoc; [apply M1; lia|cbn [snd List.length]; lia]).
  all: try (apply Forall_snoc; [apply M2; lia|cbn [snd List.length]; lia]).
  all: try (apply Forall_replace; [apply M1; lia|cbn [snd]; rewrite ?app_length; lia]).
  all: try (apply Forall_replace; [apply M2; lia|cbn [snd]; rewrite ?app_length; lia]).
  all: try (destruct dbg; [apply M1; lia|apply M1; lia]).
  all: try (destruct dbg; [apply M2; lia|apply M2; lia]).
  all: try (destruct (nth_error _ _); [apply M1; lia|apply M1; lia]).
  all: try (destruct (nth_error _ _); [apply M2; lia|apply M2; lia]).
  - apply feed_bounded. exact H1.
  - destruct (nth_error (a_hashes w) h'); apply M1; lia.
  - destruct (nth_error (a_hashes w) h'); apply M2; lia.
Qed.

Lemma count_of_small f dbg kb msg : N.of_nat (kb + length msg) < counter_range f ->
  count_of f dbg kb msg = Some (N.of_nat (length msg)).
Proof.
  intros H. unfold count_of. rewrite (N.mod_small (N.of_nat (kb + length msg))) by exact H.
  rewrite (N.mod_small (N.of_nat (length msg))) by lia.
  replace (N.of_nat (kb + length msg) <? N.of_nat kb) with false by (symmetry; apply N.ltb_ge; lia).
  rewrite andb_false_r. reflexivity.
Qed.

Lemma key_block_small f k : (leaves f * key_block_len f k <= 512)%nat /\ (key_block_len f k <= 512)%nat.
Proof. destruct f, k; cbn; lia. Qed.

Definition plain_excuse (f : flavour) (dbg : bool) (c : call) : Prop :=
  match c with
  | Set_ _ s => legal f s = false
  | PSet _ s => plegal f s = false
  | ToHash _ | AsArray _ => dbg = true
  | _ => False
  end.

Lemma astep_small f dbg n w c : bounded n w -> n + 512 < counter_range f ->
  snd (astep f dbg w c) = Panicked -> plain_excuse f dbg c.
Proof.
  intros [B1 B2] L H. pose proof (astep_panic f dbg w c H) as E.
  destruct c; cbn [excused plain_excuse] in *; auto; cbn [astep] in H; unfold with_obj, report in H;
    (match type of H with context [nth_error ?l ?i] => destruct (nth_error l i) as [[x m]|] eqn:El end; [|discriminate]).
  all: cbn [snd] in H.
  all: first [pose proof (Forall_nth_error _ _ _ _ B1 El) as Hm | pose proof (Forall_nth_error _ _ _ _ B2 El) as Hm]; cbn [snd] in Hm.
  all: revert H; rewrite count_of_small; [discriminate|].
  1,2: destruct (key_block_small f (c_key x)); lia.
  1,2: destruct (key_block_small f (pc_key x)); lia.
Qed.

Lemma arun_small f dbg prog : forall n w, bounded n w -> n + input_bytes prog + 512 < counter_range f ->
  forall i, nth_error (arun f dbg w prog) i = Some Panicked ->
  exists c, nth_error prog i = Some c /\ plain_excuse f dbg c.
Proof.
  induction prog as [|c prog IH]; intros n w B L i H; [destruct i; discriminate|].
  cbn [arun input_bytes] in *. pose proof (astep_bounded f dbg n w c B) as B'.
  pose proof (astep_small f dbg n w c B ltac:(lia)) as P.
  destruct (astep f dbg w c) as [w' o]. cbn [fst snd] in *. destruct i; cbn [nth_error] in *.
  - exists c. split; auto. apply P. congruence.
  - eapply (IH (n + bytes_of c)); eauto. lia.
Qed.

(** ** Debug and release builds *)
Lemma astep_profile f w c : (snd (astep f true w c) = Panicked -> setter_call c = true) ->
  astep f true w c = astep f false w c.
Proof.
  destruct c; try reflexivity; cbn [astep setter_call]; unfold with_obj, report, count_of; cbn [andb];
    (match goal with |- context [nth_error ?l ?i] => destruct (nth_error l i) as [[]|] end; [|reflexivity]);
    cbn [snd];
    (match goal with |- context [if ?b then _ else _] => destruct b end; try reflexivity);
    cbn [snd]; intros H; try (specialize (H eq_refl); discriminate); try reflexivity.
Qed.

Lemma arun_profile f prog : forall w,
  (forall i c, nth_error prog i = Some c -> nth_error (arun f true w prog) i = Some Panicked -> setter_call c = true) ->
  arun f true w prog = arun f false w prog.
Proof.
  induction prog as [|c prog IH]; intros w H; [reflexivity|].
  cbn [arun] in *. pose proof (astep_profile f w c) as P.
  rewrite <- P.
  - destruct (astep f true w c) as [w' o]. f_equal. apply IH. intros i c' E1 E2. apply (H (S i)); auto.
  - intros E. destruct (astep f true w c) as [w' o]. apply (H 0%nat); cbn in *; congruence.
Qed.

(** ** Secrets *)
Definition alike_config (c c' : config) : Prop :=
  c_params c = c_params c' /\ length (c_key c) = length (c_key c') /\ c_last_node c = c_last_node c'.
Definition alike_pconfig (c c' : pconfig) : Prop :=
  pc_hash_length c = pc_hash_length c' /\ length (pc_key c) = length (pc_key c').
Definition alike_state (x y : astate) : Prop := alike_config (fst x) (fst y) /\ length (snd x) = length (snd y).
Definition alike_pstate (x y : apstate) : Prop := alike_pconfig (fst x) (fst y) /\ length (snd x) = length (snd y).
Definition alike_job (x y : ajob) : Prop :=
  alike_config (aj_config x) (aj_config y) /\ length (aj_msg x) = length (aj_msg y) /\ aj_run x = aj_run y.
Definition alike_hash (x y : ahash) : Prop := ah_len x = ah_len y.

Record alike_world (w w' : aworld) : Prop := {
  al_params : Forall2 alike_config (a_params w) (a_params w');
  al_states : Forall2 alike_state (a_states w) (a_states w');
  al_jobs : Forall2 alike_job (a_jobs w) (a_jobs w');
  al_pparams : Forall2 alike_pconfig (a_pparams w) (a_pparams w');
  al_pstates : Forall2 alike_pstate (a_pstates w) (a_pstates w');
  al_hashes : Forall2 alike_hash (a_hashes w) (a_hashes w') }.

Lemma F2nth {A B} (P : A -> B -> Prop) l l' i : Forall2 P l l' ->
  match nth_error l i, nth_error l' i with Some x, Some y => P x y | None, None => True | _, _ => False end.
Proof. intros H. revert i. induction H; intros [|i]; cbn; auto. apply IHForall2. Qed.
Lemma F2length {A B} (P : A -> B -> Prop) l l' : Forall2 P l l' -> length l = length l'.
Proof. induction 1; cbn; auto. Qed.
Lemma F2snoc {A B} (P : A -> B -> Prop) l l' x y : Forall2 P l l' -> P x y -> Forall2 P (l ++ [x]) (l' ++ [y]).
Proof. intros. apply Forall2_app; auto. Qed.
Lemma F2firstn {A B} (P : A -> B -> Prop) n : forall l l', Forall2 P l l' -> Forall2 P (firstn n l) (firstn n l').
Proof. induction n; intros l l' H; [constructor|]. destruct H; cbn; constructor; auto. Qed.
Lemma F2skipn {A B} (P : A -> B -> Prop) n : forall l l', Forall2 P l l' -> Forall2 P (skipn n l) (skipn n l').
Proof. induction n; intros l l' H; [exact H|]. destruct H; cbn; [constructor|]. auto. Qed.
Lemma F2replace {A B} (P : A -> B -> Prop) l l' i x y : Forall2 P l l' -> P x y -> Forall2 P (replace l i x) (replace l' i y).
Proof. intros. apply Forall2_app; [apply F2firstn; auto|]. constructor; auto. apply F2skipn. auto. Qed.

Lemma alike_key_block f k k' : length k = length k' -> key_block_len f k = key_block_len f k'.
Proof. destruct k, k'; cbn; auto; discriminate. Qed.
Lemma alike_count f dbg k m m' : length m = length m' -> count_of f dbg k m = count_of f dbg k m'.
Proof. unfold count_of. intros ->. reflexivity. Qed.
Lemma alike_apply s s' c c' : alike_setting s s' -> alike_config c c' -> alike_config (apply s c) (apply s' c').
Proof.
  intros Hs (H1 & H2 & H3). destruct s, s'; try discriminate Hs; cbn in Hs; unfold alike_config;
    cbn [apply c_params c_key c_last_node]; rewrite ?H1, ?Hs; try (injection Hs; intros; subst); auto.
Qed.
Lemma alike_papply s s' c c' : alike_psetting s s' -> alike_pconfig c c' -> alike_pconfig (papply s c) (papply s' c').
Proof.
  intros Hs (H1 & H2). destruct s, s'; try discriminate Hs; cbn in Hs; unfold alike_pconfig;
    cbn [papply pc_hash_length pc_key]; rewrite ?H1, ?Hs; try (injection Hs; intros; subst); auto.
Qed.
Lemma alike_legal f s s' : alike_setting s s' -> legal f s = legal f s'.
Proof. destruct s, s'; cbn; intros H; try discriminate; try (rewrite H; reflexivity); try (injection H; intros; subst; reflexivity). Qed.
Lemma alike_plegal f s s' : alike_psetting s s' -> plegal f s = plegal f s'.
Proof. destruct s, s'; cbn; intros H; try discriminate; try (rewrite H; reflexivity); try (injection H; intros; subst; reflexivity). Qed.

Lemma alike_default f : alike_config (default_config f) (default_config f).
Proof. repeat split. Qed.
Lemma alike_pdefault f : alike_pconfig (pdefault_config f) (pdefault_config f).
Proof. repeat split. Qed.
Lemma alike_hash_of f c c' m m' : alike_config c c' -> alike_hash (hash_of f c m) (hash_of f c' m').
Proof. intros (H & _). unfold alike_hash, hash_of. cbn [ah_len]. rewrite H. reflexivity. Qed.
Lemma alike_phash_of f c c' m m' : alike_pconfig c c' -> alike_hash (phash_of f c m) (phash_of f c' m').
Proof. intros (H & _). exact H. Qed.
Lemma alike_premature f c c' : alike_config c c' -> alike_hash (premature f c) (premature f c').
Proof. intros (H & _). unfold alike_hash, premature. cbn [ah_len]. rewrite H. reflexivity. Qed.

Lemma alike_until xs : forall xs', Forall2 alike_item xs xs' ->
  Forall2 (fun x y => fst x = fst y /\ length (snd x) = length (snd y)) (until_none xs) (until_none xs').
Proof.
  induction xs as [|o xs IH]; intros xs' H; inversion H as [|? o' ? xs'' Ho Hr]; subst; [constructor|].
  destruct o as [[s m]|], o' as [[s' m']|]; cbn in Ho; try contradiction; cbn [until_none]; constructor; auto.
Qed.
Lemma alike_feeds xs xs' : Forall2 (fun x y : nat * list byte => fst x = fst y /\ length (snd x) = length (snd y)) xs xs' ->
  forall l l', Forall2 alike_state l l' -> Forall2 alike_state (fold_left feed xs l) (fold_left feed xs' l').
Proof.
  induction 1 as [|[r m] [r' m'] xs xs' [Hr Hm] H IH]; intros l l' Hl; cbn [fold_left]; auto.
  apply IH. cbn [fst snd] in *. subst r'. unfold feed. cbn [fst snd].
  pose proof (F2nth _ _ _ r Hl) as K.
  destruct (nth_error l r) as [[c x]|], (nth_error l' r) as [[c' x']|]; try contradiction; auto.
  destruct K as [K1 K2]. apply F2replace; auto. split; auto. cbn [snd] in *. rewrite !app_length. lia.
Qed.
Lemma alike_runs xs : forall l l', Forall2 alike_job l l' -> Forall2 alike_job (fold_left run_job xs l) (fold_left run_job xs l').
Proof.
  induction xs as [|r xs IH]; intros l l' Hl; cbn [fold_left]; auto.
  apply IH. unfold run_job. pose proof (F2nth _ _ _ r Hl) as K.
  destruct (nth_error l r) as [j|], (nth_error l' r) as [j'|]; try contradiction; auto.
  destruct K as (K1 & K2 & K3). apply F2replace; auto. repeat split; auto; apply K1.
Qed.
Lemma alike_checks xs xs' n : Forall2 (fun x y : nat * list byte => fst x = fst y /\ length (snd x) = length (snd y)) xs xs' ->
  map fst xs = map fst xs' /\ length xs = length xs' /\
  forallb (fun x => Nat.ltb (fst x) n) xs = forallb (fun x => Nat.ltb (fst x) n) xs'.
Proof.
  induction 1 as [|x y xs ys [E _] H IH]; cbn [map List.length forallb]; auto. destruct IH as (-> & -> & ->). rewrite E. auto.
Qed.

Definition alike_result (c : call) (x y : aworld * obs) : Prop :=
  alike_world (fst x) (fst y) /\ (reveals c = false -> snd x = snd y).

Ltac awsimp := cbn [a_params a_states a_jobs a_pparams a_pstates a_hashes with_a_params with_a_states with_a_jobs
  with_a_pparams with_a_pstates with_a_hashes fst snd].
Ltac keepal := constructor; awsimp; auto using F2snoc.

Lemma astep_alike f dbg w w' c c' : alike_world w w' -> alike c c' ->
  alike_result c (astep f dbg w c) (astep f dbg w' c').
Proof.
  intros AW A. pose proof AW as [AP AS AJ APP APS AH].
  assert (NH : forall h h', alike_hash h h' -> alike_result c (new_hash w h) (new_hash w' h')).
  { intros h h' Hh. unfold new_hash. split; [|reflexivity]. keepal. }
  assert (ID : forall o, alike_result c (w, o) (w', o)) by (intros; split; auto).
  assert (RV : forall o o', reveals c = true -> alike_result c (w, o) (w', o')).
  { intros o o' E. split; auto. intros E'. congruence. }
  destruct c; destruct c'; try discriminate A; cbn [alike] in A;
    try (injection A; intros; subst); try (match type of A with _ /\ _ => destruct A as [<- A] end); try subst; cbn [astep];
    unfold with_obj, report;
    try (match goal with H : Forall2 _ ?l ?l' |- context [nth_error ?l ?i] =>
      let K := fresh "K" in pose proof (F2nth _ _ _ i H) as K;
      destruct (nth_error l i) as [x|] eqn:?, (nth_error l' i) as [y|] eqn:?; try contradiction; [|apply ID] end).
  all: try apply ID; try (apply RV; reflexivity).
  all: try (apply NH; auto using alike_hash_of, alike_phash_of, alike_default, alike_pdefault; reflexivity).
  all: try (split; [|reflexivity]; keepal; apply F2snoc; auto; repeat split; fail).
  all: try (split; [|reflexivity]; keepal; apply F2snoc; auto; split; [exact K|reflexivity]).
  - rewrite (alike_legal f s s0) by auto. destruct (legal f s0); [|apply ID].
    split; [|reflexivity]. keepal. apply F2replace; auto. apply alike_apply; auto.
  - destruct K as (E1 & E2 & E3). rewrite E1, E3. apply ID.
  - destruct x as [x mx], y as [y my], K as [K1 K2]. cbn [fst snd] in *. split; [|reflexivity]. keepal.
    apply F2replace; auto. split; auto. cbn [snd]. rewrite !app_length. lia.
  - destruct x as [x mx], y as [y my], K as [K1 K2]. cbn [fst snd] in *. split; [|rewrite A; reflexivity]. keepal.
    apply F2replace; auto. split; auto. cbn [snd]. rewrite !app_length. lia.
  - destruct x as [x mx], y as [y my], K as [K1 K2]. cbn [fst snd] in *. split; [|reflexivity]. keepal.
    apply F2replace; auto. split; auto. cbn [snd]. rewrite !app_length. lia.
  - destruct x as [x mx], y as [y my], K as [K1 K2]. cbn [fst snd] in *. split; [|reflexivity]. keepal.
    apply F2replace; auto. split; auto. cbn [fst]. apply alike_apply; auto. reflexivity.
  - destruct x as [x mx], y as [y my], K as [K1 K2]. cbn [fst snd] in *. apply NH, alike_hash_of, K1.
  - destruct x as [x mx], y as [y my], K as [(E1 & E2 & E3) K2]. cbn [fst snd] in *.
    rewrite (alike_key_block f _ _ E2), (alike_count f dbg _ _ _ K2). apply ID.
  - destruct x as [x mx], y as [y my], K as [(E1 & E2 & E3) K2]. cbn [fst snd] in *.
    rewrite (alike_key_block f _ _ E2), (alike_count f dbg _ _ _ K2), E1, E3. apply ID.
  - pose proof (alike_until _ _ A) as U. destruct (alike_checks _ _ (length (a_states w)) U) as (E1 & E2 & E3).
    cbv zeta. rewrite <- (F2length _ _ _ AS), E1, E3, E2. destruct (_ && _); [|apply ID].
    split; [|reflexivity]. keepal. apply alike_feeds; auto.
  - split; [|reflexivity]. keepal. apply F2snoc; auto. repeat split; cbn [aj_config aj_msg aj_run]; auto; try apply K.
    destruct K as (_ & E2 & _). destruct (c_key x), (c_key y), m, m0; try discriminate; auto.
  - cbv zeta. rewrite <- (F2length _ _ _ AJ). destruct (_ && _); [|apply ID].
    split; [|reflexivity]. keepal. apply alike_runs; auto.
  - destruct K as (E1 & E2 & E3). rewrite E3. destruct (aj_run y); [apply NH, alike_hash_of, E1|].
    destruct dbg; [apply ID|]. apply NH, alike_premature, E1.
  - destruct K as ((E1 & E2 & E3) & E4 & E5). rewrite E1, E3, E4, (alike_key_block f _ _ E2). apply ID.
  - rewrite (alike_plegal f s s0) by auto. destruct (plegal f s0); [|apply ID].
    split; [|reflexivity]. keepal. apply F2replace; auto. apply alike_papply; auto.
  - destruct K as (E1 & E2). rewrite E1, E2. apply ID.
  - destruct x as [x mx], y as [y my], K as [K1 K2]. cbn [fst snd] in *. split; [|reflexivity]. keepal.
    apply F2replace; auto. split; auto. cbn [snd]. rewrite !app_length. lia.
  - destruct x as [x mx], y as [y my], K as [K1 K2]. cbn [fst snd] in *. split; [|rewrite A; reflexivity]. keepal.
    apply F2replace; auto. split; auto. cbn [snd]. rewrite !app_length. lia.
  - destruct x as [x mx], y as [y my], K as [K1 K2]. cbn [fst snd] in *. split; [|reflexivity]. keepal.
    apply F2replace; auto. split; auto. cbn [snd]. rewrite !app_length. lia.
  - destruct x as [x mx], y as [y my], K as [K1 K2]. cbn [fst snd] in *. apply NH, alike_phash_of, K1.
  - destruct x as [x mx], y as [y my], K as [(E1 & E2) K2]. cbn [fst snd] in *.
    rewrite (alike_key_block f _ _ E2), (alike_count f dbg _ _ _ K2). apply ID.
  - destruct x as [x mx], y as [y my], K as [(E1 & E2) K2]. cbn [fst snd] in *.
    rewrite (alike_key_block f _ _ E2), (alike_count f dbg _ _ _ K2), E1. apply ID.
  - rewrite K. destruct (dbg && _); [apply ID|apply RV; reflexivity].
  - pose proof (F2nth _ _ _ h'0 AH) as K'.
    destruct (nth_error (a_hashes w) h'0), (nth_error (a_hashes w') h'0); try contradiction; [|apply ID].
    apply RV; reflexivity.
Qed.

Lemma arun_alike f dbg prog : forall prog' w w', alike_world w w' -> Forall2 alike prog prog' ->
  forall i c, nth_error prog i = Some c -> reveals c = false ->
  nth_error (arun f dbg w prog) i = nth_error (arun f dbg w' prog') i.
Proof.
  induction prog as [|c0 prog IH]; intros prog' w w' AW A i c E NR; inversion A as [|? c0' ? prog'' A0 A1]; subst;
    [destruct i; discriminate|].
  cbn [arun]. destruct (astep_alike f dbg w w' c0 c0' AW A0) as [AW' O].
  destruct (astep f dbg w c0) as [w1 o1], (astep f dbg w' c0') as [w2 o2]. cbn [fst snd] in *.
  destruct i; cbn [nth_error] in *.
  - injection E as <-. f_equal. auto.
  - eapply IH; eauto.
Qed.

Lemma alike_empty : alike_world empty_aworld empty_aworld.
Proof. constructor; constructor. Qed.

(** ** How one object evolves *)
Definition evolve (x : astate) (o : op) : astate :=
  match o with
  | DoSetLastNode b => (apply (LastNode b) (fst x), snd x)
  | _ => (fst x, snd x ++ fed_by o)
  end.

Lemma nth_error_replace {A} (l : list A) i x k : (i < length l)%nat ->
  nth_error (replace l i x) k = if Nat.eqb i k then Some x else nth_error l k.
Proof.
  intros H. unfold replace. assert (L : length (firstn i l) = i) by (rewrite firstn_length; lia).
  destruct (Nat.eqb_spec i k) as [->|N].
  - rewrite nth_error_app2 by lia. rewrite L, Nat.sub_diag. reflexivity.
  - destruct (Nat.lt_ge_cases k i).
    + rewrite nth_error_app1 by lia. rewrite <- (firstn_skipn i l) at 2. rewrite nth_error_app1 by lia. reflexivity.
    + rewrite nth_error_app2 by lia. rewrite L. replace (k - i)%nat with (S (k - S i)) by lia. cbn [nth_error].
      rewrite <- (firstn_skipn (S i) l) at 2.
      rewrite nth_error_app2 by (rewrite firstn_length; lia). rewrite firstn_length.
      f_equal. lia.
Qed.

Lemma nth_error_kept {A} (l : list A) m k x : nth_error l k = Some x -> nth_error (l ++ m) k = Some x.
Proof. intros H. rewrite nth_error_app1; auto. apply nth_error_Some. congruence. Qed.

Lemma feeds_evolve items : forall l k x, nth_error l k = Some x ->
  nth_error (fold_left feed items l) k =
  Some (fold_left evolve (flat_map (fun '(s, m) => if Nat.eqb s k then [DoUpdate m] else []) items) x).
Proof.
  induction items as [|[r m] items IH]; intros l k x E; cbn [fold_left flat_map]; auto.
  rewrite fold_left_app. apply IH. unfold feed. cbn [fst snd].
  destruct (nth_error l r) as [[c msg]|] eqn:Er.
  - rewrite nth_error_replace by (apply nth_error_Some; congruence).
    destruct (Nat.eqb_spec r k); subst; [|exact E]. rewrite Er in E. injection E as <-. reflexivity.
  - destruct (Nat.eqb_spec r k); subst; [congruence|exact E].
Qed.

Lemma astep_evolve f dbg w c k x : snd (astep f dbg w c) <> Inexpressible ->
  nth_error (a_states w) k = Some x ->
  nth_error (a_states (fst (astep f dbg w c))) k = Some (fold_left evolve (own_ops k c) x).
Proof.
  intros O E. destruct x as [cx mx].
  destruct c; cbn [astep own_ops fold_left] in *; unfold with_obj, new_hash, report in *;
    try exact E; awsimp; try (apply nth_error_kept; exact E).
  all: try (match goal with |- context [match nth_error ?l ?i with _ => _ end] =>
       let E := fresh "E" in destruct (nth_error l i) as [y|] eqn:E end; cbn [snd] in O; [|congruence]); awsimp.
  all: try exact E.
  all: try (apply nth_error_kept; exact E).
  all: try (destruct y as [cc msg]; awsimp).
  all: try exact E.
  all: try (match goal with |- nth_error (replace _ ?i _) _ = _ =>
     rewrite nth_error_replace by (apply nth_error_Some; congruence);
     destruct (Nat.eqb_spec i k); subst; [|exact E]; cbn [fold_left evolve fst snd fed_by]; congruence end).
  all: try (match goal with |- context [if ?b then _ else _] => destruct b end; awsimp; exact E).
  - destruct (_ && _); [|cbn [snd] in O; congruence]. awsimp. apply (feeds_evolve _ _ _ _ E).
  - destruct (Machine.aj_run _); [exact E|]. destruct dbg; exact E.
  - destruct (nth_error (a_hashes w) h'); exact E.
Qed.

Definition pevolve (x : apstate) (o : op) : apstate := (fst x, snd x ++ fed_by o).

Lemma astep_pevolve f dbg w c k x : snd (astep f dbg w c) <> Inexpressible ->
  nth_error (a_pstates w) k = Some x ->
  nth_error (a_pstates (fst (astep f dbg w c))) k = Some (fold_left pevolve (pown_ops k c) x).
Proof.
  intros O E. destruct x as [cx mx].
  destruct c; cbn [astep pown_ops fold_left] in *; unfold with_obj, new_hash, report in *;
    try exact E; awsimp; try (apply nth_error_kept; exact E).
  all: try (match goal with |- context [match nth_error ?l ?i with _ => _ end] =>
       let E := fresh "E" in destruct (nth_error l i) as [y|] eqn:E end; cbn [snd] in O; [|congruence]); awsimp.
  all: try exact E.
  all: try (apply nth_error_kept; exact E).
  all: try (destruct y as [cc msg]; awsimp).
  all: try exact E.
  all: try (match goal with |- nth_error (replace _ ?i _) _ = _ =>
     rewrite nth_error_replace by (apply nth_error_Some; congruence);
     destruct (Nat.eqb_spec i k); subst; [|exact E]; cbn [fold_left]; unfold pevolve; cbn [fst snd fed_by]; congruence end).
  all: try (match goal with |- context [if ?b then _ else _] => destruct b end; awsimp; exact E).
  - destruct (Machine.aj_run _); [exact E|]. destruct dbg; exact E.
  - destruct (nth_error (a_hashes w) h'); exact E.
Qed.

Definition jevolve (x : ajob) (b : bool) : ajob :=
  {| aj_config := aj_config x; aj_msg := aj_msg x; aj_run := aj_run x || b |}.
Lemma jevolve_false x : jevolve x false = x.
Proof. destruct x as [c m b]. unfold jevolve. cbn. rewrite orb_false_r. reflexivity. Qed.

Lemma runs_evolve items : forall l k x, nth_error l k = Some x ->
  nth_error (fold_left run_job items l) k = Some (jevolve x (existsb (Nat.eqb k) items)).
Proof.
  induction items as [|r items IH]; intros l k x E; cbn [fold_left existsb].
  - rewrite jevolve_false. exact E.
  - erewrite IH with (x := jevolve x (Nat.eqb k r)).
    + destruct x as [c m b]. unfold jevolve. cbn. rewrite orb_assoc. reflexivity.
    + unfold run_job. destruct (nth_error l r) as [y|] eqn:Er.
      * rewrite nth_error_replace by (apply nth_error_Some; congruence). rewrite (Nat.eqb_sym k r).
        destruct (Nat.eqb_spec r k); subst; [|rewrite jevolve_false; exact E].
        rewrite Er in E. injection E as ->. destruct x. unfold jevolve. cbn. rewrite orb_true_r. reflexivity.
      * destruct (Nat.eqb_spec k r); subst; [congruence|rewrite jevolve_false; exact E].
Qed.

Lemma astep_jevolve f dbg w c k x : snd (astep f dbg w c) <> Inexpressible ->
  nth_error (a_jobs w) k = Some x ->
  nth_error (a_jobs (fst (astep f dbg w c))) k = Some (jevolve x (runs k c)).
Proof.
  intros O E.
  destruct c; cbn [astep runs] in *; rewrite ?jevolve_false; unfold with_obj, new_hash, report in *;
    try exact E; awsimp; try (apply nth_error_kept; exact E).
  all: try (match goal with |- context [match nth_error ?l ?i with _ => _ end] =>
       let E := fresh "E" in destruct (nth_error l i) as [y|] eqn:E end; cbn [snd] in O; [|congruence]); awsimp.
  all: try exact E.
  all: try (apply nth_error_kept; exact E).
  all: try (destruct y as [cc msg]; awsimp).
  all: try exact E.
  - destruct (legal f s); exact E.
  - destruct (_ && _); exact E.
  - destruct (_ && _); [|cbn [snd] in O; congruence]. awsimp. apply (runs_evolve _ _ _ _ E).
  - destruct (Machine.aj_run _); [exact E|]. destruct dbg; exact E.
  - destruct (plegal f s); exact E.
  - destruct (_ && _); exact E.
  - destruct (nth_error (a_hashes w) h'); exact E.
Qed.

(** ** Whole programs *)
Definition aworld_after (f : flavour) (dbg : bool) (w : aworld) (prog : list call) : aworld :=
  fold_left (fun w c => fst (astep f dbg w c)) prog w.

Lemma arun_evolves {A B} (get : aworld -> list A) (ev : A -> B -> A) (own : nat -> call -> list B) f dbg :
  (forall w c k x, snd (astep f dbg w c) <> Inexpressible -> nth_error (get w) k = Some x ->
    nth_error (get (fst (astep f dbg w c))) k = Some (fold_left ev (own k c) x)) ->
  forall prog w k x, ~ In Inexpressible (arun f dbg w prog) -> nth_error (get w) k = Some x ->
    nth_error (get (aworld_after f dbg w prog)) k = Some (fold_left ev (flat_map (own k) prog) x).
Proof.
  intros S. induction prog as [|c prog IH]; intros w k x O E; cbn [aworld_after fold_left flat_map]; auto.
  cbn [arun] in O. pose proof (S w c k x) as K. destruct (astep f dbg w c) as [w' o]. cbn [fst snd In] in *.
  rewrite fold_left_app. apply (IH w'); [intuition|]. apply K; auto.
Qed.
