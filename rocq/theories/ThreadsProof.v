(** Proofs about threads (Threads.v): each thread sees what it would see alone. *)
From Coq Require Import String.
From Coq Require Import Arith NArith List Bool Lia.
From Coq Require Import Init.Byte.
From Verif Require Import Base Guts KernelSpec Simd Impl Loops LaneLoops Sched SchedProof Lib Many Par.
From Verif Require Import StateProof ParamsProof FedProof ManyProof ParProof ParFed.
From Verif Require Import Spec ApiSpec Machine History Views Api ApiProof Runs HistoryProof MachineProof ApiLaws.
From Verif Require Import ThreadsSpec Threads.
Import ListNotations.
Open Scope list_scope.
Open Scope nat_scope.
Local Notation length := List.length.

(** ** One list of objects, seen under other names *)
Record names {A} (P : nat -> Prop) (h : list nat) (l g : list A) : Prop := {
  n_len : length h = length l;
  n_val : forall a b, nth_error h a = Some b -> b < length g;
  n_inj : NoDup h;
  n_eq : forall a b, P a -> nth_error h a = Some b -> nth_error l a = nth_error g b }.

(** What a call does to the two lists. *)
Record moved {A} (P : nat -> Prop) (h ml : list nat) (l l' s s' : list A) (n : nat) : Prop := {
  m_len : length l' = length l + n;
  m_slen : length s' = length s + n;
  m_kept : forall a, a < length l -> ~ In a ml -> nth_error l' a = nth_error l a;
  m_eq : forall a b, P a -> nth_error h a = Some b -> nth_error l' a = nth_error s' b;
  m_new : forall j, j < n -> nth_error l' (length l + j) = nth_error s' (length s + j) }.

Lemma moved_same {A} P h ml (l s : list A) : names P h l s -> moved P h ml l l s s 0.
Proof. intros []. constructor; auto; lia. Qed.
Lemma moved_snoc {A} P h ml (l s : list A) x : names P h l s -> moved P h ml l (l ++ [x]) s (s ++ [x]) 1.
Proof.
  intros [L V I E]. constructor; rewrite ?app_length; auto.
  - intros a H _. now apply nth_error_app1.
  - intros a b Pa H. rewrite !nth_error_app1; [auto|eauto|]. rewrite <- L. apply nth_error_Some. congruence.
  - intros j H. replace j with 0 by lia. rewrite !nth_error_app2 by lia. now rewrite !Nat.add_0_r, !Nat.sub_diag.
Qed.
Lemma replace_length {A} (l : list A) i x : i < length l -> length (replace l i x) = length l.
Proof. intros H. unfold replace. rewrite app_length. cbn [length]. rewrite firstn_length, skipn_length. lia. Qed.
Lemma names_inj (h : list nat) a a' b : NoDup h -> nth_error h a = Some b -> nth_error h a' = Some b -> a = a'.
Proof. intros D H H'. apply (proj1 (NoDup_nth_error h) D); [apply nth_error_Some; congruence|congruence]. Qed.
Lemma names_replace {A} P h (l s : list A) a b x : names P h l s -> nth_error h a = Some b ->
  names P h (replace l a x) (replace s b x).
Proof.
  intros [L V I E] H. assert (La : a < length l) by (rewrite <- L; apply nth_error_Some; congruence). specialize (V a b H) as Lb.
  constructor; rewrite ?replace_length; auto.
  intros a' b' Pa H'. rewrite !nth_error_replace by auto. destruct (Nat.eqb_spec a a') as [->|N].
  - replace b' with b by congruence. now rewrite Nat.eqb_refl.
  - destruct (Nat.eqb_spec b b') as [->|]; [|auto]. destruct N. eapply names_inj; eauto.
Qed.
Lemma moved_replace {A} P h ml (l s : list A) a b x : names P h l s -> nth_error h a = Some b -> In a ml ->
  moved P h ml l (replace l a x) s (replace s b x) 0.
Proof.
  intros N H M. pose proof (names_replace P h l s a b x N H) as [_ _ _ E]. destruct N as [L V I _].
  assert (La : a < length l) by (rewrite <- L; apply nth_error_Some; congruence). specialize (V a b H) as Lb.
  constructor; rewrite ?replace_length; auto; try lia.
  intros a' H' N. rewrite nth_error_replace by auto. destruct (Nat.eqb_spec a a'); [subst; contradiction|reflexivity].
Qed.

(** ** Batches *)
Lemma resolve_items_some h : forall xs ys, resolve_items h xs = Some ys ->
  Forall2 (fun x y => nth_error h (fst x) = Some (fst y) /\ snd x = snd y) (until_none xs) (until_none ys).
Proof.
  induction xs as [|[[s m]|] xs IH]; intros ys E; cbn [resolve_items] in E.
  - injection E as <-. constructor.
  - destruct (nth_error h s) as [b|] eqn:Es; [|discriminate]. destruct (resolve_items h xs) as [r|]; [|discriminate].
    injection E as <-. cbn [until_none]. constructor; auto.
  - injection E as <-. constructor.
Qed.
Lemma resolve_items_none h : forall xs, resolve_items h xs = None ->
  exists x, In x (until_none xs) /\ nth_error h (fst x) = None.
Proof.
  induction xs as [|[[s m]|] xs IH]; intros E; cbn [resolve_items] in E; try discriminate. cbn [until_none].
  destruct (nth_error h s) as [b|] eqn:Es; [|exists (s, m); cbn; auto].
  destruct (resolve_items h xs) as [r|]; [discriminate|]. destruct (IH eq_refl) as (x & I & N). exists x. cbn; auto.
Qed.
Lemma resolve_jobs_some h : forall xs ys, resolve_jobs h xs = Some ys ->
  Forall2 (fun x y => nth_error h x = Some y) (until_none xs) (until_none ys).
Proof.
  induction xs as [|[s|] xs IH]; intros ys E; cbn [resolve_jobs] in E.
  - injection E as <-. constructor.
  - destruct (nth_error h s) as [b|] eqn:Es; [|discriminate]. destruct (resolve_jobs h xs) as [r|]; [|discriminate].
    injection E as <-. cbn [until_none]. constructor; auto.
  - injection E as <-. constructor.
Qed.
Lemma resolve_jobs_none h : forall xs, resolve_jobs h xs = None ->
  exists x, In x (until_none xs) /\ nth_error h x = None.
Proof.
  induction xs as [|[s|] xs IH]; intros E; cbn [resolve_jobs] in E; try discriminate. cbn [until_none].
  destruct (nth_error h s) as [b|] eqn:Es; [|exists s; cbn; auto].
  destruct (resolve_jobs h xs) as [r|]; [discriminate|]. destruct (IH eq_refl) as (x & I & N). exists x. cbn; auto.
Qed.

Lemma no_repeats_names h xs ys : NoDup h -> Forall2 (fun x y => nth_error h x = Some y) xs ys ->
  no_repeats xs = no_repeats ys.
Proof.
  intros D F. induction F as [|x y xs ys H F IH]; [reflexivity|]. cbn [no_repeats]. rewrite IH. f_equal. f_equal. clear IH.
  induction F as [|x' y' xs ys H' F IH]; [reflexivity|]. cbn [existsb]. rewrite IH. f_equal.
  destruct (Nat.eqb_spec x x') as [->|N]; destruct (Nat.eqb_spec y y') as [->|N']; try reflexivity; exfalso.
  - congruence.
  - apply N. eapply names_inj; eauto.
Qed.
Lemma in_range {A} P h (l s : list A) xs ys : names P h l s -> Forall2 (fun x y => nth_error h x = Some y) xs ys ->
  forallb (fun x => Nat.ltb x (length l)) xs = true /\ forallb (fun y => Nat.ltb y (length s)) ys = true.
Proof.
  intros [L V _ _] F. induction F as [|x y xs ys H F (I1 & I2)]; [split; reflexivity|]. cbn [forallb]. rewrite I1, I2.
  split; rewrite andb_true_r; apply Nat.ltb_lt; [rewrite <- L; apply nth_error_Some; congruence|eauto].
Qed.

Lemma names_feed P h (l s : list astate) x y : names P h l s -> P (fst x) ->
  nth_error h (fst x) = Some (fst y) -> snd x = snd y -> names P h (feed l x) (feed s y).
Proof.
  intros N Px H E. unfold feed. rewrite <- (n_eq _ _ _ _ N _ _ Px H), <- E. destruct (nth_error l (fst x)) as [[c m]|]; [|exact N].
  now apply names_replace.
Qed.
Lemma feed_kept (l : list astate) x a : a <> fst x -> nth_error (feed l x) a = nth_error l a.
Proof.
  intros N. unfold feed. destruct (nth_error l (fst x)) as [[c m]|] eqn:E; [|reflexivity].
  rewrite nth_error_replace by (apply nth_error_Some; congruence). destruct (Nat.eqb_spec (fst x) a); congruence.
Qed.
Lemma feed_length (l : list astate) x : length (feed l x) = length l.
Proof.
  unfold feed. destruct (nth_error l (fst x)) as [[c m]|] eqn:E; [|reflexivity].
  apply replace_length. apply nth_error_Some. congruence.
Qed.
Lemma moved_feeds P h xs ys : Forall2 (fun x y => nth_error h (fst x) = Some (fst y) /\ snd x = snd y) xs ys ->
  forall l s, names P h l s -> (forall x, In x xs -> P (fst x)) ->
  moved P h (map fst xs) l (fold_left feed xs l) s (fold_left feed ys s) 0.
Proof.
  induction 1 as [|x y xs ys (H & E) F IH]; intros l s N Q; cbn [fold_left map]; [now apply moved_same|].
  assert (N' : names P h (feed l x) (feed s y)) by (apply names_feed; auto; apply Q; now left).
  destruct (IH _ _ N') as [A B C D G]; [intros; apply Q; now right|]. rewrite !feed_length in *.
  constructor; auto.
  - intros a La I. rewrite C by (auto; intros I'; apply I; now right). apply feed_kept. intros ->. apply I. now left.
Qed.
Lemma run_length (l : list ajob) x : length (run_job l x) = length l.
Proof.
  unfold run_job. destruct (nth_error l x) eqn:E; [|reflexivity]. apply replace_length. apply nth_error_Some. congruence.
Qed.
Lemma moved_runs P h xs ys : Forall2 (fun x y => nth_error h x = Some y) xs ys ->
  forall l s, names P h l s -> (forall x, In x xs -> P x) ->
  moved P h xs l (fold_left run_job xs l) s (fold_left run_job ys s) 0.
Proof.
  induction 1 as [|x y xs ys H F IH]; intros l s N Q; cbn [fold_left]; [now apply moved_same|].
  assert (N' : names P h (run_job l x) (run_job s y)).
  { unfold run_job. rewrite <- (n_eq _ _ _ _ N _ _ (Q x (or_introl eq_refl)) H). destruct (nth_error l x); [|exact N].
    now apply names_replace. }
  destruct (IH _ _ N') as [A B C D G]; [intros; apply Q; now right|]. rewrite !run_length in *.
  constructor; auto.
  - intros a La I. rewrite C by (auto; intros I'; apply I; now right). unfold run_job. destruct (nth_error l x) eqn:E; [|reflexivity].
    rewrite nth_error_replace by (apply nth_error_Some; congruence). destruct (Nat.eqb_spec x a); [|reflexivity].
    subst. exfalso. apply I. now left.
Qed.

(** ** All objects *)
Record wnames (P : kind -> nat -> Prop) (h : refs) (l g : aworld) : Prop := {
  wn_params : names (P KParams) (h KParams) (a_params l) (a_params g);
  wn_states : names (P KStates) (h KStates) (a_states l) (a_states g);
  wn_jobs : names (P KJobs) (h KJobs) (a_jobs l) (a_jobs g);
  wn_pparams : names (P KPParams) (h KPParams) (a_pparams l) (a_pparams g);
  wn_pstates : names (P KPStates) (h KPStates) (a_pstates l) (a_pstates g);
  wn_hashes : names (P KHashes) (h KHashes) (a_hashes l) (a_hashes g) }.
Record wmoved (P : kind -> nat -> Prop) (h : refs) (c : call) (l l' s s' : aworld) (n : kind -> nat) : Prop := {
  wm_params : moved (P KParams) (h KParams) (written KParams c) (a_params l) (a_params l') (a_params s) (a_params s') (n KParams);
  wm_states : moved (P KStates) (h KStates) (written KStates c) (a_states l) (a_states l') (a_states s) (a_states s') (n KStates);
  wm_jobs : moved (P KJobs) (h KJobs) (written KJobs c) (a_jobs l) (a_jobs l') (a_jobs s) (a_jobs s') (n KJobs);
  wm_pparams : moved (P KPParams) (h KPParams) (written KPParams c) (a_pparams l) (a_pparams l') (a_pparams s) (a_pparams s') (n KPParams);
  wm_pstates : moved (P KPStates) (h KPStates) (written KPStates c) (a_pstates l) (a_pstates l') (a_pstates s) (a_pstates s') (n KPStates);
  wm_hashes : moved (P KHashes) (h KHashes) (written KHashes c) (a_hashes l) (a_hashes l') (a_hashes s) (a_hashes s') (n KHashes) }.

Definition one (k : kind) (k' : kind) : nat :=
  match k, k' with
  | KParams, KParams | KStates, KStates | KJobs, KJobs | KPParams, KPParams | KPStates, KPStates | KHashes, KHashes => 1
  | _, _ => 0
  end.
Definition none (_ : kind) : nat := 0.
Lemma wmoved_same P h c l s : wnames P h l s -> wmoved P h c l l s s none.
Proof. intros []. constructor; now apply moved_same. Qed.
Lemma wmoved_params P h c l s x : wnames P h l s -> wmoved P h c l (with_a_params (a_params l ++ [x]) l) s (with_a_params (a_params s ++ [x]) s) (one KParams).
Proof. intros []. constructor; cbn; auto using moved_same, moved_snoc. Qed.
Lemma wmoved_states P h c l s x : wnames P h l s -> wmoved P h c l (with_a_states (a_states l ++ [x]) l) s (with_a_states (a_states s ++ [x]) s) (one KStates).
Proof. intros []. constructor; cbn; auto using moved_same, moved_snoc. Qed.
Lemma wmoved_jobs P h c l s x : wnames P h l s -> wmoved P h c l (with_a_jobs (a_jobs l ++ [x]) l) s (with_a_jobs (a_jobs s ++ [x]) s) (one KJobs).
Proof. intros []. constructor; cbn; auto using moved_same, moved_snoc. Qed.
Lemma wmoved_pparams P h c l s x : wnames P h l s -> wmoved P h c l (with_a_pparams (a_pparams l ++ [x]) l) s (with_a_pparams (a_pparams s ++ [x]) s) (one KPParams).
Proof. intros []. constructor; cbn; auto using moved_same, moved_snoc. Qed.
Lemma wmoved_pstates P h c l s x : wnames P h l s -> wmoved P h c l (with_a_pstates (a_pstates l ++ [x]) l) s (with_a_pstates (a_pstates s ++ [x]) s) (one KPStates).
Proof. intros []. constructor; cbn; auto using moved_same, moved_snoc. Qed.
Lemma wmoved_hashes P h c l s x : wnames P h l s -> wmoved P h c l (with_a_hashes (a_hashes l ++ [x]) l) s (with_a_hashes (a_hashes s ++ [x]) s) (one KHashes).
Proof. intros []. constructor; cbn; auto using moved_same, moved_snoc. Qed.
Lemma wset_params P h c l s a b x : wnames P h l s -> nth_error (h KParams) a = Some b -> In a (written KParams c) ->
  wmoved P h c l (with_a_params (replace (a_params l) a x) l) s (with_a_params (replace (a_params s) b x) s) none.
Proof. intros [] ? ?. constructor; cbn; auto using moved_same, moved_replace. Qed.
Lemma wset_states P h c l s a b x : wnames P h l s -> nth_error (h KStates) a = Some b -> In a (written KStates c) ->
  wmoved P h c l (with_a_states (replace (a_states l) a x) l) s (with_a_states (replace (a_states s) b x) s) none.
Proof. intros [] ? ?. constructor; cbn; auto using moved_same, moved_replace. Qed.
Lemma wset_pparams P h c l s a b x : wnames P h l s -> nth_error (h KPParams) a = Some b -> In a (written KPParams c) ->
  wmoved P h c l (with_a_pparams (replace (a_pparams l) a x) l) s (with_a_pparams (replace (a_pparams s) b x) s) none.
Proof. intros [] ? ?. constructor; cbn; auto using moved_same, moved_replace. Qed.
Lemma wset_pstates P h c l s a b x : wnames P h l s -> nth_error (h KPStates) a = Some b -> In a (written KPStates c) ->
  wmoved P h c l (with_a_pstates (replace (a_pstates l) a x) l) s (with_a_pstates (replace (a_pstates s) b x) s) none.
Proof. intros [] ? ?. constructor; cbn; auto using moved_same, moved_replace. Qed.

Definition accessible (P : kind -> nat -> Prop) (c : call) : Prop := forall k n a, In (k, n, a) (borrows c) -> P k n.

Definition follows P h c l s (x y : aworld * obs) : Prop :=
  snd x = snd y /\ exists n, wmoved P h c l (fst x) s (fst y) n.
Lemma follows_same P h c l s o : wnames P h l s -> follows P h c l s (l, o) (s, o).
Proof. intros. split; [reflexivity|]. exists none. now apply wmoved_same. Qed.
Lemma follows_hash P h c l s x : wnames P h l s -> follows P h c l s (new_hash l x) (new_hash s x).
Proof. intros. split; [reflexivity|]. exists (one KHashes). now apply wmoved_hashes. Qed.
Lemma follows_report P h c l s o k : wnames P h l s -> follows P h c l s (report l o k) (report s o k).
Proof. intros. split; [reflexivity|]. exists none. now apply wmoved_same. Qed.

Lemma astep_follows f dbg P (hh : refs) c l s : wnames P hh l s -> accessible P c ->
  match resolve hh c with
  | None => astep f dbg l c = (l, Inexpressible)
  | Some c' => follows P hh c l s (astep f dbg l c) (astep f dbg s c')
  end.
Proof.
  intros W Q. pose proof W as [WP WS WJ WPP WPS WH].
  assert (QN : forall k n a, In (k, n, a) (borrows c) -> P k n) by exact Q. clear Q.
  destruct c; cbn [resolve].
  (* one borrowed object *)
  all: try (match goal with
    | |- context [option_map _ (nth_error (?g ?k) ?p)] =>
        let Pp := fresh "Pp" in
        assert (Pp : P k p) by (eapply QN; cbn; left; reflexivity);
        let E := fresh "E" in destruct (nth_error (g k) p) as [b0|] eqn:E; cbn [option_map astep]; unfold with_obj;
        [ first [rewrite <- (n_eq _ _ _ _ WP _ _ Pp E) | rewrite <- (n_eq _ _ _ _ WS _ _ Pp E) | rewrite <- (n_eq _ _ _ _ WJ _ _ Pp E)
               | rewrite <- (n_eq _ _ _ _ WPP _ _ Pp E) | rewrite <- (n_eq _ _ _ _ WPS _ _ Pp E) | rewrite <- (n_eq _ _ _ _ WH _ _ Pp E)];
          match goal with |- context [match nth_error ?l ?i with _ => _ end] => destruct (nth_error l i) as [y|] eqn:Ey end;
          [|now apply follows_same]
        | apply nth_error_None in E;
          first [rewrite (n_len _ _ _ _ WP) in E | rewrite (n_len _ _ _ _ WS) in E | rewrite (n_len _ _ _ _ WJ) in E
               | rewrite (n_len _ _ _ _ WPP) in E | rewrite (n_len _ _ _ _ WPS) in E | rewrite (n_len _ _ _ _ WH) in E];
          apply nth_error_None in E; now rewrite E ]
    end).
  all: cbn [astep].
  all: try (now apply follows_same).
  all: try (now apply follows_hash).
  all: try (split; [reflexivity|]; eexists; first [now apply wmoved_params|now apply wmoved_states|now apply wmoved_jobs|now apply wmoved_pparams|now apply wmoved_pstates]).
  all: try (match goal with z : astate |- _ => destruct z as [cc msg] | z : apstate |- _ => destruct z as [cc msg] end).
  all: try (now apply follows_hash).
  all: try (now apply follows_report).
  all: try (split; [reflexivity|]; eexists; first [apply wset_params|apply wset_states|apply wset_pparams|apply wset_pstates]; auto; cbn; auto; fail).
  - destruct (legal f s0); [|now apply follows_same]. split; [reflexivity|]; eexists. apply wset_params; auto. cbn; auto.
  - (* UpdateMany *)
    destruct (resolve_items (hh KStates) xs) as [ys|] eqn:E; cbn [option_map].
    + pose proof (resolve_items_some _ _ _ E) as F. cbn [astep].
      assert (F' : Forall2 (fun x y => nth_error (hh KStates) x = Some y) (map fst (until_none xs)) (map fst (until_none ys))).
      { clear - F. induction F as [|x y ? ? (H & _)]; constructor; auto. }
      pose proof (in_range _ _ _ _ _ _ WS F') as (I1 & I2). pose proof (no_repeats_names _ _ _ (n_inj _ _ _ _ WS) F') as NR.
      assert (M : forall n (zs : list (nat * list byte)), forallb (fun x => Nat.ltb (fst x) n) zs = forallb (fun x => Nat.ltb x n) (map fst zs))
        by (intros n zs; induction zs as [|z zs IH]; cbn [forallb map]; [reflexivity|now rewrite IH]).
      rewrite (M (length (a_states l)) (until_none xs)), (M (length (a_states s)) (until_none ys)), I1, I2, NR. destruct (no_repeats (map fst (until_none ys))); cbn [andb]; [|now apply follows_same].
      split; [cbn; do 2 f_equal; eapply F2length; eauto|]. exists none. constructor; cbn [fst with_a_states a_params a_states a_jobs a_pparams a_pstates a_hashes none]; auto using moved_same.
      assert (WE : written KStates (UpdateMany xs) = map fst (until_none xs)).
      { unfold written. cbn [borrows]. generalize (until_none xs). intros zs. induction zs as [|[z m] zs IH]; cbn; [reflexivity|]. now f_equal. }
      rewrite WE. apply moved_feeds; auto. intros [x m] I. apply (QN KStates x Exclusive). cbn.
      apply in_map_iff. exists (x, m). auto.
    + destruct (resolve_items_none _ _ E) as (x & I & N). cbn [astep]. apply nth_error_None in N. rewrite (n_len _ _ _ _ WS) in N.
      assert (B : forallb (fun x => Nat.ltb (fst x) (length (a_states l))) (until_none xs) = false).
      { apply not_true_iff_false. intros B. rewrite forallb_forall in B. specialize (B x I). apply Nat.ltb_lt in B. lia. }
      now rewrite B, andb_false_r.
  - (* HashMany *)
    destruct (resolve_jobs (hh KJobs) xs) as [ys|] eqn:E; cbn [option_map].
    + pose proof (resolve_jobs_some _ _ _ E) as F. cbn [astep].
      pose proof (in_range _ _ _ _ _ _ WJ F) as (I1 & I2). pose proof (no_repeats_names _ _ _ (n_inj _ _ _ _ WJ) F) as NR.
      rewrite I1, I2, NR. destruct (no_repeats (until_none ys)); cbn [andb]; [|now apply follows_same].
      split; [cbn; do 2 f_equal; eapply F2length; eauto|]. exists none. constructor; cbn [fst with_a_jobs a_params a_states a_jobs a_pparams a_pstates a_hashes none]; auto using moved_same.
      assert (WE : written KJobs (HashMany xs) = until_none xs).
      { unfold written. cbn [borrows]. generalize (until_none xs). intros zs. induction zs as [|z zs IH]; cbn; [reflexivity|]. now f_equal. }
      rewrite WE. apply moved_runs; auto. intros x I. apply (QN KJobs x Exclusive). cbn.
      apply in_map_iff. exists x. auto.
    + destruct (resolve_jobs_none _ _ E) as (x & I & N). cbn [astep]. apply nth_error_None in N. rewrite (n_len _ _ _ _ WJ) in N.
      assert (B : forallb (fun x => Nat.ltb x (length (a_jobs l))) (until_none xs) = false).
      { apply not_true_iff_false. intros B. rewrite forallb_forall in B. specialize (B x I). apply Nat.ltb_lt in B. lia. }
      now rewrite B, andb_false_r.
  - destruct (aj_run y); [now apply follows_hash|]. destruct dbg; [now apply follows_same|now apply follows_hash].
  - destruct (plegal f s0); [|now apply follows_same]. split; [reflexivity|]; eexists. apply wset_pparams; auto. cbn; auto.
  - destruct (dbg && _); now apply follows_same.
  - (* EqHash *)
    assert (P1 : P KHashes h) by (eapply QN; cbn; left; reflexivity).
    assert (P2 : P KHashes h') by (eapply QN; cbn; right; left; reflexivity).
    cbn [astep]. unfold with_obj.
    destruct (nth_error (hh KHashes) h) as [b|] eqn:E1.
    + destruct (nth_error (hh KHashes) h') as [b'|] eqn:E2; cbn [astep].
      * unfold with_obj. rewrite <- (n_eq _ _ _ _ WH _ _ P1 E1), <- (n_eq _ _ _ _ WH _ _ P2 E2).
        destruct (nth_error (a_hashes l) h); [|now apply follows_same]. destruct (nth_error (a_hashes l) h'); now apply follows_same.
      * apply nth_error_None in E2. rewrite (n_len _ _ _ _ WH) in E2. apply nth_error_None in E2. rewrite E2.
        now destruct (nth_error (a_hashes l) h).
    + apply nth_error_None in E1. rewrite (n_len _ _ _ _ WH) in E1. apply nth_error_None in E1. now rewrite E1.
Qed.

(** ** The end of a call *)
Lemma commit_length {A} ws (old new now : list A) : length (commit ws old new now) = length now + (length new - length old).
Proof. unfold commit. rewrite app_length, map_length, combine_length, seq_length, skipn_length. lia. Qed.
Lemma nth_combine_seq {A} (l : list A) : forall k b, nth_error (combine (seq k (length l)) l) b = option_map (fun x => (k + b, x)) (nth_error l b).
Proof.
  induction l as [|x l IH]; intros k b; cbn [length seq combine].
  - now destruct b.
  - destruct b as [|b]; cbn [nth_error option_map]; [now rewrite Nat.add_0_r|]. rewrite IH. now rewrite Nat.add_succ_comm.
Qed.
Lemma commit_old {A} ws (old new now : list A) b x : nth_error now b = Some x ->
  nth_error (commit ws old new now) b = Some (if existsb (Nat.eqb b) ws then nth b new x else x).
Proof.
  intros E. unfold commit. rewrite nth_error_app1.
  - rewrite nth_error_map, nth_combine_seq, E. reflexivity.
  - rewrite map_length, combine_length, seq_length, Nat.min_id. apply nth_error_Some. congruence.
Qed.
Lemma commit_kept {A} ws (old new now : list A) b : b < length now -> ~ In b ws -> nth_error (commit ws old new now) b = nth_error now b.
Proof.
  intros L N. destruct (nth_error now b) as [x|] eqn:E; [|apply nth_error_None in E; lia].
  rewrite (commit_old _ _ _ _ _ x) by exact E. destruct (existsb (Nat.eqb b) ws) eqn:X; [|reflexivity].
  apply existsb_exists in X. destruct X as (y & I & Q). apply Nat.eqb_eq in Q. subst. contradiction.
Qed.
Lemma commit_written {A} ws (old new now : list A) b : b < length now -> In b ws -> b < length new ->
  nth_error (commit ws old new now) b = nth_error new b.
Proof.
  intros L I L'. destruct (nth_error now b) as [x|] eqn:E; [|apply nth_error_None in E; lia].
  rewrite (commit_old _ _ _ _ _ x) by exact E.
  replace (existsb (Nat.eqb b) ws) with true by (symmetry; apply existsb_exists; exists b; rewrite Nat.eqb_refl; auto).
  symmetry. now apply nth_error_nth'.
Qed.
Lemma nth_error_skip {A} : forall n (l : list A) j, nth_error (skipn n l) j = nth_error l (n + j).
Proof. induction n as [|n IH]; intros [|x l] j; cbn [skipn Nat.add]; auto. now destruct j. apply IH. Qed.
Lemma commit_new {A} ws (old new now : list A) j : nth_error (commit ws old new now) (length now + j) = nth_error new (length old + j).
Proof.
  unfold commit. rewrite nth_error_app2; rewrite map_length, combine_length, seq_length, Nat.min_id; [|lia].
  rewrite nth_error_skip. f_equal. lia.
Qed.

Lemma NoDup_join {A} (l m : list A) : NoDup l -> NoDup m -> (forall x, In x l -> ~ In x m) -> NoDup (l ++ m).
Proof.
  intros D E Q. induction D as [|x l N D IH]; [exact E|]. cbn [app]. constructor.
  - rewrite in_app_iff. intros [I|I]; [auto|]. apply (Q x); [now left|exact I].
  - apply IH. intros y I. apply Q. now right.
Qed.
Lemma names_commit {A} P h ml ms (l l' s s' g : list A) n : names P h l g -> moved P h ml l l' s s' n ->
  Forall2 (fun a b => nth_error h a = Some b) ml ms -> (forall a, In a ml -> P a) ->
  names P (h ++ seq (length g) n) l' (commit ms s s' g).
Proof.
  intros [L V I E] [ML MS MK ME MN] F Q. constructor.
  - rewrite app_length, seq_length. lia.
  - intros a b H. rewrite commit_length. destruct (Nat.lt_ge_cases a (length h)).
    + rewrite nth_error_app1 in H by auto. specialize (V a b H). lia.
    + rewrite nth_error_app2 in H by auto. apply nth_error_In in H. apply in_seq in H. lia.
  - apply NoDup_join; [exact I|apply seq_NoDup|]. intros b H H'. apply In_nth_error in H. destruct H as (a & H). specialize (V a b H).
    apply in_seq in H'. lia.
  - intros a b Pa H. destruct (Nat.lt_ge_cases a (length h)) as [La|La].
    + rewrite nth_error_app1 in H by auto. specialize (V a b H) as Lb. destruct (in_dec Nat.eq_dec a ml) as [Ia|Na].
      * assert (Ib : In b ms).
        { clear - F Ia H. induction F as [|x y xs ys K F IH]; [destruct Ia|]. destruct Ia as [->|Ia]; [left; congruence|right; auto]. }
        rewrite commit_written; auto. apply nth_error_Some. rewrite <- (ME a b Pa H). apply nth_error_Some. lia.
      * assert (Nb : ~ In b ms).
        { intros Ib. apply Na. clear - F Ib H I. induction F as [|x y xs ys K F IH]; [destruct Ib|].
          destruct Ib as [->|Ib]; [left|right; auto]. eapply names_inj; eauto. }
        rewrite commit_kept by auto. rewrite MK by (auto; lia). auto.
    + rewrite nth_error_app2 in H by auto. assert (La' : a - length h < n).
      { rewrite <- (seq_length n (length g)). apply nth_error_Some. congruence. }
      assert (B : b = length g + (a - length h)).
      { apply (nth_error_nth _ _ 0) in H. rewrite seq_nth in H by auto. auto. }
      subst b. rewrite commit_new. replace a with (length l + (a - length h)) at 1 by lia. rewrite MN by auto. reflexivity.
Qed.
Lemma names_frame {A} P h ms (l s s' g : list A) : names P h l g -> (forall a b, P a -> nth_error h a = Some b -> ~ In b ms) ->
  names P h l (commit ms s s' g).
Proof.
  intros [L V I E] Q. constructor; auto.
  - intros a b H. rewrite commit_length. specialize (V a b H). lia.
  - intros a b Pa H. rewrite commit_kept; eauto.
Qed.

Lemma F2_nth {A B} (Q : A -> B -> Prop) l m : Forall2 Q l m -> forall n x y, Q x y -> Q (nth n l x) (nth n m y).
Proof. induction 1; intros [|n] u w K; cbn; auto. Qed.
Lemma F2_skipn {A B} (Q : A -> B -> Prop) n : forall l m, Forall2 Q l m -> Forall2 Q (skipn n l) (skipn n m).
Proof. induction n; intros l m F; [exact F|]. destruct F; cbn [skipn]; auto. Qed.
Lemma F2_commit {A B} (Q : A -> B -> Prop) ws o n w o' n' w' : Forall2 Q o o' -> Forall2 Q n n' -> Forall2 Q w w' ->
  Forall2 Q (commit ws o n w) (commit ws o' n' w').
Proof.
  intros FO FN FW. unfold commit. apply Forall2_app.
  - rewrite <- (F2length _ _ _ FW). generalize 0. induction FW as [|x y w w' K FW IH]; intros k; cbn [length seq combine map]; constructor; auto.
    destruct (existsb _ _); [|exact K]. now apply F2_nth.
  - rewrite <- (F2length _ _ _ FO). now apply F2_skipn.
Qed.
Definition acommit (c : call) (old new now : aworld) : aworld :=
  {| a_params := commit (written KParams c) (a_params old) (a_params new) (a_params now);
     a_states := commit (written KStates c) (a_states old) (a_states new) (a_states now);
     a_jobs := commit (written KJobs c) (a_jobs old) (a_jobs new) (a_jobs now);
     a_pparams := commit (written KPParams c) (a_pparams old) (a_pparams new) (a_pparams now);
     a_pstates := commit (written KPStates c) (a_pstates old) (a_pstates new) (a_pstates now);
     a_hashes := commit (written KHashes c) (a_hashes old) (a_hashes new) (a_hashes now) |}.
Lemma commit_R v e c o n w o' n' w' : R v e o o' -> R v e n n' -> R v e w w' ->
  R v e (commit_world c o n w) (acommit c o' n' w').
Proof. intros [] [] []. constructor; cbn; apply F2_commit; auto. Qed.
Lemma number_R v e w a k : R v e w a -> number w k = objects a k.
Proof. intros []. destruct k; cbn; eapply F2length; eauto. Qed.

Lemma resolve_written h c c' k : resolve h c = Some c' -> Forall2 (fun a b => nth_error (h k) a = Some b) (written k c) (written k c').
Proof.
  intros E. destruct c; cbn [resolve] in E;
    try (match type of E with option_map _ (nth_error ?l ?p) = _ => let X := fresh in destruct (nth_error l p) eqn:X; [|discriminate] end;
         cbn [option_map] in E; injection E as <-; destruct k; cbn; repeat constructor; assumption);
    try (injection E as <-; destruct k; cbn; constructor).
  - destruct (resolve_items (h KStates) xs) as [ys|] eqn:X; [|discriminate]. injection E as <-.
    pose proof (resolve_items_some _ _ _ X) as F. unfold written. cbn [borrows]. destruct k; cbn.
    all: induction F as [|[x m] [y m'] ? ? (K & _) F IH]; cbn; try constructor; auto.
  - destruct (resolve_jobs (h KJobs) xs) as [ys|] eqn:X; [|discriminate]. injection E as <-.
    pose proof (resolve_jobs_some _ _ _ X) as F. unfold written. cbn [borrows]. destruct k; cbn.
    all: induction F as [|x y ? ? K F IH]; cbn; try constructor; auto.
  - destruct (nth_error (h KHashes) h0); [|discriminate]. destruct (nth_error (h KHashes) h'); [|discriminate]. injection E as <-.
    destruct k; cbn; constructor.
Qed.
Lemma written_borrowed k c n : In n (written k c) -> In (k, n, Exclusive) (borrows c).
Proof.
  unfold written. rewrite in_flat_map. intros ([[k' m] a] & I & H). destruct k, k', a; cbn in H; try contradiction;
    destruct H as [<-|[]]; exact I.
Qed.
Lemma resolve_typed f h c c' : resolve h c = Some c' -> well_typed f c -> well_typed f c'.
Proof.
  intros E T. destruct c; cbn [resolve] in E;
    try (match type of E with option_map _ (nth_error ?l ?p) = _ => destruct (nth_error l p); [|discriminate] end;
         cbn [option_map] in E; injection E as <-; exact T);
    try (injection E as <-; exact T).
  - destruct (resolve_items _ _); [|discriminate]. injection E as <-. exact T.
  - destruct (resolve_jobs _ _); [|discriminate]. injection E as <-. exact T.
  - destruct (nth_error _ h0); [|discriminate]. destruct (nth_error _ h'); [|discriminate]. injection E as <-. exact T.
Qed.

Lemma wnames_bound P h l g k b : wnames P h l g -> In b (h k) -> b < objects g k.
Proof. intros [] I. apply In_nth_error in I. destruct I as (a & I). destruct k; cbn; eapply n_val; eauto. Qed.
Lemma wnames_len P h l g k : wnames P h l g -> length (h k) = objects l k.
Proof. intros []. destruct k; cbn; eapply n_len; eauto. Qed.
Lemma wmoved_number P h c l l' s s' n k : wmoved P h c l l' s s' n -> objects s' k - objects s k = n k.
Proof. intros []. destruct k; cbn; match goal with H : moved _ _ _ _ _ ?s ?s' _ |- length ?s' - length ?s = _ => destruct H; lia end. Qed.
Lemma wnames_commit P h c c' l l' s s' g n : wnames P h l g -> wmoved P h c l l' s s' n -> resolve h c = Some c' -> accessible P c ->
  wnames P (fun k => h k ++ seq (objects g k) (n k)) l' (acommit c' s s' g).
Proof.
  intros W M E Q. assert (QW : forall k a, In a (written k c) -> P k a) by (intros k a I; eapply Q; now apply written_borrowed).
  destruct W, M. constructor; cbn; eapply names_commit; eauto; now apply resolve_written.
Qed.
Lemma wnames_frame P h c l s s' g : wnames P h l g ->
  (forall k a b, P k a -> nth_error (h k) a = Some b -> ~ In b (written k c)) -> wnames P h l (acommit c s s' g).
Proof. intros [] Q. constructor; cbn; apply names_frame; eauto. Qed.
Lemma wnames_ext P h h' l g : (forall k, h k = h' k) -> wnames P h l g -> wnames P h' l g.
Proof. intros Q []. constructor; rewrite <- Q; auto. Qed.

(** ** Threads *)
Section Threads.
Variables (v : variant) (e : env).
Variable base : kind -> nat.
Variable P : nat -> kind -> nat -> Prop.     (* what a thread may use *)
Variable X : nat -> kind -> nat -> Prop.     (* what it may write *)
Hypothesis EXCL : forall i j k n, i <> j -> n < base k -> X i k n -> ~ P j k n.

Record th_ok (i : nat) (th : thread) (l g : aworld) : Prop := {
  o_names : wnames (P i) (th_refs th) l g;
  o_rest : Forall (fun c => accessible (P i) c /\ well_typed (fl v) c /\ forall k n, In n (written k c) -> X i k n) (th_rest th);
  o_size : forall k, base k <= length (th_refs th k);
  o_base : forall k a b, nth_error (th_refs th k) a = Some b -> (a < base k -> b = a) /\ (base k <= a -> base k <= b);
  o_busy : match th_busy th with
    | None => True
    | Some (t, old, c) => honest t e /\ (accessible (P i) c /\ well_typed (fl v) c /\ forall k n, In n (written k c) -> X i k n) /\
        exists s, R v e old s /\ wnames (P i) (th_refs th) l s
    end }.
Definition apart (ths : list thread) : Prop := forall i j th th' k b, i <> j ->
  nth_error ths i = Some th -> nth_error ths j = Some th' -> base k <= b -> In b (th_refs th k) -> ~ In b (th_refs th' k).
Definition calls (th : thread) : list call :=
  match th_busy th with Some (_, _, c) => c :: th_rest th | None => th_rest th end.
Definition ahead (th : thread) : nat := match th_busy th with Some _ => 1 | None => 0 end.

Lemma nth_set {A} (l : list A) i x : forall j, nth_error (set l i x) j = if Nat.eqb i j then option_map (fun _ => x) (nth_error l i) else nth_error l j.
Proof.
  revert i. induction l as [|y l IH]; intros [|i] [|j]; cbn; auto. now destruct (Nat.eqb i j).
Qed.

Lemma seen_other i j o l : i <> j -> seen_by j ((i, o) :: l) = seen_by j l.
Proof. intros N. unfold seen_by. cbn. destruct (Nat.eqb_spec i j); [contradiction|reflexivity]. Qed.
Lemma seen_same j o l : seen_by j ((j, o) :: l) = o :: seen_by j l.
Proof. unfold seen_by. cbn. now rewrite Nat.eqb_refl. Qed.
Lemma turns_cons {A} j i (t : A) r : turns j ((i, t) :: r) = (if Nat.eqb i j then 1 else 0) + turns j r.
Proof. unfold turns. cbn. now destruct (Nat.eqb i j). Qed.

Lemma objects_commit c s s' g k : objects g k <= objects (acommit c s s' g) k.
Proof. destruct k; cbn; rewrite commit_length; lia. Qed.
Lemma half n : S (S n) / 2 = S (n / 2).
Proof. change (S (S n)) with (2 + n). replace (2 + n) with (n + 1 * 2) by lia. rewrite Nat.div_add by lia. lia. Qed.

Lemma run_ok sched : Forall (fun x => honest (snd x) e) sched -> forall w g ths (l : nat -> aworld), R v e w g -> apart ths ->
  (forall k, base k <= objects g k) ->
  (forall i th, nth_error ths i = Some th -> th_ok i th (l i) g) ->
  forall j th, nth_error ths j = Some th ->
  seen_by j (run_threads v e w ths sched) = firstn ((turns j sched + ahead th) / 2) (arun (fl v) (e_dbg e) (l j) (calls th)).
Proof.
  induction 1 as [|[i t] sched HT _ IH]; intros w g ths l RW AP BG OK j th J; cbn [run_threads].
  { unfold turns, ahead. cbn. destruct (th_busy th); reflexivity. }
  rewrite turns_cons. destruct (nth_error ths i) as [thi|] eqn:I.
  2:{ assert (i <> j) by congruence. destruct (Nat.eqb_spec i j); [contradiction|]. eapply IH; eauto. }
  cbn [snd] in HT. pose proof (OK i thi I) as [ON OR OS OB OU]. unfold turn.
  assert (SAME : forall thi', th_refs thi' = th_refs thi -> apart (set ths i thi')).
  { intros thi' E x y th1 th2 k b NE H1 H2 Hb. rewrite nth_set in H1, H2. rewrite I in H1, H2. cbn [option_map] in H1, H2.
    destruct (Nat.eqb_spec i x) as [<-|]; destruct (Nat.eqb_spec i y) as [<-|]; try congruence.
    - injection H1 as <-. rewrite E. exact (AP i y thi th2 k b NE I H2 Hb).
    - injection H2 as <-. rewrite E. exact (AP x i th1 thi k b NE H1 I Hb).
    - exact (AP x y th1 th2 k b NE H1 H2 Hb). }
  destruct (th_busy thi) as [[[t0 old] c]|] eqn:BU.
  - (* a call ends *)
    destruct OU as (HON & (QC & TC & XC) & s & RS & NS).
    pose proof (astep_follows (fl v) (e_dbg e) (P i) (th_refs thi) c (l i) s NS QC) as FO.
    destruct (resolve (th_refs thi) c) as [c'|] eqn:RC.
    + pose proof (step_R v e (detect t0) old s c' (detect_supported _ _ HON) RS (resolve_typed _ _ _ _ RC TC)) as (SO & SR).
      destruct (step v e (detect t0) old c') as [new o]. destruct FO as (OO & n & MO). cbn [fst snd] in *.
      set (s' := fst (astep (fl v) (e_dbg e) s c')) in *. set (li := fst (astep (fl v) (e_dbg e) (l i) c)) in *.
      set (g' := acommit c' s s' g).
      assert (RG : R v e (commit_world c' old new w) g') by (apply commit_R; auto).
      assert (RE : forall k, received (th_refs thi) old new w k = th_refs thi k ++ seq (objects g k) (n k)).
      { intros k. unfold received. rewrite (number_R v e w g k RW), (number_R v e new s' k SR), (number_R v e old s k RS).
        now rewrite (wmoved_number _ _ _ _ _ _ _ _ k MO). }
      set (thi' := {| th_refs := received (th_refs thi) old new w; th_rest := th_rest thi; th_busy := None |}).
      set (l' := fun x => if Nat.eqb i x then li else l x).
      assert (WR : forall k b, In b (written k c') -> exists a, In a (written k c) /\ nth_error (th_refs thi k) a = Some b).
      { intros k b Ib. pose proof (resolve_written _ _ _ k RC) as F. clear - F Ib.
        induction F as [|x y ? ? K F IH2]; [destruct Ib|]. destruct Ib as [->|Ib]; [exists x; cbn; auto|].
        destruct (IH2 Ib) as (a & ? & ?). exists a. cbn; auto. }
      assert (OK' : forall x th', nth_error (set ths i thi') x = Some th' -> th_ok x th' (l' x) g').
      { intros x th' Hx. rewrite nth_set, I in Hx. cbn [option_map] in Hx. unfold l'. destruct (Nat.eqb_spec i x) as [<-|NE].
        - injection Hx as <-. constructor; cbn [thi' th_refs th_rest th_busy]; auto.
          + eapply wnames_ext; [intros k; symmetry; apply RE|]. unfold g'. eapply wnames_commit; eauto.
          + intros k. rewrite RE, app_length. specialize (OS k). lia.
          + intros k a b H. rewrite RE in H. destruct (Nat.lt_ge_cases a (length (th_refs thi k))) as [La|La].
            * rewrite nth_error_app1 in H by auto. auto.
            * rewrite nth_error_app2 in H by auto. apply nth_error_In, in_seq in H. specialize (OS k). specialize (BG k). lia.
        - pose proof (OK x th' Hx) as [N1 N2 N5 N3 N4]. constructor; auto. unfold g'. apply wnames_frame; auto.
          intros k a b Pa H Ib. destruct (WR k b Ib) as (a0 & Ia & Ha). specialize (XC k a0 Ia).
          destruct (OB k a0 b Ha) as (B1 & B2). destruct (N3 k a b H) as (B3 & B4).
          destruct (Nat.lt_ge_cases a0 (base k)) as [L0|L0].
          + specialize (B1 L0). subst b. destruct (Nat.lt_ge_cases a (base k)) as [L1|L1].
            * specialize (B3 L1). subst a0. exact (EXCL i x k a NE L1 XC Pa).
            * specialize (B4 L1). lia.
          + apply (AP i x thi th' k b NE I Hx (B2 L0)); eapply nth_error_In; eauto. }
      assert (AP' : apart (set ths i thi')).
      { intros x y th1 th2 k b NE H1 H2 Hb. rewrite nth_set in H1, H2. rewrite I in H1, H2. cbn [option_map] in H1, H2.
        destruct (Nat.eqb_spec i x) as [<-|]; destruct (Nat.eqb_spec i y) as [<-|]; try congruence.
        - injection H1 as <-. cbn [thi' th_refs]. rewrite RE. intros Ib Ib'. apply in_app_iff in Ib. destruct Ib as [Ib|Ib].
          + exact (AP i y thi th2 k b NE I H2 Hb Ib Ib').
          + apply in_seq in Ib. pose proof (wnames_bound _ _ _ _ k b (o_names _ _ _ _ (OK y th2 H2)) Ib'). lia.
        - injection H2 as <-. cbn [thi' th_refs]. rewrite RE. intros Ib' Ib. apply in_app_iff in Ib. destruct Ib as [Ib|Ib].
          + exact (AP x i th1 thi k b NE H1 I Hb Ib' Ib).
          + apply in_seq in Ib. pose proof (wnames_bound _ _ _ _ k b (o_names _ _ _ _ (OK x th1 H1)) Ib'). lia.
        - exact (AP x y th1 th2 k b NE H1 H2 Hb). }
      assert (BG' : forall k, base k <= objects g' k).
      { intros k. eapply Nat.le_trans; [apply BG|apply objects_commit]. }
      specialize (IH _ _ _ l' RG AP' BG' OK').
      destruct (Nat.eqb_spec i j) as [<-|NE].
      * rewrite I in J. injection J as <-. rewrite seen_same. rewrite (IH i thi') by (rewrite nth_set, I, Nat.eqb_refl; reflexivity).
        unfold l', ahead, calls. rewrite Nat.eqb_refl, BU. cbn [thi' th_busy th_rest].
        replace (1 + turns i sched + 1) with (S (S (turns i sched))) by lia. rewrite half, Nat.add_0_r. cbn [arun].
        unfold li. rewrite SO, <- OO. destruct (astep (fl v) (e_dbg e) (l i) c) as [li0 o0]. reflexivity.
      * rewrite seen_other by auto. rewrite (IH j th); [|rewrite nth_set; destruct (Nat.eqb_spec i j); [contradiction|exact J]].
        unfold l'. destruct (Nat.eqb_spec i j); [contradiction|reflexivity].
    + (* a call on an object that is not there *)
      set (thi' := {| th_refs := th_refs thi; th_rest := th_rest thi; th_busy := None |}).
      assert (OK' : forall x th', nth_error (set ths i thi') x = Some th' -> th_ok x th' (l x) g).
      { intros x th' Hx. rewrite nth_set, I in Hx. cbn [option_map] in Hx. destruct (Nat.eqb_spec i x) as [<-|NE]; [|auto].
        injection Hx as <-. constructor; cbn; auto. }
      specialize (IH w g (set ths i thi') l RW (SAME thi' eq_refl) BG OK').
      destruct (Nat.eqb_spec i j) as [<-|NE].
      * rewrite I in J. injection J as <-. rewrite seen_same. rewrite (IH i thi') by (rewrite nth_set, I, Nat.eqb_refl; reflexivity).
        unfold ahead, calls. rewrite BU. cbn [thi' th_busy th_rest].
        replace (1 + turns i sched + 1) with (S (S (turns i sched))) by lia. rewrite half, Nat.add_0_r. cbn [arun]. rewrite FO. reflexivity.
      * rewrite seen_other by auto. apply IH. rewrite nth_set; destruct (Nat.eqb_spec i j); [contradiction|exact J].
  - destruct (th_rest thi) as [|c rest] eqn:RT.
    + (* no call left *)
      assert (OK' : forall x th', nth_error (set ths i thi) x = Some th' -> th_ok x th' (l x) g).
      { intros x th' Hx. rewrite nth_set, I in Hx. cbn [option_map] in Hx. destruct (Nat.eqb_spec i x) as [<-|NE]; [|auto].
        injection Hx as <-. auto. }
      specialize (IH w g (set ths i thi) l RW (SAME thi eq_refl) BG OK').
      destruct (Nat.eqb_spec i j) as [<-|NE].
      * rewrite I in J. injection J as <-. rewrite (IH i thi) by (rewrite nth_set, I, Nat.eqb_refl; reflexivity).
        unfold calls. rewrite BU, RT. cbn [arun]. now rewrite !firstn_nil.
      * apply IH. rewrite nth_set; destruct (Nat.eqb_spec i j); [contradiction|exact J].
    + (* a call begins *)
      inversion OR as [|? ? OC OR']; subst.
      set (thi' := {| th_refs := th_refs thi; th_rest := rest; th_busy := Some (t, w, c) |}).
      assert (OK' : forall x th', nth_error (set ths i thi') x = Some th' -> th_ok x th' (l x) g).
      { intros x th' Hx. rewrite nth_set, I in Hx. cbn [option_map] in Hx. destruct (Nat.eqb_spec i x) as [<-|NE]; [|auto].
        injection Hx as <-. constructor; cbn; auto. split; [exact HT|]. split; [exact OC|]. exists g. auto. }
      specialize (IH w g (set ths i thi') l RW (SAME thi' eq_refl) BG OK').
      destruct (Nat.eqb_spec i j) as [<-|NE].
      * rewrite I in J. injection J as <-. rewrite (IH i thi') by (rewrite nth_set, I, Nat.eqb_refl; reflexivity).
        unfold ahead, calls. rewrite BU, RT. cbn [thi' th_busy th_rest]. f_equal. f_equal. lia.
      * apply IH. rewrite nth_set; destruct (Nat.eqb_spec i j); [contradiction|exact J].
Qed.
End Threads.

Lemma names_start {A} P (l : list A) : names P (seq 0 (length l)) l l.
Proof.
  assert (N : forall a b, nth_error (seq 0 (length l)) a = Some b -> b = a /\ a < length l).
  { intros a b H. assert (L : a < length l) by (rewrite <- (seq_length (length l) 0); apply nth_error_Some; congruence).
    apply (nth_error_nth _ _ 0) in H. rewrite seq_nth in H by auto. auto. }
  constructor.
  - apply seq_length.
  - intros a b H. destruct (N a b H). lia.
  - apply seq_NoDup.
  - intros a b _ H. destruct (N a b H) as (-> & _). reflexivity.
Qed.
Lemma wnames_start P g : wnames P (fun k => seq 0 (objects g k)) g g.
Proof. constructor; apply names_start. Qed.

Theorem threads_alone v e t setup progs schedule : honest t e -> Forall (fun x => honest (snd x) e) schedule ->
  Forall (well_typed (fl v)) setup -> Forall (Forall (well_typed (fl v))) progs ->
  race_free (fl v) (e_dbg e) setup progs ->
  forall i p, nth_error progs i = Some p ->
  seen_by i (run_concurrently v e t setup progs schedule) =
  firstn (turns i schedule / 2) (skipn (length setup) (behaviour (fl v) (e_dbg e) (setup ++ p))).
Proof.
  intros HT HS TS TP RF i p Hi. unfold run_concurrently, behaviour. rewrite arun_app.
  assert (RL : forall w q, length (arun (fl v) (e_dbg e) w q) = length q).
  { intros w q. revert w. induction q as [|c q IH]; intros w; cbn [arun]; [reflexivity|]. destruct (astep _ _ w c). cbn. now rewrite IH. }
  rewrite skipn_app, RL, Nat.sub_diag. cbn [skipn]. rewrite skipn_all2 by (rewrite RL; lia). cbn [app].
  set (w := fold_left _ setup empty_world). set (g := aworld_after (fl v) (e_dbg e) empty_aworld setup).
  assert (RW : R v e w g) by (apply worlds_R; auto using R_empty, detect_supported).
  assert (AG : after (fl v) (e_dbg e) setup = g) by reflexivity.
  set (th := fun p => {| th_refs := fun k => seq 0 (number w k); th_rest := p; th_busy := None |}).
  set (P := fun j k n => objects g k <= n \/ exists q a, nth_error progs j = Some q /\ In (k, n, a) (flat_map borrows q)).
  set (X := fun j k n => exists q, nth_error progs j = Some q /\ In (k, n, Exclusive) (flat_map borrows q)).
  rewrite (run_ok v e (objects g) P X) with (g := g) (l := fun _ => g) (th := th p); auto.
  - cbn. now rewrite Nat.add_0_r.
  - intros a b k n NE L (q & Hq & IX) [LB|(q' & acc & Hq' & I)]; [lia|].
    exact (RF a b q q' k n acc NE Hq Hq' ltac:(rewrite AG; exact L) IX I).
  - intros a b ta tb k n NE Ha Hb LB Ia. exfalso. rewrite nth_error_map in Ha. destruct (nth_error progs a); [|discriminate].
    injection Ha as <-. cbn in Ia. rewrite (number_R v e w g k RW) in Ia. apply in_seq in Ia. lia.
  - intros j tj Hj. rewrite nth_error_map in Hj. destruct (nth_error progs j) as [q|] eqn:Hq; [|discriminate]. injection Hj as <-.
    assert (NR : forall k, seq 0 (objects g k) = seq 0 (number w k)) by (intros; now rewrite (number_R v e w g k RW)).
    constructor; cbn; auto.
    + eapply wnames_ext; [exact NR|apply wnames_start].
    + apply Forall_forall. intros c Ic. rewrite Forall_forall in TP. pose proof (TP q (nth_error_In _ _ Hq)) as TQ.
      rewrite Forall_forall in TQ. split; [|split; [auto|]].
      * intros k n a In_. right. exists q, a. split; [exact Hq|]. apply in_flat_map. exists c. auto.
      * intros k n In_. exists q. split; [exact Hq|]. apply in_flat_map. exists c. split; [exact Ic|now apply written_borrowed].
    + intros k. rewrite seq_length, (number_R v e w g k RW). lia.
    + intros k a b H. rewrite <- NR in H. assert (L : a < objects g k) by (rewrite <- (seq_length (objects g k) 0); apply nth_error_Some; congruence).
      apply (nth_error_nth _ _ 0) in H. rewrite seq_nth in H by auto. lia.
  - rewrite nth_error_map, Hi. reflexivity.
Qed.
