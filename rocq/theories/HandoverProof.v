(** Proofs about histories (C47): a safe history gives what the machine gives when
    it makes the calls one after the other, in the order in which they end. *)
From Coq Require Import String.
From Coq Require Import Arith NArith List Bool Lia.
From Coq Require Import Init.Byte.
From Verif Require Import Base Guts KernelSpec Simd Impl Loops LaneLoops Sched SchedProof Lib Many Par.
From Verif Require Import StateProof ParamsProof FedProof ManyProof ParProof ParFed.
From Verif Require Import Spec ApiSpec Machine History Views Api ApiProof Runs HistoryProof MachineProof ApiLaws.
From Verif Require Import ThreadsSpec Threads ThreadsProof.
Import ListNotations.
Open Scope list_scope.
Open Scope nat_scope.
Local Notation length := List.length.

(** ** One call on two stores *)
Definition here (m : kind -> nat) : refs := fun k => seq 0 (m k).
Lemma here_nth m k n : n < m k -> nth_error (here m k) n = Some n.
Proof.
  intros L. unfold here. rewrite (nth_error_nth' _ 0) by now rewrite seq_length. now rewrite seq_nth.
Qed.
Lemma here_some m k n b : nth_error (here m k) n = Some b -> b = n /\ n < m k.
Proof.
  intros H. assert (L : n < m k) by (rewrite <- (seq_length (m k) 0); apply nth_error_Some; unfold here in H; congruence).
  rewrite here_nth in H by auto. injection H as <-. auto.
Qed.
Lemma resolve_items_here m xs : (forall x, In x (until_none xs) -> fst x < m KStates) -> resolve_items (here m KStates) xs = Some xs.
Proof.
  induction xs as [|[[s b]|] xs IH]; intros Q; [reflexivity| |reflexivity]. cbn [resolve_items until_none] in *.
  rewrite here_nth by (apply (Q (s, b)); now left). rewrite IH by (intros; apply Q; now right). reflexivity.
Qed.
Lemma resolve_jobs_here m xs : (forall x, In x (until_none xs) -> x < m KJobs) -> resolve_jobs (here m KJobs) xs = Some xs.
Proof.
  induction xs as [|[s|] xs IH]; intros Q; [reflexivity| |reflexivity]. cbn [resolve_jobs until_none] in *.
  rewrite here_nth by (apply (Q s); now left). rewrite IH by (intros; apply Q; now right). reflexivity.
Qed.
Definition there (m : kind -> nat) (c : call) : Prop := forall k n a, In (k, n, a) (borrows c) -> n < m k.
Lemma resolve_here m c : there m c -> resolve (here m) c = Some c.
Proof.
  intros Q. destruct c; cbn [resolve]; try reflexivity;
    try (rewrite here_nth; [reflexivity|eapply Q; cbn; left; reflexivity]).
  - rewrite resolve_items_here; [reflexivity|]. intros [s b] I. apply (Q KStates s Exclusive). cbn. apply in_map_iff. exists (s, b). auto.
  - rewrite resolve_jobs_here; [reflexivity|]. intros s I. apply (Q KJobs s Exclusive). cbn. apply in_map_iff. exists s. auto.
  - rewrite !here_nth; [reflexivity|eapply Q; cbn; right; left; reflexivity|eapply Q; cbn; left; reflexivity].
Qed.

Definition objs_eq {A} (P : nat -> Prop) (l g : list A) : Prop :=
  length l <= length g /\ forall n, P n -> n < length l -> nth_error l n = nth_error g n.
Definition borrowed (c : call) (k : kind) (n : nat) : Prop := exists a, In (k, n, a) (borrows c).
(** Two stores that agree on what a call borrows. *)
Record agree (P : kind -> nat -> Prop) (l g : aworld) : Prop := {
  ag_params : objs_eq (P KParams) (a_params l) (a_params g);
  ag_states : objs_eq (P KStates) (a_states l) (a_states g);
  ag_jobs : objs_eq (P KJobs) (a_jobs l) (a_jobs g);
  ag_pparams : objs_eq (P KPParams) (a_pparams l) (a_pparams g);
  ag_pstates : objs_eq (P KPStates) (a_pstates l) (a_pstates g);
  ag_hashes : objs_eq (P KHashes) (a_hashes l) (a_hashes g) }.
Lemma agree_refl P g : agree P g g.
Proof. constructor; split; auto. Qed.
Lemma names_here {A} P (l g : list A) : objs_eq P l g -> names P (seq 0 (length l)) l g.
Proof.
  intros (L & E). assert (N : forall a b, nth_error (seq 0 (length l)) a = Some b -> b = a /\ a < length l).
  { intros a b H. apply (here_some (fun _ => length l) KParams) in H. exact H. }
  constructor.
  - apply seq_length.
  - intros a b H. destruct (N a b H). lia.
  - apply seq_NoDup.
  - intros a b Pa H. destruct (N a b H) as (-> & ?). auto.
Qed.
Lemma wnames_here P l g : agree P l g -> wnames P (here (objects l)) l g.
Proof. intros []. constructor; now apply names_here. Qed.

Lemma nth_ext_error {A} (l m : list A) : (forall n, nth_error l n = nth_error m n) -> l = m.
Proof.
  revert m. induction l as [|x l IH]; intros [|y m] H; [reflexivity|specialize (H 0); discriminate|specialize (H 0); discriminate|].
  pose proof (H 0) as H0. cbn in H0. injection H0 as <-. f_equal. apply IH. intros n. exact (H (S n)).
Qed.
Lemma commit_exact {A} (P : nat -> Prop) ws (s s' g g' : list A) n n' :
  (forall a, In a ws -> P a /\ a < length s) -> length s <= length g ->
  moved P (seq 0 (length s)) ws s s' g g' n -> moved P (seq 0 (length g)) ws g g' g g' n' ->
  commit ws s s' g = g'.
Proof.
  intros Q L [ML MS MK ME MN] [ML' MS' MK' _ _]. apply nth_ext_error. intros b.
  destruct (Nat.lt_ge_cases b (length g)) as [Lb|Lb].
  - destruct (in_dec Nat.eq_dec b ws) as [I|I].
    + destruct (Q b I) as (Pb & Ls). rewrite commit_written by (auto; lia). apply ME; [exact Pb|].
      exact (here_nth (fun _ => length s) KParams b Ls).
    + rewrite commit_kept by auto. symmetry. now apply MK'.
  - replace b with (length g + (b - length g)) by lia. rewrite commit_new.
    destruct (Nat.lt_ge_cases (b - length g) n) as [Ln|Ln].
    + now apply MN.
    + rewrite (proj2 (nth_error_None _ _)) by lia. symmetry. apply nth_error_None. lia.
Qed.

(** A call that has read its objects in [l], when the store is [g] by the time it ends. *)
Lemma end_of_call f dbg c l g : agree (borrowed c) l g -> there (objects l) c ->
  snd (astep f dbg l c) = snd (astep f dbg g c) /\
  acommit c l (fst (astep f dbg l c)) g = fst (astep f dbg g c).
Proof.
  intros A T. assert (QC : accessible (borrowed c) c) by (intros k n a I; exists a; exact I).
  assert (TG : there (objects g) c).
  { intros k n a I. specialize (T k n a I). destruct A as [[] [] [] [] [] []]. destruct k; cbn in *; lia. }
  pose proof (astep_follows f dbg (borrowed c) (here (objects l)) c l g (wnames_here _ _ _ A) QC) as F.
  rewrite (resolve_here _ _ T) in F. destruct F as (EO & n & M). split; [exact EO|].
  pose proof (astep_follows f dbg (borrowed c) (here (objects g)) c g g (wnames_here _ _ _ (agree_refl _ _)) QC) as F.
  rewrite (resolve_here _ _ TG) in F. destruct F as (_ & n' & M').
  assert (QW : forall k b, In b (written k c) -> borrowed c k b /\ b < objects l k).
  { intros k b I. apply written_borrowed in I. split; [exists Exclusive; exact I|eapply T; exact I]. }
  destruct (fst (astep f dbg g c)) as [g1 g2 g3 g4 g5 g6]. destruct A, M, M'. cbn in *. unfold acommit. f_equal.
  - eapply commit_exact; eauto; [apply (QW KParams)|now destruct ag_params0].
  - eapply commit_exact; eauto; [apply (QW KStates)|now destruct ag_states0].
  - eapply commit_exact; eauto; [apply (QW KJobs)|now destruct ag_jobs0].
  - eapply commit_exact; eauto; [apply (QW KPParams)|now destruct ag_pparams0].
  - eapply commit_exact; eauto; [apply (QW KPStates)|now destruct ag_pstates0].
  - eapply commit_exact; eauto; [apply (QW KHashes)|now destruct ag_hashes0].
Qed.

(** What the end of a call leaves alone. *)
Lemma objs_eq_moved {A} P ws (l g g' : list A) n : objs_eq P l g -> moved (fun b => In b ws \/ True) (seq 0 (length g)) ws g g' g g' n ->
  (forall b, P b -> ~ In b ws) -> objs_eq P l g'.
Proof.
  intros (L & E) [ML _ MK _ _] Q. split; [lia|]. intros b Pb Lb. rewrite MK by (auto; lia). auto.
Qed.
Lemma agree_after f dbg P l g c : agree P l g -> there (objects g) c -> (forall k b, P k b -> ~ In b (written k c)) ->
  agree P l (fst (astep f dbg g c)).
Proof.
  intros A T Q. pose proof (astep_follows f dbg (fun k b => In b (written k c) \/ True) (here (objects g)) c g g (wnames_here _ _ _ (agree_refl _ _))) as F.
  rewrite (resolve_here _ _ T) in F. destruct F as (_ & n & M); [intros ? ? ? _; now right|]. destruct A, M.
  constructor; eapply objs_eq_moved; eauto.
Qed.

(** ** Looking again *)
Definition alook (k : kind) (n : nat) (now old : aworld) : aworld :=
  match k with
  | KParams => with_a_params (look n (a_params now) (a_params old)) old
  | KStates => with_a_states (look n (a_states now) (a_states old)) old
  | KJobs => with_a_jobs (look n (a_jobs now) (a_jobs old)) old
  | KPParams => with_a_pparams (look n (a_pparams now) (a_pparams old)) old
  | KPStates => with_a_pstates (look n (a_pstates now) (a_pstates old)) old
  | KHashes => with_a_hashes (look n (a_hashes now) (a_hashes old)) old
  end.
Lemma set_len {A} (l : list A) x : forall i, length (set l i x) = length l.
Proof. induction l as [|y l IH]; intros [|i]; cbn; auto. Qed.
Lemma F2_set {A B} (Q : A -> B -> Prop) l m x y : Forall2 Q l m -> Q x y -> forall i, Forall2 Q (set l i x) (set m i y).
Proof. intros F H. induction F; intros [|i]; cbn; constructor; auto. Qed.
Lemma F2_look {A B} (Q : A -> B -> Prop) n w o w' o' : Forall2 Q w w' -> Forall2 Q o o' -> Forall2 Q (look n w o) (look n w' o').
Proof.
  intros FW FO. unfold look. destruct (nth_error w n) as [x|] eqn:E.
  - destruct (nth_error w' n) as [y|] eqn:E'.
    + apply F2_set; [exact FO|]. clear - FW E E'. revert n E E'. induction FW; intros [|n] E E'; cbn in *; try discriminate; [congruence|eauto].
    + exfalso. apply nth_error_None in E'. rewrite <- (F2length _ _ _ FW) in E'. apply nth_error_None in E'. congruence.
  - apply nth_error_None in E. rewrite (F2length _ _ _ FW) in E. apply nth_error_None in E. now rewrite E.
Qed.
Lemma look_R v e k n w o w' o' : R v e w w' -> R v e o o' -> R v e (look_world k n w o) (alook k n w' o').
Proof. intros [] []. destruct k; constructor; cbn; auto; now apply F2_look. Qed.
Lemma look_length {A} n (w o : list A) : length (look n w o) = length o.
Proof. unfold look. destruct (nth_error w n); [apply set_len|reflexivity]. Qed.
Lemma objs_eq_look {A} P n (l g : list A) : objs_eq P l g -> objs_eq P (look n g l) g.
Proof.
  intros (L & E). split; [now rewrite look_length|]. intros b Pb Lb. rewrite look_length in Lb. unfold look.
  destruct (nth_error g n) as [x|] eqn:X; [|auto]. rewrite nth_set. destruct (Nat.eqb_spec n b) as [<-|N]; [|auto].
  rewrite E by auto. now rewrite X.
Qed.
Lemma agree_look P k n l g : agree P l g -> agree P (alook k n g l) g.
Proof. intros []. destruct k; constructor; cbn; auto; now apply objs_eq_look. Qed.
Lemma alook_objects k n g l k' : objects (alook k n g l) k' = objects l k'.
Proof. destruct k, k'; cbn; auto; apply look_length. Qed.

(** ** Histories *)
Section Histories.
Variables (v : variant) (e : env).

Record in_ok (g : aworld) (t : target) (old : world) (c : call) : Prop := {
  io_honest : honest t e;
  io_typed : well_typed (fl v) c;
  io_read : exists s, R v e old s /\ agree (borrowed c) s g /\ there (objects s) c }.
Definition plain (x : nat * (target * world * call)) : nat * call := (fst x, snd (snd x)).

Lemma in_call_plain i running : in_call i (map plain running) = option_map snd (in_call i running).
Proof.
  unfold in_call. induction running as [|[j [[t o] c]] r IH]; [reflexivity|]. cbn [map plain fst snd find].
  destruct (Nat.eqb j i); [reflexivity|exact IH].
Qed.
Lemma without_plain i running : map plain (without i running) = without i (map plain running).
Proof.
  unfold without. induction running as [|[j [[t o] c]] r IH]; [reflexivity|]. cbn [map plain fst snd filter].
  destruct (negb (Nat.eqb j i)); cbn [map plain fst snd]; now rewrite IH.
Qed.
Lemma in_call_In {A} i (running : list (nat * A)) x : in_call i running = Some x -> In (i, x) running.
Proof.
  unfold in_call. destruct (find _ running) as [[j y]|] eqn:F; [|discriminate]. intros H. injection H as <-.
  apply find_some in F. destruct F as (I & E). apply Nat.eqb_eq in E. cbn in E. now subst.
Qed.
Lemma in_call_none {A} i (running : list (nat * A)) : in_call i running = None -> ~ In i (map fst running).
Proof.
  unfold in_call. destruct (find _ running) as [y|] eqn:F; [discriminate|]. intros _ I. apply in_map_iff in I. destruct I as ([j y] & E & I).
  apply (find_none _ _ F) in I. cbn in E, I. subst. now rewrite Nat.eqb_refl in I.
Qed.
Lemma without_In {A} i (running : list (nat * A)) j x : In (j, x) (without i running) <-> In (j, x) running /\ j <> i.
Proof.
  unfold without. rewrite filter_In. cbn [fst]. destruct (Nat.eqb_spec j i); cbn; split; intros []; split; auto; congruence.
Qed.
Definition peaceful (running : list (nat * call)) : Prop :=
  forall i j c d, i <> j -> In (i, c) running -> In (j, d) running -> ~ conflict c d.
Lemma conflict_sym c d : conflict c d -> conflict d c.
Proof. intros (k & n & a & b & I & J & O). exists k, n, b, a. tauto. Qed.

Lemma history_ok h : Forall (fun t => honest t e) (machines h) -> Forall (well_typed (fl v)) (made h) ->
  forall w g running, R v e w g -> peaceful (map plain running) ->
  (forall i t old c, In (i, (t, old, c)) running -> in_ok g t old c) ->
  safe_from (fl v) (e_dbg e) g (map plain running) h ->
  run_history_from v e w running h =
  combine (map fst (ended_from (map plain running) h)) (arun (fl v) (e_dbg e) g (map snd (ended_from (map plain running) h))).
Proof.
  induction h as [|[i t c|i k n|i] h IH]; intros HM HC w g running RW PC OK SF; cbn [run_history_from ended_from safe_from] in *.
  - reflexivity.
  - destruct SF as (IC & TH & NC & SF). change (map plain running) with (map plain running) in *.
    cbn in HM, HC. inversion HM; subst. inversion HC; subst.
    apply (IH ltac:(assumption) ltac:(assumption) w g ((i, (t, w, c)) :: running) RW).
    + intros a b x y NE [Ia|Ia] [Ib|Ib].
      * cbn in Ia, Ib. congruence.
      * cbn in Ia. injection Ia as <- <-. exact (NC b y Ib).
      * cbn in Ib. injection Ib as <- <-. intros CF. exact (NC a x Ia (conflict_sym _ _ CF)).
      * exact (PC a b x y NE Ia Ib).
    + intros a t' o' c' [Ia|Ia]; [|eauto]. injection Ia as <- <- <- <-. constructor; auto. exists g. auto using agree_refl.
    + exact SF.
  - assert (MP : forall r : list (nat * (target * world * call)), map plain (map (fun '(j, (t, old, c)) => if Nat.eqb j i then (j, (t, look_world k n w old, c)) else (j, (t, old, c))) r) = map plain r).
    { intros r. induction r as [|[j [[t o] c]] r IHr]; [reflexivity|]. cbn [map]. rewrite IHr. destruct (Nat.eqb j i); reflexivity. }
    rewrite <- (MP running). apply IH; auto; try now rewrite MP.
    intros a t' o' c' Ia. apply in_map_iff in Ia. destruct Ia as ([j [[t o] c]] & E & Ij). specialize (OK j t o c Ij).
    destruct (Nat.eqb j i); injection E as <- <- <- <-; [|exact OK]. destruct OK as [OH OT (s & RS & AS & TS)]. constructor; auto.
    exists (alook k n g s). split; [now apply look_R|]. split; [now apply agree_look|].
    intros k' n' a' I. rewrite alook_objects. eapply TS; eauto.
  - rewrite in_call_plain in SF |- *. destruct (in_call i running) as [[[t old] c]|] eqn:IC; cbn [option_map snd] in *; [|contradiction].
    apply in_call_In in IC. destruct (OK i t old c IC) as [OH OT (s & RS & AS & TS)].
    pose proof (step_R v e (detect t) old s c (detect_supported _ _ OH) RS OT) as (SO & SR).
    destruct (step v e (detect t) old c) as [new o]. cbn [fst snd] in *.
    destruct (end_of_call (fl v) (e_dbg e) c s g AS TS) as (EO & EW).
    assert (TG : there (objects g) c).
    { intros k n a I. specialize (TS k n a I). destruct AS as [[] [] [] [] [] []]. destruct k; cbn in *; lia. }
    cbn [map combine fst snd arun].
    assert (RN : R v e (commit_world c old new w) (fst (astep (fl v) (e_dbg e) g c))) by (rewrite <- EW; apply commit_R; auto).
    rewrite <- without_plain in SF |- *.
    rewrite (IH HM HC _ (fst (astep (fl v) (e_dbg e) g c)) _ RN).
    + destruct (astep (fl v) (e_dbg e) g c) as [g' o']. cbn [fst snd] in *. cbn [combine]. congruence.
    + intros a b x y NE Ia Ib. rewrite without_plain in Ia, Ib. apply without_In in Ia, Ib. apply (PC a b x y NE); tauto.
    + intros a t' o' c' Ia. apply without_In in Ia. destruct Ia as (Ia & NE). destruct (OK a t' o' c' Ia) as [OH' OT' (s2 & RS2 & AS2 & TS2)].
      constructor; auto. exists s2. split; [exact RS2|]. split; [|exact TS2]. apply agree_after; auto.
      intros k b (acc & Ib) Iw. apply written_borrowed in Iw. apply (PC a i c' c NE).
      * apply in_map_iff. exists (a, (t', o', c')). auto.
      * apply in_map_iff. exists (i, (t, old, c)). auto.
      * exists k, b, acc, Exclusive. auto.
    + exact SF.
Qed.
End Histories.

Theorem histories v e h : Forall (fun t => honest t e) (machines h) -> Forall (well_typed (fl v)) (made h) ->
  safe (fl v) (e_dbg e) h ->
  run_history v e h = combine (map fst (ended h)) (behaviour (fl v) (e_dbg e) (map snd (ended h))).
Proof.
  intros HM HC SF. apply (history_ok v e h HM HC empty_world empty_aworld []); auto using R_empty.
  - intros ? ? ? ? _ [].
  - intros ? ? ? ? [].
Qed.

Lemma ended_from_made {T} (h : list (event T)) : forall running c,
  In c (map snd (ended_from running h)) -> In c (map snd running) \/ In c (made h).
Proof.
  induction h as [|[i t c0|i k n|i] h IH]; intros running c I; cbn [ended_from] in I.
  - destruct I.
  - apply IH in I. cbn in I |- *. tauto.
  - apply IH in I. exact I.
  - change (made (Ends i :: h)) with (made h). destruct (in_call i running) as [d|] eqn:E; [|now apply IH].
    cbn in I. destruct I as [<-|I].
    + left. apply in_map_iff. exists (i, d). split; [reflexivity|]. now apply in_call_In.
    + apply IH in I. destruct I as [I|I]; [|now right]. left. apply in_map_iff in I. destruct I as ([j x] & E' & I).
      apply in_map_iff. exists (j, x). split; [exact E'|]. apply without_In in I. tauto.
Qed.
Lemma ended_made {T} (h : list (event T)) c : In c (map snd (ended h)) -> In c (made h).
Proof. intros I. apply ended_from_made in I. destruct I as [[]|I]. exact I. Qed.
