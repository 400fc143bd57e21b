(** C62: a batch whose iterator uses the library itself and then panics.

    Vocabulary (BurstSpec.v): a [device] is a caller's next(), which may look at
    and change the objects of the program and gives an item, ends or panics;
    [lends] is what the borrow checker demands of it; [drain] calls it until it
    ends or panics, before the batch.  [next_or_panic] is an iterator that does
    things with the library ([deed], Deeds.v) before each item, and last of all
    before it panics.  [update_many_bursting] and [hash_many_bursting]
    (LazyUnwind.v) are the code with next() called when the code calls it;
    [handled], [exclusive], [lanes], [panics_after], [ends_after] are those of
    C41 (Crashes.v). *)
From Coq Require Import Permutation.
From Coq Require Import Arith NArith List Bool Lia.
From Verif Require Import Base Guts KernelSpec Simd Impl Sched Lib Many Par Lazy LazySpec Unwind Crashes BurstSpec LazyUnwind.
From Verif Require Import SchedProof ManyProof LazyProof UnwindProof BurstProof.
From Verif Require Import Spec ApiSpec Machine History Loops Api Runs Deeds BatchProof LazyScript Demo PropMany PropUnwind PropLazy.
Import ListNotations.
Open Scope list_scope.
Open Scope nat_scope.
Local Notation length := List.length.

(** ** Any iterator *)
(** If it panics: as if it had panicked after the same items, having done all that it does beforehand. *)
Theorem C62_update_many (v : variant) (e : env) (S : Type) (next : device S state (list byte))
    (fine : S -> list state -> Prop) (out : S -> list nat) (n : nat) (s s' : S)
    (states states' : list state) (items : list (nat * list byte)) :
  lends next fine out -> fine s states ->
  drain next n s states = Some (items, false, s', states') -> Forall (handled v e) states' ->
  exists left,
    update_many_unwinding v e states' (panics_after items) = Unwound left /\
    update_many_bursting v e n next s states = LUnwound s' left.
Proof.
  intros B F ED H. destruct (drain_nodup _ _ _ B _ _ _ _ _ _ _ F ED) as (ND & _ & RG).
  assert (X : exclusive (length states') items).
  { split; auto. intros r x I. apply RG. apply (in_map fst) in I. exact I. }
  destruct (update_interrupted v e states' items H X) as (fi & left & hurt & _ & EU & _).
  exists left. split; [exact EU|].
  pose proof (update_many_drained v e _ _ _ _ _ _ _ _ _ _ B F ED) as AG.
  unfold tail in AG. rewrite app_nil_r in AG. change (map Some items) with (panics_after items) in AG.
  rewrite EU in AG. apply AG.
Qed.
Print Assumptions C62_update_many.
Theorem C62_hash_many (v : variant) (e : env) (S : Type) (next : device S hash_many_job unit)
    (fine : S -> list hash_many_job -> Prop) (out : S -> list nat) (n : nat) (s s' : S)
    (jobs jobs' : list hash_many_job) (items : list (nat * unit)) :
  lends next fine out -> fine s jobs ->
  drain next n s jobs = Some (items, false, s', jobs') -> Forall (handled_job v e) jobs' ->
  exists left,
    hash_many_unwinding v e jobs' (panics_after items) = Unwound left /\
    hash_many_bursting v e n next s jobs = LUnwound s' left.
Proof.
  intros B F ED H. destruct (drain_nodup _ _ _ B _ _ _ _ _ _ _ F ED) as (ND & _ & RG).
  assert (X : exclusive (length jobs') items).
  { split; auto. intros r x I. apply RG. apply (in_map fst) in I. exact I. }
  destruct (hash_interrupted v e jobs' items H X) as (fi & left & hurt & _ & EU & _).
  exists left. split; [exact EU|].
  pose proof (hash_many_drained v e _ _ _ _ _ _ _ _ _ _ B F ED) as AG.
  unfold tail in AG. rewrite app_nil_r in AG. change (map Some items) with (panics_after items) in AG.
  rewrite EU in AG. apply AG.
Qed.
Print Assumptions C62_hash_many.

(** If it ends: as C60, also for objects that earlier panics have left half way. *)
Theorem C62_update_many_ends (v : variant) (e : env) (S : Type) (next : device S state (list byte))
    (fine : S -> list state -> Prop) (out : S -> list nat) (n : nat) (s s' : S)
    (states states' : list state) (items : list (nat * list byte)) :
  lends next fine out -> fine s states ->
  drain next n s states = Some (items, true, s', states') -> Forall (handled v e) states' ->
  exists finished,
    update_many v e states' (ends_after items) = Ret (finished, 1 + length items) /\
    update_many_bursting v e n next s states = LValue (s', finished, 1 + length items).
Proof.
  intros B F ED H. destruct (drain_nodup _ _ _ B _ _ _ _ _ _ _ F ED) as (ND & _ & RG).
  assert (X : exclusive (length states') items).
  { split; auto. intros r x I. apply RG. apply (in_map fst) in I. exact I. }
  destruct (update_interrupted v e states' items H X) as (fi & left & hurt & EF & _).
  exists fi. split; [exact EF|].
  pose proof (update_many_drained v e _ _ _ _ _ _ _ _ _ _ B F ED) as AG.
  unfold tail in AG. change (map Some items ++ [None]) with (ends_after items) in AG.
  rewrite update_ending, EF in AG by apply ends_has_none. cbn [inside agree] in AG.
  destruct AG as (y & -> & K). unfold Kall in K. subst y. reflexivity.
Qed.
Print Assumptions C62_update_many_ends.
Theorem C62_hash_many_ends (v : variant) (e : env) (S : Type) (next : device S hash_many_job unit)
    (fine : S -> list hash_many_job -> Prop) (out : S -> list nat) (n : nat) (s s' : S)
    (jobs jobs' : list hash_many_job) (items : list (nat * unit)) :
  lends next fine out -> fine s jobs ->
  drain next n s jobs = Some (items, true, s', jobs') -> Forall (handled_job v e) jobs' ->
  exists finished,
    hash_many v e jobs' (ends_after items) = Ret (finished, 1 + length items) /\
    hash_many_bursting v e n next s jobs = LValue (s', finished, 1 + length items).
Proof.
  intros B F ED H. destruct (drain_nodup _ _ _ B _ _ _ _ _ _ _ F ED) as (ND & _ & RG).
  assert (X : exclusive (length jobs') items).
  { split; auto. intros r x I. apply RG. apply (in_map fst) in I. exact I. }
  destruct (hash_interrupted v e jobs' items H X) as (fi & left & hurt & EF & _).
  exists fi. split; [exact EF|].
  pose proof (hash_many_drained v e _ _ _ _ _ _ _ _ _ _ B F ED) as AG.
  unfold tail in AG. change (map Some items ++ [None]) with (ends_after items) in AG.
  rewrite hash_ending, EF in AG by apply ends_has_none. cbn [inside agree] in AG.
  destruct AG as (y & -> & K). unfold Kall in K. subst y. reflexivity.
Qed.
Print Assumptions C62_hash_many_ends.

(** ** Iterators that use the library *)
Lemma lends_of_borrows {C D A O} (perform : D -> list C -> list C * list O) panics
    (fine : writer D A O -> list C -> Prop) (out : writer D A O -> list nat) :
  borrows (next_of_writer perform) fine out -> lends (next_or_panic perform panics) fine out.
Proof.
  intros B. assert (H : forall (w : writer D A O) l w' l' o, next_or_panic perform panics w l = (w', l', o) ->
    exists o' : option (nat * A), next_of_writer perform w l = (w', l', o') /\
      o = match o' with Some item => Gives item | None => if panics then Panics else Ends end).
  { intros w l w' l' o. unfold next_or_panic. destruct (next_of_writer perform w l) as [[w1 l1] o1].
    intros X. injection X as <- <- <-. eauto. }
  constructor.
  - intros w l w' l' o F E. apply H in E as (o' & E & _). apply (stays_fine _ _ _ B _ _ _ _ _ F E).
  - apply (fine_anyway _ _ _ B).
  - intros w l w' l' o r F E I. apply H in E as (o' & E & _). apply (stays_out _ _ _ B _ _ _ _ _ _ F E I).
  - intros w l w' l' r a F E. apply H in E as (o' & E & EO). destruct o' as [[r' a']|].
    + injection EO as <- <-. apply (goes_out _ _ _ B _ _ _ _ _ _ F E).
    + destruct panics; discriminate EO.
  - intros w l w' l' o r F E I. apply H in E as (o' & E & _). apply (untouched _ _ _ B _ _ _ _ _ _ F E I).
  - intros w l w' l' o r c F E I. apply H in E as (o' & E & EO). unfold next_or_panic.
    rewrite (unseen _ _ _ B _ _ _ _ _ r c F E I). rewrite EO. reflexivity.
Qed.
Lemma drain_of_collect {C D A O} (perform : D -> list C -> list C * list O) panics : forall n w l items w' l',
  collect (next_of_writer (A := A) perform) n w l = Some (items, w', l') ->
  drain (next_or_panic perform panics) n w l = Some (items, negb panics, w', l').
Proof.
  induction n as [|n IH]; intros w l items w' l'; cbn [collect drain]; [discriminate|].
  unfold next_or_panic at 1. destruct (next_of_writer perform w l) as [[w1 l1] [p|]].
  - destruct (collect (next_of_writer perform) n w1 l1) as [[[i2 w2] l2]|] eqn:E; [|discriminate].
    intros X. injection X as <- <- <-. rewrite (IH _ _ _ _ _ E). reflexivity.
  - intros X. injection X as <- <- <-. destruct panics; reflexivity.
Qed.

Lemma perform_live v e d states : Forall (live v e) states -> proper e d ->
  (forall r, In r (uses d) -> r < length states) ->
  Forall (live v e) (fst (perform v e d states)) /\ length (fst (perform v e d states)) = length states.
Proof.
  assert (EX : forall (l : list state) i s, Forall (live v e) l -> live v e s ->
    Forall (live v e) (exchange l i s) /\ length (exchange l i s) = length l).
  { intros l i s L LS. rewrite exchange_set, set_length'. split; auto. revert i.
    induction L as [|x l Lx L IH]; intros [|i]; cbn; constructor; auto. }
  intros L P R. assert (G : forall i s, nth_error states i = Some s -> live v e s).
  { intros i s E. rewrite Forall_forall in L. apply L. eapply nth_error_In; eauto. }
  destruct d as [i o|i imp ss|i j|pairs]; cbn [perform].
  - destruct (nth_error states i) as [s|] eqn:E; [|auto].
    pose proof (live_op v e s o (G _ _ E)) as X. destruct (do_op v e s o) as [s' x]. cbn [fst] in *. apply EX; auto.
  - cbn [fst]. apply EX; auto. destruct P. constructor; auto.
  - destruct (nth_error states j) as [s|] eqn:E; [|auto]. cbn [fst]. apply EX; eauto.
  - cbn [proper uses] in *.
    assert (ND : NoDup (map fst (until_none (map Some pairs)))) by (rewrite until_somes; auto).
    assert (RG : forall r x, In (r, x) (until_none (map Some pairs)) -> r < length states).
    { intros r x I. rewrite until_somes in I. apply R. apply (in_map fst) in I. exact I. }
    destruct (update_many_live v e states (map Some pairs) L ND RG) as (st' & E & LN & _). rewrite E. cbn [fst]. split; auto.
    apply Forall_forall. intros s I. apply In_nth_error in I as (i & I). eapply live_many; eauto.
Qed.
Lemma perform_all_live v e : forall ds states, Forall (live v e) states -> Forall (proper e) ds ->
  allowed uses (length states) [] ds -> Forall (live v e) (fst (perform_all (perform v e) ds states)).
Proof.
  induction ds as [|d ds IH]; intros states L P A; cbn [perform_all]; auto.
  inversion P as [|? ? P1 P2]; subst.
  assert (R : forall r, In r (uses d) -> r < length states) by (intros r I; apply (A d r); [left|]; auto).
  destruct (perform_live v e d states L P1 R) as (L1 & LN).
  destruct (perform v e d states) as [st1 x]. cbn [fst] in *.
  assert (X : Forall (live v e) (fst (perform_all (perform v e) ds st1))).
  { apply IH; auto. intros d' r I J. rewrite LN. apply (A d' r); [right|]; auto. }
  destruct (perform_all (perform v e) ds st1) as [st2 y]. exact X.
Qed.
Lemma perform_job_live v e d jobs : Forall (live_job v e) jobs -> job_proper e d ->
  (forall r, In r (job_uses d) -> r < length jobs) ->
  Forall (live_job v e) (fst (perform_job v e d jobs)) /\ length (fst (perform_job v e d jobs)) = length jobs.
Proof.
  intros L P R. destruct d as [i r|i|refs]; cbn [perform_job].
  - destruct (make_job v e r) as [j| | |] eqn:E; auto. cbn [fst]. rewrite exchange_set, set_length'. split; auto.
    assert (LJ : live_job v e j) by (eapply live_job_new; eauto). clear R P. revert i.
    induction L as [|x l Lx L IH]; intros [|i]; cbn; constructor; auto.
  - destruct (nth_error jobs i); auto.
  - cbn [job_proper job_uses] in *.
    assert (UI : until_none (items refs) = map (fun i => (i, tt)) refs).
    { clear. induction refs as [|r refs IH]; cbn; auto. f_equal. exact IH. }
    assert (ND : NoDup (map fst (until_none (items refs)))).
    { rewrite UI, map_map. cbn. rewrite map_id. exact P. }
    assert (RG : forall r x, In (r, x) (until_none (items refs)) -> r < length jobs).
    { intros r x I. rewrite UI in I. apply in_map_iff in I as (q & E & I). injection E as <- _. auto. }
    destruct (hash_many v e jobs (items refs)) as [[jobs' n]| | |] eqn:E; auto. cbn [fst].
    assert (SD : sound (some_job v e) [] jobs).
    { intros i x _ E'. apply live_job_holds. rewrite Forall_forall in L. apply L. eapply nth_error_In; eauto. }
    assert (EP : perform_job v e (Run refs) jobs = (jobs', [])) by (cbn [perform_job]; rewrite E; reflexivity).
    split.
    + apply Forall_forall. intros j I. apply In_nth_error in I as (i & I). eapply live_job_many; eauto.
    + apply (perform_job_ok v e (Run refs) [] jobs jobs' [] P SD); auto.
Qed.
Lemma perform_all_job_live v e : forall ds jobs, Forall (live_job v e) jobs -> Forall (job_proper e) ds ->
  allowed job_uses (length jobs) [] ds -> Forall (live_job v e) (fst (perform_all (perform_job v e) ds jobs)).
Proof.
  induction ds as [|d ds IH]; intros jobs L P A; cbn [perform_all]; auto.
  inversion P as [|? ? P1 P2]; subst.
  assert (R : forall r, In r (job_uses d) -> r < length jobs) by (intros r I; apply (A d r); [left|]; auto).
  destruct (perform_job_live v e d jobs L P1 R) as (L1 & LN).
  destruct (perform_job v e d jobs) as [st1 x]. cbn [fst] in *.
  assert (X : Forall (live_job v e) (fst (perform_all (perform_job v e) ds st1))).
  { apply IH; auto. intros d' r I J. rewrite LN. apply (A d' r); [right|]; auto. }
  destruct (perform_all (perform_job v e) ds st1) as [st2 y]. exact X.
Qed.
Lemma checked_allowed {D A} (uses : D -> list nat) n : forall (td : list (list D * (nat * A))) ae G,
  checked uses n G td ae -> allowed uses n [] (all_deeds td ae).
Proof.
  assert (W : forall G ds, allowed uses n G ds -> allowed uses n [] ds) by (intros G ds K d r I J; split; [intros []|apply (K d r); auto]).
  induction td as [|[ds [r a]] td IH]; intros ae G K; cbn [checked] in K.
  - apply (W G). exact K.
  - destruct K as (K1 & _ & _ & K4). unfold all_deeds. cbn [map fst concat]. rewrite <- app_assoc.
    change (concat (map fst td) ++ ae) with (all_deeds td ae).
    intros d q I J. apply in_app_or in I as [I|I]; [apply (W G ds K1 d q); auto|apply (IH _ _ K4 d q); auto].
Qed.

(** The iterator does something before each item, gives the items of [todo], does some last things and panics. *)
Theorem C62_deeds (v : variant) (e : env) (states : list state) (todo : list (list deed * (nat * list byte))) (last : list deed) :
  Forall (live v e) states -> checked uses (length states) [] todo last ->
  Forall (proper e) (all_deeds todo last) ->
  exists states1 shown finished left hurt w,
    perform_all (perform v e) (all_deeds todo last) states = (states1, shown) /\
    update_many v e states1 (ends_after (map snd todo)) = Ret (finished, 1 + length todo) /\
    update_many_bursting v e (1 + length todo) (next_or_panic (perform v e) true) (writing todo last) states =
      LUnwound w left /\ log w = shown /\
    length hurt < lanes v s_imp states1 (map snd todo) /\
    (forall i, ~ In i hurt -> nth_error left i = nth_error finished i) /\
    (forall i, ~ In i (map fst (map snd todo)) -> nth_error left i = nth_error states1 i) /\
    (forall i, In i hurt -> exists x, In (i, x) (map snd todo) /\ blockbytes v < length x).
Proof.
  intros L K P. destruct (perform_all (perform v e) (all_deeds todo last) states) as [states1 shown] eqn:EP.
  assert (P2 : Forall (proper e) last /\ Forall (fun p => Forall (proper e) (fst p)) todo).
  { unfold all_deeds in P. apply Forall_app in P. destruct P as [P1 P2]. split; [exact P2|]. clear -P1.
    induction todo as [|[ds p] todo IH]; constructor; cbn in P1; apply Forall_app in P1; [apply P1|apply IH, P1]. }
  destruct P2 as [P2 P1].
  assert (SD : sound (some_holds v e) [] states).
  { intros i x _ E. apply live_holds. rewrite Forall_forall in L. apply L. eapply nth_error_In; eauto. }
  pose proof (writer_borrows (A := list byte) (perform v e) uses (some_holds v e) (proper e) (perform_ok v e)) as B0.
  pose proof (lends_of_borrows (perform v e) true _ _ B0) as B.
  assert (F : fine uses (some_holds v e) (proper e) (writing todo last : writer deed (list byte) obs) states)
    by (split; [exact SD|split; [exact K|split; auto]]).
  destruct (collect_writer (perform v e) todo last [] [] states states1 shown EP) as (G' & EC).
  pose proof (drain_of_collect (perform v e) true _ _ _ _ _ _ EC) as ED.
  assert (LV := perform_all_live v e (all_deeds todo last) states L P (checked_allowed _ _ _ _ _ K)).
  rewrite EP in LV. cbn [fst] in LV.
  assert (H1 : Forall (handled v e) states1) by (eapply Forall_impl; [|exact LV]; apply live_handled).
  destruct (drain_nodup _ _ _ B _ _ _ _ _ _ _ F ED) as (ND & _ & RG).
  assert (X : exclusive (length states1) (map snd todo)).
  { split; auto. intros r x I. apply RG. apply (in_map fst) in I. exact I. }
  destruct (update_interrupted v e states1 (map snd todo) H1 X) as (fi & left & hurt & EF & EU & _ & LH & T1 & T2 & T3).
  destruct (C62_update_many v e _ _ _ _ _ _ _ _ _ _ B F ED H1) as (left' & EU' & EB).
  rewrite EU in EU'. injection EU' as <-. rewrite map_length in EF.
  exists states1, shown, fi, left, hurt, {| to_do := []; at_end := []; gone := G'; log := [] ++ shown |}.
  split; [reflexivity|]. split; [exact EF|]. split; [exact EB|]. split; [reflexivity|].
  split; [exact LH|]. split; [exact T1|]. split; [exact T2|].
  intros i I. destruct (T3 i I) as (x & s1 & s2 & I2 & BL & _). eauto.
Qed.
Print Assumptions C62_deeds.

Theorem C62_job_deeds (v : variant) (e : env) (jobs : list hash_many_job) (todo : list (list job_deed * (nat * unit))) (last : list job_deed) :
  Forall (live_job v e) jobs -> checked job_uses (length jobs) [] todo last ->
  Forall (job_proper e) (all_deeds todo last) ->
  exists jobs1 shown finished left hurt w,
    perform_all (perform_job v e) (all_deeds todo last) jobs = (jobs1, shown) /\
    hash_many v e jobs1 (ends_after (map snd todo)) = Ret (finished, 1 + length todo) /\
    hash_many_bursting v e (1 + length todo) (next_or_panic (perform_job v e) true) (writing todo last) jobs =
      LUnwound w left /\ log w = shown /\
    length hurt < lanes v hj_imp jobs1 (map snd todo) /\
    (forall i, ~ In i hurt -> nth_error left i = nth_error finished i) /\
    (forall i, ~ In i (map fst (map snd todo)) -> nth_error left i = nth_error jobs1 i) /\
    (forall i, In i hurt -> In i (map fst (map snd todo))).
Proof.
  intros L K P. destruct (perform_all (perform_job v e) (all_deeds todo last) jobs) as [jobs1 shown] eqn:EP.
  assert (P2 : Forall (job_proper e) last /\ Forall (fun p => Forall (job_proper e) (fst p)) todo).
  { unfold all_deeds in P. apply Forall_app in P. destruct P as [P1 P2]. split; [exact P2|]. clear -P1.
    induction todo as [|[ds p] todo IH]; constructor; cbn in P1; apply Forall_app in P1; [apply P1|apply IH, P1]. }
  destruct P2 as [P2 P1].
  assert (SD : sound (some_job v e) [] jobs).
  { intros i x _ E. apply live_job_holds. rewrite Forall_forall in L. apply L. eapply nth_error_In; eauto. }
  pose proof (writer_borrows (A := unit) (perform_job v e) job_uses (some_job v e) (job_proper e) (perform_job_ok v e)) as B0.
  pose proof (lends_of_borrows (perform_job v e) true _ _ B0) as B.
  assert (F : fine job_uses (some_job v e) (job_proper e) (writing todo last : writer job_deed unit obs) jobs)
    by (split; [exact SD|split; [exact K|split; auto]]).
  destruct (collect_writer (perform_job v e) todo last [] [] jobs jobs1 shown EP) as (G' & EC).
  pose proof (drain_of_collect (perform_job v e) true _ _ _ _ _ _ EC) as ED.
  assert (LV := perform_all_job_live v e (all_deeds todo last) jobs L P (checked_allowed _ _ _ _ _ K)).
  rewrite EP in LV. cbn [fst] in LV.
  assert (H1 : Forall (handled_job v e) jobs1) by (eapply Forall_impl; [|exact LV]; apply live_handled_job).
  destruct (drain_nodup _ _ _ B _ _ _ _ _ _ _ F ED) as (ND & _ & RG).
  assert (X : exclusive (length jobs1) (map snd todo)).
  { split; auto. intros r x I. apply RG. apply (in_map fst) in I. exact I. }
  destruct (hash_interrupted v e jobs1 (map snd todo) H1 X) as (fi & left & hurt & EF & EU & _ & LH & T1 & T2 & T3).
  destruct (C62_hash_many v e _ _ _ _ _ _ _ _ _ _ B F ED H1) as (left' & EU' & EB).
  rewrite EU in EU'. injection EU' as <-. rewrite map_length in EF.
  exists jobs1, shown, fi, left, hurt, {| to_do := []; at_end := []; gone := G'; log := [] ++ shown |}.
  split; [reflexivity|]. split; [exact EF|]. split; [exact EB|]. split; [reflexivity|].
  split; [exact LH|]. split; [exact T1|]. split; [exact T2|].
  intros i I. destruct (T3 i I) as (j0 & j & j' & I2 & _). exact I2.
Qed.
Print Assumptions C62_job_deeds.

(** The iterator of C60's example (eight deeds, among them a batch of its own), with a panic at its end. *)
Example C62_example v : exists states1 left w,
  perform_all (perform v (demo_env true)) (all_deeds demo_todo demo_last) (demo_states v) = (states1, log w) /\
  update_many_bursting v (demo_env true) (1 + length demo_todo) (next_or_panic (perform v (demo_env true)) true)
    (writing demo_todo demo_last) (demo_states v) = LUnwound w left /\ length demo_todo = 3.
Proof.
  destruct (C60_example v) as (L & K & P & _).
  destruct (C62_deeds v (demo_env true) (demo_states v) demo_todo demo_last L K P)
    as (s1 & shown & fi & left & hurt & w & E1 & _ & E2 & E3 & _).
  exists s1, left, w. rewrite E3. auto.
Qed.
(** An iterator that obeys [lends], ending or panicking. *)
Example C62_lends_example v e panics : lends (next_or_panic (A := list byte) (perform v e) panics)
  (fine uses (some_holds v e) (proper e)) gone.
Proof. exact (lends_of_borrows _ _ _ _ (writer_borrows _ _ _ _ (perform_ok v e))). Qed.
