(** Iterators that use the library obey the rules of [borrows]. *)
From Coq Require Import String.
From Coq Require Import Arith NArith List Bool Lia.
From Verif Require Import Base Guts Simd Impl Sched Lib Many Par Lazy LazySpec.
From Verif Require Import KernelSpec Loops ApiSpec Machine History Api Deeds ApiProof StateProof ParamsProof Runs HistoryProof SchedProof ManyProof BatchProof LazyProof.
Import ListNotations.
Open Scope list_scope.
Open Scope nat_scope.
Local Notation length := List.length.

Lemma set_comm {C} : forall (l : list C) i j x y, i <> j -> set (set l i x) j y = set (set l j y) i x.
Proof. induction l as [|z l IH]; intros [|i] [|j] x y H; cbn; auto; try congruence. f_equal. apply IH. congruence. Qed.

Section Generic.
Context {C D A O : Type}.
Variable perform : D -> list C -> list C * list O.
Variable uses : D -> list nat.
Variable good : C -> Prop.
Variable proper : D -> Prop.
(** A deed on good objects leaves good ones, and neither changes nor sees the others. *)
Definition sound (G : list nat) (l : list C) : Prop := forall i x, ~ In i G -> nth_error l i = Some x -> good x.
Hypothesis perform_ok : forall d G l l' x, proper d -> sound G l ->
  (forall r, In r (uses d) -> ~ In r G /\ r < length l) -> perform d l = (l', x) ->
  length l' = length l /\ sound G l' /\
  (forall r, In r G -> nth_error l' r = nth_error l r) /\
  (forall r c, In r G -> perform d (set l r c) = (set l' r c, x)).

Lemma sound_set G l r c : sound G l -> In r G -> sound G (set l r c).
Proof. intros H I i x N E. apply (H i x N). rewrite nth_error_set_ne in E; auto. intros ->. auto. Qed.

Lemma perform_all_ok : forall ds G l l' x, Forall proper ds -> sound G l -> allowed uses (length l) G ds ->
  perform_all perform ds l = (l', x) ->
  length l' = length l /\ sound G l' /\
  (forall r, In r G -> nth_error l' r = nth_error l r) /\
  (forall r c, In r G -> perform_all perform ds (set l r c) = (set l' r c, x)).
Proof.
  induction ds as [|d ds IH]; intros G l l' x P S L; cbn [perform_all].
  - intros X. injection X as <- <-. auto.
  - inversion P as [|? ? P1 P2]; subst. destruct (perform d l) as [l1 x1] eqn:E1.
    destruct (perform_all perform ds l1) as [l2 x2] eqn:E2. intros X. injection X as <- <-.
    destruct (perform_ok d G l l1 x1 P1 S) as (L1 & S1 & N1 & F1); auto.
    { intros r I. apply (L d r); cbn; auto. }
    destruct (IH G l1 l2 x2 P2 S1) as (L2 & S2 & N2 & F2); auto.
    { intros d' r I J. rewrite L1. apply (L d' r); cbn; auto. }
    split; [congruence|]. split; [auto|]. split; [intros r I; rewrite N2, N1; auto|].
    intros r c I. rewrite (F1 r c I), (F2 r c I). reflexivity.
Qed.

Definition fine (w : writer D A O) (l : list C) : Prop :=
  sound (gone w) l /\ checked uses (length l) (gone w) (to_do w) (at_end w) /\
  Forall (fun p => Forall proper (fst p)) (to_do w) /\ Forall proper (at_end w).

Lemma writer_borrows : borrows (next_of_writer perform) fine gone.
Proof.
  assert (H : forall w l w' l' o, fine w l -> next_of_writer perform w l = (w', l', o) ->
    fine w' l' /\ (forall r, In r (gone w) -> In r (gone w')) /\
    match o with Some (r, a) => ~ In r (gone w) /\ In r (gone w') /\ r < length l' | None => True end /\
    (forall r, In r (gone w) -> nth_error l' r = nth_error l r) /\
    (forall r c, In r (gone w) -> next_of_writer perform w (set l r c) = (w', set l' r c, o))).
  { intros [td ae G lg] l w' l' o (S & K & P1 & P2). cbn [to_do at_end gone log] in *. unfold next_of_writer.
    cbn [to_do at_end gone log]. destruct td as [|[ds [r0 a0]] rest].
    - destruct (perform_all perform ae l) as [l1 x] eqn:E. intros X. injection X as <- <- <-.
      destruct (perform_all_ok ae G l l1 x P2 S K E) as (L1 & S1 & N1 & F1). cbn [gone].
      split; [|split; [auto|split; [auto|split; [auto|intros r c I; rewrite (F1 r c I); reflexivity]]]].
      split; [auto|]. split; [intros d r []|]. split; constructor.
    - destruct (perform_all perform ds l) as [l1 x] eqn:E. intros X. injection X as <- <- <-.
      cbn [checked] in K. destruct K as (K1 & K2 & K3 & K4). inversion P1 as [|? ? Q1 Q2]; subst. cbn [fst] in Q1.
      destruct (perform_all_ok ds G l l1 x Q1 S K1 E) as (L1 & S1 & N1 & F1). cbn [gone].
      split; [|split; [|split; [|split; [auto|intros r c I; rewrite (F1 r c I); reflexivity]]]].
      + split; [|split; [|split; auto]]; cbn [gone to_do at_end].
        * intros i y N. apply S1. intros X. apply N. right. auto.
        * rewrite L1. auto.
      + intros r I. right. auto.
      + split; [auto|]. split; [left; auto|]. rewrite L1. auto. }
  constructor.
  - intros w l w' l' o F E. apply (H w l w' l' o F E).
  - intros w l r c (S & K & P1 & P2) I. split; [|split; [|auto]].
    + rewrite exchange_set. apply sound_set; auto.
    + rewrite exchange_set, set_length'. auto.
  - intros w l w' l' o r F E I. apply (H w l w' l' o F E). auto.
  - intros w l w' l' r a F E. apply (H w l w' l' _ F E).
  - intros w l w' l' o r F E I. apply (H w l w' l' o F E). auto.
  - intros w l w' l' o r c F E I. rewrite !exchange_set. apply (H w l w' l' o F E). auto.
Qed.

(** Collecting such an iterator. *)
Lemma perform_all_app ds1 : forall ds2 l, perform_all perform (ds1 ++ ds2) l =
  let '(l1, x) := perform_all perform ds1 l in let '(l2, y) := perform_all perform ds2 l1 in (l2, x ++ y).
Proof.
  induction ds1 as [|d ds1 IH]; intros ds2 l; cbn [app perform_all].
  - destruct (perform_all perform ds2 l); auto.
  - destruct (perform d l) as [l1 x]. rewrite IH. destruct (perform_all perform ds1 l1) as [l2 y].
    destruct (perform_all perform ds2 l2) as [l3 z]. rewrite app_assoc. reflexivity.
Qed.
Lemma collect_writer : forall (td : list (list D * (nat * A))) ae G lg l l' x, perform_all perform (all_deeds td ae) l = (l', x) ->
  exists G', collect (next_of_writer perform) (S (length td)) {| to_do := td; at_end := ae; gone := G; log := lg |} l =
    Some (map snd td, {| to_do := []; at_end := []; gone := G'; log := lg ++ x |}, l').
Proof.
  induction td as [|[ds [r a]] td IH]; intros ae G lg l l' x; cbn [collect].
  - unfold next_of_writer. cbn. intros ->. eauto.
  - unfold all_deeds. cbn [map fst concat]. rewrite <- app_assoc, perform_all_app.
    change (concat (map fst td) ++ ae) with (all_deeds td ae).
    unfold next_of_writer at 1. cbn [to_do at_end gone log].
    destruct (perform_all perform ds l) as [l1 x1]. destruct (perform_all perform (all_deeds td ae) l1) as [l2 x2] eqn:E2.
    intros X. injection X as <- <-. destruct (IH ae (r :: G) (lg ++ x1) l1 l2 x2 E2) as (G' & E).
    cbn [length]. rewrite E. exists G'. rewrite app_assoc. reflexivity.
Qed.
Lemma checked_proper_sound (td : list (list D * (nat * A))) : forall ae G l l' x, sound G l -> checked uses (length l) G td ae ->
  Forall (fun p => Forall proper (fst p)) td -> Forall proper ae ->
  perform_all perform (all_deeds td ae) l = (l', x) -> sound [] l -> sound [] l' /\ length l' = length l.
Proof.
  assert (W : forall n G ds, allowed uses n G ds -> allowed uses n [] ds) by (intros n G ds K d r I J; split; [intros []|apply (K d r); auto]).
  intros ae G l l' x _ K P1 P2 E S0.
  assert (PA : Forall proper (all_deeds td ae)).
  { apply Forall_app. split; auto. clear -P1. induction P1 as [|[ds p] td H P1 IH]; cbn; [constructor|]. apply Forall_app. auto. }
  assert (AA : allowed uses (length l) [] (all_deeds td ae)).
  { clear -K W. revert G K. induction td as [|[ds [r a]] td IH]; intros G K; cbn [checked] in K.
    - exact (W _ _ _ K).
    - destruct K as (K1 & _ & _ & K2). intros d q I. unfold all_deeds in I. cbn in I. rewrite <- app_assoc, in_app_iff in I.
      destruct I as [I|I]; [apply (W _ _ _ K1 d q I)|apply (IH _ K2 d q I)]. }
  destruct (perform_all_ok _ [] l l' x PA S0 AA E) as (L & S & _). auto.
Qed.
End Generic.

(** ** States *)
Lemma nth_set {C} (l : list C) i j x : nth_error (set l i x) j =
  if Nat.eqb i j then (if Nat.ltb i (length l) then Some x else None) else nth_error l j.
Proof.
  destruct (Nat.eqb_spec i j) as [->|N]; [|apply nth_error_set_ne; auto].
  destruct (Nat.ltb_spec j (length l)) as [L|L]; [apply nth_error_set_eq; auto|].
  apply nth_error_None. rewrite set_length'. exact L.
Qed.

Lemma deed_one {C} (good : C -> Prop) G (l : list C) i x : (forall j y, ~ In j G -> nth_error l j = Some y -> good y) -> ~ In i G -> good x ->
  length (set l i x) = length l /\ sound good G (set l i x) /\
  (forall r, In r G -> nth_error (set l i x) r = nth_error l r) /\
  (forall r c, In r G -> set (set l r c) i x = set (set l i x) r c).
Proof.
  intros S N GX. split; [apply set_length'|]. split; [|split].
  - intros j y NJ. rewrite nth_set. destruct (Nat.eqb_spec i j) as [->|NE]; [|apply S; auto].
    destruct (Nat.ltb j (length l)); [intros X; injection X as <-; auto|discriminate].
  - intros r I. apply nth_error_set_ne. intros ->. auto.
  - intros r c I. apply set_comm. intros ->. auto.
Qed.

Lemma perform_ok v e : forall d G l l' x, proper e d -> sound (some_holds v e) G l ->
  (forall r, In r (uses d) -> ~ In r G /\ r < length l) -> perform v e d l = (l', x) ->
  length l' = length l /\ sound (some_holds v e) G l' /\
  (forall r, In r G -> nth_error l' r = nth_error l r) /\
  (forall r c, In r G -> perform v e d (set l r c) = (set l' r c, x)).
Proof.
  intros d G l l' x P S U. destruct d as [i o|i imp ss|i j|pairs]; cbn [perform]. rewrite ?exchange_set.
  - destruct (U i ltac:(left; auto)) as [N L]. destruct (nth_error l i) as [s|] eqn:E; [|apply nth_error_None in E; lia].
    destruct (S i s N E) as (c0 & msg & Hh). destruct (do_op_holds _ _ _ _ _ o Hh) as (s' & E' & H').
    rewrite E'. intros X. injection X as <- <-.
    destruct (deed_one (some_holds v e) G l i s' S N ltac:(eexists _, _; exact H')) as (D1 & D2 & D3 & D4).
    rewrite ?exchange_set. split; [auto|]. split; [auto|]. split; [auto|]. intros r c I.
    rewrite nth_error_set_ne by (intros ->; auto). rewrite E, E'. rewrite exchange_set, (D4 r c I). reflexivity.
  - destruct (U i ltac:(left; auto)) as [N L]. intros X. injection X as <- <-. destruct P as [P1 P2].
    destruct (deed_one (some_holds v e) G l i (to_state v (build v imp ss)) S N ltac:(eexists _, _; apply new_holds; auto)) as (D1 & D2 & D3 & D4).
    rewrite ?exchange_set. split; [auto|]. split; [auto|]. split; [auto|]. intros r c I. rewrite ?exchange_set, (D4 r c I). reflexivity.
  - destruct (U i ltac:(left; auto)) as [N L]. destruct (U j ltac:(right; left; auto)) as [NJ LJ].
    destruct (nth_error l j) as [s|] eqn:E; [|apply nth_error_None in E; lia].
    intros X. injection X as <- <-. destruct (deed_one (some_holds v e) G l i s S N (S j s NJ E)) as (D1 & D2 & D3 & D4).
    rewrite ?exchange_set. split; [auto|]. split; [auto|]. split; [auto|]. intros r c I.
    rewrite nth_error_set_ne by (intros ->; auto). rewrite E, exchange_set, (D4 r c I). reflexivity.
  - assert (RD : forall l0, (forall r a, In (r, a) pairs -> nth_error l0 r = nth_error l r) -> update_ready v e l0 (upto_none (map Some pairs))).
    { intros l0 EQ. rewrite upto_none_somes. split; [exact P|]. intros r a I. rewrite (EQ r a I).
      destruct (U r) as [N L]; [cbn; apply (in_map fst) in I; exact I|].
      destruct (nth_error l r) as [s|] eqn:E; [|apply nth_error_None in E; lia].
      destruct (S r s N E) as (c0 & msg & Hh). eauto 6. }
    destruct (update_many_exact v e l (map Some pairs) (RD l ltac:(auto))) as (st1 & E1 & T1). rewrite E1.
    destruct (update_many_spec v e l (map Some pairs)) as (st2 & E2 & L2 & O2 & I2); [apply (RD l ltac:(auto))..|].
    rewrite E1 in E2. injection E2 as <-. intros X. injection X as <- <-. rewrite upto_none_somes in *.
    assert (NG : forall r, In r G -> ~ In r (map fst pairs)) by (intros r I J; apply (U r J); auto).
    split; [auto|]. split; [|split].
    + intros i y N E. destruct (in_dec Nat.eq_dec i (map fst pairs)) as [I|I].
      * apply in_map_iff in I. destruct I as ([q a] & Q & I). cbn in Q. subst q.
        destruct (RD l ltac:(auto)) as [_ R]. destruct (R i a I) as (s & c0 & msg & Hs & Hh).
        destruct (I2 i a s c0 msg I Hs Hh) as (s' & Hs' & Hh' & _). rewrite E in Hs'. injection Hs' as <-. eexists _, _. exact Hh'.
      * rewrite (O2 i I) in E. apply (S i y N E).
    + intros r I. apply O2. auto.
    + intros r c I.
      destruct (update_many_exact v e (set l r c) (map Some pairs)) as (st3 & E3 & T3).
      { rewrite upto_none_somes. apply RD. intros q a J. apply nth_error_set_ne. intros ->. apply (NG q I). apply (in_map fst) in J. exact J. }
      rewrite E3. rewrite upto_none_somes in *. f_equal. apply nth_error_ext. intros q. rewrite T3, nth_set.
      unfold update_result, target_of. destruct (Nat.eqb_spec r q) as [->|NE].
      * rewrite find_ref_none by auto. rewrite nth_set, Nat.eqb_refl, L2. reflexivity.
      * rewrite T1. unfold update_result, target_of. rewrite nth_error_set_ne by auto. reflexivity.
Qed.

(** ** HashManyJobs *)
Lemma upto_items refs : upto_none (items refs) = map (fun i => (i, tt)) refs.
Proof. induction refs as [|i refs IH]; cbn; auto. f_equal. exact IH. Qed.
Lemma items_somes refs : items refs = map Some (map (fun i => (i, tt)) refs).
Proof. unfold items. rewrite map_map. reflexivity. Qed.
Lemma fst_items refs : map fst (map (fun i : nat => (i, tt)) refs) = refs.
Proof. rewrite map_map. cbn. apply map_id. Qed.

Lemma perform_job_ok v e : forall d G l l' x, job_proper e d -> sound (some_job v e) G l ->
  (forall r, In r (job_uses d) -> ~ In r G /\ r < length l) -> perform_job v e d l = (l', x) ->
  length l' = length l /\ sound (some_job v e) G l' /\
  (forall r, In r G -> nth_error l' r = nth_error l r) /\
  (forall r c, In r G -> perform_job v e d (set l r c) = (set l' r c, x)).
Proof.
  intros d G l l' x P S U. destruct d as [i q|i|refs]; cbn [perform_job]. rewrite ?exchange_set.
  - destruct (U i ltac:(left; auto)) as [N L].
    destruct (make_job v e q) as [j| | |] eqn:E.
    2-4: destruct q as [[imp ss] msg]; destruct P as [P1 P2]; cbn [make_job] in E; rewrite build_spec in E;
      destruct (job_new_spec v e imp (ApiSpec.configure (fl v) ss (ApiSpec.default_config (fl v))) msg) as (j1 & EJ & _);
      [apply build_wf; auto|auto|congruence].
    intros X. injection X as <- <-.
    destruct (deed_one (some_job v e) G l i j S N ltac:(apply live_job_holds; eapply live_job_new; eauto)) as (D1 & D2 & D3 & D4).
    rewrite ?exchange_set. split; [auto|]. split; [auto|]. split; [auto|]. intros r c I. rewrite ?exchange_set, (D4 r c I). reflexivity.
  - destruct (U i ltac:(left; auto)) as [N L]. destruct (nth_error l i) as [j|] eqn:E; [|apply nth_error_None in E; lia].
    intros X. injection X as <- <-. split; [auto|]. split; [auto|]. split; [auto|]. intros r c I.
    rewrite nth_error_set_ne by (intros ->; auto). rewrite E. reflexivity.
  - assert (RD : forall l0, (forall r, In r refs -> nth_error l0 r = nth_error l r) -> hash_ready v e l0 (upto_none (items refs))).
    { intros l0 EQ. rewrite upto_items. split; [rewrite fst_items; exact P|]. intros r a I.
      apply (in_map fst) in I. rewrite fst_items in I. cbn [fst] in I. rewrite (EQ r I). destruct (U r I) as [N L].
      destruct (nth_error l r) as [s|] eqn:E; [|apply nth_error_None in E; lia].
      destruct (S r s N E) as (c0 & msg & Hh). eauto 6. }
    destruct (hash_many_exact v e l (items refs) (RD l ltac:(auto))) as (st1 & E1 & T1). rewrite E1.
    destruct (hash_many_spec v e l (items refs)) as (st2 & E2 & L2 & O2 & I2); [apply (RD l ltac:(auto))..|].
    rewrite E1 in E2. injection E2 as <-. intros X. injection X as <- <-. rewrite upto_items in *. rewrite fst_items in *.
    assert (NG : forall r, In r G -> ~ In r refs) by (intros r I J; apply (U r J); auto).
    split; [auto|]. split; [|split].
    + intros i y N E. destruct (in_dec Nat.eq_dec i refs) as [I|I].
      * assert (I' : In (i, tt) (map (fun i => (i, tt)) refs)) by (apply in_map_iff; eauto).
        destruct (RD l ltac:(auto)) as [_ R]. destruct (R i tt I') as (s & c0 & msg & Hs & Hh).
        destruct (I2 i tt s c0 msg I' Hs Hh) as (s' & Hs' & Hh' & _). rewrite E in Hs'. injection Hs' as <-. eexists _, _. right. exact Hh'.
      * rewrite (O2 i I) in E. apply (S i y N E).
    + intros r I. apply O2. auto.
    + intros r c I.
      destruct (hash_many_exact v e (set l r c) (items refs)) as (st3 & E3 & T3).
      { rewrite upto_items. apply RD. intros q J. apply nth_error_set_ne. intros ->. apply (NG q I J). }
      rewrite E3. rewrite upto_items in *. f_equal. apply nth_error_ext. intros q. rewrite T3, nth_set.
      unfold hash_result, target_of. destruct (Nat.eqb_spec r q) as [->|NE].
      * rewrite find_ref_none by (rewrite fst_items; auto). rewrite nth_set, Nat.eqb_refl, L2. reflexivity.
      * rewrite T1. unfold hash_result, target_of. rewrite nth_error_set_ne by auto. reflexivity.
Qed.
