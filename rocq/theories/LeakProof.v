(** Two runs whose secrets differ have the same events: key bytes, message bytes
    and the chaining words do not reach a jump, an address or a divisor. *)
From Coq Require Import String Ascii.
From Coq Require Import ZArith Arith NArith List Bool Lia.
From Verif Require Import Base Guts Portable Intrinsics Avx2b Sse41s Simd Impl Sched Lib Many Par.
From Verif Require Import Spec ApiSpec Machine Views LeakSpec Api Leak.
Import ListNotations.
Open Scope list_scope.
Open Scope N_scope.
Local Notation length := List.length.

Definition orel {A B} (R : A -> B -> Prop) (x : outcome A) (y : outcome B) : Prop :=
  match x, y with
  | Ret a, Ret b => R a b
  | Panic, Panic | UB, UB | Diverge, Diverge => True
  | _, _ => False
  end.
(** Same events, and results that are related. *)
Definition same {A B} (R : A -> B -> Prop) (x : L A) (y : L B) : Prop := fst x = fst y /\ orel R (snd x) (snd y).
Definition len {A B} (l : list A) (l' : list B) : Prop := length l = length l'.
Definition any {A B} (_ : A) (_ : B) : Prop := True.

Lemma same_bind {A A' B B'} (R : A -> A' -> Prop) (Q : B -> B' -> Prop) x y f g :
  same R x y -> (forall a b, R a b -> same Q (f a) (g b)) -> same Q (lbind x f) (lbind y g).
Proof.
  intros [E O] H. unfold lbind. destruct (snd x), (snd y); cbn [orel] in O; try contradiction;
    try (split; cbn [fst snd orel]; auto; fail).
  destruct (H _ _ O) as [E' O']. split; cbn [fst snd]; [congruence|assumption].
Qed.
Lemma same_tell {A B} (R : A -> B -> Prop) t t' x y : t = t' -> same R x y -> same R (tell t x) (tell t' y).
Proof. intros <- [E O]. split; cbn [tell fst snd]; congruence. Qed.
Lemma same_emit {A B} (R : A -> B -> Prop) t t' x y : t = t' -> orel R x y -> same R (emit t x) (emit t' y).
Proof. intros <- O. split; [reflexivity|exact O]. Qed.
Lemma same_ret {A B} (R : A -> B -> Prop) a b : R a b -> same R (ret a) (ret b).
Proof. intros H. split; [reflexivity|exact H]. Qed.
Lemma same_branch {A B} (R : A -> B -> Prop) c c' x y x' y' : c = c' -> same R x x' -> same R y y' ->
  same R (branch c x y) (branch c' x' y').
Proof. intros <- H H'. unfold branch. apply same_tell; [reflexivity|]. destruct c; assumption. Qed.
Lemma same_weak {A B} (R Q : A -> B -> Prop) x y : same R x y -> (forall a b, R a b -> Q a b) -> same Q x y.
Proof. intros [E O] H. split; [exact E|]. destruct (snd x), (snd y); cbn [orel] in *; auto. Qed.
Lemma same_refl {A} (R : A -> A -> Prop) (x : L A) : (forall a, R a a) -> same R x x.
Proof. intros H. split; [reflexivity|]. destruct (snd x); cbn [orel]; auto. Qed.
Lemma same_eq {A} (x y : L A) : x = y -> same eq x y.
Proof. intros <-. apply same_refl. reflexivity. Qed.

(** Primitives *)
Lemma slice_same {A B} (l : list A) (l' : list B) a b : len l l' -> same len (slice_lk l a b) (slice_lk l' a b).
Proof.
  unfold len. intros H. unfold slice_lk, slice. rewrite H. apply same_emit; [reflexivity|].
  destruct (Nat.leb a b && Nat.leb b (length l')); [|exact I]. cbn [orel]. unfold len.
  rewrite !firstn_length, !skipn_length, H. reflexivity.
Qed.
Lemma slice_from_same {A B} (l : list A) (l' : list B) a : len l l' -> same len (slice_from_lk l a) (slice_from_lk l' a).
Proof.
  unfold len. intros H. unfold slice_from_lk, slice_from. rewrite H. apply same_emit; [reflexivity|].
  destruct (Nat.leb a (length l')); [|exact I]. cbn [orel]. unfold len. rewrite !skipn_length, H. reflexivity.
Qed.
Lemma raw_read_same {A B} (l : list A) (l' : list B) a n : len l l' -> same len (raw_read_lk l a n) (raw_read_lk l' a n).
Proof.
  unfold len. intros H. unfold raw_read_lk, raw_read. rewrite H. apply same_emit; [reflexivity|].
  destruct (Nat.leb (a + n) (length l')); [|exact I]. cbn [orel]. unfold len.
  rewrite !firstn_length, !skipn_length, H. reflexivity.
Qed.
Lemma copy_into_same {A B} (d : list A) (d' : list B) a s s' : len d d' -> len s s' ->
  same len (copy_into_lk d a s) (copy_into_lk d' a s').
Proof.
  unfold len. intros H H'. unfold copy_into_lk, copy_into. rewrite H, H'. apply same_emit; [reflexivity|].
  destruct (Nat.leb (a + length s') (length d')); [|exact I]. cbn [orel]. unfold len.
  rewrite !app_length, !firstn_length, !skipn_length, H, H'. reflexivity.
Qed.
Lemma is_empty_len {A B} (l : list A) (l' : list B) : len l l' -> is_empty l = is_empty l'.
Proof. unfold len. destruct l, l'; cbn; intros; congruence. Qed.
Lemma mapM_same {A A' B B'} (R : A -> A' -> Prop) (Q : B -> B' -> Prop) f g l l' :
  Forall2 R l l' -> (forall x y, R x y -> same Q (f x) (g y)) -> same (Forall2 Q) (mapM_lk f l) (mapM_lk g l').
Proof.
  intros H Hf. induction H; cbn [mapM_lk].
  - apply same_emit; [reflexivity|constructor].
  - apply same_tell; [reflexivity|]. eapply same_bind; [apply Hf; eassumption|]. intros a b Hab.
    eapply same_bind; [exact IHForall2|]. intros; apply same_ret. constructor; assumption.
Qed.
Lemma mapM_same_seq {B B'} (Q : B -> B' -> Prop) f g (l : list nat) : (forall x, same Q (f x) (g x)) ->
  same (Forall2 Q) (mapM_lk f l) (mapM_lk g l).
Proof.
  intros H. apply (mapM_same eq).
  - induction l; constructor; auto.
  - intros x y <-. apply H.
Qed.
Lemma Forall2_len {A B} (R : A -> B -> Prop) l l' : Forall2 R l l' -> len l l'.
Proof. induction 1; unfold len in *; cbn; congruence. Qed.

Ltac lk_step :=
  match goal with
  | |- same _ (tell _ _) (tell _ _) => apply same_tell; [reflexivity|]
  | |- same _ (ret _) (ret _) => apply same_ret
  | |- same _ (emit _ _) (emit _ _) => apply same_emit; [reflexivity|]
  | |- same _ (branch _ _ _) (branch _ _ _) => apply same_branch; [reflexivity| |]
  end.

(** ** guts.rs and the loops *)
Lemma final_block_same v i i' o b b' s : len i i' -> len b b' ->
  same (fun x y => snd x = snd y) (final_block_lk v i o b s) (final_block_lk v i' o b' s).
Proof.
  intros H Hb. unfold final_block_lk. rewrite H. eapply same_bind; [apply same_eq; reflexivity|]. intros ? c <-.
  eapply same_bind; [apply slice_from_same, H|]. intros x y Hxy. rewrite Hxy. lk_step.
  - eapply same_bind; [apply slice_same, Hxy|]. intros. cbv zeta. lk_step. lk_step. reflexivity.
  - eapply same_bind; [apply copy_into_same; assumption|]. intros. lk_step. reflexivity.
Qed.
Lemma input_debug_asserts_same v dbg i i' f : len i i' ->
  same any (input_debug_asserts_lk v dbg i f) (input_debug_asserts_lk v dbg i' f).
Proof. intros H. unfold input_debug_asserts_lk. rewrite H. apply same_refl. exact (fun _ => I). Qed.

Definition reader_ok (rd : block_reader_lk) : Prop :=
  forall l l' o n, len l l' -> same len (rd l o n) (rd l' o n).
Definition kernel_ok (k : kernel) : Prop := forall b b' w w' c c' lb lb' ln ln', len (k b w c lb ln) (k b' w' c' lb' ln').

Lemma compress1_iter_same v k rd fuel : reader_ok rd -> kernel_ok k ->
  forall i i' fo fb fb' fl fl' flb flb' fln fln' st o c c' w w', len i i' ->
  same len (compress1_iter_lk v k rd fuel i fo fb fl flb fln st o c w)
           (compress1_iter_lk v k rd fuel i' fo fb' fl' flb' fln' st o c' w').
Proof.
  intros Hr Hk. induction fuel as [|fuel IH]; intros; cbn [compress1_iter_lk]; [lk_step; exact I|].
  eapply (same_bind any).
  - lk_step; [lk_step; exact I|]. eapply same_bind; [apply Hr; assumption|]. intros.
    eapply same_bind; [apply same_eq; reflexivity|]. intros. eapply same_bind; [apply same_eq; reflexivity|].
    intros. lk_step. exact I.
  - intros [[[? ?] ?] ?] [[[? ?] ?] ?] _. cbv zeta. lk_step. lk_step; [lk_step; apply Hk|]. apply IH. assumption.
Qed.

Lemma compress1_gen_same v k rd dbg i i' w w' c c' ln fin st : reader_ok rd -> kernel_ok k -> len i i' ->
  same len (compress1_loop_gen_lk v k rd dbg i w c ln fin st) (compress1_loop_gen_lk v k rd dbg i' w' c' ln fin st).
Proof.
  intros Hr Hk H. unfold compress1_loop_gen_lk.
  eapply same_bind; [apply input_debug_asserts_same, H|]. intros _ _ _. rewrite H.
  eapply same_bind; [apply same_eq; reflexivity|]. intros ? x <-.
  eapply same_bind; [apply same_eq; reflexivity|]. intros ? y <-.
  eapply same_bind; [apply final_block_same; [exact H|reflexivity]|]. intros [[? ?] ?] [[? ?] ?] _.
  eapply same_bind; [apply same_eq; reflexivity|]. intros ? f <-.
  eapply same_bind; [apply same_eq; reflexivity|]. intros ? g <-.
  apply compress1_iter_same; assumption.
Qed.

Definition job_like (j j' : job) : Prop := len (j_input j) (j_input j') /\ j_last_node j = j_last_node j'.
(** After a kernel has stored its words there are equally many of them. *)
Definition job_done (j j' : job) : Prop := job_like j j' /\ len (j_words j) (j_words j').

Lemma min_len_same js js' : Forall2 job_like js js' -> same eq (min_len_lk js) (min_len_lk js').
Proof.
  intros H. destruct H as [|j j' js js' [Hj _] H]; cbn [min_len_lk]; [lk_step; exact I|]. lk_step.
  rewrite Hj. generalize (length (j_input j')). induction H as [|k k' ks ks' [Hk _] H IH]; intros m; cbn [min_of_lk].
  - lk_step. reflexivity.
  - lk_step. rewrite Hk. eapply same_bind; [apply same_eq; reflexivity|]. intros ? x <-. apply IH.
Qed.

Lemma compressn_iter_same S fuel : forall is is' fo fbs fbs' fcd fcd' flb flb' fln fln' st o h h' lo lo' hi hi',
  Forall2 len is is' ->
  same (fun x y => snd x = snd y) (compressn_iter_lk S fuel is fo fbs fcd flb fln st o h lo hi)
       (compressn_iter_lk S fuel is' fo fbs' fcd' flb' fln' st o h' lo' hi').
Proof.
  induction fuel as [|fuel IH]; intros; cbn [compressn_iter_lk]; [lk_step; exact I|].
  eapply (same_bind any).
  - lk_step; [lk_step; exact I|]. eapply same_bind.
    + eapply mapM_same; [eassumption|]. intros x y Hxy. apply raw_read_same, Hxy.
    + intros. lk_step. exact I.
  - intros [[[? ?] ?] ?] [[[? ?] ?] ?] _. cbv zeta.
    destruct (add_to_counts S lo hi r), (add_to_counts S lo' hi' r2). lk_step. lk_step; [lk_step; reflexivity|].
    apply IH. assumption.
Qed.

Lemma length_flat_map_const {A B} (f : A -> list B) n l : (forall x, length (f x) = n) ->
  length (flat_map f l) = (length l * n)%nat.
Proof. intros H. induction l; cbn; [reflexivity|]. rewrite app_length, H, IHl. reflexivity. Qed.
Lemma store_length w n r : length (Intrinsics.store_words w n r) = n.
Proof. unfold Intrinsics.store_words. rewrite map_length, seq_length. reflexivity. Qed.
Lemma untranspose_len S h h' i i' : len (untranspose_state_vecs S h i) (untranspose_state_vecs S h' i').
Proof.
  unfold len, untranspose_state_vecs. rewrite !(length_flat_map_const _ (s_degree S)); [reflexivity| |];
    intros; apply store_length.
Qed.

Lemma Forall2_map_l {A B C} (R : C -> B -> Prop) (f : A -> C) l l' :
  Forall2 (fun x y => R (f x) y) l l' -> Forall2 R (map f l) l'.
Proof. induction 1; constructor; auto. Qed.
Lemma Forall2_map2 {A A' B B'} (R : B -> B' -> Prop) (f : A -> B) (g : A' -> B') l l' :
  Forall2 (fun x y => R (f x) (g y)) l l' -> Forall2 R (map f l) (map g l').
Proof. induction 1; constructor; auto. Qed.
Lemma Forall2_weak {A B} (R Q : A -> B -> Prop) l l' : (forall x y, R x y -> Q x y) -> Forall2 R l l' -> Forall2 Q l l'.
Proof. intros H. induction 1; constructor; auto. Qed.
Lemma Forall2_combine {A A' B B'} (R : A -> A' -> Prop) (Q : B -> B' -> Prop) l l' k k' :
  Forall2 R l l' -> Forall2 Q k k' ->
  Forall2 (fun x y => R (fst x) (fst y) /\ Q (snd x) (snd y)) (combine l k) (combine l' k').
Proof.
  intros H. revert k k'. induction H; intros k k' HQ; cbn [combine]; [constructor|].
  destruct HQ; constructor; auto.
Qed.
Lemma Forall2_eq {A} (l l' : list A) : Forall2 eq l l' -> l = l'.
Proof. induction 1; congruence. Qed.
Lemma Forall2_refl {A} (R : A -> A -> Prop) l : (forall x, R x x) -> Forall2 R l l.
Proof. intros H. induction l; constructor; auto. Qed.

Lemma compressn_same S dbg js js' fin st : Forall2 job_like js js' ->
  same (Forall2 job_done) (compressn_loop_lk S dbg js fin st) (compressn_loop_lk S dbg js' fin st).
Proof.
  intros H. unfold compressn_loop_lk. cbv zeta.
  eapply (same_bind any).
  { eapply same_weak; [|intros; exact I]. eapply mapM_same; [exact H|]. intros x y [Hxy _].
    apply input_debug_asserts_same, Hxy. }
  intros _ _ _. destruct (load_counts S js), (load_counts S js').
  eapply same_bind; [lk_step; apply min_len_same, H|]. intros ? ml <-.
  eapply same_bind; [apply same_eq; reflexivity|]. intros ? fo1 <-.
  eapply same_bind; [apply same_eq; reflexivity|]. intros ? fo <-.
  eapply same_bind.
  { eapply mapM_same; [exact H|]. intros x y [Hxy _]. apply final_block_same; [exact Hxy|reflexivity]. }
  intros f f' Hf.
  assert (E1 : map snd f = map snd f') by (apply Forall2_eq, Forall2_map2; exact Hf).
  assert (E2 : map (fun p => snd (fst p) && j_last_node (snd p)) (combine f js) =
               map (fun p => snd (fst p) && j_last_node (snd p)) (combine f' js')).
  { apply Forall2_eq, Forall2_map2. eapply Forall2_weak; [|exact (Forall2_combine _ _ _ _ _ _ Hf H)].
    cbn beta. intros x y [E [_ E']]. rewrite E, E'. reflexivity. }
  eapply (same_bind any).
  { lk_step; [|lk_step; exact I]. rewrite E1, E2. lk_step. lk_step. exact I. }
  intros [flb fln] [flb' fln'] _.
  eapply same_bind.
  { apply compressn_iter_same. apply Forall2_map2. eapply Forall2_weak; [|exact H]. intros x y [Hxy _]. exact Hxy. }
  intros [[[h lo] hi] o] [[[h' lo'] hi'] o'] E. cbn [snd] in E. subst o'.
  lk_step. eapply mapM_same.
  - apply Forall2_combine; [|exact H]. rewrite (Forall2_len _ _ _ H). apply (Forall2_refl eq). reflexivity.
  - intros [i j] [i' j'] [Hi [Hj Hl]]. cbn [fst snd] in *. rewrite Hj.
    eapply same_bind; [apply same_eq; reflexivity|]. intros ? c <-.
    eapply same_bind; [apply slice_from_same, Hj|]. intros x y Hxy. lk_step.
    split; [split; cbn [j_input j_last_node]; assumption|]. cbn [j_words]. apply untranspose_len.
Qed.

Lemma raw_reader_ok : reader_ok raw_reader_lk.
Proof. intros l l' o n H. apply raw_read_same, H. Qed.
Lemma array_reader_ok : reader_ok array_ref_reader_lk.
Proof. intros l l' o n H. apply slice_same, H. Qed.
Lemma portable_ok v : kernel_ok (Portable.compress_block v).
Proof. intros b b' w w' c c' lb lb' ln ln'. unfold len, Portable.compress_block. rewrite !map_length. reflexivity. Qed.
Lemma avx2_ok : kernel_ok Avx2b.compress_block.
Proof.
  assert (H : forall b w c lb ln, length (Avx2b.compress_block b w c lb ln) = 8%nat).
  { intros. unfold Avx2b.compress_block. cbv zeta. destruct (Avx2b.round12 _ _) as [[[? ?] ?] ?]. rewrite app_length, !store_length. reflexivity. }
  intros b b' w w' c c' lb lb' ln ln'. unfold len. rewrite !H. reflexivity.
Qed.
Lemma sse41_ok : kernel_ok Sse41s.compress_block.
Proof.
  assert (H : forall b w c lb ln, length (Sse41s.compress_block b w c lb ln) = 8%nat).
  { intros. unfold Sse41s.compress_block. cbv zeta. destruct (Sse41s.round10 _ _) as [[[? ?] ?] ?]. rewrite app_length, !store_length. reflexivity. }
  intros b b' w w' c c' lb lb' ln ln'. unfold len. rewrite !H. reflexivity.
Qed.
#[global] Hint Resolve raw_reader_ok array_reader_ok portable_ok avx2_ok sse41_ok : leak.

Lemma target_feature_same {A B} (R : A -> B -> Prop) b x y : same R x y ->
  same R (target_feature_lk b x) (target_feature_lk b y).
Proof. intros H. destruct b; [exact H|]. split; reflexivity || exact I. Qed.
Lemma compress1_same v e imp i i' w w' c c' ln fin st : len i i' ->
  same len (compress1_loop_lk v e imp i w c ln fin st) (compress1_loop_lk v e imp i' w' c' ln fin st).
Proof.
  intros H. unfold compress1_loop_lk. lk_step.
  destruct v, imp; try apply target_feature_same; apply compress1_gen_same; auto with leak.
Qed.
Lemma narrow_same v e imp js js' fin st : Forall2 job_like js js' ->
  same (Forall2 job_done) (compress_narrow_loop_lk v e imp js fin st) (compress_narrow_loop_lk v e imp js' fin st).
Proof.
  intros H. unfold compress_narrow_loop_lk. lk_step.
  destruct imp; try (apply target_feature_same, compressn_same, H). split; reflexivity || exact I.
Qed.
Lemma wide_same v e imp js js' fin st : Forall2 job_like js js' ->
  same (Forall2 job_done) (compress_wide_loop_lk v e imp js fin st) (compress_wide_loop_lk v e imp js' fin st).
Proof.
  intros H. unfold compress_wide_loop_lk. lk_step.
  destruct imp; try (apply target_feature_same, compressn_same, H); split; reflexivity || exact I.
Qed.

(** ** The scheduler *)
Definition vjob_like (j j' : vjob) : Prop :=
  v_ref j = v_ref j' /\ len (v_input j) (v_input j') /\ v_last_node j = v_last_node j'.
Definition prepared_like (p p' : prepared) : Prop :=
  match p, p' with
  | Some (i, _, l), Some (i', _, l') => len i i' /\ l = l'
  | None, None => True
  | _, _ => False
  end.
Definition opt {A B} (R : A -> B -> Prop) (x : option A) (y : option B) : Prop :=
  match x, y with Some a, Some b => R a b | None, None => True | _, _ => False end.
Definition both {A A' B B'} (R : A -> A' -> Prop) (Q : B -> B' -> Prop) (x : A * B) (y : A' * B') : Prop :=
  R (fst x) (fst y) /\ Q (snd x) (snd y).

Lemma Forall2_nth_error {A B} (R : A -> B -> Prop) l l' i : Forall2 R l l' -> opt R (nth_error l i) (nth_error l' i).
Proof. intros H. revert i. induction H; intros [|i]; cbn; auto. Qed.
Lemma Forall2_set {A B} (R : A -> B -> Prop) l l' i x y : Forall2 R l l' -> R x y -> Forall2 R (set l i x) (set l' i y).
Proof. intros H Hx. revert i. induction H; intros [|i]; cbn; auto using Forall2. Qed.
Lemma Forall2_firstn {A B} (R : A -> B -> Prop) n l l' : Forall2 R l l' -> Forall2 R (firstn n l) (firstn n l').
Proof. intros H. revert n. induction H; intros [|n]; cbn; constructor; auto. Qed.
Lemma Forall2_skipn {A B} (R : A -> B -> Prop) n l l' : Forall2 R l l' -> Forall2 R (skipn n l) (skipn n l').
Proof. intros H. revert n. induction H; intros [|n]; cbn; auto. Qed.

Section Scheduler.
Context {C A : Type}.
Variable get : C -> list N.
Variable put : C -> list N -> C.
Variable prep : A -> C -> L (C * prepared).
Variables (R : C -> C -> Prop) (Q : A -> A -> Prop).
Hypothesis Hput : forall c c' w w', R c c' -> len w w' -> R (put c w) (put c' w').
Hypothesis Hprep : forall a a' c c', Q a a' -> R c c' -> same (both R prepared_like) (prep a c) (prep a' c').
Variables (v : variant) (e : env) (imp : platform) (fin : bool) (st : stride).

Definition item_like : nat * A -> nat * A -> Prop := both eq Q.
Definition iter_like (i i' : iter A) : Prop :=
  opt item_like (i_peeked i) (i_peeked i') /\ Forall2 (opt item_like) (i_src i) (i_src i') /\
  i_done i = i_done i' /\ i_calls i = i_calls i'.
Let cs := Forall2 R.
Let js := Forall2 vjob_like.

Lemma cell_same cells cells' r : cs cells cells' -> same R (cell_lk cells r) (cell_lk cells' r).
Proof.
  intros H. unfold cell_lk, cell. lk_step. pose proof (Forall2_nth_error _ _ _ r H) as E.
  destruct (nth_error cells r), (nth_error cells' r); cbn [opt] in E; try contradiction; cbn [orel]; auto.
Qed.
Lemma start_same cells cells' it it' : cs cells cells' -> item_like it it' ->
  same (both cs (opt vjob_like)) (start_lk prep cells it) (start_lk prep cells' it').
Proof.
  intros H Hi. destruct it as [r a], it' as [r' a'], Hi as [Er Ha]. cbn [fst snd] in *. subst r'. unfold start_lk.
  eapply same_bind; [apply cell_same, H|]. intros c c' Hc.
  eapply same_bind; [apply Hprep; eassumption|]. intros [d p] [d' p'] [Hd Hp]. cbn [fst snd] in *.
  destruct p as [[[i n] l]|], p' as [[[i' n'] l']|]; cbn [prepared_like] in Hp; try contradiction.
  - lk_step. lk_step. split; [apply Forall2_set; assumption|]. destruct Hp. cbn. split; auto.
  - lk_step. lk_step. split; [apply Forall2_set; assumption|]. exact I.
Qed.
Let out := both (both iter_like cs) (opt vjob_like).
Lemma pull_same src src' : Forall2 (opt item_like) src src' -> forall calls cells cells', cs cells cells' ->
  same out (pull_src_lk prep src calls cells) (pull_src_lk prep src' calls cells').
Proof.
  induction 1 as [|x x' src src' Hx Hs IH]; intros calls cells cells' H; cbn [pull_src_lk].
  - lk_step. lk_step. repeat split; cbn; auto.
  - destruct x as [x|], x' as [x'|]; cbn [opt] in Hx; try contradiction.
    + lk_step. eapply same_bind; [apply start_same; eassumption|]. intros [c o] [c' o'] [Hc Ho]. cbn [fst snd] in *.
      destruct o, o'; cbn [opt] in Ho; try contradiction; lk_step; [|apply IH, Hc].
      lk_step. repeat split; cbn; auto; apply Ho.
    + lk_step. lk_step. repeat split; cbn; auto.
Qed.
Lemma next_same it it' cells cells' : iter_like it it' -> cs cells cells' ->
  same out (next_lk prep it cells) (next_lk prep it' cells').
Proof.
  intros Hi H. pose proof Hi as [Hp [Hs [Hd Hc]]]. unfold next_lk. rewrite Hd, Hc. lk_step.
  - lk_step. split; [split; assumption|exact I].
  - destruct (i_peeked it) as [p|], (i_peeked it') as [p'|]; cbn [opt] in Hp; try contradiction; lk_step;
      [|apply pull_same; assumption].
    eapply same_bind; [apply start_same; eassumption|]. intros [c o] [c' o'] [Hc' Ho]. cbn [fst snd] in *.
    destruct o, o'; cbn [opt] in Ho; try contradiction; lk_step; [|apply pull_same; assumption].
    lk_step. repeat split; cbn; auto; apply Ho.
Qed.
Lemma fill_same k : forall it it' cells cells' vec vec', iter_like it it' -> cs cells cells' -> js vec vec' ->
  same (both (both iter_like cs) js) (fill_lk prep v k it cells vec) (fill_lk prep v k it' cells' vec').
Proof.
  induction k as [|k IH]; intros it it' cells cells' vec vec' Hi H Hv; cbn [fill_lk].
  - lk_step. repeat split; cbn; auto; apply Hi.
  - lk_step. eapply same_bind; [apply next_same; eassumption|].
    intros [[i c] o] [[i' c'] o'] [[Hi' Hc] Ho]. cbn [fst snd] in *.
    destruct o as [j|], o' as [j'|]; cbn [opt] in Ho; try contradiction; lk_step.
    + rewrite (Forall2_len _ _ _ Hv). eapply same_bind; [apply same_eq; reflexivity|]. intros _ _ _.
      apply IH; auto. apply Forall2_app; auto.
    + lk_step. split; [split|]; assumption.
Qed.
Lemma pop_at_same vec vec' i : js vec vec' -> js (pop_at vec i) (pop_at vec' i).
Proof.
  intros H. unfold pop_at. apply Forall2_app; [apply Forall2_firstn|apply Forall2_skipn]; exact H.
Qed.
Lemma evict_same n : forall vec vec', js vec vec' ->
  same js (evict_finished_lk e vec n) (evict_finished_lk e vec' n).
Proof.
  induction n as [|n IH]; intros vec vec' H; cbn [evict_finished_lk].
  - lk_step. exact H.
  - lk_step. rewrite (Forall2_len _ _ _ H). eapply same_bind; [apply same_eq; reflexivity|]. intros _ _ _.
    eapply same_bind; [|intros; apply IH; eassumption]. pose proof (Forall2_nth_error _ _ _ n H) as E.
    destruct (nth_error vec n) as [j|], (nth_error vec' n) as [j'|]; cbn [opt] in E; try contradiction.
    + destruct E as [_ [El _]]. rewrite (is_empty_len _ _ El). lk_step; lk_step; [apply pop_at_same|]; exact H.
    + lk_step. exact H.
Qed.
Lemma store_words_same cells cells' r w w' : cs cells cells' -> len w w' ->
  same cs (store_words_lk put cells r w) (store_words_lk put cells' r w').
Proof.
  intros H Hw. unfold store_words_lk. eapply same_bind; [apply cell_same, H|]. intros. lk_step.
  apply Forall2_set; auto.
Qed.
Lemma store_jobs_same l l' : Forall2 (both vjob_like job_done) l l' -> forall cells cells', cs cells cells' ->
  same (both cs js) (store_jobs_lk put cells l) (store_jobs_lk put cells' l').
Proof.
  induction 1 as [|[j k] [j' k'] l l' [Hj [[Hi Hl] Hw]] Hs IH]; intros cells cells' H; cbn [store_jobs_lk].
  - lk_step. split; [exact H|constructor].
  - cbn [fst snd] in *. destruct Hj as [Er [Hv Hn]]. rewrite Er.
    eapply same_bind; [apply store_words_same; eassumption|]. intros c c' Hc.
    eapply same_bind; [apply IH, Hc|]. intros [d vs] [d' vs'] [Hd Hvs]. cbn [fst snd] in *. lk_step.
    split; [exact Hd|]. constructor; [|exact Hvs]. repeat split; cbn; assumption.
Qed.
Lemma run_jobs_same loop n cells cells' vec vec' :
  (forall l l', Forall2 job_like l l' -> same (Forall2 job_done) (loop l) (loop l')) ->
  cs cells cells' -> js vec vec' ->
  same (both cs js) (run_jobs_lk get put loop n cells vec) (run_jobs_lk get put loop n cells' vec').
Proof.
  intros Hl H Hv. unfold run_jobs_lk.
  eapply (same_bind js).
  { unfold slice_lk, slice. rewrite (Forall2_len _ _ _ Hv). lk_step.
    destruct (Nat.leb 0 n && Nat.leb n (length vec')); [|exact I]. cbn [orel]. apply Forall2_firstn, Forall2_skipn, Hv. }
  intros f f' Hf. eapply same_bind.
  { eapply mapM_same; [exact Hf|]. intros j j' [Er [Hi Hn]]. unfold load_job_lk. rewrite Er.
    eapply same_bind; [apply cell_same, H|]. intros c c' Hc. lk_step.
    instantiate (1 := job_like). split; cbn; assumption. }
  intros l l' Hll. eapply same_bind; [apply Hl, Hll|]. intros k k' Hk.
  eapply same_bind; [apply store_jobs_same; [apply Forall2_combine; eassumption|exact H]|].
  intros [c g] [c' g'] [Hc Hg]. lk_step. split; [exact Hc|]. apply Forall2_app; [exact Hg|apply Forall2_skipn, Hv].
Qed.
Lemma batch_same loop n fuel :
  (forall l l', Forall2 job_like l l' -> same (Forall2 job_done) (loop l) (loop l')) ->
  forall it it' cells cells' vec vec', iter_like it it' -> cs cells cells' -> js vec vec' ->
  same (both (both iter_like cs) js) (batch_loop_lk get put prep v e loop n fuel it cells vec)
    (batch_loop_lk get put prep v e loop n fuel it' cells' vec').
Proof.
  intros Hl. induction fuel as [|fuel IH]; intros it it' cells cells' vec vec' Hi H Hv; cbn [batch_loop_lk]; [lk_step; exact I|].
  unfold fill_jobs_vec_lk. rewrite (Forall2_len _ _ _ Hv).
  eapply same_bind; [apply fill_same; eassumption|]. intros [[i c] w] [[i' c'] w'] [[Hi' Hc] Hw]. cbn [fst snd] in *.
  rewrite (Forall2_len _ _ _ Hw). lk_step; [lk_step; split; [split|]; assumption|].
  eapply same_bind; [apply run_jobs_same; eassumption|]. intros [d x] [d' x'] [Hd Hx]. cbn [fst snd] in *.
  eapply same_bind; [apply evict_same, Hx|]. intros. apply IH; assumption.
Qed.
Lemma run_one_same cells cells' j j' : cs cells cells' -> vjob_like j j' ->
  same cs (run_one_lk get put v e imp fin st cells j) (run_one_lk get put v e imp fin st cells' j').
Proof.
  intros H [Er [Hi Hl]]. unfold run_one_lk. rewrite Er, Hl. eapply same_bind; [apply cell_same, H|]. intros.
  eapply same_bind; [apply compress1_same, Hi|]. intros. apply store_words_same; assumption.
Qed.
Lemma run_vec_same vec vec' : js vec vec' -> forall cells cells', cs cells cells' ->
  same cs (run_vec_lk get put v e imp fin st cells vec) (run_vec_lk get put v e imp fin st cells' vec').
Proof.
  induction 1; intros cells cells' Hc; cbn [run_vec_lk]; [lk_step; exact Hc|]. lk_step.
  eapply same_bind; [apply run_one_same; eassumption|]. intros. apply IHForall2. assumption.
Qed.
Lemma run_rest_same fuel : forall it it' cells cells', iter_like it it' -> cs cells cells' ->
  same (both iter_like cs) (run_rest_lk get put prep v e imp fin st fuel it cells)
    (run_rest_lk get put prep v e imp fin st fuel it' cells').
Proof.
  induction fuel as [|fuel IH]; intros it it' cells cells' Hi H; cbn [run_rest_lk]; [lk_step; exact I|].
  eapply same_bind; [apply next_same; eassumption|]. intros [[i c] o] [[i' c'] o'] [[Hi' Hc] Ho]. cbn [fst snd] in *.
  destruct o, o'; cbn [opt] in Ho; try contradiction; lk_step.
  - eapply same_bind; [apply run_one_same; eassumption|]. intros. apply IH; assumption.
  - lk_step. split; assumption.
Qed.
Lemma compress_many_same it it' cells cells' : iter_like it it' -> cs cells cells' ->
  same (both iter_like cs) (compress_many_lk get put prep v e imp fin st it cells)
    (compress_many_lk get put prep v e imp fin st it' cells').
Proof.
  intros Hi H. unfold compress_many_lk. cbv zeta. pose proof Hi as [_ [Hs _]]. rewrite (Forall2_len _ _ _ Hs).
  eapply same_bind.
  { lk_step. lk_step.
    - apply batch_same; auto; [|constructor]. intros; apply wide_same; assumption.
    - lk_step. split; [split; assumption|constructor]. }
  intros [[i c] w] [[i' c'] w'] [[Hi' Hc] Hw]. cbn [fst snd] in *. rewrite (Forall2_len _ _ _ Hw).
  eapply same_bind.
  { lk_step. lk_step.
    - apply batch_same; auto. intros; apply narrow_same; assumption.
    - lk_step. split; [split|]; assumption. }
  intros [[i2 c2] w2] [[i2' c2'] w2'] [[Hi2 Hc2] Hw2]. cbn [fst snd] in *.
  eapply same_bind; [apply run_vec_same; eassumption|]. intros. apply run_rest_same; assumption.
Qed.
End Scheduler.

(** ** lib.rs *)
Definition params_like (p p' : Lib.params) : Prop :=
  set_p_key_block [] p = set_p_key_block [] p' /\ len (p_key_block p) (p_key_block p').
Definition state_like (s s' : state) : Prop :=
  set_s_words [] (set_s_buf [] s) = set_s_words [] (set_s_buf [] s') /\ len (s_buf s) (s_buf s').
Definition hash_like (h h' : hash) : Prop := h_len h = h_len h' /\ len (h_bytes h) (h_bytes h').
Definition meth_like {P} (R : P -> P -> Prop) (m m' : lmethod P) : Prop := forall p p', R p p' ->
  fst (m p) = fst (m' p') /\ R (fst (snd (m p))) (fst (snd (m' p'))) /\ snd (snd (m p)) = snd (snd (m' p')).

Lemma seq_like {P} (R : P -> P -> Prop) a a' b b' : meth_like R a a' -> meth_like R b b' ->
  meth_like R (lm_seq a b) (lm_seq a' b').
Proof.
  intros Ha Hb p p' H. destruct (Ha p p' H) as [E [Hr Eo]]. unfold lm_seq.
  destruct (a p) as [t [q o]], (a' p') as [t' [q' o']]. cbn [fst snd] in *. subst t' o'.
  destruct o; try (cbn [fst snd]; auto; fail). destruct (Hb q q' Hr) as [E' [Hr' Eo']].
  destruct (b q), (b' q'). cbn [fst snd] in *. subst. auto.
Qed.
Lemma assert_like {P} (R : P -> P -> Prop) c : meth_like R (lm_assert c) (lm_assert c).
Proof. intros p p' H. cbn. auto. Qed.
Lemma assign_like {P} (R : P -> P -> Prop) f g : (forall p p', R p p' -> R (f p) (g p')) ->
  meth_like R (lm_assign f) (lm_assign g).
Proof. intros H p p' Hp. cbn. auto. Qed.
Lemma try_like {P} (R : P -> P -> Prop) f g : (forall p p', R p p' -> same R (f p) (g p')) ->
  meth_like R (lm_try f) (lm_try g).
Proof.
  intros H p p' Hp. destruct (H p p' Hp) as [E O]. unfold lm_try, m_try. cbn [fst snd].
  destruct (snd (f p)), (snd (g p')); cbn [orel] in O; try contradiction; cbn; auto.
Qed.

Ltac open_like :=
  repeat match goal with
  | H : params_like ?p ?p' |- _ => destruct p, p', H as [? ?]; unfold set_p_key_block in *;
      cbn [Lib.p_hash_length Lib.p_key_length Lib.p_key_block Lib.p_salt Lib.p_personal Lib.p_fanout Lib.p_max_depth Lib.p_max_leaf_length Lib.p_node_offset Lib.p_node_depth Lib.p_inner_hash_length Lib.p_last_node Lib.p_imp] in *
  | H : state_like ?p ?p' |- _ => destruct p, p', H as [? ?]; unfold set_s_words, set_s_buf in *;
      cbn [Lib.s_words Lib.s_count Lib.s_buf Lib.s_buflen Lib.s_last_node Lib.s_hash_length Lib.s_imp Lib.s_is_keyed] in *
  | H : {| p_hash_length := _; p_key_length := _; p_key_block := _; p_salt := _; p_personal := _; p_fanout := _;
           p_max_depth := _; p_max_leaf_length := _; p_node_offset := _; p_node_depth := _;
           p_inner_hash_length := _; p_last_node := _; p_imp := _ |} = _ |- _ => injection H; clear H; intros; subst
  | H : {| s_words := _; s_count := _; s_buf := _; s_buflen := _; s_last_node := _; s_hash_length := _;
           s_imp := _; s_is_keyed := _ |} = _ |- _ => injection H; clear H; intros; subst
  end.

Lemma key_try v k k' : len k k' ->
  meth_like params_like (key_lk v k) (key_lk v k').
Proof.
  intros H. unfold key_lk. rewrite H.
  repeat apply seq_like; [apply assert_like|apply assign_like|apply assign_like|apply try_like].
  - intros p p' Hp. open_like. split; [reflexivity|assumption].
  - intros p p' Hp. open_like. split; reflexivity.
  - intros p p' Hp. open_like. eapply same_bind; [apply copy_into_same; eassumption|]. intros. lk_step.
    split; [reflexivity|assumption].
Qed.
Lemma same_setter_like v s : meth_like params_like (call_setter_lk v s) (call_setter_lk v s).
Proof.
  assert (H : forall f : Lib.params -> Lib.params, (forall p p', params_like p p' -> params_like (f p) (f p')) ->
    meth_like params_like (lm_assign f) (lm_assign f)) by (intros; apply assign_like; assumption).
  destruct s; cbn [call_setter_lk].
  - apply seq_like; [apply assert_like|apply H]. intros p p' Hp. open_like. split; [reflexivity|assumption].
  - apply key_try. reflexivity.
  - repeat apply seq_like; [apply assert_like|apply H|apply try_like]; intros p p' Hp; open_like;
      [split; [reflexivity|assumption]|].
    eapply same_bind; [apply same_eq; reflexivity|]. intros ? x <-. lk_step. split; [reflexivity|assumption].
  - repeat apply seq_like; [apply assert_like|apply H|apply try_like]; intros p p' Hp; open_like;
      [split; [reflexivity|assumption]|].
    eapply same_bind; [apply same_eq; reflexivity|]. intros ? x <-. lk_step. split; [reflexivity|assumption].
  - apply H. intros p p' Hp. open_like. split; [reflexivity|assumption].
  - apply H. intros p p' Hp. open_like. split; [reflexivity|assumption].
  - apply H. intros p p' Hp. open_like. split; [reflexivity|assumption].
  - apply seq_like; [apply assert_like|apply H]. intros p p' Hp. open_like. split; [reflexivity|assumption].
  - apply H. intros p p' Hp. open_like. split; [reflexivity|assumption].
  - apply seq_like; [apply assert_like|apply H]. intros p p' Hp. open_like. split; [reflexivity|assumption].
  - intros p p' Hp. open_like. repeat split; cbn; auto.
Qed.
Lemma setter_like v s s' : alike_setting s s' -> meth_like params_like (call_setter_lk v s) (call_setter_lk v s').
Proof.
  destruct s; try (cbn [alike_setting]; intros <-; apply same_setter_like).
  destruct s'; cbn [alike_setting]; intros H; try discriminate. apply key_try, H.
Qed.

Lemma as_bytes_same h h' : hash_like h h' -> same len (as_bytes_lk h) (as_bytes_lk h').
Proof. intros [E H]. unfold as_bytes_lk. rewrite E. apply slice_same, H. Qed.
Lemma ct_loop_same l : forall l' t t' i, len l l' -> same any (ct_loop_lk i l t) (ct_loop_lk i l' t').
Proof.
  induction l as [|p l IH]; intros [|q l'] t t' i H; try discriminate; cbn [ct_loop_lk].
  - lk_step. exact I.
  - lk_step. apply IH. injection H. auto.
Qed.
Lemma ct_same a a' b b' : len a a' -> len b b' -> same any (constant_time_eq_lk a b) (constant_time_eq_lk a' b').
Proof.
  intros Ha Hb. unfold constant_time_eq_lk. rewrite Ha, Hb. lk_step; [|lk_step; exact I].
  eapply (same_bind any); [|intros; lk_step; exact I].
  apply ct_loop_same. unfold len in *. rewrite !combine_length. congruence.
Qed.
Lemma hash_eq_same a a' b b' : hash_like a a' -> hash_like b b' -> same any (hash_eq_lk a b) (hash_eq_lk a' b').
Proof.
  intros Ha Hb. unfold hash_eq_lk. eapply same_bind; [apply as_bytes_same, Ha|]. intros.
  eapply same_bind; [apply as_bytes_same, Hb|]. intros. apply ct_same; assumption.
Qed.
Lemma hash_eq_slice_same a a' b b' : hash_like a a' -> len b b' ->
  same any (hash_eq_slice_lk a b) (hash_eq_slice_lk a' b').
Proof.
  intros Ha Hb. unfold hash_eq_slice_lk. eapply same_bind; [apply as_bytes_same, Ha|]. intros. apply ct_same; assumption.
Qed.
Lemma as_array_same v e h h' : hash_like h h' -> same any (as_array_lk v e h) (as_array_lk v e h').
Proof.
  intros [E _]. unfold as_array_lk. rewrite E. eapply (same_bind any); [apply same_refl; exact (fun _ => I)|].
  intros. lk_step. exact I.
Qed.

Lemma with_params_same v p p' : params_like p p' -> same state_like (to_state_lk v p) (to_state_lk v p').
Proof.
  intros H. unfold to_state_lk, with_params_lk. open_like. unfold len in *. rewrite H0. lk_step.
  cbn [orel]. unfold with_params. cbv zeta. cbn [Lib.p_hash_length Lib.p_key_length Lib.p_key_block Lib.p_salt Lib.p_personal Lib.p_fanout Lib.p_max_depth Lib.p_max_leaf_length Lib.p_node_offset Lib.p_node_depth Lib.p_inner_hash_length Lib.p_last_node Lib.p_imp].
  destruct (N.ltb 0 _); [|split; reflexivity]. unfold state_like, set_s_words, set_s_buf, set_s_buflen.
  cbn [Lib.s_words Lib.s_count Lib.s_buf Lib.s_buflen Lib.s_last_node Lib.s_hash_length Lib.s_imp Lib.s_is_keyed]. rewrite H0. split; [reflexivity|exact H0].
Qed.
Lemma fill_buf_same v e s s' i i' : state_like s s' -> len i i' ->
  same (both state_like len) (fill_buf_lk v e s i) (fill_buf_lk v e s' i').
Proof.
  intros H Hi. unfold fill_buf_lk. open_like. rewrite Hi.
  eapply same_bind; [apply same_eq; reflexivity|]. intros ? t <-.
  eapply same_bind; [apply slice_same, Hi|]. intros.
  eapply same_bind; [apply copy_into_same; eassumption|]. intros.
  eapply same_bind; [apply same_eq; reflexivity|]. intros ? n <-.
  eapply same_bind; [apply slice_from_same, Hi|]. intros. lk_step. split; [split; [reflexivity|]|]; assumption.
Qed.
Lemma compress_buffer_same v e s s' i i' : state_like s s' -> len i i' ->
  same (both state_like len) (compress_buffer_if_possible_lk v e s i) (compress_buffer_if_possible_lk v e s' i').
Proof.
  intros H Hi. unfold compress_buffer_if_possible_lk.
  assert (E : s_buflen s = s_buflen s') by (open_like; reflexivity). rewrite E. lk_step; [|lk_step; split; assumption].
  eapply same_bind; [apply fill_buf_same; eassumption|]. intros [t j] [t' j'] [Ht Hj]. cbn [fst snd] in *.
  rewrite (is_empty_len _ _ Hj). lk_step; [lk_step; split; assumption|]. open_like.
  eapply same_bind; [apply compress1_same; eassumption|]. intros. lk_step. split; [split; [reflexivity|]|]; assumption.
Qed.
Lemma update_same v e s s' i i' : state_like s s' -> len i i' -> same state_like (update_lk v e s i) (update_lk v e s' i').
Proof.
  intros H Hi. unfold update_lk.
  eapply same_bind; [apply compress_buffer_same; eassumption|]. intros [t j] [t' j'] [Ht Hj]. cbn [fst snd] in *. rewrite Hj.
  eapply same_bind; [apply same_eq; reflexivity|]. intros ? x <-.
  eapply same_bind; [apply same_eq; reflexivity|]. intros ? y <-.
  eapply (same_bind (both state_like len)).
  - lk_step; [|lk_step; split; assumption].
    eapply same_bind; [apply slice_same, Hj|]. intros. open_like.
    eapply same_bind; [apply compress1_same; eassumption|]. intros.
    eapply same_bind; [apply slice_from_same, Hj|]. intros. lk_step. split; [split; [reflexivity|]|]; assumption.
  - intros [u k] [u' k'] [Hu Hk]. eapply same_bind; [apply fill_buf_same; eassumption|].
    intros [w l] [w' l'] [Hw _]. lk_step. exact Hw.
Qed.
Lemma words_to_bytes_len v w w' : len (state_words_to_bytes v w) (state_words_to_bytes v w').
Proof.
  unfold len, state_words_to_bytes. rewrite !flat_map_concat_map.
  rewrite <- !flat_map_concat_map.
  assert (H : forall l, length (flat_map (fun i => to_le (wbytes v) (nth i w 0)) l) =
                        length (flat_map (fun i => to_le (wbytes v) (nth i w' 0)) l)).
  { induction l; [reflexivity|]. cbn [flat_map]. rewrite !app_length, IHl. f_equal.
    destruct v; reflexivity. }
  apply H.
Qed.
Lemma finalize_same v e s s' : state_like s s' -> same hash_like (finalize_lk v e s) (finalize_lk v e s').
Proof.
  intros H. unfold finalize_lk. open_like. eapply same_bind; [apply slice_same; assumption|]. intros.
  eapply same_bind; [apply compress1_same; eassumption|]. intros. lk_step. split; [reflexivity|apply words_to_bytes_len].
Qed.
Lemma count_same v e s s' : state_like s s' -> same eq (count_lk v e s) (count_lk v e s').
Proof. intros H. unfold count_lk. open_like. apply same_eq. reflexivity. Qed.
Lemma state_debug_same v e s s' : state_like s s' -> same any (state_debug_lk v e s) (state_debug_lk v e s').
Proof.
  intros H. unfold state_debug_lk. eapply same_bind; [apply count_same, H|]. intros ? c <-. open_like.
  lk_step. lk_step. exact I.
Qed.
Lemma write_same v e s s' i i' : state_like s s' -> len i i' ->
  same (both state_like eq) (write_lk v e s i) (write_lk v e s' i').
Proof.
  intros H Hi. unfold write_lk. eapply same_bind; [apply update_same; eassumption|]. intros. rewrite Hi. lk_step.
  split; [assumption|reflexivity].
Qed.
Lemma params_hash_same v e p p' i i' : params_like p p' -> len i i' ->
  same hash_like (params_hash_lk v e p i) (params_hash_lk v e p' i').
Proof.
  intros H Hi. unfold params_hash_lk.
  assert (E : p_key_length p = p_key_length p') by (open_like; reflexivity). rewrite E. lk_step.
  - eapply same_bind; [apply with_params_same, H|]. intros. eapply same_bind; [apply update_same; eassumption|]. intros.
    apply finalize_same. assumption.
  - open_like. eapply same_bind; [apply compress1_same; eassumption|]. intros. lk_step.
    split; [reflexivity|apply words_to_bytes_len].
Qed.

(** ** many.rs *)
Lemma update_prep_same v e i i' s s' : len i i' -> state_like s s' ->
  same (both state_like prepared_like) (update_prep_lk v e i s) (update_prep_lk v e i' s').
Proof.
  intros Hi H. unfold update_prep_lk.
  eapply same_bind; [apply compress_buffer_same; eassumption|]. intros [t j] [t' j'] [Ht Hj]. cbn [fst snd] in *.
  rewrite (is_empty_len _ _ Hj). lk_step; [lk_step; split; [assumption|exact I]|]. cbv zeta. rewrite Hj.
  eapply same_bind; [apply same_eq; reflexivity|]. intros ? n <-.
  eapply same_bind; [apply slice_same, Hj|]. intros b b' Hb.
  eapply same_bind; [apply slice_from_same, Hj|]. intros l l' Hl. open_like.
  eapply same_bind; [apply copy_into_same; eassumption|]. intros. rewrite (is_empty_len _ _ Hb), Hl, Hb.
  lk_step; lk_step; (split; [split; [reflexivity|assumption]|]); [exact I|split; [assumption|reflexivity]].
Qed.
Lemma peek_like {A} (Q : A -> A -> Prop) xs xs' : Forall2 (opt (item_like Q)) xs xs' ->
  iter_like Q (peek xs) (peek xs').
Proof.
  intros H. unfold peek. destruct H as [|[x|] [x'|] xs xs' Hx H]; cbn [opt] in *; try contradiction;
    repeat split; cbn; auto; apply Hx.
Qed.
Lemma update_many_same v e ss ss' xs xs' : Forall2 state_like ss ss' -> Forall2 (opt (item_like len)) xs xs' ->
  same (both (Forall2 state_like) eq) (update_many_lk v e ss xs) (update_many_lk v e ss' xs').
Proof.
  intros H Hx. apply peek_like in Hx. unfold update_many_lk. cbv zeta. pose proof Hx as [Hp [_ [_ Hc]]].
  destruct (i_peeked (peek xs)) as [[r i]|], (i_peeked (peek xs')) as [[r' i']|]; cbn [opt] in Hp; try contradiction.
  - destruct Hp as [Er _]. cbn [fst] in Er. subst r'. lk_step.
    eapply same_bind; [eapply cell_same, H|]. intros s s' Hs.
    assert (E : s_imp s = s_imp s') by (open_like; reflexivity). rewrite E.
    eapply same_bind.
    + apply (compress_many_same _ _ _ state_like len); try assumption.
      * intros c c' w w' Hcc Hw. open_like. split; [reflexivity|assumption].
      * intros. apply update_prep_same; assumption.
    + intros [i2 l] [i2' l'] [Hi Hl]. cbn [fst snd] in *. lk_step. split; [exact Hl|]. cbn [snd]. apply Hi.
  - lk_step. split; [exact H|exact Hc].
Qed.

Definition hjob_like (j j' : hash_many_job) : Prop :=
  hj_count j = hj_count j' /\ hj_last_node j = hj_last_node j' /\ hj_hash_length j = hj_hash_length j' /\
  len (hj_input j) (hj_input j') /\ hj_finished j = hj_finished j' /\ hj_imp j = hj_imp j'.
Lemma job_new_same v e p p' i i' : params_like p p' -> len i i' ->
  same hjob_like (hash_many_job_new_lk v e p i) (hash_many_job_new_lk v e p' i').
Proof.
  intros H Hi. unfold hash_many_job_new_lk. cbv zeta. rewrite (is_empty_len _ _ Hi).
  assert (E : p_key_length p = p_key_length p') by (open_like; reflexivity). rewrite E. open_like.
  eapply (same_bind (fun x y => snd (fst x) = snd (fst y) /\ snd x = snd y)).
  - lk_step; [|lk_step; split; reflexivity]. lk_step.
    eapply same_bind; [apply compress1_same; eassumption|]. intros. lk_step. split; reflexivity.
  - intros [[w c] f] [[w' c'] f'] [Ec Ef]. cbn [fst snd] in *. subst. lk_step. repeat split; cbn; assumption.
Qed.
Lemma to_hash_same v e j j' : hjob_like j j' -> same hash_like (to_hash_lk v e j) (to_hash_lk v e j').
Proof.
  intros [_ [_ [Eh [_ [Ef _]]]]]. unfold to_hash_lk. rewrite Ef.
  eapply (same_bind any); [apply same_refl; exact (fun _ => I)|]. intros. lk_step.
  split; [exact Eh|apply words_to_bytes_len].
Qed.
Lemma hash_prep_same u u' j j' : hjob_like j j' ->
  same (both hjob_like prepared_like) (hash_prep_lk u j) (hash_prep_lk u' j').
Proof.
  intros H. pose proof H as [Ec [El [Eh [Hi [Ef Em]]]]]. unfold hash_prep_lk. rewrite Ef. lk_step; lk_step.
  - split; [assumption|exact I].
  - cbv zeta. split; [|split; assumption]. repeat split; assumption.
Qed.
Lemma hash_many_same v e ss ss' xs xs' : Forall2 hjob_like ss ss' -> xs = xs' ->
  same (both (Forall2 hjob_like) eq) (hash_many_lk v e ss xs) (hash_many_lk v e ss' xs').
Proof.
  intros H <-. assert (Hx : Forall2 (opt (item_like (@eq unit))) xs xs).
  { apply Forall2_refl. intros [[? ?]|]; cbn; [split; reflexivity|exact I]. }
  apply peek_like in Hx. unfold hash_many_lk. cbv zeta.
  destruct (i_peeked (peek xs)) as [[r i]|].
  - lk_step. eapply same_bind; [eapply cell_same, H|]. intros s s' Hs.
    assert (E : hj_imp s = hj_imp s') by apply Hs. rewrite E.
    eapply same_bind.
    + apply (compress_many_same _ _ _ hjob_like (@eq unit)); try assumption.
      * intros c c' w w' Hcc Hw. exact Hcc.
      * intros. apply hash_prep_same; assumption.
    + intros [i2 l] [i2' l'] [Hi Hl]. cbn [fst snd] in *. lk_step. split; [exact Hl|]. cbn [snd]. apply Hi.
  - lk_step. split; [exact H|reflexivity].
Qed.

(** ** blake2bp.rs / blake2sp.rs *)
Definition pparams_like (p p' : pparams) : Prop :=
  set_pp_key [] p = set_pp_key [] p' /\ len (pp_key p) (pp_key p').
Definition pstate_like (s s' : pstate) : Prop :=
  Forall2 len (ps_leaf_words s) (ps_leaf_words s') /\ len (ps_buf s) (ps_buf s') /\
  (ps_buf_len s, ps_count s, ps_hash_length s, ps_imp s, ps_is_keyed s) =
  (ps_buf_len s', ps_count s', ps_hash_length s', ps_imp s', ps_is_keyed s').
Ltac open_plike :=
  repeat match goal with
  | H : pparams_like ?p ?p' |- _ => destruct p, p', H as [? ?]; unfold set_pp_key in *;
      cbn [Par.pp_hash_length Par.pp_key_length Par.pp_key Par.pp_imp] in *
  | H : pstate_like ?p ?p' |- _ => destruct p, p', H as [? [? ?]];
      cbn [Par.ps_leaf_words Par.ps_root_words Par.ps_buf Par.ps_buf_len Par.ps_count Par.ps_hash_length Par.ps_imp Par.ps_is_keyed] in *
  | H : {| pp_hash_length := _; pp_key_length := _; pp_key := _; pp_imp := _ |} = _ |- _ =>
      injection H; clear H; intros; subst
  | H : (_, _, _, _, _) = _ |- _ => injection H; clear H; intros; subst
  end.
Lemma psetter_like v s s' : alike_psetting s s' -> meth_like pparams_like (call_psetter_lk v s) (call_psetter_lk v s').
Proof.
  destruct s, s'; cbn [alike_psetting call_psetter_lk]; intros H; try discriminate.
  - injection H. intros <-. apply seq_like; [apply assert_like|apply assign_like].
    intros p p' Hp. open_plike. split; [reflexivity|assumption].
  - unfold p_set_key_lk. rewrite H.
    repeat apply seq_like; [apply assert_like|apply assign_like|apply assign_like|apply try_like].
    + intros p p' Hp. open_plike. split; [reflexivity|assumption].
    + intros p p' Hp. open_plike. split; reflexivity.
    + intros p p' Hp. open_plike. eapply same_bind; [apply copy_into_same; eassumption|]. intros. lk_step.
      split; [reflexivity|assumption].
Qed.
Lemma run_same {P} (R : P -> P -> Prop) m m' p p' : meth_like R m m' -> R p p' -> same R (run_lk m p) (run_lk m' p').
Proof.
  intros Hm Hp. destruct (Hm p p' Hp) as [E [Hr Eo]]. unfold run_lk.
  destruct (m p) as [t [q o]], (m' p') as [t' [q' o']]. cbn [fst snd] in *. subst. lk_step.
  destruct o'; cbn; auto.
Qed.
Lemma to_words_len v p p' : len (to_words v p) (to_words v p').
Proof. destruct v; reflexivity. Qed.
Lemma params_like_refl p : params_like p p.
Proof. split; reflexivity. Qed.
Lemma p_to_words_same v p p' : pparams_like p p' ->
  same (fun x y => Forall2 len (fst x) (fst y)) (p_to_words_lk v p) (p_to_words_lk v p').
Proof.
  intros H. unfold p_to_words_lk. open_plike.
  eapply same_bind; [apply slice_same; assumption|]. intros k k' Hk.
  eapply same_bind.
  { apply run_same; [|apply params_like_refl].
    apply seq_like; [|apply (same_setter_like v (InnerHashLength _))].
    apply seq_like; [|apply (same_setter_like v (MaxLeafLength _))].
    apply seq_like; [|apply (same_setter_like v (MaxDepth _))].
    apply seq_like; [|apply (same_setter_like v (Fanout _))].
    apply seq_like; [apply (same_setter_like v (HashLength _))|apply key_try, Hk]. }
  intros b b' Hb. eapply same_bind.
  { apply (mapM_same_seq len). intros i. eapply same_bind; [|intros; lk_step; apply to_words_len].
    apply run_same; [|exact Hb].
    apply seq_like; [apply (same_setter_like v (NodeOffset _))|apply (same_setter_like v (NodeDepth _))]. }
  intros lw lw' Hlw. eapply same_bind; [|intros; lk_step; exact Hlw].
  apply run_same; [|exact Hb].
  apply seq_like; [apply (same_setter_like v (NodeOffset _))|apply (same_setter_like v (NodeDepth _))].
Qed.

Definition leaf_job_like (p p' : list byte * N * bool) : Prop :=
  len (fst (fst p)) (fst (fst p')) /\ snd p = snd p'.
Lemma compress_leaves_same v e imp fin ls ls' js js' : Forall2 len ls ls' -> Forall2 leaf_job_like js js' ->
  same (Forall2 len) (compress_leaves_lk v e imp fin ls js) (compress_leaves_lk v e imp fin ls' js').
Proof.
  intros H Hj. unfold compress_leaves_lk.
  eapply (same_bind (both (iter_like leaf_job_like) (Forall2 len)));
    [|intros [i l] [i' l'] [_ Hl]; lk_step; exact Hl].
  apply (compress_many_same _ _ _ len leaf_job_like); auto.
  - intros [[i n] l] [[i' n'] l'] c c' [Hi Hl] Hc. unfold leaf_prep_lk. lk_step. split; [exact Hc|]. split; assumption.
  - repeat split; cbn; auto. apply Forall2_map2. eapply Forall2_weak.
    2: { apply Forall2_combine; [|exact Hj]. rewrite (Forall2_len _ _ _ H). apply (Forall2_refl eq). reflexivity. }
    intros [r x] [r' x'] Hx. exact Hx.
Qed.
Lemma concat_len {A B} (l : list (list A)) (l' : list (list B)) : Forall2 len l l' -> len (concat l) (concat l').
Proof. unfold len. induction 1; cbn; [reflexivity|]. rewrite !app_length. congruence. Qed.
Lemma to_le_block v ws : length (flat_map (to_le (wbytes v)) ws) = (length ws * wbytes v)%nat.
Proof. apply length_flat_map_const. intros x. destruct v; reflexivity. Qed.
Lemma root_same v e lw lw' rw rw' hl imp : Forall2 len lw lw' ->
  same hash_like (finalize_root_words_lk v e lw rw hl imp) (finalize_root_words_lk v e lw' rw' hl imp).
Proof.
  intros H. apply concat_len in H. unfold finalize_root_words_lk. cbv zeta.
  eapply (same_bind any); [apply same_refl; exact (fun _ => I)|]. intros _ _ _. rewrite H.
  eapply same_bind; [lk_step; apply compress1_same; unfold len in *; rewrite !to_le_block; congruence|].
  intros. lk_step. split; [reflexivity|apply words_to_bytes_len].
Qed.
Lemma copy_keys_same v k k' is : len k k' -> forall b b', len b b' ->
  same len (copy_keys_lk v k is b) (copy_keys_lk v k' is b').
Proof.
  intros Hk. induction is as [|i is IH]; intros b b' Hb; cbn [copy_keys_lk]; [lk_step; exact Hb|]. lk_step.
  eapply same_bind; [apply copy_into_same; eassumption|]. intros. apply IH. assumption.
Qed.
Lemma p_with_params_same v p p' : pparams_like p p' -> same pstate_like (p_to_state_lk v p) (p_to_state_lk v p').
Proof.
  intros H. unfold p_to_state_lk, p_with_params_lk.
  eapply same_bind; [apply p_to_words_same, H|]. intros [lw rw] [lw' rw'] Hw. cbn [fst] in Hw. cbv zeta. open_plike.
  eapply (same_bind (both len eq)).
  - lk_step; [|lk_step; split; reflexivity]. eapply same_bind; [apply slice_same; assumption|]. intros.
    eapply same_bind; [apply copy_keys_same; [eassumption|reflexivity]|]. intros. lk_step. split; [assumption|reflexivity].
  - intros [b n] [b' n'] [Hb Hn]. cbn [fst snd] in *. subst. lk_step. repeat split; cbn; assumption.
Qed.
Lemma p_fill_buf_same e s s' i i' : pstate_like s s' -> len i i' ->
  same (both pstate_like len) (p_fill_buf_lk e s i) (p_fill_buf_lk e s' i').
Proof.
  intros H Hi. unfold p_fill_buf_lk. cbv zeta. open_plike. unfold len in Hi, H0. rewrite Hi, H0.
  eapply same_bind; [apply same_eq; reflexivity|]. intros ? t <-.
  eapply same_bind; [apply slice_same, Hi|]. intros.
  eapply same_bind; [apply copy_into_same; eassumption|]. intros.
  eapply same_bind; [apply same_eq; reflexivity|]. intros ? n <-.
  eapply same_bind; [apply slice_from_same, Hi|]. intros. lk_step. repeat split; cbn; assumption.
Qed.
Lemma compress_to_leaves_same v e imp ls ls' i i' c : Forall2 len ls ls' -> len i i' ->
  same (both (Forall2 len) eq) (compress_to_leaves_lk v e imp ls i c) (compress_to_leaves_lk v e imp ls' i' c).
Proof.
  intros H Hi. unfold compress_to_leaves_lk. eapply same_bind.
  { apply (mapM_same_seq leaf_job_like). intros k. eapply same_bind; [apply slice_from_same, Hi|]. intros. lk_step.
    split; [assumption|reflexivity]. }
  intros js js' Hj. eapply same_bind; [apply compress_leaves_same; eassumption|]. intros. rewrite Hi. lk_step. lk_step.
  split; [assumption|reflexivity].
Qed.
Lemma p_update_same v e s s' i i' : pstate_like s s' -> len i i' ->
  same pstate_like (p_update_lk v e s i) (p_update_lk v e s' i').
Proof.
  intros H Hi. unfold p_update_lk. cbv zeta.
  assert (E : ps_buf_len s = ps_buf_len s') by (open_plike; reflexivity). rewrite E.
  eapply (same_bind (both pstate_like len)).
  - lk_step; [|lk_step; split; assumption].
    eapply same_bind; [apply p_fill_buf_same; eassumption|]. intros [t j] [t' j'] [Ht Hj]. cbn [fst snd] in *.
    rewrite (is_empty_len _ _ Hj), Hj. lk_step; [lk_step; split; assumption|]. clear s s' H E. open_plike. lk_step.
    + eapply same_bind; [apply compress_to_leaves_same; eassumption|]. intros [l c] [l' c'] [Hl Hc]. cbn [fst snd] in *.
      subst. lk_step. split; [|exact Hj]. repeat split; cbn; assumption.
    + eapply same_bind; [apply slice_same; eassumption|]. intros.
      eapply same_bind; [apply compress_to_leaves_same; eassumption|]. intros [l c] [l' c'] [Hl Hc]. cbn [fst snd] in *. subst.
      eapply same_bind; [apply slice_same; eassumption|]. intros f f' Hf.
      eapply same_bind; [apply slice_from_same; eassumption|]. intros g g' Hg. rewrite Hf, Hg.
      eapply (same_bind len).
      * lk_step; lk_step; [exact Hg|exact I].
      * intros h h' Hh. lk_step. split; [|exact Hj]. repeat split; cbn; try assumption.
        unfold len in *. rewrite !app_length. congruence.
  - clear s s' H E. intros [s j] [s' j'] [H Hj]. cbn [fst snd] in *. rewrite Hj.
    eapply same_bind; [apply same_eq; reflexivity|]. intros ? x <-.
    eapply same_bind; [apply same_eq; reflexivity|]. intros ? y <-.
    eapply (same_bind (both pstate_like len)).
    + lk_step; [|lk_step; split; assumption].
      eapply same_bind; [apply slice_same; eassumption|]. intros. open_plike.
      eapply same_bind; [apply compress_to_leaves_same; eassumption|]. intros [l c] [l' c'] [Hl Hc]. cbn [fst snd] in *. subst.
      eapply same_bind; [apply slice_from_same; eassumption|]. intros. lk_step. split; [|assumption].
      repeat split; cbn; assumption.
    + intros [t k] [t' k'] [Ht Hk]. cbn [fst snd] in *.
      eapply same_bind; [apply p_fill_buf_same; eassumption|]. intros [u l] [u' l'] [Hu Hl]. cbn [fst snd] in *. rewrite Hl.
      eapply (same_bind any); [apply same_refl; exact (fun _ => I)|]. intros. lk_step. exact Hu.
Qed.
Lemma p_finalize_same v e s s' : pstate_like s s' -> same hash_like (p_finalize_lk v e s) (p_finalize_lk v e s').
Proof.
  intros H. unfold p_finalize_lk. cbv zeta. open_plike. eapply same_bind.
  { apply (mapM_same_seq leaf_job_like). intros k. eapply same_bind; [apply same_eq; reflexivity|]. intros ? f <-.
    eapply same_bind; [apply slice_same; eassumption|]. intros. lk_step. split; [assumption|reflexivity]. }
  intros. eapply same_bind; [apply compress_leaves_same; eassumption|]. intros. apply root_same. assumption.
Qed.
Lemma p_count_same v e s s' : pstate_like s s' -> same eq (p_count_lk v e s) (p_count_lk v e s').
Proof. intros H. unfold p_count_lk. open_plike. apply same_eq. reflexivity. Qed.
Lemma pstate_debug_same v e s s' : pstate_like s s' -> same any (pstate_debug_lk v e s) (pstate_debug_lk v e s').
Proof.
  intros H. unfold pstate_debug_lk. eapply same_bind; [apply p_count_same, H|]. intros ? c <-. open_plike.
  lk_step. lk_step. exact I.
Qed.
Lemma p_write_same v e s s' i i' : pstate_like s s' -> len i i' ->
  same (both pstate_like eq) (p_write_lk v e s i) (p_write_lk v e s' i').
Proof.
  intros H Hi. unfold p_write_lk. eapply same_bind; [apply p_update_same; eassumption|]. intros. rewrite Hi. lk_step.
  split; [assumption|reflexivity].
Qed.
Lemma p_hash_same v e p p' i i' : pparams_like p p' -> len i i' ->
  same hash_like (p_hash_lk v e p i) (p_hash_lk v e p' i').
Proof.
  intros H Hi. unfold p_hash_lk.
  assert (E : pp_key_length p = pp_key_length p') by (open_plike; reflexivity). rewrite E. lk_step.
  - eapply same_bind; [apply p_with_params_same, H|]. intros. eapply same_bind; [apply p_update_same; eassumption|]. intros.
    apply p_finalize_same. assumption.
  - eapply same_bind; [apply p_to_words_same, H|]. intros [lw rw] [lw' rw'] Hw. cbn [fst] in Hw.
    eapply same_bind.
    { apply (mapM_same_seq leaf_job_like). intros k. rewrite Hi. eapply same_bind; [apply same_eq; reflexivity|].
      intros ? f <-. eapply same_bind; [apply slice_from_same; eassumption|]. intros. lk_step.
      split; [assumption|reflexivity]. }
    intros. open_plike. eapply same_bind; [apply compress_leaves_same; eassumption|]. intros. apply root_same. assumption.
Qed.

Lemma write_all_same {S} (R : S -> S -> Prop) wr : 
  (forall s s' i i', R s s' -> len i i' -> same (both R eq) (wr s i) (wr s' i')) ->
  forall s s' i i', R s s' -> len i i' -> same R (write_all_lk wr s i) (write_all_lk wr s' i').
Proof.
  intros Hw s s' i i' H Hi. unfold write_all_lk. rewrite Hi. generalize (length i'). intros n.
  revert s s' i i' H Hi. induction n as [|n IH]; intros s s' [|b i] [|b' i'] H Hi; try discriminate Hi;
    cbn [write_all_loop_lk].
  - lk_step. exact H.
  - lk_step. exact I.
  - lk_step. exact H.
  - lk_step. eapply same_bind; [apply Hw; eassumption|]. intros [t k] [t' k'] [Ht Hk]. cbn [fst snd] in *. subst.
    lk_step; [lk_step; exact I|]. eapply same_bind; [apply slice_from_same, Hi|]. intros. apply IH; assumption.
Qed.

(** ** Programs *)
Definition world_like (w w' : world) : Prop :=
  Forall2 params_like (w_params w) (w_params w') /\ Forall2 state_like (w_states w) (w_states w') /\
  Forall2 hjob_like (w_jobs w) (w_jobs w') /\ Forall2 pparams_like (w_pparams w) (w_pparams w') /\
  Forall2 pstate_like (w_pstates w) (w_pstates w') /\ Forall2 hash_like (w_hashes w) (w_hashes w').
(** The events of a call and what it leaves. *)
Definition step_like (x y : list event * (world * obs)) : Prop :=
  fst x = fst y /\ world_like (fst (snd x)) (fst (snd y)).

Lemma on_obj_like {A} (R : A -> A -> Prop) w w' l l' i k k' : world_like w w' -> Forall2 R l l' ->
  (forall x y, R x y -> step_like (k x) (k' y)) -> step_like (on_obj_lk w l i k) (on_obj_lk w' l' i k').
Proof.
  intros Hw H Hk. unfold on_obj_lk. pose proof (Forall2_nth_error _ _ _ i H) as E.
  destruct (nth_error l i), (nth_error l' i); cbn [opt] in E; try contradiction; auto. split; [reflexivity|exact Hw].
Qed.
Lemma finish_like {A} (R : A -> A -> Prop) w w' x y k k' : world_like w w' -> same R x y ->
  (forall a b, R a b -> world_like (fst (k a)) (fst (k' b))) -> step_like (finish_lk w x k) (finish_lk w' y k').
Proof.
  intros Hw [E O] Hk. unfold finish_lk, finish. split; [exact E|]. cbn [fst snd].
  destruct (snd x), (snd y); cbn [orel] in O; try contradiction; cbn [fst]; auto.
Qed.
Lemma run_method_like {P} (R : P -> P -> Prop) m m' p p' upd upd' : meth_like R m m' -> R p p' ->
  (forall q q', R q q' -> world_like (upd q) (upd' q')) -> step_like (run_method_lk m p upd) (run_method_lk m' p' upd').
Proof.
  intros Hm Hp Hu. destruct (Hm p p' Hp) as [E [Hr Eo]]. unfold run_method_lk.
  destruct (m p) as [t [q o]], (m' p') as [t' [q' o']]. cbn [fst snd] in *. subst. split; cbn; auto.
Qed.

Lemma Forall2_snoc {A B} (R : A -> B -> Prop) l l' x y : Forall2 R l l' -> R x y -> Forall2 R (l ++ [x]) (l' ++ [y]).
Proof. intros H Hx. apply Forall2_app; auto. Qed.
Lemma push_hash_like w w' h h' : world_like w w' -> hash_like h h' ->
  world_like (fst (push_hash w h)) (fst (push_hash w' h')).
Proof.
  intros [A [B [C [D [E F]]]]] H. unfold push_hash, with_w_hashes. repeat split; cbn; auto.
  apply Forall2_snoc; assumption.
Qed.
Ltac world := repeat split; cbn; auto using Forall2_snoc, Forall2_set.

Lemma pparams_like_refl p : pparams_like p p.
Proof. split; reflexivity. Qed.
Lemma items_like xs xs' : Forall2 alike_item xs xs' -> Forall2 (opt (item_like len)) xs xs'.
Proof.
  apply Forall2_weak. intros [[s m]|] [[s' m']|]; cbn; try contradiction; auto. 
Qed.
Lemma until_none_like xs xs' : Forall2 alike_item xs xs' -> map fst (until_none xs) = map fst (until_none xs').
Proof.
  induction 1 as [|x x' xs xs' Hx H IH]; [reflexivity|].
  destruct x as [[s m]|], x' as [[s' m']|]; cbn in Hx; try contradiction; [|reflexivity].
  destruct Hx as [-> _]. cbn. f_equal. exact IH.
Qed.

Ltac obj := eapply on_obj_like; [eassumption|eassumption|let x := fresh "x" in let x' := fresh "x'" in let Hx := fresh "Hx" in intros x x' Hx].

Lemma step_same v e imp w w' c c' : same_shape c c' -> spells_digest c = false -> world_like w w' ->
  step_like (step_lk v e imp w c) (step_lk v e imp w' c').
Proof.
  intros [Ha Hs] Hd Hw. pose proof Hw as [Hp [Hst [Hj [Hpp [Hps Hh]]]]].
  destruct c; destruct c'; cbn [alike] in Ha; try discriminate Ha; try discriminate Hd; try contradiction;
  repeat match goal with
  | H : _ /\ _ |- _ => destruct H
  | H : NewParams = NewParams |- _ => clear H
  | H : ?f _ _ = ?f _ _ |- _ => injection H; clear H; intros; subst
  | H : ?f _ = ?f _ |- _ => injection H; clear H; intros; subst
  end; subst; cbn [step_lk].
  - (* NewParams *) split; [reflexivity|]. world. apply Forall2_snoc; [assumption|apply params_like_refl].
  - (* CloneParams *) obj. split; [reflexivity|]. world.
  - (* Set_ *) obj. apply (run_method_like params_like); [apply setter_like; assumption|assumption|]. intros. world.
  - (* ForcePortable *) obj. apply (run_method_like params_like); [apply assign_like|assumption|intros; world].
    intros q q' Hq. open_like. split; [reflexivity|assumption].
  - (* ShowParams *) obj. assert (E : params_debug x = params_debug x') by (open_like; reflexivity). rewrite E.
    split; [reflexivity|exact Hw].
  - (* OneShot *) apply (finish_like hash_like); [exact Hw| |intros; apply push_hash_like; assumption].
    apply params_hash_same; [apply params_like_refl|assumption].
  - (* HashWith *) obj. apply (finish_like hash_like); [exact Hw| |intros; apply push_hash_like; assumption].
    apply params_hash_same; assumption.
  - (* NewState *) apply (finish_like state_like); [exact Hw|apply with_params_same, params_like_refl|intros; world].
  - (* ToState *) obj. apply (finish_like state_like); [exact Hw|apply with_params_same, Hx|intros; world].
  - (* CloneState *) obj. split; [reflexivity|]. world.
  - (* Update *) obj. apply (finish_like state_like); [exact Hw|apply update_same; assumption|intros; world].
  - (* Write *) obj. apply (finish_like (both state_like eq)); [exact Hw|apply write_same; assumption|].
    intros [a ?] [b ?] [Hab _]. world.
  - (* WriteAll *) obj. apply (finish_like state_like); [exact Hw| |intros; world].
    apply write_all_same; try assumption. intros; apply write_same; assumption.
  - (* Flush *) obj. split; [reflexivity|]. world.
  - (* SetLastNode *) obj. apply (finish_like state_like); [exact Hw| |intros; world].
    unfold set_last_node_lk. lk_step. cbn [orel]. open_like. split; [reflexivity|assumption].
  - (* Finalize *) obj. apply (finish_like hash_like); [exact Hw|apply finalize_same, Hx|].
    intros; apply push_hash_like; assumption.
  - (* Count *) obj. apply (finish_like eq); [exact Hw|apply count_same, Hx|]. intros; exact Hw.
  - (* ShowState *) obj. apply (finish_like any); [exact Hw|apply state_debug_same, Hx|]. intros; exact Hw.
  - (* UpdateMany *) rewrite (until_none_like _ _ Ha), (Forall2_len _ _ _ Hst).
    destruct (borrowable _ _); [|split; [reflexivity|exact Hw]].
    apply (finish_like (both (Forall2 state_like) eq)); [exact Hw| |].
    + apply update_many_same; [assumption|apply items_like, Ha].
    + intros [a ?] [b ?] [Hab _]. world.
  - (* NewJob *) obj. apply (finish_like hjob_like); [exact Hw|apply job_new_same; assumption|intros; world].
  - (* CloneJob *) obj. split; [reflexivity|]. world.
  - (* HashMany *) rewrite (Forall2_len _ _ _ Hj). destruct (borrowable _ _); [|split; [reflexivity|exact Hw]].
    apply (finish_like (both (Forall2 hjob_like) eq)); [exact Hw| |].
    + apply hash_many_same; [assumption|reflexivity].
    + intros [a ?] [b ?] [Hab _]. world.
  - (* ToHash *) obj. apply (finish_like hash_like); [exact Hw|apply to_hash_same, Hx|].
    intros; apply push_hash_like; assumption.
  - (* ShowJob *) obj. assert (E : hash_many_job_debug x = hash_many_job_debug x').
    { destruct Hx as [E1 [E2 [E3 [E4 _]]]]. unfold hash_many_job_debug. rewrite E1, E2, E3, E4. reflexivity. }
    rewrite E. split; [reflexivity|exact Hw].
  - (* PNewParams *) split; [reflexivity|]. world. apply Forall2_snoc; [assumption|apply pparams_like_refl].
  - (* PCloneParams *) obj. split; [reflexivity|]. world.
  - (* PSet *) obj. apply (run_method_like pparams_like); [apply psetter_like; assumption|assumption|]. intros. world.
  - (* PForcePortable *) obj. apply (run_method_like pparams_like); [apply assign_like|assumption|intros; world].
    intros q q' Hq. open_plike. split; [reflexivity|assumption].
  - (* PShowParams *) obj. assert (E : pparams_debug x = pparams_debug x') by (open_plike; reflexivity). rewrite E.
    split; [reflexivity|exact Hw].
  - (* POneShot *) apply (finish_like hash_like); [exact Hw| |intros; apply push_hash_like; assumption].
    apply p_hash_same; [apply pparams_like_refl|assumption].
  - (* PHashWith *) obj. apply (finish_like hash_like); [exact Hw| |intros; apply push_hash_like; assumption].
    apply p_hash_same; assumption.
  - (* PNewState *) apply (finish_like pstate_like); [exact Hw|apply p_with_params_same, pparams_like_refl|intros; world].
  - (* PToState *) obj. apply (finish_like pstate_like); [exact Hw|apply p_with_params_same, Hx|intros; world].
  - (* PCloneState *) obj. split; [reflexivity|]. world.
  - (* PUpdate *) obj. apply (finish_like pstate_like); [exact Hw|apply p_update_same; assumption|intros; world].
  - (* PWrite *) obj. apply (finish_like (both pstate_like eq)); [exact Hw|apply p_write_same; assumption|].
    intros [a ?] [b ?] [Hab _]. world.
  - (* PWriteAll *) obj. apply (finish_like pstate_like); [exact Hw| |intros; world].
    apply write_all_same; try assumption. intros; apply p_write_same; assumption.
  - (* PFlush *) obj. split; [reflexivity|]. world.
  - (* PFinalize *) obj. apply (finish_like hash_like); [exact Hw|apply p_finalize_same, Hx|].
    intros; apply push_hash_like; assumption.
  - (* PCount *) obj. apply (finish_like eq); [exact Hw|apply p_count_same, Hx|]. intros; exact Hw.
  - (* PShowState *) obj. apply (finish_like any); [exact Hw|apply pstate_debug_same, Hx|]. intros; exact Hw.
  - (* HashFrom *) split; [reflexivity|]. apply push_hash_like; [exact Hw|]. split; [reflexivity|exact Ha].
  - (* AsBytes *) obj. apply (finish_like len); [exact Hw|apply as_bytes_same, Hx|]. intros; exact Hw.
  - (* AsArray *) obj. apply (finish_like any); [exact Hw|apply as_array_same, Hx|]. intros; exact Hw.
  - (* EqHash *) obj. eapply on_obj_like; [exact Hw|eassumption|intros y y' Hy].
    apply (finish_like any); [exact Hw|apply hash_eq_same; assumption|]. intros; exact Hw.
  - (* EqSlice *) obj. apply (finish_like any); [exact Hw|apply hash_eq_slice_same; assumption|]. intros; exact Hw.
Qed.

Lemma run_from_same v e imp prog prog' : Forall2 same_shape prog prog' -> forallb (fun c => negb (spells_digest c)) prog = true ->
  forall w w', world_like w w' ->
  map fst (run_from_lk v e imp w prog) = map fst (run_from_lk v e imp w' prog').
Proof.
  induction 1 as [|c c' prog prog' Hc H IH]; intros Hd w w' Hw; [reflexivity|].
  cbn [forallb] in Hd. apply andb_true_iff in Hd. destruct Hd as [Hd Hd'].
  destruct (step_same v e imp w w' c c' Hc) as [E Hw']; [destruct (spells_digest c); [discriminate|reflexivity]|exact Hw|].
  cbn [run_from_lk]. destruct (step_lk v e imp w c) as [t [u o]], (step_lk v e imp w' c') as [t' [u' o']].
  cbn [fst snd] in *. subst t'. cbn [map fst]. f_equal. apply IH; assumption.
Qed.
Lemma empty_world_like : world_like empty_world empty_world.
Proof. repeat split; constructor. Qed.

Theorem program_same v t e prog prog' : Forall2 same_shape prog prog' ->
  forallb (fun c => negb (spells_digest c)) prog = true ->
  map fst (run_program_lk v t e prog) = map fst (run_program_lk v t e prog').
Proof. intros H Hd. apply run_from_same; [exact H|exact Hd|apply empty_world_like]. Qed.
