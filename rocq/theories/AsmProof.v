(** The straight-line code of Asm.v computes the kernels of the model. *)
From Coq Require Import Arith NArith List Bool Lia.
From Verif Require Import Base Guts Portable Intrinsics Avx2b Sse41s Simd Asm.
Import ListNotations.
Open Scope N_scope.

Definition at_reg (file : list value) (i : nat) (x : value) : Prop := nth_error file i = Some x.

Definition longer (file file' : list value) : Prop := exists ext, file' = file ++ ext.

Lemma longer_refl file : longer file file.
Proof. exists []. symmetry. apply app_nil_r. Qed.

Lemma longer_trans f g h : longer f g -> longer g h -> longer f h.
Proof. intros [a ->] [b ->]. exists (a ++ b). symmetry. apply app_assoc. Qed.

Lemma at_longer f g i x : longer f g -> at_reg f i x -> at_reg g i x.
Proof.
  intros [e ->] H. unfold at_reg in *.
  rewrite nth_error_app1; [exact H|]. apply nth_error_Some. congruence.
Qed.

(** Code written by [b] after [file] runs, adds registers, and reaches [P]. *)
Definition computes {A} (mem : memory) (file : list value) (b : build A)
    (P : list value -> A -> Prop) : Prop :=
  let '(c, a) := b (length file) in
  exists ext, exec mem file c = Some (file ++ ext) /\ length ext = length c /\ P (file ++ ext) a.

Lemma exec_app mem c1 : forall file c2,
  exec mem file (c1 ++ c2) =
  match exec mem file c1 with Some f => exec mem f c2 | None => None end.
Proof.
  induction c1 as [|i c1 IH]; intros file c2; cbn [app exec]; [reflexivity|].
  destruct (eval mem file i); [apply IH|reflexivity].
Qed.

Lemma c_done {A} mem file (a : A) (P : list value -> A -> Prop) : P file a -> computes mem file (done a) P.
Proof. intros H. exists []. cbn. rewrite app_nil_r. auto. Qed.

Lemma c_bind {A B} mem file (b : build A) (f : A -> build B) P Q :
  computes mem file b P ->
  (forall file' a, longer file file' -> P file' a -> computes mem file' (f a) Q) ->
  computes mem file (bbind b f) Q.
Proof.
  unfold computes, bbind. intros H K. destruct (b (length file)) as [c1 a].
  destruct H as (e1 & E1 & L1 & H).
  specialize (K (file ++ e1) a (ex_intro _ e1 eq_refl) H).
  rewrite app_length, L1 in K. destruct (f a (length file + length c1)%nat) as [c2 b2].
  destruct K as (e2 & E2 & L2 & K). exists (e1 ++ e2).
  rewrite exec_app, E1, E2, app_assoc. repeat split; [|exact K].
  rewrite !app_length. lia.
Qed.

Lemma c_weaken {A} mem file (b : build A) (P Q : list value -> A -> Prop) :
  computes mem file b P -> (forall file' a, longer file file' -> P file' a -> Q file' a) ->
  computes mem file b Q.
Proof.
  unfold computes. destruct (b (length file)) as [c a]. intros (e & E & L & H) K.
  exists e. repeat split; try assumption. apply K; [exists e; reflexivity|exact H].
Qed.

Lemma fetch_all file : forall is xs, Forall2 (at_reg file) is xs -> fetch file is = Some xs.
Proof.
  intros is xs H. induction H as [|i x is xs Hx H IH]; cbn [fetch]; [reflexivity|].
  rewrite Hx, IH. reflexivity.
Qed.

Lemma at_new file x : at_reg (file ++ [x]) (length file) x.
Proof. unfold at_reg. rewrite nth_error_app2, Nat.sub_diag; [reflexivity|lia]. Qed.

Lemma c_ins mem file i x :
  eval mem file i = Some x -> computes mem file (ins i) (fun f r => at_reg f r x).
Proof.
  intros H. unfold computes, ins. exists [x]. cbn [exec]. rewrite H. repeat split. apply at_new.
Qed.

Lemma c_op mem file o args xs x :
  Forall2 (at_reg file) args xs -> sem o xs = Some x ->
  computes mem file (op o args) (fun f r => at_reg f r x).
Proof. intros H S. apply c_ins. cbn [eval]. rewrite (fetch_all _ _ _ H). exact S. Qed.

(** Lists of registers that hold the elements of a list. *)
Definition all_at {X} (inj : X -> value) (file : list value) (l : list nat) (xs : list X) : Prop :=
  Forall2 (fun i x => at_reg file i (inj x)) l xs.

Lemma all_longer {X} (inj : X -> value) f g l xs : longer f g -> all_at inj f l xs -> all_at inj g l xs.
Proof. intros H K. induction K; constructor; eauto using at_longer. Qed.

Lemma all_length {X} (inj : X -> value) f l xs : all_at inj f l xs -> length l = length xs.
Proof. intros H. induction H; cbn; congruence. Qed.

Lemma all_nth {X} (inj : X -> value) f l xs d k :
  all_at inj f l xs -> (k < length xs)%nat -> at_reg f (nth k l 0%nat) (inj (nth k xs d)).
Proof.
  intros H. revert k. induction H as [|i x l xs Hx H IH]; intros k Hk; cbn in Hk; [lia|].
  destruct k; cbn; [exact Hx|]. apply IH. lia.
Qed.

Lemma all_set {X} (inj : X -> value) f l xs k i x :
  all_at inj f l xs -> at_reg f i (inj x) -> all_at inj f (set l k i) (set xs k x).
Proof.
  intros H Hx. revert k. induction H as [|j y l xs Hy H IH]; intros k; cbn; [constructor|].
  destruct k; constructor; auto. apply IH.
Qed.

Lemma all_app {X} (inj : X -> value) f l l' xs xs' :
  all_at inj f l xs -> all_at inj f l' xs' -> all_at inj f (l ++ l') (xs ++ xs').
Proof. apply Forall2_app. Qed.

Lemma all_firstn {X} (inj : X -> value) f n : forall l xs,
  all_at inj f l xs -> all_at inj f (firstn n l) (firstn n xs).
Proof.
  induction n; intros l xs H; cbn; [constructor|]. destruct H; constructor; auto. apply IHn. assumption.
Qed.

Lemma all_fetch {X} (inj : X -> value) f l xs : all_at inj f l xs -> fetch f l = Some (map inj xs).
Proof.
  intros H. apply fetch_all. induction H; cbn; constructor; auto.
Qed.

Lemma set_length {A} (l : list A) k x : length (set l k x) = length l.
Proof. revert k. induction l; intros [|k]; cbn; auto. Qed.

Lemma c_bmap {A B Y} mem (R : list value -> B -> Y -> Prop) (F : A -> Y) (f : A -> build B) :
  (forall g h b y, longer g h -> R g b y -> R h b y) ->
  forall l file (I : list value -> Prop),
  (forall g h, longer g h -> I g -> I h) ->
  I file ->
  (forall file' x, In x l -> I file' -> computes mem file' (f x) (fun g b => R g b (F x))) ->
  computes mem file (bmap f l) (fun g bs => I g /\ Forall2 (R g) bs (map F l)).
Proof.
  intros Hmono l. induction l as [|x l IH]; intros file I HI Hi H; cbn [bmap map].
  - apply c_done. split; [exact Hi|constructor].
  - eapply c_bind.
    + apply (H file x); [left; reflexivity|exact Hi].
    + intros f1 y L1 H1. cbn beta in H1. eapply c_bind.
      * apply (IH f1 (fun g => I g /\ R g y (F x))).
        -- intros g h L [A1 A2]. split; eauto.
        -- split; eauto.
        -- intros f2 x' Hin [A1 _]. apply H; [right; exact Hin|exact A1].
      * intros f2 ys L2 [[A1 A2] H2]. apply c_done. split; [exact A1|]. constructor; assumption.
Qed.

Lemma c_bfold {A S Y} mem (R : list value -> S -> Y -> Prop) (F : Y -> A -> Y) (f : S -> A -> build S) :
  forall l file s y (I : list value -> Prop),
  (forall g h, longer g h -> I g -> I h) ->
  I file -> R file s y ->
  (forall file' s y x, In x l -> I file' -> R file' s y -> computes mem file' (f s x) (fun g s => R g s (F y x))) ->
  computes mem file (bfold f l s) (fun g s => I g /\ R g s (fold_left F l y)).
Proof.
  intros l. induction l as [|x l IH]; intros file s y I HI Hi Hs H; cbn [bfold fold_left].
  - apply c_done. auto.
  - eapply c_bind; [apply (H file s y x); [left; reflexivity|exact Hi|exact Hs]|].
    intros f1 s1 L1 H1. cbn beta in H1. apply IH; eauto. intros. apply H; auto. right. assumption.
Qed.

Lemma computes_run {X} (inj : X -> value) mem args n b (ys : list X) (P : list value -> Prop) :
  length args = n ->
  computes mem args b (fun f l => P f /\ all_at inj f l ys) ->
  run (kernel_of n b) mem args = Some (map inj ys).
Proof.
  intros <- H. unfold run, kernel_of, computes in *. destruct (b (length args)) as [c o].
  destruct H as (e & E & _ & _ & H). cbn [a_code a_out]. rewrite E. apply (all_fetch _ _ _ _ H).
Qed.

(** Brings what is known about a file to a longer one. *)
Ltac lift_hyps f g L :=
  repeat match goal with
  | H : at_reg f ?i ?x |- _ => apply (at_longer f g i x L) in H
  | H : all_at ?inj f ?l ?x |- _ => apply (all_longer inj f g l x L) in H
  end.
Ltac fetch_tac :=
  repeat (apply Forall2_cons || apply Forall2_nil);
  first [ assumption | eassumption | (eapply all_nth with (inj := W) (d := 0); [eassumption|]) | (eapply all_nth with (inj := R) (d := []); [eassumption|]) ].
Ltac op_tac := eapply c_op; [fetch_tac | cbn [sem un bin]; reflexivity].
Ltac next f r :=
  let L := fresh "L" in let H := fresh "H" in
  intros f r L H; cbn beta in H;
  match type of L with longer ?g _ => lift_hyps g f L end; clear L.

(** *** portable.rs *)

Lemma word_g_computes mem v file s S a b c d x y X Y :
  all_at W file s S -> length S = 16%nat ->
  (a < 16)%nat -> (b < 16)%nat -> (c < 16)%nat -> (d < 16)%nat ->
  at_reg file x (W X) -> at_reg file y (W Y) ->
  computes mem file (word_g v s a b c d x y) (fun f s' => all_at W f s' (g v S a b c d X Y)).
Proof.
  intros Hs HS Ha Hb Hc Hd Hx Hy. unfold word_g, g, Portable.at_. cbv zeta beta.
  assert (SL : forall (l : list N) k z, length l = 16%nat -> length (set l k z) = 16%nat)
    by (intros; rewrite set_length; assumption).
  Ltac wop := op_tac; rewrite ?set_length; lia.
  Ltac wset k :=
    match goal with
    | H : at_reg ?f ?r (W ?z), K : all_at W ?f ?l ?S |- context[set ?l k ?r] =>
        pose proof (all_set W f l S k r z K H); clear K; clear H
    end.
  Ltac w1 f := eapply c_bind; [wop|let t := fresh "t" in next f t].
  Ltac w2 f g := eapply c_bind; [wop|let t := fresh "t" in next f t]; eapply c_bind; [wop|let t := fresh "t" in next g t].
  w2 f1 f2. wset a. w2 f3 f4. wset d. w1 f5. wset c. w2 f6 f7. wset b.
  w2 f8 f9. wset a. w2 f10 f11. wset d. w1 f12. wset c. w2 f13 f14. wset b.
  apply c_done. assumption.
Qed.

Lemma g_length v S a b c d X Y : length (g v S a b c d X Y) = length S.
Proof. unfold g. cbv zeta. rewrite !set_length. reflexivity. Qed.

Lemma sig_bound v r i : (r < num_rounds v)%nat -> (i < 16)%nat -> (sig v r i < 16)%nat.
Proof.
  intros Hr Hi.
  assert (K : forallb (fun r => forallb (fun i => Nat.ltb (sig v r i) 16) (seq 0 16)) (seq 0 (num_rounds v)) = true)
    by (destruct v; reflexivity).
  rewrite forallb_forall in K. specialize (K r). rewrite in_seq in K.
  assert (K' : forallb (fun i => Nat.ltb (sig v r i) 16) (seq 0 16) = true) by (apply K; lia).
  rewrite forallb_forall in K'. specialize (K' i). rewrite in_seq in K'.
  apply Nat.ltb_lt. apply K'. lia.
Qed.

Lemma word_round_computes mem v file m M s S r :
  all_at W file s S -> length S = 16%nat -> all_at W file m M -> length M = 16%nat -> (r < num_rounds v)%nat ->
  computes mem file (word_round v m s r)
    (fun f s' => all_at W f s' (Portable.round v r M S) /\ length (Portable.round v r M S) = 16%nat).
Proof.
  intros Hs HS Hm HM Hr. unfold word_round, Portable.round, Portable.at_. cbv zeta beta.
  assert (B : forall i, (i < 16)%nat -> (sig v r i < length M)%nat)
    by (intros; rewrite HM; apply sig_bound; assumption).
  Ltac gstep f :=
    eapply c_bind;
    [ eapply word_g_computes;
      [ eassumption | rewrite ?g_length; assumption | lia | lia | lia | lia
      | eapply all_nth with (d := 0); [eassumption|match goal with B : _ |- _ => apply B end; lia]
      | eapply all_nth with (d := 0); [eassumption|match goal with B : _ |- _ => apply B end; lia] ]
    | let t := fresh "t" in
      match goal with Hs : all_at W _ ?s _ |- computes _ _ (word_g _ ?s _ _ _ _ _ _) _ => clear Hs | _ => idtac end;
      next f t ].
  do 8 (let f := fresh "f" in gstep f).
  apply c_done. split; [assumption|]. rewrite !g_length. exact HS.
Qed.

Lemma word_block_computes mem v block words count last_block last_node :
  nth_error (m_blocks mem) 0 = Some block -> length block = blockbytes v ->
  nth_error (m_states mem) 0 = Some words -> length words = 8%nat ->
  computes mem [W count; W last_block; W last_node] (word_block v)
    (fun f l => True /\ all_at W f l (Portable.compress_block v block words count last_block last_node)).
Proof.
  intros Hb HB Hw HW. unfold word_block. cbv zeta beta.
  set (f0 := [W count; W last_block; W last_node]).
  assert (A0 : at_reg f0 0 (W count)) by reflexivity.
  assert (A1 : at_reg f0 1 (W last_block)) by reflexivity.
  assert (A2 : at_reg f0 2 (W last_node)) by reflexivity.
  clearbody f0.
  eapply c_bind.
  { apply (c_bmap mem (fun f i x => at_reg f i (W x)) (Portable.at_ words)) with (I := fun _ => True); auto.
    - intros; eapply at_longer; eassumption.
    - intros f i Hi _. apply in_seq in Hi. apply c_ins. cbn [eval]. rewrite Hw.
      rewrite (nth_error_nth' words 0) by lia. reflexivity. }
  intros f1 h L1 [_ Hh]. change (all_at W f1 h (map (Portable.at_ words) (seq 0 8))) in Hh.
  lift_hyps f0 f1 L1. clear L1.
  eapply c_bind.
  { apply (c_bmap mem (fun f i x => at_reg f i (W x)) (Portable.at_ (iv v))) with (I := fun _ => True); auto.
    - intros; eapply at_longer; eassumption.
    - intros f i Hi _. eapply c_op; [constructor|reflexivity]. }
  intros f2 ivs L2 [_ Hiv]. change (all_at W f2 ivs (map (Portable.at_ (iv v)) (seq 0 8))) in Hiv.
  lift_hyps f1 f2 L2. clear L2.
  assert (EI : map (Portable.at_ (iv v)) (seq 0 8) = iv v) by (destruct v; reflexivity).
  assert (LI : length (iv v) = 8%nat) by (destruct v; reflexivity).
  rewrite EI in Hiv.
  assert (EW : map (Portable.at_ words) (seq 0 8) = words).
  { do 8 (destruct words as [|? words]; [discriminate|]). destruct words; [reflexivity|discriminate]. }
  rewrite EW in Hh.
  eapply c_bind; [op_tac|next f3 lo]. eapply c_bind; [op_tac|next f4 hi].
  eapply c_bind; [op_tac; lia|next f5 v12]. eapply c_bind; [op_tac; lia|next f6 v13].
  eapply c_bind; [op_tac; lia|next f7 v14]. eapply c_bind; [op_tac; lia|next f8 v15].
  eapply c_bind.
  { apply (c_bmap mem (fun f i x => at_reg f i (W x))
             (fun i => from_le (firstn (wbytes v) (skipn (i * wbytes v) block)))) with (I := fun _ => True); auto.
    - intros; eapply at_longer; eassumption.
    - intros f i Hi _. apply in_seq in Hi. apply c_ins. cbn [eval]. rewrite Hb, HB.
      replace (Nat.leb (i * wbytes v + wbytes v) (blockbytes v)) with true; [reflexivity|].
      symmetry. apply Nat.leb_le. unfold blockbytes; destruct v; cbn [wbytes]; lia. }
  intros f9 m L9 [_ Hm]. change (all_at W f9 m (msg_words v block)) in Hm.
  lift_hyps f8 f9 L9. clear L9.
  assert (LM : length (msg_words v block) = 16%nat) by (unfold msg_words; rewrite map_length, seq_length; reflexivity).
  eapply c_bind.
  { apply (c_bfold mem (fun f s S => all_at W f s S /\ length S = 16%nat)
             (fun s r => Portable.round v r (msg_words v block) s))
      with (I := fun f => all_at W f m (msg_words v block) /\ all_at W f h words)
           (y := init_v v words count last_block last_node).
    - intros g h' L [B1 B2]. split; eapply all_longer; eassumption.
    - split; assumption.
    - split.
      + unfold init_v. rewrite <- EW at 1. 
        change (all_at W f9 (h ++ firstn 4 ivs ++ [v12; v13; v14; v15])
          (map (Portable.at_ words) (seq 0 8) ++ firstn 4 (map (Portable.at_ (iv v)) (seq 0 8)) ++
           [N.lxor (nth 4 (iv v) 0) (count_low v count); N.lxor (nth 5 (iv v) 0) (count_high v count);
            N.lxor (nth 6 (iv v) 0) last_block; N.lxor (nth 7 (iv v) 0) last_node])).
        rewrite EW, EI.
        apply all_app; [exact Hh|]. apply all_app; [apply all_firstn; exact Hiv|].
        repeat (apply Forall2_cons; [assumption|]). constructor.
      + reflexivity.
    - intros f s S r Hr [B1 _] [B3 B4]. apply in_seq in Hr. apply word_round_computes; auto. lia. }
  intros f10 s L10 [[_ Hh'] [Hs HS]]. clear L10.
  eapply c_weaken.
  - apply (c_bmap mem (fun f i x => at_reg f i (W x)))
      with (I := fun f => all_at W f h words /\
                 all_at W f s (fold_left (fun s r => Portable.round v r (msg_words v block) s)
                                 (seq 0 (num_rounds v)) (init_v v words count last_block last_node)))
           (F := fun i => N.lxor (Portable.at_ words i)
              (N.lxor (Portable.at_ (fold_left (fun s r => Portable.round v r (msg_words v block) s)
                                 (seq 0 (num_rounds v)) (init_v v words count last_block last_node)) i)
                      (Portable.at_ (fold_left (fun s r => Portable.round v r (msg_words v block) s)
                                 (seq 0 (num_rounds v)) (init_v v words count last_block last_node)) (i + 8)))).
    + intros; eapply at_longer; eassumption.
    + intros g h' L [B1 B2]. split; eapply all_longer; eassumption.
    + split; assumption.
    + intros f i Hi [B1 B2]. apply in_seq in Hi. unfold Portable.at_.
      eapply c_bind; [op_tac; rewrite HS; lia|next f11 t]. op_tac. lia.
  - intros f l _ [_ Hl]. split; [exact I|exact Hl].
Qed.

Theorem portable_run v block words count last_block last_node :
  length block = blockbytes v -> length words = 8%nat ->
  run (portable_asm v) {| m_blocks := [block]; m_states := [words] |} [W count; W last_block; W last_node] =
  Some (map W (Portable.compress_block v block words count last_block last_node)).
Proof.
  intros HB HW. eapply computes_run; [reflexivity|]. apply word_block_computes; auto.
Qed.
