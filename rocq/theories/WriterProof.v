(** The standard library's writers around a writer that always takes everything. *)
From Coq Require Import Arith NArith List Bool Lia.
From Coq Require Import Init.Byte.
From Verif Require Import Base Guts Impl Loops Lib FedProof Par ParFed Api BinSpec WriterSpec Writers.
Import ListNotations.
Open Scope list_scope.
Local Notation length := List.length.

Lemma slice_from_all {A} (l : list A) : slice_from l (length l) = Ret [].
Proof. unfold slice_from. rewrite Nat.leb_refl, skipn_all. reflexivity. Qed.

(** [T got held w]: the innermost writer has been given [got]; the layers hold [held], which comes next. *)
Record faithful {W} (w_ : writer W) (T : list byte -> list byte -> W -> Prop) : Prop := {
  f_write : forall g h w x, T g h w -> exists w' g' h',
    wr w_ w x = Ret (w', Some (length x)) /\ T g' h' w' /\ g' ++ h' = (g ++ h) ++ x;
  f_flush : forall g h w, T g h w -> exists w', fl_ w_ w = Ret (w', true) /\ T (g ++ h) [] w'
}.
Arguments f_write {W w_ T}. Arguments f_flush {W w_ T}.

Section Provided.
Context {W : Type} (w_ : writer W) (T : list byte -> list byte -> W -> Prop).
Hypothesis F : faithful w_ T.

Lemma put_all_ok w g h x : T g h w -> exists w' g' h',
  put_all w_ (length x) w x = Ret (w', true) /\ T g' h' w' /\ g' ++ h' = (g ++ h) ++ x.
Proof.
  intros H. destruct x as [|b x].
  { exists w, g, h. split; [reflexivity|]. split; [exact H|]. rewrite app_nil_r. reflexivity. }
  destruct (f_write F g h w (b :: x) H) as (w' & g' & h' & E & H' & A). exists w', g', h'.
  split; [|split; assumption]. cbn [length put_all]. rewrite E. cbn [bind]. cbn [length].
  change (S (length x)) with (length (b :: x)). rewrite slice_from_all. cbn [bind].
  destruct (length x); reflexivity.
Qed.
Lemma put_fmt_ok pieces : forall w g h, T g h w -> exists w' g' h',
  put_fmt w_ w pieces = Ret (w', true) /\ T g' h' w' /\ g' ++ h' = (g ++ h) ++ concat pieces.
Proof.
  induction pieces as [|x r IH]; intros w g h H; cbn [put_fmt concat].
  { exists w, g, h. split; [reflexivity|]. split; [exact H|]. rewrite app_nil_r. reflexivity. }
  destruct (put_all_ok w g h x H) as (w1 & g1 & h1 & E & H1 & A). rewrite E. cbn [bind].
  destruct (IH w1 g1 h1 H1) as (w2 & g2 & h2 & E2 & H2 & A2). exists w2, g2, h2.
  split; [exact E2|]. split; [exact H2|]. rewrite A2, A, <- !app_assoc. reflexivity.
Qed.
Lemma copy_ok evs d : delivers evs d ->
  Forall (fun ev => match ev with Got bs => (N.of_nat (length bs) <= 8192)%N | _ => True end) evs ->
  forall w g h n, T g h w -> exists w' g' h',
  copy_from w_ w evs n = Ret (w', if complete evs then Count (n + N.of_nat (length (delivered evs))) else Failure) /\
  T g' h' w' /\ g' ++ h' = (g ++ h) ++ delivered evs.
Proof.
  induction 1 as [r|bs r d NE D IH|r d D IH|r]; intros L w g h n H.
  - exists w, g, h. cbn. rewrite N.add_0_r, app_nil_r. auto.
  - inversion L as [|? ? Lb Lr]; subst. destruct bs as [|b bs]; [congruence|].
    set (x := b :: bs) in *.
    assert (CU : copy_from w_ w (Got x :: r) n =
      do _ <- assert_ (N.leb (N.of_nat (length x)) 8192);
      do '(w, ok) <- put_all w_ (length x) w x;
      if ok then copy_from w_ w r (n + N.of_nat (length x)) else Ret (w, Failure)) by reflexivity.
    rewrite CU. rewrite (proj2 (N.leb_le _ _) Lb). cbn [assert_ bind].
    destruct (put_all_ok w g h x H) as (w1 & g1 & h1 & E & H1 & A). rewrite E. cbn [bind].
    destruct (IH Lr w1 g1 h1 (n + N.of_nat (length x))%N H1) as (w2 & g2 & h2 & E2 & H2 & A2).
    exists w2, g2, h2. change (complete (Got x :: r)) with (complete r).
    change (delivered (Got x :: r)) with (x ++ delivered r).
    split; [|split; [exact H2|rewrite A2, A, <- !app_assoc; reflexivity]].
    rewrite E2, app_length, Nat2N.inj_add, N.add_assoc. reflexivity.
  - inversion L; subst. apply IH; assumption.
  - exists w, g, h. cbn. rewrite app_nil_r. auto.
Qed.
Lemma one_call_ok o w g h : proper o -> T g h w -> exists w' g' h',
  one_call w_ w o = Ret (w', right_answer o) /\ T g' h' w' /\ g' ++ h' = (g ++ h) ++ handed o /\ (o = Flush -> h' = []).
Proof.
  intros P H. destruct o as [x|x|ps| |evs]; cbn [one_call right_answer handed].
  - destruct (f_write F g h w x H) as (w' & g' & h' & E & H' & A). exists w', g', h'. rewrite E. repeat split; auto; discriminate.
  - destruct (put_all_ok w g h x H) as (w' & g' & h' & E & H' & A). exists w', g', h'. rewrite E. repeat split; auto; discriminate.
  - destruct (put_fmt_ok ps w g h H) as (w' & g' & h' & E & H' & A). exists w', g', h'. rewrite E. repeat split; auto; discriminate.
  - destruct (f_flush F g h w H) as (w' & E & H'). exists w', (g ++ h), []. rewrite E. rewrite !app_nil_r. repeat split; auto.
  - destruct P as ((d & D) & L). destruct (copy_ok evs d D L w g h 0%N H) as (w' & g' & h' & E & H' & A).
    exists w', g', h'. rewrite E, N.add_0_l. repeat split; auto; discriminate.
Qed.
Lemma calls_ok ops : forall w g h, Forall proper ops -> T g h w -> exists w' g' h',
  calls w_ w ops = Ret (w', map right_answer ops) /\ T g' h' w' /\ g' ++ h' = (g ++ h) ++ concat (map handed ops).
Proof.
  induction ops as [|o r IH]; intros w g h P H; cbn [calls map concat].
  { exists w, g, h. rewrite app_nil_r. auto. }
  inversion P as [|? ? Po Pr]; subst.
  destruct (one_call_ok o w g h Po H) as (w1 & g1 & h1 & E & H1 & A & _). rewrite E. cbn [bind].
  destruct (IH w1 g1 h1 Pr H1) as (w2 & g2 & h2 & E2 & H2 & A2). rewrite E2. cbn [bind].
  exists w2, g2, h2. split; [reflexivity|]. split; [exact H2|]. rewrite A2, A, <- !app_assoc. reflexivity.
Qed.
Lemma calls_app a b : forall w, calls w_ w (a ++ b) =
  do '(w, l) <- calls w_ w a; do '(w, m) <- calls w_ w b; Ret (w, l ++ m).
Proof.
  induction a as [|o a IH]; intros w; cbn [app calls bind].
  - destruct (calls w_ w b) as [[? ?]| | |]; reflexivity.
  - destruct (one_call w_ w o) as [[w1 x]| | |]; cbn [bind]; try reflexivity. rewrite IH.
    destruct (calls w_ w1 a) as [[w2 l]| | |]; cbn [bind]; try reflexivity.
    destruct (calls w_ w2 b) as [[w3 m]| | |]; reflexivity.
Qed.
Lemma calls_flush ops w g h : Forall proper ops -> T g h w -> exists w',
  calls w_ w (ops ++ [Flush]) = Ret (w', map right_answer ops ++ [Success]) /\ T ((g ++ h) ++ concat (map handed ops)) [] w'.
Proof.
  intros P H. destruct (calls_ok ops w g h P H) as (w1 & g1 & h1 & E & H1 & A). rewrite calls_app, E. cbn [bind calls one_call].
  destruct (f_flush F g1 h1 w1 H1) as (w2 & E2 & H2). rewrite E2. cbn [bind]. exists w2. rewrite <- A. auto.
Qed.

Lemma serve_ok {A} (p : client A) : forall w g h, T g h w -> exists w' g' h',
  serve w_ w p = Ret (w', yields p) /\ T g' h' w' /\ g' ++ h' = (g ++ h) ++ hands p.
Proof.
  induction p as [a|x k IH|k IH]; intros w g h H; cbn [serve yields hands].
  - exists w, g, h. rewrite app_nil_r. auto.
  - destruct (f_write F g h w x H) as (w1 & g1 & h1 & E & H1 & A1). rewrite E. cbn [bind].
    destruct (IH (Some (length x)) w1 g1 h1 H1) as (w2 & g2 & h2 & E2 & H2 & A2). exists w2, g2, h2.
    split; [exact E2|]. split; [exact H2|]. rewrite A2, A1, <- !app_assoc. reflexivity.
  - destruct (f_flush F g h w H) as (w1 & E & H1). rewrite E. cbn [bind].
    destruct (IH true w1 (g ++ h) [] H1) as (w2 & g2 & h2 & E2 & H2 & A2). exists w2, g2, h2.
    split; [exact E2|]. split; [exact H2|]. rewrite A2, app_nil_r. reflexivity.
Qed.

(** ** One layer more *)
Definition around (cap : nat) (g h : list byte) (b : buffered W) : Prop :=
  (length (bw_buf b) <= bw_cap b)%nat /\ bw_cap b = cap /\ exists h1, h = h1 ++ bw_buf b /\ T g h1 (bw_inner b).

Lemma flush_buf_ok cap g h b : around cap g h b -> exists b' g' h',
  flush_buf w_ b = Ret (b', true) /\ bw_buf b' = [] /\ bw_cap b' = bw_cap b /\ T g' h' (bw_inner b') /\ g' ++ h' = g ++ h.
Proof.
  intros (C & _ & h1 & -> & H). unfold flush_buf. destruct b as [w buf c]. cbn [bw_inner bw_buf bw_cap] in *.
  destruct buf as [|b buf].
  { cbn [flush_loop length bind]. eexists _, g, h1. split; [reflexivity|]. cbn. rewrite app_nil_r. auto. }
  destruct (f_write F g h1 w (b :: buf) H) as (w' & g' & h' & E & H' & A).
  cbn [length flush_loop]. rewrite E. cbn [bind length].
  change (S (length buf)) with (length (b :: buf)). rewrite slice_from_all. cbn [bind].
  eexists _, g', h'. split; [destruct (length buf); reflexivity|]. cbn. rewrite app_assoc. auto.
Qed.
Lemma buffered_faithful cap : faithful (buffered_writer w_) (around cap).
Proof.
  split.
  - intros g h b x H. cbn [wr buffered_writer]. unfold bw_write.
    destruct (Nat.ltb_spec (bw_cap b) (length (bw_buf b) + length x)) as [O|O].
    + destruct (flush_buf_ok cap g h b H) as (b1 & g1 & h1 & E & Eb & Ec & H1 & A). rewrite E. cbn [bind].
      destruct H as (_ & K & _).
      destruct (Nat.leb_spec (bw_cap b1) (length x)) as [D|D].
      * destruct (f_write F g1 h1 _ x H1) as (w2 & g2 & h2 & E2 & H2 & A2). rewrite E2. cbn [bind].
        eexists _, g2, h2. split; [reflexivity|]. split; [|rewrite A2, A; reflexivity].
        split; cbn [bw_buf bw_cap bw_inner]; rewrite Eb; [cbn; lia|]. split; [congruence|]. exists h2. rewrite app_nil_r. auto.
      * eexists _, g1, (h1 ++ x). split; [reflexivity|]. split; [|rewrite app_assoc, A; reflexivity].
        split; cbn [bw_buf bw_cap bw_inner]; rewrite Eb; cbn [app]; [lia|]. split; [congruence|]. exists h1. auto.
    + cbn [bind]. destruct H as (C & K & h1 & -> & H). destruct (Nat.leb_spec (bw_cap b) (length x)) as [D|D].
      * assert (Eb : bw_buf b = []) by (apply length_zero_iff_nil; lia).
        destruct (f_write F g h1 _ x H) as (w2 & g2 & h2 & E2 & H2 & A2). rewrite E2. cbn [bind].
        eexists _, g2, h2. split; [reflexivity|]. rewrite Eb, app_nil_r. split; [|exact A2].
        split; cbn [bw_buf bw_cap bw_inner]; [cbn; lia|]. split; [exact K|]. exists h2. rewrite app_nil_r. auto.
      * eexists _, g, ((h1 ++ bw_buf b) ++ x). split; [reflexivity|]. split; [|rewrite !app_assoc; reflexivity].
        split; cbn [bw_buf bw_cap bw_inner]; [rewrite app_length; exact O|]. split; [exact K|]. exists h1. rewrite app_assoc. auto.
  - intros g h b H. cbn [fl_ buffered_writer]. unfold bw_flush.
    destruct (flush_buf_ok cap g h b H) as (b1 & g1 & h1 & E & Eb & Ec & H1 & A). rewrite E. cbn [bind]. destruct H as (_ & K & _).
    destruct (f_flush F g1 h1 _ H1) as (w2 & E2 & H2). rewrite E2. cbn [bind]. eexists. split; [reflexivity|].
    split; cbn [bw_buf bw_cap bw_inner]; rewrite Eb; [cbn; lia|]. split; [congruence|]. exists []. rewrite <- A. auto.
Qed.
Lemma into_inner_ok cap g h b : around cap g h b -> exists w g' h', into_inner w_ b = Ret (Some w) /\ T g' h' w /\ g' ++ h' = g ++ h.
Proof.
  intros H. unfold into_inner. destruct (flush_buf_ok cap g h b H) as (b1 & g1 & h1 & E & Eb & Ec & H1 & A).
  rewrite E. cbn [bind]. eauto 6.
Qed.
End Provided.

(** ** Any number of layers *)
Section Layers.
Context {W : Type} (w_ : writer W) (T : list byte -> list byte -> W -> Prop).
Hypothesis F : faithful w_ T.
Fixpoint layered (caps : list nat) : list byte -> list byte -> layers (length caps) W -> Prop :=
  match caps with [] => T | c :: r => around (layered r) c end.
Lemma layered_faithful caps : faithful (layers_writer w_ (length caps)) (layered caps).
Proof. induction caps as [|c r IH]; [exact F|]. exact (buffered_faithful _ _ IH c). Qed.
Lemma layered_new caps g w : T g [] w -> layered caps g [] (layers_new caps w).
Proof.
  intros H. induction caps as [|c r IH]; [exact H|]. cbn [length layered layers_new].
  split; [cbn; lia|]. split; [reflexivity|]. exists []. auto.
Qed.
Lemma layered_inner caps : forall g h b, layered caps g h b ->
  exists w g' h', layers_inner w_ (length caps) b = Ret (Some w) /\ T g' h' w /\ g' ++ h' = g ++ h.
Proof.
  induction caps as [|c r IH]; intros g h b H; cbn [layers_inner length].
  { exists b, g, h. auto. }
  destruct (into_inner_ok _ _ (layered_faithful r) c g h b H) as (w & g1 & h1 & E & H1 & A). rewrite E. cbn [bind].
  destruct (IH g1 h1 w H1) as (w2 & g2 & h2 & E2 & H2 & A2). exists w2, g2, h2. split; [exact E2|]. split; [exact H2|]. congruence.
Qed.
(** No layer holds more than its capacity. *)
Lemma layered_ref (T0 : forall g h w, T g h w -> h = []) caps : forall g h b,
  layered caps g h b -> T g [] (layers_ref (length caps) b) /\ (length h <= list_sum caps)%nat.
Proof.
  induction caps as [|c r IH]; intros g h b H; cbn [layered layers_ref length] in *.
  { pose proof (T0 _ _ _ H). subst h. split; [exact H|cbn; lia]. }
  destruct H as (C & K & h1 & -> & H). destruct (IH _ _ _ H) as (A & B). split; [exact A|]. rewrite app_length. change (list_sum (c :: r)) with (c + list_sum r)%nat. lia.
Qed.
End Layers.

(** ** The hashes *)
Definition state_has v e c (g h : list byte) (s : state) : Prop := h = [] /\ holds v e c g s.
Lemma state_faithful v e c : faithful (state_writer v e) (state_has v e c).
Proof.
  split.
  - intros g h s x (-> & H). destruct (holds_update _ _ _ _ _ x H) as (s' & E & H' & _).
    exists s', (g ++ x), []. cbn [wr state_writer]. unfold Lib.write. rewrite E. cbn [bind]. rewrite !app_nil_r. split; [reflexivity|]. split; [split; auto|reflexivity].
  - intros g h s (-> & H). exists s. rewrite app_nil_r. split; [reflexivity|]. split; auto.
Qed.
Definition pstate_has v e c (g h : list byte) (s : pstate) : Prop := h = [] /\ pholds v e c g s.
Lemma pstate_faithful v e c : faithful (pstate_writer v e) (pstate_has v e c).
Proof.
  split.
  - intros g h s x (-> & H). destruct (pholds_update _ _ _ _ _ x H) as (s' & E & H' & _).
    exists s', (g ++ x), []. cbn [wr pstate_writer]. unfold p_write. rewrite E. cbn [bind]. rewrite !app_nil_r. split; [reflexivity|]. split; [split; auto|reflexivity].
  - intros g h s (-> & H). exists s. rewrite app_nil_r. split; [reflexivity|]. split; auto.
Qed.

Lemma hash_through {W} (w_ : writer W) (T : list byte -> list byte -> W -> Prop) : faithful w_ T -> (forall g h w, T g h w -> h = []) ->
  forall caps ops w, T [] [] w -> Forall proper ops ->
  let all := concat (map handed ops) in
  (exists b g h, calls (layers_writer w_ (length caps)) (layers_new caps w) ops = Ret (b, map right_answer ops) /\
     g ++ h = all /\ (length h <= list_sum caps)%nat /\ T g [] (layers_ref (length caps) b) /\
     exists w', layers_inner w_ (length caps) b = Ret (Some w') /\ T all [] w') /\
  (exists b, calls (layers_writer w_ (length caps)) (layers_new caps w) (ops ++ [Flush]) = Ret (b, map right_answer ops ++ [Success]) /\
     T all [] (layers_ref (length caps) b)).
Proof.
  intros F T0 caps ops w H P all. pose proof (layered_faithful w_ T F caps) as LF. pose proof (layered_new T caps [] w H) as L0.
  split.
  - destruct (calls_ok _ _ LF ops _ _ _ P L0) as (b & g & h & E & L & A). cbn [app] in A. exists b, g, h.
    destruct (layered_ref T T0 caps g h b L) as (R & B). split; [exact E|]. split; [exact A|]. split; [exact B|]. split; [exact R|].
    destruct (layered_inner w_ T F caps g h b L) as (w' & g' & h' & E' & H' & A'). exists w'. split; [exact E'|].
    pose proof (T0 _ _ _ H'). subst h'. rewrite app_nil_r in A'. rewrite A' in H'. unfold all. rewrite <- A. exact H'.
  - destruct (calls_flush _ _ LF ops _ _ _ P L0) as (b & E & L). cbn [app] in L. exists b. split; [exact E|].
    exact (proj1 (layered_ref T T0 caps _ _ b L)).
Qed.

Lemma serve_through {W A} (w_ : writer W) (T : list byte -> list byte -> W -> Prop) : faithful w_ T -> (forall g h w, T g h w -> h = []) ->
  forall caps (p : client A) w, T [] [] w ->
  exists b g h, serve (layers_writer w_ (length caps)) (layers_new caps w) p = Ret (b, yields p) /\
    g ++ h = hands p /\ (length h <= list_sum caps)%nat /\ T g [] (layers_ref (length caps) b) /\
    exists w', layers_inner w_ (length caps) b = Ret (Some w') /\ T (hands p) [] w'.
Proof.
  intros F T0 caps p w H. pose proof (layered_faithful w_ T F caps) as LF. pose proof (layered_new T caps [] w H) as L0.
  destruct (serve_ok _ _ LF p _ _ _ L0) as (b & g & h & E & L & A1). cbn [app] in A1. exists b, g, h.
  destruct (layered_ref T T0 caps g h b L) as (R & B). split; [exact E|]. split; [exact A1|]. split; [exact B|]. split; [exact R|].
  destruct (layered_inner w_ T F caps g h b L) as (w' & g' & h' & E' & H' & A'). exists w'. split; [exact E'|].
  pose proof (T0 _ _ _ H'). subst h'. rewrite app_nil_r in A'. rewrite A' in H'. rewrite <- A1. exact H'.
Qed.
