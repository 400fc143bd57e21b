(** The mixing rounds are invertible (C38). *)
From Coq Require Import ZArith Arith NArith List Bool Lia ZifyBool ZifyNat ZifyN.
From Verif Require Import Base ByteLemmas Guts Portable KernelSpec.
From Verif Require Spec.
Import ListNotations.
Open Scope N_scope.

(** *** Each operation has an inverse on words *)
Lemma rotate_back v x k : x < wmod v -> k <= wbits v ->
  rotate_right v (rotate_right v x k) (wbits v - k) = x.
Proof.
  intros H K.
  rewrite (rotr_rotate v (rotate_right v x k)) by (try apply rotate_right_lt; auto; lia).
  rewrite rotr_rotate by auto. unfold Spec.rotr.
  replace (wbits v - (wbits v - k)) with k by lia.
  unfold wmod in H.
  assert (P : 2 ^ wbits v = 2 ^ k * 2 ^ (wbits v - k)) by (rewrite <- N.pow_add_r; f_equal; lia).
  assert (K0 : 2 ^ k <> 0) by (apply N.pow_nonzero; lia).
  assert (K1 : 2 ^ (wbits v - k) <> 0) by (apply N.pow_nonzero; lia).
  assert (Q : x / 2 ^ k < 2 ^ (wbits v - k)) by (apply N.div_lt_upper_bound; [auto|rewrite <- P; auto]).
  rewrite N.div_add, N.mod_add by auto. rewrite N.div_small, (N.mod_small _ _ Q) by auto.
  rewrite (N.div_mod x (2 ^ k)) at 3 by auto. lia.
Qed.

Lemma rotate_forth v x k : x < wmod v -> k <= wbits v ->
  rotate_right v (rotate_right v x (wbits v - k)) k = x.
Proof.
  intros H K. pose proof (rotate_back v x (wbits v - k) H ltac:(lia)) as E.
  replace (wbits v - (wbits v - k)) with k in E by lia. exact E.
Qed.

Definition wrapping_sub (v : variant) (x y : N) : N := (x + wmod v - y) mod wmod v.
Lemma wrapping_sub_lt v x y : wrapping_sub v x y < wmod v.
Proof. apply N.mod_lt, wmod_nz. Qed.

Lemma add_sub v x y : x < wmod v -> y < wmod v -> wrapping_sub v (wrapping_add v x y) y = x.
Proof.
  unfold wrapping_sub, wrapping_add. intros X Y. destruct (N.ltb_spec (x + y) (wmod v)) as [L|L].
  - rewrite (N.mod_small (x + y)) by auto. replace (x + y + wmod v - y) with (x + 1 * wmod v) by lia.
    rewrite N.mod_add by apply wmod_nz. apply N.mod_small; auto.
  - replace (x + y) with (x + y - wmod v + 1 * wmod v) by lia. rewrite N.mod_add by apply wmod_nz.
    rewrite (N.mod_small (x + y - wmod v)) by lia. replace (x + y - wmod v + wmod v - y) with x by lia.
    apply N.mod_small; auto.
Qed.
Lemma sub_add v x y : x < wmod v -> y < wmod v -> wrapping_add v (wrapping_sub v x y) y = x.
Proof.
  unfold wrapping_sub, wrapping_add. intros X Y. rewrite N.add_mod_idemp_l by apply wmod_nz.
  replace (x + wmod v - y + y) with (x + 1 * wmod v) by lia.
  rewrite N.mod_add by apply wmod_nz. apply N.mod_small; auto.
Qed.

Lemma lxor_back a b : N.lxor (N.lxor a b) b = a.
Proof. rewrite N.lxor_assoc, N.lxor_nilpotent, N.lxor_0_r. reflexivity. Qed.

(** *** Half of G, backwards *)
Definition hg (v : variant) (r1 r2 : N) (s : N * N * N * N) (x : N) : N * N * N * N :=
  let '(a, b, c, d) := s in
  let b := N.lxor (rotate_right v b (wbits v - r2)) c in
  let c := wrapping_sub v c d in
  let d := N.lxor (rotate_right v d (wbits v - r1)) a in
  let a := wrapping_sub v (wrapping_sub v a x) b in
  (a, b, c, d).

Lemma hg_ok v r1 r2 s x : quad_ok v s -> quad_ok v (hg v r1 r2 s x).
Proof.
  destruct s as [[[a b] c] d]. unfold quad_ok, hg. intros (A & B & C & D).
  repeat split;
    repeat first [assumption | apply wrapping_sub_lt | apply rotate_right_lt | apply lxor_lt].
Qed.

Lemma hg_gh v r1 r2 s x : r1 <= wbits v -> r2 <= wbits v -> x < wmod v -> quad_ok v s ->
  hg v r1 r2 (gh v r1 r2 s x) x = s.
Proof.
  destruct s as [[[a b] c] d]. intros R1 R2 X (A & B & C & D). unfold gh, hg.
  assert (LX : forall p q, p < wmod v -> q < wmod v -> N.lxor p q < wmod v) by (intros; apply lxor_lt; auto).
  rewrite !rotate_back by
    (auto; repeat first [assumption | apply LX | apply wrapping_add_lt | apply rotate_right_lt]).
  rewrite !lxor_back.
  rewrite !add_sub by
    (repeat first [assumption | apply wrapping_add_lt | apply rotate_right_lt | apply LX]).
  reflexivity.
Qed.

Lemma gh_hg v r1 r2 s x : r1 <= wbits v -> r2 <= wbits v -> x < wmod v -> quad_ok v s ->
  gh v r1 r2 (hg v r1 r2 s x) x = s.
Proof.
  destruct s as [[[a b] c] d]. intros R1 R2 X (A & B & C & D). unfold gh, hg.
  assert (LX : forall p q, p < wmod v -> q < wmod v -> N.lxor p q < wmod v) by (intros; apply lxor_lt; auto).
  rewrite (sub_add v (wrapping_sub v a x)) by
    (repeat first [assumption | apply wrapping_sub_lt | apply rotate_right_lt | apply LX]).
  rewrite (sub_add v a) by assumption.
  rewrite lxor_back, rotate_forth by auto. rewrite sub_add by auto.
  rewrite lxor_back, rotate_forth by auto. reflexivity.
Qed.

Definition wg (v : variant) (s : N * N * N * N) (x y : N) : N * N * N * N :=
  hg v (rot1 v) (rot2 v) (hg v (rot3 v) (rot4 v) s y) x.

Lemma rots_ok v : rot1 v <= wbits v /\ rot2 v <= wbits v /\ rot3 v <= wbits v /\ rot4 v <= wbits v.
Proof. destruct v; cbv; repeat split; discriminate. Qed.

Lemma wg_ok v s x y : quad_ok v s -> quad_ok v (wg v s x y).
Proof. intros. apply hg_ok, hg_ok. auto. Qed.
Lemma wg_gw v s x y : x < wmod v -> y < wmod v -> quad_ok v s -> wg v (gw v s x y) x y = s.
Proof.
  intros X Y Q. destruct (rots_ok v) as (R1 & R2 & R3 & R4). unfold wg, gw.
  rewrite hg_gh by (auto using gh_ok). apply hg_gh; auto.
Qed.
Lemma gw_wg v s x y : x < wmod v -> y < wmod v -> quad_ok v s -> gw v (wg v s x y) x y = s.
Proof.
  intros X Y Q. destruct (rots_ok v) as (R1 & R2 & R3 & R4). unfold wg, gw.
  rewrite gh_hg by (auto using hg_ok). apply gh_hg; auto.
Qed.

(** *** A round, backwards *)
Definition unmix (v : variant) (m : nat -> N) (s : list N) : list N :=
  match s with
  | [v0; v1; v2; v3; v4; v5; v6; v7; v8; v9; v10; v11; v12; v13; v14; v15] =>
      let '(v3, v4,  v9, v14) := wg v (v3, v4,  v9, v14) (m 14%nat) (m 15%nat) in
      let '(v2, v7,  v8, v13) := wg v (v2, v7,  v8, v13) (m 12%nat) (m 13%nat) in
      let '(v1, v6, v11, v12) := wg v (v1, v6, v11, v12) (m 10%nat) (m 11%nat) in
      let '(v0, v5, v10, v15) := wg v (v0, v5, v10, v15) (m 8%nat) (m 9%nat) in
      let '(v3, v7, v11, v15) := wg v (v3, v7, v11, v15) (m 6%nat) (m 7%nat) in
      let '(v2, v6, v10, v14) := wg v (v2, v6, v10, v14) (m 4%nat) (m 5%nat) in
      let '(v1, v5,  v9, v13) := wg v (v1, v5,  v9, v13) (m 2%nat) (m 3%nat) in
      let '(v0, v4,  v8, v12) := wg v (v0, v4,  v8, v12) (m 0%nat) (m 1%nat) in
      [v0; v1; v2; v3; v4; v5; v6; v7; v8; v9; v10; v11; v12; v13; v14; v15]
  | _ => s
  end.

Lemma unmix_mixw v m s : (forall k, m k < wmod v) -> wordsn v 16 s -> unmix v m (mixw v m s) = s.
Proof.
  intros M [L H]. apply len16 in L.
  destruct L as (a0 & a1 & a2 & a3 & a4 & a5 & a6 & a7 & a8 & a9 & a10 & a11 & a12 & a13 & a14 & a15 & ->).
  repeat match goal with H : Forall _ (_ :: _) |- _ => inversion_clear H end.
  unfold mixw.
  Ltac fstep v M :=
    match goal with
    | |- context [gw v (?a, ?b, ?c, ?d) ?x ?y] =>
        let Q := fresh "Q" in let E := fresh "E" in
        assert (Q : quad_ok v (gw v (a, b, c, d) x y)) by (apply gw_ok; repeat split; assumption);
        assert (E : wg v (gw v (a, b, c, d) x y) x y = (a, b, c, d))
          by (apply wg_gw; [apply M|apply M|repeat split; assumption]);
        destruct (gw v (a, b, c, d) x y) as [[[? ?] ?] ?];
        destruct Q as (? & ? & ? & ?)
    end.
  do 8 fstep v M. cbn [unmix].
  repeat match goal with E : wg v _ _ _ = _ |- _ => rewrite E; clear E end. reflexivity.
Qed.

Lemma mixw_unmix v m s : (forall k, m k < wmod v) -> wordsn v 16 s ->
  wordsn v 16 (unmix v m s) /\ mixw v m (unmix v m s) = s.
Proof.
  intros M [L H]. apply len16 in L.
  destruct L as (a0 & a1 & a2 & a3 & a4 & a5 & a6 & a7 & a8 & a9 & a10 & a11 & a12 & a13 & a14 & a15 & ->).
  repeat match goal with H : Forall _ (_ :: _) |- _ => inversion_clear H end.
  unfold unmix.
  Ltac bstep v M :=
    match goal with
    | |- context [wg v (?a, ?b, ?c, ?d) ?x ?y] =>
        let Q := fresh "Q" in let E := fresh "E" in
        assert (Q : quad_ok v (wg v (a, b, c, d) x y)) by (apply wg_ok; repeat split; assumption);
        assert (E : gw v (wg v (a, b, c, d) x y) x y = (a, b, c, d))
          by (apply gw_wg; [apply M|apply M|repeat split; assumption]);
        destruct (wg v (a, b, c, d) x y) as [[[? ?] ?] ?];
        destruct Q as (? & ? & ? & ?)
    end.
  do 8 bstep v M. split; [split; [reflexivity|repeat constructor; assumption]|]. cbn [mixw].
  repeat match goal with E : gw v _ _ _ = _ |- _ => rewrite E; clear E end. reflexivity.
Qed.

(** *** All rounds of a block *)
Lemma round_bij v m r s : Forall (fun x => x < wmod v) m -> wordsn v 16 s ->
  wordsn v 16 (round v r m s) /\
  (forall s', wordsn v 16 s' -> round v r m s = round v r m s' -> s = s') /\
  (exists s', wordsn v 16 s' /\ round v r m s' = s).
Proof.
  intros M Hs. set (mm := fun k => at_ m (sig v r k)).
  assert (MM : forall k, mm k < wmod v) by (intros; apply Forall_nth_lt; auto).
  split; [|split].
  - rewrite round_mixw by apply Hs. apply mixw_spec. auto.
  - intros s' Hs' E. rewrite !round_mixw in E by (apply Hs || apply Hs').
    rewrite <- (unmix_mixw v mm s), <- (unmix_mixw v mm s') by auto. unfold mm. rewrite E. reflexivity.
  - destruct (mixw_unmix v mm s MM Hs) as [W E]. exists (unmix v mm s). split; auto.
    rewrite round_mixw by apply W. exact E.
Qed.

Definition rounds_of (v : variant) (m : list N) (s : list N) : list N :=
  fold_left (fun s r => round v r m s) (seq 0 (num_rounds v)) s.

Lemma iterate_bij {A B} (P : A -> Prop) (g : A -> B -> A) (rs : list B) :
  (forall r s, P s -> P (g s r) /\ (forall s', P s' -> g s r = g s' r -> s = s') /\ (exists s', P s' /\ g s' r = s)) ->
  forall s, P s ->
  P (fold_left g rs s) /\
  (forall s', P s' -> fold_left g rs s = fold_left g rs s' -> s = s') /\
  (exists s', P s' /\ fold_left g rs s' = s).
Proof.
  intros G. induction rs as [|r rs IH]; intros s Hs; cbn [fold_left].
  - repeat split; eauto.
  - destruct (G r s Hs) as (W & I & _). destruct (IH _ W) as (W2 & I2 & _).
    split; [exact W2|]. split.
    + intros s' Hs' E. apply I; auto. apply I2; auto. apply (G r s' Hs').
    + destruct (IH s Hs) as (_ & _ & (q & Wq & Eq)). destruct (G r q Wq) as (_ & _ & (q' & Wq' & Eq')).
      exists q'. split; auto. rewrite Eq'. exact Eq.
Qed.

Lemma rounds_bij v m rs : Forall (fun x => x < wmod v) m -> forall s, wordsn v 16 s ->
  wordsn v 16 (fold_left (fun s r => round v r m s) rs s) /\
  (forall s', wordsn v 16 s' ->
     fold_left (fun s r => round v r m s) rs s = fold_left (fun s r => round v r m s) rs s' -> s = s') /\
  (exists s', wordsn v 16 s' /\ fold_left (fun s r => round v r m s) rs s' = s).
Proof.
  intros M. apply (iterate_bij (wordsn v 16) (fun s r => round v r m s)).
  intros r s Hs. exact (round_bij v m r s M Hs).
Qed.
