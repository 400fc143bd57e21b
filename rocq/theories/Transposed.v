(** The transposed SIMD back ends: every lane computes the portable
    compression function on its own job. *)
From Coq Require Import ZArith Arith NArith List Bool Lia ZifyBool ZifyNat ZifyN.
From Verif Require Import Base ByteLemmas Guts Portable Intrinsics KernelSpec LaneLemmas RowKernels Simd.
Import ListNotations.
Open Scope N_scope.

(** *** What is needed of the register operations *)
Record simd_ok (S : simd) : Prop := {
  ok_add : forall a b i, (i < s_degree S)%nat -> lane (wbytes (s_var S)) (s_add S a b) i =
     wrapping_add (s_var S) (lane (wbytes (s_var S)) a i) (lane (wbytes (s_var S)) b i);
  ok_xor : forall a b i, (i < s_degree S)%nat -> lane (wbytes (s_var S)) (s_xor S a b) i =
     N.lxor (lane (wbytes (s_var S)) a i) (lane (wbytes (s_var S)) b i);
  ok_and : forall a b i, (i < s_degree S)%nat -> lane (wbytes (s_var S)) (s_and S a b) i =
     N.land (lane (wbytes (s_var S)) a i) (lane (wbytes (s_var S)) b i);
  ok_negate_and : forall a b i, (i < s_degree S)%nat ->
     lane (wbytes (s_var S)) (s_negate_and S a b) i =
     N.ldiff (lane (wbytes (s_var S)) b i) (lane (wbytes (s_var S)) a i);
  ok_eq : forall a b i, (i < s_degree S)%nat -> lane (wbytes (s_var S)) (s_eq S a b) i =
     if N.eqb (lane (wbytes (s_var S)) a i) (lane (wbytes (s_var S)) b i)
     then wmod (s_var S) - 1 else 0;
  ok_set1 : forall x i, (i < s_degree S)%nat -> x < wmod (s_var S) ->
     lane (wbytes (s_var S)) (s_set1 S x) i = x;
  ok_setn : forall l i, (i < s_degree S)%nat -> wordsn (s_var S) (s_degree S) l ->
     lane (wbytes (s_var S)) (s_setn S l) i = nth i l 0;
  ok_rot1 : forall a i, (i < s_degree S)%nat -> lane (wbytes (s_var S)) (s_rot1 S a) i =
     rotate_right (s_var S) (lane (wbytes (s_var S)) a i) (rot1 (s_var S));
  ok_rot2 : forall a i, (i < s_degree S)%nat -> lane (wbytes (s_var S)) (s_rot2 S a) i =
     rotate_right (s_var S) (lane (wbytes (s_var S)) a i) (rot2 (s_var S));
  ok_rot3 : forall a i, (i < s_degree S)%nat -> lane (wbytes (s_var S)) (s_rot3 S a) i =
     rotate_right (s_var S) (lane (wbytes (s_var S)) a i) (rot3 (s_var S));
  ok_rot4 : forall a i, (i < s_degree S)%nat -> lane (wbytes (s_var S)) (s_rot4 S a) i =
     rotate_right (s_var S) (lane (wbytes (s_var S)) a i) (rot4 (s_var S));
  ok_transpose : forall vs, length vs = s_degree S -> length (s_transpose_vecs S vs) = s_degree S /\
     forall i k, (i < s_degree S)%nat -> (k < s_degree S)%nat ->
       lane (wbytes (s_var S)) (nth k (s_transpose_vecs S vs) []) i =
       lane (wbytes (s_var S)) (nth i vs []) k;
  ok_degree : In (s_degree S) [2; 4; 8]%nat
}.

Lemma map_bytes_nth w (out : list reg) vs d :
  map (fun k => map (fun i => bytes (nth k out []) (i * w) w) (seq 0 d)) (seq 0 d) =
  map (fun k => map (fun i => bytes (nth i vs []) (k * w) w) (seq 0 d)) (seq 0 d) ->
  forall i k, (i < d)%nat -> (k < d)%nat ->
  lane w (nth k out []) i = lane w (nth i vs []) k.
Proof.
  intros H i k Hi Hk.
  apply (f_equal (fun l => nth i (nth k l []) [])) in H. cbv beta in H.
  rewrite !nth_map_seq in H by auto. cbn [Nat.add] in H.
  unfold lane. rewrite H. reflexivity.
Qed.

Lemma avx2b_ok : simd_ok avx2b.
Proof.
  constructor; cbn [s_degree s_var avx2b].
  - intros a b i H. apply lane_add. auto.
  - intros a b i H. apply lane_xor. cbn [wbytes]. lia.
  - intros a b i H. apply lane_and. cbn [wbytes]. lia.
  - intros a b i H. apply lane_andnot. cbn [wbytes]. lia.
  - intros a b i H. apply (lane_eq 8 4 a b i). auto.
  - intros x i H Hx. apply (lane_set1 8 4). auto. exact Hx.
  - intros l i H Hl. pose proof (proj1 Hl) as L.
    do 4 (destruct l as [|? l]; [discriminate L|]). destruct l; [|discriminate L].
    apply (lane_load V2b 4 _ _ Hl H).
  - intros a i H. exact (lane_rot V2b 4 32 a 32 i H ltac:(cbn [wbytes]; lia)).
  - intros a i H. exact (lane_rot V2b 4 32 a 24 i H ltac:(cbn [wbytes]; lia)).
  - intros a i H. exact (lane_rot V2b 4 32 a 16 i H ltac:(cbn [wbytes]; lia)).
  - intros a i H. exact (lane_rot V2b 4 32 a 63 i H ltac:(cbn [wbytes]; lia)).
  - intros vs L. do 4 (destruct vs as [|? vs]; [discriminate L|]). destruct vs; [|discriminate L].
    split; [reflexivity|]. apply map_bytes_nth. vm_compute. reflexivity.
  - cbn. auto.
Qed.

Lemma sse41s_ok : simd_ok sse41s.
Proof.
  constructor; cbn [s_degree s_var sse41s].
  - intros a b i H. apply lane_add. auto.
  - intros a b i H. apply lane_xor. cbn [wbytes]. lia.
  - intros a b i H. apply lane_and. cbn [wbytes]. lia.
  - intros a b i H. apply lane_andnot. cbn [wbytes]. lia.
  - intros a b i H. apply (lane_eq 4 4 a b i). auto.
  - intros x i H Hx. apply (lane_set1 4 4). auto. exact Hx.
  - intros l i H Hl. pose proof (proj1 Hl) as L.
    do 4 (destruct l as [|? l]; [discriminate L|]). destruct l; [|discriminate L].
    apply (lane_load V2s 4 _ _ Hl H).
  - intros a i H. exact (lane_rot V2s 4 16 a 16 i H ltac:(cbn [wbytes]; lia)).
  - intros a i H. exact (lane_rot V2s 4 16 a 12 i H ltac:(cbn [wbytes]; lia)).
  - intros a i H. exact (lane_rot V2s 4 16 a 8 i H ltac:(cbn [wbytes]; lia)).
  - intros a i H. exact (lane_rot V2s 4 16 a 7 i H ltac:(cbn [wbytes]; lia)).
  - intros vs L. do 4 (destruct vs as [|? vs]; [discriminate L|]). destruct vs; [|discriminate L].
    split; [reflexivity|]. apply map_bytes_nth. vm_compute. reflexivity.
  - cbn. auto.
Qed.

Lemma avx2s_ok : simd_ok avx2s.
Proof.
  constructor; cbn [s_degree s_var avx2s].
  - intros a b i H. apply lane_add. auto.
  - intros a b i H. apply lane_xor. cbn [wbytes]. lia.
  - intros a b i H. apply lane_and. cbn [wbytes]. lia.
  - intros a b i H. apply lane_andnot. cbn [wbytes]. lia.
  - intros a b i H. apply (lane_eq 4 8 a b i). auto.
  - intros x i H Hx. apply (lane_set1 4 8). auto. exact Hx.
  - intros l i H Hl. pose proof (proj1 Hl) as L.
    do 8 (destruct l as [|? l]; [discriminate L|]). destruct l; [|discriminate L].
    apply (lane_load V2s 8 _ _ Hl H).
  - intros a i H. exact (lane_rot V2s 8 32 a 16 i H ltac:(cbn [wbytes]; lia)).
  - intros a i H. exact (lane_rot V2s 8 32 a 12 i H ltac:(cbn [wbytes]; lia)).
  - intros a i H. exact (lane_rot V2s 8 32 a 8 i H ltac:(cbn [wbytes]; lia)).
  - intros a i H. exact (lane_rot V2s 8 32 a 7 i H ltac:(cbn [wbytes]; lia)).
  - intros vs L. do 8 (destruct vs as [|? vs]; [discriminate L|]). destruct vs; [|discriminate L].
    split; [reflexivity|]. apply map_bytes_nth. vm_compute. reflexivity.
  - cbn. auto.
Qed.

Lemma sse41b_ok : simd_ok sse41b.
Proof.
  constructor; cbn [s_degree s_var sse41b].
  - intros a b i H. apply lane_add. auto.
  - intros a b i H. apply lane_xor. cbn [wbytes]. lia.
  - intros a b i H. apply lane_and. cbn [wbytes]. lia.
  - intros a b i H. apply lane_andnot. cbn [wbytes]. lia.
  - intros a b i H. apply (lane_eq 8 2 a b i). auto.
  - intros x i H Hx. apply (lane_set1 8 2). auto. exact Hx.
  - intros l i H Hl. pose proof (proj1 Hl) as L.
    do 2 (destruct l as [|? l]; [discriminate L|]). destruct l; [|discriminate L].
    apply (lane_load V2b 2 _ _ Hl H).
  - intros a i H. exact (lane_rot V2b 2 16 a 32 i H ltac:(cbn [wbytes]; lia)).
  - intros a i H. exact (lane_rot V2b 2 16 a 24 i H ltac:(cbn [wbytes]; lia)).
  - intros a i H. exact (lane_rot V2b 2 16 a 16 i H ltac:(cbn [wbytes]; lia)).
  - intros a i H. exact (lane_rot V2b 2 16 a 63 i H ltac:(cbn [wbytes]; lia)).
  - intros vs L. do 2 (destruct vs as [|? vs]; [discriminate L|]). destruct vs; [|discriminate L].
    split; [reflexivity|]. intros i k Hi Hk.
    assert (B : forall r j, lane 8 r j < lane_mod 8) by (intros; apply lane_lt).
    destruct k as [|[|k]]; [| |lia];
      (destruct i as [|[|i]]; [| |lia]); cbn [nth transpose_vecs_sse41b s_transpose_vecs sse41b wbytes at_ store_words seq map];
      unfold set2_sse41b, mm_set_epi64x; rewrite lane_from_lanes by (cbn; lia); cbn [nth];
      apply N.mod_small, B.
  - cbn. auto.
Qed.

(** *** The round program, word by word *)
Definition exec_word (v : variant) (r : nat) (m s : list N) (t : stmt) : list N :=
  match t with
  | AddM i k => set s i (wrapping_add v (at_ s i) (at_ m (sig v r k)))
  | Add i j => set s i (wrapping_add v (at_ s i) (at_ s j))
  | Xor i j => set s i (N.lxor (at_ s i) (at_ s j))
  | Rot1 i => set s i (rotate_right v (at_ s i) (rot1 v))
  | Rot2 i => set s i (rotate_right v (at_ s i) (rot2 v))
  | Rot3 i => set s i (rotate_right v (at_ s i) (rot3 v))
  | Rot4 i => set s i (rotate_right v (at_ s i) (rot4 v))
  end.

Definition halfstep (v : variant) (r1 r2 : N) (x : list N) (s : list N) : list N :=
  match s, x with
  | [v0; v1; v2; v3; v4; v5; v6; v7; v8; v9; v10; v11; v12; v13; v14; v15], [x0; x1; x2; x3] =>
      let '(v0, v4,  v8, v12) := gh v r1 r2 (v0, v4,  v8, v12) x0 in
      let '(v1, v5,  v9, v13) := gh v r1 r2 (v1, v5,  v9, v13) x1 in
      let '(v2, v6, v10, v14) := gh v r1 r2 (v2, v6, v10, v14) x2 in
      let '(v3, v7, v11, v15) := gh v r1 r2 (v3, v7, v11, v15) x3 in
      [v0; v1; v2; v3; v4; v5; v6; v7; v8; v9; v10; v11; v12; v13; v14; v15]
  | _, _ => s
  end.
Definition halfdiag (v : variant) (r1 r2 : N) (x : list N) (s : list N) : list N :=
  match s, x with
  | [v0; v1; v2; v3; v4; v5; v6; v7; v8; v9; v10; v11; v12; v13; v14; v15], [x0; x1; x2; x3] =>
      let '(v0, v5, v10, v15) := gh v r1 r2 (v0, v5, v10, v15) x0 in
      let '(v1, v6, v11, v12) := gh v r1 r2 (v1, v6, v11, v12) x1 in
      let '(v2, v7,  v8, v13) := gh v r1 r2 (v2, v7,  v8, v13) x2 in
      let '(v3, v4,  v9, v14) := gh v r1 r2 (v3, v4,  v9, v14) x3 in
      [v0; v1; v2; v3; v4; v5; v6; v7; v8; v9; v10; v11; v12; v13; v14; v15]
  | _, _ => s
  end.

Lemma program_round v r m s : length s = 16%nat ->
  fold_left (exec_word v r m) round_program s = round v r m s.
Proof.
  intros L. rewrite round_mixw by auto. set (M := fun k => at_ m (sig v r k)).
  replace round_program with
    (firstn 28 round_program ++ firstn 28 (skipn 28 round_program) ++
     firstn 28 (skipn 56 round_program) ++ skipn 84 round_program) by reflexivity.
  rewrite !fold_left_app.
  assert (P1 : forall s, length s = 16%nat ->
    fold_left (exec_word v r m) (firstn 28 round_program) s =
    halfstep v (rot1 v) (rot2 v) [M 0; M 2; M 4; M 6]%nat s).
  { clear s L. intros s L. apply len16 in L.
    destruct L as (a0 & a1 & a2 & a3 & a4 & a5 & a6 & a7 & a8 & a9 & a10 & a11 & a12 & a13 & a14 & a15 & ->).
    unfold M. unfold halfstep, gh.
    rewrite <- !(wa_swap v _ (at_ m _)). reflexivity. }
  assert (P2 : forall s, length s = 16%nat ->
    fold_left (exec_word v r m) (firstn 28 (skipn 28 round_program)) s =
    halfstep v (rot3 v) (rot4 v) [M 1; M 3; M 5; M 7]%nat s).
  { clear s L. intros s L. apply len16 in L.
    destruct L as (a0 & a1 & a2 & a3 & a4 & a5 & a6 & a7 & a8 & a9 & a10 & a11 & a12 & a13 & a14 & a15 & ->).
    unfold M. unfold halfstep, gh.
    rewrite <- !(wa_swap v _ (at_ m _)). reflexivity. }
  assert (P3 : forall s, length s = 16%nat ->
    fold_left (exec_word v r m) (firstn 28 (skipn 56 round_program)) s =
    halfdiag v (rot1 v) (rot2 v) [M 8; M 10; M 12; M 14]%nat s).
  { clear s L. intros s L. apply len16 in L.
    destruct L as (a0 & a1 & a2 & a3 & a4 & a5 & a6 & a7 & a8 & a9 & a10 & a11 & a12 & a13 & a14 & a15 & ->).
    unfold M. unfold halfdiag, gh.
    rewrite <- !(wa_swap v _ (at_ m _)). reflexivity. }
  assert (P4 : forall s, length s = 16%nat ->
    fold_left (exec_word v r m) (skipn 84 round_program) s =
    halfdiag v (rot3 v) (rot4 v) [M 9; M 11; M 13; M 15]%nat s).
  { clear s L. intros s L. apply len16 in L.
    destruct L as (a0 & a1 & a2 & a3 & a4 & a5 & a6 & a7 & a8 & a9 & a10 & a11 & a12 & a13 & a14 & a15 & ->).
    unfold M. unfold halfdiag, gh.
    rewrite <- !(wa_swap v _ (at_ m _)). reflexivity. }
  rewrite P1 by auto. clear P1.
  apply len16 in L.
  destruct L as (a0 & a1 & a2 & a3 & a4 & a5 & a6 & a7 & a8 & a9 & a10 & a11 & a12 & a13 & a14 & a15 & ->).
  unfold mixw, gw, halfstep at 1.
  Ltac gsplit :=
    match goal with
    | |- context [gh ?v ?r1 ?r2 (?a, ?b, ?c, ?d) ?x] =>
        destruct (gh v r1 r2 (a, b, c, d) x) as [[[? ?] ?] ?]
    end.
  gsplit. gsplit. gsplit. gsplit.
  rewrite P2 by reflexivity. unfold halfstep. gsplit. gsplit. gsplit. gsplit.
  rewrite P3 by reflexivity. unfold halfdiag at 1. gsplit. gsplit. gsplit. gsplit.
  rewrite P4 by reflexivity. unfold halfdiag. gsplit. gsplit. gsplit. gsplit.
  reflexivity.
Qed.

(** *** Lane [l] of a list of registers *)
Definition view (S : simd) (l : nat) (vs : list reg) : list N :=
  map (fun r => lane (wbytes (s_var S)) r l) vs.

Lemma lane_nil w l : lane w [] l = 0.
Proof.
  unfold lane, bytes, getb.
  replace (map _ (seq (l * w) w)) with (repeat x00 w).
  - apply from_le_zeros.
  - apply (nth_ext _ _ x00 x00); rewrite repeat_length.
    + rewrite map_length, seq_length. reflexivity.
    + intros n Hn. rewrite nth_repeat, nth_map_seq by auto. destruct (l * w + n)%nat; reflexivity.
Qed.

Lemma view_nth S l vs i : nth i (view S l vs) 0 = lane (wbytes (s_var S)) (nth i vs []) l.
Proof. unfold view. rewrite <- (lane_nil (wbytes (s_var S)) l) at 1. apply (map_nth (fun r => lane (wbytes (s_var S)) r l)). Qed.

Lemma view_set S l vs i x : view S l (set vs i x) = set (view S l vs) i (lane (wbytes (s_var S)) x l).
Proof. apply (map_set (fun r => lane (wbytes (s_var S)) r l)). Qed.

Lemma fold_left_morph {A B C} (P : A -> Prop) (f : A -> C -> A) (g : B -> C -> B) (phi : A -> B) :
  (forall a c, P a -> P (f a c) /\ phi (f a c) = g (phi a) c) ->
  forall cs a, P a -> phi (fold_left f cs a) = fold_left g cs (phi a).
Proof.
  intros H cs. induction cs as [|c cs IH]; intros a Pa; cbn [fold_left]; auto.
  destruct (H a c Pa) as [P' E]. rewrite <- E. auto.
Qed.

Section Lanes.
Variable S : simd.
Hypothesis OK : simd_ok S.
Variable l : nat.
Hypothesis Hl : (l < s_degree S)%nat.

Lemma exec_stmt_view r m vs t :
  view S l (exec_stmt S r m vs t) = exec_word (s_var S) r (view S l m) (view S l vs) t.
Proof.
  destruct t; cbn [exec_stmt exec_word]; rewrite view_set; unfold at_; rewrite !view_nth; f_equal.
  - apply ok_add; auto.
  - apply ok_add; auto.
  - apply ok_xor; auto.
  - apply ok_rot1; auto.
  - apply ok_rot2; auto.
  - apply ok_rot3; auto.
  - apply ok_rot4; auto.
Qed.

Lemma exec_stmts_view r m ts : forall vs,
  view S l (fold_left (exec_stmt S r m) ts vs) =
  fold_left (exec_word (s_var S) r (view S l m)) ts (view S l vs).
Proof.
  induction ts as [|t ts IH]; intros vs; cbn [fold_left]; auto.
  rewrite IH, exec_stmt_view. reflexivity.
Qed.

Lemma exec_stmt_length r m vs t : length (exec_stmt S r m vs t) = length vs.
Proof. destruct t; cbn [exec_stmt]; apply set_length. Qed.

Lemma simd_round_view m vs r : length vs = 16%nat ->
  view S l (simd_round S m vs r) = round (s_var S) r (view S l m) (view S l vs).
Proof.
  intros L. unfold simd_round. rewrite exec_stmts_view. apply program_round.
  unfold view. rewrite map_length. auto.
Qed.

Lemma simd_round_length m vs r : length (simd_round S m vs r) = length vs.
Proof.
  unfold simd_round. generalize round_program as ts. intros ts. revert vs.
  induction ts as [|t ts IH]; intros vs; cbn [fold_left]; auto.
  rewrite IH. apply exec_stmt_length.
Qed.

Lemma simd_rounds_view m rs vs : length vs = 16%nat ->
  view S l (fold_left (simd_round S m) rs vs) =
  fold_left (fun s r => round (s_var S) r (view S l m) s) rs (view S l vs).
Proof.
  intros L.
  apply (fold_left_morph (fun vs => length vs = 16%nat) (simd_round S m)
           (fun s r => round (s_var S) r (view S l m) s) (view S l)); auto.
  intros a r La. rewrite simd_round_length. split; auto. apply simd_round_view. auto.
Qed.

(** compress{N}_transposed! in lane [l] is compress_block. *)
Lemma compress_transposed_view h m clo chi lb ln block c f0 f1 :
  length h = 8%nat ->
  view S l m = msg_words (s_var S) block ->
  lane (wbytes (s_var S)) clo l = count_low (s_var S) c ->
  lane (wbytes (s_var S)) chi l = count_high (s_var S) c ->
  lane (wbytes (s_var S)) lb l = f0 -> lane (wbytes (s_var S)) ln l = f1 ->
  view S l (compress_transposed S h m clo chi lb ln) =
  compress_block (s_var S) block (view S l h) c f0 f1.
Proof.
  intros Lh Hm Hlo Hhi Hlb Hln. unfold compress_transposed, compress_block. cbv zeta.
  set (v0 := [nth 0 h []; nth 1 h []; nth 2 h []; nth 3 h []; nth 4 h []; nth 5 h [];
              nth 6 h []; nth 7 h []; _; _; _; _; _; _; _; _]).
  assert (I : view S l v0 = init_v (s_var S) (view S l h) c f0 f1).
  { unfold v0, init_v. unfold at_. rewrite !view_nth. unfold view. cbn [map].
    rewrite !ok_xor, !ok_set1 by (auto; apply Forall_nth_lt, iv_ok).
    rewrite Hlo, Hhi, Hlb, Hln. reflexivity. }
  set (vr := fold_left (simd_round S m) (seq 0 (num_rounds (s_var S))) v0).
  assert (R : view S l vr = fold_left (fun s r => round (s_var S) r (msg_words (s_var S) block) s)
                             (seq 0 (num_rounds (s_var S))) (init_v (s_var S) (view S l h) c f0 f1)).
  { unfold vr. rewrite simd_rounds_view by reflexivity. rewrite I, Hm. reflexivity. }
  rewrite <- R. clearbody vr. clear R I v0.
  unfold view at 1. rewrite map_map. apply map_ext. intros i.
  rewrite !ok_xor by auto. unfold at_. rewrite !view_nth. apply N.lxor_assoc.
Qed.
End Lanes.
