(** The code of the row kernels (Asm.v) computes the row kernels of the model. *)
From Coq Require Import Arith NArith List Bool Lia.
From Verif Require Import Base Guts Portable Intrinsics Avx2b Sse41s Simd Asm AsmProof.
Import ListNotations.
Open Scope N_scope.

Definition rows_at (file : list value) (s : Asm.rows) (S : reg * reg * reg * reg) : Prop :=
  let '(a, b, c, d) := s in
  let '(A, B, C, D) := S in
  at_reg file a (R A) /\ at_reg file b (R B) /\ at_reg file c (R C) /\ at_reg file d (R D).

Lemma rows_longer f g s S : longer f g -> rows_at f s S -> rows_at g s S.
Proof.
  destruct s as [[[a b] c] d], S as [[[A B] C] D]. unfold rows_at. intros L (H1 & H2 & H3 & H4).
  repeat split; eapply at_longer; eassumption.
Qed.

Ltac lift_rows f g L :=
  repeat match goal with H : rows_at f ?s ?S |- _ => apply (rows_longer f g s S L) in H end.
Ltac next f r ::=
  let L := fresh "L" in let H := fresh "H" in
  intros f r L H; cbn beta in H;
  match type of L with longer ?g _ => lift_hyps g f L; lift_rows g f L end; clear L.
Ltac next_rows f r :=
  let L := fresh "L" in let H := fresh "H" in
  intros f r L H; cbn beta in H;
  match type of L with longer ?g _ => lift_hyps g f L;
    repeat match goal with K : rows_at g _ _ |- _ => clear K end end; clear L.
Ltac opstep f r := eapply c_bind; [op_tac|next f r].

(** *** blake2b/src/avx2.rs *)

Definition avx2_msgs_at (file : list value) (m : avx2_msgs) (X : Avx2b.msgs) : Prop :=
  let '(m0, m1, m2, m3, m4, m5, m6, m7) := m in
  let '(M0, M1, M2, M3, M4, M5, M6, M7) := X in
  at_reg file m0 (R M0) /\ at_reg file m1 (R M1) /\ at_reg file m2 (R M2) /\ at_reg file m3 (R M3) /\ at_reg file m4 (R M4) /\ at_reg file m5 (R M5) /\ at_reg file m6 (R M6) /\ at_reg file m7 (R M7).

Lemma avx2_msgs_longer f g m X : longer f g -> avx2_msgs_at f m X -> avx2_msgs_at g m X.
Proof.
  destruct m as [[[[[[[m0 m1] m2] m3] m4] m5] m6] m7], X as [[[[[[[M0 M1] M2] M3] M4] M5] M6] M7].
  unfold avx2_msgs_at. intros L H. decompose [and] H. repeat split; eapply at_longer; eassumption.
Qed.

Lemma avx2_rot32_computes mem file i x :
  at_reg file i (R x) -> computes mem file (avx2_rot 32 i) (fun f i => at_reg f i (R (Avx2b.rot32 x))).
Proof. intros H. unfold avx2_rot. opstep f1 r. opstep f2 l. op_tac. Qed.

Lemma avx2_rot24_computes mem file i x :
  at_reg file i (R x) -> computes mem file (avx2_rot 24 i) (fun f i => at_reg f i (R (Avx2b.rot24 x))).
Proof. intros H. unfold avx2_rot. opstep f1 r. opstep f2 l. op_tac. Qed.

Lemma avx2_rot16_computes mem file i x :
  at_reg file i (R x) -> computes mem file (avx2_rot 16 i) (fun f i => at_reg f i (R (Avx2b.rot16 x))).
Proof. intros H. unfold avx2_rot. opstep f1 r. opstep f2 l. op_tac. Qed.

Lemma avx2_rot63_computes mem file i x :
  at_reg file i (R x) -> computes mem file (avx2_rot 63 i) (fun f i => at_reg f i (R (Avx2b.rot63 x))).
Proof. intros H. unfold avx2_rot. opstep f1 r. opstep f2 l. op_tac. Qed.

Lemma avx2_g1_computes mem file s S m M :
  rows_at file s S -> at_reg file m (R M) ->
  computes mem file (avx2_g1 s m) (fun f s => rows_at f s (Avx2b.g1 S M)).
Proof.
  destruct s as [[[a b] c] d], S as [[[A B] C] D]. unfold rows_at. intros (Ha & Hb & Hc & Hd) Hm.
  unfold avx2_g1, Avx2b.g1, Avx2b.add, Avx2b.xor.
  opstep f1 a1. opstep f2 a2. opstep f3 d1.
  eapply c_bind; [eapply avx2_rot32_computes; eassumption|next f4 d2].
  opstep f5 c1. opstep f6 b1.
  eapply c_bind; [eapply avx2_rot24_computes; eassumption|next f7 b2].
  apply c_done. repeat split; assumption.
Qed.

Lemma avx2_g2_computes mem file s S m M :
  rows_at file s S -> at_reg file m (R M) ->
  computes mem file (avx2_g2 s m) (fun f s => rows_at f s (Avx2b.g2 S M)).
Proof.
  destruct s as [[[a b] c] d], S as [[[A B] C] D]. unfold rows_at. intros (Ha & Hb & Hc & Hd) Hm.
  unfold avx2_g2, Avx2b.g2, Avx2b.add, Avx2b.xor.
  opstep f1 a1. opstep f2 a2. opstep f3 d1.
  eapply c_bind; [eapply avx2_rot16_computes; eassumption|next f4 d2].
  opstep f5 c1. opstep f6 b1.
  eapply c_bind; [eapply avx2_rot63_computes; eassumption|next f7 b2].
  apply c_done. repeat split; assumption.
Qed.

Lemma avx2_diagonalize_computes mem file s S :
  rows_at file s S ->
  computes mem file (avx2_diagonalize s) (fun f s => rows_at f s (Avx2b.diagonalize S)).
Proof.
  destruct s as [[[a b] c] d], S as [[[A B] C] D]. unfold rows_at. intros (Ha & Hb & Hc & Hd).
  unfold avx2_diagonalize, Avx2b.diagonalize.
  opstep f1 a1. opstep f2 a2. opstep f3 d1.
  apply c_done. repeat split; assumption.
Qed.

Lemma avx2_undiagonalize_computes mem file s S :
  rows_at file s S ->
  computes mem file (avx2_undiagonalize s) (fun f s => rows_at f s (Avx2b.undiagonalize S)).
Proof.
  destruct s as [[[a b] c] d], S as [[[A B] C] D]. unfold rows_at. intros (Ha & Hb & Hc & Hd).
  unfold avx2_undiagonalize, Avx2b.undiagonalize.
  opstep f1 a1. opstep f2 a2. opstep f3 d1.
  apply c_done. repeat split; assumption.
Qed.

Ltac avx2_round_tac m X H :=
  destruct m as [[[[[[[m0 m1] m2] m3] m4] m5] m6] m7], X as [[[[[[[M0 M1] M2] M3] M4] M5] M6] M7];
  unfold avx2_msgs_at in H; decompose [and] H; clear H;
  repeat first
    [ eapply c_bind; [op_tac|let f := fresh "f" in let r := fresh "r" in next f r]
    | eapply c_bind; [eapply avx2_g1_computes; eassumption|let f := fresh "f" in let s := fresh "s" in next_rows f s]
    | eapply c_bind; [eapply avx2_g2_computes; eassumption|let f := fresh "f" in let s := fresh "s" in next_rows f s]
    | eapply c_bind; [eapply avx2_diagonalize_computes; eassumption|let f := fresh "f" in let s := fresh "s" in next_rows f s]
    | eapply c_bind; [eapply avx2_undiagonalize_computes; eassumption|let f := fresh "f" in let s := fresh "s" in next_rows f s] ];
  apply c_done; assumption.

Lemma avx2_round1_computes mem file m X s S :
  avx2_msgs_at file m X -> rows_at file s S ->
  computes mem file (avx2_round1 m s) (fun f s => rows_at f s (Avx2b.round1 X S)).
Proof. intros H Hs. unfold avx2_round1, Avx2b.round1. avx2_round_tac m X H. Qed.

Lemma avx2_round2_computes mem file m X s S :
  avx2_msgs_at file m X -> rows_at file s S ->
  computes mem file (avx2_round2 m s) (fun f s => rows_at f s (Avx2b.round2 X S)).
Proof. intros H Hs. unfold avx2_round2, Avx2b.round2. avx2_round_tac m X H. Qed.

Lemma avx2_round3_computes mem file m X s S :
  avx2_msgs_at file m X -> rows_at file s S ->
  computes mem file (avx2_round3 m s) (fun f s => rows_at f s (Avx2b.round3 X S)).
Proof. intros H Hs. unfold avx2_round3, Avx2b.round3. avx2_round_tac m X H. Qed.

Lemma avx2_round4_computes mem file m X s S :
  avx2_msgs_at file m X -> rows_at file s S ->
  computes mem file (avx2_round4 m s) (fun f s => rows_at f s (Avx2b.round4 X S)).
Proof. intros H Hs. unfold avx2_round4, Avx2b.round4. avx2_round_tac m X H. Qed.

Lemma avx2_round5_computes mem file m X s S :
  avx2_msgs_at file m X -> rows_at file s S ->
  computes mem file (avx2_round5 m s) (fun f s => rows_at f s (Avx2b.round5 X S)).
Proof. intros H Hs. unfold avx2_round5, Avx2b.round5. avx2_round_tac m X H. Qed.

Lemma avx2_round6_computes mem file m X s S :
  avx2_msgs_at file m X -> rows_at file s S ->
  computes mem file (avx2_round6 m s) (fun f s => rows_at f s (Avx2b.round6 X S)).
Proof. intros H Hs. unfold avx2_round6, Avx2b.round6. avx2_round_tac m X H. Qed.

Lemma avx2_round7_computes mem file m X s S :
  avx2_msgs_at file m X -> rows_at file s S ->
  computes mem file (avx2_round7 m s) (fun f s => rows_at f s (Avx2b.round7 X S)).
Proof. intros H Hs. unfold avx2_round7, Avx2b.round7. avx2_round_tac m X H. Qed.

Lemma avx2_round8_computes mem file m X s S :
  avx2_msgs_at file m X -> rows_at file s S ->
  computes mem file (avx2_round8 m s) (fun f s => rows_at f s (Avx2b.round8 X S)).
Proof. intros H Hs. unfold avx2_round8, Avx2b.round8. avx2_round_tac m X H. Qed.

Lemma avx2_round9_computes mem file m X s S :
  avx2_msgs_at file m X -> rows_at file s S ->
  computes mem file (avx2_round9 m s) (fun f s => rows_at f s (Avx2b.round9 X S)).
Proof. intros H Hs. unfold avx2_round9, Avx2b.round9. avx2_round_tac m X H. Qed.

Lemma avx2_round10_computes mem file m X s S :
  avx2_msgs_at file m X -> rows_at file s S ->
  computes mem file (avx2_round10 m s) (fun f s => rows_at f s (Avx2b.round10 X S)).
Proof. intros H Hs. unfold avx2_round10, Avx2b.round10. avx2_round_tac m X H. Qed.

Lemma avx2_round11_computes mem file m X s S :
  avx2_msgs_at file m X -> rows_at file s S ->
  computes mem file (avx2_round11 m s) (fun f s => rows_at f s (Avx2b.round11 X S)).
Proof. intros H Hs. unfold avx2_round11, Avx2b.round11. avx2_round_tac m X H. Qed.

Lemma avx2_round12_computes mem file m X s S :
  avx2_msgs_at file m X -> rows_at file s S ->
  computes mem file (avx2_round12 m s) (fun f s => rows_at f s (Avx2b.round12 X S)).
Proof. intros H Hs. unfold avx2_round12, Avx2b.round12. avx2_round_tac m X H. Qed.

(** *** blake2s/src/sse41.rs *)

Definition sse41_msgs_at (file : list value) (m : sse41_msgs) (X : Sse41s.msgs) : Prop :=
  let '(m0, m1, m2, m3) := m in
  let '(M0, M1, M2, M3) := X in
  at_reg file m0 (R M0) /\ at_reg file m1 (R M1) /\ at_reg file m2 (R M2) /\ at_reg file m3 (R M3).

Lemma sse41_msgs_longer f g m X : longer f g -> sse41_msgs_at f m X -> sse41_msgs_at g m X.
Proof.
  destruct m as [[[m0 m1] m2] m3], X as [[[M0 M1] M2] M3].
  unfold sse41_msgs_at. intros L H. decompose [and] H. repeat split; eapply at_longer; eassumption.
Qed.

Lemma sse41_rot16_computes mem file i x :
  at_reg file i (R x) -> computes mem file (sse41_rot 16 i) (fun f i => at_reg f i (R (Sse41s.rot16 x))).
Proof. intros H. unfold sse41_rot. opstep f1 r. opstep f2 l. op_tac. Qed.

Lemma sse41_rot12_computes mem file i x :
  at_reg file i (R x) -> computes mem file (sse41_rot 12 i) (fun f i => at_reg f i (R (Sse41s.rot12 x))).
Proof. intros H. unfold sse41_rot. opstep f1 r. opstep f2 l. op_tac. Qed.

Lemma sse41_rot8_computes mem file i x :
  at_reg file i (R x) -> computes mem file (sse41_rot 8 i) (fun f i => at_reg f i (R (Sse41s.rot8 x))).
Proof. intros H. unfold sse41_rot. opstep f1 r. opstep f2 l. op_tac. Qed.

Lemma sse41_rot7_computes mem file i x :
  at_reg file i (R x) -> computes mem file (sse41_rot 7 i) (fun f i => at_reg f i (R (Sse41s.rot7 x))).
Proof. intros H. unfold sse41_rot. opstep f1 r. opstep f2 l. op_tac. Qed.

Lemma sse41_g1_computes mem file s S m M :
  rows_at file s S -> at_reg file m (R M) ->
  computes mem file (sse41_g1 s m) (fun f s => rows_at f s (Sse41s.g1 S M)).
Proof.
  destruct s as [[[a b] c] d], S as [[[A B] C] D]. unfold rows_at. intros (Ha & Hb & Hc & Hd) Hm.
  unfold sse41_g1, Sse41s.g1, Sse41s.add, Sse41s.xor.
  opstep f1 a1. opstep f2 a2. opstep f3 d1.
  eapply c_bind; [eapply sse41_rot16_computes; eassumption|next f4 d2].
  opstep f5 c1. opstep f6 b1.
  eapply c_bind; [eapply sse41_rot12_computes; eassumption|next f7 b2].
  apply c_done. repeat split; assumption.
Qed.

Lemma sse41_g2_computes mem file s S m M :
  rows_at file s S -> at_reg file m (R M) ->
  computes mem file (sse41_g2 s m) (fun f s => rows_at f s (Sse41s.g2 S M)).
Proof.
  destruct s as [[[a b] c] d], S as [[[A B] C] D]. unfold rows_at. intros (Ha & Hb & Hc & Hd) Hm.
  unfold sse41_g2, Sse41s.g2, Sse41s.add, Sse41s.xor.
  opstep f1 a1. opstep f2 a2. opstep f3 d1.
  eapply c_bind; [eapply sse41_rot8_computes; eassumption|next f4 d2].
  opstep f5 c1. opstep f6 b1.
  eapply c_bind; [eapply sse41_rot7_computes; eassumption|next f7 b2].
  apply c_done. repeat split; assumption.
Qed.

Lemma sse41_diagonalize_computes mem file s S :
  rows_at file s S ->
  computes mem file (sse41_diagonalize s) (fun f s => rows_at f s (Sse41s.diagonalize S)).
Proof.
  destruct s as [[[a b] c] d], S as [[[A B] C] D]. unfold rows_at. intros (Ha & Hb & Hc & Hd).
  unfold sse41_diagonalize, Sse41s.diagonalize.
  opstep f1 a1. opstep f2 a2. opstep f3 d1.
  apply c_done. repeat split; assumption.
Qed.

Lemma sse41_undiagonalize_computes mem file s S :
  rows_at file s S ->
  computes mem file (sse41_undiagonalize s) (fun f s => rows_at f s (Sse41s.undiagonalize S)).
Proof.
  destruct s as [[[a b] c] d], S as [[[A B] C] D]. unfold rows_at. intros (Ha & Hb & Hc & Hd).
  unfold sse41_undiagonalize, Sse41s.undiagonalize.
  opstep f1 a1. opstep f2 a2. opstep f3 d1.
  apply c_done. repeat split; assumption.
Qed.

Ltac sse41_round_tac m X H :=
  destruct m as [[[m0 m1] m2] m3], X as [[[M0 M1] M2] M3];
  unfold sse41_msgs_at in H; decompose [and] H; clear H;
  repeat first
    [ eapply c_bind; [op_tac|let f := fresh "f" in let r := fresh "r" in next f r]
    | eapply c_bind; [eapply sse41_g1_computes; eassumption|let f := fresh "f" in let s := fresh "s" in next_rows f s]
    | eapply c_bind; [eapply sse41_g2_computes; eassumption|let f := fresh "f" in let s := fresh "s" in next_rows f s]
    | eapply c_bind; [eapply sse41_diagonalize_computes; eassumption|let f := fresh "f" in let s := fresh "s" in next_rows f s]
    | eapply c_bind; [eapply sse41_undiagonalize_computes; eassumption|let f := fresh "f" in let s := fresh "s" in next_rows f s] ];
  apply c_done; assumption.

Lemma sse41_round1_computes mem file m X s S :
  sse41_msgs_at file m X -> rows_at file s S ->
  computes mem file (sse41_round1 m s) (fun f s => rows_at f s (Sse41s.round1 X S)).
Proof. intros H Hs. unfold sse41_round1, Sse41s.round1. sse41_round_tac m X H. Qed.

Lemma sse41_round2_computes mem file m X s S :
  sse41_msgs_at file m X -> rows_at file s S ->
  computes mem file (sse41_round2 m s) (fun f s => rows_at f s (Sse41s.round2 X S)).
Proof. intros H Hs. unfold sse41_round2, Sse41s.round2. sse41_round_tac m X H. Qed.

Lemma sse41_round3_computes mem file m X s S :
  sse41_msgs_at file m X -> rows_at file s S ->
  computes mem file (sse41_round3 m s) (fun f s => rows_at f s (Sse41s.round3 X S)).
Proof. intros H Hs. unfold sse41_round3, Sse41s.round3. sse41_round_tac m X H. Qed.

Lemma sse41_round4_computes mem file m X s S :
  sse41_msgs_at file m X -> rows_at file s S ->
  computes mem file (sse41_round4 m s) (fun f s => rows_at f s (Sse41s.round4 X S)).
Proof. intros H Hs. unfold sse41_round4, Sse41s.round4. sse41_round_tac m X H. Qed.

Lemma sse41_round5_computes mem file m X s S :
  sse41_msgs_at file m X -> rows_at file s S ->
  computes mem file (sse41_round5 m s) (fun f s => rows_at f s (Sse41s.round5 X S)).
Proof. intros H Hs. unfold sse41_round5, Sse41s.round5. sse41_round_tac m X H. Qed.

Lemma sse41_round6_computes mem file m X s S :
  sse41_msgs_at file m X -> rows_at file s S ->
  computes mem file (sse41_round6 m s) (fun f s => rows_at f s (Sse41s.round6 X S)).
Proof. intros H Hs. unfold sse41_round6, Sse41s.round6. sse41_round_tac m X H. Qed.

Lemma sse41_round7_computes mem file m X s S :
  sse41_msgs_at file m X -> rows_at file s S ->
  computes mem file (sse41_round7 m s) (fun f s => rows_at f s (Sse41s.round7 X S)).
Proof. intros H Hs. unfold sse41_round7, Sse41s.round7. sse41_round_tac m X H. Qed.

Lemma sse41_round8_computes mem file m X s S :
  sse41_msgs_at file m X -> rows_at file s S ->
  computes mem file (sse41_round8 m s) (fun f s => rows_at f s (Sse41s.round8 X S)).
Proof. intros H Hs. unfold sse41_round8, Sse41s.round8. sse41_round_tac m X H. Qed.

Lemma sse41_round9_computes mem file m X s S :
  sse41_msgs_at file m X -> rows_at file s S ->
  computes mem file (sse41_round9 m s) (fun f s => rows_at f s (Sse41s.round9 X S)).
Proof. intros H Hs. unfold sse41_round9, Sse41s.round9. sse41_round_tac m X H. Qed.

Lemma sse41_round10_computes mem file m X s S :
  sse41_msgs_at file m X -> rows_at file s S ->
  computes mem file (sse41_round10 m s) (fun f s => rows_at f s (Sse41s.round10 X S)).
Proof. intros H Hs. unfold sse41_round10, Sse41s.round10. sse41_round_tac m X H. Qed.

Lemma avx2_chunk_computes mem file i block :
  nth_error (m_blocks mem) 0 = Some block -> length block = 128%nat -> (i < 8)%nat ->
  computes mem file (avx2_chunk i)
    (fun f r => at_reg f r (R (mm256_broadcastsi128_si256 (loadu_bytes 16 block (16 * i))))).
Proof.
  intros Hb HB Hi. unfold avx2_chunk. eapply c_bind.
  - apply c_ins. cbn [eval]. rewrite Hb, HB.
    replace (Nat.leb (16 * i + 16) 128) with true; [reflexivity|]. symmetry. apply Nat.leb_le. lia.
  - next f x. op_tac.
Qed.

Ltac store_words_tac :=
  match goal with |- computes _ _ (bbind (bmap (fun i => op (i_lane ?w i) [?a]) (seq 0 4)) _) _ =>
    match goal with K : at_reg _ a (R ?A) |- _ =>
    eapply c_bind;
    [ eapply (c_bmap _ (fun f i x => at_reg f i (W x)) (lane w A)) with (I := fun f => at_reg f a (R A));
      [ intros; eapply at_longer; eassumption
      | intros; eapply at_longer; eassumption
      | exact K
      | intros; eapply c_op; [fetch_tac|reflexivity] ]
    | idtac ]
    end end.

Ltac rstep L :=
  eapply c_bind; [eapply L; eassumption|];
  let f := fresh "f" in let s := fresh "s" in let E := fresh "E" in let K := fresh "K" in
  intros f s E K; cbn beta in K;
  match type of E with longer ?g _ => lift_hyps g f E;
    repeat match goal with Q : rows_at g _ _ |- _ => clear Q end;
    match goal with Q : avx2_msgs_at g _ _ |- _ => apply (avx2_msgs_longer g f _ _ E) in Q
                  | Q : sse41_msgs_at g _ _ |- _ => apply (sse41_msgs_longer g f _ _ E) in Q end
  end; clear E.

Lemma avx2_block_computes mem block words count last_block last_node :
  nth_error (m_blocks mem) 0 = Some block -> length block = 128%nat ->
  nth_error (m_states mem) 0 = Some words -> length words = 8%nat ->
  computes mem [W count; W last_block; W last_node] avx2_block
    (fun f l => True /\ all_at W f l (Avx2b.compress_block block words count last_block last_node)).
Proof.
  intros Hb HB Hw HW. unfold avx2_block, Avx2b.compress_block, Avx2b.xor, Avx2b.set4.
  set (f0 := [W count; W last_block; W last_node]).
  assert (A0 : at_reg f0 0 (W count)) by reflexivity.
  assert (A1 : at_reg f0 1 (W last_block)) by reflexivity.
  assert (A2 : at_reg f0 2 (W last_node)) by reflexivity.
  clearbody f0.
  eapply c_bind.
  { apply c_ins. cbn [eval]. rewrite Hw, HW. reflexivity. }
  next f1 a. cbn [skipn] in H.
  eapply c_bind.
  { apply c_ins. cbn [eval]. rewrite Hw, HW. cbn [Nat.add Nat.leb].
    rewrite firstn_all2 by (rewrite skipn_length; lia). reflexivity. }
  next f2 b.
  eapply c_bind; [eapply c_op; [constructor|reflexivity]|next f3 c].
  opstep f4 lo. opstep f5 hi. opstep f6 flags.
  eapply c_bind; [eapply c_op; [constructor|reflexivity]|next f7 k].
  opstep f8 d.
  do 8 (eapply c_bind; [eapply avx2_chunk_computes; [exact Hb|exact HB|lia]|let f := fresh "f" in let m := fresh "m" in next f m]).
  cbv zeta.
  match goal with
  | Ha : at_reg ?f a (R ?A), Hb : at_reg ?f b (R ?B), Hc : at_reg ?f c (R ?C), Hd : at_reg ?f d (R ?D),
    H0 : at_reg ?f m (R ?M0), H1 : at_reg ?f m0 (R ?M1), H2 : at_reg ?f m1 (R ?M2), H3 : at_reg ?f m2 (R ?M3),
    H4 : at_reg ?f m3 (R ?M4), H5 : at_reg ?f m4 (R ?M5), H6 : at_reg ?f m5 (R ?M6), H7 : at_reg ?f m6 (R ?M7) |- _ =>
      assert (Hs : rows_at f (a, b, c, d) (A, B, C, D)) by (repeat split; assumption);
      assert (Hm : avx2_msgs_at f (m, m0, m1, m2, m3, m4, m5, m6) (M0, M1, M2, M3, M4, M5, M6, M7))
        by (repeat split; assumption);
      clear Hc Hd H0 H1 H2 H3 H4 H5 H6 H7
  end.
  rstep avx2_round1_computes.
  rstep avx2_round2_computes.
  rstep avx2_round3_computes.
  rstep avx2_round4_computes.
  rstep avx2_round5_computes.
  rstep avx2_round6_computes.
  rstep avx2_round7_computes.
  rstep avx2_round8_computes.
  rstep avx2_round9_computes.
  rstep avx2_round10_computes.
  rstep avx2_round11_computes.
  rstep avx2_round12_computes.
  match goal with K : rows_at _ ?s (Avx2b.round12 ?X ?S) |- _ =>
    destruct s as [[[ra rb] rc] rd]; destruct (Avx2b.round12 X S) as [[[RA RB] RC] RD];
    destruct K as (K1 & K2 & K3 & K4) end.
  opstep h1 oa. opstep h2 ob. opstep h3 oa'. opstep h4 ob'.
  store_words_tac. intros h5 wa L5 [_ Hwa].
  match type of L5 with longer ?g _ => lift_hyps g h5 L5 end. clear L5.
  store_words_tac. intros h6 wb L6 [_ Hwb].
  apply c_done. split; [exact I|]. apply all_app; [|exact Hwb].
  eapply all_longer; [exact L6|exact Hwa].
Qed.

Theorem avx2_run block words count last_block last_node :
  length block = 128%nat -> length words = 8%nat ->
  run avx2_asm {| m_blocks := [block]; m_states := [words] |} [W count; W last_block; W last_node] =
  Some (map W (Avx2b.compress_block block words count last_block last_node)).
Proof. intros HB HW. eapply computes_run; [reflexivity|]. apply avx2_block_computes; auto. Qed.

Lemma sse41_block_computes mem block words count last_block last_node :
  nth_error (m_blocks mem) 0 = Some block -> length block = 64%nat ->
  nth_error (m_states mem) 0 = Some words -> length words = 8%nat ->
  computes mem [W count; W last_block; W last_node] sse41_block
    (fun f l => True /\ all_at W f l (Sse41s.compress_block block words count last_block last_node)).
Proof.
  intros Hb HB Hw HW. unfold sse41_block, Sse41s.compress_block, Sse41s.xor, Sse41s.set4.
  set (f0 := [W count; W last_block; W last_node]).
  assert (A0 : at_reg f0 0 (W count)) by reflexivity.
  assert (A1 : at_reg f0 1 (W last_block)) by reflexivity.
  assert (A2 : at_reg f0 2 (W last_node)) by reflexivity.
  clearbody f0.
  Ltac load_low Hw HW := eapply c_bind; [apply c_ins; cbn [eval]; rewrite Hw, HW; reflexivity|].
  Ltac load_high Hw HW := eapply c_bind;
    [apply c_ins; cbn [eval]; rewrite Hw, HW; cbn [Nat.add Nat.leb];
     rewrite firstn_all2 by (rewrite skipn_length; lia); reflexivity|].
  load_low Hw HW. next f1 row1. cbn [skipn] in H.
  load_high Hw HW. next f2 row2.
  eapply c_bind; [eapply c_op; [constructor|reflexivity]|next f3 row3].
  eapply c_bind; [eapply c_op; [constructor|reflexivity]|next f7 k].
  opstep f4 lo. opstep f5 hi. opstep f6 flags.
  opstep f8 row4.
  do 4 (eapply c_bind; [apply c_ins; cbn [eval]; rewrite Hb, HB; reflexivity|let f := fresh "f" in let m := fresh "m" in next f m]).
  cbv zeta.
  match goal with
  | Ha : at_reg ?f row1 (R ?A), Hb : at_reg ?f row2 (R ?B), Hc : at_reg ?f row3 (R ?C), Hd : at_reg ?f row4 (R ?D),
    H0 : at_reg ?f m (R ?M0), H1 : at_reg ?f m0 (R ?M1), H2 : at_reg ?f m1 (R ?M2), H3 : at_reg ?f m2 (R ?M3) |- _ =>
      assert (Hs : rows_at f (row1, row2, row3, row4) (A, B, C, D)) by (repeat split; assumption);
      assert (Hm : sse41_msgs_at f (m, m0, m1, m2) (M0, M1, M2, M3))
        by (repeat split; assumption);
      clear Ha Hb Hc Hd H0 H1 H2 H3
  end.
  rstep sse41_round1_computes.
  rstep sse41_round2_computes.
  rstep sse41_round3_computes.
  rstep sse41_round4_computes.
  rstep sse41_round5_computes.
  rstep sse41_round6_computes.
  rstep sse41_round7_computes.
  rstep sse41_round8_computes.
  rstep sse41_round9_computes.
  rstep sse41_round10_computes.
  match goal with K : rows_at _ ?s (Sse41s.round10 ?X ?S) |- _ =>
    destruct s as [[[ra rb] rc] rd]; destruct (Sse41s.round10 X S) as [[[RA RB] RC] RD];
    destruct K as (K1 & K2 & K3 & K4) end.
  load_low Hw HW. next h1 low. match goal with Q : at_reg h1 low _ |- _ => cbn [skipn] in Q end.
  opstep h2 t1. opstep h3 low'.
  load_high Hw HW. next h4 high.
  opstep h5 t2. opstep h6 high'.
  store_words_tac. intros h7 wa L5 [_ Hwa].
  match type of L5 with longer ?g _ => lift_hyps g h7 L5 end. clear L5.
  store_words_tac. intros h8 wb L6 [_ Hwb].
  apply c_done. split; [exact I|]. apply all_app; [|exact Hwb].
  eapply all_longer; [exact L6|exact Hwa].
Qed.

Theorem sse41_run block words count last_block last_node :
  length block = 64%nat -> length words = 8%nat ->
  run sse41_asm {| m_blocks := [block]; m_states := [words] |} [W count; W last_block; W last_node] =
  Some (map W (Sse41s.compress_block block words count last_block last_node)).
Proof. intros HB HW. eapply computes_run; [reflexivity|]. apply sse41_block_computes; auto. Qed.
