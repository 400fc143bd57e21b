(** The code of the transposed back ends (Asm.v) computes what Simd.v says. *)
From Coq Require Import Arith NArith List Bool Lia.
From Verif Require Import Base Guts Portable Intrinsics Simd Asm AsmProof.
Import ListNotations.
Open Scope N_scope.

Ltac opstep f r := eapply c_bind; [op_tac|next f r].

Definition bin_op (o : opcode) (f : reg -> reg -> reg) : Prop :=
  forall a b, sem o [R a; R b] = Some (R (f a b)).

(** The instructions of a back end do what its operations say. *)
Record implements (M : names) : Prop := {
  im_add : bin_op (n_add M) (s_add (n_simd M));
  im_eq : bin_op (n_eq M) (s_eq (n_simd M));
  im_and : bin_op (n_and M) (s_and (n_simd M));
  im_negate_and : bin_op (n_negate_and M) (s_negate_and (n_simd M));
  im_xor : bin_op (n_xor M) (s_xor (n_simd M));
  im_set1 : forall x, sem (n_set1 M) [W x] = Some (R (s_set1 (n_simd M) x));
  im_rot1 : forall mem file i x, at_reg file i (R x) ->
    computes mem file (lane_rot M (rot1 (s_var (n_simd M))) i) (fun f i => at_reg f i (R (s_rot1 (n_simd M) x)));
  im_rot2 : forall mem file i x, at_reg file i (R x) ->
    computes mem file (lane_rot M (rot2 (s_var (n_simd M))) i) (fun f i => at_reg f i (R (s_rot2 (n_simd M) x)));
  im_rot3 : forall mem file i x, at_reg file i (R x) ->
    computes mem file (lane_rot M (rot3 (s_var (n_simd M))) i) (fun f i => at_reg f i (R (s_rot3 (n_simd M) x)));
  im_rot4 : forall mem file i x, at_reg file i (R x) ->
    computes mem file (lane_rot M (rot4 (s_var (n_simd M))) i) (fun f i => at_reg f i (R (s_rot4 (n_simd M) x)));
  im_setn : forall mem file l xs, all_at W file l xs -> length xs = s_degree (n_simd M) ->
    computes mem file (n_setn M l) (fun f i => at_reg f i (R (s_setn (n_simd M) xs)));
  im_transpose : forall mem file l xs, all_at R file l xs -> length xs = s_degree (n_simd M) ->
    computes mem file (n_transpose_vecs M l)
      (fun f l => all_at R f l (s_transpose_vecs (n_simd M) xs) /\
                  length (s_transpose_vecs (n_simd M) xs) = s_degree (n_simd M)) }.

(** *** The four back ends. *)

Ltac rot_inst := intros; unfold lane_rot; eapply c_bind; [op_tac|let f := fresh "f" in let r := fresh "r" in next f r]; eapply c_bind; [op_tac|let f := fresh "f" in let r := fresh "r" in next f r]; op_tac.
Ltac take xs H := destruct xs as [|? xs]; [discriminate H|].
Ltac invert_all :=
  repeat match goal with
  | H : all_at _ _ _ (_ :: _) |- _ => inversion H; clear H; subst
  | H : all_at _ _ _ [] |- _ => inversion H; clear H; subst
  | H : Forall2 _ _ (_ :: _) |- _ => inversion H; clear H; subst
  | H : Forall2 _ _ [] |- _ => inversion H; clear H; subst
  end.
Ltac steps := repeat (let f := fresh "f" in let r := fresh "r" in opstep f r).

Lemma interleave_computes mem file a b A B :
  at_reg file a (R A) -> at_reg file b (R B) ->
  computes mem file (lane_interleave128 a b)
    (fun f p => at_reg f (fst p) (R (fst (interleave128 A B))) /\ at_reg f (snd p) (R (snd (interleave128 A B)))).
Proof. intros Ha Hb. unfold lane_interleave128. steps. apply c_done. split; assumption. Qed.

Ltac interleave :=
  eapply c_bind; [eapply interleave_computes; eassumption|];
  let f := fresh "f" in let p := fresh "p" in let q := fresh "q" in let L := fresh "L" in
  let H1 := fresh "H" in let H2 := fresh "H" in
  intros f [p q] L [H1 H2]; cbn [fst snd interleave128] in H1, H2;
  match type of L with longer ?g _ => lift_hyps g f L end; clear L.

Lemma sse41b_implements : implements sse41b_names.
Proof.
  constructor; try (intros ? ?; reflexivity); try reflexivity; try rot_inst.
  - intros mem file l xs H HL. take xs HL. take xs HL. destruct xs; [|discriminate HL]. invert_all.
    cbn [n_setn sse41b_names]. unfold lane_set2. cbn [rev app]. eapply c_op; [fetch_tac|reflexivity].
  - intros mem file l xs H HL. take xs HL. take xs HL. destruct xs; [|discriminate HL]. invert_all.
    cbn [n_transpose_vecs sse41b_names lane_transpose_sse41b].
    opstep f1 a0. opstep f2 a1. opstep f3 b0. opstep f4 b1.
    unfold lane_set2. cbn [rev app].
    eapply c_bind; [eapply c_op; [fetch_tac|reflexivity]|next f5 rx].
    eapply c_bind; [eapply c_op; [fetch_tac|reflexivity]|next f6 ry].
    apply c_done. split; [|reflexivity]. repeat (apply Forall2_cons; [assumption|]). constructor.
Qed.

Lemma sse41s_implements : implements sse41s_names.
Proof.
  constructor; try (intros ? ?; reflexivity); try reflexivity; try rot_inst.
  - intros mem file l xs H HL. do 4 take xs HL. destruct xs; [|discriminate HL]. invert_all.
    cbn [n_setn sse41s_names]. eapply c_op; [fetch_tac|reflexivity].
  - intros mem file l xs H HL. do 4 take xs HL. destruct xs; [|discriminate HL]. invert_all.
    cbn [n_transpose_vecs sse41s_names lane_transpose_sse41s]. steps.
    apply c_done. split; [|reflexivity]. repeat (apply Forall2_cons; [assumption|]). constructor.
Qed.

Lemma avx2b_implements : implements avx2b_names.
Proof.
  constructor; try (intros ? ?; reflexivity); try reflexivity; try rot_inst.
  - intros mem file l xs H HL. do 4 take xs HL. destruct xs; [|discriminate HL]. invert_all.
    cbn [n_setn avx2b_names]. eapply c_op; [fetch_tac|reflexivity].
  - intros mem file l xs H HL. do 4 take xs HL. destruct xs; [|discriminate HL]. invert_all.
    cbn [n_transpose_vecs avx2b_names lane_transpose_avx2b]. steps. interleave. interleave.
    apply c_done. split; [|reflexivity]. repeat (apply Forall2_cons; [assumption|]). constructor.
Qed.

Lemma avx2s_implements : implements avx2s_names.
Proof.
  constructor; try (intros ? ?; reflexivity); try reflexivity; try rot_inst.
  - intros mem file l xs H HL. do 8 take xs HL. destruct xs; [|discriminate HL]. invert_all.
    cbn [n_setn avx2s_names]. eapply c_op; [fetch_tac|reflexivity].
  - intros mem file l xs H HL. do 8 take xs HL. destruct xs; [|discriminate HL]. invert_all.
    cbn [n_transpose_vecs avx2s_names lane_transpose_avx2s]. steps. do 4 interleave.
    apply c_done. split; [|reflexivity]. repeat (apply Forall2_cons; [assumption|]). constructor.
Qed.

(** *** The common text. *)

Section Common.
Variable M : names.
Variable im : implements M.
Local Notation S := (n_simd M).
Local Notation w := (s_var (n_simd M)).

Lemma c_bin mem file o F a b A B :
  bin_op o F -> at_reg file a (R A) -> at_reg file b (R B) ->
  computes mem file (op o [a; b]) (fun f r => at_reg f r (R (F A B))).
Proof. intros H Ha Hb. eapply c_op; [repeat constructor; eassumption|apply H]. Qed.

Lemma const_computes mem file x :
  computes mem file (lane_const M x) (fun f r => at_reg f r (R (s_set1 S x))).
Proof.
  unfold lane_const. eapply c_bind; [eapply c_op; [constructor|reflexivity]|next f c].
  eapply c_op; [repeat constructor; eassumption|apply im_set1, im].
Qed.

Lemma stmt_computes mem file r m X s Y st :
  all_at R file m X -> length X = 16%nat -> all_at R file s Y -> length Y = 16%nat ->
  (r < num_rounds w)%nat -> In st round_program ->
  computes mem file (lane_stmt M r m s st)
    (fun f s => all_at R f s (exec_stmt S r X Y st) /\ length (exec_stmt S r X Y st) = 16%nat).
Proof.
  intros Hm HX Hs HY Hr Hst.
  assert (B : match st with
              | AddM i k => (i < 16 /\ k < 16)%nat | Add i j | Xor i j => (i < 16 /\ j < 16)%nat
              | Rot1 i | Rot2 i | Rot3 i | Rot4 i => (i < 16)%nat end).
  { revert st Hst. apply Forall_forall. unfold round_program. repeat (apply Forall_cons; [lia|]). constructor. }
  unfold lane_stmt, exec_stmt. destruct st; cbv zeta beta;
    (eapply c_bind;
     [ first [ eapply c_bin; [apply (im_add M im)| |] | eapply c_bin; [apply (im_xor M im)| |]
             | eapply (im_rot1 M im) | eapply (im_rot2 M im) | eapply (im_rot3 M im) | eapply (im_rot4 M im) ];
       (eapply all_nth with (inj := R) (d := []); [eassumption|]);
       rewrite ?HX, ?HY; first [apply sig_bound; lia | lia]
     | next f t; apply c_done; split; [apply all_set; assumption|rewrite set_length; exact HY] ]).
Qed.

Lemma round_computes mem file r m X s Y :
  all_at R file m X -> length X = 16%nat -> all_at R file s Y -> length Y = 16%nat ->
  (r < num_rounds w)%nat ->
  computes mem file (lane_round M m s r)
    (fun f s => all_at R f m X /\ all_at R f s (simd_round S X Y r) /\ length (simd_round S X Y r) = 16%nat).
Proof.
  intros Hm HX Hs HY Hr. unfold lane_round, simd_round.
  apply (c_bfold mem (fun f s Y => all_at R f s Y /\ length Y = 16%nat) (exec_stmt S r X))
    with (I := fun f => all_at R f m X); auto.
  - intros. eapply all_longer; eassumption.
  - intros f s' Y' st Hst Hi [H1 H2]. apply stmt_computes; assumption.
Qed.

Lemma compress_computes mem file h H m X lo Lo hi Hi lb Lb ln Ln :
  all_at R file h H -> length H = 8%nat -> all_at R file m X -> length X = 16%nat ->
  at_reg file lo (R Lo) -> at_reg file hi (R Hi) -> at_reg file lb (R Lb) -> at_reg file ln (R Ln) ->
  computes mem file (lane_compress M h m lo hi lb ln)
    (fun f l => True /\ all_at R f l (compress_transposed S H X Lo Hi Lb Ln)).
Proof.
  intros Hh HH Hm HX Hlo Hhi Hlb Hln. unfold lane_compress, compress_transposed. cbv zeta beta.
  eapply c_bind.
  { apply (c_bmap mem (fun f i x => at_reg f i (R x)) (fun i => s_set1 S (Portable.at_ (iv w) i)))
      with (I := fun _ => True); auto.
    - intros; eapply at_longer; eassumption.
    - intros. apply const_computes. }
  intros f1 ivs L1 [_ Hiv].
  change (all_at R f1 ivs (map (fun i => s_set1 S (Portable.at_ (iv w) i)) (seq 0 8))) in Hiv.
  lift_hyps file f1 L1. clear L1.
  Ltac xor_iv im := eapply c_bind;
    [eapply c_bin; [apply (im_xor M im)|eapply all_nth with (inj := R) (d := []); [eassumption|]; rewrite map_length, seq_length; lia|eassumption]|].
  xor_iv im. next f2 v12. xor_iv im. next f3 v13. xor_iv im. next f4 v14. xor_iv im. next f5 v15.
  set (V0 := [nth 0 H []; nth 1 H []; nth 2 H []; nth 3 H []; nth 4 H []; nth 5 H []; nth 6 H []; nth 7 H [];
    s_set1 S (Portable.at_ (iv w) 0); s_set1 S (Portable.at_ (iv w) 1);
    s_set1 S (Portable.at_ (iv w) 2); s_set1 S (Portable.at_ (iv w) 3);
    s_xor S (s_set1 S (Portable.at_ (iv w) 4)) Lo; s_xor S (s_set1 S (Portable.at_ (iv w) 5)) Hi;
    s_xor S (s_set1 S (Portable.at_ (iv w) 6)) Lb; s_xor S (s_set1 S (Portable.at_ (iv w) 7)) Ln]).
  assert (HV0 : all_at R f5 (h ++ firstn 4 ivs ++ [v12; v13; v14; v15]) V0).
  { assert (EH : H = [nth 0 H []; nth 1 H []; nth 2 H []; nth 3 H []; nth 4 H []; nth 5 H []; nth 6 H []; nth 7 H []]).
    { do 8 (destruct H as [|? H]; [discriminate|]). destruct H; [reflexivity|discriminate]. }
    change V0 with ([nth 0 H []; nth 1 H []; nth 2 H []; nth 3 H []; nth 4 H []; nth 5 H []; nth 6 H []; nth 7 H []]
      ++ firstn 4 (map (fun i => s_set1 S (Portable.at_ (iv w) i)) (seq 0 8)) ++ 
      [s_xor S (s_set1 S (Portable.at_ (iv w) 4)) Lo; s_xor S (s_set1 S (Portable.at_ (iv w) 5)) Hi;
       s_xor S (s_set1 S (Portable.at_ (iv w) 6)) Lb; s_xor S (s_set1 S (Portable.at_ (iv w) 7)) Ln]).
    rewrite <- EH. apply all_app; [assumption|]. apply all_app; [apply all_firstn; assumption|].
    repeat (apply Forall2_cons; [assumption|]). constructor. }
  eapply c_bind.
  { apply (c_bfold mem (fun f s Y => all_at R f s Y /\ length Y = 16%nat) (simd_round S X))
      with (I := fun f => all_at R f m X /\ all_at R f h H) (y := V0).
    - intros g g' L [B1 B2]. split; eapply all_longer; eassumption.
    - split; assumption.
    - split; [assumption|reflexivity].
    - intros f s Y r Hr [B1 B2] [B3 B4]. apply in_seq in Hr.
      eapply c_weaken; [apply round_computes with (X := X) (Y := Y); auto; lia|].
      intros f' s' _ (_ & B5 & B6). auto. }
  intros f6 s L6 [[_ Hh'] [Hs HS]]. clear L6.
  eapply c_weaken.
  - apply (c_bmap mem (fun f i x => at_reg f i (R x)))
      with (I := fun f => all_at R f h H /\
                 all_at R f s (fold_left (simd_round S X) (seq 0 (num_rounds w)) V0))
           (F := fun i => s_xor S (s_xor S (nth i H []) (nth i (fold_left (simd_round S X) (seq 0 (num_rounds w)) V0) []))
                            (nth (i + 8) (fold_left (simd_round S X) (seq 0 (num_rounds w)) V0) [])).
    + intros; eapply at_longer; eassumption.
    + intros g h' L [B1 B2]. split; eapply all_longer; eassumption.
    + split; assumption.
    + intros f i Hi' [B1 B2]. apply in_seq in Hi'.
      eapply c_bind; [eapply c_bin; [apply (im_xor M im)| |];
        (eapply all_nth with (inj := R) (d := []); [eassumption|]); rewrite ?HS, ?HH; lia|next f7 t].
      eapply c_bin; [apply (im_xor M im)|eassumption|].
      eapply all_nth with (inj := R) (d := []); [eassumption|]. rewrite HS. lia.
  - intros f l _ [_ Hl]. split; [exact I|exact Hl].
Qed.

Lemma counts_computes mem file lo Lo hi Hi d D :
  at_reg file lo (R Lo) -> at_reg file hi (R Hi) -> at_reg file d (R D) ->
  computes mem file (lane_counts M lo hi d)
    (fun f p => at_reg f (fst p) (R (fst (add_to_counts S Lo Hi D))) /\
                at_reg f (snd p) (R (snd (add_to_counts S Lo Hi D)))).
Proof.
  intros Hlo Hhi Hd. unfold lane_counts, add_to_counts. cbn [fst snd].
  Ltac bstep im_op f r := eapply c_bind; [eapply c_bin; [apply im_op|eassumption|eassumption]|next f r].
  Ltac kstep f r := eapply c_bind; [apply const_computes|next f r].
  bstep (im_add M im) f1 lo1. kstep f2 z1. bstep (im_eq M im) f3 e1. kstep f4 z2. bstep (im_eq M im) f5 e2.
  kstep f6 one. bstep (im_negate_and M im) f7 t. bstep (im_and M im) f8 inc. bstep (im_add M im) f9 hi1.
  apply c_done. split; assumption.
Qed.

Lemma concat_at f (ls : list (list nat)) (xss : list (list reg)) :
  Forall2 (all_at R f) ls xss -> all_at R f (concat ls) (concat xss).
Proof. intros H. induction H; cbn; [constructor|]. apply all_app; assumption. Qed.

Lemma transposed_computes {A} mem file (l : list A) (src : A -> list reg) (code : A -> build (list nat)) (I : list value -> Prop) :
  (forall g h, longer g h -> I g -> I h) -> I file ->
  (forall x, In x l -> length (src x) = s_degree S) ->
  (forall f x, In x l -> I f -> computes mem f (code x) (fun f r => all_at R f r (src x))) ->
  computes mem file (bmap (fun c => bdo xs <- code c; n_transpose_vecs M xs) l)
    (fun f ls => I f /\ Forall2 (all_at R f) ls (map (fun c => s_transpose_vecs S (src c)) l)).
Proof.
  intros HI Hi HL H.
  apply (c_bmap mem (all_at R) (fun c => s_transpose_vecs S (src c))); auto.
  - intros; eapply all_longer; eassumption.
  - intros f x Hx Hf. eapply c_bind; [apply H; assumption|].
    intros f' r L Hr. cbn beta in Hr. eapply c_weaken; [apply (im_transpose M im); [exact Hr|apply HL; exact Hx]|].
    intros g l' _ [K _]. exact K.
Qed.

Lemma msgs_computes mem file blocks :
  m_blocks mem = blocks -> length blocks = s_degree S ->
  (s_degree S * (16 / s_degree S) = 16)%nat ->
  Forall (fun b => length b = blockbytes w) blocks ->
  computes mem file (lane_msgs M)
    (fun f l => all_at R f l (transpose_msg_vecs S blocks)).
Proof.
  intros Hb HL Hd HB. unfold lane_msgs, transpose_msg_vecs. cbv zeta.
  set (n := (s_degree S * wbytes w)%nat).
  eapply c_bind.
  { apply (transposed_computes mem file (seq 0 (16 / s_degree S))
             (fun c => map (fun b => loadu_bytes n b (c * n)) blocks)) with (I := fun _ => True); auto.
    - intros. rewrite map_length. exact HL.
    - intros f c Hc _. apply in_seq in Hc.
      replace (map (fun b => loadu_bytes n b (c * n)) blocks)
        with (map (fun k => loadu_bytes n (nth k blocks []) (c * n)) (seq 0 (s_degree S))).
      + eapply c_weaken.
        * apply (c_bmap mem (fun f i x => at_reg f i (R x))) with (I := fun _ => True)
            (F := fun k => loadu_bytes n (nth k blocks []) (c * n)); auto.
          -- intros; eapply at_longer; eassumption.
          -- intros g k Hk _. apply in_seq in Hk. apply c_ins. cbn [eval]. rewrite Hb.
             rewrite (nth_error_nth' blocks []) by lia.
             assert (E : length (nth k blocks []) = blockbytes w)
               by (rewrite Forall_forall in HB; apply HB, nth_In; lia).
             rewrite E.
             replace (Nat.leb (c * n + n) (blockbytes w)) with true; [reflexivity|].
             symmetry. apply Nat.leb_le. unfold n, blockbytes.
             replace (c * (s_degree S * wbytes w) + s_degree S * wbytes w)%nat
               with ((Datatypes.S c * s_degree S) * wbytes w)%nat by lia.
             apply Nat.mul_le_mono_r. rewrite <- Hd. nia.
        * intros g l _ [_ K]. exact K.
      + rewrite <- HL.
        transitivity (map (fun b => loadu_bytes n b (c * n)) (map (fun k => nth k blocks []) (seq 0 (length blocks))));
          [rewrite map_map; reflexivity|]. f_equal.
        clear. induction blocks as [|b bs IH]; [reflexivity|].
        cbn [length seq map nth]. f_equal. rewrite <- seq_shift, map_map. exact IH. }
  intros f ls L [_ K]. apply c_done. rewrite flat_map_concat_map. apply concat_at. exact K.
Qed.

Lemma block_computes mem blocks h Lo Hi D Lb Ln :
  m_blocks mem = blocks -> length blocks = s_degree S ->
  (s_degree S * (16 / s_degree S) = 16)%nat ->
  length (transpose_msg_vecs S blocks) = 16%nat ->
  Forall (fun b => length b = blockbytes w) blocks ->
  length h = 8%nat ->
  computes mem (map R h ++ [R Lo; R Hi; R D; R Lb; R Ln]) (lane_block M)
    (fun f l => True /\ all_at R f l
       (let '(lo, hi) := add_to_counts S Lo Hi D in
        compress_transposed S h (transpose_msg_vecs S blocks) lo hi Lb Ln ++ [lo; hi])).
Proof.
  intros Hb HL Hd HX HB HH. unfold lane_block.
  set (f0 := map R h ++ [R Lo; R Hi; R D; R Lb; R Ln]).
  do 8 (destruct h as [|? h]; [discriminate HH|]). destruct h; [|discriminate HH].
  match goal with |- context[compress_transposed S ?h _ _ _ _ _] => set (H := h) end.
  assert (A0 : all_at R f0 (seq 0 8) H) by (repeat constructor).
  assert (A1 : at_reg f0 8 (R Lo)) by reflexivity.
  assert (A2 : at_reg f0 9 (R Hi)) by reflexivity.
  assert (A3 : at_reg f0 10 (R D)) by reflexivity.
  assert (A4 : at_reg f0 11 (R Lb)) by reflexivity.
  assert (A5 : at_reg f0 12 (R Ln)) by reflexivity.
  clearbody f0.
  eapply c_bind; [apply (msgs_computes mem f0 blocks); assumption|next f1 m].
  eapply c_bind; [eapply counts_computes; eassumption|].
  intros f2 [lo hi] L2 [K1 K2]. lift_hyps f1 f2 L2. clear L2. cbn [fst snd] in K1, K2.
  destruct (add_to_counts S Lo Hi D) as [lo' hi']. cbn [fst snd] in K1, K2.
  eapply c_bind.
  { apply (compress_computes mem f2 (seq 0 8) H m (transpose_msg_vecs S blocks)); try eassumption; reflexivity. }
  intros f3 l L3 [_ K3]. lift_hyps f2 f3 L3. apply c_done. split; [exact I|].
  apply all_app; [exact K3|]. repeat (apply Forall2_cons; [assumption|]). constructor.
Qed.

Lemma map_nth_seq {A} (d : A) (l : list A) : map (fun k => nth k l d) (seq 0 (length l)) = l.
Proof.
  induction l as [|x l IH]; [reflexivity|]. cbn [length seq map nth]. f_equal.
  rewrite <- seq_shift, map_map. exact IH.
Qed.

Lemma load_computes mem jobs :
  m_states mem = map j_words jobs -> length jobs = s_degree S ->
  (s_degree S * (8 / s_degree S) = 8)%nat ->
  Forall (fun j => length (j_words j) = 8%nat) jobs ->
  computes mem (map (fun j => W (j_count j)) jobs) (lane_load M)
    (fun f l => True /\ all_at R f l
       (transpose_state_vecs S jobs ++ [fst (load_counts S jobs); snd (load_counts S jobs)])).
Proof.
  intros Hb HL Hd HB. unfold lane_load, transpose_state_vecs, load_counts. cbv zeta. cbn [fst snd].
  set (f0 := map (fun j => W (j_count j)) jobs).
  set (dj := {| j_input := []; j_words := []; j_count := 0; j_last_node := false |}).
  assert (C0 : forall k, (k < s_degree S)%nat -> at_reg f0 k (W (j_count (nth k jobs dj)))).
  { intros k Hk. unfold at_reg, f0. rewrite <- HL in Hk.
    rewrite (nth_error_nth' _ (W 0)) by (rewrite map_length; exact Hk). f_equal.
    rewrite (nth_indep _ (W 0) (W (j_count dj))) by (rewrite map_length; exact Hk).
    apply (map_nth (fun j => W (j_count j))). }
  assert (EJ : jobs = map (fun k => nth k jobs dj) (seq 0 (s_degree S)))
    by (rewrite <- HL; symmetry; apply map_nth_seq).
  clearbody f0.
  eapply c_bind.
  { apply (transposed_computes mem f0 (seq 0 (8 / s_degree S))
             (fun c => map (fun j => load_words (wbytes w) (firstn (s_degree S) (skipn (c * s_degree S) (j_words j)))) jobs))
      with (I := fun f => forall k, (k < s_degree S)%nat -> at_reg f k (W (j_count (nth k jobs dj)))).
    - intros g h L K k Hk. eapply at_longer; [exact L|apply K, Hk].
    - exact C0.
    - intros. rewrite map_length. exact HL.
    - intros f c Hc _. apply in_seq in Hc. cbn beta.
      replace (map (fun j => load_words (wbytes w) (firstn (s_degree S) (skipn (c * s_degree S) (j_words j)))) jobs)
        with (map (fun k => load_words (wbytes w) (firstn (s_degree S) (skipn (c * s_degree S) (j_words (nth k jobs dj)))))
                (seq 0 (s_degree S)))
        by (transitivity (map (fun j => load_words (wbytes w) (firstn (s_degree S) (skipn (c * s_degree S) (j_words j))))
                            (map (fun k => nth k jobs dj) (seq 0 (s_degree S))));
            [rewrite map_map; reflexivity|rewrite <- EJ; reflexivity]).
      eapply c_weaken.
      + apply (c_bmap mem (fun f i x => at_reg f i (R x))) with (I := fun _ => True)
          (F := fun k => load_words (wbytes w) (firstn (s_degree S) (skipn (c * s_degree S) (j_words (nth k jobs dj))))); auto.
        * intros; eapply at_longer; eassumption.
        * intros g k Hk _. apply in_seq in Hk. apply c_ins. cbn [eval]. rewrite Hb.
          rewrite (nth_error_nth' _ (j_words dj)) by (rewrite map_length; lia). rewrite map_nth.
          assert (E : length (j_words (nth k jobs dj)) = 8%nat)
            by (rewrite Forall_forall in HB; apply HB, nth_In; lia).
          rewrite E.
          replace (Nat.leb (c * s_degree S + s_degree S) 8) with true; [reflexivity|].
          symmetry. apply Nat.leb_le. rewrite <- Hd. nia.
      + intros g l _ [_ K]. exact K. }
  intros f1 ls L1 [C1 K1]. apply concat_at in K1. rewrite <- flat_map_concat_map in K1.
  Ltac counts_tac C F0 I0 :=
    match goal with |- computes ?mem ?f _ _ =>
    apply (c_bmap mem (fun f i x => at_reg f i (W x)))
      with (I := I0) (F := F0);
    [ intros; eapply at_longer; eassumption
    | intros ? ? L K k Hk; eapply at_longer; [exact L|apply K, Hk]
    | exact C
    | intros g k Hk K; apply in_seq in Hk; eapply c_op; [repeat constructor; apply K; lia|reflexivity] ] end.
  eapply c_bind; [counts_tac C1 (fun k => count_low w (j_count (nth k jobs dj)))
    (fun f => forall k, (k < s_degree S)%nat -> at_reg f k (W (j_count (nth k jobs dj))))|].
  intros f2 lows L2 [C2 K2]. apply (all_longer R f1 f2 _ _ L2) in K1.
  eapply c_bind.
  { apply (im_setn M im) with (xs := map (fun k => count_low w (j_count (nth k jobs dj))) (seq 0 (s_degree S)));
      [exact K2|rewrite map_length, seq_length; reflexivity]. }
  intros f3 lo L3 K3. cbn beta in K3. apply (all_longer R f2 f3 _ _ L3) in K1.
  assert (C3 : forall k, (k < s_degree S)%nat -> at_reg f3 k (W (j_count (nth k jobs dj))))
    by (intros; eapply at_longer; [exact L3|apply C2; assumption]).
  eapply c_bind; [counts_tac C3 (fun k => count_high w (j_count (nth k jobs dj)))
    (fun f => forall k, (k < s_degree S)%nat -> at_reg f k (W (j_count (nth k jobs dj))))|].
  intros f4 highs L4 [C4 K4]. apply (all_longer R f3 f4 _ _ L4) in K1. apply (at_longer f3 f4 _ _ L4) in K3.
  eapply c_bind.
  { apply (im_setn M im) with (xs := map (fun k => count_high w (j_count (nth k jobs dj))) (seq 0 (s_degree S)));
      [exact K4|rewrite map_length, seq_length; reflexivity]. }
  intros f5 hi L5 K5. cbn beta in K5. apply (all_longer R f4 f5 _ _ L5) in K1. apply (at_longer f4 f5 _ _ L5) in K3.
  apply c_done. split; [exact I|]. apply all_app; [exact K1|].
  rewrite <- (map_map (fun k => nth k jobs dj) (fun j => count_low w (j_count j))), <- EJ in K3.
  rewrite <- (map_map (fun k => nth k jobs dj) (fun j => count_high w (j_count j))), <- EJ in K5.
  repeat (apply Forall2_cons; [assumption|]). constructor.
Qed.

Lemma store_computes mem h Lo Hi :
  (s_degree S * (8 / s_degree S) = 8)%nat -> length h = 8%nat ->
  computes mem (map R h ++ [R Lo; R Hi]) (lane_store M)
    (fun f l => True /\ all_at W f l
       (flat_map (untranspose_state_vecs S h) (seq 0 (s_degree S)) ++
        map (store_count S Lo Hi) (seq 0 (s_degree S)))).
Proof.
  intros Hd HH. unfold lane_store, store_count. cbv zeta.
  set (f0 := map R h ++ [R Lo; R Hi]).
  assert (A0 : all_at R f0 (seq 0 8) h).
  { unfold f0. do 8 (destruct h as [|? h]; [discriminate HH|]). destruct h; [|discriminate HH]. repeat constructor. }
  assert (A1 : at_reg f0 8 (R Lo))
    by (unfold f0, at_reg; rewrite nth_error_app2; rewrite map_length, HH; [reflexivity|lia]).
  assert (A2 : at_reg f0 9 (R Hi))
    by (unfold f0, at_reg; rewrite nth_error_app2; rewrite map_length, HH; [reflexivity|lia]).
  clearbody f0.
  set (T := fun c => s_transpose_vecs S (firstn (s_degree S) (skipn (c * s_degree S) h))).
  eapply c_bind.
  { apply (c_bmap mem (fun f l xs => all_at R f l xs /\ length xs = s_degree S) T)
      with (I := fun f => all_at R f (seq 0 8) h /\ at_reg f 8 (R Lo) /\ at_reg f 9 (R Hi)).
    - intros g g' l xs L [B1 B2]. split; [eapply all_longer; eassumption|exact B2].
    - intros g g' L (B1 & B2 & B3). repeat split; eauto using at_longer, all_longer.
    - auto.
    - intros f c Hc (B1 & _). apply in_seq in Hc. apply (im_transpose M im).
      + replace (seq (c * s_degree S) (s_degree S))
          with (firstn (s_degree S) (skipn (c * s_degree S) (seq 0 8))).
        * apply all_firstn. clear - B1. revert B1. generalize (c * s_degree S)%nat as k, (seq 0 8) as l.
          intros k. revert h. induction k; intros h l H; [exact H|]. destruct H; [constructor|]. apply IHk. assumption.
        * assert (Hk : (c * s_degree S + s_degree S <= 8)%nat) by (rewrite <- Hd; nia).
          generalize dependent (c * s_degree S)%nat. clear. generalize (s_degree S) as d. intros d k Hk.
          do 9 (destruct k as [|k]; [do 9 (destruct d as [|d]; [first [reflexivity|lia]|]); lia|]). lia.
      + rewrite firstn_length, skipn_length, HH.
        assert (Hk : (c * s_degree S + s_degree S <= 8)%nat) by (rewrite <- Hd; nia). lia. }
  intros f1 t L1 [(C0 & C1 & C2) K1]. clear L1.
  assert (N1 : forall c i, (c < 8 / s_degree S)%nat -> (i < s_degree S)%nat ->
            at_reg f1 (nth i (nth c t []) 0%nat) (R (nth i (T c) []))).
  { intros c i Hc Hi'.
    assert (E : nth c (map T (seq 0 (8 / s_degree S))) [] = T c).
    { rewrite (nth_indep _ [] (T 0%nat)) by (rewrite map_length, seq_length; exact Hc).
      rewrite map_nth, seq_nth by exact Hc. reflexivity. }
    assert (P : all_at R f1 (nth c t []) (T c) /\ length (T c) = s_degree S).
    { rewrite <- E. clear - K1 Hc.
      assert (LL : (c < length (map T (seq 0 (8 / s_degree S))))%nat) by (rewrite map_length, seq_length; exact Hc).
      clear Hc. revert c LL. induction K1 as [|l xs ls xss H K IH]; intros c LL; cbn in LL; [lia|].
      destruct c; [exact H|]. apply IH. lia. }
    destruct P as [P1 P2]. apply all_nth; [exact P1|]. rewrite P2. exact Hi'. }
  clear K1 C0.
  set (I1 := fun f => (forall c i, (c < 8 / s_degree S)%nat -> (i < s_degree S)%nat ->
            at_reg f (nth i (nth c t []) 0%nat) (R (nth i (T c) []))) /\ at_reg f 8 (R Lo) /\ at_reg f 9 (R Hi)).
  assert (M1 : forall g g', longer g g' -> I1 g -> I1 g').
  { intros g g' L (B1 & B2 & B3). unfold I1. repeat split; eauto using at_longer. }
  assert (H1 : I1 f1) by (unfold I1; auto). clear N1 C1 C2.
  set (F1 := fun i => flat_map (fun c => store_words (wbytes w) (s_degree S) (nth i (T c) [])) (seq 0 (8 / s_degree S))).
  eapply c_bind.
  { apply (c_bmap mem (all_at W) F1) with (I := I1); auto.
    - intros; eapply all_longer; eassumption.
    - intros f i Hi' Hf. apply in_seq in Hi'. eapply c_bind.
      + apply (c_bmap mem (all_at W) (fun c => store_words (wbytes w) (s_degree S) (nth i (T c) []))) with (I := I1); auto.
        * intros; eapply all_longer; eassumption.
        * intros g c Hc Hg. apply in_seq in Hc. unfold store_words. eapply c_weaken.
          -- apply (c_bmap mem (fun f i x => at_reg f i (W x)) (lane (wbytes w) (nth i (T c) []))) with (I := I1); auto.
             ++ intros; eapply at_longer; eassumption.
             ++ intros g' k Hk [B1 _]. eapply c_op; [repeat constructor; apply B1; lia|reflexivity].
          -- intros g' l _ [_ K]. exact K.
      + intros g ls L [_ K]. apply c_done. unfold F1. rewrite flat_map_concat_map.
        clear - K. induction K; cbn; [constructor|]. apply all_app; assumption. }
  intros f2 words L2 [H2 K2].
  eapply c_bind.
  { apply (c_bmap mem (fun f i x => at_reg f i (W x))
             (fun i => assemble_count w (lane (wbytes w) Lo i) (lane (wbytes w) Hi i)))
      with (I := fun f => I1 f /\ Forall2 (all_at W f) words (map F1 (seq 0 (s_degree S)))).
    - intros; eapply at_longer; eassumption.
    - intros g g' L [B1 B2]. split; [eauto|]. clear - B2 L. induction B2; constructor; auto. eapply all_longer; eassumption.
    - split; assumption.
    - intros f i Hi' [(_ & B1 & B2) _].
      eapply c_bind; [eapply c_op; [repeat constructor; eassumption|reflexivity]|next g1 lo].
      eapply c_bind; [eapply c_op; [repeat constructor; eassumption|reflexivity]|next g2 hi].
      eapply c_op; [repeat constructor; eassumption|reflexivity]. }
  intros f3 counts L3 [[_ K3] K4]. apply c_done. split; [exact I|]. apply all_app; [|exact K4].
  rewrite flat_map_concat_map. change (map (untranspose_state_vecs S h) (seq 0 (s_degree S))) with (map F1 (seq 0 (s_degree S))).
  clear - K3. induction K3; cbn; [constructor|]. apply all_app; assumption.
Qed.

End Common.

(** *** The kernels of the four back ends. *)

Lemma transpose_length S M l :
  implements M -> n_simd M = S -> length l = s_degree S -> length (s_transpose_vecs S l) = s_degree S.
Proof.
  intros im <- H.
  pose proof (im_transpose M im {| m_blocks := []; m_states := [] |} (map R l) (seq 0 (length l)) l) as K.
  assert (A : all_at R (map R l) (seq 0 (length l)) l).
  { clear. assert (G : forall pre, all_at R (pre ++ map R l) (seq (length pre) (length l)) l).
    { induction l as [|x l IH]; intros pre; cbn; [constructor|]. constructor.
      - unfold at_reg. rewrite nth_error_app2, Nat.sub_diag; [reflexivity|lia].
      - specialize (IH (pre ++ [R x])). rewrite app_length, <- app_assoc in IH. cbn in IH.
        rewrite Nat.add_1_r in IH. exact IH. }
    apply (G []). }
  specialize (K A H). unfold computes in K. destruct (n_transpose_vecs M _ _) as [c a].
  destruct K as (e & _ & _ & _ & K). exact K.
Qed.

Lemma flat_map_length {A B} (f : A -> list B) n l :
  (forall x, In x l -> length (f x) = n) -> length (flat_map f l) = (length l * n)%nat.
Proof.
  induction l as [|x l IH]; intros H; cbn; [reflexivity|].
  rewrite app_length, H, IH; [lia| |left; reflexivity]. intros; apply H; right; assumption.
Qed.

Definition is_back_end (M : names) : Prop :=
  M = avx2b_names \/ M = sse41b_names \/ M = avx2s_names \/ M = sse41s_names.

Lemma back_end_implements M : is_back_end M -> implements M.
Proof.
  intros [-> | [-> | [-> | ->]]];
    [apply avx2b_implements|apply sse41b_implements|apply avx2s_implements|apply sse41s_implements].
Qed.

Lemma back_end_degree M : is_back_end M ->
  (s_degree (n_simd M) * (16 / s_degree (n_simd M)) = 16)%nat /\
  (s_degree (n_simd M) * (8 / s_degree (n_simd M)) = 8)%nat.
Proof. intros [-> | [-> | [-> | ->]]]; split; reflexivity. Qed.

Theorem lanes_run M blocks h lo hi delta last_block last_node :
  is_back_end M ->
  length blocks = s_degree (n_simd M) ->
  Forall (fun b => length b = blockbytes (s_var (n_simd M))) blocks ->
  length h = 8%nat ->
  run (lanes_asm M) {| m_blocks := blocks; m_states := [] |}
    (map R h ++ [R lo; R hi; R delta; R last_block; R last_node]) =
  Some (let '(lo', hi') := add_to_counts (n_simd M) lo hi delta in
        map R (compress_transposed (n_simd M) h (transpose_msg_vecs (n_simd M) blocks) lo' hi' last_block last_node ++
               [lo'; hi'])).
Proof.
  intros HM HL HB HH. destruct (back_end_degree M HM) as [D1 _].
  pose proof (back_end_implements M HM) as im.
  assert (HX : length (transpose_msg_vecs (n_simd M) blocks) = 16%nat).
  { unfold transpose_msg_vecs. cbv zeta. rewrite (flat_map_length _ (s_degree (n_simd M))).
    - rewrite seq_length, Nat.mul_comm. exact D1.
    - intros c _. apply (transpose_length _ M); [exact im|reflexivity|]. rewrite map_length. exact HL. }
  pose proof (computes_run R {| m_blocks := blocks; m_states := [] |}
    (map R h ++ [R lo; R hi; R delta; R last_block; R last_node]) 13 (lane_block M)
    (let '(lo', hi') := add_to_counts (n_simd M) lo hi delta in
     compress_transposed (n_simd M) h (transpose_msg_vecs (n_simd M) blocks) lo' hi' last_block last_node ++ [lo'; hi'])
    (fun _ => True)) as K.
  unfold lanes_asm. rewrite K.
  - destruct (add_to_counts (n_simd M) lo hi delta). reflexivity.
  - rewrite app_length, map_length, HH. reflexivity.
  - apply block_computes; auto.
Qed.

Theorem load_lanes_run M jobs :
  is_back_end M -> length jobs = s_degree (n_simd M) -> Forall (fun j => length (j_words j) = 8%nat) jobs ->
  run (load_lanes_asm M) {| m_blocks := []; m_states := map j_words jobs |} (map (fun j => W (j_count j)) jobs) =
  Some (map R (transpose_state_vecs (n_simd M) jobs ++
               [fst (load_counts (n_simd M) jobs); snd (load_counts (n_simd M) jobs)])).
Proof.
  intros HM HL HB. eapply computes_run; [rewrite map_length; exact HL|].
  apply load_computes; auto; [apply back_end_implements|apply back_end_degree]; exact HM.
Qed.

Theorem store_lanes_run M h lo hi :
  is_back_end M -> length h = 8%nat ->
  run (store_lanes_asm M) {| m_blocks := []; m_states := [] |} (map R h ++ [R lo; R hi]) =
  Some (map W (flat_map (untranspose_state_vecs (n_simd M) h) (seq 0 (s_degree (n_simd M))) ++
               map (store_count (n_simd M) lo hi) (seq 0 (s_degree (n_simd M))))).
Proof.
  intros HM HH. eapply computes_run; [rewrite app_length, map_length, HH; reflexivity|].
  apply store_computes; auto; [apply back_end_implements|apply back_end_degree]; exact HM.
Qed.

(** An execution that does not get stuck has the events of the code. *)
Lemma trace_of_run mem code : forall file, exec mem file code <> None ->
  trace mem file code = map event_of code.
Proof.
  induction code as [|i code IH]; intros file H; cbn in *; [reflexivity|].
  destruct (eval mem file i); [|congruence]. rewrite IH; auto.
Qed.

Lemma trace_run a mem args out : run a mem args = Some out -> trace mem args (a_code a) = map event_of (a_code a).
Proof.
  unfold run. intros H. apply trace_of_run. destruct (exec mem args (a_code a)); [discriminate|discriminate H].
Qed.
