(** The block loops: compress1_loop and the transposed loops compute a pure
    function of (input, words, count). *)
From Coq Require Import ZArith Arith NArith List Bool Lia ZifyBool ZifyNat ZifyN.
From Verif Require Import Base ByteLemmas Guts Portable Intrinsics KernelSpec LaneLemmas RowKernels
  Simd Transposed Impl.
From Verif Require Spec.
Import ListNotations.
Open Scope N_scope.

Lemma blockbytes_pos v : (0 < blockbytes v)%nat.
Proof. destruct v; cbn; lia. Qed.
Lemma padded_ge v st : (blockbytes v <= padded_blockbytes v st)%nat.
Proof. destruct v, st; cbn; lia. Qed.
Lemma padded_pos v st : (0 < padded_blockbytes v st)%nat.
Proof. pose proof (padded_ge v st). pose proof (blockbytes_pos v). lia. Qed.
Lemma padded_mod v st : (padded_blockbytes v st mod blockbytes v = 0)%nat.
Proof. destruct v, st; reflexivity. Qed.

(** *** The pure loop *)

(** The block at the front of an input, zero padded. *)
Definition front (v : variant) (input : list byte) : list byte :=
  Spec.pad_to (blockbytes v) (firstn (blockbytes v) input).

Lemma pad_to_length n bs : (length bs <= n)%nat -> length (Spec.pad_to n bs) = n.
Proof. intros. unfold Spec.pad_to. rewrite app_length, repeat_length. lia. Qed.
Lemma pad_to_full n bs : length bs = n -> Spec.pad_to n bs = bs.
Proof. intros <-. unfold Spec.pad_to. rewrite Nat.sub_diag, app_nil_r. reflexivity. Qed.

Lemma front_length v input : length (front v input) = blockbytes v.
Proof. apply pad_to_length. rewrite firstn_length. lia. Qed.

(** A non-final step and the last step. *)
Definition mid_step (v : variant) (input : list byte) (ws : list N) (c : N) : list N :=
  Spec.F (fl v) ws (front v input) (count_wrapping_add v c (N.of_nat (blockbytes v))) false false.
Definition fin_count (v : variant) (input : list byte) (c : N) : N :=
  count_wrapping_add v c (N.of_nat (Nat.min (blockbytes v) (length input))).
Definition fin_step (v : variant) (fin ln : bool) (input : list byte) (ws : list N) (c : N) : list N :=
  Spec.F (fl v) ws (front v input) (fin_count v input c) fin (fin && ln).

Fixpoint crun (v : variant) (st : stride) (fin ln : bool) (fuel : nat) (input : list byte)
    (ws : list N) (c : N) : list N :=
  if Nat.leb (length input) (padded_blockbytes v st) then fin_step v fin ln input ws c
  else match fuel with
       | O => ws
       | S fuel' => crun v st fin ln fuel' (skipn (padded_blockbytes v st) input)
                      (mid_step v input ws c) (count_wrapping_add v c (N.of_nat (blockbytes v)))
       end.
Definition C1 (v : variant) (st : stride) (fin ln : bool) (input : list byte) (ws : list N) (c : N) :=
  crun v st fin ln (length input) input ws c.

Lemma crun_fuel v st fin ln : forall f1 f2 input ws c,
  (length input <= f1)%nat -> (length input <= f2)%nat ->
  crun v st fin ln f1 input ws c = crun v st fin ln f2 input ws c.
Proof.
  pose proof (padded_pos v st).
  induction f1 as [|f1 IH]; intros f2 input ws c H1 H2.
  - destruct input; [|cbn in H1; lia]. destruct f2; reflexivity.
  - cbn [crun]. destruct (Nat.leb_spec (length input) (padded_blockbytes v st)).
    + destruct f2; cbn [crun]; (destruct (Nat.leb_spec (length input) (padded_blockbytes v st)); [auto|lia]).
    + destruct f2; cbn [crun]; (destruct (Nat.leb_spec (length input) (padded_blockbytes v st)); [lia|]).
      * lia.
      * apply IH; rewrite skipn_length; lia.
Qed.

Lemma C1_last v st fin ln input ws c : (length input <= padded_blockbytes v st)%nat ->
  C1 v st fin ln input ws c = fin_step v fin ln input ws c.
Proof.
  intros H. unfold C1. destruct (Nat.leb_spec (length input) (padded_blockbytes v st)) as [_|]; [|lia].
  pose proof (proj2 (Nat.leb_le _ _) H) as E.
  destruct (length input) as [|n] eqn:L; cbn [crun]; rewrite L, E; reflexivity.
Qed.

Lemma C1_more v st fin ln input ws c : (padded_blockbytes v st < length input)%nat ->
  C1 v st fin ln input ws c =
  C1 v st fin ln (skipn (padded_blockbytes v st) input) (mid_step v input ws c)
    (count_wrapping_add v c (N.of_nat (blockbytes v))).
Proof.
  intros H. pose proof (padded_pos v st). unfold C1 at 1.
  destruct (length input) eqn:E; [lia|]. cbn [crun]. rewrite E.
  destruct (Nat.leb_spec (S n) (padded_blockbytes v st)); [lia|].
  unfold C1. apply crun_fuel; rewrite skipn_length; lia.
Qed.

Lemma mid_step_ok v input ws c : words_ok v ws -> words_ok v (mid_step v input ws c).
Proof. apply F_ok. Qed.
Lemma fin_step_ok v fin ln input ws c : words_ok v ws -> words_ok v (fin_step v fin ln input ws c).
Proof. apply F_ok. Qed.
Lemma C1_ok v st fin ln input ws c : words_ok v ws -> words_ok v (C1 v st fin ln input ws c).
Proof.
  unfold C1. generalize (length input) as f. intros f. revert input ws c.
  induction f as [|f IH]; intros input ws c H; cbn [crun].
  - destruct (Nat.leb _ _); auto using fin_step_ok.
  - destruct (Nat.leb _ _); auto using fin_step_ok, mid_step_ok.
Qed.

(** *** final_block *)
Lemma final_block_spec v st input off : (off <= length input)%nat ->
  final_block v input off (zeros (blockbytes v)) st =
  Ret (front v (skipn off input), Nat.min (blockbytes v) (length (skipn off input)),
       Nat.leb (length (skipn off input)) (padded_blockbytes v st)).
Proof.
  intros H. unfold final_block. rewrite Nat.min_l by lia.
  unfold slice_from. destruct (Nat.leb_spec off (length input)); [|lia]. cbn [bind].
  set (o := skipn off input). pose proof (padded_ge v st).
  destruct (Nat.leb_spec (blockbytes v) (length o)).
  - unfold slice. rewrite Nat.sub_0_r. cbn [skipn Nat.leb andb].
    destruct (Nat.leb_spec (blockbytes v) (length o)); [|lia]. cbn [bind].
    unfold front. rewrite pad_to_full by (rewrite firstn_length; lia).
    rewrite Nat.min_l by auto. reflexivity.
  - unfold copy_into. cbn [Nat.add]. unfold zeros. rewrite repeat_length.
    destruct (Nat.leb_spec (length o) (blockbytes v)); [|lia]. cbn [bind firstn app].
    rewrite Nat.min_r by lia. unfold front. rewrite firstn_all2 by lia. unfold Spec.pad_to.
    replace (skipn (length o) (repeat x00 (blockbytes v))) with (repeat x00 (blockbytes v - length o)).
    + destruct (Nat.leb_spec (length o) (padded_blockbytes v st)); [reflexivity|lia].
    + clear. generalize (length o) as a. intros a. generalize (blockbytes v) as b. intros b. revert b.
      induction a as [|a IH]; intros b. { rewrite Nat.sub_0_r. reflexivity. }
      destruct b; cbn [repeat skipn]; auto. cbn [Nat.sub]. apply IH.
Qed.

(** *** compress1_loop *)
Definition kernel_ok (v : variant) (k : kernel) : Prop :=
  forall block ws c lb ln, length block = blockbytes v -> words_ok v ws ->
    k block ws c (flag_word v lb) (flag_word v ln) = Spec.F (fl v) ws block c lb ln.
Definition reader_ok (rd : block_reader) : Prop :=
  forall l off n, (off + n <= length l)%nat -> rd l off n = Ret (firstn n (skipn off l)).

Lemma array_ref_reader_ok : reader_ok array_ref_reader.
Proof.
  intros l off n H. unfold array_ref_reader, slice.
  destruct (Nat.leb_spec off (off + n)); [|lia]. destruct (Nat.leb_spec (off + n) (length l)); [|lia].
  cbn. do 2 f_equal. lia.
Qed.
Lemma raw_reader_ok : reader_ok raw_reader.
Proof.
  intros l off n H. unfold raw_reader, raw_read.
  destruct (Nat.leb_spec (off + n) (length l)); [auto|lia].
Qed.

Lemma portable_kernel_ok v : kernel_ok v (compress_block v).
Proof. intros block ws c lb ln L O. apply compress_block_spec. auto. Qed.
Lemma avx2b_kernel_ok : kernel_ok V2b Avx2b.compress_block.
Proof.
  intros block ws c lb ln L O. rewrite avx2b_compress_block by (auto; apply flag_word_lt).
  apply compress_block_spec. auto.
Qed.
Lemma sse41s_kernel_ok : kernel_ok V2s Sse41s.compress_block.
Proof.
  intros block ws c lb ln L O. rewrite sse41s_compress_block by (auto; apply flag_word_lt).
  apply compress_block_spec. auto.
Qed.

(** Inputs of non-final calls are non-empty whole numbers of blocks. *)
Definition input_ok (v : variant) (fin : bool) (input : list byte) : Prop :=
  fin = true \/ (input <> [] /\ (length input mod blockbytes v = 0)%nat).

Lemma input_debug_asserts_ok v dbg input fin : input_ok v fin input ->
  input_debug_asserts v dbg input fin = Ret tt.
Proof.
  unfold input_debug_asserts. intros [->|[H1 H2]]; auto.
  destruct fin; auto. cbn [negb]. rewrite H2.
  assert (length input <> 0%nat) by (destruct input; cbn; [congruence|lia]).
  destruct (Nat.eqb_spec (length input) 0); [lia|].
  destruct dbg; reflexivity.
Qed.

Lemma fin_offset_props v st len :
  let P := padded_blockbytes v st in
  let fo := ((len - 1) - (len - 1) mod P)%nat in
  exists n, (fo = n * P /\ fo <= len - 1 /\ len <= fo + P)%nat.
Proof.
  intros P fo. pose proof (padded_pos v st) as HP. fold P in HP. clearbody P.
  exists ((len - 1) / P)%nat. unfold fo.
  pose proof (Nat.div_mod (len - 1) P ltac:(lia)) as E.
  pose proof (Nat.mod_upper_bound (len - 1) P ltac:(lia)) as U.
  rewrite (Nat.mul_comm _ P). revert E U.
  generalize (P * ((len - 1) / P))%nat as a. generalize ((len - 1) mod P)%nat as r.
  intros r a E U. repeat split; lia.
Qed.

Lemma compress1_iter_spec v st k rd fin ln input fo :
  kernel_ok v k -> reader_ok rd ->
  let P := padded_blockbytes v st in
  (fo <= length input)%nat -> (length input <= fo + P)%nat ->
  forall fuel n off ws c,
  (off + n * P = fo)%nat -> (n < fuel)%nat -> (0 < n -> fo < length input)%nat ->
  words_ok v ws ->
  compress1_iter v k rd fuel input fo (front v (skipn fo input))
    (Nat.min (blockbytes v) (length (skipn fo input)))
    (flag_word v fin) (flag_word v (fin && ln)) st off c ws
  = Ret (C1 v st fin ln (skipn off input) ws c).
Proof.
  intros K R P Hfo Hlen. pose proof (padded_pos v st) as HP. pose proof (padded_ge v st) as HG.
  fold P in HP, HG.
  induction fuel as [|fuel IH]; intros n off ws c Hoff Hn Hlt O; [lia|].
  cbn [compress1_iter].
  destruct (Nat.eqb_spec off fo) as [->|Ne].
  - cbn [bind]. rewrite K by (auto using front_length).
    rewrite C1_last by (rewrite skipn_length; fold P; lia). reflexivity.
  - destruct n as [|n]; [lia|]. specialize (Hlt ltac:(lia)).
    rewrite R by (fold P in HG; nia). cbn [bind].
    rewrite K by (auto; rewrite firstn_skipn_length; auto; nia).
    rewrite (C1_more v st fin ln (skipn off input)) by (rewrite skipn_length; fold P; nia).
    fold P. rewrite skipn_skipn_add.
    rewrite (IH n) by (auto using F_ok; lia).
    assert (E : mid_step v (skipn off input) ws c =
       Spec.F (fl v) ws (firstn (blockbytes v) (skipn off input))
              (count_wrapping_add v c (N.of_nat (blockbytes v))) false false).
    { unfold mid_step, front. rewrite pad_to_full; auto. apply firstn_skipn_length. nia. }
    rewrite E. reflexivity.
Qed.

Lemma compress1_loop_gen_spec v k rd dbg input ws c ln fin st :
  kernel_ok v k -> reader_ok rd -> words_ok v ws -> input_ok v fin input ->
  compress1_loop_gen v k rd dbg input ws c ln fin st = Ret (C1 v st fin ln input ws c).
Proof.
  intros K R O I. unfold compress1_loop_gen. rewrite input_debug_asserts_ok by auto. cbn [bind].
  unfold sat_sub.
  destruct (fin_offset_props v st (length input)) as (n & E & H1 & H2). cbv zeta in E, H1, H2.
  set (fo := ((length input - 1) - (length input - 1) mod padded_blockbytes v st)%nat) in *.
  pose proof (padded_pos v st).
  rewrite final_block_spec by lia. cbn [bind].
  rewrite (compress1_iter_spec v st k rd fin ln input fo K R) with (n := n); auto; nia.
Qed.

(** The executing CPU provides the instructions of the selected back end. *)
Definition supported (e : env) (imp : platform) : Prop :=
  match imp with
  | Portable => True
  | SSE41 => e_sse41 e = true
  | AVX2 => e_avx2 e = true /\ e_sse41 e = true
  end.

Lemma compress1_loop_spec v e imp input ws c ln fin st :
  supported e imp -> words_ok v ws -> input_ok v fin input ->
  compress1_loop v e imp input ws c ln fin st = Ret (C1 v st fin ln input ws c).
Proof.
  intros S O I. unfold compress1_loop, portable_compress1_loop, Avx2b.avx2_compress1_loop,
    Sse41s.sse41_compress1_loop, target_feature.
  destruct v, imp; cbn in S; try (rewrite S || (destruct S as [S1 S2]; rewrite ?S1, ?S2));
    apply compress1_loop_gen_spec;
    auto using portable_kernel_ok, avx2b_kernel_ok, sse41s_kernel_ok, array_ref_reader_ok, raw_reader_ok.
Qed.
