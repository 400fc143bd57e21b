(** The transposed loops: each lane advances its own job along the pure loop
    [C1]. *)
From Coq Require Import ZArith Arith NArith List Bool Lia ZifyBool ZifyNat ZifyN.
From Verif Require Import Base ByteLemmas Guts Portable Intrinsics KernelSpec LaneLemmas RowKernels
  Simd Transposed Impl Loops.
From Verif Require Spec.
Import ListNotations.
Open Scope N_scope.

(** *** Lists *)
Lemma flat_map_view {A} S l (f : A -> list reg) cs :
  view S l (flat_map f cs) = flat_map (fun c => view S l (f c)) cs.
Proof.
  induction cs as [|c cs IH]; cbn [flat_map]; auto. rewrite <- IH. apply map_app.
Qed.

Lemma list_map_nth {A B} (f : A -> B) (l : list A) d n : length l = n ->
  map f l = map (fun k => f (nth k l d)) (seq 0 n).
Proof.
  intros <-. apply (nth_ext _ _ (f d) (f d)).
  - rewrite !map_length, seq_length. reflexivity.
  - intros i Hi. rewrite map_length in Hi. rewrite nth_map_seq by auto. rewrite map_nth. reflexivity.
Qed.

Lemma nth_map_lt {A B} (f : A -> B) l i d d' : (i < length l)%nat -> nth i (map f l) d' = f (nth i l d).
Proof.
  intros H. rewrite (nth_indep _ d' (f d)) by (rewrite map_length; auto). apply map_nth.
Qed.

Lemma map_seq_shift {A} (f : nat -> A) b e z :
  map (fun i => f (b + i)%nat) (seq z e) = map f (seq (b + z) e).
Proof.
  revert z. induction e as [|e IH]; intros z; auto.
  cbn [seq map]. f_equal. rewrite <- Nat.add_succ_r. apply IH.
Qed.

Lemma map_seq_chunks {A} (f : nat -> A) d k :
  flat_map (fun c => map (fun i => f (c * d + i)%nat) (seq 0 d)) (seq 0 k) = map f (seq 0 (k * d)).
Proof.
  assert (H : forall k s, flat_map (fun c => map (fun i => f (c * d + i)%nat) (seq 0 d)) (seq s k) =
            map f (seq (s * d) (k * d))).
  { induction k0 as [|k0 IH]; intros s; auto.
    cbn [seq flat_map]. rewrite IH. cbn [Nat.mul]. rewrite seq_app, map_app. f_equal.
    - rewrite map_seq_shift, Nat.add_0_r. reflexivity.
    - cbn [Nat.mul]. f_equal. f_equal. lia. }
  apply (H k 0%nat).
Qed.

Lemma mapM_Ret {A B} (f : A -> outcome B) (g : A -> B) l :
  (forall x, In x l -> f x = Ret (g x)) -> mapM f l = Ret (map g l).
Proof.
  induction l as [|x l IH]; intros H; cbn [mapM map]; auto.
  rewrite H by (left; auto). cbn [bind]. rewrite IH by (intros; apply H; right; auto). reflexivity.
Qed.

(** *** Loading and storing *)
Section One.
Context (S : simd) (OK : simd_ok S).
Let v := s_var S.
Let d := s_degree S.
Let W := wbytes v.

Lemma degree_pos : (0 < d)%nat.
Proof. pose proof (ok_degree S OK) as H. fold d in H. cbn in H. lia. Qed.

Lemma view_transpose vs l : length vs = d -> (l < d)%nat ->
  view S l (s_transpose_vecs S vs) = map (fun k => lane W (nth l vs []) k) (seq 0 d).
Proof.
  intros L Hl. destruct (ok_transpose S OK vs L) as [L' T]. unfold view. fold v W.
  rewrite (list_map_nth (A := reg) (fun r => lane W r l) (s_transpose_vecs S vs) [] d L').
  apply map_ext_in. intros k Hk. apply in_seq in Hk. apply T; auto. fold d. lia.
Qed.

Lemma wordsn_chunk n ws c : wordsn v n ws -> (c * d + d <= n)%nat ->
  wordsn v d (firstn d (skipn (c * d) ws)).
Proof.
  intros [L F] H. split.
  - rewrite firstn_skipn_length; lia.
  - apply Forall_forall. intros x Hx. rewrite Forall_forall in F. apply F.
    rewrite <- (firstn_skipn (c * d) ws). apply in_or_app. right.
    rewrite <- (firstn_skipn d (skipn (c * d) ws)). apply in_or_app. left. exact Hx.
Qed.

Lemma chunks8 c : In c (seq 0 (8 / d)) -> (c * d + d <= 8)%nat.
Proof.
  pose proof (ok_degree S OK) as H. fold d in H. intros Hc. apply in_seq in Hc.
  destruct H as [<-|[<-|[<-|[]]]]; cbn in Hc; lia.
Qed.
Lemma chunks16 c : In c (seq 0 (16 / d)) -> (c * d + d <= 16)%nat.
Proof.
  pose proof (ok_degree S OK) as H. fold d in H. intros Hc. apply in_seq in Hc.
  destruct H as [<-|[<-|[<-|[]]]]; cbn in Hc; lia.
Qed.
Lemma full8 : (8 / d * d = 8)%nat.
Proof.
  pose proof (ok_degree S OK) as H. fold d in H. destruct H as [<-|[<-|[<-|[]]]]; reflexivity.
Qed.
Lemma full16 : (16 / d * d = 16)%nat.
Proof.
  pose proof (ok_degree S OK) as H. fold d in H. destruct H as [<-|[<-|[<-|[]]]]; reflexivity.
Qed.

Lemma flat_map_ext_in {A B} (f g : A -> list B) l :
  (forall x, In x l -> f x = g x) -> flat_map f l = flat_map g l.
Proof.
  induction l as [|x l IH]; intros H; cbn [flat_map]; auto.
  rewrite H by (left; auto). rewrite IH; auto. intros; apply H; right; auto.
Qed.

Lemma list_eq_seq {A} (l : list A) n z : length l = n -> map (fun k => nth k l z) (seq 0 n) = l.
Proof. intros H. rewrite <- (list_map_nth (fun x => x) l z n H). apply map_id. Qed.

Definition job0 : job := {| j_input := []; j_words := []; j_count := 0; j_last_node := false |}.

Lemma transpose_state_view jobs l : length jobs = d -> (l < d)%nat ->
  words_ok v (j_words (nth l jobs job0)) ->
  view S l (transpose_state_vecs S jobs) = j_words (nth l jobs job0).
Proof.
  intros L Hl O. unfold transpose_state_vecs. fold d v W. rewrite flat_map_view.
  rewrite (flat_map_ext_in _
    (fun c => map (fun k => (fun q => nth q (j_words (nth l jobs job0)) 0) (c * d + k)%nat) (seq 0 d))).
  - rewrite (map_seq_chunks (fun q => nth q (j_words (nth l jobs job0)) 0) d), full8. apply list_eq_seq. apply O.
  - intros c Hc. rewrite view_transpose by (auto; rewrite map_length; auto).
    rewrite (nth_map_lt _ _ _ job0) by (rewrite L; auto).
    apply map_ext_in. intros k Hk. apply in_seq in Hk. pose proof (chunks8 c Hc).
    rewrite (lane_load v d) by (try lia; eapply wordsn_chunk; eauto).
    rewrite nth_firstn_lt by lia. rewrite nth_skipn_add. reflexivity.
Qed.

Lemma transpose_state_length jobs : length jobs = d -> length (transpose_state_vecs S jobs) = 8%nat.
Proof.
  intros L. unfold transpose_state_vecs. fold d v W. rewrite flat_map_concat_map.
  assert (H : forall cs : list nat, length (concat (map (fun c =>
     s_transpose_vecs S (map (fun j => load_words W (firstn d (skipn (c * d) (j_words j)))) jobs)) cs))
     = (length cs * d)%nat).
  { induction cs as [|c cs IH]; auto. cbn [map concat length]. rewrite app_length, IH.
    destruct (ok_transpose S OK (map (fun j => load_words W (firstn d (skipn (c * d) (j_words j)))) jobs)) as [E _].
    { rewrite map_length. auto. }
    rewrite E. fold d. lia. }
  rewrite H, seq_length. apply full8.
Qed.

Lemma untranspose_view h i : length h = 8%nat -> (i < d)%nat ->
  untranspose_state_vecs S h i = view S i h.
Proof.
  intros L Hi. unfold untranspose_state_vecs. fold d v W.
  rewrite (flat_map_ext_in _
    (fun c => map (fun k => (fun q => lane W (nth q h []) i) (c * d + k)%nat) (seq 0 d))).
  - rewrite (map_seq_chunks (fun q => lane W (nth q h []) i) d), full8. unfold view. fold v W. rewrite (list_map_nth (A := reg) (fun r => lane W r i) h [] 8 L). reflexivity.
  - intros c Hc. pose proof (chunks8 c Hc). unfold store_words.
    apply map_ext_in. intros k Hk. apply in_seq in Hk.
    destruct (ok_transpose S OK (firstn d (skipn (c * d) h))) as [_ T].
    { rewrite firstn_skipn_length; fold d; lia. }
    rewrite T by (fold d; lia). rewrite nth_firstn_lt by lia. rewrite nth_skipn_add. reflexivity.
Qed.

Lemma bytes_bytes mem off n a b : (a + b <= n)%nat ->
  bytes (bytes mem off n) a b = bytes mem (off + a) b.
Proof.
  intros H. unfold bytes at 1. unfold bytes at 2. apply (nth_ext _ _ x00 x00).
  - rewrite !map_length, !seq_length. reflexivity.
  - intros i Hi. rewrite map_length, seq_length in Hi. rewrite !nth_map_seq by auto.
    unfold getb at 1, bytes. rewrite nth_map_seq by lia. f_equal. lia.
Qed.

Lemma transpose_msg_view blocks l : length blocks = d -> (l < d)%nat ->
  length (nth l blocks []) = blockbytes v ->
  view S l (transpose_msg_vecs S blocks) = msg_words v (nth l blocks []).
Proof.
  intros L Hl O. unfold transpose_msg_vecs. fold d v W. rewrite flat_map_view.
  rewrite (flat_map_ext_in _
    (fun c => map (fun k => (fun q => lane W (nth l blocks []) q) (c * d + k)%nat) (seq 0 d))).
  - rewrite (map_seq_chunks (fun q => lane W (nth l blocks []) q) d), full16. unfold msg_words. apply map_ext_in.
    intros q Hq. apply in_seq in Hq. unfold lane. f_equal. apply bytes_firstn. rewrite O. unfold W.
    destruct v; cbn; lia.
  - intros c Hc. rewrite view_transpose by (auto; rewrite map_length; auto).
    rewrite (nth_map_lt _ _ _ []) by (rewrite L; auto).
    apply map_ext_in. intros k Hk. apply in_seq in Hk. pose proof (chunks16 c Hc).
    unfold lane, loadu_bytes. rewrite bytes_bytes by nia. f_equal. f_equal. lia.
Qed.

(** *** Counters *)
Lemma count_low_lt' c : count_low v c < wmod v.
Proof. apply N.mod_lt, wmod_nz. Qed.

Lemma store_count_eq lo hi i c : c < cmod v ->
  lane W lo i = count_low v c -> lane W hi i = count_high v c -> store_count S lo hi i = c.
Proof.
  intros Hc Hlo Hhi. unfold store_count. fold v W. rewrite Hlo, Hhi.
  unfold assemble_count, count_low, count_high.
  rewrite N.shiftl_mul_pow2, N.shiftr_div_pow2.
  replace (8 * N.of_nat (wbytes v)) with (wbits v) by (destruct v; reflexivity).
  fold (wmod v). rewrite (N.mod_small (c / wmod v)).
  - rewrite N.add_comm, N.mul_comm. symmetry. apply N.div_mod, wmod_nz.
  - apply N.div_lt_upper_bound; [apply wmod_nz|]. rewrite cmod_square in Hc. exact Hc.
Qed.
End One.

(** Adding a block length (or less) to a block-aligned count never carries
    other than by reaching zero exactly. *)
Lemma split_add v c e : c < cmod v -> c mod N.of_nat (blockbytes v) = 0 -> e <= N.of_nat (blockbytes v) ->
  let c' := count_wrapping_add v c e in
  count_low v c' = wrapping_add v (count_low v c) e /\
  count_high v c' = wrapping_add v (count_high v c)
     (if (wrapping_add v (count_low v c) e =? 0) && negb (e =? 0) then 1 else 0).
Proof.
  intros Hc Ha He. cbv zeta. unfold count_low, count_high, count_wrapping_add, wrapping_add.
  rewrite !N.shiftr_div_pow2.
  replace (8 * N.of_nat (wbytes v)) with (wbits v) by (destruct v; reflexivity).
  fold (wmod v). rewrite cmod_square in *.
  set (B := N.of_nat (blockbytes v)) in *.
  assert (HB : exists q, wmod v = q * B /\ 0 < q /\ 0 < B).
  { destruct v; [exists (2 ^ 57)|exists (2 ^ 26)]; cbn; repeat split; lia. }
  destruct HB as (q & Hq & Hq0 & HB0).
  pose proof (wmod_nz v) as WN. set (w := wmod v) in *. clearbody w.
  assert (E1 : c mod w + e <= w).
  { assert (Hm : c mod w mod B = 0).
    { rewrite Hq, N.mul_comm. rewrite N.mod_mul_r by lia.
      rewrite Ha, N.add_0_l, N.mul_comm. apply N.mod_mul. lia. }
    pose proof (N.mod_lt c w WN).
    pose proof (N.div_mod (c mod w) B ltac:(lia)) as D. rewrite Hm in D.
    assert (c mod w / B < q). { apply N.div_lt_upper_bound; lia. }
    clearbody B. nia. }
  pose proof (N.div_mod c w WN) as D. pose proof (N.mod_lt c w WN) as Lm.
  set (lo := c mod w) in *. set (hi := c / w) in *.
  assert (Hhi : hi < w). { apply N.div_lt_upper_bound; auto. }
  assert (LOW : (c + e) mod (w * w) mod w = (lo + e) mod w).
  { rewrite N.mod_mul_r by auto. rewrite N.mul_comm, N.mod_add, N.mod_mod by auto.
    rewrite D, <- N.add_assoc, N.add_comm, N.mul_comm, N.mod_add by auto. reflexivity. }
  split; [exact LOW|].
  assert (HIGH : (c + e) mod (w * w) / w mod w = (c + e) / w mod w).
  { rewrite N.mod_mul_r by auto.
    rewrite N.mul_comm, N.div_add by auto. rewrite (N.div_small ((c + e) mod w)) by (apply N.mod_lt; auto).
    rewrite N.add_0_l, N.mod_mod by auto. reflexivity. }
  rewrite HIGH. rewrite D. clear LOW HIGH.
  rewrite <- N.add_assoc, (N.mul_comm w hi), N.add_comm, N.div_add by auto.
  rewrite (N.mod_small hi) by auto.
  destruct (N.eq_dec (lo + e) w) as [Ew|Nw].
  - rewrite Ew, N.mod_same, N.div_same by auto.
    assert (e <> 0) by lia. destruct (N.eqb_spec e 0); [lia|]. rewrite N.add_comm. reflexivity.
  - rewrite (N.mod_small (lo + e)) by lia. rewrite (N.div_small (lo + e)) by lia.
    destruct (N.eqb_spec (lo + e) 0).
    + assert (e = 0) by lia. subst e. rewrite N.eqb_refl. cbn [andb negb]. rewrite N.add_0_l, N.add_0_r. reflexivity.
    + cbn [andb]. rewrite N.add_0_l, N.add_0_r. reflexivity.
Qed.

(** *** The pure loop, n steps at a time *)
Fixpoint steps (v : variant) (st : stride) (n : nat) (input : list byte) (ws : list N) (c : N)
    : list byte * list N * N :=
  match n with
  | O => (input, ws, c)
  | Datatypes.S n' => steps v st n' (skipn (padded_blockbytes v st) input) (mid_step v input ws c)
             (count_wrapping_add v c (N.of_nat (blockbytes v)))
  end.

Definition aligned (v : variant) (c : N) : Prop :=
  c < cmod v /\ c mod N.of_nat (blockbytes v) = 0.

Lemma aligned_add v c : aligned v c -> aligned v (count_wrapping_add v c (N.of_nat (blockbytes v))).
Proof.
  intros [H1 H2]. split; [apply N.mod_lt, cmod_nz|]. unfold count_wrapping_add.
  set (B := N.of_nat (blockbytes v)) in *.
  assert (HB : exists q, cmod v = B * q /\ 0 < q /\ 0 < B).
  { destruct v; [exists (2 ^ 121)|exists (2 ^ 58)]; cbn; repeat split; lia. }
  destruct HB as (q & -> & Hq & HB). rewrite N.mod_mul_r by lia.
  rewrite N.mul_comm, N.mod_add, N.mod_mod by lia.
  rewrite <- (N.mul_1_l B) at 1. rewrite N.mod_add by lia. exact H2.
Qed.

Lemma cwa_assoc v c a b : count_wrapping_add v (count_wrapping_add v c a) b = count_wrapping_add v c (a + b).
Proof.
  unfold count_wrapping_add. rewrite N.add_mod_idemp_l by apply cmod_nz. f_equal. lia.
Qed.

Lemma steps_facts v st n : forall input ws c, words_ok v ws -> aligned v c ->
  exists w' c', steps v st n input ws c = (skipn (n * padded_blockbytes v st) input, w', c') /\
    words_ok v w' /\ aligned v c' /\ c' = (c + N.of_nat (n * blockbytes v)) mod cmod v.
Proof.
  induction n as [|n IH]; intros input ws c O A; cbn [steps].
  - exists ws, c. cbn [Nat.mul skipn]. split; [auto|split; [auto|split; [auto|]]].
    rewrite N.add_0_r. symmetry. apply N.mod_small, A.
  - destruct (IH (skipn (padded_blockbytes v st) input) (mid_step v input ws c)
       (count_wrapping_add v c (N.of_nat (blockbytes v)))) as (w' & c' & E & H1 & H2 & H3).
    { apply mid_step_ok; auto. } { apply aligned_add; auto. }
    exists w', c'. rewrite E, skipn_skipn_add. split; [auto|split; [auto|split; [auto|]]].
    rewrite H3. fold (count_wrapping_add v (count_wrapping_add v c (N.of_nat (blockbytes v))) (N.of_nat (n * blockbytes v))).
    rewrite cwa_assoc. unfold count_wrapping_add. f_equal. f_equal. cbn [Nat.mul]. lia.
Qed.

Lemma steps_add v st n m : forall input ws c i' w' c', steps v st n input ws c = (i', w', c') ->
  steps v st (n + m) input ws c = steps v st m i' w' c'.
Proof.
  induction n as [|n IH]; intros input ws c i' w' c' E; cbn [steps Nat.add] in *.
  - injection E as <- <- <-. reflexivity.
  - apply IH, E.
Qed.
Lemma steps_snoc v st n input ws c i' w' c' : steps v st n input ws c = (i', w', c') ->
  steps v st (n + 1) input ws c =
    (skipn (padded_blockbytes v st) i', mid_step v i' w' c', count_wrapping_add v c' (N.of_nat (blockbytes v))).
Proof. intros E. rewrite (steps_add _ _ _ _ _ _ _ _ _ _ E). reflexivity. Qed.

Lemma steps_C1 v st fin ln n : forall input ws c i' w' c',
  steps v st n input ws c = (i', w', c') ->
  (n = 0 \/ n * padded_blockbytes v st < length input)%nat ->
  C1 v st fin ln input ws c = C1 v st fin ln i' w' c'.
Proof.
  pose proof (padded_pos v st).
  induction n as [|n IH]; intros input ws c i' w' c' E L; cbn [steps] in E.
  - congruence.
  - rewrite C1_more by nia. eapply IH; eauto. rewrite skipn_length. destruct n; [left; auto|right; nia].
Qed.

(** *** One iteration of all lanes *)
Section Iter.
Context (S : simd) (OK : simd_ok S).
Let v := s_var S.
Let d := s_degree S.
Let W := wbytes v.

Lemma bb_lt_wmod : N.of_nat (blockbytes v) < wmod v.
Proof. destruct v; reflexivity. Qed.

Lemma add_to_counts_lane lo hi delta l c e :
  (l < d)%nat -> aligned v c -> e <= N.of_nat (blockbytes v) ->
  lane W lo l = count_low v c -> lane W hi l = count_high v c -> lane W delta l = e ->
  lane W (fst (add_to_counts S lo hi delta)) l = count_low v (count_wrapping_add v c e) /\
  lane W (snd (add_to_counts S lo hi delta)) l = count_high v (count_wrapping_add v c e).
Proof.
  intros Hl [A1 A2] He Hlo Hhi Hd.
  destruct (split_add v c e A1 A2 He) as [E1 E2].
  unfold add_to_counts. cbn [fst snd]. unfold W, v in *.
  assert (Z : 0 < wmod (s_var S)) by apply wmod_pos.
  assert (Z1 : 1 < wmod (s_var S)) by (destruct (s_var S); reflexivity).
  rewrite !(ok_add S OK), (ok_and S OK), (ok_negate_and S OK), !(ok_eq S OK), (ok_add S OK) by auto.
  rewrite !(ok_set1 S OK) by auto. rewrite Hlo, Hhi, Hd. rewrite E1, E2. split; [reflexivity|].
  f_equal. destruct (N.eqb_spec (wrapping_add (s_var S) (count_low (s_var S) c) e) 0),
    (N.eqb_spec e 0); destruct (s_var S); reflexivity.
Qed.

Lemma compressn_iter_spec inputs fo fin_blocks dl lbr lnr st
    (delta : nat -> N) (fb fn : nat -> bool) :
  let P := padded_blockbytes v st in
  length inputs = d -> length fin_blocks = d ->
  (forall l, (l < d)%nat -> length (nth l fin_blocks []) = blockbytes v /\
     lane W dl l = delta l /\ delta l <= N.of_nat (blockbytes v) /\
     lane W lbr l = flag_word v (fb l) /\ lane W lnr l = flag_word v (fn l)) ->
  forall fuel n off h lo hi (ws : nat -> list N) (cs : nat -> N),
  (off + n * P = fo)%nat -> (n < fuel)%nat ->
  (0 < n -> forall l, l < d -> fo < length (nth l inputs []))%nat ->
  length h = 8%nat ->
  (forall l, (l < d)%nat -> view S l h = ws l /\ lane W lo l = count_low v (cs l) /\
     lane W hi l = count_high v (cs l) /\ words_ok v (ws l) /\ aligned v (cs l)) ->
  exists h' lo' hi',
    compressn_iter S fuel inputs fo fin_blocks dl lbr lnr st off h lo hi = Ret (h', lo', hi', fo) /\
    length h' = 8%nat /\
    forall l, (l < d)%nat -> exists w' c',
      steps v st n (skipn off (nth l inputs [])) (ws l) (cs l) = (skipn fo (nth l inputs []), w', c') /\
      let c'' := count_wrapping_add v c' (delta l) in
      view S l h' = Spec.F (fl v) w' (nth l fin_blocks []) c'' (fb l) (fn l) /\
      lane W lo' l = count_low v c'' /\ lane W hi' l = count_high v c''.
Proof.
  intros P Li Lb Hfin.
  pose proof (padded_pos v st) as HP. pose proof (padded_ge v st) as HG. fold P in HP, HG.
  induction fuel as [|fuel IH]; intros n off h lo hi ws cs Hoff Hn Hlt Lh Hst; [lia|].
  assert (LT : forall h m a b x y, length (compress_transposed S h m a b x y) = 8%nat) by reflexivity.
  cbn [compressn_iter].
  destruct (Nat.eqb_spec off fo) as [->|Ne].
  - assert (n = 0)%nat by nia. subst n. cbn [bind].
    destruct (add_to_counts S lo hi dl) as [lo' hi'] eqn:EA.
    eexists _, _, _. split; [reflexivity|]. split; [apply LT|].
    intros l Hl. destruct (Hfin l Hl) as (F1 & F2 & F3 & F4 & F5).
    destruct (Hst l Hl) as (H1 & H2 & H3 & H4 & H5).
    exists (ws l), (cs l). split; [reflexivity|]. cbv zeta.
    destruct (add_to_counts_lane lo hi dl l (cs l) (delta l) Hl H5 F3 H2 H3 F2) as [A1 A2].
    rewrite EA in A1, A2. cbn [fst snd] in A1, A2.
    split; [|auto].
    rewrite (compress_transposed_view S OK l Hl _ _ _ _ _ _ (nth l fin_blocks [])
       (count_wrapping_add v (cs l) (delta l)) (flag_word v (fb l)) (flag_word v (fn l))); auto.
    + rewrite H1. apply compress_block_spec. exact H4.
    + apply (transpose_msg_view S OK); auto.
  - destruct n as [|n]; [lia|]. specialize (Hlt ltac:(lia)).
    rewrite (mapM_Ret _ (fun input => firstn (blockbytes v) (skipn off input))).
    2:{ intros x Hx. destruct (In_nth _ _ [] Hx) as (l & L1 & <-).
        assert (l < d)%nat as Hl by (rewrite <- Li; exact L1). specialize (Hlt l Hl).
        unfold raw_read. fold v. destruct (Nat.leb_spec (off + blockbytes v) (length (nth l inputs []))); [auto|nia]. }
    cbn [bind].
    set (D := s_set1 S (N.of_nat (blockbytes (s_var S)))).
    set (blocks := map (fun input => firstn (blockbytes v) (skipn off input)) inputs).
    destruct (add_to_counts S lo hi D) as [lo' hi'] eqn:EA.
    assert (Z : 0 < wmod v) by apply wmod_pos.
    pose proof bb_lt_wmod as Bw.
    destruct (IH n (off + P)%nat
        (compress_transposed S h (transpose_msg_vecs S blocks) lo' hi' (s_set1 S 0) (s_set1 S 0)) lo' hi'
        (fun l => mid_step v (skipn off (nth l inputs [])) (ws l) (cs l))
        (fun l => count_wrapping_add v (cs l) (N.of_nat (blockbytes v))))
      as (h2 & lo2 & hi2 & E & L2 & H2).
    + lia.
    + lia.
    + intros _. exact Hlt.
    + apply LT.
    + intros l Hl. destruct (Hst l Hl) as (H1 & H2 & H3 & H4 & H5).
      destruct (add_to_counts_lane lo hi D l (cs l) (N.of_nat (blockbytes v)) Hl H5 ltac:(lia) H2 H3) as [A1 A2].
      { apply (ok_set1 S OK); auto. }
      rewrite EA in A1, A2. cbn [fst snd] in A1, A2.
      specialize (Hlt l Hl).
      assert (EB : nth l blocks [] = front v (skipn off (nth l inputs []))).
      { unfold blocks. rewrite (nth_map_lt _ _ _ []) by lia.
        unfold front. rewrite pad_to_full; auto. apply firstn_skipn_length. nia. }
      split; [|split; [|split; [|split]]]; auto using mid_step_ok, aligned_add.
      rewrite (compress_transposed_view S OK l Hl _ _ _ _ _ _ (nth l blocks [])
         (count_wrapping_add v (cs l) (N.of_nat (blockbytes v))) (flag_word v false) (flag_word v false)); auto.
      * rewrite H1, EB. apply compress_block_spec. exact H4.
      * apply (transpose_msg_view S OK); auto.
        { unfold blocks. rewrite map_length. exact Li. }
        { fold v. rewrite EB. apply front_length. }
      * apply (ok_set1 S OK); auto.
      * apply (ok_set1 S OK); auto.
    + exists h2, lo2, hi2. split; [exact E|]. split; [exact L2|].
      intros l Hl. destruct (H2 l Hl) as (w' & c' & E1 & E2).
      exists w', c'. split; [|exact E2]. cbn [steps]. rewrite skipn_skipn_add. exact E1.
Qed.
End Iter.

(** *** The whole transposed loop *)
Definition job_ok (v : variant) (fin : bool) (j : job) : Prop :=
  words_ok v (j_words j) /\ aligned v (j_count j) /\ input_ok v fin (j_input j).

Definition job_result (v : variant) (st : stride) (fin : bool) (j : job) : list N :=
  C1 v st fin (j_last_node j) (j_input j) (j_words j) (j_count j).

(** What one call makes of a job: finished with the right words, or strictly
    shorter with the same eventual result. *)
Definition advance (v : variant) (st : stride) (fin : bool) (j j' : job) : Prop :=
  j_last_node j' = j_last_node j /\ words_ok v (j_words j') /\
  (exists k, j_input j' = skipn k (j_input j)) /\
  (st = Serial ->
    j_count j' = (j_count j + N.of_nat (length (j_input j) - length (j_input j'))) mod cmod v) /\
  ((j_input j' = [] /\ j_words j' = job_result v st fin j) \/
   (j_input j' <> [] /\ job_ok v fin j' /\ job_result v st fin j' = job_result v st fin j /\
    (length (j_input j') < length (j_input j))%nat /\
    exists m, steps v st m (j_input j) (j_words j) (j_count j) = (j_input j', j_words j', j_count j'))).

Lemma min_len_spec jobs : jobs <> [] -> exists m, min_len jobs = Ret m /\
  (forall j, In j jobs -> m <= length (j_input j))%nat /\
  exists j, In j jobs /\ m = length (j_input j).
Proof.
  destruct jobs as [|j0 r]; [congruence|]. intros _. eexists. split; [reflexivity|].
  assert (H : forall r a, let m := fold_left (fun m j => Nat.min m (length (j_input j))) r a in
    (m <= a)%nat /\ (forall j, In j r -> m <= length (j_input j))%nat /\
    (m = a \/ exists j, In j r /\ m = length (j_input j))).
  { induction r0 as [|j r0 IH]; intros a; cbn.
    - repeat split; auto. intros ? [].
    - destruct (IH (Nat.min a (length (j_input j)))) as (A & B & C). repeat split.
      + lia.
      + intros j' [<-|H']; [lia|auto].
      + destruct C as [C|(j' & C1' & C2)].
        * destruct (Nat.min_spec a (length (j_input j))) as [[_ M]|[_ M]]; [left; lia|right; exists j; split; [auto|lia]].
        * eauto. }
  destruct (H r (length (j_input j0))) as (A & B & C). split.
  - intros j [<-|Hj]; auto.
  - destruct C as [C|(j' & C1' & C2)].
    + exists j0. split; [left; auto|exact C].
    + exists j'. split; [right; auto|exact C2].
Qed.

Lemma combine_map_l {A B} (f : A -> B) l : combine (map f l) l = map (fun x => (f x, x)) l.
Proof. induction l; cbn; congruence. Qed.

Lemma combine_seq_nth {A} (l : list A) z : combine (seq 0 (length l)) l = map (fun i => (i, nth i l z)) (seq 0 (length l)).
Proof.
  rewrite <- (list_eq_seq l (length l) z eq_refl) at 2. rewrite <- (map_id (seq 0 (length l))) at 1.
  rewrite combine_map_same. reflexivity.
Qed.

Lemma compressn_loop_spec S dbg jobs fin st :
  simd_ok S -> length jobs = s_degree S ->
  (forall j, In j jobs -> job_ok (s_var S) fin j) ->
  exists jobs', compressn_loop S dbg jobs fin st = Ret jobs' /\
    length jobs' = s_degree S /\
    (forall l, (l < s_degree S)%nat ->
       advance (s_var S) st fin (nth l jobs job0) (nth l jobs' job0)) /\
    (exists l, (l < s_degree S)%nat /\ j_input (nth l jobs' job0) = []).
Proof.
  intros OK L J. unfold compressn_loop. set (v := s_var S) in *. set (d := s_degree S) in *.
  pose proof (degree_pos S OK) as Hd. fold d in Hd.
  rewrite (mapM_Ret _ (fun _ => tt)).
  2:{ intros j Hj. apply input_debug_asserts_ok. apply (J j Hj). }
  cbn [bind]. destruct (load_counts S jobs) as [clo chi] eqn:EC.
  destruct (min_len_spec jobs) as (m & Em & Hm & jm & Hjm & Ejm). { destruct jobs; cbn in L; [lia|congruence]. }
  rewrite Em. cbn [bind]. unfold sat_sub.
  destruct (fin_offset_props v st m) as (n & E & H1 & H2). cbv zeta in E, H1, H2.
  set (fo := ((m - 1) - (m - 1) mod padded_blockbytes v st)%nat) in *. clearbody fo.
  pose proof (padded_pos v st) as HP. pose proof (padded_ge v st) as HG.
  set (P := padded_blockbytes v st) in *.
  pose (fin3 := fun j => (front v (skipn fo (j_input j)),
          Nat.min (blockbytes v) (length (skipn fo (j_input j))),
          Nat.leb (length (skipn fo (j_input j))) P)).
  rewrite (mapM_Ret _ fin3).
  2:{ intros j Hj. apply final_block_spec. specialize (Hm j Hj). lia. }
  cbn [bind].
  assert (JN : forall l, (l < d)%nat -> In (nth l jobs job0) jobs).
  { intros l Hl. apply nth_In. lia. }
  set (inp := fun l => j_input (nth l jobs job0)).
  set (sf := fun l => Nat.leb (length (skipn fo (inp l))) P).
  set (delta := fun l => N.of_nat (Nat.min (blockbytes v) (length (skipn fo (inp l))))).
  assert (Bw : N.of_nat (blockbytes v) < wmod v) by (destruct v; reflexivity).
  destruct (if fin
     then (flags_vec S (map snd (map fin3 jobs)),
           flags_vec S (map (fun p => snd (fst p) && j_last_node (snd p)) (combine (map fin3 jobs) jobs)))
     else (s_set1 S 0, s_set1 S 0)) as [flb fln] eqn:EF.
  assert (FL : forall l, (l < d)%nat -> lane (wbytes v) flb l = flag_word v (fin && sf l) /\
       lane (wbytes v) fln l = flag_word v (fin && (sf l && j_last_node (nth l jobs job0)))).
  { intros l Hl. destruct fin; inversion EF; subst flb fln; clear EF.
    - unfold flags_vec. rewrite !(ok_setn S OK); auto.
      + fold v. rewrite !(nth_map_lt _ _ _ false) by
          (rewrite !map_length, ?combine_length, ?map_length, ?Nat.min_id; lia).
        rewrite (nth_map_lt snd _ _ (fin3 job0)) by (rewrite map_length; lia).
        rewrite (nth_map_lt fin3 _ _ job0) by lia.
        rewrite combine_map_l, map_map.
        rewrite (nth_map_lt _ _ _ job0) by lia. split; reflexivity.
      + split; [rewrite !map_length, combine_length, map_length; fold d; lia|].
        apply Forall_forall. intros x Hx. apply in_map_iff in Hx. destruct Hx as (b & <- & _). apply flag_word_lt.
      + split; [rewrite !map_length; fold d; lia|].
        apply Forall_forall. intros x Hx. apply in_map_iff in Hx. destruct Hx as (b & <- & _). apply flag_word_lt.
    - cbn [andb flag_word]. split; apply (ok_set1 S OK); auto; apply wmod_pos. }
  destruct (compressn_iter_spec S OK (map j_input jobs) fo (map (fun f => fst (fst f)) (map fin3 jobs))
     (s_setn S (map (fun f => N.of_nat (snd (fst f))) (map fin3 jobs))) flb fln st
     delta (fun l => fin && sf l) (fun l => fin && (sf l && j_last_node (nth l jobs job0))))
    with (fuel := Datatypes.S m) (n := n) (off := 0%nat) (h := transpose_state_vecs S jobs)
      (lo := clo) (hi := chi) (ws := fun l => j_words (nth l jobs job0))
      (cs := fun l => j_count (nth l jobs job0))
    as (h' & lo' & hi' & EI & LH & HL); fold d v.
  - rewrite map_length. exact L.
  - rewrite !map_length. exact L.
  - intros l Hl. destruct (FL l Hl) as [FL1 FL2]. split; [|split; [|split]].
    + rewrite map_map. rewrite (nth_map_lt _ _ _ job0) by lia. apply front_length.
    + rewrite (ok_setn S OK); auto.
      * rewrite map_map. rewrite (nth_map_lt _ _ _ job0) by lia. reflexivity.
      * split; [rewrite !map_length; fold d; lia|]. rewrite map_map.
        apply Forall_forall. intros x Hx. apply in_map_iff in Hx. destruct Hx as (b & <- & _).
        fold v. cbn [fst snd fin3]. lia.
    + unfold delta. lia.
    + split; assumption.
  - fold P. lia.
  - nia.
  - intros Hn l Hl. rewrite (nth_map_lt _ _ _ job0) by lia. specialize (Hm _ (JN l Hl)). nia.
  - apply (transpose_state_length S OK). exact L.
  - intros l Hl. destruct (J _ (JN l Hl)) as (O1 & O2 & O3).
    assert (clo = fst (load_counts S jobs) /\ chi = snd (load_counts S jobs)) as [-> ->] by (rewrite EC; auto).
    unfold load_counts. cbn [fst snd].
    split; [apply (transpose_state_view S OK); auto|].
    rewrite !(ok_setn S OK); auto.
    + fold v. rewrite !(nth_map_lt _ _ _ job0) by lia. auto.
    + split; [rewrite map_length; fold d; lia|].
      apply Forall_forall. intros x Hx. apply in_map_iff in Hx. destruct Hx as (b & <- & _). apply count_high_lt.
    + split; [rewrite map_length; fold d; lia|].
      apply Forall_forall. intros x Hx. apply in_map_iff in Hx. destruct Hx as (b & <- & _). apply count_low_lt.
  - fold v in EI. rewrite EI. cbn [bind]. fold P.
    pose (out := fun p : nat * job =>
        {| j_input := skipn (Nat.min (fo + P) (length (j_input (snd p)))) (j_input (snd p));
           j_words := untranspose_state_vecs S h' (fst p);
           j_count := store_count S lo' hi' (fst p);
           j_last_node := j_last_node (snd p) |}).
    rewrite (mapM_Ret _ out).
    2:{ intros [i j] Hp. unfold slice_from.
        destruct (Nat.leb_spec (Nat.min (fo + P) (length (j_input j))) (length (j_input j))); [reflexivity|lia]. }
    rewrite (combine_seq_nth jobs job0), map_map.
    assert (NT : forall l, (l < d)%nat ->
      nth l (map (fun x => out (x, nth x jobs job0)) (seq 0 (length jobs))) job0 = out (l, nth l jobs job0)).
    { intros l Hl. rewrite nth_map_seq by lia. reflexivity. }
    eexists. split; [reflexivity|]. split; [rewrite map_length, seq_length; exact L|]. split.
    + intros l Hl. rewrite NT by auto.
      destruct (HL l Hl) as (w' & c' & ES & EW & Elo & Ehi).
      fold v in EW, Elo, Ehi, ES.
      rewrite (nth_map_lt _ _ _ job0) in ES by lia. fold (inp l) in ES. cbn [skipn] in ES.
      rewrite map_map in EW. rewrite (nth_map_lt _ _ _ job0) in EW by lia.
      cbn [fst fin3] in EW. fold (inp l) in EW.
      destruct (J _ (JN l Hl)) as (O1 & O2 & O3). fold (inp l) in O3.
      set (j := nth l jobs job0) in *.
      destruct (steps_facts v st n (inp l) (j_words j) (j_count j) O1 O2) as (w2 & c2 & ES2 & Ow & Ac & Ec).
      rewrite ES in ES2. injection ES2 as _ <- <-.
      pose proof (Hm _ (JN l Hl)) as Ml. fold j in Ml. change (j_input j) with (inp l) in Ml.
      assert (HC : C1 v st fin (j_last_node j) (inp l) (j_words j) (j_count j) =
                   C1 v st fin (j_last_node j) (skipn fo (inp l)) w' c').
      { apply (steps_C1 v st fin (j_last_node j) n _ _ _ _ _ _ ES). fold P. destruct n; [left; auto|right; nia]. }
      assert (CNT : store_count S lo' hi' l = count_wrapping_add v c' (delta l)).
      { apply store_count_eq; auto. apply N.mod_lt, cmod_nz. }
      unfold advance, out. cbn [j_input j_words j_count j_last_node fst snd].
      change (j_input j) with (inp l).
      rewrite (untranspose_view S OK) by auto. rewrite EW, CNT.
      pose proof (skipn_length fo (inp l)) as SL.
      split; [reflexivity|]. split; [apply F_ok; exact Ow|]. split; [eauto|]. split.
      { intros ->. rewrite Ec. unfold count_wrapping_add. rewrite N.add_mod_idemp_l by apply cmod_nz.
        f_equal. rewrite <- N.add_assoc. f_equal. unfold delta. rewrite !skipn_length.
        change P with (blockbytes v) in *. rewrite <- E. clear -H1 Ml.
        generalize dependent (length (inp l)). generalize (blockbytes v) as b. intros. lia. }
      destruct (Nat.leb_spec (length (skipn fo (inp l))) P) as [Le|Gt].
      * left. split.
        { apply length_zero_iff_nil. rewrite skipn_length. lia. }
        unfold job_result. change (j_input j) with (inp l). rewrite HC, C1_last by exact Le.
        unfold fin_step, fin_count. unfold sf. destruct (Nat.leb_spec (length (skipn fo (inp l))) P); [|lia].
        rewrite Bool.andb_true_r. cbn [andb]. reflexivity.
      * right. rewrite Nat.min_l by lia. split; [|split; [|split; [|split]]].
        { intros Z. apply (f_equal (@length byte)) in Z. rewrite skipn_length in Z. cbn in Z. lia. }
        { unfold job_ok. cbn [j_input j_words j_count]. split; [apply F_ok; exact Ow|]. split.
          - unfold delta. rewrite Nat.min_l by lia. apply aligned_add. exact Ac.
          - destruct O3 as [->|[_ O3]]; [left; auto|]. right. split.
            + intros Z. apply (f_equal (@length byte)) in Z. rewrite skipn_length in Z. cbn in Z. lia.
            + rewrite skipn_length. pose proof (padded_mod v st) as PM. fold P in PM.
              pose proof (blockbytes_pos v) as BP.
              apply Nat.mod_divide in O3; [|lia]. apply Nat.mod_divide in PM; [|lia]. apply Nat.mod_divide; [lia|].
              apply Nat.divide_sub_r; auto. rewrite E. apply Nat.divide_add_r; auto. apply Nat.divide_mul_r; auto. }
        { unfold job_result. cbn [j_input j_words j_count j_last_node]. change (j_input j) with (inp l).
          rewrite HC, (C1_more v st fin _ (skipn fo (inp l))) by exact Gt.
          fold P. rewrite skipn_skipn_add. unfold sf, delta.
          destruct (Nat.leb_spec (length (skipn fo (inp l))) P); [lia|].
          cbn [andb]. rewrite !Bool.andb_false_r. rewrite Nat.min_l by lia. reflexivity. }
        { rewrite skipn_length. lia. }
        { exists (n + 1)%nat. rewrite (steps_snoc _ _ _ _ _ _ _ _ _ ES). fold P. rewrite skipn_skipn_add. unfold sf, delta.
          destruct (Nat.leb_spec (length (skipn fo (inp l))) P); [lia|].
          cbn [andb]. rewrite !Bool.andb_false_r. rewrite Nat.min_l by lia. reflexivity. }
    + destruct (In_nth _ _ job0 Hjm) as (l & Ll & El). rewrite L in Ll. exists l. split; [exact Ll|].
      rewrite NT by auto. cbn [out j_input snd]. rewrite El. apply length_zero_iff_nil. rewrite skipn_length. lia.
Qed.
