(** Facts about the kernels that the properties about back ends need: no
    kernel loop is stuck or reads out of bounds on any input whatever, the lane
    counters, and the rounds as permutations. *)
From Coq Require Import String Ascii.
From Coq Require Import ZArith Arith NArith List Bool Lia ZifyBool ZifyNat ZifyN.
From Coq Require Import Init.Byte.
From Verif Require Import Base ByteLemmas Guts Portable Intrinsics KernelSpec LaneLemmas RowKernels Simd Transposed
  Impl Loops LaneLoops Sched Lib Many Par StateProof ParamsProof Stripe FedProof ManyProof ParProof ParFed.
From Verif Require Import Spec ApiSpec Machine History.
From Verif Require Import HashProof SchedProof Api ApiProof RoundInv Runs HistoryProof BatchProof Laws ParLaws.
From Verif Require Avx2b Sse41s.
Import ListNotations.
Open Scope list_scope.
Open Scope N_scope.
Local Notation length := List.length.

(** *** Totality of the kernel loops on arbitrary arguments *)
Definition fine {A} (o : outcome A) : Prop := o <> UB /\ o <> Diverge.

Lemma fine_ret {A} (a : A) : fine (Ret a).
Proof. split; discriminate. Qed.
Lemma fine_bind {A B} (o : outcome A) (k : A -> outcome B) :
  fine o -> (forall a, o = Ret a -> fine (k a)) -> fine (bind o k).
Proof. intros [H1 H2] K. destruct o; cbn [bind]; try congruence; [apply K; reflexivity|split; discriminate]. Qed.

Lemma asserts_fine v dbg input fin : fine (input_debug_asserts v dbg input fin).
Proof.
  unfold input_debug_asserts, debug_assert, assert_. destruct fin; cbn [negb]; [apply fine_ret|].
  destruct dbg; cbn [bind]; [|apply fine_ret].
  destruct (negb _); cbn [bind]; [|split; discriminate]. destruct (Nat.eqb _ _); split; discriminate.
Qed.

Lemma mapM_fine {A B} (f : A -> outcome B) l : (forall x, In x l -> fine (f x)) -> fine (mapM f l).
Proof.
  induction l as [|x l IH]; intros H; cbn [mapM]; [apply fine_ret|].
  apply fine_bind; [apply H; left; auto|]. intros y _. apply fine_bind; [apply IH; intros; apply H; right; auto|].
  intros; apply fine_ret.
Qed.

Definition reader_fine (rd : block_reader) : Prop :=
  forall l off n, (off + n <= length l)%nat -> exists b, rd l off n = Ret b.
Lemma reader_ok_fine rd : reader_ok rd -> reader_fine rd.
Proof. intros R l off n H. rewrite R by auto. eauto. Qed.

Lemma compress1_iter_fine v k rd input fo fb fn flb fln st : reader_fine rd -> (fo <= length input - 1)%nat ->
  forall n fuel off c ws, fo = (off + n * padded_blockbytes v st)%nat -> (n < fuel)%nat ->
  exists ws', compress1_iter v k rd fuel input fo fb fn flb fln st off c ws = Ret ws'.
Proof.
  intros R Hfo. pose proof (padded_ge v st) as PG. pose proof (blockbytes_pos v) as PB.
  induction n as [|n IH]; intros fuel off c ws E F; (destruct fuel as [|fuel]; [lia|]); cbn [compress1_iter].
  - replace off with fo by lia. rewrite Nat.eqb_refl. cbn [bind]. eauto.
  - destruct (Nat.eqb_spec off fo); [nia|].
    destruct (R input off (blockbytes v)) as [b Eb]. { nia. }
    rewrite Eb. cbn [bind]. apply IH; nia.
Qed.

Lemma compress1_loop_gen_fine v k rd dbg input ws c ln fin st : reader_fine rd ->
  fine (compress1_loop_gen v k rd dbg input ws c ln fin st).
Proof.
  intros R. unfold compress1_loop_gen. apply fine_bind; [apply asserts_fine|]. intros _ _. unfold sat_sub.
  destruct (fin_offset_props v st (length input)) as (n & E & H1 & H2). cbv zeta in E, H1, H2.
  set (fo := ((length input - 1) - (length input - 1) mod padded_blockbytes v st)%nat) in *.
  rewrite final_block_spec by lia. cbn [bind]. pose proof (padded_pos v st).
  destruct (compress1_iter_fine v k rd input fo (front v (skipn fo input)) (Nat.min (blockbytes v) (length (skipn fo input)))
    (flag_word v fin) (flag_word v (fin && ln)) st R ltac:(lia) n (S (length input)) 0 c ws ltac:(lia)) as [w W].
  { nia. }
  rewrite W. apply fine_ret.
Qed.

Lemma compress1_loop_fine v e imp input ws c ln fin st : supported e imp ->
  fine (compress1_loop v e imp input ws c ln fin st).
Proof.
  intros S. unfold compress1_loop, portable_compress1_loop, Avx2b.avx2_compress1_loop,
    Sse41s.sse41_compress1_loop, target_feature.
  destruct v, imp; cbn in S; try (rewrite S || (destruct S as [S1 S2]; rewrite ?S1, ?S2));
    apply compress1_loop_gen_fine; apply reader_ok_fine; auto using array_ref_reader_ok, raw_reader_ok.
Qed.

Lemma compressn_iter_fine S inputs fo fb fd flb fln st :
  (forall x, In x inputs -> (fo <= length x - 1)%nat) ->
  forall n fuel off h lo hi, fo = (off + n * padded_blockbytes (s_var S) st)%nat -> (n < fuel)%nat ->
  exists r, compressn_iter S fuel inputs fo fb fd flb fln st off h lo hi = Ret r /\ snd r = fo.
Proof.
  intros Hfo. pose proof (padded_ge (s_var S) st) as PG. pose proof (blockbytes_pos (s_var S)) as PB.
  induction n as [|n IH]; intros fuel off h lo hi E F; (destruct fuel as [|fuel]; [lia|]); cbn [compressn_iter].
  - replace off with fo by lia. rewrite Nat.eqb_refl. cbn [bind].
    destruct (add_to_counts S lo hi fd) as [lo' hi']. eexists. split; [reflexivity|]. reflexivity.
  - destruct (Nat.eqb_spec off fo); [nia|].
    rewrite (mapM_Ret _ (fun x => firstn (blockbytes (s_var S)) (skipn off x))).
    2:{ intros x I. specialize (Hfo x I). unfold raw_read.
        destruct (Nat.leb_spec (off + blockbytes (s_var S)) (length x)); [reflexivity|nia]. }
    cbn [bind]. destruct (add_to_counts S lo hi _) as [lo' hi']. apply IH; nia.
Qed.

Lemma compressn_loop_fine S dbg jobs fin st : (0 < length jobs)%nat ->
  fine (compressn_loop S dbg jobs fin st).
Proof.
  intros L. unfold compressn_loop. apply fine_bind; [apply mapM_fine; intros; apply asserts_fine|]. intros _ _.
  destruct (load_counts S jobs) as [clo chi].
  destruct (min_len_spec jobs) as (m & Em & Hm & jm & Hjm & Ejm). { destruct jobs; cbn in L; [lia|congruence]. }
  rewrite Em. cbn [bind]. unfold sat_sub.
  destruct (fin_offset_props (s_var S) st m) as (n & E & H1 & H2). cbv zeta in E, H1, H2.
  set (fo := ((m - 1) - (m - 1) mod padded_blockbytes (s_var S) st)%nat) in *. clearbody fo.
  pose proof (padded_pos (s_var S) st) as HP.
  apply fine_bind. { apply mapM_fine. intros j I. rewrite final_block_spec; [apply fine_ret|]. specialize (Hm j I). lia. }
  intros fb _.
  match goal with |- fine (let '(_, _) := ?x in _) => destruct x as [flb fln] end.
  match goal with |- fine (bind (compressn_iter ?X1 ?X2 ?X3 ?X4 ?X5 ?X6 ?X7 ?X8 ?X9 ?Y1 ?Y2 ?Y3 ?Y4) _) =>
    assert (Q : exists r, compressn_iter X1 X2 X3 X4 X5 X6 X7 X8 X9 Y1 Y2 Y3 Y4 = Ret r /\ snd r = X4) end.
  { apply compressn_iter_fine with (n := n); [|lia|nia].
    intros x I. apply in_map_iff in I. destruct I as (j & <- & I). specialize (Hm j I). lia. }
  destruct Q as ([[[h' lo'] hi'] off'] & ER & EO).
  rewrite ER. cbn [bind]. cbn [snd] in EO. subst off'. apply mapM_fine. intros [i j] _.
    unfold slice_from. destruct (Nat.leb_spec (Nat.min (fo + padded_blockbytes (s_var S) st) (length (j_input j))) (length (j_input j))); [|lia].
    cbn [bind]. apply fine_ret.
Qed.

Lemma narrow_fine v e imp jobs fin st : supported e imp -> (0 < length jobs)%nat ->
  fine (compress_narrow_loop v e imp jobs fin st).
Proof.
  intros S L. unfold compress_narrow_loop, target_feature.
  destruct imp; cbn in S; [split; discriminate| |destruct S as [_ S]]; rewrite S; apply compressn_loop_fine; auto.
Qed.
Lemma wide_fine v e imp jobs fin st : supported e imp -> (0 < length jobs)%nat ->
  fine (compress_wide_loop v e imp jobs fin st).
Proof.
  intros S L. unfold compress_wide_loop, target_feature.
  destruct imp; cbn in S; try (split; discriminate). destruct S as [S _]. rewrite S. apply compressn_loop_fine; auto.
Qed.

(** *** Every block is compressed, none twice *)
Lemma serial_all_blocks v e imp input ws ln : supported e imp -> words_ok v ws ->
  compress1_loop v e imp input ws 0 ln true Serial = Ret (hash_words (fl v) ws input ln).
Proof.
  intros S O. rewrite compress1_loop_spec by (auto; left; auto). rewrite C1_whole by auto. reflexivity.
Qed.
Lemma strided_all_blocks v e imp input ws ln i : supported e imp -> words_ok v ws -> (i < leaves (fl v))%nat ->
  compress1_loop v e imp (skipn (i * blockbytes v) input) ws 0 ln true Parallel
  = Ret (hash_words (fl v) ws (leaf_message (fl v) i input) ln).
Proof.
  intros S O Hi. rewrite leaves_fl in Hi. rewrite compress1_loop_spec by (auto; left; auto).
  rewrite (C1_parallel v i Hi true ln (length input)) by auto. unfold L. rewrite C1_whole by auto. reflexivity.
Qed.

(** *** Whole programs *)
Lemma nth_error_In' {A} (l : list A) x : In x l -> exists n, nth_error l n = Some x.
Proof. intros I. apply In_nth_error in I. exact I. Qed.

Lemma astep_not_broken f dbg w c : snd (astep f dbg w c) <> Broken.
Proof.
  destruct c; cbn [astep]; unfold with_obj, new_hash, report;
    repeat match goal with
    | |- context [match ?x with _ => _ end] => destruct x
    | |- context [if ?x then _ else _] => destruct x
    end; cbn [snd]; try discriminate.
Qed.
Lemma arun_not_broken f dbg prog : forall w, ~ In Broken (arun f dbg w prog).
Proof.
  induction prog as [|c prog IH]; intros w; cbn [arun]; [intros []|].
  destruct (astep f dbg w c) as [w' o] eqn:E. intros [I|I]; [|exact (IH w' I)].
  apply (astep_not_broken f dbg w c). rewrite E. exact I.
Qed.

(** *** Lane counters *)
Definition back_ends : list simd := [avx2b; sse41b; avx2s; sse41s].
Lemma back_ends_ok S : In S back_ends -> simd_ok S.
Proof.
  unfold back_ends. cbn [In]. intros [<-|[<-|[<-|[<-|[]]]]]; auto using avx2b_ok, sse41b_ok, avx2s_ok, sse41s_ok.
Qed.

Lemma count_parts v c : c < cmod v -> count_low v c + wmod v * count_high v c = c.
Proof.
  intros H. unfold count_low, count_high. rewrite N.shiftr_div_pow2.
  replace (8 * N.of_nat (wbytes v)) with (wbits v) by (destruct v; reflexivity). fold (wmod v).
  rewrite cmod_square in H. pose proof (wmod_nz v).
  rewrite (N.mod_small (c / wmod v)) by (apply N.div_lt_upper_bound; auto).
  pose proof (N.div_mod c (wmod v) ltac:(auto)). lia.
Qed.
Lemma count_low_of v lo hi : lo < wmod v -> hi < wmod v -> count_low v (lo + wmod v * hi) = lo.
Proof. intros H1 H2. unfold count_low. rewrite N.mul_comm, N.mod_add by apply wmod_nz. apply N.mod_small. auto. Qed.
Lemma count_high_of v lo hi : lo < wmod v -> hi < wmod v -> count_high v (lo + wmod v * hi) = hi.
Proof.
  intros H1 H2. unfold count_high. rewrite N.shiftr_div_pow2.
  replace (8 * N.of_nat (wbytes v)) with (wbits v) by (destruct v; reflexivity). fold (wmod v).
  rewrite N.mul_comm, N.div_add by apply wmod_nz. rewrite N.div_small by auto. rewrite N.add_0_l. apply N.mod_small. auto.
Qed.

Lemma lane_lt v r l : lane (wbytes v) r l < wmod v.
Proof. rewrite <- lane_mod_wmod. apply LaneLemmas.lane_lt. Qed.

Lemma lane_counter S lo hi delta l : In S back_ends -> (l < s_degree S)%nat ->
  let v := s_var S in
  let value r r' := lane (wbytes v) r l + wmod v * lane (wbytes v) r' l in
  let c := value lo hi in
  let e := lane (wbytes v) delta l in
  c mod N.of_nat (blockbytes v) = 0 -> e <= N.of_nat (blockbytes v) ->
  let '(lo', hi') := add_to_counts S lo hi delta in value lo' hi' = (c + e) mod cmod v.
Proof.
  intros I Hl. cbv zeta. intros A He.
  pose proof (back_ends_ok S I) as OK. set (v := s_var S) in *.
  set (c := lane (wbytes v) lo l + wmod v * lane (wbytes v) hi l) in *.
  assert (Hc : c < cmod v).
  { rewrite cmod_square. pose proof (lane_lt v lo l). pose proof (lane_lt v hi l). unfold c. nia. }
  destruct (add_to_counts_lane S OK lo hi delta l c (lane (wbytes v) delta l) Hl (conj Hc A) He) as [E1 E2].
  - symmetry. apply count_low_of; apply lane_lt.
  - symmetry. apply count_high_of; apply lane_lt.
  - reflexivity.
  - destruct (add_to_counts S lo hi delta) as [lo' hi']. cbn [fst snd] in E1, E2. fold v in E1, E2. rewrite E1, E2.
    rewrite count_parts by (apply N.mod_lt, cmod_nz). reflexivity.
Qed.

(** Loading and storing the counters. *)
Lemma load_store_counters S jobs l : In S back_ends -> length jobs = s_degree S -> (l < s_degree S)%nat ->
  (forall j, In j jobs -> j_count j < cmod (s_var S)) ->
  let '(lo, hi) := load_counts S jobs in store_count S lo hi l = j_count (nth l jobs job0).
Proof.
  intros I L Hl H. pose proof (back_ends_ok S I) as OK. unfold load_counts.
  assert (HN : forall g : N -> N, (forall c, g c < wmod (s_var S)) ->
    lane (wbytes (s_var S)) (s_setn S (map (fun j => g (j_count j)) jobs)) l = g (j_count (nth l jobs job0))).
  { intros g Hg. assert (W : wordsn (s_var S) (s_degree S) (map (fun j => g (j_count j)) jobs)).
    { split; [rewrite map_length; auto|]. apply Forall_forall. intros x IX.
      apply in_map_iff in IX. destruct IX as (j & <- & _). apply Hg. }
    rewrite (ok_setn S OK) by auto.
    rewrite (nth_map_lt (fun j => g (j_count j)) jobs l job0 0) by lia. reflexivity. }
  unfold store_count. rewrite (HN (count_low (s_var S))) by (intros; apply N.mod_lt, wmod_nz).
  rewrite (HN (count_high (s_var S))) by (intros; apply N.mod_lt, wmod_nz).
  unfold assemble_count. rewrite N.shiftl_mul_pow2.
  replace (8 * N.of_nat (wbytes (s_var S))) with (wbits (s_var S)) by (destruct (s_var S); reflexivity).
  fold (wmod (s_var S)). rewrite N.mul_comm. apply count_parts. apply H. apply nth_In. lia.
Qed.

(** Counters that the API hands to the lanes are whole numbers of blocks. *)
Lemma blocks_aligned v k : aligned v (N.of_nat (k * blockbytes v) mod cmod v).
Proof.
  split; [apply N.mod_lt, cmod_nz|].
  set (B := N.of_nat (blockbytes v)).
  assert (HB : exists q, cmod v = B * q /\ 0 < q /\ 0 < B).
  { destruct v; [exists (2 ^ 121)|exists (2 ^ 58)]; cbn; repeat split; lia. }
  destruct HB as (q & -> & Hq & HB). rewrite N.mod_mul_r by lia.
  rewrite N.mul_comm, N.mod_add, N.mod_mod by lia. rewrite Nnat.Nat2N.inj_mul. fold B. apply N.mod_mul. lia.
Qed.
Lemma live_aligned v e s : live v e s -> s_count s mod N.of_nat (blockbytes v) = 0 /\ s_count s < cmod v.
Proof.
  intros LV. destruct (live_holds _ _ _ LV) as (c & msg & H). destruct (hd_abs _ _ _ _ _ H) as (k & A & _).
  rewrite (ab_count _ _ _ _ _ A). destruct (blocks_aligned v k). auto.
Qed.

(** *** Rounds are permutations, on each back end *)
Definition avx2b_mix (m : Avx2b.msgs) (s : rows) : rows :=
  Avx2b.round12 m (Avx2b.round11 m (Avx2b.round10 m (Avx2b.round9 m (Avx2b.round8 m (Avx2b.round7 m
  (Avx2b.round6 m (Avx2b.round5 m (Avx2b.round4 m (Avx2b.round3 m (Avx2b.round2 m (Avx2b.round1 m s))))))))))).
Definition sse41s_mix (m : Sse41s.msgs) (s : rows) : rows :=
  Sse41s.round10 m (Sse41s.round9 m (Sse41s.round8 m (Sse41s.round7 m
  (Sse41s.round6 m (Sse41s.round5 m (Sse41s.round4 m (Sse41s.round3 m (Sse41s.round2 m (Sse41s.round1 m s))))))))).
Definition portable_mix (v : variant) (m : list N) (s : list N) : list N :=
  fold_left (fun s r => round v r m s) (seq 0 (num_rounds v)) s.

Lemma avx2b_mix_eq block s : length block = 128%nat ->
  st16 8 (avx2b_mix (avx2b_msgs block) s) = portable_mix V2b (msg_words V2b block) (st16 8 s).
Proof.
  intros L. unfold avx2b_mix, portable_mix.
  change (seq 0 (num_rounds V2b)) with [0; 1; 2; 3; 4; 5; 6; 7; 8; 9; 10; 11]%nat. cbn [fold_left].
  rewrite <- avx2b_round1, <- avx2b_round2, <- avx2b_round3, <- avx2b_round4, <- avx2b_round5,
    <- avx2b_round6, <- avx2b_round7, <- avx2b_round8, <- avx2b_round9, <- avx2b_round10,
    <- avx2b_round11, <- avx2b_round12 by assumption. reflexivity.
Qed.
Lemma sse41s_mix_eq block s : length block = 64%nat ->
  st16 4 (sse41s_mix (sse41s_msgs block) s) = portable_mix V2s (msg_words V2s block) (st16 4 s).
Proof.
  intros L. unfold sse41s_mix, portable_mix.
  change (seq 0 (num_rounds V2s)) with [0; 1; 2; 3; 4; 5; 6; 7; 8; 9]%nat. cbn [fold_left].
  rewrite <- sse41s_round1, <- sse41s_round2, <- sse41s_round3, <- sse41s_round4, <- sse41s_round5,
    <- sse41s_round6, <- sse41s_round7, <- sse41s_round8, <- sse41s_round9, <- sse41s_round10 by assumption. reflexivity.
Qed.

Lemma st16_ok v s : wordsn v 16 (st16 (wbytes v) s).
Proof.
  destruct s as [[[a b] c] d]. unfold st16. rewrite !lanes4. split; [reflexivity|].
  repeat constructor; apply lane_lt.
Qed.
Lemma msg_words_lt v block : Forall (fun x => x < wmod v) (msg_words v block).
Proof.
  apply Forall_forall. intros x I. unfold msg_words in I. apply in_map_iff in I. destruct I as (i & <- & _).
  eapply N.lt_le_trans; [apply from_le_lt|]. unfold wmod. apply N.pow_le_mono_r; [discriminate|].
  rewrite firstn_length. destruct v; cbn [wbytes wbits]; lia.
Qed.

Lemma portable_mix_perm v block s : wordsn v 16 s ->
  wordsn v 16 (portable_mix v (msg_words v block) s) /\
  (forall s', wordsn v 16 s' -> portable_mix v (msg_words v block) s = portable_mix v (msg_words v block) s' -> s = s') /\
  (exists s', wordsn v 16 s' /\ portable_mix v (msg_words v block) s' = s).
Proof. intros W. apply rounds_bij; auto. apply msg_words_lt. Qed.

(** Sixteen words as four row registers. *)
Definition rows_of (w : nat) (ws : list N) : rows :=
  (from_lanes w (firstn 4 ws), from_lanes w (firstn 4 (skipn 4 ws)),
   from_lanes w (firstn 4 (skipn 8 ws)), from_lanes w (skipn 12 ws)).
Lemma st16_rows_of v ws : wordsn v 16 ws -> st16 (wbytes v) (rows_of (wbytes v) ws) = ws.
Proof.
  intros [L F]. unfold st16, rows_of. do 16 (destruct ws as [|? ws]; [discriminate L|]). destruct ws; [|discriminate L].
  cbn [firstn skipn]. repeat (match goal with H : Forall _ (_ :: _) |- _ => inversion H; clear H; subst end).
  rewrite !lanes4.
  assert (Q : forall a b c d, a < wmod v -> b < wmod v -> c < wmod v -> d < wmod v -> wordsn v 4 [a; b; c; d]).
  { intros a b c d Ha Hb Hc Hd. split; [reflexivity|]. apply Forall_forall. intros x I. cbn [In] in I.
    destruct I as [<-|[<-|[<-|[<-|[]]]]]; assumption. }
  repeat match goal with |- context [from_lanes _ [?a; ?b; ?c; ?d]] =>
    rewrite !(lane_load v 4 [a; b; c; d]) by (try lia; apply Q; assumption) end.
  reflexivity.
Qed.

Lemma avx2b_mix_perm block : length block = 128%nat ->
  (forall s s', st16 8 (avx2b_mix (avx2b_msgs block) s) = st16 8 (avx2b_mix (avx2b_msgs block) s') -> st16 8 s = st16 8 s') /\
  (forall ws, wordsn V2b 16 ws -> exists s, st16 8 (avx2b_mix (avx2b_msgs block) s) = ws).
Proof.
  intros L. split.
  - intros s s' E. rewrite !avx2b_mix_eq in E by auto.
    apply (portable_mix_perm V2b block (st16 8 s) (st16_ok V2b s)); auto. apply (st16_ok V2b s').
  - intros ws W. destruct (portable_mix_perm V2b block ws W) as (_ & _ & q & Q & E).
    exists (rows_of 8 q). rewrite avx2b_mix_eq by auto. rewrite (st16_rows_of V2b) by auto. exact E.
Qed.
Lemma sse41s_mix_perm block : length block = 64%nat ->
  (forall s s', st16 4 (sse41s_mix (sse41s_msgs block) s) = st16 4 (sse41s_mix (sse41s_msgs block) s') -> st16 4 s = st16 4 s') /\
  (forall ws, wordsn V2s 16 ws -> exists s, st16 4 (sse41s_mix (sse41s_msgs block) s) = ws).
Proof.
  intros L. split.
  - intros s s' E. rewrite !sse41s_mix_eq in E by auto.
    apply (portable_mix_perm V2s block (st16 4 s) (st16_ok V2s s)); auto. apply (st16_ok V2s s').
  - intros ws W. destruct (portable_mix_perm V2s block ws W) as (_ & _ & q & Q & E).
    exists (rows_of 4 q). rewrite sse41s_mix_eq by auto. rewrite (st16_rows_of V2s) by auto. exact E.
Qed.

Definition lanes_mix (S : simd) (m vs : list reg) : list reg :=
  fold_left (simd_round S m) (seq 0 (num_rounds (s_var S))) vs.
Lemma view_ok S l vs : length vs = 16%nat -> wordsn (s_var S) 16 (view S l vs).
Proof.
  intros L. split; [unfold view; rewrite map_length; auto|]. apply Forall_forall. intros x I.
  unfold view in I. apply in_map_iff in I. destruct I as (r & <- & _). apply lane_lt.
Qed.
Lemma view_lt S l vs : Forall (fun x => x < wmod (s_var S)) (view S l vs).
Proof.
  apply Forall_forall. intros x I.
  unfold view in I. apply in_map_iff in I. destruct I as (r & <- & _). apply lane_lt.
Qed.

Lemma lanes_mix_inj S m vs vs' l : In S back_ends -> (l < s_degree S)%nat ->
  length vs = 16%nat -> length vs' = 16%nat ->
  view S l (lanes_mix S m vs) = view S l (lanes_mix S m vs') -> view S l vs = view S l vs'.
Proof.
  intros I Hl L1 L2 E. pose proof (back_ends_ok S I) as OK. unfold lanes_mix in E.
  rewrite !simd_rounds_view in E by auto.
  apply (rounds_bij (s_var S) (view S l m) (seq 0 (num_rounds (s_var S))) (view_lt S l m) (view S l vs) (view_ok S l vs L1)); auto.
  apply view_ok; auto.
Qed.

(** One word per lane. *)
Lemma lanes_mix_surj S m (ws : nat -> list N) : In S back_ends ->
  (forall l, (l < s_degree S)%nat -> wordsn (s_var S) 16 (ws l)) ->
  exists vs, length vs = 16%nat /\ forall l, (l < s_degree S)%nat -> view S l (lanes_mix S m vs) = ws l.
Proof.
  intros I W. pose proof (back_ends_ok S I) as OK.
  assert (X : forall n, (n <= s_degree S)%nat -> exists q : list (list N), length q = n /\ forall l, (l < n)%nat ->
     wordsn (s_var S) 16 (nth l q []) /\
     fold_left (fun s r => round (s_var S) r (view S l m) s) (seq 0 (num_rounds (s_var S))) (nth l q []) = ws l).
  { induction n as [|n IH]; intros Hn.
    - exists []. split; auto. intros; lia.
    - destruct IH as (q & Lq & Hq); [lia|].
      destruct (rounds_bij (s_var S) (view S n m) (seq 0 (num_rounds (s_var S))) (view_lt S n m) (ws n) (W n ltac:(lia)))
        as (_ & _ & x & Wx & Ex).
      exists (q ++ [x]). split; [rewrite app_length, Lq; cbn; lia|]. intros l Hl.
      destruct (Nat.eq_dec l n) as [->|N].
      + rewrite app_nth2, Lq, Nat.sub_diag by lia. split; [exact Wx|exact Ex].
      + rewrite app_nth1 by lia. apply Hq. lia. }
  destruct (X (s_degree S) (le_n _)) as (q & Lq & Hq).
  exists (map (fun i => s_setn S (map (fun w => nth i w 0) q)) (seq 0 16)). split; [rewrite map_length; reflexivity|].
  intros l Hl. destruct (Hq l Hl) as [W16 E]. unfold lanes_mix.
  rewrite simd_rounds_view by (auto; rewrite map_length; reflexivity).
  replace (view S l (map (fun i => s_setn S (map (fun w => nth i w 0) q)) (seq 0 16))) with (nth l q []); [exact E|].
  unfold view. rewrite map_map. rewrite <- (list_eq_seq (nth l q []) 16 0) at 1 by apply W16.
  apply map_ext_in. intros i Hi. apply in_seq in Hi.
  rewrite (ok_setn S OK); auto.
  - rewrite (nth_map_lt (fun w => nth i w 0) q l [] 0) by lia. reflexivity.
  - split; [rewrite map_length; auto|]. apply Forall_forall. intros x IX. apply in_map_iff in IX.
    destruct IX as (w & <- & IW). apply (In_nth _ _ []) in IW. destruct IW as (k & Hk & <-).
    apply Forall_nth_lt. apply (Hq k). lia.
Qed.

Lemma live_job_aligned v e j : live_job v e j -> hj_count j = 0 \/ hj_count j = N.of_nat (blockbytes v).
Proof.
  intros LJ. destruct (live_job_holds _ _ _ LJ) as (c & msg & H).
  assert (E : hj_count j = N.of_nat (key_bytes v c)). { destruct H as [H|H]; [apply (pj_cnt _ _ _ _ _ H)|apply (cj_cnt _ _ _ _ _ H)]. }
  rewrite E. unfold key_bytes. destruct (keyed c); auto.
Qed.

(** *** Same behaviour on any two machines *)
Lemma machines_agree v t t' e e' prog : honest t e -> honest t' e' -> e_dbg e = e_dbg e' ->
  Forall (well_typed (fl v)) prog -> run_program v t e prog = run_program v t' e' prog.
Proof. intros H H' D W. rewrite !program_refines by auto. rewrite D. reflexivity. Qed.

Lemma hash_agree v e e' imp imp' ss m : supported e imp -> supported e' imp' -> Forall typed ss ->
  params_hash v e (build v imp ss) m = params_hash v e' (build v imp' ss) m.
Proof.
  intros S S' T. pose proof (hash_alone_spec v e (imp, ss, m) (conj S T)) as E1.
  pose proof (hash_alone_spec v e' (imp', ss, m) (conj S' T)) as E2.
  cbn [hash_alone] in E1, E2. rewrite E1, E2. reflexivity.
Qed.
Lemma p_hash_agree v e e' imp imp' ss m : supported e imp -> supported e' imp' ->
  p_hash v e (pbuild v imp ss) m = p_hash v e' (pbuild v imp' ss) m.
Proof.
  intros S S'. rewrite !pbuild_spec. pose proof (wfp_configure (fl v) ss _ (wfp_default (fl v))) as W.
  rewrite !p_hash_spec; auto.
Qed.

Lemma watch_agree v e e' ops : e_dbg e = e_dbg e' -> forall c msg s s', holds v e c msg s -> holds v e' c msg s' ->
  watch (do_op v e) s ops = watch (do_op v e') s' ops.
Proof.
  intros D. unfold watch. induction ops as [|o ops IH]; intros c msg s s' H H'; auto. cbn [do_ops].
  destruct (do_op_holds _ _ _ _ _ o H) as (s1 & E1 & H1). destruct (do_op_holds _ _ _ _ _ o H') as (s2 & E2 & H2).
  rewrite E1, E2, D. specialize (IH _ _ _ _ H1 H2).
  destruct (do_ops _ s1 ops), (do_ops _ s2 ops). cbn [snd] in *. rewrite IH. reflexivity.
Qed.
Lemma history_agree v e e' imp imp' ss ops : e_dbg e = e_dbg e' -> supported e imp -> supported e' imp' -> Forall typed ss ->
  watch (do_op v e) (to_state v (build v imp ss)) ops = watch (do_op v e') (to_state v (build v imp' ss)) ops.
Proof. intros D S S' T. apply (watch_agree v e e' ops D (configure (fl v) ss (default_config (fl v))) []); apply new_holds; auto. Qed.
Lemma p_watch_agree v e e' ops : e_dbg e = e_dbg e' -> forall c msg s s', pholds v e c msg s -> pholds v e' c msg s' ->
  watch (do_pop v e) s ops = watch (do_pop v e') s' ops.
Proof.
  intros D. unfold watch. induction ops as [|o ops IH]; intros c msg s s' H H'; auto. cbn [do_ops].
  destruct (do_pop_holds _ _ _ _ _ o H) as (s1 & E1 & H1). destruct (do_pop_holds _ _ _ _ _ o H') as (s2 & E2 & H2).
  rewrite E1, E2, D. specialize (IH _ _ _ _ H1 H2).
  destruct (do_ops _ s1 ops), (do_ops _ s2 ops). cbn [snd] in *. rewrite IH. reflexivity.
Qed.
Lemma p_history_agree v e e' imp imp' ss ops : e_dbg e = e_dbg e' -> supported e imp -> supported e' imp' ->
  exists s s', p_to_state v (pbuild v imp ss) = Ret s /\ p_to_state v (pbuild v imp' ss) = Ret s' /\
  watch (do_pop v e) s ops = watch (do_pop v e') s' ops.
Proof.
  intros D S S'. rewrite !pbuild_spec. pose proof (wfp_configure (fl v) ss _ (wfp_default (fl v))) as W.
  destruct (pholds_new v e imp _ W S) as (s & E & H & _). destruct (pholds_new v e' imp' _ W S') as (s' & E' & H' & _).
  exists s, s'. split; [exact E|]. split; [exact E'|]. eapply p_watch_agree; eauto.
Qed.
