(** The vendored C library (Sneves.v): blake2bp and blake2sp, leaf by leaf, and their root nodes. *)
From Coq Require Import ZArith Arith NArith List Bool Lia ZifyBool ZifyNat ZifyN.
From Verif Require Import Base ByteLemmas Guts Portable Intrinsics KernelSpec LaneLemmas RowKernels.
From Verif Require Import Simd Impl Loops LaneLoops Lib ParamsProof StateProof Stripe FedProof Transposed.
From Verif Require Import SnevesIntrinsics SnevesLoad Sneves SnevesRows SnevesWide SnevesCount SnevesLoop.
From Verif Require Spec.
Import ListNotations.
Open Scope N_scope.

(** The state leaf [l] starts from, and the one it must end with. *)
Definition leaf0 (v : variant) (l : nat) : list N :=
  Spec.initial_state (fl v) (Spec.tree_node (fl v) (Spec.max_out (fl v)) 0 (N.of_nat l) 0).
Definition HW (v : variant) (x : list byte) (l : nat) : list N :=
  Spec.hash_words (fl v) (leaf0 v l) (L v l x) (l =? par_degree v - 1)%nat.

Lemma leaf0_ok v l : words_ok v (leaf0 v l).
Proof. apply initial_state_ok. Qed.

Lemma flag_and v l n fin : (if (l =? n)%nat then flag_word v fin else 0) = flag_word v (fin && (l =? n)%nat).
Proof. destruct (l =? n)%nat; [rewrite andb_true_r; auto|rewrite andb_false_r; destruct v; reflexivity]. Qed.

(** *** The vector loop of blake2bp *)
Lemma blake2bp_loop_spec p input : N.of_nat (length input) < 2 ^ 63 ->
  forall fuel k buffer v counter,
  (512 <= length buffer)%nat -> (k * 512 <= length input)%nat -> (0 < k -> k * 512 + 512 <= length input)%nat ->
  (length input - k * 512 < fuel)%nat -> length v = 8%nat ->
  (forall l, (l < 4)%nat -> view b_simd l v = chain V2b (L V2b l input) (leaf0 V2b l) 0 k) ->
  (forall l, (l < 4)%nat -> lane 8 counter l = N.of_nat (k * 128)) ->
  exists buffer' v' counter' k', let inlen' := (length input - k' * 512)%nat in
    blake2bp_loop p fuel buffer v counter (mkptr input (k * 512)) (length input - k * 512) =
      Ret (buffer', v', counter', mkptr input (length input - inlen'), inlen') /\
    (inlen' < 512)%nat /\ length buffer' = length buffer /\ length v' = 8%nat /\
    (forall l, (l < 4)%nat -> view b_simd l v' =
      if (inlen' <=? l * 128)%nat then HW V2b input l else chain V2b (L V2b l input) (leaf0 V2b l) 0 k') /\
    (forall l, (l < 4)%nat -> (l * 128 < inlen')%nat -> lane 8 counter' l = N.of_nat (k' * 128)).
Proof.
  intros HL. induction fuel as [|fuel IH]; intros k buffer v counter HB H1 H2 HF Lv HS HC; [lia|].
  cbn [blake2bp_loop]. set (inlen := (length input - k * 512)%nat) in *.
  destruct (pad_block_spec buffer input (k * 512) inlen 512) as (buf' & q & EP & EL & EF & EQ & _); [lia|lia|].
  rewrite EP. cbn [bind]. rewrite EF. cbn [bind].
  set (m := Spec.pad_to 512 (firstn 512 (skipn (k * 512) input))).
  assert (Lm : length m = 512%nat) by (apply pad_to_length; rewrite firstn_length; lia).
  set (counter1 := mm256_add_epi64 counter (b_delta inlen)).
  set (v1 := b_compress_v4 p v m counter1 (b_flags inlen)).
  assert (HC1 : forall l, (l < 4)%nat -> lane 8 counter1 l = N.of_nat (k * 128 + Nat.min 128 (inlen - l * 128))).
  { intros l Hl. unfold counter1, mm256_add_epi64. rewrite lane_add by auto. rewrite HC, b_delta_lane by lia.
    rewrite <- Nat2N.inj_add. apply N.mod_small. change (lane_mod 8) with (2 ^ 64). lia. }
  assert (HV1 : forall l, (l < 4)%nat -> view b_simd l v1 =
    if (inlen <=? 512 + l * 128)%nat then HW V2b input l else chain V2b (L V2b l input) (leaf0 V2b l) 0 (S k)).
  { intros l Hl. unfold v1.
    destruct (count_small (k * 128 + Nat.min 128 (inlen - l * 128))) as [C1 C2]; [lia|].
    rewrite (b_compress_v4_view p v m counter1 (b_flags inlen) l (N.of_nat (k * 128 + Nat.min 128 (inlen - l * 128)))
      (flag_word V2b (inlen <=? 512 + l * 128)%nat)); auto;
      [|rewrite HC1 by auto; auto|apply b_flags_lane; lia].
    rewrite flag_and, HS by auto.
    rewrite (compress_block_spec V2b) by (apply chain_ok, leaf0_ok).
    pose proof (stripe_block V2b l (skipn (k * 512) input) Hl) as SB.
    change (blockbytes V2b) with 128%nat in SB. change (P V2b) with 512%nat in SB. fold m in SB. rewrite SB.
    pose proof (lane_step V2b l input k (leaf0 V2b l) (l =? 3)%nat Hl (leaf0_ok V2b l)) as LS.
    cbv zeta in LS. rewrite skipn_length in LS. change (blockbytes V2b) with 128%nat in LS. change (P V2b) with 512%nat in LS.
    fold inlen in LS. apply LS; lia. }
  assert (Lv1 : length v1 = 8%nat).
  { pose proof (HV1 0%nat ltac:(lia)) as E. apply (f_equal (@length N)) in E. unfold view in E. rewrite map_length in E.
    rewrite E. destruct (inlen <=? _)%nat.
    - apply (hash_words_ok V2b), leaf0_ok.
    - apply chain_ok, leaf0_ok. }
  rewrite EQ. cbn [bind].
  destruct (Nat.leb_spec 512 (inlen - Nat.min inlen 512)) as [E|E].
  - rewrite Nat.min_r by lia. replace (k * 512 + 512)%nat with (S k * 512)%nat by lia.
    replace (inlen - 512)%nat with (length input - S k * 512)%nat by lia.
    destruct (IH (S k) buf' v1 counter1) as (b2 & v2 & c2 & k2 & I); try lia; auto.
    + intros l Hl. rewrite HV1 by auto. destruct (Nat.leb_spec inlen (512 + l * 128)); [lia|reflexivity].
    + intros l Hl. rewrite HC1 by auto. f_equal. lia.
    + exists b2, v2, c2, k2. cbv zeta in *. rewrite <- EL. exact I.
  - exists buf', v1, counter1, (S k). cbv zeta.
    replace (length input - S k * 512)%nat with (inlen - Nat.min inlen 512)%nat by lia.
    split; [|split; [lia|split; [auto|split; [auto|split]]]].
    + replace (length input - (inlen - Nat.min inlen 512))%nat with (k * 512 + Nat.min inlen 512)%nat by lia. reflexivity.
    + intros l Hl. rewrite HV1 by auto.
      destruct (Nat.leb_spec inlen (512 + l * 128)), (Nat.leb_spec (inlen - Nat.min inlen 512) (l * 128)); auto; lia.
    + intros l Hl Hl2. rewrite HC1 by auto. f_equal. lia.
Qed.

(** *** The rest of blake2bp, leaf by leaf *)
Lemma blake2bp_tail_spec p input k : N.of_nat (length input) < 2 ^ 63 -> let inlen := (length input - k * 512)%nat in
  (inlen < 512)%nat ->
  forall n l s counter buffer, (l + n = 4)%nat -> length s = 8%nat -> length counter = 4%nat -> (128 <= length buffer)%nat ->
  (forall j, (j < l)%nat -> st_of V2b s j = HW V2b input j) ->
  (forall j, (l <= j < 4)%nat -> st_of V2b s j =
     if (inlen <=? j * 128)%nat then HW V2b input j else chain V2b (L V2b j input) (leaf0 V2b j) 0 k) ->
  (forall j, (l <= j < 4)%nat -> (j * 128 < inlen)%nat -> nth j counter 0 = N.of_nat (k * 128)) ->
  exists s', blake2bp_tail p (seq l n) buffer s counter
      (mkptr input (length input - inlen + Nat.min inlen (l * 128))) (inlen - l * 128) = Ret s' /\
    length s' = 8%nat /\ (forall j, (j < 4)%nat -> st_of V2b s' j = HW V2b input j).
Proof.
  intros HL inlen HI. induction n as [|n IH]; intros l s counter buffer Hn Ls Lc HB HD HR HC.
  - exists s. split; [reflexivity|]. split; auto. intros j Hj. apply HD. lia.
  - cbn [seq blake2bp_tail]. destruct (Nat.eqb_spec (inlen - l * 128) 0) as [E|E].
    { exists s. split; [reflexivity|]. split; auto. intros j Hj.
      destruct (Nat.lt_ge_cases j l); [apply HD; auto|]. rewrite HR by lia.
      destruct (Nat.leb_spec inlen (j * 128)); [reflexivity|nia]. }
    set (off := (length input - inlen + Nat.min inlen (l * 128))%nat).
    assert (Eoff : off = (k * 512 + l * 128)%nat) by (unfold off; lia).
    destruct (pad_block_spec buffer input off (inlen - l * 128) 128) as (buf' & q & EP & EL & EF & EQ & _); [lia|lia|].
    rewrite EP. cbn [bind]. rewrite EF. cbn [bind].
    set (block := Spec.pad_to 128 (firstn 128 (skipn off input))).
    assert (EB : block = front V2b (skipn (l * 128) (skipn (k * 512) input))).
    { rewrite skipn_skipn_add, <- Eoff. reflexivity. }
    set (bs := Nat.min (inlen - l * 128) 128) in *.
    rewrite nth_set, Nat.eqb_refl, Lc, HC by lia. destruct (Nat.ltb_spec l 4); [|lia]. cbn [andb].
    assert (EC : (N.of_nat (k * 128) + N.of_nat bs) mod 2 ^ 64 = N.of_nat (k * 128 + bs)).
    { rewrite <- Nat2N.inj_add. apply N.mod_small. lia. }
    rewrite EC, flag64. change minus1_64 with (flag_word V2b true).
    pose proof (b_kernel p (nth (l * 2) s []) (nth (l * 2 + 1) s []) block (k * 128 + bs) true (l =? 3)%nat) as K.
    specialize (K ltac:(rewrite EB; apply front_length) ltac:(lia)).
    destruct (b_compress_v1 p (nth (l * 2) s []) (nth (l * 2 + 1) s []) block (N.of_nat (k * 128 + bs)) 0
      (flag_word V2b true) (flag_word V2b (l =? 3)%nat)) as [a b].
    rewrite EQ. cbn [bind].
    change (lanes 8 4 (nth (l * 2) s []) ++ lanes 8 4 (nth (l * 2 + 1) s [])) with (st_of V2b s l) in K.
    rewrite HR in K by lia. destruct (Nat.leb_spec inlen (l * 128)); [lia|].
    pose proof (lane_step V2b l input k (leaf0 V2b l) (l =? 3)%nat ltac:(cbn; lia) (leaf0_ok V2b l)) as LS.
    cbv zeta in LS. rewrite skipn_length in LS. change (blockbytes V2b) with 128%nat in LS. change (P V2b) with 512%nat in LS.
    fold inlen in LS. destruct (Nat.leb_spec inlen (512 + l * 128)) in LS; [|lia]. cbn [andb] in LS.
    change (fl V2b) with Spec.F2b in LS. rewrite EB in K.
    replace (Nat.min 128 (inlen - l * 128)) with bs in LS by (unfold bs; apply Nat.min_comm).
    rewrite LS in K by lia. clear LS.
    replace (off + bs)%nat with (length input - inlen + Nat.min inlen (S l * 128))%nat by lia.
    replace (inlen - l * 128 - bs)%nat with (inlen - S l * 128)%nat by lia.
    apply IH; try lia.
    + rewrite !set_length. auto.
    + rewrite set_length. auto.
    + intros j Hj. rewrite st_of_set by lia. destruct (Nat.eqb_spec j l) as [->|N]; [exact K|]. apply HD. lia.
    + intros j Hj. rewrite st_of_set by lia. destruct (Nat.eqb_spec j l); [lia|]. apply HR. lia.
    + intros j Hj Hj2. rewrite nth_set. destruct (Nat.eqb_spec l j); [lia|]. cbn [andb]. apply HC; lia.
Qed.

(** *** The root nodes *)
Lemma b_root_init : lanes 8 4 (XOR b_iv_lo (mm256_set_epi64x 0 0x00004001 0 0x02040040)) ++ lanes 8 4 b_iv_hi =
  Spec.initial_state Spec.F2b (Spec.tree_node Spec.F2b 64 0 0 1).
Proof. unfold Spec.initial_state. rewrite (iv_spec V2b : Spec.IV Spec.F2b = iv V2b). vm_compute. reflexivity. Qed.

Lemma fetch_full v m k : ((k + 1) * blockbytes v <= length m)%nat ->
  fetch (mkptr m (k * blockbytes v)) (blockbytes v) = Ret (front v (skipn (k * blockbytes v) m)).
Proof.
  intros H. unfold fetch, raw_read. cbn [p_obj p_off].
  destruct (Nat.leb_spec (k * blockbytes v + blockbytes v) (length m)); [|lia].
  unfold front. rewrite pad_to_full by (apply firstn_skipn_length; lia). reflexivity.
Qed.

Lemma root_step v m h0 k n : words_ok v h0 -> length m = (n * blockbytes v)%nat -> (k < n)%nat ->
  Spec.F (fl v) (chain v m h0 0 k) (front v (skipn (k * blockbytes v) m)) (N.of_nat ((k + 1) * blockbytes v))
    (k =? n - 1)%nat (k =? n - 1)%nat
  = if (k =? n - 1)%nat then Spec.hash_words (fl v) h0 m true else chain v m h0 0 (S k).
Proof.
  intros O Lm Hk. pose proof (blockbytes_pos v) as BP.
  pose proof (serial_step v m h0 k true O ltac:(nia) ltac:(nia)) as S1. cbv zeta in S1.
  rewrite skipn_length, Lm in S1.
  replace ((n * blockbytes v - k * blockbytes v <=? blockbytes v)%nat) with (k =? n - 1)%nat in S1.
  - rewrite andb_true_r in S1. rewrite <- S1. f_equal. f_equal. nia.
  - destruct (Nat.eqb_spec k (n - 1)), (Nat.leb_spec (n * blockbytes v - k * blockbytes v) (blockbytes v)); auto; nia.
Qed.

Lemma b_root_first m h0 : words_ok V2b h0 -> length m = 256%nat ->
  Spec.F Spec.F2b h0 (front V2b (skipn 0 m)) (N.of_nat 128) false false = chain V2b m h0 0 1.
Proof. intros O Lm. exact (root_step V2b m h0 0 2 O Lm ltac:(lia)). Qed.
Lemma b_root_second m h0 : words_ok V2b h0 -> length m = 256%nat ->
  Spec.F Spec.F2b (chain V2b m h0 0 1) (front V2b (skipn 128 m)) (N.of_nat 256) true true = Spec.hash_words Spec.F2b h0 m true.
Proof. intros O Lm. exact (root_step V2b m h0 1 2 O Lm ltac:(lia)). Qed.

Lemma b_root_two p a b a1 b1 a2 b2 m h0 : words_ok V2b h0 -> length m = 256%nat ->
  lanes 8 4 a ++ lanes 8 4 b = h0 ->
  b_compress_v1 p a b (front V2b (skipn 0 m)) 128 0 0 0 = (a1, b1) ->
  b_compress_v1 p a1 b1 (front V2b (skipn 128 m)) 256 0 minus1_64 minus1_64 = (a2, b2) ->
  lanes 8 4 a2 ++ lanes 8 4 b2 = Spec.hash_words Spec.F2b h0 m true.
Proof.
  intros O Lm E0 E1 E2.
  pose proof (b_kernel p a b (front V2b (skipn 0 m)) 128 false false (front_length V2b _) ltac:(reflexivity)) as K.
  change (N.of_nat 128) with 128 in K at 1. change (flag_word V2b false) with 0 in K. rewrite E1 in K. clear E1.
  rewrite E0, (b_root_first m h0 O Lm) in K.
  pose proof (b_kernel p a1 b1 (front V2b (skipn 128 m)) 256 true true (front_length V2b _) ltac:(reflexivity)) as K1.
  change (N.of_nat 256) with 256 in K1 at 1. change (flag_word V2b true) with minus1_64 in K1. rewrite E2 in K1. clear E2.
  rewrite K, (b_root_second m h0 O Lm) in K1. exact K1.
Qed.

Lemma blake2b_root_spec p out m : length out = 64%nat -> length m = 256%nat ->
  blake2b_root p out (mkptr m 0) = Ret (Spec.words_to_bytes Spec.F2b
    (Spec.hash_words Spec.F2b (Spec.initial_state Spec.F2b (Spec.tree_node Spec.F2b 64 0 0 1)) m true)).
Proof.
  intros Lo Lm. unfold blake2b_root.
  assert (Q : forall n, (n <= 256)%nat -> padd (mkptr m 0) n = Ret (mkptr m n)).
  { intros n Hn. unfold padd. cbn [p_obj p_off Nat.add]. destruct (Nat.leb_spec n (length m)); [reflexivity|lia]. }
  rewrite !Q by lia. cbn [bind].
  pose proof (fetch_full V2b m 0) as F0. pose proof (fetch_full V2b m 1) as F1.
  change (blockbytes V2b) with 128%nat in F0, F1. cbn [Nat.mul Nat.add] in F0. change (1 * 128)%nat with 128%nat in F1.
  rewrite F0, F1 by lia. cbn [bind]. clear F0 F1.
  destruct (b_compress_v1 p (XOR b_iv_lo (mm256_set_epi64x 0 0x00004001 0 0x02040040)) b_iv_hi (front V2b (skipn 0 m)) 128 0 0 0)
    as [a1 b1] eqn:E1.
  destruct (b_compress_v1 p a1 b1 (front V2b (skipn 128 m)) 256 0 minus1_64 minus1_64) as [a2 b2] eqn:E2.
  pose proof (b_root_two p _ _ a1 b1 a2 b2 m (Spec.initial_state Spec.F2b (Spec.tree_node Spec.F2b 64 0 0 1))
    (initial_state_ok V2b (Spec.tree_node Spec.F2b 64 0 0 1)) Lm b_root_init E1 E2) as K.
  rewrite <- K. exact (store2_spec V2b out a2 b2 Lo).
Qed.

(** *** blake2bp *)
Lemma b_leaf_init l : (l < 4)%nat -> view b_simd l b_init_v4 = leaf0 V2b l.
Proof.
  intros H. unfold leaf0, Spec.initial_state. rewrite (iv_spec V2b).
  destruct l as [|[|[|[|l]]]]; [vm_compute; reflexivity..|lia].
Qed.

Lemma leaf_bytes v s input n :  length s = (2 * n)%nat ->
  (forall j, (j < n)%nat -> st_of v s j = HW v input j) ->
  image (4 * wbytes v) s = flat_map (fun j => Spec.words_to_bytes (fl v) (HW v input j)) (seq 0 n).
Proof.
  revert s. induction n as [|n IH]; intros s Ls H.
  - destruct s; [reflexivity|discriminate].
  - rewrite seq_S, flat_map_app. cbn [flat_map Nat.add]. rewrite app_nil_r.
    rewrite <- (IH (firstn (2 * n) s)).
    + rewrite <- (firstn_skipn (2 * n) s) at 1. unfold image at 1. rewrite flat_map_app. f_equal.
      rewrite <- H by lia. unfold st_of.
      assert (E : skipn (2 * n) s = [nth (n * 2) s []; nth (n * 2 + 1) s []]).
      { apply (nth_ext _ _ [] []); [rewrite skipn_length, Ls; cbn [length]; lia|].
        intros i Hi. rewrite skipn_length, Ls in Hi. rewrite nth_skipn_add.
        destruct i as [|[|i]]; cbn [nth]; try lia; f_equal; lia. }
      rewrite E. cbn [flat_map]. unfold Spec.words_to_bytes. rewrite word_len_fl, flat_map_app, !lanes_bytes, app_nil_r. reflexivity.
    + rewrite firstn_length. lia.
    + intros j Hj. rewrite <- (H j) by lia. unfold st_of. rewrite !nth_firstn_lt by lia. reflexivity.
Qed.

Theorem c_blake2bp_spec p buffer out input : (512 <= length buffer)%nat -> length out = 64%nat ->
  N.of_nat (length input) < 2 ^ 63 ->
  c_blake2bp p buffer out (mkptr input 0) (length input) = Ret (Spec.blake2p Spec.F2b 64 [] input).
Proof.
  intros H1 H2 H3. unfold c_blake2bp.
  destruct (blake2bp_loop_spec p input H3 (S (length input)) 0 buffer b_init_v4 mm256_setzero_si256)
    as (buf' & v' & c' & k & I); try lia; [reflexivity|intros l Hl; apply b_leaf_init; auto|intros l Hl; apply lane_zero|].
  cbv zeta in I. destruct I as (E & HI & EL & Lv & HV & HC).
  cbn [Nat.mul] in E. rewrite Nat.sub_0_r in E. rewrite E. cbn [bind]. clear E.
  set (inlen := (length input - k * 512)%nat) in *.
  destruct (blake2bp_tail_spec p input k H3 HI 4 0 (b_unpack_state_v4 v') (store_words 8 4 c') buf')
    as (s' & E & Ls & HS); try lia.
  - apply len8r in Lv. destruct Lv as (a0 & a1 & a2 & a3 & a4 & a5 & a6 & a7 & ->). reflexivity.
  - reflexivity.
  - intros j Hj. fold inlen. rewrite <- HV by lia. apply (b_unpack_view v' j); lia.
  - intros j Hj Hj2. fold inlen in Hj2. rewrite <- (HC j) by lia.
    destruct j as [|[|[|[|j]]]]; [reflexivity..|lia].
  - fold inlen in E. cbn [Nat.mul] in E. rewrite Nat.min_0_r, Nat.add_0_r, Nat.sub_0_r in E. rewrite E. cbn [bind].
    pose proof (leaf_bytes V2b s' input 4 Ls HS) as LB. change (4 * wbytes V2b)%nat with 32%nat in LB.
    rewrite blake2b_root_spec.
    + f_equal. rewrite LB. symmetry. unfold Spec.blake2p. apply firstn_all2.
      rewrite (words64 V2b); [cbn; lia|]. apply (hash_words_ok V2b), (initial_state_ok V2b).
    + exact H2.
    + unfold image. apply len8r in Ls. destruct Ls as (a0 & a1 & a2 & a3 & a4 & a5 & a6 & a7 & ->). reflexivity.
Qed.

(** *** The vector loop of blake2sp *)
Lemma s_count_step cl ch x l c d : (l < 8)%nat -> d < 2 ^ 32 ->
  lane 4 cl l = count_low V2s c -> lane 4 ch l = count_high V2s c -> lane 4 x l = d ->
  let cl' := mm256_add_epi32 cl x in
  lane 4 cl' l = count_low V2s (c + d) /\
  lane 4 (mm256_sub_epi32 ch (mm256_cmplt_epu32 cl' x)) l = count_high V2s (c + d).
Proof.
  intros Hl Hd H1 H2 Hx cl'. destruct (counter_add c d Hd) as [A1 A2]. cbv zeta in A2.
  assert (E : lane 4 cl' l = (count_low V2s c + d) mod 2 ^ 32).
  { unfold cl', mm256_add_epi32. rewrite lane_add by auto. rewrite H1, Hx. reflexivity. }
  split; [rewrite E; exact A1|].
  unfold mm256_sub_epi32. rewrite lane_sub, lane_cmplt by auto. rewrite E, Hx, H2, <- A2.
  change (lane_mod 4) with (2 ^ 32). unfold mask. change (lane_mod 4) with (2 ^ 32).
  destruct ((count_low V2s c + d) mod 2 ^ 32 <? d).
  - f_equal.
  - rewrite N.sub_0_r, <- N.add_mod_idemp_r, N.mod_same, !N.add_0_r by (apply N.pow_nonzero; discriminate). reflexivity.
Qed.

Lemma blake2sp_loop_spec p input : N.of_nat (length input) < 2 ^ 63 ->
  forall fuel k buffer v cl ch,
  (512 <= length buffer)%nat -> (k * 512 <= length input)%nat -> (0 < k -> k * 512 + 512 <= length input)%nat ->
  (length input - k * 512 < fuel)%nat -> length v = 8%nat ->
  (forall l, (l < 8)%nat -> view s_simd l v = chain V2s (L V2s l input) (leaf0 V2s l) 0 k) ->
  (forall l, (l < 8)%nat -> lane 4 cl l = count_low V2s (N.of_nat (k * 64)) /\ lane 4 ch l = count_high V2s (N.of_nat (k * 64))) ->
  exists buffer' v' cl' ch' k', let inlen' := (length input - k' * 512)%nat in
    blake2sp_loop p fuel buffer v cl ch (mkptr input (k * 512)) (length input - k * 512) =
      Ret (buffer', v', cl', ch', mkptr input (length input - inlen'), inlen') /\
    (inlen' < 512)%nat /\ length buffer' = length buffer /\ length v' = 8%nat /\
    (forall l, (l < 8)%nat -> view s_simd l v' =
      if (inlen' <=? l * 64)%nat then HW V2s input l else chain V2s (L V2s l input) (leaf0 V2s l) 0 k') /\
    (forall l, (l < 8)%nat -> (l * 64 < inlen')%nat ->
      lane 4 cl' l = count_low V2s (N.of_nat (k' * 64)) /\ lane 4 ch' l = count_high V2s (N.of_nat (k' * 64))).
Proof.
  intros HL. induction fuel as [|fuel IH]; intros k buffer v cl ch HB H1 H2 HF Lv HS HC; [lia|].
  cbn [blake2sp_loop]. set (inlen := (length input - k * 512)%nat) in *.
  destruct (pad_block_spec buffer input (k * 512) inlen 512) as (buf' & q & EP & EL & EF & EQ & _); [lia|lia|].
  rewrite EP. cbn [bind]. rewrite EF. cbn [bind].
  set (m := Spec.pad_to 512 (firstn 512 (skipn (k * 512) input))).
  assert (Lm : length m = 512%nat) by (apply pad_to_length; rewrite firstn_length; lia).
  set (cl1 := mm256_add_epi32 cl (s_delta inlen)).
  set (ch1 := mm256_sub_epi32 ch (mm256_cmplt_epu32 cl1 (s_delta inlen))).
  set (v1 := s_compress_v8 p v m cl1 ch1 (s_flags inlen)).
  assert (HC1 : forall l, (l < 8)%nat ->
    lane 4 cl1 l = count_low V2s (N.of_nat (k * 64 + Nat.min 64 (inlen - l * 64))) /\
    lane 4 ch1 l = count_high V2s (N.of_nat (k * 64 + Nat.min 64 (inlen - l * 64)))).
  { intros l Hl. destruct (HC l Hl) as [C1 C2]. rewrite Nat2N.inj_add.
    apply (s_count_step cl ch (s_delta inlen) l (N.of_nat (k * 64))); auto; [lia|]. apply s_delta_lane; lia. }
  assert (HV1 : forall l, (l < 8)%nat -> view s_simd l v1 =
    if (inlen <=? 512 + l * 64)%nat then HW V2s input l else chain V2s (L V2s l input) (leaf0 V2s l) 0 (S k)).
  { intros l Hl. unfold v1. destruct (HC1 l Hl) as [C1 C2].
    rewrite (s_compress_v8_view p v m cl1 ch1 (s_flags inlen) l (N.of_nat (k * 64 + Nat.min 64 (inlen - l * 64)))
      (flag_word V2s (inlen <=? 512 + l * 64)%nat)); auto; [|apply s_flags_lane; lia].
    rewrite flag_and, HS by auto.
    rewrite (compress_block_spec V2s) by (apply chain_ok, leaf0_ok).
    pose proof (stripe_block V2s l (skipn (k * 512) input) Hl) as SB.
    change (blockbytes V2s) with 64%nat in SB. change (P V2s) with 512%nat in SB. fold m in SB. rewrite SB.
    pose proof (lane_step V2s l input k (leaf0 V2s l) (l =? 7)%nat Hl (leaf0_ok V2s l)) as LS.
    cbv zeta in LS. rewrite skipn_length in LS. change (blockbytes V2s) with 64%nat in LS. change (P V2s) with 512%nat in LS.
    fold inlen in LS. apply LS; lia. }
  assert (Lv1 : length v1 = 8%nat).
  { pose proof (HV1 0%nat ltac:(lia)) as E. apply (f_equal (@length N)) in E. unfold view in E. rewrite map_length in E.
    rewrite E. destruct (inlen <=? _)%nat.
    - apply (hash_words_ok V2s), leaf0_ok.
    - apply chain_ok, leaf0_ok. }
  rewrite EQ. cbn [bind].
  destruct (Nat.leb_spec 512 (inlen - Nat.min inlen 512)) as [E|E].
  - rewrite Nat.min_r by lia. replace (k * 512 + 512)%nat with (S k * 512)%nat by lia.
    replace (inlen - 512)%nat with (length input - S k * 512)%nat by lia.
    destruct (IH (S k) buf' v1 cl1 ch1) as (b2 & v2 & c2 & d2 & k2 & I); try lia; auto.
    + intros l Hl. rewrite HV1 by auto. destruct (Nat.leb_spec inlen (512 + l * 64)); [lia|reflexivity].
    + intros l Hl. replace (S k * 64)%nat with (k * 64 + Nat.min 64 (inlen - l * 64))%nat by lia. apply HC1. auto.
    + exists b2, v2, c2, d2, k2. cbv zeta in *. rewrite <- EL. exact I.
  - exists buf', v1, cl1, ch1, (S k). cbv zeta.
    replace (length input - S k * 512)%nat with (inlen - Nat.min inlen 512)%nat by lia.
    split; [|split; [lia|split; [auto|split; [auto|split]]]].
    + replace (length input - (inlen - Nat.min inlen 512))%nat with (k * 512 + Nat.min inlen 512)%nat by lia. reflexivity.
    + intros l Hl. rewrite HV1 by auto.
      destruct (Nat.leb_spec inlen (512 + l * 64)), (Nat.leb_spec (inlen - Nat.min inlen 512) (l * 64)); auto; lia.
    + intros l Hl Hl2. replace (S k * 64)%nat with (k * 64 + Nat.min 64 (inlen - l * 64))%nat by lia. apply HC1. auto.
Qed.

(** *** The rest of blake2sp, leaf by leaf *)
Lemma blake2sp_tail_spec p input k : N.of_nat (length input) < 2 ^ 63 -> let inlen := (length input - k * 512)%nat in
  (inlen < 512)%nat ->
  forall n l s cl ch buffer, (l + n = 8)%nat -> length s = 16%nat -> length cl = 8%nat -> length ch = 8%nat ->
  (64 <= length buffer)%nat ->
  (forall j, (j < l)%nat -> st_of V2s s j = HW V2s input j) ->
  (forall j, (l <= j < 8)%nat -> st_of V2s s j =
     if (inlen <=? j * 64)%nat then HW V2s input j else chain V2s (L V2s j input) (leaf0 V2s j) 0 k) ->
  (forall j, (l <= j < 8)%nat -> (j * 64 < inlen)%nat ->
     nth j cl 0 = count_low V2s (N.of_nat (k * 64)) /\ nth j ch 0 = count_high V2s (N.of_nat (k * 64))) ->
  exists s', blake2sp_tail p (seq l n) buffer s cl ch
      (mkptr input (length input - inlen + Nat.min inlen (l * 64))) (inlen - l * 64) = Ret s' /\
    length s' = 16%nat /\ (forall j, (j < 8)%nat -> st_of V2s s' j = HW V2s input j).
Proof.
  intros HL inlen HI. induction n as [|n IH]; intros l s cl ch buffer Hn Ls Lc Lh HB HD HR HC.
  - exists s. split; [reflexivity|]. split; auto. intros j Hj. apply HD. lia.
  - cbn [seq blake2sp_tail]. destruct (Nat.eqb_spec (inlen - l * 64) 0) as [E|E].
    { exists s. split; [reflexivity|]. split; auto. intros j Hj.
      destruct (Nat.lt_ge_cases j l); [apply HD; auto|]. rewrite HR by lia.
      destruct (Nat.leb_spec inlen (j * 64)); [reflexivity|nia]. }
    set (off := (length input - inlen + Nat.min inlen (l * 64))%nat).
    assert (Eoff : off = (k * 512 + l * 64)%nat) by (unfold off; lia).
    destruct (pad_block_spec buffer input off (inlen - l * 64) 64) as (buf' & q & EP & EL & EF & EQ & _); [lia|lia|].
    rewrite EP. cbn [bind]. rewrite EF. cbn [bind].
    set (block := Spec.pad_to 64 (firstn 64 (skipn off input))).
    assert (EB : block = front V2s (skipn (l * 64) (skipn (k * 512) input))).
    { rewrite skipn_skipn_add, <- Eoff. reflexivity. }
    set (bs := Nat.min (inlen - l * 64) 64) in *.
    destruct (HC l) as [C1 C2]; [lia|lia|].
    destruct (counter_add (N.of_nat (k * 64)) (N.of_nat bs)) as [A1 A2]; [lia|]. cbv zeta in A2.
    rewrite !nth_set, !Nat.eqb_refl, Lc, Lh, C1, C2 by lia. destruct (Nat.ltb_spec l 8); [|lia]. cbn [andb].
    rewrite A2, A1, <- Nat2N.inj_add. rewrite flag32. change minus1_32 with (flag_word V2s true).
    pose proof (s_kernel p (nth (l * 2) s []) (nth (l * 2 + 1) s []) block (N.of_nat (k * 64 + bs)) true (l =? 7)%nat) as K.
    specialize (K ltac:(rewrite EB; apply front_length)).
    destruct (s_compress_v1 p (nth (l * 2) s []) (nth (l * 2 + 1) s []) block (count_low V2s (N.of_nat (k * 64 + bs)))
      (count_high V2s (N.of_nat (k * 64 + bs))) (flag_word V2s true) (flag_word V2s (l =? 7)%nat)) as [a b].
    rewrite EQ. cbn [bind].
    change (lanes 4 4 (nth (l * 2) s []) ++ lanes 4 4 (nth (l * 2 + 1) s [])) with (st_of V2s s l) in K.
    rewrite HR in K by lia. destruct (Nat.leb_spec inlen (l * 64)); [lia|].
    pose proof (lane_step V2s l input k (leaf0 V2s l) (l =? 7)%nat ltac:(cbn; lia) (leaf0_ok V2s l)) as LS.
    cbv zeta in LS. rewrite skipn_length in LS. change (blockbytes V2s) with 64%nat in LS. change (P V2s) with 512%nat in LS.
    fold inlen in LS. destruct (Nat.leb_spec inlen (512 + l * 64)) in LS; [|lia]. cbn [andb] in LS.
    change (fl V2s) with Spec.F2s in LS. rewrite EB in K.
    replace (Nat.min 64 (inlen - l * 64)) with bs in LS by (unfold bs; apply Nat.min_comm).
    rewrite LS in K by lia. clear LS.
    replace (off + bs)%nat with (length input - inlen + Nat.min inlen (S l * 64))%nat by lia.
    replace (inlen - l * 64 - bs)%nat with (inlen - S l * 64)%nat by lia.
    apply IH; try lia.
    + rewrite !set_length. auto.
    + rewrite set_length. auto.
    + rewrite set_length. auto.
    + intros j Hj. rewrite st_of_set by lia. destruct (Nat.eqb_spec j l) as [->|N]; [exact K|]. apply HD. lia.
    + intros j Hj. rewrite st_of_set by lia. destruct (Nat.eqb_spec j l); [lia|]. apply HR. lia.
    + intros j Hj Hj2. rewrite !nth_set. destruct (Nat.eqb_spec l j); [lia|]. cbn [andb]. apply HC; lia.
Qed.

Lemma s_root_init : lanes 4 4 (XOR128 s_iv_lo (mm_set_epi32 0x20010000 0 0 0x02080020)) ++ lanes 4 4 s_iv_hi =
  Spec.initial_state Spec.F2s (Spec.tree_node Spec.F2s 32 0 0 1).
Proof. unfold Spec.initial_state. rewrite (iv_spec V2s : Spec.IV Spec.F2s = iv V2s). vm_compute. reflexivity. Qed.

Lemma small_count i : (i < 4)%nat -> let c := 64 * (N.of_nat i + 1) in
  c = N.of_nat ((i + 1) * 64) /\ N.land c 0xFFFFFFFF = count_low V2s c /\ N.shiftr c 32 = count_high V2s c.
Proof. intros H. destruct i as [|[|[|[|i]]]]; [repeat split..|lia]. Qed.

Lemma s_root_loop p m h0 : length m = 256%nat -> words_ok V2s h0 -> forall n k a b, (k + n = 4)%nat -> (0 < n)%nat ->
  lanes 4 4 a ++ lanes 4 4 b = chain V2s m h0 0 k ->
  exists a' b', blake2s_root_loop p (seq k n) a b (mkptr m (k * 64)) = Ret (a', b') /\
    lanes 4 4 a' ++ lanes 4 4 b' = Spec.hash_words Spec.F2s h0 m true.
Proof.
  intros Lm O. induction n as [|n IH]; intros k a b Hk Hn HS; [lia|].
  cbn [seq blake2s_root_loop].
  pose proof (fetch_full V2s m k) as F0. change (blockbytes V2s) with 64%nat in F0. rewrite F0 by lia. clear F0. cbn [bind].
  destruct (small_count k ltac:(lia)) as (C0 & C1 & C2). cbv zeta in C0, C1, C2. rewrite C1, C2, C0, flag32.
  pose proof (s_kernel p a b (front V2s (skipn (k * 64) m)) (N.of_nat ((k + 1) * 64)) (k =? 3)%nat (k =? 3)%nat (front_length V2s _)) as K.
  destruct (s_compress_v1 p a b (front V2s (skipn (k * 64) m)) (count_low V2s (N.of_nat ((k + 1) * 64)))
    (count_high V2s (N.of_nat ((k + 1) * 64))) (flag_word V2s (k =? 3)%nat) (flag_word V2s (k =? 3)%nat)) as [a' b'].
  rewrite HS in K. pose proof (root_step V2s m h0 k 4 O Lm ltac:(lia)) as R.
  change (blockbytes V2s) with 64%nat in R. change (4 - 1)%nat with 3%nat in R. change (fl V2s) with Spec.F2s in R. rewrite R in K. clear R.
  unfold padd. cbn [p_obj p_off]. destruct (Nat.leb_spec (k * 64 + 64) (length m)); [|lia]. cbn [bind].
  destruct (Nat.eqb_spec k 3) as [->|N].
  - assert (n = 0)%nat by lia. subst n. exists a', b'. split; [reflexivity|exact K].
  - replace (k * 64 + 64)%nat with (S k * 64)%nat by lia. apply IH; try lia. exact K.
Qed.

Lemma blake2s_root_spec p out m : length out = 32%nat -> length m = 256%nat ->
  blake2s_root p out (mkptr m 0) = Ret (Spec.words_to_bytes Spec.F2s
    (Spec.hash_words Spec.F2s (Spec.initial_state Spec.F2s (Spec.tree_node Spec.F2s 32 0 0 1)) m true)).
Proof.
  intros Lo Lm. unfold blake2s_root.
  destruct (s_root_loop p m (Spec.initial_state Spec.F2s (Spec.tree_node Spec.F2s 32 0 0 1)) Lm
    (initial_state_ok V2s (Spec.tree_node Spec.F2s 32 0 0 1)) 4 0
    (XOR128 s_iv_lo (mm_set_epi32 0x20010000 0 0 0x02080020)) s_iv_hi) as (a & b & E & K); try lia.
  - rewrite s_root_init. reflexivity.
  - cbn [Nat.mul] in E. rewrite E. cbn [bind]. rewrite <- K. exact (store2_spec V2s out a b Lo).
Qed.

Lemma s_leaf_init l : (l < 8)%nat -> view s_simd l s_init_v8 = leaf0 V2s l.
Proof.
  intros H. unfold leaf0, Spec.initial_state. rewrite (iv_spec V2s).
  destruct l as [|[|[|[|[|[|[|[|l]]]]]]]]; [vm_compute; reflexivity..|lia].
Qed.

Lemma image_length n s : length (image n s) = (n * length s)%nat.
Proof.
  induction s as [|r s IH]; [cbn; lia|]. unfold image in *. cbn [flat_map length]. rewrite app_length, bytes_length, IH. lia.
Qed.

Theorem c_blake2sp_spec p buffer out input : (512 <= length buffer)%nat -> length out = 32%nat ->
  N.of_nat (length input) < 2 ^ 63 ->
  c_blake2sp p buffer out (mkptr input 0) (length input) = Ret (Spec.blake2p Spec.F2s 32 [] input).
Proof.
  intros H1 H2 H3. unfold c_blake2sp.
  destruct (blake2sp_loop_spec p input H3 (S (length input)) 0 buffer s_init_v8 mm256_setzero_si256 mm256_setzero_si256)
    as (buf' & v' & cl & ch & k & I); try lia;
    [reflexivity|intros l Hl; apply s_leaf_init; auto|intros l Hl; split; apply lane_zero|].
  cbv zeta in I. destruct I as (E & HI & EL & Lv & HV & HC).
  cbn [Nat.mul] in E. rewrite Nat.sub_0_r in E. rewrite E. cbn [bind]. clear E.
  set (inlen := (length input - k * 512)%nat) in *.
  destruct (blake2sp_tail_spec p input k H3 HI 8 0 (union_t_s (s_unpack_state_v8 v')) (store_words 4 8 cl) (store_words 4 8 ch) buf')
    as (s' & E & Ls & HS); try lia.
  - apply len8r in Lv. destruct Lv as (a0 & a1 & a2 & a3 & a4 & a5 & a6 & a7 & ->). reflexivity.
  - reflexivity.
  - reflexivity.
  - intros j Hj. fold inlen. rewrite <- HV by lia. apply (s_unpack_view v' j); lia.
  - intros j Hj Hj2. fold inlen in Hj2. destruct (HC j) as [C1 C2]; [lia|lia|]. rewrite <- C1, <- C2.
    unfold store_words. rewrite !nth_map_seq by lia. auto.
  - fold inlen in E. cbn [Nat.mul] in E. rewrite Nat.min_0_r, Nat.add_0_r, Nat.sub_0_r in E. rewrite E. cbn [bind].
    pose proof (leaf_bytes V2s s' input 8 Ls HS) as LB. change (4 * wbytes V2s)%nat with 16%nat in LB.
    rewrite blake2s_root_spec.
    + f_equal. rewrite LB. symmetry. unfold Spec.blake2p. apply firstn_all2.
      rewrite (words64 V2s); [cbn; lia|]. apply (hash_words_ok V2s), (initial_state_ok V2s).
    + exact H2.
    + rewrite image_length, Ls. reflexivity.
Qed.
