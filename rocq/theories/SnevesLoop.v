(** The vendored C library (Sneves.v): its loops compute BLAKE2b, BLAKE2bp and BLAKE2sp. *)
From Coq Require Import ZArith Arith NArith List Bool Lia ZifyBool ZifyNat ZifyN.
From Verif Require Import Base ByteLemmas Guts Portable Intrinsics KernelSpec LaneLemmas RowKernels.
From Verif Require Import Simd Impl Loops LaneLoops Lib ParamsProof StateProof Stripe FedProof Transposed.
From Verif Require Import SnevesIntrinsics SnevesLoad Sneves SnevesRows SnevesWide SnevesCount.
From Verif Require Spec.
Import ListNotations.
Open Scope N_scope.

(** *** One more block *)
Lemma serial_step v d h0 k ln : words_ok v h0 -> (k * blockbytes v <= length d)%nat ->
  (0 < k -> k * blockbytes v < length d)%nat ->
  let y := skipn (k * blockbytes v) d in
  let fin := (length y <=? blockbytes v)%nat in
  Spec.F (fl v) (chain v d h0 0 k) (front v y) (N.of_nat (k * blockbytes v + Nat.min (blockbytes v) (length y))) fin (fin && ln)
  = if fin then Spec.hash_words (fl v) h0 d ln else chain v d h0 0 (S k).
Proof.
  intros O H1 H2 y fin. pose proof (blockbytes_pos v) as BP.
  assert (LY : length y = (length d - k * blockbytes v)%nat) by (unfold y; apply skipn_length).
  unfold fin. destruct (Nat.leb_spec (length y) (blockbytes v)) as [E|E]; cbn [andb].
  - unfold Spec.hash_words. rewrite (num_blocks_k v d k (length y)) by lia.
    rewrite block_len_fl. replace (S k - 1)%nat with k by lia.
    fold (chain v d h0 0 k). rewrite block_front. fold y. f_equal. lia.
  - replace (S k) with (k + 1)%nat by lia. rewrite chain_add. cbn [Nat.add].
    unfold chain at 2. cbn [seq fold_left]. rewrite block_front. fold y. f_equal. lia.
Qed.

Lemma lane_step v l x k h0 ln : (l < par_degree v)%nat -> words_ok v h0 -> (k * P v <= length x)%nat ->
  let y := skipn (k * P v) x in
  (0 < k -> l * blockbytes v < length y)%nat ->
  let fin := (length y <=? P v + l * blockbytes v)%nat in
  let d := L v l x in
  Spec.F (fl v) (chain v d h0 0 k) (front v (skipn (l * blockbytes v) y))
    (N.of_nat (k * blockbytes v + Nat.min (blockbytes v) (length y - l * blockbytes v))) fin (fin && ln)
  = if fin then Spec.hash_words (fl v) h0 d ln else chain v d h0 0 (S k).
Proof.
  intros Hl O H1 y H2 fin d. pose proof (blockbytes_pos v) as BP. pose proof (iB_le v l Hl) as HB.
  assert (LY : length y = (length x - k * P v)%nat) by (unfold y; apply skipn_length).
  set (a := firstn (k * P v) x). assert (La : length a = (k * P v)%nat) by (unfold a; rewrite firstn_length; lia).
  assert (Ed : d = L v l a ++ L v l y).
  { unfold d. rewrite <- (L_app v l Hl k) by auto. unfold a, y. rewrite firstn_skipn. reflexivity. }
  assert (LA : length (L v l a) = (k * blockbytes v)%nat) by (apply L_length_mult; auto).
  assert (Es : skipn (k * blockbytes v) d = L v l y).
  { rewrite Ed, skipn_app, LA, Nat.sub_diag, skipn_all2 by lia. reflexivity. }
  pose proof (L_step v l Hl y) as EL.
  assert (LF : length (firstn (blockbytes v) (skipn (l * blockbytes v) y)) =
    Nat.min (blockbytes v) (length y - l * blockbytes v)) by (rewrite firstn_length, skipn_length; reflexivity).
  assert (Efin : (length (L v l y) <=? blockbytes v)%nat = fin).
  { unfold fin. rewrite EL, app_length, LF.
    destruct (Nat.leb_spec (length y) (P v + l * blockbytes v)) as [E|E].
    - rewrite L_empty by (auto; rewrite skipn_length; lia). cbn [length]. apply Nat.leb_le. lia.
    - pose proof (L_nonempty v l Hl (skipn (P v) y)) as NE. rewrite skipn_length in NE.
      specialize (NE ltac:(lia)). destruct (L v l (skipn (P v) y)); [congruence|]. cbn [length].
      apply Nat.leb_gt. lia. }
  assert (Emin : Nat.min (blockbytes v) (length (L v l y)) = Nat.min (blockbytes v) (length y - l * blockbytes v)).
  { rewrite EL, app_length, LF. destruct (Nat.le_gt_cases (length y) (P v + l * blockbytes v)) as [E|E].
    - rewrite L_empty by (auto; rewrite skipn_length; lia). cbn [length]. lia.
    - lia. }
  assert (Efr : front v (L v l y) = front v (skipn (l * blockbytes v) y)).
  { apply front_eq. rewrite EL, firstn_app, LF, firstn_firstn, Nat.min_id.
    destruct (Nat.le_gt_cases (length y) (P v)) as [E|E].
    - rewrite L_empty by (auto; rewrite skipn_length; lia). rewrite firstn_nil, app_nil_r. reflexivity.
    - replace (blockbytes v - _)%nat with 0%nat by lia. cbn [firstn]. apply app_nil_r. }
  pose proof (serial_step v d h0 k ln O) as S1.
  assert (Ld : length d = (k * blockbytes v + length (L v l y))%nat) by (rewrite Ed, app_length, LA; reflexivity).
  specialize (S1 ltac:(lia)).
  assert (K2 : (0 < k -> k * blockbytes v < length d)%nat).
  { intros Hk. specialize (H2 Hk). pose proof (L_nonempty v l Hl y H2) as NE.
    destruct (L v l y); [congruence|]. cbn [length] in Ld. lia. }
  specialize (S1 K2). cbv zeta in S1. rewrite Es, Efin, Emin, Efr in S1. exact S1.
Qed.

(** *** Padding into the local buffer *)
Lemma pad_block_spec buffer input off inlen size :
  (off + inlen = length input)%nat -> (size <= length buffer)%nat ->
  exists buffer' q,
    pad_block buffer (mkptr input off) inlen size = Ret (buffer', Nat.min inlen size, q) /\
    length buffer' = length buffer /\
    fetch q size = Ret (Spec.pad_to size (firstn size (skipn off input))) /\
    padd (mkptr input off) (Nat.min inlen size) = Ret (mkptr input (off + Nat.min inlen size)) /\
    exists q', padd q (Nat.min inlen size) = Ret q' /\ ((size <= inlen)%nat -> q' = mkptr input (off + size)).
Proof.
  intros H1 H2. unfold pad_block. destruct (Nat.ltb_spec inlen size) as [E|E].
  - unfold memcpy, fetch, raw_read. cbn [p_obj p_off].
    destruct (Nat.leb_spec (off + inlen) (length input)); [|lia]. cbn [bind].
    set (bs := firstn inlen (skipn off input)).
    assert (Lb : length bs = inlen) by (unfold bs; apply firstn_skipn_length; lia).
    unfold poke at 1. rewrite Lb. cbn [Nat.add]. destruct (Nat.leb_spec inlen (length buffer)); [|lia].
    cbn [bind firstn app]. unfold memset0, poke. rewrite repeat_length, app_length, skipn_length, Lb.
    destruct (Nat.leb_spec (inlen + (size - inlen)) (inlen + (length buffer - inlen))); [|lia]. cbn [bind].
    rewrite Nat.min_l by lia.
    assert (E1 : firstn inlen (bs ++ skipn inlen buffer) = bs).
    { rewrite firstn_app, Lb, Nat.sub_diag. cbn [firstn]. rewrite app_nil_r. apply firstn_all2. lia. }
    rewrite E1.
    assert (E2 : firstn size (skipn off input) = bs).
    { unfold bs. rewrite !firstn_all2 by (rewrite skipn_length; lia). reflexivity. }
    eexists _, _. split; [reflexivity|]. split; [|split; [|split]].
    + rewrite !app_length, Lb, repeat_length, skipn_length, app_length, Lb, skipn_length. lia.
    + cbn [p_obj p_off Nat.add skipn]. destruct (Nat.leb_spec size (length (bs ++ repeat x00 (size - inlen) ++
        skipn (inlen + (size - inlen)) (bs ++ skipn inlen buffer)))) as [F|F];
        [|exfalso; revert F; rewrite !app_length, Lb, repeat_length, skipn_length, app_length, Lb, skipn_length; lia].
      f_equal. rewrite E2. unfold Spec.pad_to. rewrite Lb, app_assoc, firstn_app, app_length, Lb, repeat_length.
      replace (size - (inlen + (size - inlen)))%nat with 0%nat by lia. cbn [firstn]. rewrite app_nil_r.
      apply firstn_all2. rewrite app_length, Lb, repeat_length. lia.
    + unfold padd. cbn [p_obj p_off]. destruct (Nat.leb_spec (off + inlen) (length input)); [reflexivity|lia].
    + unfold padd. cbn [p_obj p_off]. rewrite !app_length, Lb.
      destruct (Nat.leb_spec (0 + inlen) (inlen + (length (repeat x00 (size - inlen)) +
        length (skipn (inlen + (size - inlen)) (bs ++ skipn inlen buffer))))); [|lia].
      eexists. split; [reflexivity|]. lia.
  - rewrite Nat.min_r by lia. eexists _, _. split; [reflexivity|]. split; [reflexivity|].
    assert (EP : padd (mkptr input off) size = Ret (mkptr input (off + size))).
    { unfold padd. cbn [p_obj p_off]. destruct (Nat.leb_spec (off + size) (length input)); [reflexivity|lia]. }
    split; [|split; [exact EP|exists (mkptr input (off + size)); auto]].
    unfold fetch, raw_read. cbn [p_obj p_off]. destruct (Nat.leb_spec (off + size) (length input)); [|lia].
    rewrite pad_to_full by (apply firstn_skipn_length; lia). reflexivity.
Qed.

(** Block [l] of a padded stripe. *)
Lemma skipn_repeat {A} (x : A) n m : skipn n (repeat x m) = repeat x (m - n).
Proof. revert m. induction n as [|n IH]; intros [|m]; cbn; auto. Qed.
Lemma firstn_repeat {A} (x : A) n m : firstn n (repeat x m) = repeat x (Nat.min n m).
Proof. revert m. induction n as [|n IH]; intros [|m]; cbn; auto. f_equal. apply IH. Qed.

Lemma stripe_block v l y : (l < par_degree v)%nat ->
  firstn (blockbytes v) (skipn (l * blockbytes v) (Spec.pad_to (P v) (firstn (P v) y))) =
  front v (skipn (l * blockbytes v) y).
Proof.
  intros Hl. pose proof (iB_le v l Hl) as HB. unfold Spec.pad_to, front, Spec.pad_to.
  set (B := blockbytes v) in *. set (z := firstn (P v) y).
  assert (Lz : length z = Nat.min (P v) (length y)) by (apply firstn_length).
  assert (E : firstn B (skipn (l * B) y) = firstn B (skipn (l * B) z)).
  { unfold z. rewrite skipn_firstn_comm, firstn_firstn, Nat.min_l by lia. reflexivity. }
  rewrite E, skipn_app, firstn_app, skipn_repeat, firstn_repeat, firstn_length, skipn_length.
  f_equal. f_equal. lia.
Qed.

(** *** Counters *)
Lemma count_small n : N.of_nat n < 2 ^ 64 ->
  count_low V2b (N.of_nat n) = N.of_nat n /\ count_high V2b (N.of_nat n) = 0.
Proof.
  intros H. unfold count_low, count_high. change (wmod V2b) with (2 ^ 64). change (wbits V2b) with 64. split.
  - apply N.mod_small. auto.
  - rewrite N.shiftr_div_pow2, N.div_small by auto. reflexivity.
Qed.

Definition st_of (v : variant) (s : list reg) (j : nat) : list N :=
  lanes (wbytes v) 4 (nth (j * 2) s []) ++ lanes (wbytes v) 4 (nth (j * 2 + 1) s []).

Lemma st_of_set v s j i a b : (j * 2 + 1 < length s)%nat -> (i * 2 + 1 < length s)%nat ->
  st_of v (set (set s (j * 2) a) (j * 2 + 1) b) i =
  if (i =? j)%nat then lanes (wbytes v) 4 a ++ lanes (wbytes v) 4 b else st_of v s i.
Proof.
  intros Hj Hi. unfold st_of. rewrite !nth_set, !set_length.
  destruct (Nat.ltb_spec (i * 2) (length s)); [|lia]. destruct (Nat.ltb_spec (i * 2 + 1) (length s)); [|lia].
  rewrite !andb_true_r.
  destruct (Nat.eqb_spec i j) as [->|N].
  - destruct (Nat.eqb_spec (j * 2 + 1) (j * 2)); [lia|]. rewrite !Nat.eqb_refl. reflexivity.
  - destruct (Nat.eqb_spec (j * 2 + 1) (i * 2)); [lia|]. destruct (Nat.eqb_spec (j * 2) (i * 2)); [lia|].
    destruct (Nat.eqb_spec (j * 2 + 1) (i * 2 + 1)); [lia|]. destruct (Nat.eqb_spec (j * 2) (i * 2 + 1)); [lia|].
    reflexivity.
Qed.

Lemma lanes_two v a b : words_ok v (lanes (wbytes v) 4 a ++ lanes (wbytes v) 4 b).
Proof.
  destruct (lanes_ok v 4 a) as [L1 F1], (lanes_ok v 4 b) as [L2 F2]. split.
  - rewrite app_length, L1, L2. reflexivity.
  - apply Forall_app. auto.
Qed.

Lemma flag_lt v c : flag_word v c < wmod v.
Proof. destruct v, c; reflexivity. Qed.

Lemma b_kernel p a b block n lb ln : length block = 128%nat -> N.of_nat n < 2 ^ 64 ->
  let '(a', b') := b_compress_v1 p a b block (N.of_nat n) 0 (flag_word V2b lb) (flag_word V2b ln) in
  lanes 8 4 a' ++ lanes 8 4 b' = Spec.F Spec.F2b (lanes 8 4 a ++ lanes 8 4 b) block (N.of_nat n) lb ln.
Proof.
  intros H1 H2. pose proof (b_compress_v1_spec p a b block (N.of_nat n) (flag_word V2b lb) (flag_word V2b ln) H1
    (flag_lt V2b lb) (flag_lt V2b ln)) as E.
  destruct (count_small n H2) as [-> ->] in E.
  destruct (b_compress_v1 p a b block (N.of_nat n) 0 (flag_word V2b lb) (flag_word V2b ln)) as [a' b'].
  rewrite E. apply (compress_block_spec V2b). apply (lanes_two V2b).
Qed.

Lemma s_kernel p a b block c lb ln : length block = 64%nat ->
  let '(a', b') := s_compress_v1 p a b block (count_low V2s c) (count_high V2s c) (flag_word V2s lb) (flag_word V2s ln) in
  lanes 4 4 a' ++ lanes 4 4 b' = Spec.F Spec.F2s (lanes 4 4 a ++ lanes 4 4 b) block c lb ln.
Proof.
  intros H1. pose proof (s_compress_v1_spec p a b block c (flag_word V2s lb) (flag_word V2s ln) H1
    (flag_lt V2s lb) (flag_lt V2s ln)) as E.
  destruct (s_compress_v1 p a b block (count_low V2s c) (count_high V2s c) (flag_word V2s lb) (flag_word V2s ln)) as [a' b'].
  rewrite E. apply (compress_block_spec V2s). apply (lanes_two V2s).
Qed.

(** *** blake2b: the whole message *)
Lemma flag64 c : (if c : bool then minus1_64 else 0) = flag_word V2b c.
Proof. destruct c; reflexivity. Qed.
Lemma flag32 c : (if c : bool then minus1_32 else 0) = flag_word V2s c.
Proof. destruct c; reflexivity. Qed.

Lemma blake2b_loop_spec p input h0 : N.of_nat (length input) < 2 ^ 63 ->
  forall fuel k buffer a b,
  (128 <= length buffer)%nat -> (k * 128 <= length input)%nat -> (0 < k -> k * 128 < length input)%nat ->
  (length input - k * 128 < fuel)%nat -> words_ok V2b h0 ->
  lanes 8 4 a ++ lanes 8 4 b = chain V2b input h0 0 k ->
  exists a' b', blake2b_loop p fuel buffer a b (N.of_nat (k * 128)) (mkptr input (k * 128)) (length input - k * 128) = Ret (a', b') /\
    lanes 8 4 a' ++ lanes 8 4 b' = Spec.hash_words Spec.F2b h0 input false.
Proof.
  intros HL. induction fuel as [|fuel IH]; intros k buffer a b HB H1 H2 HF O HS; [lia|].
  cbn [blake2b_loop]. set (inlen := (length input - k * 128)%nat) in *.
  destruct (pad_block_spec buffer input (k * 128) inlen 128) as (buf' & q & EP & EL & EF & _ & q' & EQ & Q'); [lia|lia|].
  rewrite EP. cbn [bind]. rewrite EF. cbn [bind].
  set (block := Spec.pad_to 128 (firstn 128 (skipn (k * 128) input))).
  assert (EB : block = front V2b (skipn (k * 128) input)) by reflexivity.
  assert (EC : (N.of_nat (k * 128) + N.of_nat (Nat.min inlen 128)) mod 2 ^ 64 = N.of_nat (k * 128 + Nat.min inlen 128)).
  { rewrite <- Nat2N.inj_add. apply N.mod_small. lia. }
  rewrite EC. rewrite flag64. change 0 with (flag_word V2b false) at 2.
  pose proof (b_kernel p a b block (k * 128 + Nat.min inlen 128) (inlen <=? 128)%nat false) as K.
  specialize (K ltac:(rewrite EB; apply front_length) ltac:(lia)).
  destruct (b_compress_v1 p a b block (N.of_nat (k * 128 + Nat.min inlen 128)) 0
    (flag_word V2b (inlen <=? 128)%nat) (flag_word V2b false)) as [a' b'].
  rewrite EQ. cbn [bind].
  pose proof (serial_step V2b input h0 k false O H1 H2) as ST. cbv zeta in ST.
  rewrite skipn_length in ST. change (blockbytes V2b) with 128%nat in ST. fold inlen in ST.
  rewrite andb_false_r, <- EB in ST. rewrite <- HS in ST. rewrite (Nat.min_comm 128 inlen) in ST. change (fl V2b) with Spec.F2b in ST.
  rewrite ST in K. clear ST.
  destruct (Nat.leb_spec inlen 128) as [E|E].
  - destruct (Nat.ltb_spec 0 (inlen - Nat.min inlen 128)); [lia|]. exists a', b'. split; auto.
  - destruct (Nat.ltb_spec 0 (inlen - Nat.min inlen 128)); [|lia]. rewrite Q' by lia.
    rewrite Nat.min_r by lia. replace (k * 128 + 128)%nat with (S k * 128)%nat by lia.
    replace (inlen - 128)%nat with (length input - S k * 128)%nat by lia.
    apply IH; auto; lia.
Qed.

(** *** Registers as bytes *)
Lemma lanes_bytes w r n : flat_map (Spec.encode w) (lanes w n r) = bytes r 0 (n * w).
Proof.
  unfold lanes. induction n as [|n IH]; [reflexivity|].
  rewrite seq_S, map_app, flat_map_app, IH. cbn [map flat_map Nat.add]. rewrite app_nil_r, encode_to_le.
  rewrite <- bytes_of_lane. unfold bytes. rewrite <- map_app. f_equal.
  replace (S n * w)%nat with (n * w + w)%nat by lia. rewrite seq_app. reflexivity.
Qed.

Lemma store2_spec v out a b : length out = (8 * wbytes v)%nat ->
  store2 (4 * wbytes v) out a b = Ret (Spec.words_to_bytes (fl v) (lanes (wbytes v) 4 a ++ lanes (wbytes v) 4 b)).
Proof.
  intros H. unfold store2, poke at 1. rewrite bytes_length. cbn [Nat.add].
  destruct (Nat.leb_spec (4 * wbytes v) (length out)); [|lia]. cbn [bind firstn app].
  unfold poke. rewrite !app_length, !bytes_length, skipn_length.
  destruct (Nat.leb_spec (4 * wbytes v + 4 * wbytes v) (4 * wbytes v + (length out - 4 * wbytes v))); [|lia].
  f_equal. rewrite firstn_app, bytes_length, Nat.sub_diag. cbn [firstn]. rewrite app_nil_r.
  rewrite firstn_all2 by (rewrite bytes_length; lia).
  rewrite skipn_all2 by (rewrite app_length, bytes_length, skipn_length; lia). rewrite app_nil_r.
  unfold Spec.words_to_bytes. rewrite word_len_fl, flat_map_app, !lanes_bytes. reflexivity.
Qed.

Lemma b_seq_init : lanes 8 4 (XOR b_iv_lo (mm256_set_epi64x 0 0 0 0x01010040)) ++ lanes 8 4 b_iv_hi =
  Spec.initial_state Spec.F2b (Spec.sequential 64 0).
Proof. unfold Spec.initial_state. rewrite (iv_spec V2b : Spec.IV Spec.F2b = iv V2b). vm_compute. reflexivity. Qed.

Lemma words64 v h : words_ok v h -> length (Spec.words_to_bytes (fl v) h) = (8 * wbytes v)%nat.
Proof.
  intros [L _]. unfold Spec.words_to_bytes. rewrite word_len_fl.
  rewrite <- L. clear L. induction h as [|x h IH]; auto.
  cbn [flat_map length]. rewrite app_length, encode_length, IH. lia.
Qed.

Theorem c_blake2b_spec p buffer out input : (128 <= length buffer)%nat -> length out = 64%nat ->
  N.of_nat (length input) < 2 ^ 63 ->
  c_blake2b p buffer out (mkptr input 0) (length input) = Ret (Spec.rfc7693 Spec.F2b 64 [] input).
Proof.
  intros H1 H2 H3. unfold c_blake2b.
  pose proof (initial_state_ok V2b (Spec.sequential 64 0)) as O.
  destruct (blake2b_loop_spec p input (Spec.initial_state Spec.F2b (Spec.sequential 64 0)) H3 (S (length input)) 0 buffer
    (XOR b_iv_lo (mm256_set_epi64x 0 0 0 0x01010040)) b_iv_hi) as (a' & b' & E & W); try lia; [exact O|exact b_seq_init|].
  cbn [Nat.mul] in E. rewrite Nat.sub_0_r in E. change (N.of_nat 0) with 0 in E. rewrite E. cbn [bind].
  change (store2 32) with (store2 (4 * wbytes V2b)). rewrite (store2_spec V2b out a' b' H2). f_equal.
  change (fl V2b) with Spec.F2b. change (wbytes V2b) with 8%nat. rewrite W.
  unfold Spec.rfc7693, Spec.blake2. cbn [length Spec.data]. symmetry.
  apply firstn_all2. change (N.to_nat (Spec.digest_length (Spec.sequential 64 0))) with 64%nat.
  pose proof (words64 V2b (Spec.hash_words Spec.F2b (Spec.initial_state Spec.F2b (Spec.sequential 64 0)) input false)) as W64.
  change (fl V2b) with Spec.F2b in W64. rewrite W64; [cbn; lia|]. apply (hash_words_ok V2b). exact O.
Qed.
