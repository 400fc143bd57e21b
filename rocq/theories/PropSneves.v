(** Properties of the vendored C library that the benchmarks compare against
    (benches/blake2-avx2-sneves): blake2b, blake2bp and blake2sp.

    Vocabulary: Spec.v (BLAKE2 as published).  The model: Sneves.v, SnevesLoad.v and
    SnevesIntrinsics.v.  [p] is the message loading strategy chosen by the preprocessor (build.rs
    picks [Shuffles]); [t] is what feature detection says and [e] what the CPU can do; [buffer] is the
    content of the uninitialised local array; [Ret] rules out a panic, undefined behaviour (an access
    outside of an object, or an AVX2 instruction on a CPU without it) and divergence. *)
From Coq Require Import Arith NArith List Bool Lia.
From Coq Require Import Init.Byte.
From Verif Require Import Base Guts KernelSpec Impl Lib Par Intrinsics SnevesIntrinsics Sneves Spec Api Loops Demo.
From Verif Require SnevesLoop SnevesPar PropHash PropPar.
Import ListNotations.
Open Scope list_scope.
Open Scope N_scope.

(** What is_x86_feature_detected!("avx2") finds; a size that a Rust slice can have. *)
Definition avx2_detected (t : target) : bool := t_tf_avx2 t || t_cpu_avx2 t.
Definition slice_sized (input : list byte) : Prop := N.of_nat (length input) < 2 ^ 63.

Lemma run_detected {A} t e (x : outcome A) : honest t e -> avx2_detected t = true ->
  (do _ <- check_avx2 t; target_feature (e_avx2 e) x) = x.
Proof.
  unfold avx2_detected, check_avx2, target_feature. intros H D. rewrite D. cbn [bind].
  apply orb_true_iff in D. destruct D as [D|D].
  - rewrite (honest_tf_avx2 t e H D). reflexivity.
  - rewrite (honest_cpu_avx2 t e H D). reflexivity.
Qed.

(** ** C54 *)
Theorem C54_blake2b (p : permute) (t : target) (e : env) (buffer input : list byte) :
  honest t e -> avx2_detected t = true -> length buffer = 128%nat -> slice_sized input ->
  sneves_blake2b p t e buffer input = Ret (rfc7693 F2b 64 [] input).
Proof.
  intros H D L S. unfold sneves_blake2b. rewrite run_detected by auto.
  apply SnevesLoop.c_blake2b_spec; [lia|reflexivity|exact S].
Qed.
Print Assumptions C54_blake2b.
Example C54_blake2b_example (p : permute) : sneves_blake2b p demo_target (demo_env true) (demo_msg 128) (demo_msg 1000) =
  Ret (rfc7693 F2b 64 [] (demo_msg 1000)).
Proof. apply C54_blake2b; [apply demo_honest|reflexivity..]. Qed.

Theorem C54_blake2bp (p : permute) (t : target) (e : env) (buffer input : list byte) :
  honest t e -> avx2_detected t = true -> length buffer = 512%nat -> slice_sized input ->
  sneves_blake2bp p t e buffer input = Ret (blake2p F2b 64 [] input).
Proof.
  intros H D L S. unfold sneves_blake2bp. rewrite run_detected by auto.
  apply SnevesPar.c_blake2bp_spec; [lia|reflexivity|exact S].
Qed.
Print Assumptions C54_blake2bp.
Example C54_blake2bp_example (p : permute) : sneves_blake2bp p demo_target (demo_env true) (demo_msg 512) (demo_msg 1300) =
  Ret (blake2p F2b 64 [] (demo_msg 1300)).
Proof. apply C54_blake2bp; [apply demo_honest|reflexivity..]. Qed.

Theorem C54_blake2sp (p : permute) (t : target) (e : env) (buffer input : list byte) :
  honest t e -> avx2_detected t = true -> length buffer = 512%nat -> slice_sized input ->
  sneves_blake2sp p t e buffer input = Ret (blake2p F2s 32 [] input).
Proof.
  intros H D L S. unfold sneves_blake2sp. rewrite run_detected by auto.
  apply SnevesPar.c_blake2sp_spec; [lia|reflexivity|exact S].
Qed.
Print Assumptions C54_blake2sp.
Example C54_blake2sp_example (p : permute) : sneves_blake2sp p demo_target (demo_env true) (demo_msg 512) (demo_msg 700) =
  Ret (blake2p F2s 32 [] (demo_msg 700)).
Proof. apply C54_blake2sp; [apply demo_honest|reflexivity..]. Qed.

(** Without AVX2 the three functions panic before any C code runs. *)
Theorem C54_no_avx2 (p : permute) (t : target) (e : env) (buffer input : list byte) :
  avx2_detected t = false ->
  sneves_blake2b p t e buffer input = Panic /\
  sneves_blake2bp p t e buffer input = Panic /\
  sneves_blake2sp p t e buffer input = Panic.
Proof.
  unfold avx2_detected, sneves_blake2b, sneves_blake2bp, sneves_blake2sp, check_avx2. intros ->. repeat split.
Qed.
Print Assumptions C54_no_avx2.
Definition old_cpu : target :=
  {| t_x86 := true; t_tf_sse41 := false; t_tf_avx2 := false; t_std := true; t_cpu_sse41 := true; t_cpu_avx2 := false |}.
Example C54_no_avx2_example : avx2_detected old_cpu = false /\
  honest old_cpu {| e_dbg := true; e_sse41 := true; e_avx2 := false |}.
Proof. repeat split; discriminate. Qed.

(** They return what this library's one-shot functions return, on any back end of the latter. *)
Theorem C54_same_as_this_library (p : permute) (t : target) (e : env) (imp : platform)
    (buffer_b buffer_bp buffer_sp input : list byte) :
  honest t e -> avx2_detected t = true -> supported e imp -> slice_sized input ->
  length buffer_b = 128%nat -> length buffer_bp = 512%nat -> length buffer_sp = 512%nat ->
  (exists h, blake2_default V2b e imp input = Ret h /\ as_bytes h = sneves_blake2b p t e buffer_b input) /\
  (exists h, blake2p_default V2b e imp input = Ret h /\ as_bytes h = sneves_blake2bp p t e buffer_bp input) /\
  (exists h, blake2p_default V2s e imp input = Ret h /\ as_bytes h = sneves_blake2sp p t e buffer_sp input).
Proof.
  intros H D Su S L1 L2 L3. rewrite C54_blake2b, C54_blake2bp, C54_blake2sp by auto.
  split; [exact (PropHash.C01_one_shot_is_blake2 V2b e imp input Su)|].
  split; [exact (PropPar.C14_one_shot V2b e imp input Su)|exact (PropPar.C14_one_shot V2s e imp input Su)].
Qed.
Print Assumptions C54_same_as_this_library.
Example C54_same_example : honest demo_target (demo_env false) /\ avx2_detected demo_target = true /\
  supported (demo_env false) Portable /\ slice_sized (demo_msg 2000).
Proof. split; [apply demo_honest|]. split; [reflexivity|]. split; [apply demo_supported|reflexivity]. Qed.

(** The tables with which the C code addresses memory stay inside what they address: the aligned
    loads of the wide rounds inside the 16 transposed registers (512 bytes), the gathers of the row
    kernels inside their message block, and the gathers of the wide kernels inside the stripe. *)
Theorem C54_tables_in_bounds :
  (forall r k, (r < 12)%nat -> (k < 16)%nat ->
     let off := nth k (nth r blake2b_sigma []) 512%nat in (off mod 32 = 0 /\ off + 32 <= 512)%nat) /\
  (forall r k, (r < 10)%nat -> (k < 16)%nat ->
     let off := nth k (nth r blake2s_sigma []) 512%nat in (off mod 32 = 0 /\ off + 32 <= 512)%nat) /\
  (forall r k i, (r < 12)%nat -> In k [0; 4; 8; 12]%nat -> (i < 4)%nat -> lane 4 (index_reg b_indices r k) i * 8 + 8 <= 128) /\
  (forall r k i, (r < 10)%nat -> In k [0; 4; 8; 12]%nat -> (i < 4)%nat -> lane 4 (index_reg s_indices r k) i * 4 + 4 <= 64) /\
  (forall word i, (word < 16)%nat -> (i < 4)%nat -> N.of_nat word * 8 + lane 4 (mm_set_epi32 48 32 16 0) i * 8 + 8 <= 512) /\
  (forall word i, (word < 16)%nat -> (i < 8)%nat ->
     N.of_nat word * 4 + lane 4 (mm256_set_epi32 112 96 80 64 48 32 16 0) i * 4 + 4 <= 512).
Proof.
  assert (all : forall n (f : nat -> bool), forallb f (seq 0 n) = true -> forall i, (i < n)%nat -> f i = true).
  { intros n f H i Hi. rewrite forallb_forall in H. apply H, in_seq. lia. }
  repeat apply conj.
  - intros r k Hr Hk. cbv zeta. set (f := fun r => forallb (fun k => let off := nth k (nth r blake2b_sigma []) 512%nat in
      (off mod 32 =? 0) && (off + 32 <=? 512))%nat (seq 0 16)).
    pose proof (all 12%nat f eq_refl r Hr) as A. pose proof (all 16%nat _ A k Hk) as B. cbv beta zeta in B.
    apply andb_true_iff in B. destruct B as [B1 B2]. apply Nat.eqb_eq in B1. apply Nat.leb_le in B2. auto.
  - intros r k Hr Hk. cbv zeta. set (f := fun r => forallb (fun k => let off := nth k (nth r blake2s_sigma []) 512%nat in
      (off mod 32 =? 0) && (off + 32 <=? 512))%nat (seq 0 16)).
    pose proof (all 10%nat f eq_refl r Hr) as A. pose proof (all 16%nat _ A k Hk) as B. cbv beta zeta in B.
    apply andb_true_iff in B. destruct B as [B1 B2]. apply Nat.eqb_eq in B1. apply Nat.leb_le in B2. auto.
  - intros r k i Hr Hk Hi. set (f := fun r => forallb (fun k => forallb (fun i => lane 4 (index_reg b_indices r k) i * 8 + 8 <=? 128)
      (seq 0 4)) [0; 4; 8; 12]%nat).
    pose proof (all 12%nat f eq_refl r Hr) as A. unfold f in A. rewrite forallb_forall in A. specialize (A k Hk).
    pose proof (all 4%nat _ A i Hi) as B. apply N.leb_le. exact B.
  - intros r k i Hr Hk Hi. set (f := fun r => forallb (fun k => forallb (fun i => lane 4 (index_reg s_indices r k) i * 4 + 4 <=? 64)
      (seq 0 4)) [0; 4; 8; 12]%nat).
    pose proof (all 10%nat f eq_refl r Hr) as A. unfold f in A. rewrite forallb_forall in A. specialize (A k Hk).
    pose proof (all 4%nat _ A i Hi) as B. apply N.leb_le. exact B.
  - intros w i Hw Hi. set (f := fun w => forallb (fun i => N.of_nat w * 8 + lane 4 (mm_set_epi32 48 32 16 0) i * 8 + 8 <=? 512) (seq 0 4)).
    pose proof (all 16%nat f eq_refl w Hw) as A. pose proof (all 4%nat _ A i Hi) as B. apply N.leb_le. exact B.
  - intros w i Hw Hi. set (f := fun w => forallb (fun i => N.of_nat w * 4 + lane 4 (mm256_set_epi32 112 96 80 64 48 32 16 0) i * 4 + 4 <=? 512) (seq 0 8)).
    pose proof (all 16%nat f eq_refl w Hw) as A. pose proof (all 8%nat _ A i Hi) as B. apply N.leb_le. exact B.
Qed.
Print Assumptions C54_tables_in_bounds.
