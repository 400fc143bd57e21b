(** Lemmas on bytes, little-endian encodings, words and list accessors. *)
From Coq Require Import ZArith Arith NArith List Bool Lia ZifyBool ZifyNat ZifyN.
From Coq Require Import Strings.Byte.
From Verif Require Import Base.
Import ListNotations.
Open Scope N_scope.

Ltac Zify.zify_post_hook ::= Z.div_mod_to_equations.

(** *** Bytes *)
Lemma b2n_lt b : b2n b < 256.
Proof. unfold b2n. pose proof (Byte.to_N_bounded b). lia. Qed.

Lemma n2b_b2n b : n2b (b2n b) = b.
Proof.
  unfold n2b. rewrite N.mod_small by apply b2n_lt.
  unfold b2n. rewrite Byte.of_to_N. reflexivity.
Qed.

Lemma b2n_n2b n : b2n (n2b n) = n mod 256.
Proof.
  unfold n2b, b2n. destruct (Byte.of_N (n mod 256)) eqn:E.
  - apply Byte.to_of_N in E. auto.
  - apply Byte.of_N_None_iff in E. pose proof (N.mod_lt n 256). lia.
Qed.

Lemma b2n_inj a b : b2n a = b2n b -> a = b.
Proof. intros H. rewrite <- (n2b_b2n a), <- (n2b_b2n b), H. reflexivity. Qed.

Lemma n2b_mod n : n2b (n mod 256) = n2b n.
Proof. unfold n2b. rewrite N.mod_mod by lia. reflexivity. Qed.

(** *** Little-endian encodings *)
Lemma pow256 n : 256 ^ n = 2 ^ (8 * n).
Proof. replace 256 with (2 ^ 8) by reflexivity. rewrite <- N.pow_mul_r. reflexivity. Qed.

Lemma pow_succ8 n : 2 ^ (8 * N.of_nat (S n)) = 256 * 2 ^ (8 * N.of_nat n).
Proof.
  replace (8 * N.of_nat (S n)) with (8 + 8 * N.of_nat n) by lia.
  rewrite N.pow_add_r. reflexivity.
Qed.

Lemma pow2_pos n : 0 < 2 ^ n.
Proof. apply N.neq_0_lt_0, N.pow_nonzero. lia. Qed.

Lemma pow2_nz n : 2 ^ n <> 0.
Proof. apply N.pow_nonzero. lia. Qed.

Lemma from_le_lt bs : from_le bs < 2 ^ (8 * N.of_nat (length bs)).
Proof.
  induction bs as [|b bs IH]; cbn [from_le length].
  - reflexivity.
  - rewrite pow_succ8. pose proof (b2n_lt b). nia.
Qed.

Lemma to_le_length n x : length (to_le n x) = n.
Proof. revert x; induction n; intros; cbn; auto. Qed.

Lemma to_le_from_le bs : to_le (length bs) (from_le bs) = bs.
Proof.
  induction bs as [|b bs IH]; cbn [from_le to_le length]; auto.
  pose proof (b2n_lt b). f_equal.
  - rewrite <- n2b_mod. replace ((b2n b + 256 * from_le bs) mod 256) with (b2n b).
    + apply n2b_b2n.
    + rewrite N.mul_comm, N.mod_add, N.mod_small; lia.
  - replace ((b2n b + 256 * from_le bs) / 256) with (from_le bs); auto.
    rewrite N.mul_comm, N.div_add, N.div_small; lia.
Qed.

Lemma from_le_to_le n x : from_le (to_le n x) = x mod 2 ^ (8 * N.of_nat n).
Proof.
  revert x; induction n as [|n IH]; intros x; cbn [from_le to_le].
  - change (2 ^ (8 * N.of_nat 0)) with 1. rewrite N.mod_1_r. reflexivity.
  - rewrite IH, b2n_n2b, pow_succ8.
    rewrite (N.mod_mul_r x 256) by (try apply pow2_nz; lia). reflexivity.
Qed.

Lemma from_le_inj a b : length a = length b -> from_le a = from_le b -> a = b.
Proof. intros L H. rewrite <- (to_le_from_le a), <- (to_le_from_le b), L, H. reflexivity. Qed.

Lemma to_le_inj n x y : x < 2 ^ (8 * N.of_nat n) -> y < 2 ^ (8 * N.of_nat n) ->
  to_le n x = to_le n y -> x = y.
Proof.
  intros Hx Hy H. apply (f_equal from_le) in H. rewrite !from_le_to_le in H.
  rewrite !N.mod_small in H; auto.
Qed.

Lemma to_le_mod n x : to_le n (x mod 2 ^ (8 * N.of_nat n)) = to_le n x.
Proof.
  apply from_le_inj. { rewrite !to_le_length. auto. }
  rewrite !from_le_to_le, N.mod_mod by apply pow2_nz. reflexivity.
Qed.

Lemma from_le_app a b : from_le (a ++ b) = from_le a + 2 ^ (8 * N.of_nat (length a)) * from_le b.
Proof.
  induction a as [|x a IH]; cbn [from_le app length].
  - change (8 * N.of_nat 0) with 0. rewrite N.pow_0_r. lia.
  - rewrite IH, pow_succ8. ring.
Qed.

Lemma from_le_zeros n : from_le (repeat x00 n) = 0.
Proof. induction n as [|n IH]; auto. cbn [repeat from_le]. rewrite IH. reflexivity. Qed.

(** *** Bits *)
Lemma testbit_lt_false x k n : x < 2 ^ k -> k <= n -> N.testbit x n = false.
Proof.
  intros Hx Hn. destruct (N.eq_dec x 0) as [->|Nz]; [apply N.bits_0|].
  apply N.bits_above_log2. apply N.log2_lt_pow2 in Hx; lia.
Qed.

Lemma testbit_add_mul x k y n : x < 2 ^ k ->
  N.testbit (x + 2 ^ k * y) n = if n <? k then N.testbit x n else N.testbit y (n - k).
Proof.
  intros Hx. destruct (N.ltb_spec n k).
  - rewrite <- (N.mod_pow2_bits_low (x + 2 ^ k * y) k n) by auto.
    rewrite N.mul_comm, N.mod_add, N.mod_small by (auto using pow2_nz). reflexivity.
  - replace n with ((n - k) + k) at 1 by lia.
    rewrite <- N.div_pow2_bits.
    rewrite N.mul_comm, N.div_add, N.div_small by (auto using pow2_nz).
    rewrite N.add_0_l. reflexivity.
Qed.

Definition bitop (f : N -> N -> N) (g : bool -> bool -> bool) : Prop :=
  g false false = false /\ forall x y n, N.testbit (f x y) n = g (N.testbit x n) (N.testbit y n).

Lemma bitop_lxor : bitop N.lxor xorb.
Proof. split; auto. apply N.lxor_spec. Qed.
Lemma bitop_lor : bitop N.lor orb.
Proof. split; auto. apply N.lor_spec. Qed.
Lemma bitop_land : bitop N.land andb.
Proof. split; auto. apply N.land_spec. Qed.
Lemma bitop_ldiff : bitop (fun x y => N.ldiff y x) (fun a b => b && negb a).
Proof. split; auto. intros. rewrite N.ldiff_spec. reflexivity. Qed.

Lemma bitop_lt f g x y k : bitop f g -> x < 2 ^ k -> y < 2 ^ k -> f x y < 2 ^ k.
Proof.
  intros [Hg Hf] Hx Hy. destruct (N.eq_dec (f x y) 0) as [->|Nz]; [apply pow2_pos|].
  apply N.log2_lt_pow2; [lia|].
  destruct (N.ltb_spec (N.log2 (f x y)) k) as [|Hle]; auto.
  exfalso. pose proof (N.bit_log2 (f x y) Nz) as B.
  rewrite Hf, (testbit_lt_false x k), (testbit_lt_false y k), Hg in B by auto.
  discriminate.
Qed.

Lemma bitop_split f g x1 y1 x2 y2 k : bitop f g -> x1 < 2 ^ k -> x2 < 2 ^ k ->
  f (x1 + 2 ^ k * y1) (x2 + 2 ^ k * y2) = f x1 x2 + 2 ^ k * f y1 y2.
Proof.
  intros B H1 H2. pose proof (bitop_lt f g x1 x2 k B H1 H2) as H.
  destruct B as [Hg Hf]. apply N.bits_inj. intros n.
  rewrite Hf, !testbit_add_mul by auto. destruct (n <? k); rewrite Hf; reflexivity.
Qed.

Lemma from_le_bitop f g a b : bitop f g -> length a = length b ->
  from_le (map (fun p => n2b (f (b2n (fst p)) (b2n (snd p)))) (combine a b))
  = f (from_le a) (from_le b).
Proof.
  intros B. revert b; induction a as [|x a IH]; intros [|y b] L; try discriminate.
  - cbn [from_le combine map]. destruct B as [Hg Hf]. apply N.bits_inj. intros n.
    rewrite Hf, N.bits_0, Hg. reflexivity.
  - cbn [from_le combine map fst snd]. injection L as L. rewrite IH by auto.
    rewrite b2n_n2b. change 256 with (2 ^ 8).
    rewrite (bitop_split f g) by (auto; apply b2n_lt).
    rewrite N.mod_small; auto. eapply bitop_lt; eauto; apply b2n_lt.
Qed.

Lemma lxor_lt k x y : x < 2 ^ k -> y < 2 ^ k -> N.lxor x y < 2 ^ k.
Proof. intros. eapply bitop_lt; eauto using bitop_lxor. Qed.

Lemma lor_add x y k : x < 2 ^ k -> N.lor x (2 ^ k * y) = x + 2 ^ k * y.
Proof.
  intros H.
  pose proof (bitop_split N.lor orb x 0 0 y k bitop_lor H (pow2_pos k)) as E.
  rewrite N.mul_0_r, N.add_0_r, N.add_0_l, N.lor_0_r, N.lor_0_l in E. exact E.
Qed.

(** *** Lists *)
Lemma set_length {A} (l : list A) i x : length (set l i x) = length l.
Proof. revert i; induction l; intros [|i]; cbn; auto. Qed.

Lemma nth_error_set {A} (l : list A) i j x :
  nth_error (set l i x) j = if Nat.eqb i j then (if Nat.ltb j (length l) then Some x else None)
                            else nth_error l j.
Proof.
  revert i j; induction l as [|y l IH]; intros i j; cbn [set length].
  - destruct (Nat.eqb_spec i j); auto. destruct j; auto.
  - destruct i, j; cbn [nth_error]; auto.
    rewrite IH. cbn. reflexivity.
Qed.

Lemma nth_set {A} (l : list A) i j x d :
  nth j (set l i x) d = if Nat.eqb i j && Nat.ltb j (length l) then x else nth j l d.
Proof.
  revert i j; induction l as [|y l IH]; intros i j; cbn [set length].
  - rewrite andb_comm. destruct j; auto.
  - destruct i, j; cbn [nth]; auto. rewrite IH. reflexivity.
Qed.

Lemma map_set {A B} (f : A -> B) l i x : map f (set l i x) = set (map f l) i (f x).
Proof. revert i; induction l; intros [|i]; cbn; f_equal; auto. Qed.

Lemma set_nth_error_same {A} (l : list A) i x : nth_error l i = Some x -> set l i x = l.
Proof.
  revert i; induction l as [|y l IH]; intros [|i]; cbn; try congruence.
  intros H. f_equal. auto.
Qed.

Lemma skipn_skipn_add {A} (l : list A) a b : skipn a (skipn b l) = skipn (b + a) l.
Proof.
  revert l; induction b as [|b IH]; intros l; auto.
  destruct l; cbn; auto. rewrite skipn_nil. reflexivity.
Qed.

Lemma firstn_skipn_length {A} (l : list A) n m : (m + n <= length l)%nat ->
  length (firstn n (skipn m l)) = n.
Proof. intros. rewrite firstn_length, skipn_length. lia. Qed.

Lemma nth_firstn_lt {A} (l : list A) n i d : (i < n)%nat -> nth i (firstn n l) d = nth i l d.
Proof.
  revert n i; induction l as [|x l IH]; intros [|n] [|i] H; cbn; auto; try lia.
  apply IH. lia.
Qed.

Lemma nth_skipn_add {A} (l : list A) n i d : nth i (skipn n l) d = nth (n + i) l d.
Proof.
  revert n; induction l as [|x l IH]; intros [|n]; cbn; auto. destruct i; auto.
Qed.

Lemma nth_map_seq {A} (f : nat -> A) a n i d : (i < n)%nat -> nth i (map f (seq a n)) d = f (a + i)%nat.
Proof.
  revert a i; induction n as [|n IH]; intros a [|i] H; cbn; try lia.
  - f_equal; lia.
  - rewrite IH by lia. f_equal; lia.
Qed.

(** *** Words *)
Lemma wmod_pos v : 0 < wmod v.
Proof. apply pow2_pos. Qed.
Lemma wmod_nz v : wmod v <> 0.
Proof. apply pow2_nz. Qed.
Lemma cmod_nz v : cmod v <> 0.
Proof. apply pow2_nz. Qed.
Lemma cmod_square v : cmod v = wmod v * wmod v.
Proof. unfold cmod, wmod. rewrite <- N.pow_add_r. f_equal. lia. Qed.
Lemma wbits_wbytes v : wbits v = 8 * N.of_nat (wbytes v).
Proof. destruct v; reflexivity. Qed.

Lemma wrapping_add_lt v x y : wrapping_add v x y < wmod v.
Proof. apply N.mod_lt, wmod_nz. Qed.

Lemma wrapping_add_3 v x y z :
  wrapping_add v (wrapping_add v x y) z = (x + y + z) mod wmod v.
Proof. unfold wrapping_add. rewrite N.add_mod_idemp_l by apply wmod_nz. reflexivity. Qed.
