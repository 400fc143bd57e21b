(** What the intrinsics do to the lanes of a register. *)
From Coq Require Import ZArith Arith NArith List Bool Lia ZifyBool ZifyNat ZifyN.
From Verif Require Import Base ByteLemmas Guts Portable Intrinsics KernelSpec.
Import ListNotations.
Open Scope N_scope.

Lemma bytes_length r off n : length (bytes r off n) = n.
Proof. unfold bytes. rewrite map_length, seq_length. reflexivity. Qed.

Lemma bytes_firstn r off n : (off + n <= length r)%nat -> bytes r off n = firstn n (skipn off r).
Proof.
  intros H. apply (nth_ext _ _ x00 x00).
  - rewrite bytes_length, firstn_skipn_length; auto.
  - rewrite bytes_length. intros i Hi. unfold bytes.
    rewrite nth_map_seq, nth_firstn_lt, nth_skipn_add by auto. reflexivity.
Qed.

Lemma lane_mod_wmod v : lane_mod (wbytes v) = wmod v.
Proof. destruct v; reflexivity. Qed.

Lemma lane_lt w r i : lane w r i < lane_mod w.
Proof.
  unfold lane, lane_mod. pose proof (from_le_lt (bytes r (i * w) w)) as H.
  rewrite bytes_length in H. exact H.
Qed.

Lemma from_lanes_length w ls : length (from_lanes w ls) = (length ls * w)%nat.
Proof.
  unfold from_lanes. induction ls; cbn; auto. rewrite app_length, to_le_length, IHls. lia.
Qed.

Lemma from_lanes_skipn w ls i : skipn (i * w) (from_lanes w ls) = from_lanes w (skipn i ls).
Proof.
  revert i. induction ls as [|x ls IH]; intros [|i]; auto.
  - cbn [from_lanes flat_map skipn]. apply skipn_nil.
  - cbn [skipn]. rewrite <- IH. unfold from_lanes. cbn [flat_map].
    rewrite skipn_app, to_le_length.
    rewrite skipn_all2 by (rewrite to_le_length; lia).
    replace (S i * w - w)%nat with (i * w)%nat by lia. reflexivity.
Qed.

Lemma bytes_from_lanes w ls i : (i < length ls)%nat ->
  bytes (from_lanes w ls) (i * w) w = to_le w (nth i ls 0).
Proof.
  intros H. rewrite bytes_firstn.
  - rewrite from_lanes_skipn. unfold from_lanes.
    rewrite <- (Nat.add_0_r i) at 2. rewrite <- nth_skipn_add.
    destruct (skipn i ls) eqn:E.
    + apply (f_equal (@length N)) in E. rewrite skipn_length in E. cbn in E. lia.
    + cbn [flat_map nth]. rewrite firstn_app, to_le_length, Nat.sub_diag, firstn_O, app_nil_r.
      apply firstn_all2. rewrite to_le_length. auto.
  - rewrite from_lanes_length. nia.
Qed.

Lemma lane_from_lanes w ls i : (i < length ls)%nat ->
  lane w (from_lanes w ls) i = nth i ls 0 mod lane_mod w.
Proof. intros H. unfold lane. rewrite bytes_from_lanes by auto. apply from_le_to_le. Qed.

Lemma lane_map_lanes w n f a i : (i < n)%nat ->
  lane w (map_lanes w n f a) i = f (lane w a i) mod lane_mod w.
Proof.
  intros H. unfold map_lanes. rewrite lane_from_lanes by (rewrite map_length, seq_length; auto).
  rewrite nth_map_seq by auto. reflexivity.
Qed.

Lemma lane_map2_lanes w n f a b i : (i < n)%nat ->
  lane w (map2_lanes w n f a b) i = f (lane w a i) (lane w b i) mod lane_mod w.
Proof.
  intros H. unfold map2_lanes. rewrite lane_from_lanes by (rewrite map_length, seq_length; auto).
  rewrite nth_map_seq by auto. reflexivity.
Qed.

Lemma lane_mod_nz w : lane_mod w <> 0.
Proof. apply pow2_nz. Qed.

Lemma lane_add w n a b i : (i < n)%nat ->
  lane w (add_lanes w n a b) i = (lane w a i + lane w b i) mod lane_mod w.
Proof.
  intros H. unfold add_lanes. rewrite lane_map2_lanes, N.mod_mod by auto using lane_mod_nz.
  reflexivity.
Qed.

Lemma lane_eq w n a b i : (i < n)%nat ->
  lane w (cmpeq_lanes w n a b) i = if N.eqb (lane w a i) (lane w b i) then lane_mod w - 1 else 0.
Proof.
  intros H. unfold cmpeq_lanes. rewrite lane_map2_lanes by auto.
  pose proof (lane_mod_nz w).
  destruct (N.eqb _ _); rewrite N.mod_small; lia.
Qed.

Lemma lane_srli w n a k i : (i < n)%nat ->
  lane w (srli_lanes w n a k) i = N.shiftr (lane w a i) k.
Proof.
  intros H. unfold srli_lanes. rewrite lane_map_lanes by auto. apply N.mod_small.
  rewrite N.shiftr_div_pow2. pose proof (lane_lt w a i).
  eapply N.le_lt_trans; [|eassumption].
  apply N.div_le_upper_bound; [apply pow2_nz|]. pose proof (pow2_pos k). nia.
Qed.

Lemma lane_slli w n a k i : (i < n)%nat ->
  lane w (slli_lanes w n a k) i = N.shiftl (lane w a i) k mod lane_mod w.
Proof.
  intros H. unfold slli_lanes. rewrite lane_map_lanes by auto.
  apply N.mod_mod, lane_mod_nz.
Qed.

Lemma lane_set1 w n x i : (i < n)%nat -> x < lane_mod w -> lane w (set1_lanes w n x) i = x.
Proof.
  intros H Hx. unfold set1_lanes. rewrite lane_from_lanes by (rewrite repeat_length; auto).
  rewrite (nth_indep _ 0 x) by (rewrite repeat_length; auto). rewrite nth_repeat.
  apply N.mod_small; auto.
Qed.

Lemma getb_bitwise n f a b k : (k < n)%nat ->
  getb (bitwise n f a b) k = n2b (f (b2n (getb a k)) (b2n (getb b k))).
Proof. intros H. unfold getb at 1, bitwise. rewrite nth_map_seq by auto. reflexivity. Qed.

Lemma combine_map_same {A B C} (f : A -> B) (g : A -> C) l :
  combine (map f l) (map g l) = map (fun x => (f x, g x)) l.
Proof. induction l; cbn; congruence. Qed.

Lemma lane_bitwise f g w n a b i : bitop f g -> (S i * w <= n)%nat ->
  lane w (bitwise n f a b) i = f (lane w a i) (lane w b i).
Proof.
  intros B H. unfold lane. rewrite <- (from_le_bitop f g) by (auto; rewrite !bytes_length; auto).
  f_equal. unfold bytes. rewrite combine_map_same, map_map. apply map_ext_in.
  intros k Hk. apply in_seq in Hk. cbn [fst snd]. apply getb_bitwise. lia.
Qed.

Lemma lane_xor w n a b i : (S i * w <= n)%nat ->
  lane w (bitwise n N.lxor a b) i = N.lxor (lane w a i) (lane w b i).
Proof. apply (lane_bitwise _ _ _ _ _ _ _ bitop_lxor). Qed.
Lemma lane_or w n a b i : (S i * w <= n)%nat ->
  lane w (bitwise n N.lor a b) i = N.lor (lane w a i) (lane w b i).
Proof. apply (lane_bitwise _ _ _ _ _ _ _ bitop_lor). Qed.
Lemma lane_and w n a b i : (S i * w <= n)%nat ->
  lane w (bitwise n N.land a b) i = N.land (lane w a i) (lane w b i).
Proof. apply (lane_bitwise _ _ _ _ _ _ _ bitop_land). Qed.
Lemma lane_andnot w n a b i : (S i * w <= n)%nat ->
  lane w (bitwise n (fun x y => N.ldiff y x) a b) i = N.ldiff (lane w b i) (lane w a i).
Proof. apply (lane_bitwise (fun x y => N.ldiff y x) _ _ _ _ _ _ bitop_ldiff). Qed.

(** The rotations written with two shifts and an or. *)
Lemma lane_rot v n m a k i : (i < n)%nat -> (S i * wbytes v <= m)%nat ->
  lane (wbytes v)
    (bitwise m N.lor (srli_lanes (wbytes v) n a k) (slli_lanes (wbytes v) n a (wbits v - k))) i
  = rotate_right v (lane (wbytes v) a i) k.
Proof.
  intros H H'. rewrite lane_or, lane_srli, lane_slli by auto.
  rewrite lane_mod_wmod. reflexivity.
Qed.

(** Lanes as a list. *)
Definition lanes (w n : nat) (r : reg) : list N := map (lane w r) (seq 0 n).

Lemma lanes_ok v n r : wordsn v n (lanes (wbytes v) n r).
Proof.
  unfold lanes. split; [rewrite map_length, seq_length; auto|].
  apply Forall_map, Forall_forall. intros i _. rewrite <- lane_mod_wmod. apply lane_lt.
Qed.

Lemma store_load_words v ws n : wordsn v n ws ->
  lanes (wbytes v) n (load_words (wbytes v) ws) = ws.
Proof.
  intros [L H]. unfold lanes, load_words. apply (nth_ext _ _ 0 0).
  - rewrite map_length, seq_length. auto.
  - rewrite map_length, seq_length. intros i Hi. rewrite nth_map_seq by auto. cbn [Nat.add].
    rewrite lane_from_lanes by lia. apply N.mod_small. rewrite lane_mod_wmod.
    apply Forall_nth_lt; auto.
Qed.
