(** Hash values: equality and hexadecimal text. *)
From Coq Require Import String Ascii.
From Coq Require Import ZArith Arith NArith List Bool Lia ZifyBool ZifyNat ZifyN.
From Verif Require Import Base ByteLemmas Guts Portable KernelSpec Impl Lib StateProof ParamsProof.
From Verif Require Spec ApiSpec Machine.
Import ListNotations.
Open Scope list_scope.
Open Scope N_scope.
Local Notation length := List.length.

(** ** constant_time_eq *)
Lemma lor_fold_zero l : forall t, fold_left (fun t p => N.lor t (N.lxor (b2n (fst p)) (b2n (snd p)))) l t = 0 <->
  t = 0 /\ Forall (fun p => fst p = snd p) l.
Proof.
  induction l as [|[a b] l IH]; intros t; cbn [fold_left].
  - split; [intros; split; auto|intros []; auto].
  - rewrite IH. cbn [fst snd]. split.
    + intros [E F]. apply N.lor_eq_0_iff in E. destruct E as [-> E]. apply N.lxor_eq in E.
      split; auto. constructor; auto. cbn [fst snd].
      apply (f_equal Byte.of_N) in E. unfold b2n in E. rewrite !Byte.of_to_N in E. congruence.
    + intros [-> F]. inversion F; subst. cbn [fst snd] in *. subst. rewrite N.lxor_nilpotent. split; auto.
Qed.

Lemma combine_eq_forall {A} (a : list A) : forall b, length a = length b ->
  (Forall (fun p => fst p = snd p) (combine a b) <-> a = b).
Proof.
  induction a as [|x a IH]; intros [|y b] L; cbn in L; try discriminate.
  - split; auto. constructor.
  - cbn [combine]. split.
    + intros F. inversion F; subst. cbn in *. subst. f_equal. apply IH; auto.
    + intros E. injection E as -> ->. constructor; auto. apply IH; auto.
Qed.

Lemma constant_time_eq_iff a b : constant_time_eq a b = true <-> a = b.
Proof.
  unfold constant_time_eq. destruct (Nat.eqb_spec (length a) (length b)) as [L|L].
  - rewrite N.eqb_eq. split.
    + intros E. symmetry in E. apply lor_fold_zero in E. destruct E as [_ E]. apply combine_eq_forall; auto.
    + intros ->. symmetry. apply lor_fold_zero. split; auto. apply combine_eq_forall; auto.
  - split; [discriminate|]. intros ->. congruence.
Qed.

Lemma constant_time_eq_dec a b :
  constant_time_eq a b = if list_eq_dec Byte.byte_eq_dec a b then true else false.
Proof.
  pose proof (constant_time_eq_iff a b) as H. destruct (list_eq_dec _ a b) as [E|E].
  - apply H. exact E.
  - destruct (constant_time_eq a b); auto. exfalso. apply E. apply H. reflexivity.
Qed.

(** ** Hexadecimal *)
Definition hex_digit_ascii (n : N) : ascii := ascii_of_N (if N.ltb n 10 then 48 + n else 87 + n).

Lemma index_table_spec n : n < 16 -> index_table n = Ret (hex_digit_ascii n).
Proof.
  intros H. assert (E : In n (map N.of_nat (seq 0 16))).
  { apply in_map_iff. exists (N.to_nat n). split; [lia|]. apply in_seq. lia. }
  revert E. cbn [seq map N.of_nat Pos.of_succ_nat Pos.succ]. intros E.
  repeat (destruct E as [<-|E]; [reflexivity|]). destruct E.
Qed.

Definition hex_chars (bs : list byte) : list ascii :=
  flat_map (fun b => [hex_digit_ascii (b2n b / 16); hex_digit_ascii (b2n b mod 16)]) bs.

Lemma push_hex_spec v bs : forall s, (length s + 2 * length bs <= 2 * outbytes v)%nat ->
  push_hex v s bs = Ret (s ++ hex_chars bs).
Proof.
  induction bs as [|b bs IH]; intros s H.
  - cbn [push_hex hex_chars flat_map]. rewrite app_nil_r. reflexivity.
  - cbn [push_hex]. cbn [length] in H. pose proof (b2n_lt b) as B.
    rewrite N.shiftr_div_pow2. change (2 ^ 4) with 16. change 15 with (N.ones 4). rewrite N.land_ones. change (2 ^ 4) with 16.
    rewrite !index_table_spec by lia. cbn [bind]. unfold push_char.
    destruct (Nat.ltb_spec (length s) (2 * outbytes v)); [|lia]. cbn [bind].
    rewrite app_length. cbn [length].
    destruct (Nat.ltb_spec (length s + 1) (2 * outbytes v)); [|lia]. cbn [bind].
    rewrite IH by (rewrite !app_length; cbn [length]; lia). rewrite <- !app_assoc. reflexivity.
Qed.

Lemma concat_empty_cons s l : String.concat "" (s :: l) = (s ++ String.concat "" l)%string.
Proof.
  destruct l as [|t l]; cbn [String.concat].
  - induction s as [|a s IH]; auto. cbn. rewrite <- IH. reflexivity.
  - reflexivity.
Qed.

Lemma hex_chars_spec bs : string_of_list_ascii (hex_chars bs) = Machine.hex bs.
Proof.
  unfold Machine.hex. induction bs as [|b bs IH]; [reflexivity|].
  cbn [map]. rewrite concat_empty_cons, <- IH. reflexivity.
Qed.

Lemma bytes_to_hex_spec v bs : (length bs <= outbytes v)%nat -> bytes_to_hex v bs = Ret (Machine.hex bs).
Proof.
  intros H. unfold bytes_to_hex. rewrite push_hex_spec by (cbn [length]; lia). cbn [bind app].
  rewrite hex_chars_spec. reflexivity.
Qed.
