(** No eight bytes of the painted pattern occur twice: arithmetic on four-byte counters. *)
From Coq Require Import ZArith Arith NArith List Bool Lia ZifyBool ZifyNat ZifyN.
From Coq Require Import Init.Byte.
From Verif Require Import Base.
Import ListNotations.
Open Scope list_scope.
Open Scope N_scope.
Local Notation length := List.length.

(** ** What is painted *)
Definition D (c t : N) : N := (c / 256 ^ t) mod 256.
Definition B (o : N) : N := D (o / 4 + 1) (o mod 4).

Lemma D0 c : D c 0 = c mod 256. Proof. unfold D. rewrite N.div_1_r. reflexivity. Qed.
Lemma D1 c : D c 1 = (c / 256) mod 256. Proof. reflexivity. Qed.
Lemma D2 c : D c 2 = (c / 65536) mod 256. Proof. reflexivity. Qed.
Lemma D3 c : D c 3 = (c / 16777216) mod 256. Proof. reflexivity. Qed.
Lemma digits c : c < 4294967296 -> exists d0 d1 d2 d3, D c 0 = d0 /\ D c 1 = d1 /\ D c 2 = d2 /\ D c 3 = d3 /\
  d0 < 256 /\ d1 < 256 /\ d2 < 256 /\ d3 < 256 /\ c = d0 + 256 * d1 + 65536 * d2 + 16777216 * d3.
Proof.
  intros H. exists (c mod 256), ((c / 256) mod 256), ((c / 256 / 256) mod 256), (c / 256 / 256 / 256).
  rewrite D0, D1, D2, D3.
  change 65536 with (256 * 256). change 16777216 with (256 * 256 * 256). rewrite <- !N.div_div by lia.
  split; [reflexivity|]. split; [reflexivity|]. split; [reflexivity|].
  assert (c / 256 / 256 / 256 < 256) by (rewrite !N.div_div by lia; apply N.div_lt_upper_bound; lia).
  split; [apply N.mod_small; lia|].
  pose proof (N.mod_lt c 256). pose proof (N.mod_lt (c / 256) 256). pose proof (N.mod_lt (c / 256 / 256) 256).
  pose proof (N.div_mod c 256). pose proof (N.div_mod (c / 256) 256). pose proof (N.div_mod (c / 256 / 256) 256).
  repeat split; lia.
Qed.

Definition step (a0 a1 a2 a3 b0 b1 b2 b3 : N) : Prop :=
  (b0 = a0 + 1 /\ b1 = a1 /\ b2 = a2 /\ b3 = a3) \/
  (a0 = 255 /\ b0 = 0 /\ b1 = a1 + 1 /\ b2 = a2 /\ b3 = a3) \/
  (a0 = 255 /\ b0 = 0 /\ a1 = 255 /\ b1 = 0 /\ b2 = a2 + 1 /\ b3 = a3) \/
  (a0 = 255 /\ b0 = 0 /\ a1 = 255 /\ b1 = 0 /\ a2 = 255 /\ b2 = 0 /\ b3 = a3 + 1).
Lemma steps c : c + 1 < 4294967296 ->
  step (D c 0) (D c 1) (D c 2) (D c 3) (D (c + 1) 0) (D (c + 1) 1) (D (c + 1) 2) (D (c + 1) 3).
Proof.
  intros H. destruct (digits c) as (a0 & a1 & a2 & a3 & -> & -> & -> & -> & ? & ? & ? & ? & E); [lia|].
  destruct (digits (c + 1)) as (b0 & b1 & b2 & b3 & -> & -> & -> & -> & ? & ? & ? & ? & F); [lia|].
  rewrite E in F. clear E H. unfold step. lia.
Qed.
Lemma B_at a s k r : s = 4 * k + r -> r < 4 -> B (4 * a + s) = D (a + k + 1) r.
Proof.
  intros -> H. unfold B. replace (4 * a + (4 * k + r)) with (r + (a + k) * 4) by lia.
  rewrite N.div_add, N.mod_add, N.div_small, N.mod_small by lia. reflexivity.
Qed.

(** ** No eight bytes twice *)
Lemma window a r b q : r < 4 -> q < 4 -> 4 * a + r <> 4 * b + q ->
  a + (r + 7) / 4 + 1 < 4294967296 -> b + (q + 7) / 4 + 1 < 4294967296 ->
  (forall t, t < 8 -> B (4 * a + (r + t)) = B (4 * b + (q + t))) -> False.
Proof.
  intros Hr Hq Hn La Lb H.
  pose proof (H 0 ltac:(lia)) as H0. pose proof (H 1 ltac:(lia)) as H1. pose proof (H 2 ltac:(lia)) as H2. pose proof (H 3 ltac:(lia)) as H3.
  pose proof (H 4 ltac:(lia)) as H4. pose proof (H 5 ltac:(lia)) as H5. pose proof (H 6 ltac:(lia)) as H6. pose proof (H 7 ltac:(lia)) as H7.
  clear H.
  assert (R : r = 0 \/ r = 1 \/ r = 2 \/ r = 3) by lia. assert (Q : q = 0 \/ q = 1 \/ q = 2 \/ q = 3) by lia.
  assert (E : forall s x, s < 12 -> B (4 * x + s) = D (x + s / 4 + 1) (s mod 4)).
  { intros s x Hs. apply B_at; [apply N.div_mod; lia|apply N.mod_lt; lia]. }
  rewrite !E in H0, H1, H2, H3, H4, H5, H6, H7 by lia. clear E.
  assert (SA : step (D (a + 0 + 1) 0) (D (a + 0 + 1) 1) (D (a + 0 + 1) 2) (D (a + 0 + 1) 3)
                    (D (a + 1 + 1) 0) (D (a + 1 + 1) 1) (D (a + 1 + 1) 2) (D (a + 1 + 1) 3)).
  { replace (a + 1 + 1) with (a + 0 + 1 + 1) by lia. apply steps. lia. }
  assert (SB : step (D (b + 0 + 1) 0) (D (b + 0 + 1) 1) (D (b + 0 + 1) 2) (D (b + 0 + 1) 3)
                    (D (b + 1 + 1) 0) (D (b + 1 + 1) 1) (D (b + 1 + 1) 2) (D (b + 1 + 1) 3)).
  { replace (b + 1 + 1) with (b + 0 + 1 + 1) by lia. apply steps. lia. }
  assert (SA' : r <> 0 -> step (D (a + 1 + 1) 0) (D (a + 1 + 1) 1) (D (a + 1 + 1) 2) (D (a + 1 + 1) 3)
                    (D (a + 2 + 1) 0) (D (a + 2 + 1) 1) (D (a + 2 + 1) 2) (D (a + 2 + 1) 3)).
  { intros NR. replace (a + 2 + 1) with (a + 1 + 1 + 1) by lia. apply steps. lia. }
  assert (SB' : q <> 0 -> step (D (b + 1 + 1) 0) (D (b + 1 + 1) 1) (D (b + 1 + 1) 2) (D (b + 1 + 1) 3)
                    (D (b + 2 + 1) 0) (D (b + 2 + 1) 1) (D (b + 2 + 1) 2) (D (b + 2 + 1) 3)).
  { intros NR. replace (b + 2 + 1) with (b + 1 + 1 + 1) by lia. apply steps. lia. }
  assert (WA : exists d0 d1 d2 d3, D (a + 0 + 1) 0 = d0 /\ D (a + 0 + 1) 1 = d1 /\ D (a + 0 + 1) 2 = d2 /\ D (a + 0 + 1) 3 = d3 /\
    d0 < 256 /\ d1 < 256 /\ d2 < 256 /\ d3 < 256 /\ a + 0 + 1 = d0 + 256 * d1 + 65536 * d2 + 16777216 * d3) by (apply digits; lia).
  assert (WB : exists d0 d1 d2 d3, D (b + 0 + 1) 0 = d0 /\ D (b + 0 + 1) 1 = d1 /\ D (b + 0 + 1) 2 = d2 /\ D (b + 0 + 1) 3 = d3 /\
    d0 < 256 /\ d1 < 256 /\ d2 < 256 /\ d3 < 256 /\ b + 0 + 1 = d0 + 256 * d1 + 65536 * d2 + 16777216 * d3) by (apply digits; lia).
  destruct WA as (a0 & a1 & a2 & a3 & A0 & A1 & A2 & A3 & ? & ? & ? & ? & EA).
  destruct WB as (b0 & b1 & b2 & b3 & B0 & B1 & B2 & B3 & ? & ? & ? & ? & EB).
  rewrite A0, A1, A2, A3 in SA. rewrite B0, B1, B2, B3 in SB.
  assert (T : forall c k, D c k < 256) by (intros c k; apply N.mod_lt; lia).
  pose proof (T (a + 1 + 1) 0). pose proof (T (a + 1 + 1) 1). pose proof (T (a + 1 + 1) 2). pose proof (T (a + 1 + 1) 3).
  pose proof (T (b + 1 + 1) 0). pose proof (T (b + 1 + 1) 1). pose proof (T (b + 1 + 1) 2). pose proof (T (b + 1 + 1) 3).
  pose proof (T (a + 2 + 1) 0). pose proof (T (a + 2 + 1) 1). pose proof (T (a + 2 + 1) 2). pose proof (T (a + 2 + 1) 3).
  pose proof (T (b + 2 + 1) 0). pose proof (T (b + 2 + 1) 1). pose proof (T (b + 2 + 1) 2). pose proof (T (b + 2 + 1) 3).
  clear T La Lb Hr Hq.
  destruct R as [->|[->|[->| ->]]], Q as [->|[->|[->| ->]]].
  all: cbn in H0, H1, H2, H3, H4, H5, H6, H7.
  all: rewrite ?A0, ?A1, ?A2, ?A3, ?B0, ?B1, ?B2, ?B3 in *.
  all: clear A0 A1 A2 A3 B0 B1 B2 B3.
  all: try specialize (SA' ltac:(discriminate)); try specialize (SB' ltac:(discriminate)).
  all: match type of SA' with step _ _ _ _ _ _ _ _ => idtac | _ => clear SA' end.
  all: match type of SB' with step _ _ _ _ _ _ _ _ => idtac | _ => clear SB' end.
  all: repeat match goal with X : context [D ?c ?k] |- _ => let d := fresh "d" in set (d := D c k) in *; clearbody d end.
  all: unfold step in *; subst.
  all: repeat match goal with X : _ \/ _ |- _ => destruct X as [X|X]; try lia end.
Qed.
