(** [utf8] recognises exactly the encodings of sequences of scalar values. *)
From Coq Require Import String Ascii.
From Coq Require Import Arith NArith ZArith List Bool Lia.
From Verif Require Import TextSpec Utf8.
Import ListNotations.
Open Scope N_scope.
Local Ltac dlia := zify; Z.to_euclidean_division_equations; lia.

Lemma code_of n : n < 256 -> N_of_ascii (ascii_of_N n) = n.
Proof. exact (N_ascii_embedding n). Qed.
Lemma code_bound a : N_of_ascii a < 256.
Proof. exact (N_ascii_bounded a). Qed.
Lemma of_code a n : N_of_ascii a = n -> ascii_of_N n = a.
Proof. intros <-. apply ascii_N_embedding. Qed.
Lemma within_iff lo x hi : within lo x hi = true <-> lo <= x <= hi.
Proof. unfold within. rewrite andb_true_iff, !N.leb_le. tauto. Qed.
Lemma encoded_cons c cs :
  encoded (c :: cs) = (string_of_list_ascii (map ascii_of_N (utf8_bytes c)) ++ encoded cs)%string.
Proof.
  unfold encoded. cbn [flat_map]. rewrite map_app.
  induction (map ascii_of_N (utf8_bytes c)) as [|a l IH]; [reflexivity|]. cbn. now rewrite IH.
Qed.
Lemma text_nil : text "".
Proof. exists []. split; [constructor|reflexivity]. Qed.
Lemma text_cons c s : scalar c -> text s -> text (string_of_list_ascii (map ascii_of_N (utf8_bytes c)) ++ s).
Proof. intros C (cs & F & ->). exists (c :: cs). split; [now constructor|]. symmetry. apply encoded_cons. Qed.

Lemma bytes_one c : c < 0x80 -> utf8_bytes c = [c].
Proof. intros H. unfold utf8_bytes. apply N.ltb_lt in H. now rewrite H. Qed.
Lemma bytes_two a b : 0xC2 <= a <= 0xDF -> 0x80 <= b <= 0xBF -> utf8_bytes ((a - 0xC0) * 64 + (b - 0x80)) = [a; b].
Proof.
  intros A B. unfold utf8_bytes, continuation. change (64 ^ 0) with 1.
  destruct (N.ltb_spec ((a - 0xC0) * 64 + (b - 0x80)) 0x80); [dlia|].
  destruct (N.ltb_spec ((a - 0xC0) * 64 + (b - 0x80)) 0x800); [|dlia].
  f_equal; [dlia|]. f_equal. rewrite N.div_1_r. dlia.
Qed.
Lemma bytes_three a b c : 0xE0 <= a <= 0xEF -> 0x80 <= b <= 0xBF -> 0x80 <= c <= 0xBF -> (a = 0xE0 -> 0xA0 <= b) ->
  utf8_bytes ((a - 0xE0) * 4096 + (b - 0x80) * 64 + (c - 0x80)) = [a; b; c].
Proof.
  intros A B C L. unfold utf8_bytes, continuation. set (x := (a - 0xE0) * 4096 + (b - 0x80) * 64 + (c - 0x80)).
  change (64 ^ 0) with 1. change (64 ^ 1) with 64. change (64 ^ 2) with 4096.
  assert (X : 0x800 <= x < 0x10000) by (subst x; destruct (N.eq_dec a 0xE0); [specialize (L e)|]; dlia).
  destruct (N.ltb_spec x 0x80); [dlia|]. destruct (N.ltb_spec x 0x800); [dlia|]. destruct (N.ltb_spec x 0x10000); [|dlia].
  f_equal; [subst x; dlia|]. f_equal; [subst x; dlia|]. f_equal. rewrite N.div_1_r. subst x; dlia.
Qed.
Lemma bytes_four a b c d : 0xF0 <= a <= 0xF4 -> 0x80 <= b <= 0xBF -> 0x80 <= c <= 0xBF -> 0x80 <= d <= 0xBF ->
  (a = 0xF0 -> 0x90 <= b) ->
  utf8_bytes ((a - 0xF0) * 262144 + (b - 0x80) * 4096 + (c - 0x80) * 64 + (d - 0x80)) = [a; b; c; d].
Proof.
  intros A B C D L. unfold utf8_bytes, continuation.
  set (x := (a - 0xF0) * 262144 + (b - 0x80) * 4096 + (c - 0x80) * 64 + (d - 0x80)).
  change (64 ^ 0) with 1. change (64 ^ 1) with 64. change (64 ^ 2) with 4096. change (64 ^ 3) with 262144.
  assert (X : 0x10000 <= x) by (subst x; destruct (N.eq_dec a 0xF0); [specialize (L e)|]; dlia).
  destruct (N.ltb_spec x 0x80); [dlia|]. destruct (N.ltb_spec x 0x800); [dlia|]. destruct (N.ltb_spec x 0x10000); [dlia|].
  f_equal; [subst x; dlia|]. f_equal; [subst x; dlia|]. f_equal; [subst x; dlia|]. f_equal. rewrite N.div_1_r. subst x; dlia.
Qed.

Lemma utf8_text_length n : forall s, (String.length s <= n)%nat -> utf8 s = true -> text s.
Proof.
  induction n as [|n IH]; intros s L U.
  { destruct s; [apply text_nil|cbn in L; dlia]. }
  destruct s as [|a s]; [apply text_nil|]. cbn [String.length] in L. cbn [utf8] in U.
  pose proof (code_bound a) as BA. destruct (N.leb_spec 128 (N_of_ascii a)) as [H|H].
  - unfold char_width in U.
    destruct (within 0xC2 (N_of_ascii a) 0xDF) eqn:W2.
    { destruct s as [|b s]; [discriminate|]. apply andb_true_iff in U as [Cb U].
      apply within_iff in W2, Cb. cbn [String.length] in L.
      pose proof (bytes_two _ _ W2 Cb) as E.
      assert (SC : scalar ((N_of_ascii a - 0xC0) * 64 + (N_of_ascii b - 0x80))) by (left; dlia).
      pose proof (text_cons _ s SC (IH s ltac:(dlia) U)) as T. rewrite E in T. cbn in T. now rewrite !ascii_N_embedding in T. }
    destruct (within 0xE0 (N_of_ascii a) 0xEF) eqn:W3.
    { destruct s as [|b [|c s]]; [discriminate|discriminate|]. rewrite !andb_true_iff in U. destruct U as [[Cb Cc] U].
      apply within_iff in W3, Cc. cbn [String.length] in L. unfold second_of_three in Cb. cbv zeta in Cb.
      rewrite !orb_true_iff, !andb_true_iff, !within_iff, !N.eqb_eq in Cb.
      assert (B : 0x80 <= N_of_ascii b <= 0xBF) by dlia. assert (Z : N_of_ascii a = 0xE0 -> 0xA0 <= N_of_ascii b) by dlia.
      pose proof (bytes_three _ _ _ W3 B Cc Z) as E.
      assert (SC : scalar ((N_of_ascii a - 0xE0) * 4096 + (N_of_ascii b - 0x80) * 64 + (N_of_ascii c - 0x80))).
      { unfold scalar. destruct (N.le_gt_cases (N_of_ascii a) 0xED); [left|right]; dlia. }
      pose proof (text_cons _ s SC (IH s ltac:(dlia) U)) as T. rewrite E in T. cbn in T. now rewrite !ascii_N_embedding in T. }
    destruct (within 0xF0 (N_of_ascii a) 0xF4) eqn:W4; [|discriminate].
    destruct s as [|b [|c [|d s]]]; try discriminate. rewrite !andb_true_iff in U. destruct U as [[[Cb Cc] Cd] U].
    apply within_iff in W4, Cc, Cd. cbn [String.length] in L. unfold second_of_four in Cb. cbv zeta in Cb.
    rewrite !orb_true_iff, !andb_true_iff, !within_iff, !N.eqb_eq in Cb.
    assert (B : 0x80 <= N_of_ascii b <= 0xBF) by dlia. assert (Z : N_of_ascii a = 0xF0 -> 0x90 <= N_of_ascii b) by dlia.
    pose proof (bytes_four _ _ _ _ W4 B Cc Cd Z) as E.
    assert (SC : scalar ((N_of_ascii a - 0xF0) * 262144 + (N_of_ascii b - 0x80) * 4096 + (N_of_ascii c - 0x80) * 64 + (N_of_ascii d - 0x80)))
      by (right; dlia).
    pose proof (text_cons _ s SC (IH s ltac:(dlia) U)) as T. rewrite E in T. cbn in T. now rewrite !ascii_N_embedding in T.
  - assert (SC : scalar (N_of_ascii a)) by (left; dlia).
    pose proof (text_cons (N_of_ascii a) s SC (IH s ltac:(dlia) U)) as T.
    rewrite (bytes_one (N_of_ascii a) H) in T. cbn in T. now rewrite ascii_N_embedding in T.
Qed.

Lemma utf8_ascii a s : N_of_ascii a < 128 -> utf8 (String a s) = utf8 s.
Proof. intros H. cbn [utf8]. destruct (N.leb_spec 128 (N_of_ascii a)); [dlia|reflexivity]. Qed.
Lemma utf8_step c s : scalar c -> utf8 (string_of_list_ascii (map ascii_of_N (utf8_bytes c)) ++ s) = utf8 s.
Proof.
  intros SC. unfold utf8_bytes, continuation. change (64 ^ 0) with 1. change (64 ^ 1) with 64. change (64 ^ 2) with 4096. change (64 ^ 3) with 262144.
  rewrite N.div_1_r.
  destruct (N.ltb_spec c 0x80) as [L1|L1].
  { cbn [map string_of_list_ascii append]. apply utf8_ascii. now rewrite code_of by dlia. }
  assert (W : forall lo x hi, lo <= x <= hi -> within lo x hi = true) by (intros; now apply within_iff).
  assert (Q : forall x, continues (ascii_of_N (0x80 + x mod 64)) = true).
  { intros x. unfold continues. rewrite code_of by dlia. apply W. dlia. }
  assert (Q0 : forall lo x hi, hi < x -> within lo x hi = false).
  { intros lo x hi H. destruct (within lo x hi) eqn:E; [|reflexivity]. apply within_iff in E. dlia. }
  destruct (N.ltb_spec c 0x800) as [L2|L2].
  { cbn [map string_of_list_ascii append utf8]. rewrite code_of by dlia.
    destruct (N.leb_spec 128 (0xC0 + c / 64)); [|dlia]. unfold char_width. rewrite (W 0xC2) by dlia. now rewrite Q. }
  destruct (N.ltb_spec c 0x10000) as [L3|L3].
  { cbn [map string_of_list_ascii append utf8]. rewrite code_of by dlia.
    destruct (N.leb_spec 128 (0xE0 + c / 4096)); [|dlia]. unfold char_width. rewrite (Q0 0xC2), (W 0xE0) by dlia. rewrite Q.
    assert (E : second_of_three (0xE0 + c / 4096) (ascii_of_N (0x80 + c / 64 mod 64)) = true).
    { unfold second_of_three. rewrite code_of by dlia. cbv zeta. rewrite !orb_true_iff, !andb_true_iff, !within_iff, !N.eqb_eq.
      destruct SC as [SC|SC]; dlia. }
    now rewrite E. }
  destruct SC as [SC|[SC1 SC2]]; [dlia|].
  cbn [map string_of_list_ascii append utf8]. rewrite code_of by dlia.
  destruct (N.leb_spec 128 (0xF0 + c / 262144)); [|dlia]. unfold char_width. rewrite (Q0 0xC2), (Q0 0xE0), (W 0xF0) by dlia. rewrite !Q.
  assert (E : second_of_four (0xF0 + c / 262144) (ascii_of_N (0x80 + c / 4096 mod 64)) = true).
  { unfold second_of_four. rewrite code_of by dlia. cbv zeta. rewrite !orb_true_iff, !andb_true_iff, !within_iff, !N.eqb_eq. dlia. }
  now rewrite E.
Qed.
Theorem utf8_spec s : utf8 s = true <-> text s.
Proof.
  split.
  - exact (utf8_text_length (String.length s) s (le_n _)).
  - intros (cs & F & ->). induction F as [|c cs C F IH]; [reflexivity|]. rewrite encoded_cons, utf8_step by exact C. exact IH.
Qed.

(** A character is one ASCII byte, or has no ASCII byte. *)
Lemma utf8_bytes_high c : scalar c -> 0x80 <= c -> Forall (fun b => 128 <= b < 256) (utf8_bytes c).
Proof.
  intros SC H. unfold utf8_bytes, continuation. change (64 ^ 0) with 1. change (64 ^ 1) with 64. change (64 ^ 2) with 4096. change (64 ^ 3) with 262144.
  rewrite N.div_1_r. destruct (N.ltb_spec c 0x80); [dlia|].
  destruct (N.ltb_spec c 0x800); [repeat constructor; dlia|]. destruct (N.ltb_spec c 0x10000); [repeat constructor; dlia|].
  destruct SC; repeat constructor; dlia.
Qed.
Lemma text_induction (P : string -> Prop) :
  P ""%string ->
  (forall a s, N_of_ascii a < 128 -> text s -> P s -> P (String a s)) ->
  (forall l s, Forall (fun a => 128 <= N_of_ascii a) l -> (forall s', text s' -> text (string_of_list_ascii l ++ s')) ->
     text s -> P s -> P (string_of_list_ascii l ++ s)%string) ->
  forall s, text s -> P s.
Proof.
  intros P0 P1 P2 s (cs & F & ->). induction F as [|c cs C F IH]; [exact P0|]. rewrite encoded_cons.
  assert (T : text (encoded cs)) by (exists cs; split; [exact F|reflexivity]).
  destruct (N.lt_ge_cases c 0x80) as [H|H].
  - rewrite (bytes_one c H). cbn. apply P1; [rewrite code_of by dlia; exact H|exact T|exact IH].
  - apply P2; [|intros s' T'; exact (text_cons c s' C T')|exact T|exact IH].
    apply Forall_map. apply Forall_impl with (2 := utf8_bytes_high c C H). intros b [B B']. now rewrite code_of.
Qed.
Lemma text_dec s : {text s} + {~ text s}.
Proof. destruct (utf8 s) eqn:E; [left; now apply utf8_spec|right]. rewrite <- utf8_spec. congruence. Qed.
