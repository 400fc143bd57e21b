(** Which files of vectors the tests accept. *)
From Coq Require Import String Ascii.
From Coq Require Import Arith NArith List Bool Lia ZifyN ZifyNat.
From Coq Require Import Init.Byte.
From Verif Require Import Base ByteLemmas Guts KernelSpec Impl Loops Lib Par Bin BinSpec BinProof Xof XofSpec XofProof Machine Suite SuiteProof Sneves
  PropXof PropSuite PropSneves Api Vectors.
From Verif Require Import Spec ApiSpec.
Import ListNotations.
Open Scope list_scope.
Open Scope N_scope.
Local Notation length := List.length.

Lemma unwrap_hex_is s : unwrap_hex s = match hex_bytes s with Some b => Ret b | None => Panic end.
Proof. unfold unwrap_hex. rewrite hex_decode_spec. destruct (hex_bytes s); reflexivity. Qed.
Lemma hex_encode_is bs : hex_encode bs = hex bs.
Proof.
  unfold hex. induction bs as [|b bs IH]; [reflexivity|]. cbn [hex_encode map]. rewrite HashProof.concat_empty_cons, <- IH.
  destruct b; reflexivity.
Qed.
Lemma hex_bytes_length : forall s b, hex_bytes s = Some b -> String.length s = (2 * length b)%nat.
Proof.
  assert (G : forall n s b, (String.length s <= n)%nat -> hex_bytes s = Some b -> String.length s = (2 * length b)%nat).
  { induction n as [|n IH]; intros [|a [|c r]] b L; cbn [hex_bytes String.length] in *; try lia; try discriminate;
      try (intros H; injection H as <-; reflexivity).
    destruct (hex_letter a) as [x|]; [|discriminate]. destruct (hex_letter c) as [y|]; [|discriminate].
    destruct (hex_bytes r) as [bs|] eqn:E; [|discriminate]. destruct (Byte.of_N (16 * x + y)); [|discriminate].
    intros H. injection H as <-. cbn [List.length]. rewrite (IH r bs ltac:(lia) E). lia. }
  intros s b. apply (G (String.length s)). lia.
Qed.

Definition named (name : string) (c : test_case) : bool := String.eqb (tc_hash c) name.
Lemma vector_loop_is name body : forall cases n m,
  vector_loop name body cases n = Ret m <->
  (forall c, In c cases -> tc_hash c = name -> body c = Ret tt) /\ m = n + N.of_nat (length (filter (named name) cases)).
Proof.
  induction cases as [|c cases IH]; intros n m; cbn [vector_loop filter].
  - split; [intros H; injection H as <-; split; [intros c []|cbn; lia]|]. intros [_ ->]. f_equal. cbn. lia.
  - unfold named at 1. destruct (String.eqb_spec (tc_hash c) name) as [E|E].
    + destruct (body c) as [[]| | |] eqn:B; cbn [bind].
      2-4: split; [discriminate|]; intros [H _]; rewrite (H c (or_introl eq_refl) E) in B; discriminate B.
      rewrite IH. cbn [List.length]. split; intros [H ->].
      * split; [|lia]. intros d [<-|I]; auto.
      * split; [|lia]. intros d I. apply H. right. exact I.
    + rewrite IH. split; intros [H ->]; split; auto; intros d.
      * intros [<-|I]; [congruence|auto].
      * intros I. apply H. right. exact I.
Qed.
Lemma assert_true b : assert_ b = Ret tt <-> b = true.
Proof. destruct b; cbn; split; auto; discriminate. Qed.
Lemma bind_unit {A} (o : outcome A) (f : A -> outcome unit) : bind o f = Ret tt <-> exists a, o = Ret a /\ f a = Ret tt.
Proof. destruct o; cbn; split; try discriminate; try (intros (x & H & _); discriminate H); eauto. intros (x & H & K). injection H as <-. exact K. Qed.

Lemma decoded_case_is body c :
  decoded_case body c = Ret tt <->
  exists input key, hex_bytes (tc_in c) = Some input /\ hex_bytes (tc_key c) = Some key /\ body input key (tc_out c) = Ret tt.
Proof.
  unfold decoded_case. rewrite !unwrap_hex_is.
  assert (K : (if String.eqb (tc_key c) "" then Ret [] else match hex_bytes (tc_key c) with Some b => Ret b | None => Panic end) =
    match hex_bytes (tc_key c) with Some b => Ret b | None => Panic end).
  { destruct (String.eqb_spec (tc_key c) "") as [->|]; reflexivity. }
  rewrite K. destruct (hex_bytes (tc_in c)) as [i|]; cbn [bind]; [|split; [discriminate|intros (? & ? & H & _); discriminate H]].
  destruct (hex_bytes (tc_key c)) as [k|]; cbn [bind]; [|split; [discriminate|intros (? & ? & _ & H & _); discriminate H]].
  split; [eauto|]. intros (? & ? & H1 & H2 & H3). injection H1 as <-. injection H2 as <-. exact H3.
Qed.
Lemma vectors_is name body cases :
  vectors name body cases = Ret tt <->
  N.of_nat (length (filter (named name) cases)) = 512 /\
  forall c, In c cases -> tc_hash c = name -> exists input key,
    hex_bytes (tc_in c) = Some input /\ hex_bytes (tc_key c) = Some key /\ body input key (tc_out c) = Ret tt.
Proof.
  unfold vectors. rewrite bind_unit. split.
  - intros (m & E & A). apply vector_loop_is in E as [H ->]. apply assert_true, N.eqb_eq in A. split; [lia|].
    intros c I N. apply decoded_case_is. auto.
  - intros [L H]. exists 512. split; [|reflexivity]. apply vector_loop_is. split; [|lia].
    intros c I N. apply decoded_case_is. auto.
Qed.

Section Cases.
Variables (v : variant) (e : env) (imp : platform).
Hypothesis Su : supported e imp.

Lemma vector_key_too_long input key out : (max_out (fl v) < length key)%nat ->
  vector_case v e imp input key out = Panic /\ p_vector_case v e imp input key out = Panic /\
  x_vector_case v e imp input key out = Panic.
Proof.
  intros L. assert (Lg : legal (fl v) (Key key) = false) by (cbn [legal]; apply Nat.leb_gt; exact L).
  assert (Lp : plegal (fl v) (PKey key) = false) by (cbn [plegal]; apply Nat.leb_gt; exact L).
  pose proof (Laws.setter_refuses v (Key key) (params_new v imp) Lg) as R. pose proof (Laws.psetter_refuses v (PKey key) (pparams_new v imp) Lp) as RP.
  cbn [Api.call_setter Api.call_psetter] in *. destruct key as [|b key]; [cbn in L; lia|].
  unfold vector_case, p_vector_case, x_vector_case, Par.run, xof, h0_hasher, hasher. cbn [chain Api.call_setter]. rewrite R, RP. auto.
Qed.
Lemma eqb_sym_verdict (a b : string) (o : outcome unit) : (if String.eqb a b then Ret tt else Panic) = Ret tt <-> b = a.
Proof. destruct (String.eqb_spec a b); split; congruence || (intros; discriminate). Qed.

Lemma vector_right input key out : N.of_nat (length input) < 2 ^ 63 ->
  vector_case v e imp input key out = Ret tt <->
  (length key <= max_out (fl v))%nat /\ out = hex (digest (fl v) (configure (fl v) [Key key] (default_config (fl v))) input).
Proof.
  intros B. destruct (Nat.leb_spec (length key) (max_out (fl v))) as [L|L].
  - rewrite (proj1 (C50_vectors v e imp input key out Su L B)). rewrite (eqb_sym_verdict _ _ (Ret tt)). tauto.
  - rewrite (proj1 (vector_key_too_long input key out L)). split; [discriminate|lia].
Qed.
Lemma p_vector_right input key out : N.of_nat (length input) < 2 ^ 63 ->
  p_vector_case v e imp input key out = Ret tt <->
  (length key <= max_out (fl v))%nat /\ out = hex (blake2p (fl v) (max_out (fl v)) key input).
Proof.
  intros B. destruct (Nat.leb_spec (length key) (max_out (fl v))) as [L|L].
  - rewrite (proj1 (proj2 (C50_vectors v e imp input key out Su L B))). rewrite (eqb_sym_verdict _ _ (Ret tt)). tauto.
  - rewrite (proj1 (proj2 (vector_key_too_long input key out L))). split; [discriminate|lia].
Qed.
Lemma x_vector_right input key out : N.of_nat (String.length out) < xof_limit (fl v) ->
  x_vector_case v e imp input key out = Ret tt <->
  (length key <= max_out (fl v))%nat /\ out = hex (blake2x (fl v) (Nat.div (String.length out) 2) key input).
Proof.
  intros B. destruct (Nat.leb_spec (length key) (max_out (fl v))) as [L|L].
  - assert (B' : N.of_nat (Nat.div (String.length out) 2) < xof_limit (fl v)).
    { eapply N.le_lt_trans; [|exact B]. pose proof (Nat.div_le_upper_bound (String.length out) 2 (String.length out)). lia. }
    unfold x_vector_case. rewrite (proj1 (C48_blake2x v e imp _ key input Su L B')). cbn [bind].
    rewrite assert_true, hex_encode_is, String.eqb_eq. tauto.
  - rewrite (proj2 (proj2 (vector_key_too_long input key out L))). split; [discriminate|lia].
Qed.
End Cases.

(** *** The vendored C library *)
Definition unkeyed (c : test_case) : bool :=
  String.eqb (tc_key c) "" &&
  (String.eqb (tc_hash c) "blake2b" || String.eqb (tc_hash c) "blake2bp" || String.eqb (tc_hash c) "blake2sp").
Definition c_answer (c : test_case) (input : list byte) : list byte :=
  if String.eqb (tc_hash c) "blake2b" then rfc7693 F2b 64 [] input
  else if String.eqb (tc_hash c) "blake2bp" then blake2p F2b 64 [] input
  else blake2p F2s 32 [] input.

Lemma sneves_loop_is p t e junk : honest t e -> avx2_detected t = true -> (forall n i, length (junk n i) = n) ->
  forall cases n m, (forall c, In c cases -> N.of_nat (String.length (tc_in c)) < 2 ^ 63) ->
  sneves_loop p t e junk cases n = Ret m <->
  (forall c, In c cases -> exists input output, hex_bytes (tc_in c) = Some input /\ hex_bytes (tc_out c) = Some output /\
     (unkeyed c = true -> output = c_answer c input)) /\
  m = n + N.of_nat (length (filter unkeyed cases)).
Proof.
  intros H D J. induction cases as [|c cases IH]; intros n m SZ; cbn [sneves_loop filter].
  { split; [intros X; injection X as <-; split; [intros c []|cbn; lia]|]. intros [_ ->]. f_equal. cbn. lia. }
  assert (SZ' : forall d, In d cases -> N.of_nat (String.length (tc_in d)) < 2 ^ 63) by (intros d I; apply SZ; right; exact I).
  rewrite !unwrap_hex_is. destruct (hex_bytes (tc_in c)) as [i|] eqn:EI; cbn [bind].
  2:{ split; [discriminate|]. intros [X _]. destruct (X c (or_introl eq_refl)) as (? & ? & Y & _). rewrite EI in Y. discriminate Y. }
  destruct (hex_bytes (tc_out c)) as [o|] eqn:EO; cbn [bind].
  2:{ split; [discriminate|]. intros [X _]. destruct (X c (or_introl eq_refl)) as (? & ? & _ & Y & _). rewrite EO in Y. discriminate Y. }
  assert (S : slice_sized i).
  { unfold slice_sized. pose proof (SZ c (or_introl eq_refl)) as B. rewrite (hex_bytes_length _ _ EI) in B. lia. }
  assert (SKIP : unkeyed c = false -> (sneves_loop p t e junk cases n = Ret m <->
    (forall d, In d (c :: cases) -> exists input output, hex_bytes (tc_in d) = Some input /\ hex_bytes (tc_out d) = Some output /\
      (unkeyed d = true -> output = c_answer d input)) /\ m = n + N.of_nat (length (filter unkeyed cases)))).
  { intros U. rewrite (IH n m SZ'). split; intros [X ->]; split; auto.
    - intros d [<-|I]; [|auto]. exists i, o. split; [exact EI|]. split; [exact EO|]. congruence.
    - intros d I. apply X. right. exact I. }
  assert (RUN : forall found, unkeyed c = true -> found = Ret (c_answer c i) ->
    (do f <- found; do _ <- assert_bytes o f; sneves_loop p t e junk cases (n + 1)) = Ret m <->
    (forall d, In d (c :: cases) -> exists input output, hex_bytes (tc_in d) = Some input /\ hex_bytes (tc_out d) = Some output /\
      (unkeyed d = true -> output = c_answer d input)) /\ m = n + N.of_nat (length (c :: filter unkeyed cases))).
  { intros found U ->. cbn [bind]. unfold assert_bytes. destruct (list_eq_dec Byte.byte_eq_dec o (c_answer c i)) as [Y|Y]; cbn [assert_ bind].
    - rewrite (IH (n + 1) m SZ'). cbn [List.length]. split; intros [X ->].
      + split; [|lia]. intros d [<-|I]; [|auto]. exists i, o. auto.
      + split; [|lia]. intros d I. apply X. right. exact I.
    - split; [discriminate|]. intros [X _]. destruct (X c (or_introl eq_refl)) as (i' & o' & A & B & C).
      rewrite EI in A. rewrite EO in B. injection A as <-. injection B as <-. exfalso. apply Y, C, U. }
  unfold unkeyed in *. unfold c_answer in RUN at 1.
  destruct (String.eqb (tc_key c) "") eqn:EK; cbn [negb andb] in *; [|apply SKIP; reflexivity].
  destruct (String.eqb_spec (tc_hash c) "blake2b") as [E1|E1]; cbn [orb] in *.
  { apply RUN; [reflexivity|]. apply C54_blake2b; auto. }
  destruct (String.eqb_spec (tc_hash c) "blake2bp") as [E2|E2]; cbn [orb] in *.
  { apply RUN; [reflexivity|]. apply C54_blake2bp; auto. }
  destruct (String.eqb_spec (tc_hash c) "blake2sp") as [E3|E3]; cbn [orb] in *.
  { apply RUN; [reflexivity|]. apply C54_blake2sp; auto. }
  apply SKIP. reflexivity.
Qed.
