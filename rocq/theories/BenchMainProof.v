(** Proofs about BenchMain.v for C55. *)
From Coq Require Import String Ascii.
From Coq Require Import Arith NArith ZArith List Bool Lia Permutation Sorted.
From Coq Require Import DecimalString DecimalN.
From Verif Require Import Base Lib ArgsSpec Args ArgsProof Bench BenchMain BenchMainSpec.
Import ListNotations.
Open Scope list_scope.
Open Scope N_scope.
Local Notation length := List.length.

(** ** Decimal numbers *)
Lemma acc_ge l : forall acc, (acc <= Pos.of_uint_acc l acc)%positive.
Proof. induction l; intros acc; cbn [Pos.of_uint_acc]; try lia; (etransitivity; [|apply IHl]; lia). Qed.
Lemma digits_step bits c x acc r :
  to_digit c = Some x -> acc * 10 + x < 2 ^ bits -> digits bits acc (String c r) = digits bits (acc * 10 + x) r.
Proof.
  intros D H. cbn [digits]. rewrite D. unfold checked.
  destruct (acc * 10 <? 2 ^ bits) eqn:E; [|apply N.ltb_ge in E; lia].
  destruct (acc * 10 + x <? 2 ^ bits) eqn:E'; [reflexivity|apply N.ltb_ge in E'; lia].
Qed.
Lemma digits_acc bits d : forall acc,
  N.pos (Pos.of_uint_acc d acc) < 2 ^ bits ->
  digits bits (N.pos acc) (NilEmpty.string_of_uint d) = Some (N.pos (Pos.of_uint_acc d acc)).
Proof.
  induction d as [|d IH|d IH|d IH|d IH|d IH|d IH|d IH|d IH|d IH|d IH]; intros acc H; cbn [Pos.of_uint_acc] in H |- *;
    cbn [NilEmpty.string_of_uint]; [reflexivity|..];
  (match type of H with context [Pos.of_uint_acc ?d ?a] =>
    pose proof (acc_ge d a) as G; specialize (IH a H); rewrite <- IH end);
  (erewrite digits_step; [|vm_compute; reflexivity|lia]; f_equal; lia).
Qed.
Lemma digits_uint bits d :
  N.of_uint d < 2 ^ bits -> digits bits 0 (NilEmpty.string_of_uint d) = Some (N.of_uint d).
Proof.
  unfold N.of_uint. induction d as [|d IH|d IH|d IH|d IH|d IH|d IH|d IH|d IH|d IH|d IH]; intros H;
    cbn [Pos.of_uint] in H |- *; cbn [NilEmpty.string_of_uint]; [reflexivity|..];
  (erewrite digits_step; [|vm_compute; reflexivity|]).
  1: exact (IH H).
  1: lia.
  all: try (match goal with |- digits _ _ _ = _ => etransitivity; [|apply digits_acc; exact H]; f_equal; lia end).
  all: match type of H with context [Pos.of_uint_acc ?d ?a] => pose proof (acc_ge d a) as G; lia end.
Qed.
Lemma to_uint_cons n : N.to_uint n <> Decimal.Nil.
Proof. destruct n as [|p]; [discriminate|]. apply DecimalPos.Unsigned.to_uint_nonnil. Qed.
Lemma dec_digits bits n : n < 2 ^ bits -> digits bits 0 (dec n) = Some n.
Proof.
  intros H. unfold dec, NilZero.string_of_uint. pose proof (to_uint_cons n) as C.
  destruct (N.to_uint n) eqn:E; [contradiction|..];
  (rewrite <- E; rewrite digits_uint; rewrite DecimalN.Unsigned.of_to; [reflexivity|exact H]).
Qed.
Lemma dec_first n : exists c r, dec n = String c r /\ digit c <> None.
Proof.
  unfold dec, NilZero.string_of_uint. pose proof (to_uint_cons n) as C.
  destruct (N.to_uint n) eqn:E; [contradiction|..]; cbn [NilEmpty.string_of_uint]; do 2 eexists; (split; [reflexivity|discriminate]).
Qed.
Lemma pow2_big n : n < 2 ^ N.succ (N.log2 n).
Proof. destruct (N.eq_dec n 0) as [->|]; [reflexivity|]. apply N.log2_spec. lia. Qed.
(** A printed number is its digits. *)
Lemma dec_all n : exists ds, all_digits (dec n) = Some ds /\ ds <> [] /\ decimal ds = n.
Proof.
  pose proof (dec_digits _ n (pow2_big n)) as D. rewrite digits_spec in D by (apply N.neq_0_lt_0, N.pow_nonzero; discriminate).
  destruct (dec_first n) as (c & r & E & F).
  destruct (all_digits (dec n)) as [ds|] eqn:A; [|discriminate].
  exists ds. split; [reflexivity|]. split.
  - intros ->. apply all_digits_nil in A. congruence.
  - cbv zeta in D. destruct (_ <? _) in D; [|discriminate]. injection D as D. lia.
Qed.
Lemma dec_from_str bits n : n < 2 ^ bits -> from_str bits (dec n) = Some n.
Proof.
  intros H. rewrite from_str_spec. unfold numeral. destruct (dec_first n) as (c & r & E & F).
  destruct (dec_all n) as (ds & A & NE & D).
  assert (B : (match dec n with String "+" r => r | _ => dec n end) = dec n).
  { rewrite E. destruct c as [[] [] [] [] [] [] [] []]; try reflexivity. exfalso; apply F; reflexivity. }
  rewrite B, A. destruct ds as [|d ds]; [contradiction|]. rewrite D.
  destruct (n <? 2 ^ bits) eqn:L; [reflexivity|apply N.ltb_ge in L; lia].
Qed.

(** ** trim *)
Lemma no_space c : digit c <> None -> is_space c = false.
Proof. destruct c as [[] [] [] [] [] [] [] []]; cbn; intros H; try reflexivity; exfalso; apply H; reflexivity. Qed.
Lemma trim_end_app s t : trim_end t = ""%string -> trim_end (s ++ t) = trim_end s.
Proof. intros H. induction s as [|c s IH]; cbn [String.append trim_end]; [exact H|]. rewrite IH. reflexivity. Qed.
Lemma all_digits_trim s ds : all_digits s = Some ds -> trim_end s = s.
Proof.
  revert ds. induction s as [|c s IH]; intros ds H; [reflexivity|]. cbn in H.
  destruct (digit c) as [d|] eqn:D; [|discriminate]. destruct (all_digits s) as [ds'|] eqn:A; [|discriminate].
  cbn [trim_end]. rewrite (IH _ eq_refl). destruct s; [|reflexivity]. rewrite no_space; [reflexivity|congruence].
Qed.
Lemma trim_dec n : trim (dec n ++ newline) = dec n.
Proof.
  unfold trim. destruct (dec_first n) as (c & r & E & F).
  assert (T : trim_start (dec n ++ newline) = (dec n ++ newline)%string).
  { rewrite E. cbn [String.append trim_start]. now rewrite (no_space c F). }
  rewrite T, trim_end_app by reflexivity. destruct (dec_all n) as (ds & A & _). exact (all_digits_trim _ _ A).
Qed.

Lemma is_space_in c : is_space c = true <-> In c [" "; "009"; "010"; "011"; "012"; "013"]%char.
Proof.
  split; [|intros H; cbn [In] in H; repeat destruct H as [<-|H]; try reflexivity; contradiction].
  destruct c as [[] [] [] [] [] [] [] []]; cbn [In]; intros H; try (vm_compute in H; discriminate H); tauto.
Qed.
Lemma blank_cons c s : blank (String c s) <-> is_space c = true /\ blank s.
Proof.
  unfold blank. rewrite is_space_in. cbn [list_ascii_of_string]. split.
  - intros H. split; [apply H; now left|]. intros d D. apply H. now right.
  - intros (C & H) d [<-|D]; [exact C|apply H, D].
Qed.
Lemma trim_start_split s : exists a, s = (a ++ trim_start s)%string /\ blank a.
Proof.
  induction s as [|c s (a & E & B)]; [exists ""%string; split; [reflexivity|intros c []]|]. cbn [trim_start].
  destruct (is_space c) eqn:S; [|exists ""%string; split; [reflexivity|intros d []]].
  exists (String c a). split; [cbn [String.append]; now rewrite <- E|]. apply blank_cons. now split.
Qed.
Lemma trim_end_split s : exists b, s = (trim_end s ++ b)%string /\ blank b.
Proof.
  induction s as [|c s (b & E & B)]; [exists ""%string; split; [reflexivity|intros c []]|]. cbn [trim_end].
  destruct (trim_end s) as [|d r] eqn:T.
  - cbn [String.append] in E. subst b. destruct (is_space c) eqn:S.
    + exists (String c s). split; [reflexivity|]. apply blank_cons. now split.
    + exists s. now split.
  - exists b. split; [cbn [String.append] in E |- *; now rewrite <- E|exact B].
Qed.
Lemma trim_start_blank a s : blank a -> trim_start (a ++ s) = trim_start s.
Proof.
  induction a as [|c a IH]; intros B; [reflexivity|]. apply blank_cons in B as (C & B). cbn [String.append trim_start].
  rewrite C. apply IH, B.
Qed.
Lemma trim_end_blank b : blank b -> trim_end b = ""%string.
Proof.
  induction b as [|c b IH]; intros B; [reflexivity|]. apply blank_cons in B as (C & B). cbn [trim_end]. now rewrite (IH B), C.
Qed.
(** What is parsed is the text without the white space around it. *)
Lemma tells_spec text n : from_str 128 (trim text) = Some n <-> tells text n.
Proof.
  rewrite from_str_spec. split.
  - intros H. destruct (trim_start_split text) as (a & E & A). destruct (trim_end_split (trim_start text)) as (b & F & B).
    exists a, (trim text), b. split; [unfold trim; now rewrite <- F|]. now repeat split.
  - intros (a & body & b & -> & A & B & H). rewrite <- H. f_equal. unfold trim. rewrite trim_start_blank by exact A.
    unfold numeral in H.
    assert (Q : exists sign rest ds, body = (sign ++ rest)%string /\ (sign = "" \/ sign = "+")%string /\
                 rest <> ""%string /\ all_digits rest = Some ds).
    { set (r := match body with String "+" r => r | _ => body end) in H.
      assert (X : (exists sign, body = (sign ++ r)%string /\ (sign = "" \/ sign = "+")%string)).
      { unfold r. destruct body as [|c s]; [exists ""%string; auto|].
        destruct c as [[] [] [] [] [] [] [] []]; try (exists ""%string; split; [reflexivity|now left]).
        exists "+"%string. split; [reflexivity|now right]. }
      destruct X as (sign & X & Y). destruct (all_digits r) as [[|d ds]|] eqn:AD; try discriminate.
      exists sign, r, (d :: ds). split; [exact X|]. split; [exact Y|]. split; [|exact AD]. intros E. rewrite E in AD. discriminate. }
    destruct Q as (sign & rest & ds & -> & SG & NE & AD).
    assert (C : exists c r, (sign ++ rest)%string = String c r /\ is_space c = false).
    { destruct SG as [->| ->]; [|exists "+"%char, rest; split; reflexivity].
      destruct rest as [|c r]; [contradiction|]. exists c, r. split; [reflexivity|]. apply no_space. cbn in AD.
      destruct (digit c); [discriminate|discriminate]. }
    destruct C as (c & r & C & NS).
    assert (T : trim_start ((sign ++ rest) ++ b) = ((sign ++ rest) ++ b)%string).
    { rewrite C. cbn [String.append trim_start]. now rewrite NS. }
    rewrite T, trim_end_app by apply trim_end_blank, B.
    pose proof (all_digits_trim _ _ AD) as TE. destruct SG as [->| ->]; [exact TE|].
    cbn [String.append trim_end]. rewrite TE. destruct rest; [contradiction|reflexivity].
Qed.

(** ** Rounding *)
Open Scope Z_scope.
Lemma nearest_ok a b : (0 < b)%N -> 2 * Z.abs (Z.of_N a - Z.of_N (nearest a b) * Z.of_N b) <= Z.of_N b.
Proof.
  intros B. unfold nearest. pose proof (N.div_mod' a b) as D. pose proof (N.mod_lt a b ltac:(lia)) as M.
  set (q := (a / b)%N) in *. set (r := (a mod b)%N) in *.
  assert (E : Z.of_N a = Z.of_N b * Z.of_N q + Z.of_N r) by lia. rewrite E. clear D E.
  assert (C1 : 2 * Z.of_N r <= Z.of_N b -> 2 * Z.abs (Z.of_N b * Z.of_N q + Z.of_N r - Z.of_N q * Z.of_N b) <= Z.of_N b).
  { intros. replace (_ - _) with (Z.of_N r) by ring. lia. }
  assert (C2 : Z.of_N b <= 2 * Z.of_N r -> 2 * Z.abs (Z.of_N b * Z.of_N q + Z.of_N r - Z.of_N (q + 1) * Z.of_N b) <= Z.of_N b).
  { intros. rewrite N2Z.inj_add. replace (_ - _) with (Z.of_N r - Z.of_N b) by ring. lia. }
  destruct (N.compare_spec (2 * r) b); [destruct (N.even q)|..]; first [apply C1; lia | apply C2; lia].
Qed.
Lemma nearest_mono a b a' b' : (0 < b)%N -> (0 < b')%N -> (a * b' <= a' * b)%N -> (nearest a b <= nearest a' b')%N.
Proof.
  intros B B' H. unfold nearest.
  pose proof (N.div_mod' a b) as D. pose proof (N.mod_lt a b ltac:(lia)) as M.
  pose proof (N.div_mod' a' b') as D'. pose proof (N.mod_lt a' b' ltac:(lia)) as M'.
  set (q := (a / b)%N) in *. set (r := (a mod b)%N) in *. set (q' := (a' / b')%N) in *. set (r' := (a' mod b')%N) in *.
  assert (Q : (q <= q')%N).
  { apply N.lt_succ_r. apply N.nle_gt. intros G. assert (N.succ q' * b * b' <= q * b * b')%N by (apply N.mul_le_mono_r, N.mul_le_mono_r, G). nia. }
  destruct (N.eq_dec q q') as [E|NE].
  - rewrite <- E in *. assert (R : (r * b' <= r' * b)%N) by nia.
    destruct (N.compare_spec (2 * r) b), (N.compare_spec (2 * r') b'); destruct (N.even q); try lia; nia.
  - destruct (N.compare_spec (2 * r) b), (N.compare_spec (2 * r') b'); destruct (N.even q), (N.even q'); lia.
Qed.

Lemma pow_N z : Z.of_N (2 ^ Z.to_N z) = 2 ^ Z.max 0 z.
Proof. rewrite N2Z.inj_pow. f_equal. lia. Qed.
Lemma pow_sum a b : 0 <= a -> 0 <= b -> 2 ^ a * 2 ^ b = 2 ^ (a + b).
Proof. intros. symmetry. now apply Z.pow_add_r. Qed.
(** A fraction of moderate size is rounded with a relative error of at most 1 in 2^24. *)
Lemma round_ok num den :
  (0 < num)%N -> (0 < den)%N -> (den <= num * 2 ^ 100)%N -> (num <= den * 2 ^ 120)%N ->
  exists m e, round_f32 num den = Finite m e /\
    let '(p, q) := fraction m e in
    (0 < p)%N /\ (0 < q)%N /\ 2 ^ 24 * Z.abs (Z.of_N num * Z.of_N q - Z.of_N den * Z.of_N p) <= Z.of_N num * Z.of_N q.
Proof.
  intros Hn Hd Hlo Hhi. unfold round_f32.
  destruct (N.eqb_spec num 0); [lia|].
  pose proof (N.log2_spec num Hn) as [N1 N2]. pose proof (N.log2_spec den Hd) as [D1 D2].
  set (ln := N.log2 num) in *. set (ld := N.log2 den) in *.
  set (k := Z.of_N ln - Z.of_N ld).
  assert (ZN1 : 2 ^ Z.of_N ln <= Z.of_N num) by (rewrite <- (N2Z.inj_pow 2); lia).
  assert (ZN2 : Z.of_N num < 2 * 2 ^ Z.of_N ln).
  { rewrite <- Z.pow_succ_r by lia. rewrite <- N2Z.inj_succ. rewrite <- (N2Z.inj_pow 2). lia. }
  assert (ZD1 : 2 ^ Z.of_N ld <= Z.of_N den) by (rewrite <- (N2Z.inj_pow 2); lia).
  assert (ZD2 : Z.of_N den < 2 * 2 ^ Z.of_N ld).
  { rewrite <- Z.pow_succ_r by lia. rewrite <- N2Z.inj_succ. rewrite <- (N2Z.inj_pow 2). lia. }
  (* the exponent is moderate *)
  assert (K1 : -102 <= k).
  { apply Z.nlt_ge. intros G. assert (E : 2 ^ Z.of_N ln * 2 ^ 102 <= 2 ^ Z.of_N ld).
    { rewrite pow_sum by lia. apply Z.pow_le_mono_r; lia. }
    assert (Z.of_N den <= Z.of_N num * 2 ^ 100) by lia. 
    assert (2 ^ 102 = 4 * 2 ^ 100) by reflexivity. nia. }
  assert (K2 : k <= 122).
  { apply Z.nlt_ge. intros G. assert (E : 2 ^ Z.of_N ld * 2 ^ 122 <= 2 ^ Z.of_N ln).
    { rewrite pow_sum by lia. apply Z.pow_le_mono_r; lia. }
    assert (Z.of_N num <= Z.of_N den * 2 ^ 120) by lia.
    assert (2 ^ 122 = 4 * 2 ^ 120) by reflexivity. nia. }
  (* the significand has at least 24 bits before rounding, and the value is below 2^123 *)
  set (below := if k <? 0 then (num * 2 ^ Z.to_N (- k) <? den)%N else (num <? den * 2 ^ Z.to_N k)%N).
  set (e := if below then k - 24 else k - 23).
  assert (E149 : Z.max (-149) e = e) by (unfold e; destruct below; lia). rewrite E149.
  set (a := if e <? 0 then (num * 2 ^ Z.to_N (- e))%N else num).
  set (b := if e <? 0 then den else (den * 2 ^ Z.to_N e)%N).
  assert (HM : (if e <? 0 then nearest (num * 2 ^ Z.to_N (- e)) den else nearest num (den * 2 ^ Z.to_N e)) = nearest a b).
  { unfold a, b. destruct (e <? 0); reflexivity. }
  rewrite HM.
  assert (B0 : (0 < b)%N).
  { unfold b. destruct (e <? 0); [exact Hd|]. apply N.mul_pos_pos; [exact Hd|]. apply N.neq_0_lt_0, N.pow_nonzero. discriminate. }
  assert (AB : 2 ^ 23 * Z.of_N b <= Z.of_N a).
  { (* num/den >= 2^(e+23) *)
    assert (W : 0 <= e + 23 -> Z.of_N den * 2 ^ (e + 23) <= Z.of_N num).
    { intros P. unfold e, below in *. destruct (k <? 0) eqn:KS.
      - apply Z.ltb_lt in KS. destruct (_ <? _)%N in P |- *; lia.
      - apply Z.ltb_ge in KS. destruct (N.ltb_spec num (den * 2 ^ Z.to_N k)) as [L|L].
        + replace (k - 24 + 23) with (k - 1) in * by lia.
          assert (X : 2 ^ Z.of_N ln = 2 ^ (k - 1) * (2 * 2 ^ Z.of_N ld)).
          { rewrite <- Z.pow_succ_r by lia. rewrite pow_sum by lia. f_equal. unfold k. lia. }
          pose proof (Z.pow_pos_nonneg 2 (k - 1) ltac:(lia) P). nia.
        + replace (k - 23 + 23) with k by lia. apply N2Z.inj_le in L. rewrite N2Z.inj_mul, pow_N in L.
          replace (Z.max 0 k) with k in L by lia. exact L. }
    assert (W' : e + 23 < 0 -> Z.of_N den <= Z.of_N num * 2 ^ (- (e + 23))).
    { intros P. unfold e, below in *. destruct (k <? 0) eqn:KS.
      - apply Z.ltb_lt in KS. destruct (N.ltb_spec (num * 2 ^ Z.to_N (- k)) den) as [L|L].
        + replace (- (k - 24 + 23)) with (1 - k) in * by lia.
          assert (X : 2 ^ Z.of_N ln * 2 ^ (1 - k) = 2 * 2 ^ Z.of_N ld).
          { rewrite <- Z.pow_succ_r by lia. rewrite pow_sum by lia. f_equal. unfold k. lia. }
          pose proof (Z.pow_pos_nonneg 2 (1 - k) ltac:(lia) ltac:(lia)). nia.
        + replace (- (k - 23 + 23)) with (- k) by lia. apply N2Z.inj_le in L. rewrite N2Z.inj_mul, pow_N in L.
          replace (Z.max 0 (- k)) with (- k) in L by lia. exact L.
      - apply Z.ltb_ge in KS. assert (k = 0) as K0 by (destruct (_ <? _)%N in P; lia). rewrite K0 in *.
        destruct (N.ltb_spec num (den * 2 ^ Z.to_N 0)) as [L|L]; [|lia].
        change (- (0 - 24 + 23)) with 1. assert (Z.of_N ln = Z.of_N ld) as EE by (unfold k in K0; lia). rewrite EE in *. lia. }
    unfold a, b. destruct (e <? 0) eqn:ES.
    - apply Z.ltb_lt in ES. rewrite N2Z.inj_mul, pow_N. replace (Z.max 0 (- e)) with (- e) by lia.
      destruct (Z_lt_le_dec (e + 23) 0) as [P|P].
      + replace (- e) with (- (e + 23) + 23) by lia. rewrite Z.pow_add_r by lia. specialize (W' P). nia.
      + specialize (W P). assert (X : 2 ^ (e + 23) * 2 ^ (- e) = 2 ^ 23) by (rewrite pow_sum by lia; f_equal; lia).
        pose proof (Z.pow_pos_nonneg 2 (- e) ltac:(lia) ltac:(lia)). nia.
    - apply Z.ltb_ge in ES. rewrite N2Z.inj_mul, pow_N. replace (Z.max 0 e) with e by lia.
      specialize (W ltac:(lia)). rewrite Z.pow_add_r in W by lia. lia. }
  pose proof (nearest_ok a b B0) as NR. set (m := nearest a b) in *.
  assert (M0 : (0 < m)%N).
  { destruct (N.eq_dec m 0) as [Z0|]; [|lia]. rewrite Z0 in NR. change (Z.of_N 0) with 0 in NR. lia. }
  assert (G : 2 ^ 24 * Z.abs (Z.of_N a - Z.of_N m * Z.of_N b) <= Z.of_N a) by lia.
  destruct (fraction m e) as [p q] eqn:F.
  assert (PQ : (0 < p)%N /\ (0 < q)%N /\
    2 ^ 24 * Z.abs (Z.of_N num * Z.of_N q - Z.of_N den * Z.of_N p) <= Z.of_N num * Z.of_N q).
  { unfold fraction in F. unfold a, b in G. destruct (e <? 0) eqn:ES; injection F as <- <-.
    - split; [exact M0|]. split; [apply N.neq_0_lt_0, N.pow_nonzero; discriminate|].
      rewrite N2Z.inj_mul in G. rewrite (Z.mul_comm (Z.of_N den)). exact G.
    - split; [apply N.mul_pos_pos; [exact M0|apply N.neq_0_lt_0, N.pow_nonzero; discriminate]|]. split; [reflexivity|].
      rewrite N2Z.inj_mul in G. change (Z.of_N 1) with 1. rewrite !N2Z.inj_mul, Z.mul_1_r.
      replace (Z.of_N den * (Z.of_N m * Z.of_N (2 ^ Z.to_N e))) with (Z.of_N m * (Z.of_N den * Z.of_N (2 ^ Z.to_N e))) by ring.
      exact G. }
  destruct PQ as (P0 & Q0 & PQ).
  destruct (N.leb_spec (2 ^ 128 * q) p) as [L|L].
  - exfalso. apply N2Z.inj_le in L. rewrite N2Z.inj_mul in L. apply N2Z.inj_le in Hhi. rewrite N2Z.inj_mul in Hhi.
    change (Z.of_N (2 ^ 128)) with (256 * 2 ^ 120) in L. change (Z.of_N (2 ^ 120)) with (2 ^ 120) in Hhi.
    set (T := 2 ^ 120) in *. assert (0 < T) by reflexivity.
    assert (Z.of_N den * Z.of_N p <= 2 * (Z.of_N num * Z.of_N q)) by lia.
    assert (Z.of_N den * (256 * T * Z.of_N q) <= 2 * (Z.of_N den * T * Z.of_N q)) by nia.
    assert (0 < Z.of_N den * T * Z.of_N q) by (apply Z.mul_pos_pos; [apply Z.mul_pos_pos|]; lia). lia.
  - exists m, e. split; [reflexivity|]. rewrite F. split; [exact P0|]. split; [exact Q0|exact PQ].
Qed.

(** ** Rates *)
Definition all_bytes : N := (N.of_nat WORKERS * N.of_nat OFFSET_PERIOD * BENCH_LEN)%N.
Lemma all_bytes_ok : Z.of_N all_bytes = bytes_timed.
Proof. reflexivity. Qed.
Lemma bytes_f32 : as_f32 all_bytes = Finite 12500000 12.
Proof. vm_compute. reflexivity. Qed.
Lemma rate_zero : rate_f32 0 all_bytes = Infinite.
Proof. vm_compute. reflexivity. Qed.
Lemma within (K u w : Z) : 0 <= K -> K * Z.abs (u - w) <= u -> u * (K - 1) <= w * K <= u * (K + 1).
Proof. intros HK H. destruct (Z.abs_spec (u - w)) as [[_ E]|[_ E]]; rewrite E in H; lia. Qed.
Lemma without (K u w : Z) : 0 <= K -> K * u <= (K + 3) * w -> (K - 3) * w <= K * u -> K * Z.abs (u - w) <= 3 * w.
Proof. intros HK H G. destruct (Z.abs_spec (u - w)) as [[_ E]|[_ E]]; rewrite E; lia. Qed.
Lemma two_roundings (K B ns q2 p2 q p : Z) :
  4 <= K -> 0 < B -> 0 < ns -> 0 < q2 -> 0 < p2 -> 0 < q -> 0 < p ->
  K * Z.abs (ns * q2 - p2) <= ns * q2 -> K * Z.abs (B * q2 * q - p2 * p) <= B * q2 * q ->
  K * Z.abs (p * ns - B * q) <= 3 * (B * q).
Proof.
  intros HK HB Hns Hq2 Hp2 Hq Hp H1 H2.
  apply within in H1; [|lia]. apply within in H2; [|lia]. destruct H1 as [A1 A2], H2 as [A3 A4].
  assert (U : ns * p * (K - 1) <= B * q * (K + 1)).
  { apply Z.mul_le_mono_pos_l with (p := q2); [exact Hq2|].
    assert (ns * q2 * (K - 1) * p <= p2 * K * p) by (apply Z.mul_le_mono_nonneg_r; lia).
    replace (q2 * (ns * p * (K - 1))) with (ns * q2 * (K - 1) * p) by ring.
    replace (q2 * (B * q * (K + 1))) with (B * q2 * q * (K + 1)) by ring.
    replace (p2 * p * K) with (p2 * K * p) in A4 by ring. lia. }
  assert (V : B * q * (K - 1) <= ns * p * (K + 1)).
  { apply Z.mul_le_mono_pos_l with (p := q2); [exact Hq2|].
    assert (p2 * K * p <= ns * q2 * (K + 1) * p) by (apply Z.mul_le_mono_nonneg_r; lia).
    replace (q2 * (ns * p * (K + 1))) with (ns * q2 * (K + 1) * p) by ring.
    replace (q2 * (B * q * (K - 1))) with (B * q2 * q * (K - 1)) by ring.
    replace (p2 * p * K) with (p2 * K * p) in A3 by ring. lia. }
  set (x := ns * p) in *. set (y := B * q) in *. assert (0 < y) by (apply Z.mul_pos_pos; lia).
  assert (0 < x) by (apply Z.mul_pos_pos; lia). replace (p * ns) with x by (unfold x; ring).
  assert (X1 : K * x <= (K + 3) * y).
  { apply Z.mul_le_mono_pos_l with (p := K - 1); [lia|].
    apply Z.le_trans with (K * (y * (K + 1))).
    { replace ((K - 1) * (K * x)) with (K * (x * (K - 1))) by ring. apply Z.mul_le_mono_nonneg_l; lia. }
    replace (K * (y * (K + 1))) with (y * (K * (K + 1))) by ring.
    replace ((K - 1) * ((K + 3) * y)) with (y * ((K - 1) * (K + 3))) by ring.
    apply Z.mul_le_mono_nonneg_l; lia. }
  assert (X2 : (K - 3) * y <= K * x).
  { apply Z.mul_le_mono_pos_l with (p := K + 1); [lia|].
    apply Z.le_trans with (K * (y * (K - 1))).
    2: { replace ((K + 1) * (K * x)) with (K * (x * (K + 1))) by ring. apply Z.mul_le_mono_nonneg_l; lia. }
    replace (K * (y * (K - 1))) with (y * (K * (K - 1))) by ring.
    replace ((K + 1) * ((K - 3) * y)) with (y * ((K + 1) * (K - 3))) by ring.
    apply Z.mul_le_mono_nonneg_l; lia. }
  apply without; [lia|exact X1|exact X2].
Qed.
Lemma rate_ok ns : (0 < ns)%N -> (ns < 2 ^ 101)%N ->
  exists m e, rate_f32 ns all_bytes = Finite m e /\
    let '(p, q) := fraction m e in
    (0 < p)%N /\ (0 < q)%N /\ 2 ^ 24 * Z.abs (Z.of_N p * Z.of_N ns - bytes_timed * Z.of_N q) <= 3 * (bytes_timed * Z.of_N q).
Proof.
  intros H0 H1. unfold rate_f32. rewrite bytes_f32.
  destruct (round_ok ns 1 H0 eq_refl) as (m2 & e2 & E2 & R2).
  { assert (1 <= 2 ^ 100)%N by (vm_compute; discriminate). nia. }
  { assert (2 ^ 101 <= 1 * 2 ^ 120)%N by (vm_compute; discriminate). lia. }
  unfold as_f32. rewrite E2. unfold div_f32.
  change (fraction 12500000 12) with (all_bytes, 1%N).
  destruct (fraction m2 e2) as [p2 q2] eqn:F2. destruct R2 as (P2 & Q2 & R2).
  destruct (N.eqb_spec p2 0); [lia|]. rewrite N.mul_1_l.
  rewrite Z.mul_1_l in R2.
  assert (BB : Z.of_N all_bytes = bytes_timed) by reflexivity.
  assert (I1 : Z.of_N p2 <= 2 * (Z.of_N ns * Z.of_N q2)) by lia.
  assert (I2 : Z.of_N ns * Z.of_N q2 <= 2 * Z.of_N p2) by lia.
  assert (B1 : 2 ^ 35 <= bytes_timed < 2 ^ 36) by (vm_compute; split; [discriminate|reflexivity]).
  destruct (round_ok (all_bytes * q2) p2) as (m & e & E & R).
  { apply N.mul_pos_pos; [reflexivity|exact Q2]. }
  { exact P2. }
  { apply N2Z.inj_le. rewrite !N2Z.inj_mul, BB. change (Z.of_N (2 ^ 100)) with (2 ^ 100).
    assert (Z.of_N ns < 2 ^ 101) by (change (2 ^ 101) with (Z.of_N (2 ^ 101)); lia).
    assert (2 ^ 35 * 2 ^ 100 <= bytes_timed * 2 ^ 100) by lia.
    assert (2 * 2 ^ 101 <= 2 ^ 35 * 2 ^ 100) by (vm_compute; discriminate).
    replace (bytes_timed * Z.of_N q2 * 2 ^ 100) with (bytes_timed * 2 ^ 100 * Z.of_N q2) by ring.
    assert (2 * (Z.of_N ns * Z.of_N q2) <= (2 * 2 ^ 101) * Z.of_N q2).
    { rewrite Z.mul_assoc. apply Z.mul_le_mono_nonneg_r; lia. }
    assert ((2 * 2 ^ 101) * Z.of_N q2 <= bytes_timed * 2 ^ 100 * Z.of_N q2) by (apply Z.mul_le_mono_nonneg_r; lia). lia. }
  { apply N2Z.inj_le. rewrite !N2Z.inj_mul, BB. change (Z.of_N (2 ^ 120)) with (2 ^ 120).
    assert (Z.of_N q2 <= 2 * Z.of_N p2) by nia.
    assert (bytes_timed * Z.of_N q2 <= 2 ^ 36 * (2 * Z.of_N p2)) by (apply Z.mul_le_mono_nonneg; lia).
    assert (2 ^ 36 * (2 * Z.of_N p2) <= Z.of_N p2 * 2 ^ 120); [|lia].
    replace (2 ^ 36 * (2 * Z.of_N p2)) with (Z.of_N p2 * 2 ^ 37) by ring.
    apply Z.mul_le_mono_nonneg_l; [lia|]. vm_compute; discriminate. }
  exists m, e. split; [exact E|]. destruct (fraction m e) as [p q]. destruct R as (P & Q & R).
  split; [exact P|]. split; [exact Q|].
  apply two_roundings with (q2 := Z.of_N q2) (p2 := Z.of_N p2); lia.
Qed.

(** ** What is shown *)
Lemma digit_char_ok d : digit (digit_char d) = Some (d mod 10)%N.
Proof.
  unfold digit_char. pose proof (N.mod_lt d 10 ltac:(discriminate)) as L. set (x := (d mod 10)%N) in *. clearbody x.
  destruct x as [|p]; [reflexivity|]. do 9 (destruct (Pos.eq_dec p 1) as [->|]; [reflexivity|]).
  destruct p as [[[[p|p|]|[p|p|]|]|[[p|p|]|[p|p|]|]|]|[[[p|p|]|[p|p|]|]|[[p|p|]|[p|p|]|]|]|]; try reflexivity; lia.
Qed.
Lemma shown_thousandths m e :
  let '(p, q) := fraction m e in thousandths (show_f32 (Finite m e)) (nearest (1000 * p) q).
Proof.
  unfold show_f32. destruct (fraction m e) as [p q]. set (t := nearest (1000 * p) q). clearbody t.
  destruct (dec_all (t / 1000)) as (di & A & NE & D).
  eexists (dec (t / 1000)), (String (digit_char (t / 100)) (String (digit_char (t / 10)) (String (digit_char t) ""))), di, _.
  split; [reflexivity|]. split; [exact A|]. cbn [all_digits]. rewrite !digit_char_ok. split; [reflexivity|].
  split; [exact NE|]. split; [reflexivity|].
  assert (S : forall l r, decimal (l ++ r) = (decimal l * 10 ^ N.of_nat (length r) + decimal r)%N).
  { clear. induction l as [|d l IH]; intros r; cbn [decimal app]; [reflexivity|]. rewrite IH, app_length, Nat2N.inj_add, N.pow_add_r. ring. }
  rewrite S, D. cbn [decimal length]. change (10 ^ N.of_nat 3)%N with 1000%N. change (10 ^ N.of_nat 2)%N with 100%N.
  change (10 ^ N.of_nat 1)%N with 10%N. change (10 ^ N.of_nat 0)%N with 1%N.
  assert (T1 : (t / 100 = 10 * (t / 1000) + (t / 100) mod 10)%N).
  { change 1000%N with (100 * 10)%N. rewrite <- N.div_div by discriminate. apply N.div_mod'. }
  assert (T2 : (t / 10 = 10 * (t / 100) + (t / 10) mod 10)%N).
  { change 100%N with (10 * 10)%N. rewrite <- N.div_div by discriminate. apply N.div_mod'. }
  pose proof (N.div_mod' t 10). lia.
Qed.
Lemma shown_close p q ns :
  (0 < q)%N -> 2 ^ 24 * Z.abs (Z.of_N p * Z.of_N ns - bytes_timed * Z.of_N q) <= 3 * (bytes_timed * Z.of_N q) ->
  close (nearest (1000 * p) q) ns.
Proof.
  intros Q R. unfold close. pose proof (nearest_ok (1000 * p) q Q) as T. set (t := nearest (1000 * p) q) in *.
  rewrite N2Z.inj_mul in T. change (Z.of_N 1000) with 1000 in T.
  generalize dependent (Z.of_N p). generalize dependent (Z.of_N t). clear t p.
  assert (Q' : 0 < Z.of_N q) by lia. generalize dependent (Z.of_N q). clear q Q. intros q q0 t p R T.
  pose proof (N2Z.is_nonneg ns) as NS. generalize dependent (Z.of_N ns). clear ns. intros ns R NS.
  apply Z.mul_le_mono_pos_l with (p := q); [exact q0|].
  assert (B0 : 0 < bytes_timed) by reflexivity. generalize dependent bytes_timed. intros B R B0.
  assert (S : q * Z.abs (t * ns - 1000 * B) <= ns * Z.abs (1000 * p - t * q) + 1000 * Z.abs (p * ns - B * q)).
  { rewrite <- (Z.abs_eq q) at 1 by lia. rewrite <- Z.abs_mul. rewrite <- (Z.abs_eq ns) at 2 by lia.
    rewrite <- Z.abs_mul. rewrite <- (Z.abs_eq 1000) at 3 by lia. rewrite <- Z.abs_mul.
    eapply Z.le_trans; [|rewrite Z.add_comm, <- (Z.abs_opp (ns * _)); apply Z.abs_triangle].
    apply Z.eq_le_incl. f_equal. ring. }
  assert (S2 : ns * (2 * Z.abs (1000 * p - t * q)) <= ns * q) by (apply Z.mul_le_mono_nonneg_l; lia).
  set (X := Z.abs (t * ns - 1000 * B)) in *. set (Y := Z.abs (1000 * p - t * q)) in *. set (W := Z.abs (p * ns - B * q)) in *.
  replace (q * (2 * 2 ^ 24 * X)) with (2 * 2 ^ 24 * (q * X)) by ring.
  replace (q * (2 ^ 24 * ns + 6 * 1000 * B)) with (2 ^ 24 * (ns * q) + 2000 * (3 * (B * q))) by ring.
  apply Z.le_trans with (2 * 2 ^ 24 * (ns * Y + 1000 * W)); [apply Z.mul_le_mono_nonneg_l; [discriminate|exact S]|].
  lia.
Qed.

(** ** One algorithm *)
Section Run.
Variables (dbg : bool) (processes : nat -> process) (times : nat -> algorithm -> N).
Hypothesis M : measurable times.
Local Open Scope N_scope.

Lemma short i f : times i f < 2 ^ 94.
Proof. eapply N.lt_trans; [apply M|]. vm_compute. reflexivity. Qed.
Lemma spent_bound f n : forall i, time_spent times f i n <= N.of_nat n * 2 ^ 94.
Proof.
  induction n as [|n IH]; intros i; cbn [time_spent]; [reflexivity|]. specialize (IH (S i)). pose proof (short i f).
  rewrite Nat2N.inj_succ, N.mul_succ_l. lia.
Qed.
Lemma ask_up name f i : get_hash_bench name = Ret f -> gives (processes i) (times i) -> ask processes name i = Ret (times i f).
Proof.
  intros G E. unfold ask. destruct (processes i) as [own|text| |]; cbn [gives] in E; try contradiction.
  - subst own. unfold worker. rewrite G. cbn [stdout]. rewrite trim_dec, dec_from_str; [reflexivity|].
    eapply N.lt_trans; [apply short|]. vm_compute. reflexivity.
  - now rewrite (proj2 (tells_spec text (times i f)) (E f)).
Qed.
Lemma ask_down name i : useless (processes i) -> ask processes name i = Panic.
Proof.
  intros D. unfold ask. destruct (processes i) as [own|text| |]; cbn [useless] in D; try reflexivity; [contradiction|].
  destruct (from_str 128 (trim text)) as [n|] eqn:E; [|reflexivity]. apply tells_spec in E. now apply D in E.
Qed.
Lemma ask_all_up name f n : get_hash_bench name = Ret f -> forall i total,
  (forall j, (i <= j < i + n)%nat -> gives (processes j) (times j)) ->
  total + N.of_nat n * 2 ^ 94 < 2 ^ 128 ->
  ask_all dbg processes name n i total = (Ret (total + time_spent times f i n), (i + n)%nat).
Proof.
  intros G. induction n as [|n IH]; intros i total U B; cbn [ask_all time_spent].
  - rewrite N.add_0_r, Nat.add_0_r. reflexivity.
  - rewrite (ask_up name f i G) by (apply U; lia). cbv zeta. pose proof (short i f) as SH.
    rewrite Nat2N.inj_succ, N.mul_succ_l in B.
    destruct (N.leb_spec (2 ^ 128) (total + times i f)) as [L|L]; [lia|]. rewrite andb_false_r.
    rewrite N.mod_small by exact L. rewrite IH; [|intros j J; apply U; lia|lia].
    rewrite N.add_assoc, Nat.add_succ_r. reflexivity.
Qed.
Lemma ask_all_down name f n : get_hash_bench name = Ret f -> forall i k total,
  (forall j, (i <= j < i + k)%nat -> gives (processes j) (times j)) -> (k < n)%nat ->
  useless (processes (i + k)%nat) -> total + N.of_nat n * 2 ^ 94 < 2 ^ 128 ->
  fst (ask_all dbg processes name n i total) = Panic.
Proof.
  intros G. induction n as [|n IH]; intros i k total U K D B; [lia|]. cbn [ask_all]. destruct k as [|k].
  - rewrite Nat.add_0_r in D. rewrite (ask_down name i D). reflexivity.
  - rewrite (ask_up name f i G) by (apply U; lia). cbv zeta. pose proof (short i f) as SH.
    rewrite Nat2N.inj_succ, N.mul_succ_l in B.
    destruct (N.leb_spec (2 ^ 128) (total + times i f)) as [L|L]; [lia|]. rewrite andb_false_r.
    rewrite N.mod_small by exact L. apply (IH (S i) k); [intros j J; apply U; lia|lia| |lia].
    replace (S i + k)%nat with (i + S k)%nat by lia. exact D.
Qed.
Lemma run_up name f i : get_hash_bench name = Ret f ->
  (forall j, (i <= j < i + 100)%nat -> gives (processes j) (times j)) ->
  run_algo dbg processes name i = (Ret (rate_f32 (time_spent times f i 100) all_bytes), (i + 100)%nat).
Proof.
  intros G U. unfold run_algo, WORKERS. rewrite (ask_all_up name f 100 G i 0 U) by (vm_compute; reflexivity).
  rewrite N.add_0_l. reflexivity.
Qed.
Lemma run_down name f i k : get_hash_bench name = Ret f -> (k < 100)%nat ->
  (forall j, (i <= j < i + k)%nat -> gives (processes j) (times j)) -> useless (processes (i + k)%nat) ->
  fst (run_algo dbg processes name i) = Panic.
Proof.
  intros G K U D. unfold run_algo, WORKERS. pose proof (ask_all_down name f 100 G i k 0 U K D ltac:(vm_compute; reflexivity)) as A.
  destruct (ask_all dbg processes name 100 i 0) as [o i']. cbn [fst] in A |- *. rewrite A. reflexivity.
Qed.
Lemma spent_101 f i : time_spent times f i 100 < 2 ^ 101.
Proof. eapply N.le_lt_trans; [apply spent_bound|]. vm_compute. reflexivity. Qed.
End Run.

(** ** The report *)
(** The line for an algorithm that took [ns]. *)
Definition value_of_rate (x : f32) : option N :=
  match x with Finite m e => let '(p, q) := fraction m e in Some (nearest (1000 * p) q) | _ => None end.
Definition line_of (name : string) (ns : N) : entry :=
  {| e_name := name; e_time := ns; e_shown := show_f32 (rate_f32 ns all_bytes); e_value := value_of_rate (rate_f32 ns all_bytes) |}.
Lemma line_shows name ns : (ns < 2 ^ 101)%N -> let x := line_of name ns in shows (e_time x) (e_shown x) (e_value x).
Proof.
  intros H. unfold line_of, e_time, e_shown, e_value. destruct (N.eq_dec ns 0) as [->|NZ].
  - rewrite rate_zero. split; reflexivity.
  - destruct (rate_ok ns ltac:(lia) H) as (m & e & E & R). rewrite E. cbn [value_of_rate].
    pose proof (shown_thousandths m e) as T. destruct (fraction m e) as [p q]. destruct R as (P & Q & R).
    split; [lia|]. split; [exact T|]. apply shown_close; assumption.
Qed.
Lemma rate_cases ns : (ns < 2 ^ 101)%N -> (ns = 0%N /\ rate_f32 ns all_bytes = Infinite) \/
  ((0 < ns)%N /\ exists m e, rate_f32 ns all_bytes = Finite m e /\
    let '(p, q) := fraction m e in
    (0 < p)%N /\ (0 < q)%N /\ 2 ^ 24 * Z.abs (Z.of_N p * Z.of_N ns - bytes_timed * Z.of_N q) <= 3 * (bytes_timed * Z.of_N q)).
Proof.
  intros H. destruct (N.eq_dec ns 0) as [->|NZ]; [left; split; [reflexivity|exact rate_zero]|right].
  split; [lia|]. apply rate_ok; [lia|exact H].
Qed.
Lemma order_times (K B px qx py qy tx ty : Z) :
  3 <= K -> 0 < B -> 0 < qx -> 0 < qy -> 0 < tx -> 0 < ty ->
  K * Z.abs (px * tx - B * qx) <= 3 * (B * qx) -> K * Z.abs (py * ty - B * qy) <= 3 * (B * qy) ->
  py * qx <= px * qy -> tx * (K - 3) <= ty * (K + 3).
Proof.
  intros HK HB Hqx Hqy Htx Hty Hx Hy L.
  assert (X : K * (px * tx) <= (K + 3) * (B * qx)).
  { destruct (Z.abs_spec (px * tx - B * qx)) as [[_ E]|[_ E]]; rewrite E in Hx; nia. }
  assert (Y : (K - 3) * (B * qy) <= K * (py * ty)).
  { destruct (Z.abs_spec (py * ty - B * qy)) as [[_ E]|[_ E]]; rewrite E in Hy; nia. }
  assert (W : 0 < B * qy * qx) by (apply Z.mul_pos_pos; [apply Z.mul_pos_pos|]; lia).
  apply Z.mul_le_mono_pos_l with (p := B * qy * qx); [exact W|].
  apply Z.le_trans with (tx * qx * (K * (py * ty))).
  { replace (B * qy * qx * (tx * (K - 3))) with (tx * qx * ((K - 3) * (B * qy))) by ring.
    apply Z.mul_le_mono_nonneg_l; [apply Z.mul_nonneg_nonneg; lia|exact Y]. }
  apply Z.le_trans with (ty * qy * (K * (px * tx))).
  { replace (tx * qx * (K * (py * ty))) with (K * tx * ty * (py * qx)) by ring.
    replace (ty * qy * (K * (px * tx))) with (K * tx * ty * (px * qy)) by ring.
    apply Z.mul_le_mono_nonneg_l; [|exact L]. apply Z.mul_nonneg_nonneg; [apply Z.mul_nonneg_nonneg|]; lia. }
  replace (B * qy * qx * (ty * (K + 3))) with (ty * qy * ((K + 3) * (B * qx))) by ring.
  apply Z.mul_le_mono_nonneg_l; [apply Z.mul_nonneg_nonneg; lia|exact X].
Qed.
Lemma line_order n n' a b : (a < 2 ^ 101)%N -> (b < 2 ^ 101)%N ->
  gt_f32 (rate_f32 b all_bytes) (rate_f32 a all_bytes) = false -> not_before (line_of n a) (line_of n' b).
Proof.
  intros HA HB. unfold not_before, line_of, e_value, e_time.
  destruct (rate_cases a HA) as [(-> & ->)|(A & m & e & -> & R)].
  { intros _. split; [exact I|]. apply N.le_0_l. }
  destruct (rate_cases b HB) as [(-> & ->)|(B & m' & e' & -> & R')]; [discriminate|].
  cbn [gt_f32 value_of_rate]. destruct (fraction m e) as [p q]. destruct (fraction m' e') as [p' q'].
  destruct R as (P & Q & R), R' as (P' & Q' & R'). intros G. apply N.ltb_ge in G. split.
  - apply nearest_mono; [assumption..|]. nia.
  - assert (Z.of_N a * (2 ^ 24 - 3) <= Z.of_N b * (2 ^ 24 + 3)); [|lia].
    eapply (order_times _ bytes_timed); [..|exact R|exact R'|]; lia.
Qed.
Lemma gt_irrefl x : gt_f32 x x = false.
Proof. destruct x as [m e| |]; try reflexivity. cbn. destruct (fraction m e). apply N.ltb_irrefl. Qed.
Lemma fraction_pos m e : (0 < snd (fraction m e))%N.
Proof. unfold fraction. destruct (e <? 0); [|reflexivity]. cbn [snd]. apply N.neq_0_lt_0, N.pow_nonzero. discriminate. Qed.
Lemma cross_lt (p q p' q' p'' q'' : N) : (0 < q)%N -> (0 < q')%N -> (0 < q'')%N ->
  (p' * q < p * q' -> p'' * q' < p' * q'' -> p'' * q < p * q'')%N.
Proof.
  intros Q Q' Q'' H G. apply N.mul_lt_mono_pos_l with (p := q'); [exact Q'|].
  apply N.lt_trans with (p' * q'' * q)%N; [|]; nia.
Qed.
Lemma cross_le (p q p' q' p'' q'' : N) : (0 < q)%N -> (0 < q')%N -> (0 < q'')%N ->
  (p * q' <= p' * q -> p' * q'' <= p'' * q' -> p * q'' <= p'' * q)%N.
Proof.
  intros Q Q' Q'' H G. apply N.mul_le_mono_pos_l with (p := q'); [exact Q'|].
  apply N.le_trans with (p' * q * q'')%N; [|]; nia.
Qed.
Lemma gt_trans x y z : gt_f32 x y = true -> gt_f32 y z = true -> gt_f32 x z = true.
Proof.
  destruct x as [m e| |], y as [m' e'| |], z as [m'' e''| |]; cbn; try congruence; try (now intros; destruct (fraction m' e')).
  pose proof (fraction_pos m e). pose proof (fraction_pos m' e'). pose proof (fraction_pos m'' e'').
  destruct (fraction m e) as [p q], (fraction m' e') as [p' q'], (fraction m'' e'') as [p'' q'']. cbn [snd] in *.
  rewrite !N.ltb_lt. now apply cross_lt.
Qed.
Lemma gt_neg x y z : x <> NaN -> y <> NaN -> z <> NaN -> gt_f32 x y = false -> gt_f32 y z = false -> gt_f32 x z = false.
Proof.
  destruct x as [m e| |], y as [m' e'| |], z as [m'' e''| |]; cbn; try congruence.
  pose proof (fraction_pos m e). pose proof (fraction_pos m' e'). pose proof (fraction_pos m'' e'').
  destruct (fraction m e) as [p q], (fraction m' e') as [p' q'], (fraction m'' e'') as [p'' q'']. cbn [snd] in *.
  rewrite !N.ltb_ge. intros _ _ _. intros A B. now apply (cross_le p q p' q' p'' q'').
Qed.
Lemma orders_rates (l : list (f32 * string)) : Forall (fun x => fst x <> NaN) l -> orders is_less l.
Proof.
  intros F. rewrite Forall_forall in F. unfold is_less. split; [|split].
  - intros. apply gt_irrefl.
  - intros x y z _ _ _. apply gt_trans.
  - intros x y z X Y Z. apply gt_neg; auto.
Qed.
Lemma rate_number ns : (ns < 2 ^ 101)%N -> rate_f32 ns all_bytes <> NaN.
Proof. intros H. destruct (rate_cases ns H) as [(_ & ->)|(_ & m & e & -> & _)]; discriminate. Qed.

(** ** The names *)
Lemma pad_blank c w : In c (list_ascii_of_string (pad "" w)) -> c = " "%char.
Proof. induction w as [|w IH]; cbn; [contradiction|]. intros [<-|H]; [reflexivity|now apply IH]. Qed.
Lemma pad_split s : forall w, exists k, pad s w = (s ++ pad "" k)%string /\ String.length (pad s w) = Nat.max (String.length s) w.
Proof.
  induction s as [|c s IH]; intros w.
  - exists w. split; [reflexivity|]. induction w as [|w IW]; [reflexivity|]. cbn [pad String.length] in *. rewrite IW. reflexivity.
  - destruct w as [|w]; [exists 0%nat; split; [symmetry; apply (append_nil_r (String c s))|cbn; lia]|].
    destruct (IH w) as (k & E & L). exists k. cbn [pad String.append String.length]. rewrite L, E. split; reflexivity.
Qed.
Lemma max_len : max_name_len = 21%nat.
Proof. reflexivity. Qed.
Lemma pad_name name f : In (name, f) ALGOS -> padded name (pad name max_name_len).
Proof.
  intros H. destruct (pad_split name max_name_len) as (k & E & L). exists (pad "" k). split; [exact E|]. split.
  - rewrite L, max_len. cbn in H. repeat (destruct H as [H|H]; [injection H as <- _; reflexivity|]). contradiction.
  - intros c. apply pad_blank.
Qed.

(** ** The loop over the algorithms *)
Lemma append_assoc (a b c : string) : ((a ++ b) ++ c = a ++ b ++ c)%string.
Proof. induction a as [|x a IH]; cbn; [reflexivity|now rewrite IH]. Qed.
Lemma concat_cons (s : string) (l : list string) : (String.concat "" (s :: l) = s ++ String.concat "" l)%string.
Proof. cbn. destruct l; [symmetry; apply append_nil_r|reflexivity]. Qed.
Section Loop.
Variables (dbg : bool) (processes : nat -> process) (times : nat -> algorithm -> N).
Hypothesis M : measurable times.

Fixpoint entries (algos : list (string * algorithm)) (i : nat) : list entry :=
  match algos with
  | [] => []
  | (name, f) :: r => line_of name (time_spent times f i 100) :: entries r (i + 100)
  end.
Definition proj (x : entry) : f32 * string := (rate_f32 (e_time x) all_bytes, e_name x).
Lemma entries_measured algos : forall i, measured times i algos (entries algos i).
Proof.
  induction algos as [|[name f] r IH]; intros i; cbn [entries]; constructor.
  - reflexivity.
  - reflexivity.
  - apply line_shows. apply spent_101, M.
  - apply IH.
Qed.
Lemma entries_lines algos : forall i, Forall (fun x => x = line_of (e_name x) (e_time x) /\ (e_time x < 2 ^ 101)%N) (entries algos i).
Proof.
  induction algos as [|[name f] r IH]; intros i; cbn [entries]; constructor; [|apply IH].
  split; [reflexivity|]. apply spent_101, M.
Qed.
Lemma entries_names algos : forall i, map e_name (entries algos i) = map fst algos.
Proof. induction algos as [|[name f] r IH]; intros i; cbn; [reflexivity|]. now rewrite IH. Qed.

Lemma run_all_up algos : (forall name f, In (name, f) algos -> get_hash_bench name = Ret f) -> forall i out acc,
  (forall j, (i <= j < i + 100 * length algos)%nat -> gives (processes j) (times j)) ->
  run_all dbg processes algos i out acc =
    ((out ++ first_part (entries algos i))%string, (i + 100 * length algos)%nat, Ret (acc ++ map proj (entries algos i))).
Proof.
  induction algos as [|[name f] r IH]; intros G i out acc U; cbn [run_all entries map length].
  - rewrite append_nil_r, app_nil_r, Nat.add_0_r. reflexivity.
  - rewrite (run_up dbg processes times M name f i) by first [apply G; now left | intros j J; apply U; cbn [length]; lia].
    rewrite IH; [|intros n g I; apply G; now right|intros j J; apply U; cbn [length]; lia].
    f_equal; [f_equal|].
    + unfold first_part. cbn [map]. rewrite concat_cons. cbn [e_name e_shown line_of]. rewrite !append_assoc. reflexivity.
    + lia.
    + rewrite <- app_assoc. reflexivity.
Qed.
Lemma run_all_down algos : (forall name f, In (name, f) algos -> get_hash_bench name = Ret f) -> forall i k out acc,
  (forall j, (i <= j < i + k)%nat -> gives (processes j) (times j)) -> useless (processes (i + k)%nat) ->
  (k < 100 * length algos)%nat ->
  exists xs name f rest i', algos = xs ++ (name, f) :: rest /\ length xs = (k / 100)%nat /\
  run_all dbg processes algos i out acc = ((out ++ first_part (entries xs i) ++ name ++ ": ")%string, i', Panic).
Proof.
  induction algos as [|[name f] r IH]; intros G i k out acc U D K; [cbn in K; lia|].
  cbn [run_all]. destruct (Nat.lt_ge_cases k 100) as [L|L].
  - pose proof (run_down dbg processes times M name f i k (G _ _ (or_introl eq_refl)) L U D) as R.
    destruct (run_algo dbg processes name i) as [o i']. cbn [fst] in R. subst o.
    exists [], name, f, r, i'. split; [reflexivity|]. split; [rewrite Nat.div_small by exact L; reflexivity|].
    f_equal.
  - rewrite (run_up dbg processes times M name f i) by first [apply G; now left | intros j J; apply U; lia].
    destruct (IH (fun n g I => G n g (or_intror I)) (i + 100)%nat (k - 100)%nat
      ((out ++ name ++ ": ") ++ show_f32 (rate_f32 (time_spent times f i 100) all_bytes) ++ newline)%string
      (acc ++ [(rate_f32 (time_spent times f i 100) all_bytes, name)])) as (xs & n & g & rest & i' & E & LX & R).
    { intros j J. apply U. lia. }
    { replace (i + 100 + (k - 100))%nat with (i + k)%nat by lia. exact D. }
    { cbn [length] in K. lia. }
    exists ((name, f) :: xs), n, g, rest, i'. split; [rewrite E; reflexivity|]. split.
    { cbn [length]. rewrite LX. replace k with (k - 100 + 1 * 100)%nat at 2 by lia. rewrite Nat.div_add by lia. lia. }
    rewrite R. f_equal. f_equal. unfold first_part. cbn [entries map]. rewrite concat_cons. cbn [e_name e_shown line_of].
    rewrite !append_assoc. reflexivity.
Qed.
End Loop.
Lemma sorted_entries (l : list entry) :
  Forall (fun x => x = line_of (e_name x) (e_time x) /\ (e_time x < 2 ^ 101)%N) l ->
  StronglySorted (fun x y => is_less y x = false) (map proj l) -> StronglySorted not_before l.
Proof.
  induction l as [|x l IH]; intros F S; [constructor|]. inversion F as [|? ? [Fx Bx] Fl]; subst. cbn [map] in S.
  apply StronglySorted_inv in S as [S1 S2]. constructor; [apply IH; assumption|].
  rewrite Forall_forall in S2, Fl |- *. intros y Y. destruct (Fl y Y) as [Fy By].
  rewrite Fx, Fy. apply line_order; [exact Bx|exact By|]. exact (S2 (proj y) (in_map proj l y Y)).
Qed.
