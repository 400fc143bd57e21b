(** C50: the tests that run over the file of recorded vectors pass exactly on the files that hold 512 entries of
    their function (768 for the vendored C library), every one of them with the digest that its function gives; it does
    not matter on which machine they run.

    [test_case] (Vectors.v) is an entry of the file; [hex_bytes] reads and [hex] writes hexadecimal. *)
From Coq Require Import String.
From Coq Require Import Arith NArith List Bool Lia.
From Coq Require Import Init.Byte.
From Verif Require Import Base Guts KernelSpec Impl Loops Lib Api BinSpec XofSpec Machine Vectors VectorsProof Sneves PropSneves Demo.
From Verif Require Import Spec ApiSpec.
Import ListNotations.
Open Scope list_scope.
Open Scope N_scope.
Local Notation length := List.length.

Definition entries (name : string) (file : list test_case) : list test_case :=
  filter (fun c => String.eqb (tc_hash c) name) file.
(** 512 entries of the function [name]; in each the key is not too long and the output is [answer] of the input, the key
    and the number of bytes of the output. *)
Definition right (name : string) (longest_key : nat) (answer : list byte -> list byte -> nat -> list byte) (file : list test_case) : Prop :=
  N.of_nat (length (entries name file)) = 512 /\
  forall c, In c (entries name file) -> exists input key,
    hex_bytes (tc_in c) = Some input /\ hex_bytes (tc_key c) = Some key /\ (length key <= longest_key)%nat /\
    tc_out c = hex (answer input key (Nat.div (String.length (tc_out c)) 2)).
(** A String is not longer than isize::MAX. *)
Definition sized (file : list test_case) : Prop := forall c, In c file -> N.of_nat (String.length (tc_in c)) < 2 ^ 63.

Lemma right_iff name k answer file (body : list byte -> list byte -> string -> outcome unit) :
  (forall c input key, In c file -> tc_hash c = name -> hex_bytes (tc_in c) = Some input -> hex_bytes (tc_key c) = Some key ->
    (body input key (tc_out c) = Ret tt <->
     (length key <= k)%nat /\ tc_out c = hex (answer input key (Nat.div (String.length (tc_out c)) 2)))) ->
  vectors name body file = Ret tt <-> right name k answer file.
Proof.
  intros B. rewrite vectors_is. unfold right. change (filter (named name) file) with (entries name file).
  split; intros [L H]; split; auto; intros c.
  - intros I. apply filter_In in I as [I N]. apply String.eqb_eq in N. destruct (H c I N) as (i & key & E1 & E2 & E3).
    exists i, key. rewrite (B c i key I N E1 E2) in E3. tauto.
  - intros I N. assert (I' : In c (entries name file)) by (apply filter_In; split; [auto|apply String.eqb_eq; auto]).
    destruct (H c I') as (i & key & E1 & E2 & E3). exists i, key. rewrite (B c i key I N E1 E2). auto.
Qed.
Lemma sized_input file c input : sized file -> In c file -> hex_bytes (tc_in c) = Some input -> N.of_nat (length input) < 2 ^ 63.
Proof. intros S I E. pose proof (S c I) as B. rewrite (hex_bytes_length _ _ E) in B. lia. Qed.

Theorem C50_vector_files (v : variant) (e : env) (imp : platform) (file : list test_case) :
  supported e imp -> sized file ->
  (one_vectors v e imp file = Ret tt <->
   right (match fl v with F2b => "blake2b" | F2s => "blake2s" end) (max_out (fl v))
     (fun input key _ => digest (fl v) (configure (fl v) [Key key] (default_config (fl v))) input) file) /\
  (p_vectors v e imp file = Ret tt <->
   right (match fl v with F2b => "blake2bp" | F2s => "blake2sp" end) (max_out (fl v))
     (fun input key _ => blake2p (fl v) (max_out (fl v)) key input) file) /\
  ((forall c, In c file -> N.of_nat (String.length (tc_out c)) < xof_limit (fl v)) ->
   (x_vectors v e imp file = Ret tt <->
    right (match fl v with F2b => "blake2xb" | F2s => "blake2xs" end) (max_out (fl v))
      (fun input key len => blake2x (fl v) len key input) file)).
Proof.
  intros Su S. split; [|split].
  - replace (match fl v with F2b => "blake2b" | F2s => "blake2s" end)%string with
      (match v with V2b => "blake2b" | V2s => "blake2s" end)%string by (destruct v; reflexivity).
    apply right_iff. intros c i k I _ E1 _. apply vector_right; [exact Su|]. eapply sized_input; eauto.
  - replace (match fl v with F2b => "blake2bp" | F2s => "blake2sp" end)%string with
      (match v with V2b => "blake2bp" | V2s => "blake2sp" end)%string by (destruct v; reflexivity).
    apply right_iff. intros c i k I _ E1 _. apply p_vector_right; [exact Su|]. eapply sized_input; eauto.
  - intros O. replace (match fl v with F2b => "blake2xb" | F2s => "blake2xs" end)%string with
      (match v with V2b => "blake2xb" | V2s => "blake2xs" end)%string by (destruct v; reflexivity).
    apply right_iff. intros c i k I _ E1 _. apply x_vector_right; [exact Su|]. apply O. exact I.
Qed.
Print Assumptions C50_vector_files.

Lemma count_unkeyed file :
  length (filter VectorsProof.unkeyed file) =
    (length (filter (fun c => String.eqb (tc_key c) "") (entries "blake2b" file)) +
     length (filter (fun c => String.eqb (tc_key c) "") (entries "blake2bp" file)) +
     length (filter (fun c => String.eqb (tc_key c) "") (entries "blake2sp" file)))%nat.
Proof.
  unfold entries. induction file as [|c file IH]; [reflexivity|]. cbn [filter]. unfold VectorsProof.unkeyed at 1.
  destruct (String.eqb_spec (tc_hash c) "blake2b") as [->|N1]; cbn [orb].
  { change (String.eqb "blake2b" "blake2bp") with false. change (String.eqb "blake2b" "blake2sp") with false. cbn [filter].
    destruct (String.eqb (tc_key c) ""); cbn [andb length]; lia. }
  destruct (String.eqb_spec (tc_hash c) "blake2bp") as [->|N2]; cbn [orb].
  { change (String.eqb "blake2bp" "blake2sp") with false. cbn [filter]. destruct (String.eqb (tc_key c) ""); cbn [andb length]; lia. }
  destruct (String.eqb_spec (tc_hash c) "blake2sp") as [E3|N3]; cbn [orb filter];
    destruct (String.eqb (tc_key c) ""); cbn [andb length]; lia.
Qed.
Lemma no_avx2_loop p t e junk : avx2_detected t = false -> forall file n m, sneves_loop p t e junk file n = Ret m -> m = n.
Proof.
  intros D. induction file as [|c file IH]; intros n m; cbn [sneves_loop]; [intros H; injection H as <-; reflexivity|].
  rewrite !unwrap_hex_is. destruct (hex_bytes (tc_in c)) as [i|]; [|discriminate]. destruct (hex_bytes (tc_out c)); [|discriminate].
  cbn [bind]. destruct (negb _); [apply IH|].
  destruct (C54_no_avx2 p t e (junk 128%nat (length file)) i D) as (-> & _ & _).
  destruct (C54_no_avx2 p t e (junk 512%nat (length file)) i D) as (_ & -> & ->). cbn [bind].
  destruct (String.eqb _ "blake2b"); [discriminate|]. destruct (String.eqb _ "blake2bp"); [discriminate|].
  destruct (String.eqb _ "blake2sp"); [discriminate|]. apply IH.
Qed.

(** The test of the vendored C library: all inputs and outputs of the file are hexadecimal, and the unkeyed entries of the
    three functions that it has are 768 and right.  Without AVX2 it fails. *)
Theorem C50_sneves_vectors (p : permute) (t : target) (e : env) (junk : nat -> nat -> list byte) (file : list test_case) :
  honest t e -> (forall n i, length (junk n i) = n) -> sized file ->
  let unkeyed name := filter (fun c => String.eqb (tc_key c) "") (entries name file) in
  let holds name (answer : list byte -> list byte) := forall c, In c (unkeyed name) -> exists input,
    hex_bytes (tc_in c) = Some input /\ hex_bytes (tc_out c) = Some (answer input) in
  sneves_vectors p t e junk file = Ret tt <->
  avx2_detected t = true /\
  (forall c, In c file -> hex_bytes (tc_in c) <> None /\ hex_bytes (tc_out c) <> None) /\
  N.of_nat (length (unkeyed "blake2b") + length (unkeyed "blake2bp") + length (unkeyed "blake2sp")) = 768 /\
  holds "blake2b"%string (rfc7693 F2b 64 []) /\ holds "blake2bp"%string (blake2p F2b 64 []) /\ holds "blake2sp"%string (blake2p F2s 32 []).
Proof.
  intros H J S unk hold. unfold sneves_vectors. rewrite bind_unit. destruct (avx2_detected t) eqn:D.
  2:{ split; [|intros [X _]; discriminate X]. intros (m & E & A). apply no_avx2_loop in E; [|exact D]. subst m. discriminate A. }
  assert (SEL : forall c name, In c (unk name) <-> In c file /\ tc_hash c = name /\ tc_key c = ""%string).
  { intros c name. unfold unk, entries. rewrite !filter_In, !String.eqb_eq. tauto. }
  assert (UK : forall c, VectorsProof.unkeyed c = true <->
     tc_key c = ""%string /\ (tc_hash c = "blake2b"%string \/ tc_hash c = "blake2bp"%string \/ tc_hash c = "blake2sp"%string)).
  { intros c. unfold VectorsProof.unkeyed. rewrite andb_true_iff, !orb_true_iff, !String.eqb_eq. tauto. }
  split.
  - intros (m & E & A). apply assert_true, N.eqb_eq in A. subst m.
    apply (sneves_loop_is p t e junk H D J file 0 768 S) in E as [X L]. rewrite count_unkeyed in L.
    split; [reflexivity|]. split.
    { intros c I. destruct (X c I) as (i & o & -> & -> & _). split; discriminate. }
    split; [unfold unk; lia|].
    split; [|split]; intros c I; apply SEL in I as (I & N & K); destruct (X c I) as (i & o & E1 & E2 & E3); exists i;
      (split; [exact E1|]); rewrite E2, E3 by (apply UK; auto); unfold c_answer; rewrite N; reflexivity.
  - intros (_ & X & L & A1 & A2 & A3). exists 768. split; [|reflexivity].
    apply (sneves_loop_is p t e junk H D J file 0 768 S). rewrite count_unkeyed. split; [|unfold unk in L; lia].
    intros c I. destruct (X c I) as [X1 X2]. destruct (hex_bytes (tc_in c)) as [i|] eqn:E1; [|congruence].
    destruct (hex_bytes (tc_out c)) as [o|] eqn:E2; [|congruence]. exists i, o. split; [reflexivity|]. split; [reflexivity|].
    intros U. apply UK in U as [K [N|[N|N]]]; unfold c_answer; rewrite N.
    + destruct (A1 c) as (i' & F1 & F2); [apply SEL; auto|]. rewrite E1 in F1. rewrite E2 in F2. injection F1 as <-. injection F2 as ->. reflexivity.
    + destruct (A2 c) as (i' & F1 & F2); [apply SEL; auto|]. rewrite E1 in F1. rewrite E2 in F2. injection F1 as <-. injection F2 as ->. reflexivity.
    + destruct (A3 c) as (i' & F1 & F2); [apply SEL; auto|]. rewrite E1 in F1. rewrite E2 in F2. injection F1 as <-. injection F2 as ->. reflexivity.
Qed.
Print Assumptions C50_sneves_vectors.

(** A file that passes: 512 times the same entry; and one that does not: 511 times. *)
Lemma hex_bytes_hex b : hex_bytes (hex b) = Some b.
Proof.
  unfold hex. induction b as [|x b IH]; [reflexivity|]. cbn [map]. rewrite HashProof.concat_empty_cons.
  assert (E : forall r, hex_bytes ((hex_digit (Byte.to_N x / 16) ++ hex_digit (Byte.to_N x mod 16)) ++ r) =
    match hex_bytes r with Some bs => Some (x :: bs) | None => None end).
  { intros r. destruct x; cbn; destruct (hex_bytes r); reflexivity. }
  rewrite E, IH. reflexivity.
Qed.
Definition demo_entry (f : flavour) : test_case :=
  {| tc_hash := match f with F2b => "blake2b" | F2s => "blake2s" end; tc_in := hex (demo_msg 200); tc_key := hex (demo_msg 20);
     tc_out := hex (digest f (configure f [Key (demo_msg 20)] (default_config f)) (demo_msg 200)) |}.
Lemma entries_repeat c n : entries (tc_hash c) (repeat c n) = repeat c n.
Proof. unfold entries. induction n as [|n IH]; [reflexivity|]. cbn [repeat filter]. rewrite String.eqb_refl, IH. reflexivity. Qed.
Lemma demo_file_sized f n : sized (repeat (demo_entry f) n).
Proof.
  intros c I. apply repeat_spec in I. subst c. cbn [tc_in demo_entry].
  rewrite (proj2 (Laws.unhex_hex _)). unfold demo_msg. rewrite map_length, seq_length. reflexivity.
Qed.
Example C50_vector_files_example (v : variant) :
  sized (repeat (demo_entry (fl v)) 512%nat) /\
  one_vectors v (demo_env true) AVX2 (repeat (demo_entry (fl v)) 512%nat) = Ret tt /\
  one_vectors v (demo_env true) AVX2 (repeat (demo_entry (fl v)) 511%nat) <> Ret tt.
Proof.
  split; [apply demo_file_sized|]. split.
  - apply (C50_vector_files v (demo_env true) AVX2); [apply demo_supported|apply demo_file_sized|]. unfold right.
    change (match fl v with F2b => "blake2b" | F2s => "blake2s" end)%string with (tc_hash (demo_entry (fl v))).
    rewrite entries_repeat, repeat_length. split; [reflexivity|]. intros c I. apply repeat_spec in I. subst c.
    exists (demo_msg 200), (demo_msg 20). cbn [tc_in tc_key tc_out demo_entry]. rewrite !hex_bytes_hex.
    split; [reflexivity|]. split; [reflexivity|]. split; [destruct v; cbn; lia|reflexivity].
  - intros H. apply (C50_vector_files v (demo_env true) AVX2) in H; [|apply demo_supported|apply demo_file_sized].
    destruct H as [H _]. change (match fl v with F2b => "blake2b" | F2s => "blake2s" end)%string with (tc_hash (demo_entry (fl v))) in H.
    rewrite entries_repeat, repeat_length in H. discriminate H.
Qed.
