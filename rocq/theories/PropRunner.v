(** C53: the test runner's success means that everything was tested (Runner.v). *)
From Coq Require Import String.
From Coq Require Import Arith NArith List Bool Lia.
From Verif Require Import Runner.
Import ListNotations.
Open Scope list_scope.

(** What there is to run, in order. *)
Definition cargo (project : string) (flags : list string) : command := {| c_project := project; c_flags := flags |}.
Definition everything : list command :=
  [ cargo "blake2b" ["test"]; cargo "blake2b" ["test"; "--no-default-features"];
    cargo "blake2s" ["test"]; cargo "blake2s" ["test"; "--no-default-features"];
    cargo "." ["test"]; cargo "." ["test"; "--no-default-features"];
    cargo "blake2_bin" ["test"]; cargo "blake2_bin" ["test"; "--no-default-features"];
    cargo "." ["test"; "--release"];
    cargo "blake2b" ["test"; "--release"; "--features=uninline_portable"];
    cargo "blake2b/fuzz" ["check"]; cargo "blake2s/fuzz" ["check"] ]%string.

(** The runner is one loop over the commands. *)
Definition step (answers : nat -> answer) (s : state) (c : command) : state :=
  run_cargo_cmd answers (c_project c) (c_flags c) s.
Lemma main_steps answers : main answers =
  let s := fold_left (step answers) everything {| ran := []; over := None |} in
  (ran s, match over s with Some e => e | None => Returned end).
Proof. unfold main, test_project, everything, cargo. cbn [fold_left]. unfold step. cbn [c_project c_flags app]. reflexivity. Qed.

Lemma steps_over answers cs : forall r e,
  fold_left (step answers) cs {| ran := r; over := Some e |} = {| ran := r; over := Some e |}.
Proof. induction cs as [|c cs IH]; intros; [reflexivity|]. cbn [fold_left]. apply IH. Qed.

Lemma steps answers cs : forall r,
  ((forall i, (i < length cs)%nat -> answers (length r + i)%nat = Code 0) /\
   fold_left (step answers) cs {| ran := r; over := None |} = {| ran := r ++ cs; over := None |}) \/
  (exists k, (k < length cs)%nat /\ (forall i, (i < k)%nat -> answers (length r + i)%nat = Code 0) /\
     answers (length r + k)%nat <> Code 0 /\
     fold_left (step answers) cs {| ran := r; over := None |} =
       {| ran := r ++ firstn (S k) cs;
          over := Some (match answers (length r + k)%nat with NoSpawn => Panicked | _ => Exit1 end) |}).
Proof.
  induction cs as [|c cs IH]; intros r.
  { left. split; [intros i I; inversion I|]. cbn [fold_left]. rewrite app_nil_r. reflexivity. }
  cbn [fold_left]. unfold step at 2 4. unfold run_cargo_cmd. cbn [over ran].
  assert (EC : {| c_project := c_project c; c_flags := c_flags c |} = c) by (destruct c; reflexivity). rewrite EC.
  assert (D : answers (length r) = Code 0 \/ answers (length r) <> Code 0)
    by (destruct (answers (length r)) as [|[|p]|s]; auto; right; discriminate).
  destruct D as [D|D].
  - rewrite D. specialize (IH (r ++ [c])). rewrite app_length in IH. cbn [length] in IH.
    rewrite <- !app_assoc in IH. cbn [app] in IH.
    assert (S0 : forall i, (length r + 1 + i = length r + S i)%nat) by (intros; lia).
    destruct IH as [(A & E)|(k & K1 & K2 & K3 & E)]; [left|right].
    + split; [|exact E]. intros [|i] I; [rewrite Nat.add_0_r; exact D|]. cbn [length] in I.
      rewrite <- S0. apply A. lia.
    + exists (S k). rewrite <- S0. rewrite <- !app_assoc in E. cbn [app] in E.
      split; [cbn [length]; lia|]. split; [|split; [exact K3|exact E]].
      intros [|i] I; [rewrite Nat.add_0_r; exact D|]. rewrite <- S0. apply K2. lia.
  - right. exists 0%nat. rewrite Nat.add_0_r. split; [cbn [length]; lia|]. split; [intros i I; inversion I|].
    split; [exact D|]. cbn [firstn].
    destruct (answers (length r)) as [|[|p]|s]; [|now destruct D| |]; apply steps_over.
Qed.

(** Whatever becomes of the commands: either all of them succeed, all are run and the runner succeeds; or there is a
    first one that does not, nothing after it is run, and the runner does not succeed. *)
Theorem C53_runner (answers : nat -> answer) :
  ((forall i, (i < length everything)%nat -> answers i = Code 0) /\ main answers = (everything, Returned)) \/
  (exists k, (k < length everything)%nat /\ (forall i, (i < k)%nat -> answers i = Code 0) /\ answers k <> Code 0 /\
     main answers = (firstn (S k) everything, match answers k with NoSpawn => Panicked | _ => Exit1 end)).
Proof.
  rewrite main_steps. cbv zeta. destruct (steps answers everything []) as [(A & E)|(k & K1 & K2 & K3 & E)]; rewrite E; cbn [ran over app].
  - left. split; [exact A|reflexivity].
  - right. exists k. split; [exact K1|]. split; [exact K2|]. split; [exact K3|reflexivity].
Qed.
Print Assumptions C53_runner.

(** In particular: the runner returns only if each project passed its tests with and without the standard library. *)
Theorem C53_both_configurations (answers : nat -> answer) (project : string) :
  snd (main answers) = Returned -> In project ["blake2b"; "blake2s"; "."; "blake2_bin"]%string ->
  exists i j, nth_error (fst (main answers)) i = Some (cargo project ["test"%string]) /\ answers i = Code 0 /\
    nth_error (fst (main answers)) j = Some (cargo project ["test"; "--no-default-features"]%string) /\ answers j = Code 0.
Proof.
  intros R I. destruct (C53_runner answers) as [(A & E)|(k & _ & _ & _ & E)]; rewrite E in *; cbn [fst snd] in *.
  - assert (B : forall i, (i < 12)%nat -> answers i = Code 0) by exact A.
    cbn [In] in I. destruct I as [<-|[<-|[<-|[<-|[]]]]]; [exists 0%nat, 1%nat|exists 2%nat, 3%nat|exists 4%nat, 5%nat|exists 6%nat, 7%nat];
      repeat split; apply B; lia.
  - destruct (answers k); discriminate.
Qed.
Print Assumptions C53_both_configurations.

(** The fourth command is killed: four commands are run, and the runner fails. *)
Example C53_example : main (fun i => if Nat.eqb i 3 then Signal 9 else Code 0) = (firstn 4 everything, Exit1).
Proof. reflexivity. Qed.
