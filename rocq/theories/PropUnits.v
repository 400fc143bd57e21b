(** C50: the remaining unit tests of the two crates (Units.v) accept the right answers and no others, whatever
    parameters, inputs and numbers of calls they are run with, and those of the setters pass. *)
From Coq Require Import String.
From Coq Require Import Arith NArith List Bool Lia.
From Coq Require Import Init.Byte.
From Verif Require Import Base Guts KernelSpec Impl Loops Lib Par Spec ApiSpec Api Machine Suite SuiteProof Units UnitsProof Demo.
Import ListNotations.
Open Scope list_scope.
Open Scope N_scope.
Local Notation length := List.length.

Theorem C50_answers (v : variant) (e : env) (imp : platform) (input : list byte) (out : string) : supported e imp ->
  let judge right := if String.eqb (hex right) out then Ret tt else Panic in
  (forall ss, Forall typed ss ->
    all_parameters v e imp ss input out =
      if forallb (legal (fl v)) ss then judge (digest (fl v) (configure (fl v) ss (default_config (fl v))) input) else Panic) /\
  (forall ss, p_all_parameters v e imp ss input out =
      if forallb (plegal (fl v)) ss then judge (pdigest (fl v) (pconfigure (fl v) ss (pdefault_config (fl v))) input) else Panic).
Proof.
  intros Su judge. split; [intros ss T; exact (all_parameters_is v e imp Su ss input out T)|].
  intros ss. exact (p_all_parameters_is v e imp Su ss input out).
Qed.
Print Assumptions C50_answers.

(** However often a State is finalized, before and after it is fed. *)
Theorem C50_multiple_finalizes (v : variant) (e : env) (imp : platform) (n m : nat) (input : list byte) (before after : string) :
  supported e imp ->
  multiple_finalizes v e imp n m input before after = Ret tt <->
  (n <> 0%nat -> before = hex (digest (fl v) (default_config (fl v)) [])) /\
  (m <> 0%nat -> after = hex (digest (fl v) (default_config (fl v)) input)).
Proof.
  intros Su. rewrite (multiple_finalizes_is v e imp Su). unfold verdict.
  destruct n as [|n], m as [|m]; cbn [bind];
    repeat match goal with |- context[String.eqb ?a ?b] => destruct (String.eqb_spec a b); cbn [bind] end;
    split; intros H; try discriminate H; try reflexivity;
    try (split; intros X; (congruence || (exfalso; apply X; reflexivity)));
    destruct H as [H1 H2]; exfalso;
    solve [specialize (H1 ltac:(discriminate)); congruence|specialize (H2 ltac:(discriminate)); congruence].
Qed.
Print Assumptions C50_multiple_finalizes.

(** A call of one setter on fresh parameters, in a test that has to panic and in one that has not. *)
Theorem C50_setters (v : variant) (imp : platform) :
  (forall s, should_panic (call_one v imp s) = (if legal (fl v) s then Panic else Ret tt) /\
             should_pass (call_one v imp s) = (if legal (fl v) s then Ret tt else Panic)) /\
  (forall s, should_panic (p_call_one v imp s) = (if plegal (fl v) s then Panic else Ret tt) /\
             should_pass (p_call_one v imp s) = (if plegal (fl v) s then Ret tt else Panic)) /\
  Forall (fun test => test = Ret tt) (setter_tests v imp) /\ sanity_check_count_size v = Ret tt.
Proof.
  split; [apply call_one_is|]. split; [apply p_call_one_is|]. split; [apply setter_tests_ok|]. destruct v; reflexivity.
Qed.
Print Assumptions C50_setters.

(** The parameters of test_all_parameters (with other bytes for the keys, salt and personalization). *)
Definition test_settings : list setting :=
  [HashLength 18; Key (demo_msg 16); Key (demo_msg 3); Salt (demo_msg 8); Personal (demo_msg 8); Fanout 2; MaxDepth 3;
   MaxLeafLength 67438087; NodeOffset 8832049842189; NodeDepth 16; InnerHashLength 17; LastNode true].
Example C50_units_example :
  supported (demo_env true) AVX2 /\ Forall typed test_settings /\ forallb (legal F2b) test_settings = true /\
  forallb (legal F2s) test_settings = true /\ forallb (legal F2b) demo_settings = false /\
  length (setter_tests V2b AVX2) = 10%nat /\ length (setter_tests V2s AVX2) = 12%nat /\
  multiple_finalizes V2b (demo_env true) AVX2 3 3 (demo_msg 200)
    (hex (digest F2b (default_config F2b) [])) (hex (digest F2b (default_config F2b) (demo_msg 200))) = Ret tt.
Proof.
  split; [apply demo_supported|]. split; [repeat constructor|]. split; [reflexivity|]. split; [reflexivity|]. split; [reflexivity|]. split; [reflexivity|]. split; [reflexivity|].
  apply (C50_multiple_finalizes V2b (demo_env true)); [apply demo_supported|split; reflexivity].
Qed.
