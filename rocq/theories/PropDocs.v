(** C50: the examples in the documentation (Docs.v) pass on every build and machine whatever inputs, numbers of pieces
    and numbers of jobs they are given, and those with a recorded text accept the right one and no other. *)
From Coq Require Import String.
From Coq Require Import Arith NArith List Bool Lia.
From Coq Require Import Init.Byte.
From Verif Require Import Base Guts KernelSpec Impl Loops Lib Par Spec ApiSpec Api Machine Suite SuiteProof Units UnitsProof FedProof Docs DocsProof Demo.
Import ListNotations.
Open Scope list_scope.
Open Scope N_scope.
Local Notation length := List.length.

(** The examples with a recorded text. *)
Theorem C50_docs_recorded (v : variant) (e : env) (imp : platform) (pieces : list (list byte)) (out : string) : supported e imp ->
  let judge right := if String.eqb (hex right) out then Ret tt else Panic in
  let input := concat pieces in
  doc_one_shot v e imp input out = judge (digest (fl v) (default_config (fl v)) input) /\
  doc_p_one_shot v e imp input out = judge (pdigest (fl v) (pdefault_config (fl v)) input) /\
  (forall ss, Forall typed ss ->
    doc_builder v e imp ss pieces out =
      if forallb (legal (fl v)) ss then judge (digest (fl v) (configure (fl v) ss (default_config (fl v))) input) else Panic) /\
  (forall ss, doc_p_builder v e imp ss pieces out =
      if forallb (plegal (fl v)) ss then judge (pdigest (fl v) (pconfigure (fl v) ss (pdefault_config (fl v))) input) else Panic).
Proof.
  intros Su judge input. split; [exact (doc_one_shot_is v e imp Su input out)|]. split; [exact (doc_p_one_shot_is v e imp Su input out)|].
  split; [intros ss T; exact (doc_builder_is v e imp Su ss pieces out T)|]. intros ss. exact (doc_p_builder_is v e imp Su ss pieces out).
Qed.
Print Assumptions C50_docs_recorded.

(** The examples that compare two ways of hashing, and the one that only builds objects: they panic for settings that
    are refused and for nothing else. *)
Theorem C50_docs_compare (v : variant) (e : env) (imp : platform) (inputs : list (list byte)) (ss : list setting) (input : list byte) :
  supported e imp -> Forall typed ss ->
  doc_state v e imp inputs = Ret tt /\ doc_update_many v e imp inputs = Ret tt /\
  doc_hash_many v e imp ss inputs = (if forallb (legal (fl v)) ss then Ret tt else Panic) /\
  (forallb (legal (fl v)) ss = false -> doc_params v e imp ss input = Panic) /\
  (forallb (legal (fl v)) ss = true -> exists h s h',
     doc_params v e imp ss input = Ret (h, s) /\
     as_bytes h = Ret (digest (fl v) (configure (fl v) ss (default_config (fl v))) input) /\
     finalize v e s = Ret h' /\ as_bytes h' = Ret (digest (fl v) (configure (fl v) ss (default_config (fl v))) [])).
Proof.
  intros Su T. split; [exact (doc_state_ok v e imp Su inputs)|]. split; [exact (doc_update_many_ok v e imp Su inputs)|].
  split; [exact (doc_hash_many_is v e imp Su ss inputs T)|]. split.
  - intros L. unfold doc_params. rewrite chain_is, L. reflexivity.
  - intros L. destruct (doc_params_is v e imp Su ss input T L) as (h & s & E & B & H). exists h, s. eexists.
    split; [exact E|]. split; [exact B|]. split; [exact (holds_finalize _ _ _ _ _ H)|]. apply hash_value_bytes. apply H.
Qed.
Print Assumptions C50_docs_compare.

(** The settings of the examples, with other bytes for the key and the personalization. *)
Definition doc_settings : list setting := [HashLength 16; Key (demo_msg 19); Personal (demo_msg 7)].
Example C50_docs_example :
  supported (demo_env true) AVX2 /\ Forall typed doc_settings /\
  forallb (legal F2b) doc_settings = true /\ forallb (legal F2s) doc_settings = true /\
  forallb (legal F2s) (Key (demo_msg 33) :: doc_settings) = false /\ forallb (plegal F2b) [PHashLength 16; PKey (demo_msg 39)] = true /\
  doc_update_many V2b (demo_env true) AVX2 [demo_msg 3; demo_msg 300; demo_msg 0; demo_msg 129; demo_msg 1000] = Ret tt /\
  doc_hash_many V2s (demo_env true) AVX2 doc_settings [demo_msg 3; demo_msg 300; demo_msg 0] = Ret tt.
Proof.
  assert (Su := demo_supported true AVX2). assert (T : Forall typed doc_settings) by (repeat constructor).
  split; [exact Su|]. split; [exact T|]. split; [reflexivity|]. split; [reflexivity|]. split; [reflexivity|]. split; [reflexivity|].
  split; [exact (doc_update_many_ok V2b _ _ Su _)|]. exact (doc_hash_many_is V2s _ _ Su doc_settings _ T).
Qed.
