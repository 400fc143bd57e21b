(** Property C43: where collisions come from.

    Vocabulary (Collisions.v): [uses] and [puses] are the uses of the
    compression function that BLAKE2 prescribes for a computation (C21 proves
    that the crate makes them), [contain_collision] says that two computations
    contain two different uses with the same result, [countable] that the
    message is shorter than the range of the counter. *)
From Coq Require Import Arith NArith List Bool Lia.
From Coq Require Import Init.Byte.
From Verif Require Import Base Guts KernelSpec Impl Lib Many Par.
From Verif Require Import Spec ApiSpec Machine History Calls Collisions.
From Verif Require Import Loops Api Runs Words ParamsProof FedProof ParProof ParFed ApiProof BatchProof Laws CollisionProof Demo.
Import ListNotations.
Open Scope list_scope.
Open Scope N_scope.
Local Notation length := List.length.

Local Notation config_of v ss := (configure (fl v) ss (default_config (fl v))).
Local Notation pconfig_of v ss := (pconfigure (fl v) ss (pdefault_config (fl v))).

(** ** C43 *)
Theorem C43_collision (v : variant) (e e' : env) (imp imp' : platform) (ss ss' : list setting)
    (m m' : list byte) (h h' : hash) (a : list byte) :
  supported e imp -> supported e' imp' -> Forall typed ss -> Forall typed ss' ->
  countable (fl v) m -> countable (fl v) m' ->
  params_hash v e (build v imp ss) m = Ret h -> as_bytes h = Ret a ->
  params_hash v e' (build v imp' ss') m' = Ret h' -> as_bytes h' = Ret a ->
  (m = m' /\ same_config (fl v) (config_of v ss) (config_of v ss')) \/
  contain_collision (fl v) (length a) (uses (fl v) (config_of v ss) m) (uses (fl v) (config_of v ss') m').
Proof.
  intros S S' T T' C C' E A E' A'.
  destruct (hash_is_digest v e imp ss m S T) as (h0 & E0 & A0).
  destruct (hash_is_digest v e' imp' ss' m' S' T') as (h1 & E1 & A1).
  rewrite E in E0. injection E0 as <-. rewrite A in A0. injection A0 as ->.
  rewrite E' in E1. injection E1 as <-. rewrite A' in A1. injection A1 as D.
  apply seq_collision; auto; apply build_wf; auto.
Qed.
Print Assumptions C43_collision.

Theorem C43_parallel_collision (v : variant) (e e' : env) (imp imp' : platform) (ss ss' : list psetting)
    (m m' : list byte) (h h' : hash) (a : list byte) :
  supported e imp -> supported e' imp' -> countable (fl v) m -> countable (fl v) m' ->
  p_hash v e (pbuild v imp ss) m = Ret h -> as_bytes h = Ret a ->
  p_hash v e' (pbuild v imp' ss') m' = Ret h' -> as_bytes h' = Ret a ->
  (m = m' /\ pconfig_of v ss = pconfig_of v ss') \/
  contain_collision (fl v) (length a) (puses (fl v) (pconfig_of v ss) m) (puses (fl v) (pconfig_of v ss') m').
Proof.
  intros S S' C C' E A E' A'.
  destruct (phash_is_digest v e imp ss m S) as (h0 & E0 & A0).
  destruct (phash_is_digest v e' imp' ss' m' S') as (h1 & E1 & A1).
  rewrite E in E0. injection E0 as <-. rewrite A in A0. injection A0 as ->.
  rewrite E' in E1. injection E1 as <-. rewrite A' in A1. injection A1 as D.
  apply par_collision; auto; apply wfp_configure, wfp_default.
Qed.
Print Assumptions C43_parallel_collision.

(** BLAKE2b and BLAKE2bp (BLAKE2s and BLAKE2sp) are separated: a common digest
    always is a collision, unless the caller asks for a tree of depth two. *)
Theorem C43_modes_are_separate (v : variant) (e e' : env) (imp imp' : platform) (ss : list setting) (ss' : list psetting)
    (m m' : list byte) (h h' : hash) (a : list byte) :
  supported e imp -> supported e' imp' -> Forall typed ss -> countable (fl v) m ->
  depth (c_params (config_of v ss)) <> 2 ->
  params_hash v e (build v imp ss) m = Ret h -> as_bytes h = Ret a ->
  p_hash v e' (pbuild v imp' ss') m' = Ret h' -> as_bytes h' = Ret a ->
  contain_collision (fl v) (length a) (uses (fl v) (config_of v ss) m) (puses (fl v) (pconfig_of v ss') m').
Proof.
  intros S S' T C D E A E' A'.
  destruct (hash_is_digest v e imp ss m S T) as (h0 & E0 & A0).
  destruct (phash_is_digest v e' imp' ss' m' S') as (h1 & E1 & A1).
  rewrite E in E0. injection E0 as <-. rewrite A in A0. injection A0 as ->.
  rewrite E' in E1. injection E1 as <-. rewrite A' in A1. injection A1 as D1.
  apply mode_collision; auto; [apply build_wf; auto|apply wfp_configure, wfp_default].
Qed.
Print Assumptions C43_modes_are_separate.

(** Messages below 2^60 bytes are countable, and with digests of one byte there
    are collisions of different messages that one can exhibit. *)
Example C43_example : forall f m, N.of_nat (length m) < 2 ^ 60 -> countable f m.
Proof. intros f m H. unfold countable. destruct f; cbn in *; lia. Qed.
Example C43_example2 : digest F2s (configure F2s [HashLength 1] (default_config F2s)) [x07] = [xb2] /\
  digest F2s (configure F2s [HashLength 1] (default_config F2s)) [x13] = [xb2].
Proof. split; lazy; reflexivity. Qed.
