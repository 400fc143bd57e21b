(** Property C63: a digest is of no use for hashing a longer message.

    Vocabulary (ExtendSpec.v): a [computation] is one BLAKE2b / BLAKE2s or one
    BLAKE2bp / BLAKE2sp hash; its [chains] are its uses of the compression
    function, each from a chaining value (C21 proves that the crate makes
    them); [gives_digest] is the use whose result is the digest; [goes_on] says
    that one use takes the result of another as its chaining value. *)
From Coq Require Import Arith NArith List Bool Lia.
From Coq Require Import Init.Byte.
From Verif Require Import Base Guts KernelSpec Impl Lib Many Par.
From Verif Require Import Spec ApiSpec Machine History Calls Collisions ExtendSpec.
From Verif Require Import Loops Api Runs Words ParamsProof FedProof ParProof ParFed ApiProof BatchProof Laws CollisionProof ExtendProof Demo.
Import ListNotations.
Open Scope list_scope.
Open Scope N_scope.
Local Notation length := List.length.

Local Notation config_of v ss := (configure (fl v) ss (default_config (fl v))).
Local Notation pconfig_of v ss := (pconfigure (fl v) ss (pdefault_config (fl v))).

(** A call of [Params::hash] of any of the four functions returned [h]; the
    computation is the one with its settings and message. *)
Inductive call_of (v : variant) : computation -> hash -> Prop :=
| CallSequential e imp ss m h :
    supported e imp -> Forall typed ss -> params_hash v e (build v imp ss) m = Ret h ->
    call_of v (Sequential (config_of v ss) m) h
| CallParallel e imp ss m h :
    supported e imp -> p_hash v e (pbuild v imp ss) m = Ret h ->
    call_of v (Parallel (pconfig_of v ss) m) h.

Lemma call_answer v k h a : call_of v k h -> as_bytes h = Ret a -> wf_computation (fl v) k /\ a = answer (fl v) k.
Proof.
  intros [e imp ss m h0 S T E|e imp ss m h0 S E] A.
  - destruct (hash_is_digest v e imp ss m S T) as (h1 & E1 & A1). split; [apply build_wf; auto|].
    cbn [answer]. congruence.
  - destruct (phash_is_digest v e imp ss m S) as (h1 & E1 & A1). split; [apply wfp_configure, wfp_default|].
    cbn [answer]. congruence.
Qed.

(** ** C63 *)

(** Wherever a hash computation takes a chaining value that begins with a
    digest [a] some call returned: either it is the very first value of a chain,
    which the parameters alone determine, or the compression function gives the
    same bytes for a last block and for a block that is not the last. *)
Theorem C63_no_length_extension (v : variant) (k k' : computation) (h h' : hash) (a : list byte) (chain : list use) (x : use) :
  call_of v k h -> as_bytes h = Ret a -> call_of v k' h' ->
  In chain (chains (fl v) k') -> In x chain ->
  firstn (length a) (words_to_bytes (fl v) (fst x)) = a ->
  (In (fst x) (starts (fl v) k') /\ exists after, chain = x :: after) \/
  exists y z, gives_digest (fl v) k y /\ goes_on (fl v) k' z x /\
    fc_last_block (snd y) = true /\ fc_last_block (snd z) = false /\
    firstn (length a) (words_to_bytes (fl v) (result (fl v) y)) =
    firstn (length a) (words_to_bytes (fl v) (result (fl v) z)) /\
    (length a = max_out (fl v) -> result (fl v) y = result (fl v) z).
Proof.
  intros C A C' I J E. destruct (call_answer v k h a C A) as [W ->]. eapply no_extension; eauto.
Qed.
Print Assumptions C63_no_length_extension.

(** With digests of one byte both cases can be exhibited: the digest of [x16]
    begins the chaining value of the second block of 65 zero bytes, and the
    digest of [x2b] the value that computation starts from. *)
Example C63_example :
  let k b := Sequential (configure F2s [HashLength 1] (default_config F2s)) [b] in
  let k' := Sequential (configure F2s [] (default_config F2s)) (repeat x00 65) in
  answer F2s (k x16) = [xc5] /\ answer F2s (k x2b) = [x47] /\
  map (map (fun x => firstn 1 (words_to_bytes F2s (fst x)))) (chains F2s k') = [[[x47]; [xc5]]].
Proof. repeat split; lazy; reflexivity. Qed.

Lemma C63_demo : digest (fl V2s) (config_of V2s [HashLength 1]) [x16] = [xc5].
Proof. lazy. reflexivity. Qed.

(** Calls of both kinds exist. *)
Example C63_example2 : exists h h',
  call_of V2s (Sequential (config_of V2s [HashLength 1]) [x16]) h /\ as_bytes h = Ret [xc5] /\
  call_of V2s (Parallel (pconfig_of V2s [PKey [x01]]) (repeat x00 65)) h'.
Proof.
  assert (T : Forall typed [HashLength 1]) by (constructor; [exact I|constructor]).
  pose proof (demo_supported true Portable) as S.
  destruct (hash_is_digest V2s (demo_env true) Portable [HashLength 1] [x16] S T) as (h & E & A).
  destruct (phash_is_digest V2s (demo_env true) Portable [PKey [x01]] (repeat x00 65) S) as (h' & E' & _).
  exists h, h'. split; [exact (CallSequential V2s _ _ _ _ _ S T E)|]. split; [|exact (CallParallel V2s _ _ _ _ _ S E')].
  rewrite A, C63_demo. reflexivity.
Qed.
