(** C61: trees of any shape, built by a caller from the tree parameters.

    Vocabulary (TreeSpec.v): a [tree_mode] says how files are cut up and which
    settings the nodes have; [nodes] are all nodes of the tree on top of some
    leaves (a configuration of BLAKE2 and the bytes hashed) and [root] is the
    node whose digest is the result; [same_node]: the same bytes under the same
    configuration; [tree_collision]: two nodes with the same digest contain
    different uses of the compression function with the same result.
    [hash_file_tree] and [hash_tree_batched] (Trees.v) are programs that compute
    such trees with Params and hash(), or with one hash_many() per level. *)
From Coq Require Import Permutation.
From Coq Require Import Arith NArith List Bool Lia.
From Coq Require Import Init.Byte.
From Verif Require Import Base Guts KernelSpec Impl Lib Many.
From Verif Require Import Spec ApiSpec Machine Calls Collisions.
From Verif Require Import Loops Api Runs ParamsProof ApiProof BatchProof Laws CollisionProof TreeSpec Trees TreeProof Demo.
Import ListNotations.
Open Scope list_scope.
Open Scope nat_scope.
Local Notation length := List.length.

(** ** Two trees with the same root digest are the same tree, or exhibit a collision *)
Theorem C61_trees (v : variant) (e e' : env) (imp imp' : platform) (t t' : tree_mode)
    (p p' fuel fuel' : nat) (file file' a : list byte) :
  supported e imp -> supported e' imp' -> sensible (fl v) t -> sensible (fl v) t' ->
  1 <= p -> 1 <= p' -> fuel <= 256 -> fuel' <= 256 ->
  countable (fl v) file -> countable (fl v) file' ->
  (N.of_nat (length (leaves_of p file)) <= 2 ^ 48)%N -> (N.of_nat (length (leaves_of p' file')) <= 2 ^ 48)%N ->
  hash_file_tree v e imp t p fuel file = Ret a ->
  hash_file_tree v e' imp' t' p' fuel' file' = Ret a ->
  (file = file' /\ leaves_of p file = leaves_of p' file' /\
     Forall2 (same_node (fl v)) (nodes (fl v) t fuel 0 (leaves_of p file)) (nodes (fl v) t' fuel' 0 (leaves_of p' file'))) \/
  tree_collision (fl v) (nodes (fl v) t fuel 0 (leaves_of p file)) (nodes (fl v) t' fuel' 0 (leaves_of p' file')).
Proof.
  intros S S' G G' P P' F F' C C' L L' E E'. unfold hash_file_tree in *.
  pose proof (leaves_small _ _ _ C L) as SM. pose proof (leaves_small _ _ _ C' L') as SM'.
  rewrite hash_tree_root in E, E' by auto.
  destruct (root (fl v) t fuel 0 (leaves_of p file)) as [x|] eqn:R; [|discriminate].
  destruct (root (fl v) t' fuel' 0 (leaves_of p' file')) as [x'|] eqn:R'; [|discriminate].
  assert (D : node_digest (fl v) x = node_digest (fl v) x') by congruence.
  destruct (trees_same v t t' G G' fuel fuel' 0 _ _ x x' F F' SM SM' R R' D) as [(EM & _ & FS)|X]; [left|right; exact X].
  split; [|split; auto]. rewrite <- (leaves_concat p file), <- (leaves_concat p' file'), EM by auto. reflexivity.
Qed.
Print Assumptions C61_trees.

(** ** The program ends, with the digest of the root, on every machine *)
Theorem C61_defined (v : variant) (e : env) (imp : platform) (t : tree_mode) (p : nat) (file : list byte) :
  supported e imp -> sensible (fl v) t -> (forall d, 2 <= t_arity t d) -> 1 <= p ->
  countable (fl v) file -> (N.of_nat (length (leaves_of p file)) <= 2 ^ 48)%N ->
  exists x, root (fl v) t 50 0 (leaves_of p file) = Some x /\
    hash_file_tree v e imp t p 50 file = Ret (digest (fl v) (fst x) (snd x)) /\
    length (digest (fl v) (fst x) (snd x)) = t_out t.
Proof.
  intros S G A P C L. pose proof (leaves_small _ _ _ C L) as SM.
  destruct (root_exists (fl v) t A 49 0 (leaves_of p file) (leaves_nonempty _ _)) as (x & R).
  { assert (X : N.of_nat (2 ^ 49) = (2 ^ 49)%N) by (rewrite Nat2N.inj_pow; reflexivity).
    assert (2 ^ 48 < 2 ^ 49)%N by reflexivity. revert X. generalize (2 ^ 49). intros q X. lia. }
  exists x. split; auto. assert (D : 0 + 50 <= 256) by lia. split.
  - unfold hash_file_tree. rewrite hash_tree_root, R by auto. reflexivity.
  - exact (root_length v t G 50 0 _ x D SM R).
Qed.
Print Assumptions C61_defined.

(** ** Batches, in any order, give the same *)
Theorem C61_batched (v : variant) (e : env) (imp : platform) (t : tree_mode) (order : nat -> nat -> list nat)
    (p fuel : nat) (file : list byte) :
  supported e imp -> sensible (fl v) t -> (forall d n, Permutation (order d n) (seq 0 n)) -> fuel <= 256 ->
  countable (fl v) file -> (N.of_nat (length (leaves_of p file)) <= 2 ^ 48)%N ->
  hash_tree_batched v e imp t order fuel 0 (leaves_of p file) = hash_file_tree v e imp t p fuel file.
Proof. intros S G P F C L. apply batched_same; auto. apply leaves_small; auto. Qed.
Print Assumptions C61_batched.

(** ** No two nodes of one tree have the same parameters *)
Theorem C61_positions (v : variant) (t : tree_mode) (p fuel : nat) (file : list byte) :
  sensible (fl v) t -> fuel <= 256 -> (N.of_nat (length (leaves_of p file)) < 2 ^ 48)%N ->
  NoDup (map (fun x => (node_depth (c_params (fst x)), node_offset (c_params (fst x))))
             (nodes (fl v) t fuel 0 (leaves_of p file))).
Proof. intros G F L. apply positions_differ; auto. Qed.
Print Assumptions C61_positions.

(** A binary tree with three leaves has six nodes on three levels. *)
Definition demo_mode : tree_mode :=
  {| t_common := [Fanout 2; MaxDepth 255; MaxLeafLength 2; Key (demo_msg 5)]; t_arity := fun _ => 2;
     t_inner := 20; t_out := 32 |}.
Example C61_example v : sensible (fl v) demo_mode /\ (forall d, 2 <= t_arity demo_mode d) /\
  countable (fl v) (demo_msg 5) /\ (N.of_nat (length (leaves_of 2 (demo_msg 5))) < 2 ^ 48)%N /\
  map (fun x => (node_depth (c_params (fst x)), node_offset (c_params (fst x)), c_last_node (fst x),
                 digest_length (c_params (fst x))))
      (nodes (fl v) demo_mode 50 0 (leaves_of 2 (demo_msg 5))) =
  [(0, 0, false, 20); (0, 1, false, 20); (0, 2, true, 20); (1, 0, false, 20); (1, 1, true, 20); (2, 0, true, 32)]%N.
Proof.
  split; [|split; [|split; [|split]]].
  - repeat split; try (cbn; lia); try (destruct v; cbn; lia). repeat constructor; cbn; lia.
  - intros; cbn; lia.
  - destruct v; vm_compute; reflexivity.
  - vm_compute. reflexivity.
  - destruct v; lazy; reflexivity.
Qed.
