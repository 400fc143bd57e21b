(** A program that hashes a tree of any shape with the public API: a node is
    Params::new() with the settings of the node and then hash()
    (/repo/blake2b/src/lib.rs 165-345 (the settings), 208-226 (hash); /repo/blake2s/src/lib.rs
    likewise).  The program is a caller of the library, written out from the
    description of the settings; it is not part of /repo. *)
From Coq Require Import Arith NArith List Bool.
From Coq Require Import Init.Byte.
From Verif Require Import Base Guts Impl Lib Many ApiSpec Api Runs TreeSpec.
Import ListNotations.

(** One node.  /repo/blake2b/src/lib.rs 208-226 (hash), 589-591 (as_bytes). *)
Definition hash_node (v : variant) (e : env) (imp : platform) (ss : list setting) (m : list byte) :
    outcome (list byte) :=
  do h <- params_hash v e (build v imp ss) m; as_bytes h.

(** Level by level, until a level has one node. *)
Fixpoint hash_tree (v : variant) (e : env) (imp : platform) (t : tree_mode) (fuel d : nat)
    (ms : list (list byte)) : outcome (list byte) :=
  match fuel with
  | O => Diverge
  | S n =>
      match ms with
      | [m] => hash_node v e imp (node_settings t (t_out t) d 0 true) m
      | _ =>
          do ds <- mapM (fun '(i, last, m) =>
                     hash_node v e imp (node_settings t (t_inner t) d i last) m) (placed 0 ms);
          hash_tree v e imp t n (S d) (map (@concat byte) (in_groups (t_arity t d) ds))
      end
  end.

(** A file: cut into leaves of [p] bytes. *)
Definition hash_file_tree (v : variant) (e : env) (imp : platform) (t : tree_mode) (p fuel : nat)
    (file : list byte) : outcome (list byte) :=
  hash_tree v e imp t fuel 0 (leaves_of p file).

(** The same with one batch per level: a HashManyJob for every node, all of them
    handed to hash_many in the order [order d n] (for the [n] nodes of level
    [d]), and then to_hash().  /repo/blake2b/src/many.rs 287-319, 386-419,
    326-332. *)
Definition hash_level (v : variant) (e : env) (imp : platform) (t : tree_mode) (d : nat)
    (order : list nat) (ms : list (list byte)) : outcome (list (list byte)) :=
  do jobs <- mapM (fun '(i, last, m) =>
               hash_many_job_new v e (build v imp (node_settings t (t_inner t) d i last)) m) (placed 0 ms);
  do '(jobs, _) <- hash_many v e jobs (items order);
  do hs <- mapM (to_hash v e) jobs;
  mapM as_bytes hs.
Fixpoint hash_tree_batched (v : variant) (e : env) (imp : platform) (t : tree_mode)
    (order : nat -> nat -> list nat) (fuel d : nat) (ms : list (list byte)) : outcome (list byte) :=
  match fuel with
  | O => Diverge
  | S n =>
      match ms with
      | [m] => hash_node v e imp (node_settings t (t_out t) d 0 true) m
      | _ =>
          do ds <- hash_level v e imp t d (order d (length ms)) ms;
          hash_tree_batched v e imp t order n (S d) (map (@concat byte) (in_groups (t_arity t d) ds))
      end
  end.
