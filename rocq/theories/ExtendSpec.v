(** What it would take to go on hashing from a digest: the chains of uses of
    the compression function of one computation, each with the value it starts
    from.  Specification only. *)
From Coq Require Import Arith NArith List Bool.
From Coq Require Import Init.Byte.
From Verif Require Import Spec ApiSpec Calls Collisions.
Import ListNotations.

(** One hash computation: BLAKE2b / BLAKE2s, or BLAKE2bp / BLAKE2sp. *)
Inductive computation :=
| Sequential (c : config) (msg : list byte)
| Parallel (c : pconfig) (msg : list byte).

(** Its digest. *)
Definition answer (f : flavour) (k : computation) : list byte :=
  match k with Sequential c msg => digest f c msg | Parallel c msg => pdigest f c msg end.

(** Its chains: one, or those of the leaves and the one of the root.  The
    digest is taken from the result of the last use of the last chain. *)
Definition chains (f : flavour) (k : computation) : list (list use) :=
  match k with
  | Sequential c msg => [uses f c msg]
  | Parallel c msg => map (leaf_uses f c msg) (seq 0 (leaves f)) ++ [root_uses f c msg]
  end.

(** The values its chains start from.  They depend only on the parameters. *)
Definition starts (f : flavour) (k : computation) : list (list N) :=
  match k with
  | Sequential c _ => [initial_state f (c_params c)]
  | Parallel c _ =>
      map (fun i => initial_state f (tree_node f (pc_hash_length c) (length (pc_key c)) (N.of_nat i) 0)) (seq 0 (leaves f))
      ++ [initial_state f (tree_node f (pc_hash_length c) (length (pc_key c)) 0 1)]
  end.

(** The use [y] is the last one of the computation, the one that gives the digest. *)
Definition gives_digest (f : flavour) (k : computation) (y : use) : Prop :=
  exists before chain, chains f k = before ++ [chain ++ [y]].

(** The use [x] of the computation goes on directly from the result of the use [z]. *)
Definition goes_on (f : flavour) (k : computation) (z x : use) : Prop :=
  exists before after, In (before ++ z :: x :: after) (chains f k).
