(** Tree hashing by hand, as the BLAKE2 paper (section 2.10) describes it and as
    the settings fanout, max_depth, node_offset, node_depth, inner_hash_length
    and last_node are there for (/repo/blake2b/src/lib.rs 283-337 and
    /repo/blake2s/src/lib.rs likewise).  Specification only: which nodes a tree
    has, and which digest its root has. *)
From Coq Require Import Arith NArith List Bool.
From Coq Require Import Init.Byte.
From Verif Require Import Spec ApiSpec Calls Collisions.
Import ListNotations.
Open Scope nat_scope.

(** A list in groups of [k], the last of which may be shorter. *)
Fixpoint grouped {A} (fuel k : nat) (l : list A) : list (list A) :=
  match fuel, l with
  | S n, _ :: _ => firstn k l :: grouped n k (skipn k l)
  | _, _ => []
  end.
Definition in_groups {A} (k : nat) (l : list A) : list (list A) := grouped (length l) k l.

(** The leaves of a file: pieces of [p] bytes, and one empty leaf for an empty file. *)
Definition leaves_of (p : nat) (file : list byte) : list (list byte) :=
  match file with [] => [[]] | _ => in_groups p file end.

(** The items of a level with their positions, the last one marked. *)
Fixpoint placed {A} (i : nat) (l : list A) : list (nat * bool * A) :=
  match l with
  | [] => []
  | x :: r => (i, match r with [] => true | _ => false end, x) :: placed (S i) r
  end.

(** How one hashes trees: [t_common] are settings for all nodes (fanout, maximal
    depth, key, salt, ...), [t_arity d] is the number of nodes of level [d] that
    go into one node of the level above, nodes below the root have digests of
    [t_inner] bytes and the root has one of [t_out] bytes. *)
Record tree_mode := {
  t_common : list setting;
  t_arity : nat -> nat;
  t_inner : nat;
  t_out : nat }.

(** A mode is sensible if its settings have the types of the arguments, every
    node above the leaves has children, and the two lengths are in range. *)
Definition sensible (f : flavour) (t : tree_mode) : Prop :=
  Forall typed (t_common t) /\ (forall d, 1 <= t_arity t d) /\
  1 <= t_inner t <= max_out f /\ 1 <= t_out t <= max_out f.

(** The settings of the node at position [i] of level [d]; level 0 are the leaves. *)
Definition node_settings (t : tree_mode) (len d i : nat) (last : bool) : list setting :=
  t_common t ++ [HashLength len; InnerHashLength (t_inner t); NodeDepth (N.of_nat d);
                 NodeOffset (N.of_nat i); LastNode last].

(** A node: its configuration and the bytes that it hashes. *)
Definition node : Type := config * list byte.
Definition the_node (f : flavour) (t : tree_mode) (len d i : nat) (last : bool) (m : list byte) : node :=
  (configure f (node_settings t len d i last) (default_config f), m).
Definition node_digest (f : flavour) (x : node) : list byte := digest f (fst x) (snd x).

(** One level below the root, and the messages of the level above. *)
Definition level (f : flavour) (t : tree_mode) (d : nat) (ms : list (list byte)) : list node :=
  map (fun '(i, last, m) => the_node f t (t_inner t) d i last m) (placed 0 ms).
Definition above (f : flavour) (t : tree_mode) (d : nat) (xs : list node) : list (list byte) :=
  map (@concat byte) (in_groups (t_arity t d) (map (node_digest f) xs)).

(** All nodes of the tree on top of the messages of level [d], and its root.
    A level with one node is the root.  [fuel] bounds the number of levels. *)
Fixpoint nodes (f : flavour) (t : tree_mode) (fuel d : nat) (ms : list (list byte)) : list node :=
  match fuel with
  | O => []
  | S n =>
      match ms with
      | [m] => [the_node f t (t_out t) d 0 true m]
      | _ => let xs := level f t d ms in xs ++ nodes f t n (S d) (above f t d xs)
      end
  end.
Fixpoint root (f : flavour) (t : tree_mode) (fuel d : nat) (ms : list (list byte)) : option node :=
  match fuel with
  | O => None
  | S n =>
      match ms with
      | [m] => Some (the_node f t (t_out t) d 0 true m)
      | _ => root f t n (S d) (above f t d (level f t d ms))
      end
  end.

(** The same tree: node by node the same bytes under the same configuration. *)
Definition same_node (f : flavour) (x y : node) : Prop :=
  snd x = snd y /\ same_config f (fst x) (fst y).

(** Two trees contain a collision: nodes with the same digest that contain
    different uses of the compression function with the same result. *)
Definition tree_collision (f : flavour) (xs ys : list node) : Prop :=
  exists x y, In x xs /\ In y ys /\ node_digest f x = node_digest f y /\
    contain_collision f (length (node_digest f x))
      (uses f (fst x) (snd x)) (uses f (fst y) (snd y)).
