(** Which programs an observer of time and memory traffic must not be able to
    tell apart.  Specification only. *)
From Coq Require Import Arith NArith List Bool.
From Coq Require Import Init.Byte.
From Verif Require Import Spec ApiSpec Machine Views.
Import ListNotations.
Open Scope list_scope.
Local Notation length := List.length.

(** Two calls that differ in secret bytes only: in the bytes of a key, of a
    message, of a digest or of a string compared with a digest, never in how
    many they are, nor in anything else. *)
Definition same_shape (c c' : call) : Prop :=
  alike c c' /\
  match c, c' with
  | EqSlice _ b, EqSlice _ b' => length b = length b'
  | _, _ => True
  end.

(** Calls that make a text of a digest. *)
Definition spells_digest (c : call) : bool := match c with ToHex _ | ShowHash _ => true | _ => false end.
