(** Views of a program that the statements of PropApi.v use: which calls name
    an object, which calls reveal digests, which programs differ in secrets
    only, how many bytes a program feeds.  Specification only. *)
From Coq Require Import String.
From Coq Require Import Arith NArith List Bool.
From Coq Require Import Init.Byte.
From Verif Require Import Spec ApiSpec Machine History.
Import ListNotations.
Open Scope list_scope.
Open Scope N_scope.
Local Notation length := List.length.

(** ** Calls that name one object *)
(** What a call does to the State number [k]: nothing, unless it names it. *)
Definition own_ops (k : nat) (c : call) : list op :=
  match c with
  | Update s m => if Nat.eqb s k then [DoUpdate m] else []
  | Write s m => if Nat.eqb s k then [DoWrite m] else []
  | WriteAll s m => if Nat.eqb s k then [DoWriteAll m] else []
  | SetLastNode s b => if Nat.eqb s k then [DoSetLastNode b] else []
  | UpdateMany xs => flat_map (fun '(s, m) => if Nat.eqb s k then [DoUpdate m] else []) (until_none xs)
  | _ => []
  end.

(** The same for BLAKE2bp / BLAKE2sp states. *)
Definition pown_ops (k : nat) (c : call) : list op :=
  match c with
  | PUpdate s m => if Nat.eqb s k then [DoUpdate m] else []
  | PWrite s m => if Nat.eqb s k then [DoWrite m] else []
  | PWriteAll s m => if Nat.eqb s k then [DoWriteAll m] else []
  | _ => []
  end.

(** Does a call run the job number [k]? *)
Definition runs (k : nat) (c : call) : bool :=
  match c with HashMany xs => existsb (Nat.eqb k) (until_none xs) | _ => false end.

(** What a call sets on the Params number [k]. *)
Definition own_settings (k : nat) (c : call) : list setting :=
  match c with Set_ p s => if Nat.eqb p k then [s] else [] | _ => [] end.

(** ** Panics *)
Definition setter_call (c : call) : bool := match c with Set_ _ _ | PSet _ _ => true | _ => false end.

(** The calls that carry an assertion of their own. *)
Definition asserting_call (c : call) : bool := match c with ToHash _ | AsArray _ => true | _ => false end.

(** Calls that report the number of bytes fed. *)
Definition counting_call (c : call) : bool :=
  match c with Count _ | ShowState _ | PCount _ | PShowState _ => true | _ => false end.

(** The number of bytes that a program feeds to states. *)
Definition bytes_of (c : call) : N :=
  match c with
  | Update _ m | Write _ m | WriteAll _ m | PUpdate _ m | PWrite _ m | PWriteAll _ m => N.of_nat (length m)
  | UpdateMany xs => N.of_nat (list_sum (map (fun x => length (snd x)) (until_none xs)))
  | _ => 0
  end.
Fixpoint input_bytes (prog : list call) : N :=
  match prog with [] => 0 | c :: r => bytes_of c + input_bytes r end.

(** ** Secrets *)
(** Calls whose purpose is to look at a digest. *)
Definition reveals (c : call) : bool :=
  match c with AsBytes _ | AsArray _ | ToHex _ | ShowHash _ | EqHash _ _ | EqSlice _ _ => true | _ => false end.

(** Calls that differ in key bytes and message bytes only, not in their number. *)
Definition alike_setting (s s' : setting) : Prop :=
  match s, s' with
  | Key k, Key k' => length k = length k'
  | _, _ => s = s'
  end.
Definition alike_psetting (s s' : psetting) : Prop :=
  match s, s' with
  | PKey k, PKey k' => length k = length k'
  | _, _ => s = s'
  end.
Definition alike_item (x y : option (nat * list byte)) : Prop :=
  match x, y with
  | Some (s, m), Some (s', m') => s = s' /\ length m = length m'
  | None, None => True
  | _, _ => False
  end.
Definition alike (c c' : call) : Prop :=
  match c, c' with
  | Set_ p s, Set_ p' s' => p = p' /\ alike_setting s s'
  | PSet p s, PSet p' s' => p = p' /\ alike_psetting s s'
  | OneShot m, OneShot m' | POneShot m, POneShot m' | HashFrom m, HashFrom m' => length m = length m'
  | HashWith p m, HashWith p' m' | PHashWith p m, PHashWith p' m' | NewJob p m, NewJob p' m'
  | Update p m, Update p' m' | Write p m, Write p' m' | WriteAll p m, WriteAll p' m'
  | PUpdate p m, PUpdate p' m' | PWrite p m, PWrite p' m' | PWriteAll p m, PWriteAll p' m' =>
      p = p' /\ length m = length m'
  | UpdateMany xs, UpdateMany xs' => Forall2 alike_item xs xs'
  | EqSlice h _, EqSlice h' _ => h = h'
  | _, _ => c = c'
  end.
