(** Vocabulary of C60: iterators of the caller that do something themselves. *)
From Coq Require Import Arith List.
Import ListNotations.

(** A caller's next(): from the state of the iterator and the objects of the
    program to their new values and the item handed out: a reference (a
    position among the objects) with something beside it. *)
Definition machine (S C A : Type) : Type := S -> list C -> S * list C * option (nat * A).

(** collect(): calls next() until it says None, at most [n] times, before
    anything is done with the items. *)
Fixpoint collect {S C A} (step : machine S C A) (n : nat) (s : S) (objects : list C)
    : option (list (nat * A) * S * list C) :=
  match n with
  | 0 => None
  | Datatypes.S n' =>
      let '(s', objects', o) := step s objects in
      match o with
      | None => Some ([], s', objects')
      | Some item =>
          match collect step n' s' objects' with
          | Some (items, s'', objects'') => Some (item :: items, s'', objects'')
          | None => None
          end
      end
  end.

(** The objects with the one at position r replaced. *)
Fixpoint exchange {C} (objects : list C) (r : nat) (c : C) : list C :=
  match objects, r with
  | [], _ => []
  | _ :: l, 0 => c :: l
  | x :: l, Datatypes.S r' => x :: exchange l r' c
  end.

(** What the borrow checker makes sure of.  [fine] says in which situations the
    iterator can be and [out] which objects it has handed out by then.  An object
    that is out is neither changed nor looked at by next(): whatever value it
    has, next() does and answers the same.  None is handed out twice. *)
Record borrows {S C A} (step : machine S C A) (fine : S -> list C -> Prop) (out : S -> list nat) : Prop := {
  stays_fine : forall s objects s' objects' o, fine s objects ->
    step s objects = (s', objects', o) -> fine s' objects';
  fine_anyway : forall s objects r c, fine s objects -> In r (out s) -> fine s (exchange objects r c);
  stays_out : forall s objects s' objects' o r, fine s objects -> step s objects = (s', objects', o) ->
    In r (out s) -> In r (out s');
  goes_out : forall s objects s' objects' r a, fine s objects -> step s objects = (s', objects', Some (r, a)) ->
    ~ In r (out s) /\ In r (out s') /\ r < length objects';
  untouched : forall s objects s' objects' o r, fine s objects -> step s objects = (s', objects', o) ->
    In r (out s) -> nth_error objects' r = nth_error objects r;
  unseen : forall s objects s' objects' o r c, fine s objects -> step s objects = (s', objects', o) ->
    In r (out s) -> step s (exchange objects r c) = (s', exchange objects' r c, o) }.

(** ** Iterators that use the library *)
(** An iterator whose every next() first does some things (deeds) and then hands
    out an item; when there is none left it does some last things and ends. *)
Record writer (D A O : Type) : Type := {
  to_do : list (list D * (nat * A));
  at_end : list D;
  gone : list nat;          (* what it has handed out *)
  log : list O }.           (* what the deeds showed it *)
Arguments to_do {D A O}.
Arguments at_end {D A O}.
Arguments gone {D A O}.
Arguments log {D A O}.

Section Deeds.
Context {C D A O : Type}.
Variable perform : D -> list C -> list C * list O.
Fixpoint perform_all (ds : list D) (objects : list C) : list C * list O :=
  match ds with
  | [] => (objects, [])
  | d :: r => let '(objects1, x) := perform d objects in
              let '(objects2, y) := perform_all r objects1 in (objects2, x ++ y)
  end.
Definition next_of_writer : machine (writer D A O) C A := fun w objects =>
  match to_do w with
  | [] => let '(objects', x) := perform_all (at_end w) objects in
          ({| to_do := []; at_end := []; gone := gone w; log := log w ++ x |}, objects', None)
  | (ds, (r, a)) :: rest =>
      let '(objects', x) := perform_all ds objects in
      ({| to_do := rest; at_end := at_end w; gone := r :: gone w; log := log w ++ x |}, objects', Some (r, a))
  end.
(** What the borrow checker asks of such an iterator, in a program with [n]
    objects: deeds use only objects that are not out, and nothing goes out twice. *)
Variable uses : D -> list nat.
Definition allowed (n : nat) (gone : list nat) (ds : list D) : Prop :=
  forall d r, In d ds -> In r (uses d) -> ~ In r gone /\ r < n.
Fixpoint checked (n : nat) (gone : list nat) (rest : list (list D * (nat * A))) (last : list D) : Prop :=
  match rest with
  | [] => allowed n gone last
  | (ds, (r, _)) :: rest' => allowed n gone ds /\ ~ In r gone /\ r < n /\ checked n (r :: gone) rest' last
  end.
End Deeds.
