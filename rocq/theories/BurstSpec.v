(** Vocabulary of C62: iterators of the caller that do something themselves and
    that may panic. *)
From Coq Require Import Arith List.
From Verif Require Import LazySpec.
Import ListNotations.

(** What a next() call comes to. *)
Inductive answer (A : Type) : Type :=
| Gives (item : nat * A)   (* Some(item) *)
| Ends                     (* None *)
| Panics.
Arguments Gives {A}.
Arguments Ends {A}.
Arguments Panics {A}.

(** A caller's next(), as LazySpec.machine; what it has done to the objects
    before it panics stays done. *)
Definition device (S C A : Type) : Type := S -> list C -> S * list C * answer A.

(** Calls next() until it ends or panics, at most [n] times, before anything is
    done with the items: the items, whether it ended (or else panicked), and the
    iterator and the objects then. *)
Fixpoint drain {S C A} (step : device S C A) (n : nat) (s : S) (objects : list C)
    : option (list (nat * A) * bool * S * list C) :=
  match n with
  | 0 => None
  | Datatypes.S n' =>
      let '(s', objects', o) := step s objects in
      match o with
      | Ends => Some ([], true, s', objects')
      | Panics => Some ([], false, s', objects')
      | Gives item =>
          match drain step n' s' objects' with
          | Some (items, ended, s'', objects'') => Some (item :: items, ended, s'', objects'')
          | None => None
          end
      end
  end.

(** What the borrow checker makes sure of, as LazySpec.borrows. *)
Record lends {S C A} (step : device S C A) (fine : S -> list C -> Prop) (out : S -> list nat) : Prop := {
  remains_fine : forall s objects s' objects' o, fine s objects ->
    step s objects = (s', objects', o) -> fine s' objects';
  fine_still : forall s objects r c, fine s objects -> In r (out s) -> fine s (exchange objects r c);
  remains_out : forall s objects s' objects' o r, fine s objects -> step s objects = (s', objects', o) ->
    In r (out s) -> In r (out s');
  passes_out : forall s objects s' objects' r a, fine s objects -> step s objects = (s', objects', Gives (r, a)) ->
    ~ In r (out s) /\ In r (out s') /\ r < length objects';
  not_touched : forall s objects s' objects' o r, fine s objects -> step s objects = (s', objects', o) ->
    In r (out s) -> nth_error objects' r = nth_error objects r;
  not_seen : forall s objects s' objects' o r c, fine s objects -> step s objects = (s', objects', o) ->
    In r (out s) -> step s (exchange objects r c) = (s', exchange objects' r c, o) }.

(** ** Iterators that use the library and then end or panic *)
Section Deeds.
Context {C D A O : Type}.
Variable perform : D -> list C -> list C * list O.
(** [LazySpec.next_of_writer], but after the last item it does its last things
    and panics if [panics]. *)
Definition next_or_panic (panics : bool) : device (writer D A O) C A := fun w objects =>
  let '(w', objects', o) := next_of_writer perform w objects in
  (w', objects', match o with Some item => Gives item | None => if panics then Panics else Ends end).
End Deeds.
