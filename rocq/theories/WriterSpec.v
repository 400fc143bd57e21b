(** What writing to a hash through the standard library's writers should do.

    A program is given a writer and does the following with it, in any order. *)
From Coq Require Import Arith NArith List Bool.
From Coq Require Import Init.Byte.
From Verif Require Import BinSpec.
Import ListNotations.
Open Scope list_scope.

Inductive wop :=
| Write (x : list byte)               (* w.write(x) *)
| WriteAll (x : list byte)            (* w.write_all(x) *)
| WriteFmt (pieces : list (list byte)) (* write!(w, ...), whose arguments come out as these pieces *)
| Flush                               (* w.flush() *)
| CopyFrom (evs : list event).        (* io::copy(&mut reader, &mut w), with what the reads answer *)

(** What such a call tells the program: a number of bytes, success, or an error. *)
Inductive answer := Count (n : N) | Success | Failure.

(** The bytes that a reader delivers before its end or its error, and whether it got to its end. *)
Fixpoint delivered (evs : list event) : list byte :=
  match evs with
  | Got [] :: _ | Failed :: _ | [] => []
  | Got bs :: r => bs ++ delivered r
  | Interrupted :: r => delivered r
  end.
Fixpoint complete (evs : list event) : bool :=
  match evs with
  | Got [] :: _ => true
  | Failed :: _ | [] => false
  | Got _ :: r | Interrupted :: r => complete r
  end.

(** The bytes that a call hands over, and the right answer. *)
Definition handed (o : wop) : list byte :=
  match o with
  | Write x | WriteAll x => x
  | WriteFmt pieces => concat pieces
  | Flush => []
  | CopyFrom evs => delivered evs
  end.
Definition right_answer (o : wop) : answer :=
  match o with
  | Write x => Count (N.of_nat (length x))
  | WriteAll _ | WriteFmt _ | Flush => Success
  | CopyFrom evs => if complete evs then Count (N.of_nat (length (delivered evs))) else Failure
  end.

(** A reader that comes to an end or fails, and whose reads deliver no more than they are asked for (8192 bytes). *)
Definition proper (o : wop) : Prop :=
  match o with
  | CopyFrom evs => (exists d, delivers evs d) /\ Forall (fun ev => match ev with Got bs => (N.of_nat (length bs) <= 8192)%N | _ => True end) evs
  | _ => True
  end.

(** Any program that only uses the required methods of a writer, write and flush, and goes on as their answers ([None]
    and [false] are errors) tell it: io::copy, compressors, serializers. *)
Inductive client (A : Type) :=
| Stop (a : A)
| AskWrite (x : list byte) (go_on : option nat -> client A)
| AskFlush (go_on : bool -> client A).
Arguments Stop {A}. Arguments AskWrite {A}. Arguments AskFlush {A}.
(** What it hands over, and its result, if every write takes all and nothing fails. *)
Fixpoint hands {A} (p : client A) : list byte :=
  match p with
  | Stop _ => []
  | AskWrite x go_on => x ++ hands (go_on (Some (length x)))
  | AskFlush go_on => hands (go_on true)
  end.
Fixpoint yields {A} (p : client A) : A :=
  match p with
  | Stop a => a
  | AskWrite x go_on => yields (go_on (Some (length x)))
  | AskFlush go_on => yields (go_on true)
  end.
