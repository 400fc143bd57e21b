(** How a program or a person reads what the command-line tool printed for
    several files.  Specification only. *)
From Coq Require Import List.
From Coq Require Import Init.Byte Strings.Byte.
Import ListNotations.

(** The lines of a text. *)
Fixpoint text_lines (l : list byte) : list (list byte) :=
  match l with
  | [] => []
  | b :: r =>
      if Byte.eqb b x0a then [] :: text_lines r
      else match text_lines r with [] => [[b]] | line :: more => (b :: line) :: more end
  end.
(** What stands before the first blank of a line, and the rest. *)
Fixpoint first_word (l : list byte) : list byte * list byte :=
  match l with
  | [] => ([], [])
  | b :: r => if Byte.eqb b x20 then ([], l) else let '(w, rest) := first_word r in (b :: w, rest)
  end.
(** A line is a digest in hexadecimal, two blanks, and the name of a file. *)
Definition digest_and_name (line : list byte) : list byte * list byte :=
  let '(digest, rest) := first_word line in (digest, skipn 2 rest).
Definition read_back (out : list byte) : list (list byte * list byte) := map digest_and_name (text_lines out).
