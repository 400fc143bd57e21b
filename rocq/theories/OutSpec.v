(** What the command-line tool leaves on its two output streams when writing to
    them can fail.  Specification only; the streams' answers are the operating
    system's. *)
From Coq Require Import String Ascii.
From Coq Require Import Arith NArith List Bool.
From Coq Require Import Init.Byte Strings.Byte.
From Verif Require Import BinSpec.
Import ListNotations.
Open Scope list_scope.
Local Notation length := List.length.

(** The answer of one write(2): so many bytes were taken, it was interrupted,
    it failed (a full disk, a closed pipe), or the descriptor is not open. *)
Inductive answer := Took (n : nat) | Again | Broke | Closed.
(** Answers after which the stream is of no use: an error, or no byte taken. *)
Definition broken (a : answer) : Prop := a = Broke \/ a = Took 0.
(** Answers that get ahead. *)
Definition useful (a : answer) : bool := match a with Took (S _) => true | _ => false end.
(** Answers after which the program gets ahead, though the text may be lost. *)
Definition ahead (a : answer) : bool := useful a || match a with Closed => true | _ => false end.

Definition nl : list byte := [x0a].
(** What the lines of a run (BinSpec.v) should put on standard output. *)
Definition out_text (ls : list line) : list byte :=
  flat_map (fun l => match l with Out s => list_byte_of_string s ++ nl | _ => [] end) ls.

(** And on standard error.  [why i] is the reason that the operating system (or the argument parser) gives in the
    [i]-th complaint. *)
Definition reason_text (r : reason) (why : list byte) : list byte :=
  match r with Said s => list_byte_of_string s | System => why end.
Definition complaint_text (l : line) (why : list byte) : list byte :=
  match l with
  | Out _ => []
  | Complaint about r => list_byte_of_string ("blake2: " ++ about ++ ": ") ++ reason_text r why ++ nl
  | Refusal r => list_byte_of_string "blake2: " ++ reason_text r why ++ nl
  | Misuse => why ++ nl
  end.
Fixpoint err_text (why : nat -> list byte) (i : nat) (ls : list line) : list byte :=
  match ls with
  | [] => []
  | Out _ :: r => err_text why i r
  | l :: r => complaint_text l (why i) ++ err_text why (S i) r
  end.

(** What is on the two streams in the end, and how the run ended; [None] if
    it is still waiting for the system to answer a write, or was killed then. *)
Record report := { on_out : list byte; on_err : list byte; ended : option ending }.

Definition begins {A} (p l : list A) : Prop := exists r, l = p ++ r.
