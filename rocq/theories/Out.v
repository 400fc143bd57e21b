(** Model of the output of the command-line tool: blake2_bin/src/main.rs:350-390
    with println! and eprintln! as the standard library does them.

    Standard output is a LineWriter of 1024 bytes around the descriptor,
    standard error is not buffered; a failing println! or eprintln! panics; the
    buffer is flushed once more when the process is left, by exit() or by a panic.
    Simplifications: the message of the panic itself, which also goes to standard
    error, is left out; a path is the text that to_string_lossy gives, which is the path
    itself (C49_always: paths that are not text do not get here). *)
From Coq Require Import String Ascii.
From Coq Require Import Arith NArith List Bool.
From Coq Require Import Init.Byte Strings.Byte.
From Verif Require Import Base Impl Api.
From Verif Require Import BinSpec OutSpec Bin.
Import ListNotations.
Open Scope list_scope.
Open Scope nat_scope.
Local Notation length := List.length.

(** io::Result<()>, or no answer yet: the ways a write ends (main.rs:364-382). *)
Inductive wres := WOk | WErr | WStuck.

(** A descriptor: what was written to it, and its further answers (main.rs:364-382). *)
Record stream := { seen : list byte; answers : list answer }.

(** Write::write_all on a descriptor, and BufWriter::flush_buf, which does the same with the buffer (std, not in
    /repo; called by println!/eprintln!, main.rs:364-382): try again after an interruption, fail if no byte is
    taken; a descriptor that is not open takes everything (std's handle_ebadf).  Also gives what is left. *)
Fixpoint put (file : list byte) (as_ : list answer) (buf : list byte) : wres * stream * list byte :=
  match buf with
  | [] => (WOk, {| seen := file; answers := as_ |}, [])
  | _ :: _ =>
      match as_ with
      | [] => (WStuck, {| seen := file; answers := [] |}, buf)
      | Took n :: r =>
          let n := Nat.min n (length buf) in
          if Nat.eqb n 0 then (WErr, {| seen := file; answers := r |}, buf)
          else put (file ++ firstn n buf) r (skipn n buf)
      | Again :: r => put file r buf
      | Broke :: r => (WErr, {| seen := file; answers := r |}, buf)
      | Closed :: r => (WOk, {| seen := file; answers := r |}, [])
      end
  end.

(** Standard output: the descriptor and the buffer of its LineWriter (std; main.rs:364, 375, 377). *)
Record stdout := { so_fd : stream; so_buf : list byte }.

(** LineWriter's capacity (std; main.rs:364). *)
Definition capacity : nat := 1024.

(** BufWriter::flush_buf (std; main.rs:364). *)
Definition flush_buf (s : stdout) : wres * stdout :=
  let '(r, fd, rest) := put (seen (so_fd s)) (answers (so_fd s)) (so_buf s) in
  (r, {| so_fd := fd; so_buf := rest |}).

(** [?] on io::Result (std; main.rs:364). *)
Definition wthen (x : wres * stdout) (k : stdout -> wres * stdout) : wres * stdout :=
  match x with (WOk, s) => k s | _ => x end.

(** Copying into the buffer (std; main.rs:364). *)
Definition keep (s : stdout) (buf : list byte) : stdout := {| so_fd := so_fd s; so_buf := so_buf s ++ buf |}.

(** Writing past the buffer (std; main.rs:364). *)
Definition put_fd (s : stdout) (buf : list byte) : wres * stdout :=
  let '(r, fd, _) := put (seen (so_fd s)) (answers (so_fd s)) buf in
  (r, {| so_fd := fd; so_buf := so_buf s |}).

(** BufWriter::write_all (std; main.rs:364). *)
Definition buf_write_all (s : stdout) (buf : list byte) : wres * stdout :=
  let spare := capacity - length (so_buf s) in
  if Nat.ltb (length buf) spare then (WOk, keep s buf)
  else wthen (if Nat.ltb spare (length buf) then flush_buf s else (WOk, s))
    (fun s => if Nat.leb capacity (length buf) then put_fd s buf else (WOk, keep s buf)).

(** memrchr: the length of what ends with the last newline (std; main.rs:364). *)
Fixpoint through_last_nl (buf : list byte) : option nat :=
  match buf with
  | [] => None
  | b :: r => match through_last_nl r with
              | Some n => Some (S n)
              | None => if Byte.eqb b x0a then Some 1 else None
              end
  end.
(** LineWriterShim::flush_if_completed_line (std; main.rs:364). *)
Definition flush_if_completed_line (s : stdout) : wres * stdout :=
  match so_buf s with
  | [] => (WOk, s)
  | b :: r => if Byte.eqb (last (b :: r) x00) x0a then flush_buf s else (WOk, s)
  end.
(** LineWriterShim::write_all (std; main.rs:364). *)
Definition line_write_all (s : stdout) (buf : list byte) : wres * stdout :=
  match through_last_nl buf with
  | None => wthen (flush_if_completed_line s) (fun s => buf_write_all s buf)
  | Some n =>
      wthen
        (match so_buf s with
         | [] => put_fd s (firstn n buf)
         | _ :: _ => wthen (buf_write_all s (firstn n buf)) flush_buf
         end)
        (fun s => buf_write_all s (skipn n buf))
  end.

(** println!, main.rs:364, 375, 377: the pieces of the format string and the arguments, in order. *)
Fixpoint print_out (s : stdout) (pieces : list (list byte)) : wres * stdout :=
  match pieces with
  | [] => (WOk, s)
  | p :: r => wthen (line_write_all s p) (fun s => print_out s r)
  end.
(** eprintln!, main.rs:356, 366, 381: unbuffered. *)
Fixpoint print_err (s : stream) (pieces : list (list byte)) : wres * stream :=
  match pieces with
  | [] => (WOk, s)
  | p :: r =>
      let '(x, s, _) := put (seen s) (answers s) p in
      match x with WOk => print_err s r | _ => (x, s) end
  end.

(** Both streams, and how many complaints were made (a modelling device, to find their reasons): main.rs:350-390. *)
Record io := { io_out : stdout; io_err : stream; io_complaints : nat }.

(** Leaving the process (main.rs:357, 388, 390, or a panic): what is in the buffer is flushed, errors are
    ignored. *)
Definition leave (s : io) (e : ending) : report :=
  let '(r, o) := flush_buf (io_out s) in
  {| on_out := seen (so_fd o); on_err := seen (io_err s);
     ended := match r with WStuck => None | _ => Some e end |}.
(** Not leaving it: as [leave], when a write has not been answered, or the program is in an endless loop
    (main.rs:350-390). *)
Definition stay (s : io) (e : option ending) : report :=
  {| on_out := seen (so_fd (io_out s)); on_err := seen (io_err s); ended := e |}.

(** println! (main.rs:364, 375, 377), and what follows. *)
Definition say (s : io) (pieces : list (list byte)) (k : io -> report) : report :=
  let '(r, o) := print_out (io_out s) pieces in
  let s := {| io_out := o; io_err := io_err s; io_complaints := io_complaints s |} in
  match r with WOk => k s | WErr => leave s Aborted | WStuck => stay s None end.
(** eprintln! (main.rs:356, 366, 381), and what follows. *)
Definition complain (s : io) (pieces : list (list byte)) (k : io -> report) : report :=
  let '(r, f) := print_err (io_err s) pieces in
  let s := {| io_out := io_out s; io_err := f; io_complaints := S (io_complaints s) |} in
  match r with WOk => k s | WErr => leave s Aborted | WStuck => stay s None end.

Section Tool.
Variable why : nat -> list byte.   (* the text of the operating system's errors *)
Variables (t : target) (e : env) (opt : options).

(** The for loop of main, main.rs:371-385, and what follows it (387-389). *)
Fixpoint hash_inputs_out (params : tool_params) (several failed : bool)
    (inputs : list (string * source)) (s : io) : report :=
  match inputs with
  | [] => leave s (Exited (if failed then 1 else 0))
  | (name, path) :: rest =>
      let name := list_byte_of_string name in
      match hash_file e opt params path with
      | Ret (Ok hash) =>
          let hash := list_byte_of_string hash in
          say s (if several then [hash; list_byte_of_string "  "; name; nl] else [hash; nl])
            (hash_inputs_out params several failed rest)
      | Ret (Error err) =>
          complain s [list_byte_of_string "blake2: "; name; list_byte_of_string ": "; reason_text err (why (io_complaints s)); nl]
            (hash_inputs_out params several true rest)
      | Panic => leave s Aborted
      | UB => stay s (Some Undefined)
      | Diverge => stay s (Some Endless)
      end
  end.

(** main, main.rs:350-390, on streams that answer as given. *)
Definition main_out (inputs : list (string * source)) (stdin : list event) (outs errs : list answer) : report :=
  let s := {| io_out := {| so_fd := {| seen := []; answers := outs |}; so_buf := [] |};
              io_err := {| seen := []; answers := errs |}; io_complaints := 0 |} in
  match make_params t opt with
  | Ret (Error err) =>
      complain s [list_byte_of_string "blake2: "; reason_text err (why (io_complaints s)); nl] (fun s => leave s (Exited 1))
  | Panic => leave s Aborted
  | UB => stay s (Some Undefined)
  | Diverge => stay s (Some Endless)
  | Ret (Ok params) =>
      match inputs with
      | [] =>
          match hash_stdin e opt params stdin with
          | Ret (Ok hash) => say s [list_byte_of_string hash; nl] (fun s => leave s (Exited 0))
          | Ret (Error err) =>
              complain s [list_byte_of_string "blake2: stdin: "; reason_text err (why (io_complaints s)); nl]
                (fun s => leave s (Exited 1))
          | Panic => leave s Aborted
          | UB => stay s (Some Undefined)
          | Diverge => stay s (Some Endless)
          end
      | _ => hash_inputs_out params (Nat.ltb 1 (length inputs)) false inputs s
      end
  end.
End Tool.
