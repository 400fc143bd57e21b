(** Model of the whole command-line tool, from the words on the command line to
    the bytes on its two output streams: blake2_bin/src/main.rs:350-390 with the
    command line of Args.v and the streams of Out.v.

    [usage] is the text of clap's error message, [about] that of --help and
    --version; clap is not in /repo (reached from main.rs:351).  Simplification: the
    texts do not depend on the command line. *)
From Coq Require Import String Ascii.
From Coq Require Import Arith NArith List Bool.
From Coq Require Import Init.Byte Strings.Byte.
From Verif Require Import Base Impl Api.
From Verif Require Import BinSpec OutSpec Bin Out Args.
Import ListNotations.
Open Scope list_scope.
Open Scope nat_scope.

(** clap's Error::exit for a usage error: writeln! to standard error, whose result is dropped, then exit(1) (clap,
    not in /repo; main.rs:351). *)
Definition exit_usage (s : io) (usage : list byte) : report :=
  let '(r, f) := print_err (io_err s) [usage; nl] in
  let s := {| io_out := io_out s; io_err := f; io_complaints := io_complaints s |} in
  match r with WStuck => stay s None | _ => leave s (Exited 1) end.

(** clap's Error::exit for --help and --version: writeln! to standard output, expect, then exit(0) (clap, not in
    /repo; main.rs:351). *)
Definition exit_info (s : io) (text : string) : report :=
  say s [list_byte_of_string text; nl] (fun s => leave s (Exited 0)).

(** main, main.rs:350-390. *)
Definition blake2_out (why : nat -> list byte) (usage : list byte) (t : target) (e : env) (about : info -> string)
    (files : string -> source) (argv : list string) (stdin : list event) (outs errs : list answer) : report :=
  let s := {| io_out := {| so_fd := {| seen := []; answers := outs |}; so_buf := [] |};
              io_err := {| seen := []; answers := errs |}; io_complaints := 0 |} in
  match from_args argv with
  | Parsed o ps => main_out why t e o (map (fun p => (p, files p)) ps) stdin outs errs
  | Stopped UsageError => exit_usage s usage
  | Stopped (Shown i) => exit_info s (about i)
  | Stopped InvalidUtf8 | UnwrapPanic => leave s Aborted
  end.
