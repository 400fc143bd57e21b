(** Model of the test runner, run_all_tests/src/main.rs.

    Left out: what it prints, the project's root directory and the value of CARGO_TARGET_DIR (main.rs:5-9, 37-40);
    cargo itself, whose answers are an argument. *)
From Coq Require Import String.
From Coq Require Import Arith NArith List Bool.
Import ListNotations.
Open Scope list_scope.

(** What becomes of a command that is started (Command::status, main.rs:16-20): it cannot be started, it ends with a
    code, or a signal kills it. *)
Inductive answer := NoSpawn | Code (c : N) | Signal (s : N).
(** A command: the directory that it runs in, and cargo's arguments (main.rs:28-32). *)
Record command := { c_project : string; c_flags : list string }.
(** How the runner ends: main returns, process::exit(1), or a panic (main.rs:20, 24). *)
Inductive ending := Returned | Exit1 | Panicked.

(** The commands run so far, and whether the runner goes on (None) or has ended (main.rs:11-32). *)
Record state := { ran : list command; over : option ending }.
(** run_cmd, main.rs:11-26, through run_cargo_cmd, main.rs:28-32; [answers i] is what becomes of the i-th command. *)
Definition run_cargo_cmd (answers : nat -> answer) (project : string) (flags : list string) (s : state) : state :=
  match over s with
  | Some _ => s
  | None =>
      let status := answers (length (ran s)) in
      {| ran := ran s ++ [{| c_project := project; c_flags := flags |}];
         over := match status with
                 | NoSpawn => Some Panicked
                 | Code 0 => None
                 | Code _ | Signal _ => Some Exit1
                 end |}
  end.

(** The inner loop of main, main.rs:44-50. *)
Definition test_project (answers : nat -> answer) (project : string) (s : state) : state :=
  fold_left (fun s (no_std : bool) =>
    let flags := ["test"%string] in
    let flags := if no_std then flags ++ ["--no-default-features"%string] else flags in
    run_cargo_cmd answers project flags s) [false; true] s.
(** main, main.rs:34-67. *)
Definition main (answers : nat -> answer) : list command * ending :=
  let s := {| ran := []; over := None |} in
  let s := fold_left (fun s project => test_project answers project s) ["blake2b"; "blake2s"; "."; "blake2_bin"]%string s in
  let s := run_cargo_cmd answers "." ["test"; "--release"]%string s in
  let s := run_cargo_cmd answers "blake2b" ["test"; "--release"; "--features=uninline_portable"]%string s in
  let s := run_cargo_cmd answers "blake2b/fuzz" ["check"]%string s in
  let s := run_cargo_cmd answers "blake2s/fuzz" ["check"]%string s in
  (ran s, match over s with Some e => e | None => Returned end).
