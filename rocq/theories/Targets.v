(** Model of the fuzz targets (blake2b/fuzz/fuzz_targets/, blake2s/fuzz/fuzz_targets/) and of the tests that
    run the command-line tool (blake2_bin/tests/test.rs).

    A fuzz target is a computation on the fuzzer's data that should return; libfuzzer reports a panic as a
    failure.  A test is a computation that returns unit or panics.  Simplifications: the temporary file of a
    test is an argument, as are the system's answers to reads and writes; cargo_bin finds the tool. *)
From Coq Require Import String.
From Coq Require Import Arith NArith List Bool.
From Coq Require Import Init.Byte Strings.Byte.
From Verif Require Import Base Guts Impl Lib Par.
From Verif Require Import ApiSpec Api BinSpec OutSpec Tool Args Xof.
Import ListNotations.
Open Scope list_scope.
Open Scope nat_scope.
Local Notation length := List.length.

(** ** Fuzz targets *)

(** fuzz_blake2b.rs:6-8; s: fuzz_blake2s.rs:6-8. *)
Definition fuzz_blake2 (v : variant) (e : env) (imp : platform) (data : list byte) : outcome unit :=
  do _ <- blake2_default v e imp data; Ret tt.
(** fuzz_blake2bp.rs:6-8; s: fuzz_blake2sp.rs:6-8. *)
Definition fuzz_blake2p (v : variant) (e : env) (imp : platform) (data : list byte) : outcome unit :=
  do _ <- blake2p_default v e imp data; Ret tt.

(** struct Wrapper, fuzz_updates.rs:6-12 in each crate. *)
Record wrapper := { wr_hash_length : nat; wr_key : list byte; wr_personal : list byte; wr_updates : list (list byte) }.
(** fuzz_updates.rs:14-35 in each crate. *)
Definition fuzz_updates (v : variant) (e : env) (imp : platform) (w : wrapper) : outcome unit :=
  if Nat.ltb (personalbytes v) (length (wr_personal w)) then Ret tt
  else if Nat.ltb (keybytes v) (length (wr_key w)) then Ret tt
  else if Nat.ltb (wr_hash_length w) 1 || Nat.ltb (outbytes v) (wr_hash_length w) then Ret tt
  else
    do p <- chain v (params_new v imp) [HashLength (wr_hash_length w); Key (wr_key w); Personal (wr_personal w)];
    do s <- update_all v e (to_state v p) (wr_updates w);
    do _ <- finalize v e s;
    Ret tt.

(** ** Tests of the tool *)

(** duct's read() (not in /repo; test.rs:14): standard output without the line ends at its end, or an error
    if the status is not 0. *)
Definition line_end (b : byte) : bool := Byte.eqb b x0a || Byte.eqb b x0d.
(** The removal of line ends, on the reversed text (duct, not in /repo; test.rs:14). *)
Fixpoint drop_line_ends (l : list byte) : list byte :=
  match l with
  | b :: r => if line_end b then drop_line_ends r else l
  | [] => []
  end.
(** cmd!(blake2_exe(), argv...).stdin_bytes(...).read().expect(...), test.rs:12-15 and the like.  [Diverge] if
    the tool does not end. *)
Definition read_tool (r : report) : outcome (list byte) :=
  match OutSpec.ended r with
  | Some (Exited 0) => Ret (rev (drop_line_ends (rev (on_out r))))
  | Some _ => Panic
  | None => Diverge
  end.
(** A test of the tool, test.rs:11-17, 20-28, 31-39, 77-86, 90-96, 115-119, 139-143, 150-154, 161-165: run it
    and compare what it printed with the recorded text. *)
Definition tool_case (r : report) (expected : string) : outcome unit :=
  do got <- read_tool r;
  assert_ (if list_eq_dec Byte.byte_eq_dec (list_byte_of_string expected) got then true else false).

(** The words of the tests' command lines, where [path] is the temporary file: test.rs:12, 24, 35, 82, 91,
    101-114, 125-138, 149, 160. *)
Definition test_lines (path : string) : list (list string) :=
  [["--length=16"];
   ["--length=16"; path];
   ["--length=16"; "--mmap"; path];
   ["-bp"; path];
   ["--length=16"; "--last-node"];
   ["-b"; "--length=18"; "--key=626172"; "--salt=62617a62617a62617a62617a62617a62";
    "--personal=62696e672062696e672062696e672062"; "--fanout=2"; "--max-depth=3"; "--max-leaf-length=67438087";
    "--node-offset=579005069656919567"; "--node-depth=16"; "--inner-hash-length=17"; "--last-node"];
   ["-s"; "--length=18"; "--key=626172"; "--salt=62617a62617a6261";
    "--personal=62696e672062696e"; "--fanout=2"; "--max-depth=3"; "--max-leaf-length=67438087";
    "--node-offset=8834916224013"; "--node-depth=16"; "--inner-hash-length=17"; "--last-node"];
   ["-bp"; "--length=18"; "--key=626172"];
   ["-sp"; "--length=18"; "--key=626172"]]%string.
