(** Model of the tests that run over the file of recorded vectors: tests/vector_tests.rs and test_vectors of
    benches/blake2-avx2-sneves/src/lib.rs:70-97, from the list of cases that serde_json reads out of the file on
    (reading JSON is left out, and so are println! and dbg!).  A test returns unit or panics, as in Suite.v. *)
From Coq Require Import String Ascii.
From Coq Require Import Arith NArith List Bool.
From Coq Require Import Init.Byte.
From Verif Require Import Base Guts Impl Lib Par Bin Xof Suite Sneves.
Import ListNotations.
Open Scope list_scope.
Open Scope N_scope.
Local Notation length := List.length.

(** TestCase, vector_tests.rs:16-23; lib.rs:61-68. *)
Record test_case := { tc_hash : string; tc_in : string; tc_key : string; tc_out : string }.

(** hex::decode(x).unwrap(): vector_tests.rs:33, 36; the crate's version 0.3 decodes as 0.4 does (Bin.hex_decode). *)
Definition unwrap_hex (s : string) : outcome (list byte) :=
  match hex_decode s with Ok bytes => Ret bytes | Error _ => Panic end.
(** hex::encode (the hex crate, not in /repo), called at vector_tests.rs:202: two digits of the table for each byte. *)
Fixpoint hex_encode (bytes : list byte) : string :=
  match bytes with
  | [] => EmptyString
  | b :: r =>
      String (nth (N.to_nat (N.shiftr (b2n b) 4)) hex_table "0"%char)
        (String (nth (N.to_nat (N.land (b2n b) 15)) hex_table "0"%char) (hex_encode r))
  end.

(** The input and the key of a case, then [body]: vector_tests.rs:33-38, 65-70, 97-102, 129-134, 164-169. *)
Definition decoded_case (body : list byte -> list byte -> string -> outcome unit) (c : test_case) : outcome unit :=
  do input <- unwrap_hex (tc_in c);
  do key <- (if String.eqb (tc_key c) "" then Ret [] else unwrap_hex (tc_key c));
  body input key (tc_out c).
(** The loop of the tests: vector_tests.rs:27-49, 59-81, 91-113, 123-145, 159-204.  test_num is a u64 that
    counts elements of a Vec, so it does not overflow. *)
Fixpoint vector_loop (name : string) (body : test_case -> outcome unit) (cases : list test_case) (test_num : N) : outcome N :=
  match cases with
  | [] => Ret test_num
  | c :: r =>
      if String.eqb (tc_hash c) name
      then do _ <- body c; vector_loop name body r (test_num + 1)
      else vector_loop name body r test_num
  end.
(** The loop and the count at the end: vector_tests.rs:51-54, 83-86, 115-118, 147-150, 206-209. *)
Definition vectors (name : string) (body : list byte -> list byte -> string -> outcome unit) (cases : list test_case) : outcome unit :=
  do test_num <- vector_loop name (decoded_case body) cases 0;
  assert_ (N.eqb 512 test_num).

Section Vectors.
(** [imp] is what Implementation::detect() returns. *)
Variables (v : variant) (e : env) (imp : platform).

(** blake2b_vectors, vector_tests.rs:25-55; blake2s_vectors, 89-119. *)
Definition one_vectors : list test_case -> outcome unit :=
  vectors (match v with V2b => "blake2b" | V2s => "blake2s" end) (vector_case v e imp).
(** blake2bp_vectors, vector_tests.rs:57-87; blake2sp_vectors, 121-151. *)
Definition p_vectors : list test_case -> outcome unit :=
  vectors (match v with V2b => "blake2bp" | V2s => "blake2sp" end) (p_vector_case v e imp).
(** The body of blake2x_test for one decoded case: vector_tests.rs:171-202. *)
Definition x_vector_case (input key : list byte) (out : string) : outcome unit :=
  do buf <- xof v e imp (Nat.div (String.length out) 2) key input;
  assert_ (String.eqb out (hex_encode buf)).
(** blake2xb_vectors, vector_tests.rs:245-276; blake2xs_vectors, 212-243. *)
Definition x_vectors : list test_case -> outcome unit :=
  vectors (match v with V2b => "blake2xb" | V2s => "blake2xs" end) x_vector_case.
End Vectors.

(** ** The vendored C library *)
(** assert_eq! on two byte vectors, lib.rs:90. *)
Definition assert_bytes (a b : list byte) : outcome unit := assert_ (if list_eq_dec Byte.byte_eq_dec a b then true else false).
(** The loop of test_vectors, lib.rs:74-92.  [junk n i]: what the uninitialised buffer of [n] bytes in the C code
    contains in the call for the case with [i] cases after it. *)
Fixpoint sneves_loop (p : permute) (t : target) (e : env) (junk : nat -> nat -> list byte) (cases : list test_case) (num : N) : outcome N :=
  match cases with
  | [] => Ret num
  | c :: r =>
      do input <- unwrap_hex (tc_in c);
      do output <- unwrap_hex (tc_out c);
      let continue := sneves_loop p t e junk r in
      if negb (String.eqb (tc_key c) "") then continue num
      else
        let check found := do f <- found; do _ <- assert_bytes output f; continue (num + 1) in
        if String.eqb (tc_hash c) "blake2b" then check (sneves_blake2b p t e (junk 128%nat (length r)) input)
        else if String.eqb (tc_hash c) "blake2bp" then check (sneves_blake2bp p t e (junk 512%nat (length r)) input)
        else if String.eqb (tc_hash c) "blake2sp" then check (sneves_blake2sp p t e (junk 512%nat (length r)) input)
        else continue num
  end.
(** test_vectors, lib.rs:70-97. *)
Definition sneves_vectors (p : permute) (t : target) (e : env) (junk : nat -> nat -> list byte) (cases : list test_case) : outcome unit :=
  do num <- sneves_loop p t e junk cases 0;
  assert_ (N.eqb 768 num).
