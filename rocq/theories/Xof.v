(** Model of the BLAKE2X construction over the public API, as the project's test
    suite has it: tests/vector_tests.rs:153-276 (the comparison with the recorded
    vector left out).  usize is unbounded here; u64 and i32 are not. *)
From Coq Require Import Arith NArith List Bool.
From Verif Require Import Base Guts Impl Lib.
From Verif Require Import ApiSpec Api.
Import ListNotations.
Open Scope N_scope.

Section Xof.
Variables (v : variant) (e : env) (imp : platform).

(** A chain of builder calls, params.key(..).hash_length(..): a panic ends it (vector_tests.rs:217-220, 229-235,
    250-253, 262-268). *)
Fixpoint chain (p : Lib.params) (ss : list setting) : outcome Lib.params :=
  match ss with
  | [] => Ret p
  | s :: r => let '(p, o) := call_setter v s p in do _ <- o; chain p r
  end.
(** Params::new(), a chain, then .hash(input).as_bytes().to_vec() (vector_tests.rs:216-224, 228-239, 249-257,
    261-272). *)
Definition hasher (ss : list setting) (input : list byte) : outcome (list byte) :=
  do p <- chain (params_new v imp) ss;
  do h <- params_hash v e p input;
  as_bytes h.

(** blake2xs_h0_hasher, blake2xb_h0_hasher: vector_tests.rs:214-225, 247-258. *)
Definition h0_hasher (input key : list byte) (combined : N) : outcome (list byte) :=
  hasher [Key key; HashLength (outbytes v); NodeOffset combined] input.
(** blake2xs_b2_hasher, blake2xb_b2_hasher: vector_tests.rs:226-240, 259-273. *)
Definition b2_hasher (input : list byte) (combined : N) (hash_length : nat) : outcome (list byte) :=
  hasher [HashLength hash_length; MaxLeafLength (N.of_nat (outbytes v)); InnerHashLength (outbytes v); Fanout 0;
          MaxDepth 0; NodeOffset combined] input.

(** [b2_hash_index as u64] for an i32, given as its 32 bits: it extends the sign (vector_tests.rs:196). *)
Definition i32_as_u64 (x : N) : N := if x <? 2 ^ 31 then x else x + (2 ^ 64 - 2 ^ 32).
(** [b2_hash_index += 1] on an i32: vector_tests.rs:200. *)
Definition i32_incr (x : N) : outcome N :=
  if (x =? 2 ^ 31 - 1) && e_dbg e then Panic else Ret ((x + 1) mod 2 ^ 32).

(** The while loop: vector_tests.rs:181-201.  The fuel is the number of rounds it may make. *)
Fixpoint xof_loop (fuel : nat) (h0 : list byte) (combined : N) (len : nat) (buf : list byte) (index : N)
    : outcome (list byte) :=
  if Nat.ltb (length buf) len then
    match fuel with
    | O => Diverge
    | S fuel =>
        let hash_length :=
          if Nat.ltb (len - length buf) (outbytes v) && negb (Nat.eqb (len mod outbytes v) 0)
          then (len mod outbytes v)%nat else outbytes v in
        do out <- b2_hasher h0 (N.lor (i32_as_u64 index) combined) hash_length;
        do index <- i32_incr index;
        xof_loop fuel h0 combined len (buf ++ out) index
    end
  else Ret buf.

(** blake2x_test, for one case: vector_tests.rs:171-202. *)
Definition xof (len : nat) (key input : list byte) : outcome (list byte) :=
  let combined := N.shiftl (N.of_nat len mod 2 ^ 64) 32 mod 2 ^ 64 in
  do h0 <- h0_hasher input key combined;
  do buf <- xof_loop len h0 combined len [] 0;
  slice buf 0 len.
End Xof.
