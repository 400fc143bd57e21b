(** Machine-level vocabulary of the model: outcomes, fixed-width integers,
    bytes, slices.  No proofs here. *)
From Coq Require Import Arith NArith List Bool.
From Coq Require Export Init.Byte.
From Coq Require Import Strings.Byte.
Import ListNotations.
Open Scope N_scope.

(** ** Outcomes of running a piece of Rust code. *)
(** The ways a piece of Rust code can end.

    [Panic] is an unwinding panic (failed assertion, slice index out of range,
    overflow check, explicit panic!, e.g. blake2b/src/guts.rs:124, 132).  [UB] is undefined behaviour
    (a raw pointer access outside of its allocation, e.g. blake2b/src/avx2.rs:460).  [Diverge] is
    exhaustion of the fuel of a modelled [loop] (blake2b/src/portable.rs:139, many.rs:151). *)
Inductive outcome (A : Type) : Type :=
| Ret (a : A)
| Panic
| UB
| Diverge.
Arguments Ret {A} a.
Arguments Panic {A}.
Arguments UB {A}.
Arguments Diverge {A}.

(** Sequencing: [e;] and [let x = e;] of every function body; a panic skips the rest (e.g. blake2b/src/lib.rs:453-478). *)
Definition bind {A B} (x : outcome A) (f : A -> outcome B) : outcome B :=
  match x with
  | Ret a => f a
  | Panic => Panic
  | UB => UB
  | Diverge => Diverge
  end.

Notation "'do' x <- e ; f" := (bind e (fun x => f))
  (at level 200, x name, e at level 100, f at level 200, right associativity).
Notation "'do' ' p <- e ; f" := (bind e (fun x => match x with p => f end))
  (at level 200, p strict pattern, e at level 100, f at level 200, right associativity).

(** assert!(cond) / assert_eq!: active in every build (e.g. blake2b/src/lib.rs:239-243, 252). *)
Definition assert_ (c : bool) : outcome unit := if c then Ret tt else Panic.

(** debug_assert!(cond): active only in debug builds (blake2b/src/guts.rs:256-257, many.rs:123, 327). *)
Definition debug_assert (dbg c : bool) : outcome unit :=
  if dbg then assert_ c else Ret tt.

(** ** The two crates.

    blake2s/src is a copy of blake2b/src with other constants; shared code is
    modelled once, indexed by the variant (blake2b/src/lib.rs:64-106,
    blake2s/src/lib.rs:63-103). *)
Inductive variant := V2b | V2s.

(** size_of::<Word>(): blake2b/src/lib.rs:64 (u64), blake2s/src/lib.rs:63 (u32). *)
Definition wbytes (v : variant) : nat := match v with V2b => 8 | V2s => 4 end.
(** 8 * size_of::<Word>(): blake2b/src/guts.rs:209, blake2s/src/guts.rs:207. *)
Definition wbits (v : variant) : N := match v with V2b => 64 | V2s => 32 end.

(** Modulus of [Word] and of [Count] (blake2b/src/lib.rs:64-65 u64/u128,
    blake2s/src/lib.rs:63-64 u32/u64). *)
Definition wmod (v : variant) : N := 2 ^ wbits v.
(** Number of values of Count: u128 (blake2b/src/lib.rs:65), u64 (blake2s/src/lib.rs:64). *)
Definition cmod (v : variant) : N := 2 ^ (2 * wbits v).

(** Word::wrapping_add: portable.rs:16-22 in each crate. *)
Definition wrapping_add (v : variant) (x y : N) : N := (x + y) mod wmod v.
(** Count::wrapping_add: blake2b/src/portable.rs:156, lib.rs:446, 469, 520, many.rs:252. *)
Definition count_wrapping_add (v : variant) (x y : N) : N := (x + y) mod cmod v.

(** Word::rotate_right: portable.rs:17-23 in each crate. *)
Definition rotate_right (v : variant) (x k : N) : N :=
  N.lor (N.shiftr x k) (N.shiftl x (wbits v - k) mod wmod v).

(** ** Bytes. *)
(** u8 as an integer: blake2b/src/lib.rs:613-614. *)
Definition b2n (b : byte) : N := Byte.to_N b.
(** [as u8]; also the inverse of [b2n], used by [to_le] (blake2b/src/lib.rs:534-541). *)
Definition n2b (n : N) : byte :=
  match Byte.of_N (n mod 256) with Some b => b | None => x00 end.

(** Word::from_le_bytes: blake2b/src/lib.rs:199-202, portable.rs:78-93. *)
Fixpoint from_le (bs : list byte) : N :=
  match bs with
  | [] => 0
  | b :: bs' => b2n b + 256 * from_le bs'
  end.

(** to_le_bytes, for an integer of [n] bytes: blake2b/src/lib.rs:534-541, blake2bp.rs:462. *)
Fixpoint to_le (n : nat) (x : N) : list byte :=
  match n with
  | O => []
  | S n' => n2b x :: to_le n' (x / 256)
  end.

(** ** Arrays and slices. *)

(** [l[i] = x] for an array whose index is a compile-time constant (e.g. portable.rs:16-23 in each
    crate); also the store of the caller's i-th object (see Sched.v). *)
Fixpoint set {A} (l : list A) (i : nat) (x : A) : list A :=
  match l, i with
  | [], _ => []
  | _ :: l', O => x :: l'
  | y :: l', S i' => y :: set l' i' x
  end.

(** Checked slicing [&l[a..b]]; panics unless a <= b <= len (e.g. blake2b/src/lib.rs:426, 462, 485). *)
Definition slice {A} (l : list A) (a b : nat) : outcome (list A) :=
  if Nat.leb a b && Nat.leb b (length l)
  then Ret (firstn (b - a) (skipn a l)) else Panic.

(** [&l[a..]] (e.g. blake2b/src/lib.rs:428, 470, guts.rs:239). *)
Definition slice_from {A} (l : list A) (a : nat) : outcome (list A) :=
  if (a <=? length l)%nat then Ret (skipn a l) else Panic.

(** Dereferencing the raw pointer [l.as_ptr().add(off) as *const [T; n]]: blake2b/src/avx2.rs:460,
    892-895, sse41.rs:426-427, blake2s/src/avx2.rs:551-558, sse41.rs:438, 851-854. *)
Definition raw_read {A} (l : list A) (off n : nat) : outcome (list A) :=
  if (off + n <=? length l)%nat
  then Ret (firstn n (skipn off l)) else UB.

(** [dst[a..a+src.len()].copy_from_slice(src)] (e.g. blake2b/src/lib.rs:255, 426, guts.rs:247). *)
Definition copy_into {A} (dst : list A) (a : nat) (src : list A) : outcome (list A) :=
  if (a + length src <=? length dst)%nat
  then Ret (firstn a dst ++ src ++ skipn (a + length src) dst) else Panic.

(** usize::saturating_sub: blake2b/src/lib.rs:458, portable.rs:131, blake2bp.rs:344. *)
Definition sat_sub (a b : nat) : nat := (a - b)%nat.

(** Addition on a small unsigned type with [m] values: overflow panics in a
    debug build and wraps in a release build (self.buflen += take as u8, blake2b/src/lib.rs:427). *)
Definition add_small (dbg : bool) (m a b : nat) : outcome nat :=
  if (a + b <? m)%nat then Ret (a + b)%nat
  else if dbg then Panic else Ret ((a + b) mod m)%nat.

(** [0; n]: blake2b/src/lib.rs:169-171, 410, blake2bp.rs:83, 250. *)
Definition zeros (n : nat) : list byte := repeat x00 n.

(** Left-to-right iteration with effects ([for] over a slice, array literal
    whose elements may panic): e.g. blake2b/src/avx2.rs:833-835, 857-860, blake2bp.rs:109. *)
Fixpoint mapM {A B} (f : A -> outcome B) (l : list A) : outcome (list B) :=
  match l with
  | [] => Ret []
  | x :: r => do y <- f x; do ys <- mapM f r; Ret (y :: ys)
  end.
