(** Model of the constants of blake2b/src/lib.rs and blake2s/src/lib.rs and of
    the helper functions of blake2b/src/guts.rs and blake2s/src/guts.rs.
    Line numbers are blake2b's unless "s:" is given. *)
From Coq Require Import Arith NArith List Bool.
From Verif Require Import Base.
Import ListNotations.
Open Scope N_scope.

(** OUTBYTES, lib.rs:68; s: 67. *)
Definition outbytes (v : variant) : nat := 8 * wbytes v.
(** KEYBYTES, lib.rs:70; s: 69. *)
Definition keybytes (v : variant) : nat := 8 * wbytes v.
(** SALTBYTES, lib.rs:72; s: 71. *)
Definition saltbytes (v : variant) : nat := 2 * wbytes v.
(** PERSONALBYTES, lib.rs:74; s: 73. *)
Definition personalbytes (v : variant) : nat := 2 * wbytes v.
(** BLOCKBYTES, lib.rs:77; s: 76. *)
Definition blockbytes (v : variant) : nat := 16 * wbytes v.

(** lib.rs:79-88; s: lib.rs:78-80. *)
Definition iv (v : variant) : list N :=
  match v with
  | V2b => [0x6A09E667F3BCC908; 0xBB67AE8584CAA73B; 0x3C6EF372FE94F82B; 0xA54FF53A5F1D36F1;
            0x510E527FADE682D1; 0x9B05688C2B3E6C1F; 0x1F83D9ABFB41BD6B; 0x5BE0CD19137E2179]
  | V2s => [0x6A09E667; 0xBB67AE85; 0x3C6EF372; 0xA54FF53A;
            0x510E527F; 0x9B05688C; 0x1F83D9AB; 0x5BE0CD19]
  end.

(** lib.rs:90-103 (twelve rows); s: lib.rs:82-93 (the first ten of them). *)
Definition sigma_b : list (list nat) :=
  [[0; 1; 2; 3; 4; 5; 6; 7; 8; 9; 10; 11; 12; 13; 14; 15];
   [14; 10; 4; 8; 9; 15; 13; 6; 1; 12; 0; 2; 11; 7; 5; 3];
   [11; 8; 12; 0; 5; 2; 15; 13; 10; 14; 3; 6; 7; 1; 9; 4];
   [7; 9; 3; 1; 13; 12; 11; 14; 2; 6; 5; 10; 4; 0; 15; 8];
   [9; 0; 5; 7; 2; 4; 10; 15; 14; 1; 11; 12; 6; 8; 3; 13];
   [2; 12; 6; 10; 0; 11; 8; 3; 4; 13; 7; 5; 15; 14; 1; 9];
   [12; 5; 1; 15; 14; 13; 4; 10; 0; 7; 6; 3; 9; 2; 8; 11];
   [13; 11; 7; 14; 12; 1; 3; 9; 5; 0; 15; 4; 8; 6; 2; 10];
   [6; 15; 14; 9; 11; 3; 0; 8; 12; 2; 13; 7; 1; 4; 10; 5];
   [10; 2; 8; 4; 7; 6; 1; 5; 15; 11; 9; 14; 3; 12; 13; 0];
   [0; 1; 2; 3; 4; 5; 6; 7; 8; 9; 10; 11; 12; 13; 14; 15];
   [14; 10; 4; 8; 9; 15; 13; 6; 1; 12; 0; 2; 11; 7; 5; 3]]%nat.

(** SIGMA, s: lib.rs:82-93. *)
Definition sigma_s : list (list nat) :=
  [[0; 1; 2; 3; 4; 5; 6; 7; 8; 9; 10; 11; 12; 13; 14; 15];
   [14; 10; 4; 8; 9; 15; 13; 6; 1; 12; 0; 2; 11; 7; 5; 3];
   [11; 8; 12; 0; 5; 2; 15; 13; 10; 14; 3; 6; 7; 1; 9; 4];
   [7; 9; 3; 1; 13; 12; 11; 14; 2; 6; 5; 10; 4; 0; 15; 8];
   [9; 0; 5; 7; 2; 4; 10; 15; 14; 1; 11; 12; 6; 8; 3; 13];
   [2; 12; 6; 10; 0; 11; 8; 3; 4; 13; 7; 5; 15; 14; 1; 9];
   [12; 5; 1; 15; 14; 13; 4; 10; 0; 7; 6; 3; 9; 2; 8; 11];
   [13; 11; 7; 14; 12; 1; 3; 9; 5; 0; 15; 4; 8; 6; 2; 10];
   [6; 15; 14; 9; 11; 3; 0; 8; 12; 2; 13; 7; 1; 4; 10; 5];
   [10; 2; 8; 4; 7; 6; 1; 5; 15; 11; 9; 14; 3; 12; 13; 0]]%nat.

(** SIGMA, lib.rs:90-103; s: 82-93. *)
Definition sigma (v : variant) : list (list nat) :=
  match v with V2b => sigma_b | V2s => sigma_s end.

(** SIGMA[r][k] as usize: portable.rs:34-43 (s: 32-41), avx2.rs:489-492. *)
Definition sig (v : variant) (r k : nat) : nat := nth k (nth r (sigma v) []) 0%nat.

(** Number of round() calls in compress_block: portable.rs:96-107; s: portable.rs:94-103. *)
Definition num_rounds (v : variant) : nat := match v with V2b => 12 | V2s => 10 end.

(** blake2bp.rs:38; s: blake2sp.rs:38. *)
Definition par_degree (v : variant) : nat := match v with V2b => 4 | V2s => 8 end.

(** [Finalize] and [LastNode] (guts.rs:158-188; s: 156-186) are two-valued
    enums whose only method is yes(); modelled as bool. *)

(** [Stride] and padded_blockbytes: guts.rs:189-202; s: 187-200. *)
Inductive stride := Serial | Parallel.

(** Stride::padded_blockbytes, guts.rs:195-202; s: 193-200. *)
Definition padded_blockbytes (v : variant) (s : stride) : nat :=
  match s with
  | Serial => blockbytes v
  | Parallel => par_degree v * blockbytes v
  end.

(** guts.rs:204-206; s: 202-204. *)
Definition count_low (v : variant) (count : N) : N := count mod wmod v.

(** guts.rs:208-210; s: 206-208. *)
Definition count_high (v : variant) (count : N) : N :=
  N.shiftr count (8 * N.of_nat (wbytes v)) mod wmod v.

(** guts.rs:213-215; s: 211-213.  The addition cannot overflow for words. *)
Definition assemble_count (v : variant) (low high : N) : N :=
  low + N.shiftl high (8 * N.of_nat (wbytes v)).

(** guts.rs:217-223; s: 215-221. *)
Definition flag_word (v : variant) (flag : bool) : N :=
  if flag then wmod v - 1 else 0.

(** guts.rs:232-250; s: 230-248.  The caller's zero-initialised buffer is
    passed explicitly ([buffer]); the block returned has [blockbytes] bytes. *)
Definition final_block (v : variant) (input : list byte) (offset : nat)
    (buffer : list byte) (s : stride) : outcome (list byte * nat * bool) :=
  let capped_offset := Nat.min offset (length input) in
  do offset_slice <- slice_from input capped_offset;
  if Nat.leb (blockbytes v) (length offset_slice) then
    do block <- slice offset_slice 0 (blockbytes v);
    let should_finalize := Nat.leb (length offset_slice) (padded_blockbytes v s) in
    Ret (block, blockbytes v, should_finalize)
  else
    do buffer' <- copy_into buffer 0 offset_slice;
    Ret (buffer', length offset_slice, true).

(** guts.rs:252-259; s: 250-257. *)
Definition input_debug_asserts (v : variant) (dbg : bool) (input : list byte)
    (finalize : bool) : outcome unit :=
  if negb finalize then
    do _ <- debug_assert dbg (negb (Nat.eqb (length input) 0));
    debug_assert dbg (Nat.eqb (length input mod blockbytes v) 0)
  else Ret tt.
