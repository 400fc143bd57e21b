(** Model of blake2b/src/portable.rs and blake2s/src/portable.rs, and of the
    block loop shared by portable.rs, avx2.rs (blake2b) and sse41.rs (blake2s). *)
From Coq Require Import Arith NArith List Bool.
From Verif Require Import Base Guts.
Import ListNotations.
Open Scope N_scope.

(** Rotation distances of g: portable.rs:17 in each crate. *)
Definition rot1 (v : variant) : N := match v with V2b => 32 | V2s => 16 end.
(** portable.rs:19 in each crate. *)
Definition rot2 (v : variant) : N := match v with V2b => 24 | V2s => 12 end.
(** portable.rs:21 in each crate. *)
Definition rot3 (v : variant) : N := match v with V2b => 16 | V2s => 8 end.
(** portable.rs:23 in each crate. *)
Definition rot4 (v : variant) : N := match v with V2b => 63 | V2s => 7 end.

(** Indexing an array at a constant position inside it, e.g. portable.rs:56-71. *)
Definition at_ (l : list N) (i : nat) : N := nth i l 0.

(** portable.rs:15-24 in each crate. *)
Definition g (v : variant) (s : list N) (a b c d : nat) (x y : N) : list N :=
  let s := set s a (wrapping_add v (wrapping_add v (at_ s a) (at_ s b)) x) in
  let s := set s d (rotate_right v (N.lxor (at_ s d) (at_ s a)) (rot1 v)) in
  let s := set s c (wrapping_add v (at_ s c) (at_ s d)) in
  let s := set s b (rotate_right v (N.lxor (at_ s b) (at_ s c)) (rot2 v)) in
  let s := set s a (wrapping_add v (wrapping_add v (at_ s a) (at_ s b)) y) in
  let s := set s d (rotate_right v (N.lxor (at_ s d) (at_ s a)) (rot3 v)) in
  let s := set s c (wrapping_add v (at_ s c) (at_ s d)) in
  let s := set s b (rotate_right v (N.lxor (at_ s b) (at_ s c)) (rot4 v)) in
  s.

(** portable.rs:29-44; s: 27-42. *)
Definition round (v : variant) (r : nat) (m : list N) (s : list N) : list N :=
  let s := g v s 0 4 8 12 (at_ m (sig v r 0)) (at_ m (sig v r 1)) in
  let s := g v s 1 5 9 13 (at_ m (sig v r 2)) (at_ m (sig v r 3)) in
  let s := g v s 2 6 10 14 (at_ m (sig v r 4)) (at_ m (sig v r 5)) in
  let s := g v s 3 7 11 15 (at_ m (sig v r 6)) (at_ m (sig v r 7)) in
  let s := g v s 0 5 10 15 (at_ m (sig v r 8)) (at_ m (sig v r 9)) in
  let s := g v s 1 6 11 12 (at_ m (sig v r 10)) (at_ m (sig v r 11)) in
  let s := g v s 2 7 8 13 (at_ m (sig v r 12)) (at_ m (sig v r 13)) in
  let s := g v s 3 4 9 14 (at_ m (sig v r 14)) (at_ m (sig v r 15)) in
  s.

(** The message words: portable.rs:75-94; s: 73-92 (array_refs! and from_le_bytes). *)
Definition msg_words (v : variant) (block : list byte) : list N :=
  map (fun i => from_le (firstn (wbytes v) (skipn (i * wbytes v) block))) (seq 0 16).

(** portable.rs:55-72; s: 53-70. *)
Definition init_v (v : variant) (words : list N) (count last_block last_node : N) : list N :=
  [at_ words 0; at_ words 1; at_ words 2; at_ words 3;
   at_ words 4; at_ words 5; at_ words 6; at_ words 7;
   at_ (iv v) 0; at_ (iv v) 1; at_ (iv v) 2; at_ (iv v) 3;
   N.lxor (at_ (iv v) 4) (count_low v count);
   N.lxor (at_ (iv v) 5) (count_high v count);
   N.lxor (at_ (iv v) 6) last_block;
   N.lxor (at_ (iv v) 7) last_node].

(** portable.rs:47-117; s: 45-113.  The textual sequence round(0..), ...,
    round(11..) is a fold. *)
Definition compress_block (v : variant) (block : list byte) (words : list N)
    (count last_block last_node : N) : list N :=
  let s := init_v v words count last_block last_node in
  let m := msg_words v block in
  let s := fold_left (fun s r => round v r m s) (seq 0 (num_rounds v)) s in
  map (fun i => N.lxor (at_ words i) (N.lxor (at_ s i) (at_ s (i + 8)))) (seq 0 8).

(** The type of a single-block compression kernel (portable.rs:47-53; blake2b/src/avx2.rs:146-152;
    blake2s/src/sse41.rs:151-157). *)
Definition kernel := list byte -> list N -> N -> N -> N -> list N.

(** How the loop takes a non-final block out of the input: array_ref! is a
    checked slice (portable.rs:150; s: 146), the SIMD loops dereference a raw
    pointer (blake2b/src/avx2.rs:460, blake2s/src/sse41.rs:438). *)
Definition block_reader := list byte -> nat -> nat -> outcome (list byte).
(** array_ref!(input, offset, BLOCKBYTES), portable.rs:150; s: 146. *)
Definition array_ref_reader : block_reader := fun l off n => slice l off (off + n).
(** blake2b/src/avx2.rs:460, blake2s/src/sse41.rs:438. *)
Definition raw_reader : block_reader := fun l off n => raw_read l off n.

(** The [loop] of compress1_loop: portable.rs:139-165 (s: 135-161),
    blake2b/src/avx2.rs:446-475, blake2s/src/sse41.rs:424-453.  [fuel] bounds
    the number of iterations. *)
Fixpoint compress1_iter (v : variant) (k : kernel) (rd : block_reader) (fuel : nat)
    (input : list byte) (fin_offset : nat) (fin_block : list byte) (fin_len : nat)
    (fin_last_block fin_last_node : N) (st : stride)
    (offset : nat) (count : N) (words : list N) : outcome (list N) :=
  match fuel with
  | O => Diverge
  | S fuel' =>
      do '(block, count_delta, last_block, last_node) <-
         (if Nat.eqb offset fin_offset
          then Ret (fin_block, fin_len, fin_last_block, fin_last_node)
          else do b <- rd input offset (blockbytes v);
               Ret (b, blockbytes v, flag_word v false, flag_word v false));
      let count := count_wrapping_add v count (N.of_nat count_delta) in
      let words := k block words count last_block last_node in
      if Nat.eqb offset fin_offset then Ret words
      else compress1_iter v k rd fuel' input fin_offset fin_block fin_len
             fin_last_block fin_last_node st (offset + padded_blockbytes v st) count words
  end.

(** compress1_loop: portable.rs:119-168 (s: 115-164), blake2b/src/avx2.rs:426-478,
    blake2s/src/sse41.rs:405-456: the same text up to the kernel and the way a
    block is read. *)
Definition compress1_loop_gen (v : variant) (k : kernel) (rd : block_reader) (dbg : bool)
    (input : list byte) (words : list N) (count : N) (last_node finalize : bool)
    (st : stride) : outcome (list N) :=
  do _ <- input_debug_asserts v dbg input finalize;
  let fin_offset := sat_sub (length input) 1 in
  let fin_offset := (fin_offset - fin_offset mod padded_blockbytes v st)%nat in
  do '(fin_block, fin_len, _) <- final_block v input fin_offset (zeros (blockbytes v)) st;
  let fin_last_block := flag_word v finalize in
  let fin_last_node := flag_word v (finalize && last_node) in
  compress1_iter v k rd (S (length input)) input fin_offset fin_block fin_len
    fin_last_block fin_last_node st 0 count words.

(** portable.rs:119-168; s: 115-164. *)
Definition portable_compress1_loop (v : variant) :=
  compress1_loop_gen v (compress_block v) array_ref_reader.
