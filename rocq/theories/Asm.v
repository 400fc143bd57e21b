(** The straight-line kernels as code without jumps.

    Leak.v treats a run of a compression kernel as one event.  This file opens
    the kernels: each is given as a list of instructions for a machine that has
    no jumps, no divisions, no shifts by a register and no addresses other than
    constants.  Every instruction puts its result into a new register, so the
    assignment of hardware registers is left to the compiler, as in the source.
    The vector instructions are the intrinsics that the source calls, one
    constructor for each, with their immediate operands. *)
From Coq Require Import Arith NArith List Bool.
From Verif Require Import Base Guts Portable Intrinsics Simd.
Import ListNotations.
Open Scope N_scope.

(** A word or a vector register; a modelling device for core::arch (blake2b/src/avx2.rs:1-8). *)
Inductive value := W (x : N) | R (r : reg).

(** What a kernel may read: the blocks (portable.rs:75-94, blake2b/src/avx2.rs:162-169, 746-780 and copies) and the
    words of the states (portable.rs:56-63, blake2b/src/avx2.rs:155-156, 702-723 and copies). *)
Record memory := { m_blocks : list (list byte); m_states : list (list N) }.

(** The operations of the kernels: those on words (portable.rs:15-24; guts.rs:204-215), moves between words
    and registers (blake2b/src/avx2.rs:801-807, sse41.rs:282-286), and the intrinsics. *)
Inductive opcode :=
| w_const (x : N)
| w_add (v : variant)
| w_xor
| w_rotr (v : variant) (k : N)
| w_low (v : variant)
| w_high (v : variant)
| w_assemble (v : variant)
| i_const_words (w : nat) (ws : list N)
| i_lane (w i : nat)
| i_mm_add_epi32
| i_mm_add_epi64
| i_mm256_add_epi32
| i_mm256_add_epi64
| i_mm_cmpeq_epi32
| i_mm_cmpeq_epi64
| i_mm256_cmpeq_epi32
| i_mm256_cmpeq_epi64
| i_mm_srli_epi32 (k : N)
| i_mm_srli_epi64 (k : N)
| i_mm256_srli_epi32 (k : N)
| i_mm256_srli_epi64 (k : N)
| i_mm_slli_epi32 (k : N)
| i_mm_slli_epi64 (k : N)
| i_mm256_slli_epi32 (k : N)
| i_mm256_slli_epi64 (k : N)
| i_mm_set1_epi32
| i_mm_set1_epi64x
| i_mm256_set1_epi32
| i_mm256_set1_epi64x
| i_mm_setr_epi32
| i_mm256_setr_epi32
| i_mm256_setr_epi64x
| i_mm_set_epi64x
| i_mm_xor_si128
| i_mm256_xor_si256
| i_mm_or_si128
| i_mm256_or_si256
| i_mm_and_si128
| i_mm256_and_si256
| i_mm_andnot_si128
| i_mm256_andnot_si256
| i_mm_unpacklo_epi32
| i_mm_unpackhi_epi32
| i_mm_unpacklo_epi64
| i_mm_unpackhi_epi64
| i_mm256_unpacklo_epi32
| i_mm256_unpackhi_epi32
| i_mm256_unpacklo_epi64
| i_mm256_unpackhi_epi64
| i_mm_blend_epi16 (imm : N)
| i_mm256_blend_epi32 (imm : N)
| i_mm_alignr_epi8 (k : nat)
| i_mm256_alignr_epi8 (k : nat)
| i_mm_shuffle_epi32 (imm : N)
| i_mm256_shuffle_epi32 (imm : N)
| i_mm_shuffle_ps (imm : N)
| i_mm_shufflehi_epi16 (imm : N)
| i_mm256_permute4x64_epi64 (imm : N)
| i_mm_slli_si128 (k : nat)
| i_mm_srli_si128 (k : nat)
| i_mm256_broadcastsi128_si256
| i_mm256_permute2x128_si256 (imm : N)
| i_mm_castps_si128
| i_mm_castsi128_ps.

(** One register operand; a modelling device for core::arch (blake2b/src/avx2.rs:1-8). *)
Definition un (f : reg -> reg) (args : list value) : option value :=
  match args with [R a] => Some (R (f a)) | _ => None end.
(** Two register operands; a modelling device for core::arch (blake2b/src/avx2.rs:1-8). *)
Definition bin (f : reg -> reg -> reg) (args : list value) : option value :=
  match args with [R a; R b] => Some (R (f a b)) | _ => None end.

(** What the operations compute: portable.rs:15-24, guts.rs:204-215, and Intrinsics.v for core::arch.
    An operation on operands of the wrong kind is stuck. *)
Definition sem (o : opcode) (args : list value) : option value :=
  match o with
  | w_const x => match args with [] => Some (W x) | _ => None end
  | w_add v => match args with [W x; W y] => Some (W (wrapping_add v x y)) | _ => None end
  | w_xor => match args with [W x; W y] => Some (W (N.lxor x y)) | _ => None end
  | w_rotr v k => match args with [W x] => Some (W (rotate_right v x k)) | _ => None end
  | w_low v => match args with [W x] => Some (W (count_low v x)) | _ => None end
  | w_high v => match args with [W x] => Some (W (count_high v x)) | _ => None end
  | w_assemble v => match args with [W x; W y] => Some (W (assemble_count v x y)) | _ => None end
  | i_const_words w ws => match args with [] => Some (R (load_words w ws)) | _ => None end
  | i_lane w i => match args with [R a] => Some (W (lane w a i)) | _ => None end
  | i_mm_add_epi32 => bin mm_add_epi32 args
  | i_mm_add_epi64 => bin mm_add_epi64 args
  | i_mm256_add_epi32 => bin mm256_add_epi32 args
  | i_mm256_add_epi64 => bin mm256_add_epi64 args
  | i_mm_cmpeq_epi32 => bin mm_cmpeq_epi32 args
  | i_mm_cmpeq_epi64 => bin mm_cmpeq_epi64 args
  | i_mm256_cmpeq_epi32 => bin mm256_cmpeq_epi32 args
  | i_mm256_cmpeq_epi64 => bin mm256_cmpeq_epi64 args
  | i_mm_srli_epi32 k => un (fun a => mm_srli_epi32 a k) args
  | i_mm_srli_epi64 k => un (fun a => mm_srli_epi64 a k) args
  | i_mm256_srli_epi32 k => un (fun a => mm256_srli_epi32 a k) args
  | i_mm256_srli_epi64 k => un (fun a => mm256_srli_epi64 a k) args
  | i_mm_slli_epi32 k => un (fun a => mm_slli_epi32 a k) args
  | i_mm_slli_epi64 k => un (fun a => mm_slli_epi64 a k) args
  | i_mm256_slli_epi32 k => un (fun a => mm256_slli_epi32 a k) args
  | i_mm256_slli_epi64 k => un (fun a => mm256_slli_epi64 a k) args
  | i_mm_set1_epi32 => match args with [W x] => Some (R (mm_set1_epi32 x)) | _ => None end
  | i_mm_set1_epi64x => match args with [W x] => Some (R (mm_set1_epi64x x)) | _ => None end
  | i_mm256_set1_epi32 => match args with [W x] => Some (R (mm256_set1_epi32 x)) | _ => None end
  | i_mm256_set1_epi64x => match args with [W x] => Some (R (mm256_set1_epi64x x)) | _ => None end
  | i_mm_setr_epi32 =>
      match args with
      | [W x0_; W x1_; W x2_; W x3_] => Some (R (mm_setr_epi32 x0_ x1_ x2_ x3_))
      | _ => None
      end
  | i_mm256_setr_epi32 =>
      match args with
      | [W x0_; W x1_; W x2_; W x3_; W x4_; W x5_; W x6_; W x7_] => Some (R (mm256_setr_epi32 x0_ x1_ x2_ x3_ x4_ x5_ x6_ x7_))
      | _ => None
      end
  | i_mm256_setr_epi64x =>
      match args with
      | [W x0_; W x1_; W x2_; W x3_] => Some (R (mm256_setr_epi64x x0_ x1_ x2_ x3_))
      | _ => None
      end
  | i_mm_set_epi64x =>
      match args with
      | [W x0_; W x1_] => Some (R (mm_set_epi64x x0_ x1_))
      | _ => None
      end
  | i_mm_xor_si128 => bin mm_xor_si128 args
  | i_mm256_xor_si256 => bin mm256_xor_si256 args
  | i_mm_or_si128 => bin mm_or_si128 args
  | i_mm256_or_si256 => bin mm256_or_si256 args
  | i_mm_and_si128 => bin mm_and_si128 args
  | i_mm256_and_si256 => bin mm256_and_si256 args
  | i_mm_andnot_si128 => bin mm_andnot_si128 args
  | i_mm256_andnot_si256 => bin mm256_andnot_si256 args
  | i_mm_unpacklo_epi32 => bin mm_unpacklo_epi32 args
  | i_mm_unpackhi_epi32 => bin mm_unpackhi_epi32 args
  | i_mm_unpacklo_epi64 => bin mm_unpacklo_epi64 args
  | i_mm_unpackhi_epi64 => bin mm_unpackhi_epi64 args
  | i_mm256_unpacklo_epi32 => bin mm256_unpacklo_epi32 args
  | i_mm256_unpackhi_epi32 => bin mm256_unpackhi_epi32 args
  | i_mm256_unpacklo_epi64 => bin mm256_unpacklo_epi64 args
  | i_mm256_unpackhi_epi64 => bin mm256_unpackhi_epi64 args
  | i_mm_blend_epi16 imm => bin (fun a b => mm_blend_epi16 a b imm) args
  | i_mm256_blend_epi32 imm => bin (fun a b => mm256_blend_epi32 a b imm) args
  | i_mm_alignr_epi8 k => bin (fun a b => mm_alignr_epi8 a b k) args
  | i_mm256_alignr_epi8 k => bin (fun a b => mm256_alignr_epi8 a b k) args
  | i_mm_shuffle_epi32 imm => un (fun a => mm_shuffle_epi32 a imm) args
  | i_mm256_shuffle_epi32 imm => un (fun a => mm256_shuffle_epi32 a imm) args
  | i_mm_shuffle_ps imm => bin (fun a b => mm_shuffle_ps a b imm) args
  | i_mm_shufflehi_epi16 imm => un (fun a => mm_shufflehi_epi16 a imm) args
  | i_mm256_permute4x64_epi64 imm => un (fun a => mm256_permute4x64_epi64 a imm) args
  | i_mm_slli_si128 k => un (fun a => mm_slli_si128 a k) args
  | i_mm_srli_si128 k => un (fun a => mm_srli_si128 a k) args
  | i_mm256_broadcastsi128_si256 => un mm256_broadcastsi128_si256 args
  | i_mm256_permute2x128_si256 imm => bin (fun a b => mm256_permute2x128_si256 a b imm) args
  | i_mm_castps_si128 => un mm_castps_si128 args
  | i_mm_castsi128_ps => un mm_castsi128_ps args
  end.

(** An instruction: an operation on registers, or a load from a constant place.  [LoadBytes b off n] loads
    [n] bytes at [off] of block [b] (blake2b/src/avx2.rs:18-21, 30-32), [LoadLe b off n] a little-endian word
    (portable.rs:76-93), [LoadWords s w off n] [n] state words of [w] bytes (blake2b/src/avx2.rs:18-21, 702-723),
    [LoadWord s i] one (portable.rs:56-63). *)
Inductive instr :=
| Op (o : opcode) (args : list nat)
| LoadBytes (b off n : nat)
| LoadLe (b off n : nat)
| LoadWords (s w off n : nat)
| LoadWord (s i : nat).

(** All registers of a list, in order; a modelling device for core::arch (blake2b/src/avx2.rs:1-8). *)
Fixpoint fetch (file : list value) (is : list nat) : option (list value) :=
  match is with
  | [] => Some []
  | i :: r => match nth_error file i, fetch file r with
              | Some x, Some xs => Some (x :: xs)
              | _, _ => None
              end
  end.

(** One instruction.  A load outside of its object is stuck, and so is the use of a register that was not
    written.  A modelling device for core::arch (blake2b/src/avx2.rs:1-32). *)
Definition eval (mem : memory) (file : list value) (i : instr) : option value :=
  match i with
  | Op o args => match fetch file args with Some xs => sem o xs | None => None end
  | LoadBytes b off n =>
      match nth_error (m_blocks mem) b with
      | Some l => if Nat.leb (off + n) (length l) then Some (R (loadu_bytes n l off)) else None
      | None => None
      end
  | LoadLe b off n =>
      match nth_error (m_blocks mem) b with
      | Some l => if Nat.leb (off + n) (length l) then Some (W (from_le (firstn n (skipn off l)))) else None
      | None => None
      end
  | LoadWords s w off n =>
      match nth_error (m_states mem) s with
      | Some l => if Nat.leb (off + n) (length l) then Some (R (load_words w (firstn n (skipn off l)))) else None
      | None => None
      end
  | LoadWord s i =>
      match nth_error (m_states mem) s with
      | Some l => match nth_error l i with Some x => Some (W x) | None => None end
      | None => None
      end
  end.

(** All instructions, one after the other; a modelling device for core::arch (blake2b/src/avx2.rs:1-32). *)
Fixpoint exec (mem : memory) (file : list value) (code : list instr) : option (list value) :=
  match code with
  | [] => Some file
  | i :: r => match eval mem file i with
              | Some x => exec mem (file ++ [x]) r
              | None => None
              end
  end.

(** A kernel: its code and the registers of its results; a modelling device for core::arch
    (blake2b/src/avx2.rs:1-32). *)
Record asm := { a_code : list instr; a_out : list nat }.

(** A kernel on memory and arguments; a modelling device for core::arch (blake2b/src/avx2.rs:1-32). *)
Definition run (a : asm) (mem : memory) (args : list value) : option (list value) :=
  match exec mem args (a_code a) with
  | Some file => fetch file (a_out a)
  | None => None
  end.

(** What an observer sees of an instruction: the operation with its constants, or the place of a load, but no
    operand.  See Leak.v; a modelling device for core::arch (blake2b/src/avx2.rs:1-32). *)
Inductive step_event := Did (o : opcode) | ReadBlock (b off n : nat) | ReadState (s w off n : nat).

(** The event of an instruction; see [step_event] (blake2b/src/avx2.rs:1-32). *)
Definition event_of (i : instr) : step_event :=
  match i with
  | Op o _ => Did o
  | LoadBytes b off n | LoadLe b off n => ReadBlock b off n
  | LoadWords s w off n => ReadState s w off n
  | LoadWord s i => ReadState s 1 i 1
  end.

(** The events of an execution, up to the place where it gets stuck; see [step_event] (blake2b/src/avx2.rs:1-32). *)
Fixpoint trace (mem : memory) (file : list value) (code : list instr) : list step_event :=
  match code with
  | [] => []
  | i :: r => event_of i ::
              match eval mem file i with
              | Some x => trace mem (file ++ [x]) r
              | None => []
              end
  end.

(** *** Writing code.

    [build A] writes instructions and gives a result of type [A] made of register numbers; its argument is
    the number of the next register.  A modelling device (blake2b/src/avx2.rs:1-32). *)
Definition build (A : Type) : Type := nat -> list instr * A.
(** No instruction; a modelling device (blake2b/src/avx2.rs:1-32). *)
Definition done {A} (a : A) : build A := fun _ => ([], a).
(** One piece of code after the other; a modelling device (blake2b/src/avx2.rs:1-32). *)
Definition bbind {A B} (x : build A) (f : A -> build B) : build B := fun n =>
  let '(c1, a) := x n in
  let '(c2, b) := f a (n + length c1)%nat in
  (c1 ++ c2, b).
Notation "'bdo' x <- e ; f" := (bbind e (fun x => f))
  (at level 200, x name, e at level 100, f at level 200, right associativity).
Notation "'bdo' ' p <- e ; f" := (bbind e (fun x => match x with p => f end))
  (at level 200, p strict pattern, e at level 100, f at level 200, right associativity).
(** One instruction; a modelling device (blake2b/src/avx2.rs:1-32). *)
Definition ins (i : instr) : build nat := fun n => ([i], n).
(** One operation; a modelling device (blake2b/src/avx2.rs:1-32). *)
Definition op (o : opcode) (args : list nat) : build nat := ins (Op o args).
(** A piece of code for each element of a list; a modelling device (blake2b/src/avx2.rs:1-32). *)
Fixpoint bmap {A B} (f : A -> build B) (l : list A) : build (list B) :=
  match l with
  | [] => done []
  | x :: r => bdo y <- f x; bdo ys <- bmap f r; done (y :: ys)
  end.
(** The same with a state; a modelling device (blake2b/src/avx2.rs:1-32). *)
Fixpoint bfold {A S} (f : S -> A -> build S) (l : list A) (s : S) : build S :=
  match l with
  | [] => done s
  | x :: r => bdo s <- f s x; bfold f r s
  end.
(** The kernel whose arguments are the first [n] registers; a modelling device (blake2b/src/avx2.rs:1-32). *)
Definition kernel_of (n : nat) (b : build (list nat)) : asm :=
  let '(c, o) := b n in {| a_code := c; a_out := o |}.

(** *** portable.rs *)

(** The code of portable.rs:15-24 in each crate. *)
Definition word_g (v : variant) (s : list nat) (a b c d : nat) (x y : nat) : build (list nat) :=
  let at_ l i := nth i l 0%nat in
  bdo t <- op (w_add v) [at_ s a; at_ s b];
  bdo t <- op (w_add v) [t; x];
  let s := set s a t in
  bdo t <- op w_xor [at_ s d; at_ s a];
  bdo t <- op (w_rotr v (rot1 v)) [t];
  let s := set s d t in
  bdo t <- op (w_add v) [at_ s c; at_ s d];
  let s := set s c t in
  bdo t <- op w_xor [at_ s b; at_ s c];
  bdo t <- op (w_rotr v (rot2 v)) [t];
  let s := set s b t in
  bdo t <- op (w_add v) [at_ s a; at_ s b];
  bdo t <- op (w_add v) [t; y];
  let s := set s a t in
  bdo t <- op w_xor [at_ s d; at_ s a];
  bdo t <- op (w_rotr v (rot3 v)) [t];
  let s := set s d t in
  bdo t <- op (w_add v) [at_ s c; at_ s d];
  let s := set s c t in
  bdo t <- op w_xor [at_ s b; at_ s c];
  bdo t <- op (w_rotr v (rot4 v)) [t];
  let s := set s b t in
  done s.

(** The code of portable.rs:29-44; s: 27-42. *)
Definition word_round (v : variant) (m : list nat) (s : list nat) (r : nat) : build (list nat) :=
  let at_ l i := nth i l 0%nat in
  bdo s <- word_g v s 0 4 8 12 (at_ m (sig v r 0)) (at_ m (sig v r 1));
  bdo s <- word_g v s 1 5 9 13 (at_ m (sig v r 2)) (at_ m (sig v r 3));
  bdo s <- word_g v s 2 6 10 14 (at_ m (sig v r 4)) (at_ m (sig v r 5));
  bdo s <- word_g v s 3 7 11 15 (at_ m (sig v r 6)) (at_ m (sig v r 7));
  bdo s <- word_g v s 0 5 10 15 (at_ m (sig v r 8)) (at_ m (sig v r 9));
  bdo s <- word_g v s 1 6 11 12 (at_ m (sig v r 10)) (at_ m (sig v r 11));
  bdo s <- word_g v s 2 7 8 13 (at_ m (sig v r 12)) (at_ m (sig v r 13));
  bdo s <- word_g v s 3 4 9 14 (at_ m (sig v r 14)) (at_ m (sig v r 15));
  done s.

(** The code of portable.rs:47-117; s: 45-113.  Registers 0 to 2 hold count, last_block and last_node; the
    block is block 0 and the state is state 0. *)
Definition word_block (v : variant) : build (list nat) :=
  let at_ l i := nth i l 0%nat in
  bdo h <- bmap (fun i => ins (LoadWord 0 i)) (seq 0 8);
  bdo iv <- bmap (fun i => op (w_const (Portable.at_ (iv v) i)) []) (seq 0 8);
  bdo lo <- op (w_low v) [0%nat];
  bdo hi <- op (w_high v) [0%nat];
  bdo v12 <- op w_xor [at_ iv 4; lo]%nat;
  bdo v13 <- op w_xor [at_ iv 5; hi]%nat;
  bdo v14 <- op w_xor [at_ iv 6; 1]%nat;
  bdo v15 <- op w_xor [at_ iv 7; 2]%nat;
  bdo m <- bmap (fun i => ins (LoadLe 0 (i * wbytes v) (wbytes v))) (seq 0 16);
  bdo s <- bfold (word_round v m) (seq 0 (num_rounds v)) (h ++ firstn 4 iv ++ [v12; v13; v14; v15]);
  bmap (fun i => bdo t <- op w_xor [at_ s i; at_ s (i + 8)]%nat; op w_xor [at_ h i; t]) (seq 0 8).

(** compress_block of portable.rs:47-117; s: 45-113. *)
Definition portable_asm (v : variant) : asm := kernel_of 3 (word_block v).

(** *** blake2b/src/avx2.rs, one input *)

(** The registers of the rows (blake2b/src/avx2.rs:146-424; blake2s/src/sse41.rs:151-402). *)
Definition rows := (nat * nat * nat * nat)%type.
(** The registers m0..m7 (blake2b/src/avx2.rs:162-170). *)
Definition avx2_msgs := (nat * nat * nat * nat * nat * nat * nat * nat)%type.

(** The code of rot32, rot24, rot16 and rot63, blake2b/src/avx2.rs:87-104. *)
Definition avx2_rot (k : N) (x : nat) : build nat :=
  bdo r <- op (i_mm256_srli_epi64 k) [x];
  bdo l <- op (i_mm256_slli_epi64 (64 - k)) [x];
  op i_mm256_or_si256 [r; l].

(** The code of blake2b/src/avx2.rs:107-115. *)
Definition avx2_g1 (s : rows) (m : nat) : build rows :=
  let '(a, b, c, d) := s in
  bdo a <- op i_mm256_add_epi64 [a; m];
  bdo a <- op i_mm256_add_epi64 [a; b];
  bdo d <- op i_mm256_xor_si256 [d; a];
  bdo d <- avx2_rot 32 d;
  bdo c <- op i_mm256_add_epi64 [c; d];
  bdo b <- op i_mm256_xor_si256 [b; c];
  bdo b <- avx2_rot 24 b;
  done (a, b, c, d).

(** The code of blake2b/src/avx2.rs:118-126. *)
Definition avx2_g2 (s : rows) (m : nat) : build rows :=
  let '(a, b, c, d) := s in
  bdo a <- op i_mm256_add_epi64 [a; m];
  bdo a <- op i_mm256_add_epi64 [a; b];
  bdo d <- op i_mm256_xor_si256 [d; a];
  bdo d <- avx2_rot 16 d;
  bdo c <- op i_mm256_add_epi64 [c; d];
  bdo b <- op i_mm256_xor_si256 [b; c];
  bdo b <- avx2_rot 63 b;
  done (a, b, c, d).

(** The code of blake2b/src/avx2.rs:132-136. *)
Definition avx2_diagonalize (s : rows) : build rows :=
  let '(a, b, c, d) := s in
  bdo a <- op (i_mm256_permute4x64_epi64 (MM_SHUFFLE 2 1 0 3)) [a];
  bdo d <- op (i_mm256_permute4x64_epi64 (MM_SHUFFLE 1 0 3 2)) [d];
  bdo c <- op (i_mm256_permute4x64_epi64 (MM_SHUFFLE 0 3 2 1)) [c];
  done (a, b, c, d).

(** The code of blake2b/src/avx2.rs:139-143. *)
Definition avx2_undiagonalize (s : rows) : build rows :=
  let '(a, b, c, d) := s in
  bdo a <- op (i_mm256_permute4x64_epi64 (MM_SHUFFLE 0 3 2 1)) [a];
  bdo d <- op (i_mm256_permute4x64_epi64 (MM_SHUFFLE 1 0 3 2)) [d];
  bdo c <- op (i_mm256_permute4x64_epi64 (MM_SHUFFLE 2 1 0 3)) [c];
  done (a, b, c, d).

(** The code of blake2b/src/avx2.rs:177-195. *)
Definition avx2_round1 (m : avx2_msgs) (s : rows) : build rows :=
  let '(m0, m1, m2, m3, m4, m5, m6, m7) := m in
  bdo t0 <- op i_mm256_unpacklo_epi64 [m0; m1];
  bdo t1 <- op i_mm256_unpacklo_epi64 [m2; m3];
  bdo b0 <- op (i_mm256_blend_epi32 0xF0) [t0; t1];
  bdo s <- avx2_g1 s b0;
  bdo t0 <- op i_mm256_unpackhi_epi64 [m0; m1];
  bdo t1 <- op i_mm256_unpackhi_epi64 [m2; m3];
  bdo b0 <- op (i_mm256_blend_epi32 0xF0) [t0; t1];
  bdo s <- avx2_g2 s b0;
  bdo s <- avx2_diagonalize s;
  bdo t0 <- op i_mm256_unpacklo_epi64 [m7; m4];
  bdo t1 <- op i_mm256_unpacklo_epi64 [m5; m6];
  bdo b0 <- op (i_mm256_blend_epi32 0xF0) [t0; t1];
  bdo s <- avx2_g1 s b0;
  bdo t0 <- op i_mm256_unpackhi_epi64 [m7; m4];
  bdo t1 <- op i_mm256_unpackhi_epi64 [m5; m6];
  bdo b0 <- op (i_mm256_blend_epi32 0xF0) [t0; t1];
  bdo s <- avx2_g2 s b0;
  bdo s <- avx2_undiagonalize s;
  done s.

(** The code of blake2b/src/avx2.rs:197-215. *)
Definition avx2_round2 (m : avx2_msgs) (s : rows) : build rows :=
  let '(m0, m1, m2, m3, m4, m5, m6, m7) := m in
  bdo t0 <- op i_mm256_unpacklo_epi64 [m7; m2];
  bdo t1 <- op i_mm256_unpackhi_epi64 [m4; m6];
  bdo b0 <- op (i_mm256_blend_epi32 0xF0) [t0; t1];
  bdo s <- avx2_g1 s b0;
  bdo t0 <- op i_mm256_unpacklo_epi64 [m5; m4];
  bdo t1 <- op (i_mm256_alignr_epi8 8%nat) [m3; m7];
  bdo b0 <- op (i_mm256_blend_epi32 0xF0) [t0; t1];
  bdo s <- avx2_g2 s b0;
  bdo s <- avx2_diagonalize s;
  bdo t0 <- op i_mm256_unpackhi_epi64 [m2; m0];
  bdo t1 <- op (i_mm256_blend_epi32 0x33) [m5; m0];
  bdo b0 <- op (i_mm256_blend_epi32 0xF0) [t0; t1];
  bdo s <- avx2_g1 s b0;
  bdo t0 <- op (i_mm256_alignr_epi8 8%nat) [m6; m1];
  bdo t1 <- op (i_mm256_blend_epi32 0x33) [m3; m1];
  bdo b0 <- op (i_mm256_blend_epi32 0xF0) [t0; t1];
  bdo s <- avx2_g2 s b0;
  bdo s <- avx2_undiagonalize s;
  done s.

(** The code of blake2b/src/avx2.rs:217-235. *)
Definition avx2_round3 (m : avx2_msgs) (s : rows) : build rows :=
  let '(m0, m1, m2, m3, m4, m5, m6, m7) := m in
  bdo t0 <- op (i_mm256_alignr_epi8 8%nat) [m6; m5];
  bdo t1 <- op i_mm256_unpackhi_epi64 [m2; m7];
  bdo b0 <- op (i_mm256_blend_epi32 0xF0) [t0; t1];
  bdo s <- avx2_g1 s b0;
  bdo t0 <- op i_mm256_unpacklo_epi64 [m4; m0];
  bdo t1 <- op (i_mm256_blend_epi32 0x33) [m6; m1];
  bdo b0 <- op (i_mm256_blend_epi32 0xF0) [t0; t1];
  bdo s <- avx2_g2 s b0;
  bdo s <- avx2_diagonalize s;
  bdo t0 <- op (i_mm256_alignr_epi8 8%nat) [m5; m4];
  bdo t1 <- op i_mm256_unpackhi_epi64 [m1; m3];
  bdo b0 <- op (i_mm256_blend_epi32 0xF0) [t0; t1];
  bdo s <- avx2_g1 s b0;
  bdo t0 <- op i_mm256_unpacklo_epi64 [m2; m7];
  bdo t1 <- op (i_mm256_blend_epi32 0x33) [m0; m3];
  bdo b0 <- op (i_mm256_blend_epi32 0xF0) [t0; t1];
  bdo s <- avx2_g2 s b0;
  bdo s <- avx2_undiagonalize s;
  done s.

(** The code of blake2b/src/avx2.rs:237-255. *)
Definition avx2_round4 (m : avx2_msgs) (s : rows) : build rows :=
  let '(m0, m1, m2, m3, m4, m5, m6, m7) := m in
  bdo t0 <- op i_mm256_unpackhi_epi64 [m3; m1];
  bdo t1 <- op i_mm256_unpackhi_epi64 [m6; m5];
  bdo b0 <- op (i_mm256_blend_epi32 0xF0) [t0; t1];
  bdo s <- avx2_g1 s b0;
  bdo t0 <- op i_mm256_unpackhi_epi64 [m4; m0];
  bdo t1 <- op i_mm256_unpacklo_epi64 [m6; m7];
  bdo b0 <- op (i_mm256_blend_epi32 0xF0) [t0; t1];
  bdo s <- avx2_g2 s b0;
  bdo s <- avx2_diagonalize s;
  bdo t0 <- op (i_mm256_alignr_epi8 8%nat) [m1; m7];
  bdo t1 <- op (i_mm256_shuffle_epi32 (MM_SHUFFLE 1 0 3 2)) [m2];
  bdo b0 <- op (i_mm256_blend_epi32 0xF0) [t0; t1];
  bdo s <- avx2_g1 s b0;
  bdo t0 <- op i_mm256_unpacklo_epi64 [m4; m3];
  bdo t1 <- op i_mm256_unpacklo_epi64 [m5; m0];
  bdo b0 <- op (i_mm256_blend_epi32 0xF0) [t0; t1];
  bdo s <- avx2_g2 s b0;
  bdo s <- avx2_undiagonalize s;
  done s.

(** The code of blake2b/src/avx2.rs:257-275. *)
Definition avx2_round5 (m : avx2_msgs) (s : rows) : build rows :=
  let '(m0, m1, m2, m3, m4, m5, m6, m7) := m in
  bdo t0 <- op i_mm256_unpackhi_epi64 [m4; m2];
  bdo t1 <- op i_mm256_unpacklo_epi64 [m1; m5];
  bdo b0 <- op (i_mm256_blend_epi32 0xF0) [t0; t1];
  bdo s <- avx2_g1 s b0;
  bdo t0 <- op (i_mm256_blend_epi32 0x33) [m3; m0];
  bdo t1 <- op (i_mm256_blend_epi32 0x33) [m7; m2];
  bdo b0 <- op (i_mm256_blend_epi32 0xF0) [t0; t1];
  bdo s <- avx2_g2 s b0;
  bdo s <- avx2_diagonalize s;
  bdo t0 <- op (i_mm256_alignr_epi8 8%nat) [m7; m1];
  bdo t1 <- op (i_mm256_alignr_epi8 8%nat) [m3; m5];
  bdo b0 <- op (i_mm256_blend_epi32 0xF0) [t0; t1];
  bdo s <- avx2_g1 s b0;
  bdo t0 <- op i_mm256_unpackhi_epi64 [m6; m0];
  bdo t1 <- op i_mm256_unpacklo_epi64 [m6; m4];
  bdo b0 <- op (i_mm256_blend_epi32 0xF0) [t0; t1];
  bdo s <- avx2_g2 s b0;
  bdo s <- avx2_undiagonalize s;
  done s.

(** The code of blake2b/src/avx2.rs:277-295. *)
Definition avx2_round6 (m : avx2_msgs) (s : rows) : build rows :=
  let '(m0, m1, m2, m3, m4, m5, m6, m7) := m in
  bdo t0 <- op i_mm256_unpacklo_epi64 [m1; m3];
  bdo t1 <- op i_mm256_unpacklo_epi64 [m0; m4];
  bdo b0 <- op (i_mm256_blend_epi32 0xF0) [t0; t1];
  bdo s <- avx2_g1 s b0;
  bdo t0 <- op i_mm256_unpacklo_epi64 [m6; m5];
  bdo t1 <- op i_mm256_unpackhi_epi64 [m5; m1];
  bdo b0 <- op (i_mm256_blend_epi32 0xF0) [t0; t1];
  bdo s <- avx2_g2 s b0;
  bdo s <- avx2_diagonalize s;
  bdo t0 <- op (i_mm256_alignr_epi8 8%nat) [m2; m0];
  bdo t1 <- op i_mm256_unpackhi_epi64 [m3; m7];
  bdo b0 <- op (i_mm256_blend_epi32 0xF0) [t0; t1];
  bdo s <- avx2_g1 s b0;
  bdo t0 <- op i_mm256_unpackhi_epi64 [m4; m6];
  bdo t1 <- op (i_mm256_alignr_epi8 8%nat) [m7; m2];
  bdo b0 <- op (i_mm256_blend_epi32 0xF0) [t0; t1];
  bdo s <- avx2_g2 s b0;
  bdo s <- avx2_undiagonalize s;
  done s.

(** The code of blake2b/src/avx2.rs:297-315. *)
Definition avx2_round7 (m : avx2_msgs) (s : rows) : build rows :=
  let '(m0, m1, m2, m3, m4, m5, m6, m7) := m in
  bdo t0 <- op (i_mm256_blend_epi32 0x33) [m0; m6];
  bdo t1 <- op i_mm256_unpacklo_epi64 [m7; m2];
  bdo b0 <- op (i_mm256_blend_epi32 0xF0) [t0; t1];
  bdo s <- avx2_g1 s b0;
  bdo t0 <- op i_mm256_unpackhi_epi64 [m2; m7];
  bdo t1 <- op (i_mm256_alignr_epi8 8%nat) [m5; m6];
  bdo b0 <- op (i_mm256_blend_epi32 0xF0) [t0; t1];
  bdo s <- avx2_g2 s b0;
  bdo s <- avx2_diagonalize s;
  bdo t0 <- op i_mm256_unpacklo_epi64 [m4; m0];
  bdo t1 <- op (i_mm256_blend_epi32 0x33) [m4; m3];
  bdo b0 <- op (i_mm256_blend_epi32 0xF0) [t0; t1];
  bdo s <- avx2_g1 s b0;
  bdo t0 <- op i_mm256_unpackhi_epi64 [m5; m3];
  bdo t1 <- op (i_mm256_shuffle_epi32 (MM_SHUFFLE 1 0 3 2)) [m1];
  bdo b0 <- op (i_mm256_blend_epi32 0xF0) [t0; t1];
  bdo s <- avx2_g2 s b0;
  bdo s <- avx2_undiagonalize s;
  done s.

(** The code of blake2b/src/avx2.rs:317-335. *)
Definition avx2_round8 (m : avx2_msgs) (s : rows) : build rows :=
  let '(m0, m1, m2, m3, m4, m5, m6, m7) := m in
  bdo t0 <- op i_mm256_unpackhi_epi64 [m6; m3];
  bdo t1 <- op (i_mm256_blend_epi32 0x33) [m1; m6];
  bdo b0 <- op (i_mm256_blend_epi32 0xF0) [t0; t1];
  bdo s <- avx2_g1 s b0;
  bdo t0 <- op (i_mm256_alignr_epi8 8%nat) [m7; m5];
  bdo t1 <- op i_mm256_unpackhi_epi64 [m0; m4];
  bdo b0 <- op (i_mm256_blend_epi32 0xF0) [t0; t1];
  bdo s <- avx2_g2 s b0;
  bdo s <- avx2_diagonalize s;
  bdo t0 <- op (i_mm256_blend_epi32 0x33) [m2; m1];
  bdo t1 <- op (i_mm256_alignr_epi8 8%nat) [m4; m7];
  bdo b0 <- op (i_mm256_blend_epi32 0xF0) [t0; t1];
  bdo s <- avx2_g1 s b0;
  bdo t0 <- op i_mm256_unpacklo_epi64 [m5; m0];
  bdo t1 <- op i_mm256_unpacklo_epi64 [m2; m3];
  bdo b0 <- op (i_mm256_blend_epi32 0xF0) [t0; t1];
  bdo s <- avx2_g2 s b0;
  bdo s <- avx2_undiagonalize s;
  done s.

(** The code of blake2b/src/avx2.rs:337-355. *)
Definition avx2_round9 (m : avx2_msgs) (s : rows) : build rows :=
  let '(m0, m1, m2, m3, m4, m5, m6, m7) := m in
  bdo t0 <- op i_mm256_unpacklo_epi64 [m3; m7];
  bdo t1 <- op (i_mm256_alignr_epi8 8%nat) [m0; m5];
  bdo b0 <- op (i_mm256_blend_epi32 0xF0) [t0; t1];
  bdo s <- avx2_g1 s b0;
  bdo t0 <- op i_mm256_unpackhi_epi64 [m7; m4];
  bdo t1 <- op (i_mm256_alignr_epi8 8%nat) [m4; m1];
  bdo b0 <- op (i_mm256_blend_epi32 0xF0) [t0; t1];
  bdo s <- avx2_g2 s b0;
  bdo s <- avx2_diagonalize s;
  bdo t0 <- op i_mm256_unpacklo_epi64 [m5; m6];
  bdo t1 <- op i_mm256_unpackhi_epi64 [m6; m0];
  bdo b0 <- op (i_mm256_blend_epi32 0xF0) [t0; t1];
  bdo s <- avx2_g1 s b0;
  bdo t0 <- op (i_mm256_alignr_epi8 8%nat) [m1; m2];
  bdo t1 <- op (i_mm256_alignr_epi8 8%nat) [m2; m3];
  bdo b0 <- op (i_mm256_blend_epi32 0xF0) [t0; t1];
  bdo s <- avx2_g2 s b0;
  bdo s <- avx2_undiagonalize s;
  done s.

(** The code of blake2b/src/avx2.rs:357-375. *)
Definition avx2_round10 (m : avx2_msgs) (s : rows) : build rows :=
  let '(m0, m1, m2, m3, m4, m5, m6, m7) := m in
  bdo t0 <- op i_mm256_unpacklo_epi64 [m5; m4];
  bdo t1 <- op i_mm256_unpackhi_epi64 [m3; m0];
  bdo b0 <- op (i_mm256_blend_epi32 0xF0) [t0; t1];
  bdo s <- avx2_g1 s b0;
  bdo t0 <- op i_mm256_unpacklo_epi64 [m1; m2];
  bdo t1 <- op (i_mm256_blend_epi32 0x33) [m2; m3];
  bdo b0 <- op (i_mm256_blend_epi32 0xF0) [t0; t1];
  bdo s <- avx2_g2 s b0;
  bdo s <- avx2_diagonalize s;
  bdo t0 <- op i_mm256_unpackhi_epi64 [m6; m7];
  bdo t1 <- op i_mm256_unpackhi_epi64 [m4; m1];
  bdo b0 <- op (i_mm256_blend_epi32 0xF0) [t0; t1];
  bdo s <- avx2_g1 s b0;
  bdo t0 <- op (i_mm256_blend_epi32 0x33) [m5; m0];
  bdo t1 <- op i_mm256_unpacklo_epi64 [m7; m6];
  bdo b0 <- op (i_mm256_blend_epi32 0xF0) [t0; t1];
  bdo s <- avx2_g2 s b0;
  bdo s <- avx2_undiagonalize s;
  done s.

(** The code of blake2b/src/avx2.rs:377-395. *)
Definition avx2_round11 (m : avx2_msgs) (s : rows) : build rows :=
  let '(m0, m1, m2, m3, m4, m5, m6, m7) := m in
  bdo t0 <- op i_mm256_unpacklo_epi64 [m0; m1];
  bdo t1 <- op i_mm256_unpacklo_epi64 [m2; m3];
  bdo b0 <- op (i_mm256_blend_epi32 0xF0) [t0; t1];
  bdo s <- avx2_g1 s b0;
  bdo t0 <- op i_mm256_unpackhi_epi64 [m0; m1];
  bdo t1 <- op i_mm256_unpackhi_epi64 [m2; m3];
  bdo b0 <- op (i_mm256_blend_epi32 0xF0) [t0; t1];
  bdo s <- avx2_g2 s b0;
  bdo s <- avx2_diagonalize s;
  bdo t0 <- op i_mm256_unpacklo_epi64 [m7; m4];
  bdo t1 <- op i_mm256_unpacklo_epi64 [m5; m6];
  bdo b0 <- op (i_mm256_blend_epi32 0xF0) [t0; t1];
  bdo s <- avx2_g1 s b0;
  bdo t0 <- op i_mm256_unpackhi_epi64 [m7; m4];
  bdo t1 <- op i_mm256_unpackhi_epi64 [m5; m6];
  bdo b0 <- op (i_mm256_blend_epi32 0xF0) [t0; t1];
  bdo s <- avx2_g2 s b0;
  bdo s <- avx2_undiagonalize s;
  done s.

(** The code of blake2b/src/avx2.rs:397-415. *)
Definition avx2_round12 (m : avx2_msgs) (s : rows) : build rows :=
  let '(m0, m1, m2, m3, m4, m5, m6, m7) := m in
  bdo t0 <- op i_mm256_unpacklo_epi64 [m7; m2];
  bdo t1 <- op i_mm256_unpackhi_epi64 [m4; m6];
  bdo b0 <- op (i_mm256_blend_epi32 0xF0) [t0; t1];
  bdo s <- avx2_g1 s b0;
  bdo t0 <- op i_mm256_unpacklo_epi64 [m5; m4];
  bdo t1 <- op (i_mm256_alignr_epi8 8%nat) [m3; m7];
  bdo b0 <- op (i_mm256_blend_epi32 0xF0) [t0; t1];
  bdo s <- avx2_g2 s b0;
  bdo s <- avx2_diagonalize s;
  bdo t0 <- op i_mm256_unpackhi_epi64 [m2; m0];
  bdo t1 <- op (i_mm256_blend_epi32 0x33) [m5; m0];
  bdo b0 <- op (i_mm256_blend_epi32 0xF0) [t0; t1];
  bdo s <- avx2_g1 s b0;
  bdo t0 <- op (i_mm256_alignr_epi8 8%nat) [m6; m1];
  bdo t1 <- op (i_mm256_blend_epi32 0x33) [m3; m1];
  bdo b0 <- op (i_mm256_blend_epi32 0xF0) [t0; t1];
  bdo s <- avx2_g2 s b0;
  bdo s <- avx2_undiagonalize s;
  done s.

(** The code of blake2b/src/avx2.rs:162-169, one chunk. *)
Definition avx2_chunk (i : nat) : build nat :=
  bdo x <- ins (LoadBytes 0 (16 * i) 16);
  op i_mm256_broadcastsi128_si256 [x].

(** The code of blake2b/src/avx2.rs:146-424. *)
Definition avx2_block : build (list nat) :=
  bdo a <- ins (LoadWords 0 8 0 4);
  bdo b <- ins (LoadWords 0 8 4 4);
  bdo c <- op (i_const_words 8 (firstn 4 (iv V2b))) [];
  bdo lo <- op (w_low V2b) [0%nat];
  bdo hi <- op (w_high V2b) [0%nat];
  bdo flags <- op i_mm256_setr_epi64x [lo; hi; 1%nat; 2%nat];
  bdo k <- op (i_const_words 8 (skipn 4 (iv V2b))) [];
  bdo d <- op i_mm256_xor_si256 [k; flags];
  bdo m0 <- avx2_chunk 0; bdo m1 <- avx2_chunk 1; bdo m2 <- avx2_chunk 2; bdo m3 <- avx2_chunk 3;
  bdo m4 <- avx2_chunk 4; bdo m5 <- avx2_chunk 5; bdo m6 <- avx2_chunk 6; bdo m7 <- avx2_chunk 7;
  let m := (m0, m1, m2, m3, m4, m5, m6, m7) in
  let iv0 := a in
  let iv1 := b in
  let s := (a, b, c, d) in
  bdo s <- avx2_round1 m s;
  bdo s <- avx2_round2 m s;
  bdo s <- avx2_round3 m s;
  bdo s <- avx2_round4 m s;
  bdo s <- avx2_round5 m s;
  bdo s <- avx2_round6 m s;
  bdo s <- avx2_round7 m s;
  bdo s <- avx2_round8 m s;
  bdo s <- avx2_round9 m s;
  bdo s <- avx2_round10 m s;
  bdo s <- avx2_round11 m s;
  bdo s <- avx2_round12 m s;
  let '(a, b, c, d) := s in
  bdo a <- op i_mm256_xor_si256 [a; c];
  bdo b <- op i_mm256_xor_si256 [b; d];
  bdo a <- op i_mm256_xor_si256 [a; iv0];
  bdo b <- op i_mm256_xor_si256 [b; iv1];
  bdo wa <- bmap (fun i => op (i_lane 8 i) [a]) (seq 0 4);
  bdo wb <- bmap (fun i => op (i_lane 8 i) [b]) (seq 0 4);
  done (wa ++ wb).

(** compress_block of blake2b/src/avx2.rs:146-424. *)
Definition avx2_asm : asm := kernel_of 3 avx2_block.

(** *** blake2s/src/sse41.rs, one input *)

(** The registers m0..m3 (blake2s/src/sse41.rs:170-173). *)
Definition sse41_msgs := (nat * nat * nat * nat)%type.

(** The code of rot7, rot8, rot12 and rot16, blake2s/src/sse41.rs:75-92. *)
Definition sse41_rot (k : N) (x : nat) : build nat :=
  bdo r <- op (i_mm_srli_epi32 k) [x];
  bdo l <- op (i_mm_slli_epi32 (32 - k)) [x];
  op i_mm_or_si128 [r; l].

(** The code of blake2s/src/sse41.rs:95-108. *)
Definition sse41_g1 (s : rows) (m : nat) : build rows :=
  let '(row1, row2, row3, row4) := s in
  bdo row1 <- op i_mm_add_epi32 [row1; m];
  bdo row1 <- op i_mm_add_epi32 [row1; row2];
  bdo row4 <- op i_mm_xor_si128 [row4; row1];
  bdo row4 <- sse41_rot 16 row4;
  bdo row3 <- op i_mm_add_epi32 [row3; row4];
  bdo row2 <- op i_mm_xor_si128 [row2; row3];
  bdo row2 <- sse41_rot 12 row2;
  done (row1, row2, row3, row4).

(** The code of blake2s/src/sse41.rs:111-124. *)
Definition sse41_g2 (s : rows) (m : nat) : build rows :=
  let '(row1, row2, row3, row4) := s in
  bdo row1 <- op i_mm_add_epi32 [row1; m];
  bdo row1 <- op i_mm_add_epi32 [row1; row2];
  bdo row4 <- op i_mm_xor_si128 [row4; row1];
  bdo row4 <- sse41_rot 8 row4;
  bdo row3 <- op i_mm_add_epi32 [row3; row4];
  bdo row2 <- op i_mm_xor_si128 [row2; row3];
  bdo row2 <- sse41_rot 7 row2;
  done (row1, row2, row3, row4).

(** The code of blake2s/src/sse41.rs:137-141. *)
Definition sse41_diagonalize (s : rows) : build rows :=
  let '(row1, row2, row3, row4) := s in
  bdo row1 <- op (i_mm_shuffle_epi32 (MM_SHUFFLE 2 1 0 3)) [row1];
  bdo row4 <- op (i_mm_shuffle_epi32 (MM_SHUFFLE 1 0 3 2)) [row4];
  bdo row3 <- op (i_mm_shuffle_epi32 (MM_SHUFFLE 0 3 2 1)) [row3];
  done (row1, row2, row3, row4).

(** The code of blake2s/src/sse41.rs:144-148. *)
Definition sse41_undiagonalize (s : rows) : build rows :=
  let '(row1, row2, row3, row4) := s in
  bdo row1 <- op (i_mm_shuffle_epi32 (MM_SHUFFLE 0 3 2 1)) [row1];
  bdo row4 <- op (i_mm_shuffle_epi32 (MM_SHUFFLE 1 0 3 2)) [row4];
  bdo row3 <- op (i_mm_shuffle_epi32 (MM_SHUFFLE 2 1 0 3)) [row3];
  done (row1, row2, row3, row4).

(** The code of blake2s/src/sse41.rs:175-196. *)
Definition sse41_round1 (m : sse41_msgs) (s : rows) : build rows :=
  let '(m0, m1, m2, m3) := m in
  bdo u1 <- op i_mm_castsi128_ps [m0];
  bdo u2 <- op i_mm_castsi128_ps [m1];
  bdo u3 <- op (i_mm_shuffle_ps (MM_SHUFFLE 2 0 2 0)) [u1; u2];
  bdo buf <- op i_mm_castps_si128 [u3];
  bdo s <- sse41_g1 s buf;
  bdo u1 <- op i_mm_castsi128_ps [m0];
  bdo u2 <- op i_mm_castsi128_ps [m1];
  bdo u3 <- op (i_mm_shuffle_ps (MM_SHUFFLE 3 1 3 1)) [u1; u2];
  bdo buf <- op i_mm_castps_si128 [u3];
  bdo s <- sse41_g2 s buf;
  bdo s <- sse41_diagonalize s;
  bdo t0 <- op (i_mm_shuffle_epi32 (MM_SHUFFLE 3 2 0 1)) [m2];
  bdo t1 <- op (i_mm_shuffle_epi32 (MM_SHUFFLE 0 1 3 2)) [m3];
  bdo buf <- op (i_mm_blend_epi16 0xC3) [t0; t1];
  bdo s <- sse41_g1 s buf;
  bdo t0 <- op (i_mm_blend_epi16 0x3C) [t0; t1];
  bdo buf <- op (i_mm_shuffle_epi32 (MM_SHUFFLE 2 3 0 1)) [t0];
  bdo s <- sse41_g2 s buf;
  bdo s <- sse41_undiagonalize s;
  done s.

(** The code of blake2s/src/sse41.rs:198-220. *)
Definition sse41_round2 (m : sse41_msgs) (s : rows) : build rows :=
  let '(m0, m1, m2, m3) := m in
  bdo t0 <- op (i_mm_blend_epi16 0x0C) [m1; m2];
  bdo t1 <- op (i_mm_slli_si128 4%nat) [m3];
  bdo t2 <- op (i_mm_blend_epi16 0xF0) [t0; t1];
  bdo buf <- op (i_mm_shuffle_epi32 (MM_SHUFFLE 2 1 0 3)) [t2];
  bdo s <- sse41_g1 s buf;
  bdo t0 <- op (i_mm_shuffle_epi32 (MM_SHUFFLE 0 0 2 0)) [m2];
  bdo t1 <- op (i_mm_blend_epi16 0xC0) [m1; m3];
  bdo t2 <- op (i_mm_blend_epi16 0xF0) [t0; t1];
  bdo buf <- op (i_mm_shuffle_epi32 (MM_SHUFFLE 2 3 0 1)) [t2];
  bdo s <- sse41_g2 s buf;
  bdo s <- sse41_diagonalize s;
  bdo t0 <- op (i_mm_slli_si128 4%nat) [m1];
  bdo t1 <- op (i_mm_blend_epi16 0x30) [m2; t0];
  bdo t2 <- op (i_mm_blend_epi16 0xF0) [m0; t1];
  bdo buf <- op (i_mm_shuffle_epi32 (MM_SHUFFLE 3 0 1 2)) [t2];
  bdo s <- sse41_g1 s buf;
  bdo t0 <- op i_mm_unpackhi_epi32 [m0; m1];
  bdo t1 <- op (i_mm_slli_si128 4%nat) [m3];
  bdo t2 <- op (i_mm_blend_epi16 0x0C) [t0; t1];
  bdo buf <- op (i_mm_shuffle_epi32 (MM_SHUFFLE 3 0 1 2)) [t2];
  bdo s <- sse41_g2 s buf;
  bdo s <- sse41_undiagonalize s;
  done s.

(** The code of blake2s/src/sse41.rs:222-244. *)
Definition sse41_round3 (m : sse41_msgs) (s : rows) : build rows :=
  let '(m0, m1, m2, m3) := m in
  bdo t0 <- op i_mm_unpackhi_epi32 [m2; m3];
  bdo t1 <- op (i_mm_blend_epi16 0x0C) [m3; m1];
  bdo t2 <- op (i_mm_blend_epi16 0x0F) [t0; t1];
  bdo buf <- op (i_mm_shuffle_epi32 (MM_SHUFFLE 3 1 0 2)) [t2];
  bdo s <- sse41_g1 s buf;
  bdo t0 <- op i_mm_unpacklo_epi32 [m2; m0];
  bdo t1 <- op (i_mm_blend_epi16 0xF0) [t0; m0];
  bdo t2 <- op (i_mm_slli_si128 8%nat) [m3];
  bdo buf <- op (i_mm_blend_epi16 0xC0) [t1; t2];
  bdo s <- sse41_g2 s buf;
  bdo s <- sse41_diagonalize s;
  bdo t0 <- op (i_mm_blend_epi16 0x3C) [m0; m2];
  bdo t1 <- op (i_mm_srli_si128 12%nat) [m1];
  bdo t2 <- op (i_mm_blend_epi16 0x03) [t0; t1];
  bdo buf <- op (i_mm_shuffle_epi32 (MM_SHUFFLE 0 3 2 1)) [t2];
  bdo s <- sse41_g1 s buf;
  bdo t0 <- op (i_mm_slli_si128 4%nat) [m3];
  bdo t1 <- op (i_mm_blend_epi16 0x33) [m0; m1];
  bdo t2 <- op (i_mm_blend_epi16 0xC0) [t1; t0];
  bdo buf <- op (i_mm_shuffle_epi32 (MM_SHUFFLE 1 2 3 0)) [t2];
  bdo s <- sse41_g2 s buf;
  bdo s <- sse41_undiagonalize s;
  done s.

(** The code of blake2s/src/sse41.rs:246-265. *)
Definition sse41_round4 (m : sse41_msgs) (s : rows) : build rows :=
  let '(m0, m1, m2, m3) := m in
  bdo t0 <- op i_mm_unpackhi_epi32 [m0; m1];
  bdo t1 <- op i_mm_unpackhi_epi32 [t0; m2];
  bdo t2 <- op (i_mm_blend_epi16 0x0C) [t1; m3];
  bdo buf <- op (i_mm_shuffle_epi32 (MM_SHUFFLE 3 1 0 2)) [t2];
  bdo s <- sse41_g1 s buf;
  bdo t0 <- op (i_mm_slli_si128 8%nat) [m2];
  bdo t1 <- op (i_mm_blend_epi16 0x0C) [m3; m0];
  bdo t2 <- op (i_mm_blend_epi16 0xC0) [t1; t0];
  bdo buf <- op (i_mm_shuffle_epi32 (MM_SHUFFLE 2 0 1 3)) [t2];
  bdo s <- sse41_g2 s buf;
  bdo s <- sse41_diagonalize s;
  bdo t0 <- op (i_mm_blend_epi16 0x0F) [m0; m1];
  bdo t1 <- op (i_mm_blend_epi16 0xC0) [t0; m3];
  bdo buf <- op (i_mm_shuffle_epi32 (MM_SHUFFLE 0 1 2 3)) [t1];
  bdo s <- sse41_g1 s buf;
  bdo t0 <- op (i_mm_alignr_epi8 4%nat) [m0; m1];
  bdo buf <- op (i_mm_blend_epi16 0x33) [t0; m2];
  bdo s <- sse41_g2 s buf;
  bdo s <- sse41_undiagonalize s;
  done s.

(** The code of blake2s/src/sse41.rs:267-288. *)
Definition sse41_round5 (m : sse41_msgs) (s : rows) : build rows :=
  let '(m0, m1, m2, m3) := m in
  bdo t0 <- op i_mm_unpacklo_epi64 [m1; m2];
  bdo t1 <- op i_mm_unpackhi_epi64 [m0; m2];
  bdo t2 <- op (i_mm_blend_epi16 0x33) [t0; t1];
  bdo buf <- op (i_mm_shuffle_epi32 (MM_SHUFFLE 2 0 1 3)) [t2];
  bdo s <- sse41_g1 s buf;
  bdo t0 <- op i_mm_unpackhi_epi64 [m1; m3];
  bdo t1 <- op i_mm_unpacklo_epi64 [m0; m1];
  bdo buf <- op (i_mm_blend_epi16 0x33) [t0; t1];
  bdo s <- sse41_g2 s buf;
  bdo s <- sse41_diagonalize s;
  bdo t0 <- op i_mm_unpackhi_epi64 [m3; m1];
  bdo t1 <- op i_mm_unpackhi_epi64 [m2; m0];
  bdo t2 <- op (i_mm_blend_epi16 0x33) [t1; t0];
  bdo buf <- op (i_mm_shuffle_epi32 (MM_SHUFFLE 2 1 0 3)) [t2];
  bdo s <- sse41_g1 s buf;
  bdo t0 <- op (i_mm_blend_epi16 0x03) [m0; m2];
  bdo t1 <- op (i_mm_slli_si128 8%nat) [t0];
  bdo t2 <- op (i_mm_blend_epi16 0x0F) [t1; m3];
  bdo buf <- op (i_mm_shuffle_epi32 (MM_SHUFFLE 2 0 3 1)) [t2];
  bdo s <- sse41_g2 s buf;
  bdo s <- sse41_undiagonalize s;
  done s.

(** The code of blake2s/src/sse41.rs:290-310. *)
Definition sse41_round6 (m : sse41_msgs) (s : rows) : build rows :=
  let '(m0, m1, m2, m3) := m in
  bdo t0 <- op i_mm_unpackhi_epi32 [m0; m1];
  bdo t1 <- op i_mm_unpacklo_epi32 [m0; m2];
  bdo buf <- op i_mm_unpacklo_epi64 [t0; t1];
  bdo s <- sse41_g1 s buf;
  bdo t0 <- op (i_mm_srli_si128 4%nat) [m2];
  bdo t1 <- op (i_mm_blend_epi16 0x03) [m0; m3];
  bdo buf <- op (i_mm_blend_epi16 0x3C) [t1; t0];
  bdo s <- sse41_g2 s buf;
  bdo s <- sse41_diagonalize s;
  bdo t0 <- op (i_mm_blend_epi16 0x0C) [m1; m0];
  bdo t1 <- op (i_mm_srli_si128 4%nat) [m3];
  bdo t2 <- op (i_mm_blend_epi16 0x30) [t0; t1];
  bdo buf <- op (i_mm_shuffle_epi32 (MM_SHUFFLE 2 3 0 1)) [t2];
  bdo s <- sse41_g1 s buf;
  bdo t0 <- op i_mm_unpacklo_epi64 [m2; m1];
  bdo t1 <- op (i_mm_shuffle_epi32 (MM_SHUFFLE 2 0 1 0)) [m3];
  bdo t2 <- op (i_mm_srli_si128 4%nat) [t0];
  bdo buf <- op (i_mm_blend_epi16 0x33) [t1; t2];
  bdo s <- sse41_g2 s buf;
  bdo s <- sse41_undiagonalize s;
  done s.

(** The code of blake2s/src/sse41.rs:312-331. *)
Definition sse41_round7 (m : sse41_msgs) (s : rows) : build rows :=
  let '(m0, m1, m2, m3) := m in
  bdo t0 <- op (i_mm_slli_si128 12%nat) [m1];
  bdo t1 <- op (i_mm_blend_epi16 0x33) [m0; m3];
  bdo buf <- op (i_mm_blend_epi16 0xC0) [t1; t0];
  bdo s <- sse41_g1 s buf;
  bdo t0 <- op (i_mm_blend_epi16 0x30) [m3; m2];
  bdo t1 <- op (i_mm_srli_si128 4%nat) [m1];
  bdo t2 <- op (i_mm_blend_epi16 0x03) [t0; t1];
  bdo buf <- op (i_mm_shuffle_epi32 (MM_SHUFFLE 2 1 3 0)) [t2];
  bdo s <- sse41_g2 s buf;
  bdo s <- sse41_diagonalize s;
  bdo t0 <- op i_mm_unpacklo_epi64 [m0; m2];
  bdo t1 <- op (i_mm_srli_si128 4%nat) [m1];
  bdo u1 <- op (i_mm_blend_epi16 0x0C) [t0; t1];
  bdo buf <- op (i_mm_shuffle_epi32 (MM_SHUFFLE 3 1 0 2)) [u1];
  bdo s <- sse41_g1 s buf;
  bdo t0 <- op i_mm_unpackhi_epi32 [m1; m2];
  bdo t1 <- op i_mm_unpackhi_epi64 [m0; t0];
  bdo buf <- op (i_mm_shuffle_epi32 (MM_SHUFFLE 0 1 2 3)) [t1];
  bdo s <- sse41_g2 s buf;
  bdo s <- sse41_undiagonalize s;
  done s.

(** The code of blake2s/src/sse41.rs:333-354. *)
Definition sse41_round8 (m : sse41_msgs) (s : rows) : build rows :=
  let '(m0, m1, m2, m3) := m in
  bdo t0 <- op i_mm_unpackhi_epi32 [m0; m1];
  bdo t1 <- op (i_mm_blend_epi16 0x0F) [t0; m3];
  bdo buf <- op (i_mm_shuffle_epi32 (MM_SHUFFLE 2 0 3 1)) [t1];
  bdo s <- sse41_g1 s buf;
  bdo t0 <- op (i_mm_blend_epi16 0x30) [m2; m3];
  bdo t1 <- op (i_mm_srli_si128 4%nat) [m0];
  bdo t2 <- op (i_mm_blend_epi16 0x03) [t0; t1];
  bdo buf <- op (i_mm_shuffle_epi32 (MM_SHUFFLE 1 0 2 3)) [t2];
  bdo s <- sse41_g2 s buf;
  bdo s <- sse41_diagonalize s;
  bdo t0 <- op i_mm_unpackhi_epi64 [m0; m3];
  bdo t1 <- op i_mm_unpacklo_epi64 [m1; m2];
  bdo t2 <- op (i_mm_blend_epi16 0x3C) [t0; t1];
  bdo buf <- op (i_mm_shuffle_epi32 (MM_SHUFFLE 2 3 1 0)) [t2];
  bdo s <- sse41_g1 s buf;
  bdo t0 <- op i_mm_unpacklo_epi32 [m0; m1];
  bdo t1 <- op i_mm_unpackhi_epi32 [m1; m2];
  bdo t2 <- op i_mm_unpacklo_epi64 [t0; t1];
  bdo buf <- op (i_mm_shuffle_epi32 (MM_SHUFFLE 2 1 0 3)) [t2];
  bdo s <- sse41_g2 s buf;
  bdo s <- sse41_undiagonalize s;
  done s.

(** The code of blake2s/src/sse41.rs:356-375. *)
Definition sse41_round9 (m : sse41_msgs) (s : rows) : build rows :=
  let '(m0, m1, m2, m3) := m in
  bdo t0 <- op i_mm_unpackhi_epi32 [m1; m3];
  bdo t1 <- op i_mm_unpacklo_epi64 [t0; m0];
  bdo t2 <- op (i_mm_blend_epi16 0xC0) [t1; m2];
  bdo buf <- op (i_mm_shufflehi_epi16 (MM_SHUFFLE 1 0 3 2)) [t2];
  bdo s <- sse41_g1 s buf;
  bdo t0 <- op i_mm_unpackhi_epi32 [m0; m3];
  bdo t1 <- op (i_mm_blend_epi16 0xF0) [m2; t0];
  bdo buf <- op (i_mm_shuffle_epi32 (MM_SHUFFLE 0 2 1 3)) [t1];
  bdo s <- sse41_g2 s buf;
  bdo s <- sse41_diagonalize s;
  bdo t0 <- op i_mm_unpacklo_epi64 [m0; m3];
  bdo t1 <- op (i_mm_srli_si128 8%nat) [m2];
  bdo t2 <- op (i_mm_blend_epi16 0x03) [t0; t1];
  bdo buf <- op (i_mm_shuffle_epi32 (MM_SHUFFLE 1 3 2 0)) [t2];
  bdo s <- sse41_g1 s buf;
  bdo t0 <- op (i_mm_blend_epi16 0x30) [m1; m0];
  bdo buf <- op (i_mm_shuffle_epi32 (MM_SHUFFLE 0 3 2 1)) [t0];
  bdo s <- sse41_g2 s buf;
  bdo s <- sse41_undiagonalize s;
  done s.

(** The code of blake2s/src/sse41.rs:377-398. *)
Definition sse41_round10 (m : sse41_msgs) (s : rows) : build rows :=
  let '(m0, m1, m2, m3) := m in
  bdo t0 <- op (i_mm_blend_epi16 0x03) [m0; m2];
  bdo t1 <- op (i_mm_blend_epi16 0x30) [m1; m2];
  bdo t2 <- op (i_mm_blend_epi16 0x0F) [t1; t0];
  bdo buf <- op (i_mm_shuffle_epi32 (MM_SHUFFLE 1 3 0 2)) [t2];
  bdo s <- sse41_g1 s buf;
  bdo t0 <- op (i_mm_slli_si128 4%nat) [m0];
  bdo t1 <- op (i_mm_blend_epi16 0xC0) [m1; t0];
  bdo buf <- op (i_mm_shuffle_epi32 (MM_SHUFFLE 1 2 0 3)) [t1];
  bdo s <- sse41_g2 s buf;
  bdo s <- sse41_diagonalize s;
  bdo t0 <- op i_mm_unpackhi_epi32 [m0; m3];
  bdo t1 <- op i_mm_unpacklo_epi32 [m2; m3];
  bdo t2 <- op i_mm_unpackhi_epi64 [t0; t1];
  bdo buf <- op (i_mm_shuffle_epi32 (MM_SHUFFLE 0 2 1 3)) [t2];
  bdo s <- sse41_g1 s buf;
  bdo t0 <- op (i_mm_blend_epi16 0xC0) [m3; m2];
  bdo t1 <- op i_mm_unpacklo_epi32 [m0; m3];
  bdo t2 <- op (i_mm_blend_epi16 0x0F) [t0; t1];
  bdo buf <- op (i_mm_shuffle_epi32 (MM_SHUFFLE 1 2 3 0)) [t2];
  bdo s <- sse41_g2 s buf;
  bdo s <- sse41_undiagonalize s;
  done s.

(** The code of blake2s/src/sse41.rs:151-402. *)
Definition sse41_block : build (list nat) :=
  bdo row1 <- ins (LoadWords 0 4 0 4);
  bdo row2 <- ins (LoadWords 0 4 4 4);
  bdo row3 <- op (i_const_words 4 (firstn 4 (iv V2s))) [];
  bdo k <- op (i_const_words 4 (skipn 4 (iv V2s))) [];
  bdo lo <- op (w_low V2s) [0%nat];
  bdo hi <- op (w_high V2s) [0%nat];
  bdo flags <- op i_mm_setr_epi32 [lo; hi; 1%nat; 2%nat];
  bdo row4 <- op i_mm_xor_si128 [k; flags];
  bdo m0 <- ins (LoadBytes 0 (16 * 0) 16);
  bdo m1 <- ins (LoadBytes 0 (16 * 1) 16);
  bdo m2 <- ins (LoadBytes 0 (16 * 2) 16);
  bdo m3 <- ins (LoadBytes 0 (16 * 3) 16);
  let m := (m0, m1, m2, m3) in
  let s := (row1, row2, row3, row4) in
  bdo s <- sse41_round1 m s;
  bdo s <- sse41_round2 m s;
  bdo s <- sse41_round3 m s;
  bdo s <- sse41_round4 m s;
  bdo s <- sse41_round5 m s;
  bdo s <- sse41_round6 m s;
  bdo s <- sse41_round7 m s;
  bdo s <- sse41_round8 m s;
  bdo s <- sse41_round9 m s;
  bdo s <- sse41_round10 m s;
  let '(row1, row2, row3, row4) := s in
  bdo low <- ins (LoadWords 0 4 0 4);
  bdo t <- op i_mm_xor_si128 [row1; row3];
  bdo low <- op i_mm_xor_si128 [low; t];
  bdo high <- ins (LoadWords 0 4 4 4);
  bdo t <- op i_mm_xor_si128 [row2; row4];
  bdo high <- op i_mm_xor_si128 [high; t];
  bdo wl <- bmap (fun i => op (i_lane 4 i) [low]) (seq 0 4);
  bdo wh <- bmap (fun i => op (i_lane 4 i) [high]) (seq 0 4);
  done (wl ++ wh).

(** compress_block of blake2s/src/sse41.rs:151-402. *)
Definition sse41_asm : asm := kernel_of 3 sse41_block.

(** *** Several inputs.  "Ab" is blake2b/src/avx2.rs, "Sb" blake2b/src/sse41.rs, "As" blake2s/src/avx2.rs and
    "Ss" blake2s/src/sse41.rs, as in Simd.v. *)

(** The instructions of one back end: blake2b/src/avx2.rs:15-104, blake2b/src/sse41.rs:15-100, blake2s/src/avx2.rs:14-93, blake2s/src/sse41.rs:15-92 (see [simd]). *)
Record names := {
  n_simd : simd;
  n_add : opcode;
  n_eq : opcode;
  n_and : opcode;
  n_negate_and : opcode;
  n_xor : opcode;
  n_or : opcode;
  n_srli : N -> opcode;
  n_slli : N -> opcode;
  n_set1 : opcode;
  n_setn : list nat -> build nat;
  n_transpose_vecs : list nat -> build (list nat) }.

(** A rotation of a back end by two shifts: blake2b/src/avx2.rs:87-104, blake2b/src/sse41.rs:83-100, blake2s/src/avx2.rs:76-93, blake2s/src/sse41.rs:75-92. *)
Definition lane_rot (M : names) (k : N) (x : nat) : build nat :=
  bdo r <- op (n_srli M k) [x];
  bdo l <- op (n_slli M (wbits (s_var (n_simd M)) - k)) [x];
  op (n_or M) [r; l].

(** set1 of a constant: blake2b/src/avx2.rs:61-63, blake2b/src/sse41.rs:56-58, blake2s/src/avx2.rs:55-57, blake2s/src/sse41.rs:56-58. *)
Definition lane_const (M : names) (x : N) : build nat :=
  bdo c <- op (w_const x) [];
  op (n_set1 M) [c].

(** The code of one statement of fn round: blake2b/src/avx2.rs:489-601 and copies. *)
Definition lane_stmt (M : names) (r : nat) (m : list nat) (v : list nat) (s : stmt) : build (list nat) :=
  let at_ l i := nth i l 0%nat in
  let w := s_var (n_simd M) in
  match s with
  | AddM i k => bdo t <- op (n_add M) [at_ v i; at_ m (sig w r k)]; done (set v i t)
  | Add i j => bdo t <- op (n_add M) [at_ v i; at_ v j]; done (set v i t)
  | Xor i j => bdo t <- op (n_xor M) [at_ v i; at_ v j]; done (set v i t)
  | Rot1 i => bdo t <- lane_rot M (rot1 w) (at_ v i); done (set v i t)
  | Rot2 i => bdo t <- lane_rot M (rot2 w) (at_ v i); done (set v i t)
  | Rot3 i => bdo t <- lane_rot M (rot3 w) (at_ v i); done (set v i t)
  | Rot4 i => bdo t <- lane_rot M (rot4 w) (at_ v i); done (set v i t)
  end.

(** The code of fn round: blake2b/src/avx2.rs:488-602, blake2b/src/sse41.rs:103-217, blake2s/src/avx2.rs:96-210, blake2s/src/sse41.rs:459-573. *)
Definition lane_round (M : names) (m : list nat) (v : list nat) (r : nat) : build (list nat) :=
  bfold (lane_stmt M r m) round_program v.

(** The code of compress{N}_transposed!: blake2b/src/avx2.rs:608-665, blake2b/src/sse41.rs:223-279, blake2s/src/avx2.rs:216-271, blake2s/src/sse41.rs:579-633. *)
Definition lane_compress (M : names) (h m : list nat) (lo hi last_block last_node : nat) : build (list nat) :=
  let at_ l i := nth i l 0%nat in
  let w := s_var (n_simd M) in
  bdo iv <- bmap (fun i => lane_const M (Portable.at_ (iv w) i)) (seq 0 8);
  bdo v12 <- op (n_xor M) [at_ iv 4%nat; lo];
  bdo v13 <- op (n_xor M) [at_ iv 5%nat; hi];
  bdo v14 <- op (n_xor M) [at_ iv 6%nat; last_block];
  bdo v15 <- op (n_xor M) [at_ iv 7%nat; last_node];
  bdo v <- bfold (lane_round M m) (seq 0 (num_rounds w)) (h ++ firstn 4 iv ++ [v12; v13; v14; v15]);
  bmap (fun i => bdo t <- op (n_xor M) [at_ h i; at_ v i]; op (n_xor M) [t; at_ v (i + 8)%nat]) (seq 0 8).

(** The code of add_to_counts: blake2b/src/avx2.rs:810-818, blake2b/src/sse41.rs:360-368, blake2s/src/avx2.rs:436-444, blake2s/src/sse41.rs:769-777. *)
Definition lane_counts (M : names) (lo hi delta : nat) : build (nat * nat) :=
  bdo lo <- op (n_add M) [lo; delta];
  bdo z <- lane_const M 0;
  bdo lo_reached_zero <- op (n_eq M) [lo; z];
  bdo z <- lane_const M 0;
  bdo delta_was_zero <- op (n_eq M) [delta; z];
  bdo one <- lane_const M 1;
  bdo t <- op (n_negate_and M) [delta_was_zero; lo_reached_zero];
  bdo hi_inc <- op (n_and M) [one; t];
  bdo hi <- op (n_add M) [hi; hi_inc];
  done (lo, hi).

(** The code of transpose_msg_vecs: blake2b/src/avx2.rs:746-780, blake2b/src/sse41.rs:324-340, blake2s/src/avx2.rs:364-398, blake2s/src/sse41.rs:705-739.  The blocks are blocks 0 to
    DEGREE - 1. *)
Definition lane_msgs (M : names) : build (list nat) :=
  let d := s_degree (n_simd M) in
  let n := (d * wbytes (s_var (n_simd M)))%nat in
  bdo m <- bmap (fun c =>
             bdo xs <- bmap (fun b => ins (LoadBytes b (c * n) n)) (seq 0 d);
             n_transpose_vecs M xs) (seq 0 (16 / d));
  done (concat m).

(** One block of all inputs: blake2b/src/avx2.rs:900-917, blake2b/src/sse41.rs:433-449, blake2s/src/avx2.rs:564-580, blake2s/src/sse41.rs:859-876.  Registers 0 to 7 hold the states,
    8 to 12 the counts, their increments and the flags. *)
Definition lane_block (M : names) : build (list nat) :=
  bdo m <- lane_msgs M;
  bdo '(lo, hi) <- lane_counts M 8 9 10;
  bdo h <- lane_compress M (seq 0 8) m lo hi 11 12;
  done (h ++ [lo; hi]).

(** The code of transpose_state_vecs and load_counts: blake2b/src/avx2.rs:702-723, 783-798, blake2b/src/sse41.rs:289-300, 343-348, blake2s/src/avx2.rs:331-345,
    401-424, blake2s/src/sse41.rs:660-681, 742-757.  The states are states 0 to DEGREE - 1, the counts are in registers 0 to
    DEGREE - 1. *)
Definition lane_load (M : names) : build (list nat) :=
  let d := s_degree (n_simd M) in
  let w := s_var (n_simd M) in
  bdo h <- bmap (fun c =>
             bdo xs <- bmap (fun j => ins (LoadWords j (wbytes w) (c * d) d)) (seq 0 d);
             n_transpose_vecs M xs) (seq 0 (8 / d));
  bdo lows <- bmap (fun j => op (w_low w) [j]) (seq 0 d);
  bdo lo <- n_setn M lows;
  bdo highs <- bmap (fun j => op (w_high w) [j]) (seq 0 d);
  bdo hi <- n_setn M highs;
  done (concat h ++ [lo; hi]).

(** The code of untranspose_state_vecs and store_counts: blake2b/src/avx2.rs:726-743, 801-807, blake2b/src/sse41.rs:303-321, 351-357, blake2s/src/avx2.rs:348-361,
    427-433, blake2s/src/sse41.rs:684-702, 760-766.  Registers 0 to 7 hold the states, 8 and 9 the counts; the results are the
    words of each state and then the counts. *)
Definition lane_store (M : names) : build (list nat) :=
  let d := s_degree (n_simd M) in
  let w := wbytes (s_var (n_simd M)) in
  bdo t <- bmap (fun c => n_transpose_vecs M (seq (c * d) d)) (seq 0 (8 / d));
  bdo words <- bmap (fun i =>
      bdo ws <- bmap (fun c => bmap (fun k => op (i_lane w k) [nth i (nth c t []) 0%nat]) (seq 0 d)) (seq 0 (8 / d));
      done (concat ws)) (seq 0 d);
  bdo counts <- bmap (fun i =>
      bdo lo <- op (i_lane w i) [8%nat];
      bdo hi <- op (i_lane w i) [9%nat];
      op (w_assemble (s_var (n_simd M))) [lo; hi]) (seq 0 d);
  done (concat words ++ counts).

(** The code of interleave128: blake2b/src/avx2.rs:668-673, blake2s/src/avx2.rs:274-279. *)
Definition lane_interleave128 (a b : nat) : build (nat * nat) :=
  bdo x <- op (i_mm256_permute2x128_si256 0x20) [a; b];
  bdo y <- op (i_mm256_permute2x128_si256 0x31) [a; b];
  done (x, y).

(** The code of transpose_vecs, blake2b/src/avx2.rs:682-699. *)
Definition lane_transpose_avx2b (vs : list nat) : build (list nat) :=
  match vs with
  | [vec_a; vec_b; vec_c; vec_d] =>
      bdo ab_02 <- op i_mm256_unpacklo_epi64 [vec_a; vec_b];
      bdo ab_13 <- op i_mm256_unpackhi_epi64 [vec_a; vec_b];
      bdo cd_02 <- op i_mm256_unpacklo_epi64 [vec_c; vec_d];
      bdo cd_13 <- op i_mm256_unpackhi_epi64 [vec_c; vec_d];
      bdo '(abcd_0, abcd_2) <- lane_interleave128 ab_02 cd_02;
      bdo '(abcd_1, abcd_3) <- lane_interleave128 ab_13 cd_13;
      done [abcd_0; abcd_1; abcd_2; abcd_3]
  | _ => done []
  end.

(** blake2b/src/avx2.rs:15-104. *)
Definition avx2b_names : names := {|
  n_simd := avx2b;
  n_add := i_mm256_add_epi64;
  n_eq := i_mm256_cmpeq_epi64;
  n_and := i_mm256_and_si256;
  n_negate_and := i_mm256_andnot_si256;
  n_xor := i_mm256_xor_si256;
  n_or := i_mm256_or_si256;
  n_srli := i_mm256_srli_epi64;
  n_slli := i_mm256_slli_epi64;
  n_set1 := i_mm256_set1_epi64x;
  n_setn := fun l => op i_mm256_setr_epi64x l;
  n_transpose_vecs := lane_transpose_avx2b |}.

(** The code of set2, blake2b/src/sse41.rs:61-64. *)
Definition lane_set2 (l : list nat) : build nat := op i_mm_set_epi64x (rev l).

(** The code of transpose_vecs, blake2b/src/sse41.rs:282-286. *)
Definition lane_transpose_sse41b (vs : list nat) : build (list nat) :=
  match vs with
  | [a; b] =>
      bdo a0 <- op (i_lane 8 0) [a];
      bdo a1 <- op (i_lane 8 1) [a];
      bdo b0 <- op (i_lane 8 0) [b];
      bdo b1 <- op (i_lane 8 1) [b];
      bdo x <- lane_set2 [a0; b0];
      bdo y <- lane_set2 [a1; b1];
      done [x; y]
  | _ => done []
  end.

(** blake2b/src/sse41.rs:15-100. *)
Definition sse41b_names : names := {|
  n_simd := sse41b;
  n_add := i_mm_add_epi64;
  n_eq := i_mm_cmpeq_epi64;
  n_and := i_mm_and_si128;
  n_negate_and := i_mm_andnot_si128;
  n_xor := i_mm_xor_si128;
  n_or := i_mm_or_si128;
  n_srli := i_mm_srli_epi64;
  n_slli := i_mm_slli_epi64;
  n_set1 := i_mm_set1_epi64x;
  n_setn := lane_set2;
  n_transpose_vecs := lane_transpose_sse41b |}.

(** The code of transpose_vecs, blake2s/src/sse41.rs:636-657. *)
Definition lane_transpose_sse41s (vs : list nat) : build (list nat) :=
  match vs with
  | [vec_a; vec_b; vec_c; vec_d] =>
      bdo ab_01 <- op i_mm_unpacklo_epi32 [vec_a; vec_b];
      bdo ab_23 <- op i_mm_unpackhi_epi32 [vec_a; vec_b];
      bdo cd_01 <- op i_mm_unpacklo_epi32 [vec_c; vec_d];
      bdo cd_23 <- op i_mm_unpackhi_epi32 [vec_c; vec_d];
      bdo abcd_0 <- op i_mm_unpacklo_epi64 [ab_01; cd_01];
      bdo abcd_1 <- op i_mm_unpackhi_epi64 [ab_01; cd_01];
      bdo abcd_2 <- op i_mm_unpacklo_epi64 [ab_23; cd_23];
      bdo abcd_3 <- op i_mm_unpackhi_epi64 [ab_23; cd_23];
      done [abcd_0; abcd_1; abcd_2; abcd_3]
  | _ => done []
  end.

(** blake2s/src/sse41.rs:15-92. *)
Definition sse41s_names : names := {|
  n_simd := sse41s;
  n_add := i_mm_add_epi32;
  n_eq := i_mm_cmpeq_epi32;
  n_and := i_mm_and_si128;
  n_negate_and := i_mm_andnot_si128;
  n_xor := i_mm_xor_si128;
  n_or := i_mm_or_si128;
  n_srli := i_mm_srli_epi32;
  n_slli := i_mm_slli_epi32;
  n_set1 := i_mm_set1_epi32;
  n_setn := fun l => op i_mm_setr_epi32 l;
  n_transpose_vecs := lane_transpose_sse41s |}.

(** The code of transpose_vecs, blake2s/src/avx2.rs:288-328. *)
Definition lane_transpose_avx2s (vs : list nat) : build (list nat) :=
  match vs with
  | [vec_a; vec_b; vec_c; vec_d; vec_e; vec_f; vec_g; vec_h] =>
      bdo ab_0145 <- op i_mm256_unpacklo_epi32 [vec_a; vec_b];
      bdo ab_2367 <- op i_mm256_unpackhi_epi32 [vec_a; vec_b];
      bdo cd_0145 <- op i_mm256_unpacklo_epi32 [vec_c; vec_d];
      bdo cd_2367 <- op i_mm256_unpackhi_epi32 [vec_c; vec_d];
      bdo ef_0145 <- op i_mm256_unpacklo_epi32 [vec_e; vec_f];
      bdo ef_2367 <- op i_mm256_unpackhi_epi32 [vec_e; vec_f];
      bdo gh_0145 <- op i_mm256_unpacklo_epi32 [vec_g; vec_h];
      bdo gh_2367 <- op i_mm256_unpackhi_epi32 [vec_g; vec_h];
      bdo abcd_04 <- op i_mm256_unpacklo_epi64 [ab_0145; cd_0145];
      bdo abcd_15 <- op i_mm256_unpackhi_epi64 [ab_0145; cd_0145];
      bdo abcd_26 <- op i_mm256_unpacklo_epi64 [ab_2367; cd_2367];
      bdo abcd_37 <- op i_mm256_unpackhi_epi64 [ab_2367; cd_2367];
      bdo efgh_04 <- op i_mm256_unpacklo_epi64 [ef_0145; gh_0145];
      bdo efgh_15 <- op i_mm256_unpackhi_epi64 [ef_0145; gh_0145];
      bdo efgh_26 <- op i_mm256_unpacklo_epi64 [ef_2367; gh_2367];
      bdo efgh_37 <- op i_mm256_unpackhi_epi64 [ef_2367; gh_2367];
      bdo '(abcdefgh_0, abcdefgh_4) <- lane_interleave128 abcd_04 efgh_04;
      bdo '(abcdefgh_1, abcdefgh_5) <- lane_interleave128 abcd_15 efgh_15;
      bdo '(abcdefgh_2, abcdefgh_6) <- lane_interleave128 abcd_26 efgh_26;
      bdo '(abcdefgh_3, abcdefgh_7) <- lane_interleave128 abcd_37 efgh_37;
      done [abcdefgh_0; abcdefgh_1; abcdefgh_2; abcdefgh_3;
            abcdefgh_4; abcdefgh_5; abcdefgh_6; abcdefgh_7]
  | _ => done []
  end.

(** blake2s/src/avx2.rs:14-93. *)
Definition avx2s_names : names := {|
  n_simd := avx2s;
  n_add := i_mm256_add_epi32;
  n_eq := i_mm256_cmpeq_epi32;
  n_and := i_mm256_and_si256;
  n_negate_and := i_mm256_andnot_si256;
  n_xor := i_mm256_xor_si256;
  n_or := i_mm256_or_si256;
  n_srli := i_mm256_srli_epi32;
  n_slli := i_mm256_slli_epi32;
  n_set1 := i_mm256_set1_epi32;
  n_setn := fun l => op i_mm256_setr_epi32 l;
  n_transpose_vecs := lane_transpose_avx2s |}.

(** One block of all inputs: blake2b/src/avx2.rs:900-917, blake2b/src/sse41.rs:433-449, blake2s/src/avx2.rs:564-580, blake2s/src/sse41.rs:859-876. *)
Definition lanes_asm (M : names) : asm := kernel_of 13 (lane_block M).
(** Loading states and counts: blake2b/src/avx2.rs:837-847, blake2b/src/sse41.rs:382-387, blake2s/src/avx2.rs:467-481, blake2s/src/sse41.rs:796-806. *)
Definition load_lanes_asm (M : names) : asm := kernel_of (s_degree (n_simd M)) (lane_load M).
(** Storing states and counts: blake2b/src/avx2.rs:920-928, blake2b/src/sse41.rs:452-460, blake2s/src/avx2.rs:583-591, blake2s/src/sse41.rs:879-887. *)
Definition store_lanes_asm (M : names) : asm := kernel_of 10 (lane_store M).
