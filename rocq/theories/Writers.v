(** Model of the standard library's code between a program that writes and the Write implementations of the four hashes
    (blake2b/src/lib.rs:546-556, blake2bp.rs:414-424; s: lib.rs:538-548, blake2sp.rs:421-431): the provided methods
    write_all and write_fmt of io::Write, io::copy, and io::BufWriter in any number of layers.  The standard library is
    not in /repo.  Simplifications: an error is not told from another, and no writer below is ever interrupted (a State
    never is); io::copy is the general loop over a buffer of 8192 bytes, not the one specialized to a BufWriter. *)
From Coq Require Import Arith NArith List Bool.
From Coq Require Import Init.Byte.
From Verif Require Import Base Guts Impl Lib Par.
From Verif Require Import BinSpec WriterSpec.
Import ListNotations.
Open Scope list_scope.
Local Notation length := List.length.

(** The required methods of io::Write (implemented at lib.rs:547-556): [None] and [false] are errors. *)
Record writer (W : Type) := {
  wr : W -> list byte -> outcome (W * option nat);
  fl_ : W -> outcome (W * bool)
}.
Arguments wr {W}. Arguments fl_ {W}.

(** impl Write for State, lib.rs:547-556; s: 539-548. *)
Definition state_writer (v : variant) (e : env) : writer state := {|
  wr := fun s x => do '(s, n) <- Lib.write v e s x; Ret (s, Some n);
  fl_ := fun s => do s <- flush s; Ret (s, true) |}.
(** impl Write for blake2bp::State, blake2bp.rs:415-424; s: blake2sp.rs:422-431. *)
Definition pstate_writer (v : variant) (e : env) : writer pstate := {|
  wr := fun s x => do '(s, n) <- p_write v e s x; Ret (s, Some n);
  fl_ := fun s => Ret (s, true) |}.

Section Provided.
Context {W : Type} (w_ : writer W).
(** io::Write::write_all (std, not in /repo; provided for lib.rs:547). *)
Fixpoint put_all (fuel : nat) (w : W) (x : list byte) : outcome (W * bool) :=
  match x with
  | [] => Ret (w, true)
  | _ :: _ =>
      match fuel with
      | O => Diverge
      | S fuel =>
          do '(w, r) <- wr w_ w x;
          match r with
          | None | Some O => Ret (w, false)
          | Some n => do x <- slice_from x n; put_all fuel w x
          end
      end
  end.
(** io::Write::write_fmt (std, not in /repo; provided for lib.rs:547): write_all for each piece, until one fails. *)
Fixpoint put_fmt (w : W) (pieces : list (list byte)) : outcome (W * bool) :=
  match pieces with
  | [] => Ret (w, true)
  | x :: r => do '(w, ok) <- put_all (length x) w x; if ok then put_fmt w r else Ret (w, false)
  end.
(** io::copy (std, not in /repo; takes what lib.rs:547 implements).  [n] bytes so far; [Diverge] if the events run out
    before the loop returns. *)
Fixpoint copy_from (w : W) (evs : list event) (n : N) : outcome (W * answer) :=
  match evs with
  | [] => Diverge
  | Got [] :: _ => Ret (w, Count n)
  | Got bs :: r =>
      do _ <- assert_ (N.leb (N.of_nat (length bs)) 8192);       (* &buf[..len] *)
      do '(w, ok) <- put_all (length bs) w bs;
      if ok then copy_from w r (n + N.of_nat (length bs)) else Ret (w, Failure)
  | Interrupted :: r => copy_from w r n
  | Failed :: _ => Ret (w, Failure)
  end.

(** The program's calls: io::Write (lib.rs:547) and io::copy. *)
Definition one_call (w : W) (o : wop) : outcome (W * answer) :=
  match o with
  | Write x => do '(w, r) <- wr w_ w x; Ret (w, match r with Some n => Count (N.of_nat n) | None => Failure end)
  | WriteAll x => do '(w, ok) <- put_all (length x) w x; Ret (w, if ok then Success else Failure)
  | WriteFmt pieces => do '(w, ok) <- put_fmt w pieces; Ret (w, if ok then Success else Failure)
  | Flush => do '(w, ok) <- fl_ w_ w; Ret (w, if ok then Success else Failure)
  | CopyFrom evs => copy_from w evs 0
  end.
(** A program, as [one_call] (lib.rs:547). *)
Fixpoint calls (w : W) (ops : list wop) : outcome (W * list answer) :=
  match ops with
  | [] => Ret (w, [])
  | o :: r => do '(w, a) <- one_call w o; do '(w, l) <- calls w r; Ret (w, a :: l)
  end.
(** Any other program that uses write and flush (lib.rs:548, 553), as in WriterSpec.v. *)
Fixpoint serve {A} (w : W) (p : client A) : outcome (W * A) :=
  match p with
  | Stop a => Ret (w, a)
  | AskWrite x go_on => do '(w, r) <- wr w_ w x; serve w (go_on r)
  | AskFlush go_on => do '(w, r) <- fl_ w_ w; serve w (go_on r)
  end.
End Provided.

(** io::BufWriter (std, not in /repo; wraps what lib.rs:547 implements). *)
Record buffered (W : Type) := { bw_inner : W; bw_buf : list byte; bw_cap : nat }.
Arguments bw_inner {W}. Arguments bw_buf {W}. Arguments bw_cap {W}.

Section Buffered.
Context {W : Type} (w_ : writer W).
(** BufWriter::flush_buf: writes what is buffered and keeps what is left on an error (std, not in /repo; calls
    lib.rs:548). *)
Fixpoint flush_loop (fuel : nat) (w : W) (buf : list byte) : outcome (W * list byte * bool) :=
  match buf with
  | [] => Ret (w, [], true)
  | _ :: _ =>
      match fuel with
      | O => Diverge
      | S fuel =>
          do '(w, r) <- wr w_ w buf;
          match r with
          | None | Some O => Ret (w, buf, false)
          | Some n => do buf <- slice_from buf n; flush_loop fuel w buf
          end
      end
  end.
(** As [flush_loop] (std, not in /repo; calls lib.rs:548). *)
Definition flush_buf (b : buffered W) : outcome (buffered W * bool) :=
  do '(w, buf, ok) <- flush_loop (length (bw_buf b)) (bw_inner b) (bw_buf b);
  Ret ({| bw_inner := w; bw_buf := buf; bw_cap := bw_cap b |}, ok).
(** BufWriter::write (std, not in /repo; calls lib.rs:548). *)
Definition bw_write (b : buffered W) (x : list byte) : outcome (buffered W * option nat) :=
  do '(b, ok) <- (if Nat.ltb (bw_cap b) (length (bw_buf b) + length x) then flush_buf b else Ret (b, true));
  if ok then
    if Nat.leb (bw_cap b) (length x) then
      do '(w, r) <- wr w_ (bw_inner b) x;
      Ret ({| bw_inner := w; bw_buf := bw_buf b; bw_cap := bw_cap b |}, r)
    else Ret ({| bw_inner := bw_inner b; bw_buf := bw_buf b ++ x; bw_cap := bw_cap b |}, Some (length x))
  else Ret (b, None).
(** BufWriter::flush (std, not in /repo; calls lib.rs:548 and 553). *)
Definition bw_flush (b : buffered W) : outcome (buffered W * bool) :=
  do '(b, ok) <- flush_buf b;
  if ok then
    do '(w, ok) <- fl_ w_ (bw_inner b);
    Ret ({| bw_inner := w; bw_buf := bw_buf b; bw_cap := bw_cap b |}, ok)
  else Ret (b, false).
(** impl Write for BufWriter (std, not in /repo; over lib.rs:547). *)
Definition buffered_writer : writer (buffered W) := {| wr := bw_write; fl_ := bw_flush |}.
(** BufWriter::into_inner (std, not in /repo; gives back the State of lib.rs:547). *)
Definition into_inner (b : buffered W) : outcome (option W) :=
  do '(b, ok) <- flush_buf b;
  Ret (if ok then Some (bw_inner b) else None).
End Buffered.

(** [n] layers of BufWriter around a writer (std, not in /repo; over lib.rs:547). *)
Fixpoint layers (n : nat) (W : Type) : Type := match n with O => W | S n => buffered (layers n W) end.
(** The writer of [layers] (over lib.rs:547). *)
Fixpoint layers_writer {W} (w_ : writer W) (n : nat) : writer (layers n W) :=
  match n with O => w_ | S n => buffered_writer (layers_writer w_ n) end.
(** BufWriter::with_capacity(c, ...) for each of the capacities, the first outermost (over lib.rs:547). *)
Fixpoint layers_new {W} (caps : list nat) (w : W) : layers (length caps) W :=
  match caps with
  | [] => w
  | c :: r => {| bw_inner := layers_new r w; bw_buf := []; bw_cap := c |}
  end.
(** get_ref through all the layers (over lib.rs:547). *)
Fixpoint layers_ref {W} (n : nat) : layers n W -> W :=
  match n with O => fun w => w | S n => fun b => layers_ref n (bw_inner b) end.
(** into_inner through all the layers (over lib.rs:547). *)
Fixpoint layers_inner {W} (w_ : writer W) (n : nat) : layers n W -> outcome (option W) :=
  match n with
  | O => fun w => Ret (Some w)
  | S n => fun b =>
      do r <- into_inner (layers_writer w_ n) b;
      match r with Some w => layers_inner w_ n w | None => Ret None end
  end.
