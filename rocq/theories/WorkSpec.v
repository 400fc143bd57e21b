(** How much work a program should be: the number of blocks of Spec.v that each
    call has to compress.  Specification only; the one thing taken from the
    model is the type of the events of Leak.v, to count the kernels run. *)
From Coq Require Import Arith NArith List Bool.
From Coq Require Import Init.Byte.
From Verif Require Import Spec ApiSpec Machine.
From Verif Require Leak.
Import ListNotations.
Open Scope nat_scope.

(** ** Counting *)

(** The compressions among the events: for each run of a compression kernel the
    number of blocks it compresses, one or one for each lane. *)
Definition compressions (t : list Leak.event) : list nat :=
  flat_map (fun ev => match ev with
                      | Leak.Kernel Leak.KBlock => [1]
                      | Leak.Kernel (Leak.KLanes n) => [n]
                      | _ => []
                      end) t.
Definition blocks_compressed (t : list Leak.event) : nat := list_sum (compressions t).
Definition kernel_runs (t : list Leak.event) : nat := length (compressions t).

(** ** What there is to do *)

(** Absorbing [m] after [msg]: the blocks that [m] pushes out of the buffer,
    which keeps the last one. *)
Definition update_blocks (f : flavour) (key msg m : list byte) : nat :=
  num_blocks f (data f key (msg ++ m)) - num_blocks f (data f key msg).

(** The key block is compressed when the job is made, the message when it is run. *)
Definition key_blocks (key : list byte) : nat := match key with [] => 0 | _ => 1 end.
Definition job_blocks (f : flavour) (j : ajob) : nat := if aj_run j then 0 else num_blocks f (aj_msg j).

(** BLAKE2bp / BLAKE2sp: the blocks of every leaf, and those of the root, whose
    input is the leaves' hashes. *)
Definition root_blocks (f : flavour) : nat := leaves f * max_out f / block_len f.
Definition tree_blocks (f : flavour) (key msg : list byte) : nat :=
  list_sum (map (fun i => num_blocks f (data f key (leaf_message f i msg))) (seq 0 (leaves f))) + root_blocks f.

Definition of_obj {A} (l : list A) (i : nat) (k : A -> nat) : nat :=
  match nth_error l i with Some x => k x | None => 0 end.

(** A batch that borrows one object twice, or one that does not exist, is no program. *)
Definition borrows_ok (n : nat) (l : list nat) : bool :=
  no_repeats l && forallb (fun r => Nat.ltb r n) l.

(** [n] is the work of one call.  When a BLAKE2bp/sp state compresses its
    stripes depends on how the message was cut, so for these states [ledger]
    says how many blocks each has compressed so far: an update does at most two
    stripes more than it is given, and finalizing does exactly what is left. *)
Definition work_of (f : flavour) (w : aworld) (ledger : list nat) (c : call) (n : nat) : Prop :=
  let update s m := of_obj (a_states w) s (fun x => update_blocks f (c_key (fst x)) (snd x) m) in
  let stripe := leaves f * block_len f in
  match c with
  | OneShot m => n = num_blocks f m
  | HashWith p m => n = of_obj (a_params w) p (fun c => num_blocks f (data f (c_key c) m))
  | Update s m | Write s m | WriteAll s m => n = update s m
  | Finalize s => n = of_obj (a_states w) s (fun _ => 1)
  | UpdateMany xs =>
      let items := until_none xs in
      n = if borrows_ok (length (a_states w)) (map fst items)
          then list_sum (map (fun x => update (fst x) (snd x)) items) else 0
  | NewJob p m => n = of_obj (a_params w) p (fun c => key_blocks (c_key c))
  | HashMany xs =>
      let items := until_none xs in
      n = if borrows_ok (length (a_jobs w)) items
          then list_sum (map (fun r => of_obj (a_jobs w) r (job_blocks f)) items) else 0
  | POneShot m => n = tree_blocks f [] m
  | PHashWith p m => n = of_obj (a_pparams w) p (fun c => tree_blocks f (pc_key c) m)
  | PUpdate s m | PWrite s m | PWriteAll s m => n <= of_obj (a_pstates w) s (fun _ => leaves f * (length m / stripe + 2))
  | PFinalize s =>
      of_obj ledger s (fun d => d) + n = of_obj (a_pstates w) s (fun x => tree_blocks f (pc_key (fst x)) (snd x)) /\
      n <= 2 * leaves f + root_blocks f
  | _ => n = 0
  end.

Definition ledger_after (w : aworld) (ledger : list nat) (c : call) (n : nat) : list nat :=
  match c with
  | PNewState => ledger ++ [0]
  | PToState p => match nth_error (a_pparams w) p with Some _ => ledger ++ [0] | None => ledger end
  | PCloneState s => match nth_error ledger s with Some d => ledger ++ [d] | None => ledger end
  | PUpdate s _ | PWrite s _ | PWriteAll s _ =>
      match nth_error ledger s with Some d => replace ledger s (d + n) | None => ledger end
  | _ => ledger
  end.

(** The work of the calls of a program, in order. *)
Fixpoint works_of (f : flavour) (dbg : bool) (w : aworld) (ledger : list nat) (prog : list call) (ns : list nat) : Prop :=
  match prog, ns with
  | [], [] => True
  | c :: r, n :: ns => work_of f w ledger c n /\ works_of f dbg (fst (astep f dbg w c)) (ledger_after w ledger c n) r ns
  | _, _ => False
  end.

(** ** How fast *)

(** [r] runs of a compression kernel for the [n] blocks of one call, when a
    kernel has [d] lanes.  A batch keeps the lanes full until fewer than [d]
    messages are left; what is left then is at most [d - 1] times the longest
    of them.  (A state in a batch may also have to compress its own buffer
    first.)  The tree modes keep the lanes full in every update; in the call
    that ends a tree at most one run for each leaf and the runs of the root
    have idle lanes, however long the message.  Hashing one message in the
    sequential mode compresses one block at a time. *)
Definition pace_of (f : flavour) (d : nat) (w : aworld) (c : call) (n r : nat) : Prop :=
  match c with
  | UpdateMany xs =>
      let work x := of_obj (a_states w) (fst x) (fun s => update_blocks f (c_key (fst s)) (snd s) (snd x)) in
      let items := until_none xs in
      d * r <= n + (d - 1) * length items + (d - 1) * (d - 1) * list_max (map work items)
  | HashMany xs =>
      let work r := of_obj (a_jobs w) r (job_blocks f) in
      let items := until_none xs in
      d * r <= n + (d - 1) * (d - 1) * list_max (map work items)
  | PUpdate _ _ | PWrite _ _ | PWriteAll _ _ => d * r <= n
  | POneShot _ | PHashWith _ _ | PFinalize _ => d * r <= n + (d - 1) * (leaves f + root_blocks f)
  | _ => r = n
  end.

Fixpoint paces_of (f : flavour) (dbg : bool) (d : nat) (w : aworld) (prog : list call) (nrs : list (nat * nat)) : Prop :=
  match prog, nrs with
  | [], [] => True
  | c :: r, (n, k) :: nrs => pace_of f d w c n k /\ paces_of f dbg d (fst (astep f dbg w c)) r nrs
  | _, _ => False
  end.

(** Calls other than the hidden ones that force the portable implementation
    (blake2b/src/lib.rs:682-688), whose kernel has one lane. *)
Definition no_force (c : call) : bool := match c with ForcePortable _ | PForcePortable _ => false | _ => true end.
