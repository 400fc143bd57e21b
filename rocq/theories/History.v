(** Histories of calls on one State, and what each is expected to show.
    Specification only. *)
From Coq Require Import String.
From Coq Require Import Arith NArith List Bool.
From Coq Require Import Init.Byte.
From Verif Require Import Spec ApiSpec Machine.
Import ListNotations.
Open Scope list_scope.
Open Scope N_scope.
Local Notation length := List.length.

Inductive op :=
| DoUpdate (x : list byte)
| DoWrite (x : list byte)             (* io::Write::write *)
| DoWriteAll (x : list byte)
| DoFlush
| DoSetLastNode (b : bool)
| DoFinalize                          (* observed through as_bytes *)
| DoCount
| DoShow.                             (* Debug *)

(** The bytes a history feeds. *)
Definition fed_by (o : op) : list byte :=
  match o with DoUpdate x | DoWrite x | DoWriteAll x => x | _ => [] end.
Definition fed (ops : list op) : list byte := flat_map fed_by ops.

(** The last-node flag after a history that began with [b]. *)
Definition last_flag (b : bool) (ops : list op) : bool :=
  fold_left (fun b o => match o with DoSetLastNode b' => b' | _ => b end) ops b.

(** The configuration after a history. *)
Definition flagged (c : config) (ops : list op) : config :=
  apply (LastNode (last_flag (c_last_node c) ops)) c.

(** What one call shows, given everything before it. *)
Definition shown (f : flavour) (dbg : bool) (c : config) (before : list op) (o : op) : obs :=
  match o with
  | DoUpdate _ | DoWriteAll _ | DoFlush | DoSetLastNode _ => Unit
  | DoWrite x => Wrote (length x)
  | DoFinalize => Bytes (digest f (flagged c before) (fed before))
  | DoCount => match count_of f dbg (key_block_len f (c_key c)) (fed before) with
               | Some n => Number n | None => Panicked end
  | DoShow => match count_of f dbg (key_block_len f (c_key c)) (fed before) with
              | Some n => Text (show_state n (digest_length (c_params c)) (last_flag (c_last_node c) before))
              | None => Panicked end
  end.

(** Histories of a BLAKE2bp / BLAKE2sp State have no last-node flag. *)
Definition parallel_op (o : op) : bool := match o with DoSetLastNode _ => false | _ => true end.

Definition pshown (f : flavour) (dbg : bool) (c : pconfig) (before : list op) (o : op) : obs :=
  match o with
  | DoUpdate _ | DoWriteAll _ | DoFlush => Unit
  | DoSetLastNode _ => Inexpressible
  | DoWrite x => Wrote (length x)
  | DoFinalize => Bytes (pdigest f c (fed before))
  | DoCount => match count_of f dbg (leaves f * key_block_len f (pc_key c)) (fed before) with
               | Some n => Number n | None => Panicked end
  | DoShow => match count_of f dbg (leaves f * key_block_len f (pc_key c)) (fed before) with
              | Some n => Text (show_pstate n (pc_hash_length c)) | None => Panicked end
  end.
