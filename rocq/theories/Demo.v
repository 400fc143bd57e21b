(** Concrete inputs for the examples beside the theorems. *)
From Coq Require Import Arith NArith List Bool Lia.
From Coq Require Import Init.Byte.
From Verif Require Import Impl Loops Api Machine History.
From Verif Require Import Spec ApiSpec.
Import ListNotations.
Open Scope N_scope.

(** A CPU with everything, in a debug or release build. *)
Definition demo_env (dbg : bool) : env := {| e_dbg := dbg; e_sse41 := true; e_avx2 := true |}.
Lemma demo_supported dbg imp : supported (demo_env dbg) imp.
Proof. destruct imp; cbn; auto. Qed.
Definition demo_target : target :=
  {| t_x86 := true; t_tf_sse41 := false; t_tf_avx2 := false; t_std := true; t_cpu_sse41 := true; t_cpu_avx2 := true |}.
Lemma demo_honest dbg : honest demo_target (demo_env dbg).
Proof. constructor; cbn; auto. Qed.
(** A CPU with nothing. *)
Definition old_env (dbg : bool) : env := {| e_dbg := dbg; e_sse41 := false; e_avx2 := false |}.
Definition old_target : target :=
  {| t_x86 := false; t_tf_sse41 := false; t_tf_avx2 := false; t_std := false; t_cpu_sse41 := false; t_cpu_avx2 := false |}.
Lemma old_honest dbg : honest old_target (old_env dbg).
Proof. constructor; cbn; auto. Qed.

(** A message of [n] bytes 0, 1, 2, ... *)
Definition demo_msg (n : nat) : list byte :=
  map (fun i => match Byte.of_N (N.of_nat (i mod 256)) with Some b => b | None => x00 end) (seq 0 n).

(** Every setter, some refused, some repeated. *)
Definition demo_settings : list setting :=
  [HashLength 64; HashLength 20; HashLength 0; HashLength 65; Key (demo_msg 200); Key (demo_msg 7);
   Salt (demo_msg 5); Salt (demo_msg 99); Personal (demo_msg 8); Fanout 2; MaxDepth 3; MaxLeafLength 100000;
   NodeOffset 281474976710655; NodeDepth 1; InnerHashLength 32; InnerHashLength 70; LastNode true].
Lemma demo_typed : Forall typed demo_settings.
Proof. repeat constructor. Qed.

(** The settings that the tests of the crates use together. *)
Definition demo_psettings : list psetting := [PHashLength 20; PHashLength 0; PKey (demo_msg 200); PKey (demo_msg 7)].

(** A history with every operation. *)
Definition demo_history : list op :=
  [DoUpdate (demo_msg 130); DoCount; DoFinalize; DoWrite (demo_msg 300); DoSetLastNode false; DoFlush;
   DoUpdate []; DoShow; DoWriteAll (demo_msg 128)].
