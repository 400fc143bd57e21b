(** Property C45: how much work a call does, and how wide it is done.

    Vocabulary: [run_program_lk] (Leak.v) runs a program over the public API and
    gives the events of every call; among them is each run of a compression
    kernel.  [blocks_compressed] counts the blocks these runs compress,
    [kernel_runs] the runs (WorkSpec.v).  [works_of] and [paces_of] (WorkSpec.v)
    say how many there are to be, by the published definition of the hash. *)
From Coq Require Import Arith NArith List Bool Lia.
From Coq Require Import Init.Byte.
From Verif Require Import Base Guts KernelSpec Impl Lib Many Par.
From Verif Require Import Spec ApiSpec Machine Views WorkSpec.
From Verif Require Import Api ApiProof Leak WorkApi WorkLaws Demo.
Import ListNotations.
Open Scope list_scope.
Open Scope nat_scope.
Local Notation length := List.length.

(** ** C45 *)

(** Every call compresses exactly the blocks that the definition of the hash
    has for it: none twice, none that is not needed, on any machine and in any
    build; other calls compress nothing. *)
Theorem C45_work (v : variant) (t : target) (e : env) (prog : list call) :
  honest t e -> Forall (well_typed (fl v)) prog ->
  works_of (fl v) (e_dbg e) empty_aworld [] prog (map (fun x => blocks_compressed (fst x)) (run_program_lk v t e prog)).
Proof.
  intros H WT. apply run_works; auto using detect_supported, R_empty. split; [reflexivity|]. intros i s a E. destruct i; discriminate.
Qed.
Print Assumptions C45_work.

(** A stream costs what the whole message costs, however it is cut. *)
Theorem C45_stream (v : variant) (t : target) (e : env) (k : list byte) (chunks : list (list byte)) :
  honest t e -> length k <= max_out (fl v) ->
  list_sum (map (fun x => blocks_compressed (fst x))
    (run_program_lk v t e ([NewParams; Set_ 0 (Key k); ToState 0] ++ map (Update 0) chunks ++ [Finalize 0]))) =
  num_blocks (fl v) (data (fl v) k (concat chunks)).
Proof.
  intros H LK. apply stream_program with (dbg := e_dbg e); auto. apply C45_work; auto.
  repeat (constructor; [exact I|]). apply Forall_app. split; [|repeat constructor].
  apply Forall_forall. intros c Hc. apply in_map_iff in Hc. destruct Hc as (m & <- & _). exact I.
Qed.
Print Assumptions C45_stream.

(** So does a stream into BLAKE2bp / BLAKE2sp. *)
Theorem C45_tree_stream (v : variant) (t : target) (e : env) (k : list byte) (chunks : list (list byte)) :
  honest t e -> length k <= max_out (fl v) ->
  list_sum (map (fun x => blocks_compressed (fst x))
    (run_program_lk v t e ([PNewParams; PSet 0 (PKey k); PToState 0] ++ map (PUpdate 0) chunks ++ [PFinalize 0]))) =
  tree_blocks (fl v) k (concat chunks).
Proof.
  intros H LK. apply tree_program with (dbg := e_dbg e); auto. apply C45_work; auto.
  repeat (constructor; [exact I|]). apply Forall_app. split; [|repeat constructor].
  apply Forall_forall. intros c Hc. apply in_map_iff in Hc. destruct Hc as (m & <- & _). exact I.
Qed.
Print Assumptions C45_tree_stream.

(** On a machine whose kernels have [many_degree v t] lanes (what
    [blake2b_many::degree()] returns), a program that does not force the
    portable implementation keeps the lanes full, up to the slack that
    [pace_of] gives. *)
Theorem C45_pace (v : variant) (t : target) (e : env) (prog : list call) :
  honest t e -> Forall (well_typed (fl v)) prog -> forallb no_force prog = true ->
  paces_of (fl v) (e_dbg e) (many_degree v t) empty_aworld prog
    (map (fun x => (blocks_compressed (fst x), kernel_runs (fst x))) (run_program_lk v t e prog)).
Proof.
  intros H WT NF. apply run_paces; auto using detect_supported, R_empty. repeat split; constructor.
Qed.
Print Assumptions C45_pace.

(** Examples: a machine with AVX2. *)
Definition work_demo : list call :=
  [NewParams; Set_ 0 (Key [x01; x02]); ToState 0; Update 0 (repeat x07 300); Update 0 (repeat x07 84); Finalize 0;
   NewJob 0 (repeat x00 1000); NewJob 0 (repeat x00 1000); NewJob 0 (repeat x00 1000); NewJob 0 (repeat x00 1000); NewJob 0 [];
   HashMany [Some 0; Some 1; Some 2; Some 3; Some 4];
   PNewState; PUpdate 0 (repeat x00 2500); PFinalize 0].
Example C45_case v t e : honest t e -> Forall (well_typed (fl v)) work_demo /\ forallb no_force work_demo = true.
Proof. intros _. split; [repeat constructor|reflexivity]. Qed.
Example C45_demo : map (fun x => (blocks_compressed (fst x), kernel_runs (fst x))) (run_program_lk V2b demo_target (demo_env true) work_demo) =
  [(0, 0); (0, 0); (0, 0); (3, 3); (0, 0); (1, 1); (1, 1); (1, 1); (1, 1); (1, 1); (1, 1); (32, 8); (0, 0); (16, 4); (6, 3)].
Proof. lazy. reflexivity. Qed.
