(** C65: the standard library's writers in front of a State lose nothing and invent nothing. *)
From Coq Require Import Arith NArith List Bool Lia.
From Coq Require Import Init.Byte.
From Verif Require Import Base Guts KernelSpec Impl Loops Lib Par Spec ApiSpec Api ApiProof FedProof ParamsProof ParProof ParFed HashProof BatchProof Laws ParLaws BinSpec WriterSpec Writers WriterProof Demo.
Import ListNotations.
Open Scope list_scope.
Local Notation length := List.length.

(** A State with parameters [c] that has been given [m]: whatever it is given next, it hashes [m] and that. *)
Definition hashes (v : variant) (e : env) (c : config) (s : state) (m : list byte) : Prop :=
  forall more, exists s' h, update_all v e s more = Ret s' /\ finalize v e s' = Ret h /\
    as_bytes h = Ret (digest (fl v) c (m ++ concat more)).
Definition p_hashes (v : variant) (e : env) (c : pconfig) (s : pstate) (m : list byte) : Prop :=
  forall more, exists s' h, p_update_all v e s more = Ret s' /\ p_finalize v e s' = Ret h /\
    as_bytes h = Ret (pdigest (fl v) c (m ++ concat more)).

Lemma has_hashes v e c m s : state_has v e c m [] s -> hashes v e c s m.
Proof.
  intros (_ & H) more. destruct (update_all_holds v e c more m s H) as (s' & E & H'). exists s'. eexists.
  split; [exact E|]. split; [exact (holds_finalize _ _ _ _ _ H')|]. apply hash_value_bytes. apply H'.
Qed.
Lemma p_has_hashes v e c m s : wf_pconfig (fl v) c -> pstate_has v e c m [] s -> p_hashes v e c s m.
Proof.
  intros W (_ & H) more. destruct (p_update_all_holds v e c more m s H) as (s' & E & H'). exists s'. eexists.
  split; [exact E|]. split; [exact (pholds_finalize _ _ _ _ _ H')|]. apply phash_value_bytes. exact W.
Qed.

(** [caps] are the capacities of the layers of BufWriter, the first one outermost, [ops] the program's calls. *)
Theorem C65_writers (v : variant) (e : env) (imp : platform) (ss : list setting) (caps : list nat) (ops : list wop) :
  supported e imp -> Forall typed ss -> Forall proper ops ->
  let c := configure (fl v) ss (default_config (fl v)) in
  let n := length caps in
  let all := concat (map handed ops) in
  let program := calls (layers_writer (state_writer v e) n) (layers_new caps (to_state v (build v imp ss))) in
  (exists w got held, program ops = Ret (w, map right_answer ops) /\
     got ++ held = all /\ (length held <= list_sum caps)%nat /\ hashes v e c (layers_ref n w) got /\
     exists s, layers_inner (state_writer v e) n w = Ret (Some s) /\ hashes v e c s all) /\
  (exists w, program (ops ++ [Flush]) = Ret (w, map right_answer ops ++ [Success]) /\ hashes v e c (layers_ref n w) all).
Proof.
  intros Su T P c n all program.
  assert (HH : forall m s, state_has v e c m [] s -> hashes v e c s m).
  { intros m s H. apply has_hashes. exact H. }
  destruct (hash_through (state_writer v e) (state_has v e c) (state_faithful v e c) (fun g h w H => proj1 H) caps ops
    (to_state v (build v imp ss)) (conj eq_refl (new_holds v e imp ss Su T)) P) as
    ((w & g & h & E & A & B & R & s & ES & HS) & w' & E' & R').
  split; [|exists w'; split; [exact E'|apply HH; exact R']].
  exists w, g, h. split; [exact E|]. split; [exact A|]. split; [exact B|]. split; [apply HH; exact R|].
  exists s. split; [exact ES|apply HH; exact HS].
Qed.
Print Assumptions C65_writers.

Theorem C65_parallel_writers (v : variant) (e : env) (imp : platform) (ss : list psetting) (caps : list nat) (ops : list wop) :
  supported e imp -> Forall proper ops ->
  let c := pconfigure (fl v) ss (pdefault_config (fl v)) in
  let n := length caps in
  let all := concat (map handed ops) in
  exists s0, p_to_state v (pbuild v imp ss) = Ret s0 /\
  let program := calls (layers_writer (pstate_writer v e) n) (layers_new caps s0) in
  (exists w got held, program ops = Ret (w, map right_answer ops) /\
     got ++ held = all /\ (length held <= list_sum caps)%nat /\ p_hashes v e c (layers_ref n w) got /\
     exists s, layers_inner (pstate_writer v e) n w = Ret (Some s) /\ p_hashes v e c s all) /\
  (exists w, program (ops ++ [Flush]) = Ret (w, map right_answer ops ++ [Success]) /\ p_hashes v e c (layers_ref n w) all).
Proof.
  intros Su P c n all.
  assert (W : wf_pconfig (fl v) c) by (apply wfp_configure, wfp_default).
  destruct (pholds_new v e imp c W Su) as (s0 & E0 & H0 & _). exists s0.
  split; [rewrite pbuild_spec; exact E0|]. intros program.
  assert (HH : forall m s, pstate_has v e c m [] s -> p_hashes v e c s m).
  { intros m s H. apply p_has_hashes; assumption. }
  destruct (hash_through (pstate_writer v e) (pstate_has v e c) (pstate_faithful v e c) (fun g h w H => proj1 H) caps ops
    s0 (conj eq_refl H0) P) as ((w & g & h & E & A & B & R & s & ES & HS) & w' & E' & R').
  split; [|exists w'; split; [exact E'|apply HH; exact R']].
  exists w, g, h. split; [exact E|]. split; [exact A|]. split; [exact B|]. split; [apply HH; exact R|].
  exists s. split; [exact ES|apply HH; exact HS].
Qed.
Print Assumptions C65_parallel_writers.

(** Any program that uses nothing but write and flush, whatever it makes of their answers. *)
Theorem C65_any_program {A} (v : variant) (e : env) (imp : platform) (ss : list setting) (pss : list psetting) (caps : list nat)
    (p : client A) :
  supported e imp -> Forall typed ss ->
  let c := configure (fl v) ss (default_config (fl v)) in
  let pc := pconfigure (fl v) pss (pdefault_config (fl v)) in
  let n := length caps in
  (exists w got held,
     serve (layers_writer (state_writer v e) n) (layers_new caps (to_state v (build v imp ss))) p = Ret (w, yields p) /\
     got ++ held = hands p /\ (length held <= list_sum caps)%nat /\ hashes v e c (layers_ref n w) got /\
     exists s, layers_inner (state_writer v e) n w = Ret (Some s) /\ hashes v e c s (hands p)) /\
  (exists s0 w got held, p_to_state v (pbuild v imp pss) = Ret s0 /\
     serve (layers_writer (pstate_writer v e) n) (layers_new caps s0) p = Ret (w, yields p) /\
     got ++ held = hands p /\ (length held <= list_sum caps)%nat /\ p_hashes v e pc (layers_ref n w) got /\
     exists s, layers_inner (pstate_writer v e) n w = Ret (Some s) /\ p_hashes v e pc s (hands p)).
Proof.
  intros Su T c pc n. split.
  - destruct (serve_through (state_writer v e) (state_has v e c) (state_faithful v e c) (fun g h w H => proj1 H) caps p
      (to_state v (build v imp ss)) (conj eq_refl (new_holds v e imp ss Su T))) as (w & g & h & E & A1 & B & R & s & ES & HS).
    exists w, g, h. split; [exact E|]. split; [exact A1|]. split; [exact B|]. split; [apply has_hashes; exact R|].
    exists s. split; [exact ES|apply has_hashes; exact HS].
  - assert (W : wf_pconfig (fl v) pc) by (apply wfp_configure, wfp_default).
    destruct (pholds_new v e imp pc W Su) as (s0 & E0 & H0 & _).
    destruct (serve_through (pstate_writer v e) (pstate_has v e pc) (pstate_faithful v e pc) (fun g h w H => proj1 H) caps p
      s0 (conj eq_refl H0)) as (w & g & h & E & A1 & B & R & s & ES & HS).
    exists s0, w, g, h. split; [rewrite pbuild_spec; exact E0|]. split; [exact E|]. split; [exact A1|]. split; [exact B|].
    split; [apply p_has_hashes; [exact W|exact R]|]. exists s. split; [exact ES|apply p_has_hashes; [exact W|exact HS]].
Qed.
Print Assumptions C65_any_program.

(** [right_answer] and [handed] say what they should of a reader: see [delivers] in BinSpec.v. *)
Theorem C65_copy (evs : list event) (d : option (list byte)) : delivers evs d ->
  (forall bytes, d = Some bytes -> handed (CopyFrom evs) = bytes /\ right_answer (CopyFrom evs) = Count (N.of_nat (length bytes))) /\
  (d = None -> right_answer (CopyFrom evs) = Failure).
Proof.
  intros D. cbn [handed right_answer].
  assert (G : match d with Some b => delivered evs = b /\ complete evs = true | None => complete evs = false end).
  { induction D as [r|bs r d NE D IH|r d D IH|r]; cbn [delivered complete]; auto.
    destruct bs as [|b bs]; [congruence|]. destruct d as [x|]; cbn [option_map]; [|exact IH]. destruct IH as (-> & ->). auto. }
  split; [intros bytes ->|intros ->].
  - destruct G as (-> & ->). auto.
  - rewrite G. reflexivity.
Qed.
Print Assumptions C65_copy.

Definition demo_reads : list event := [Got (demo_msg 5); Interrupted; Got (demo_msg 700); Got []; Failed].
Definition demo_calls : list wop :=
  [Write (demo_msg 3); WriteAll (demo_msg 100); Write []; WriteFmt [demo_msg 7; []; demo_msg 1]; Flush; CopyFrom demo_reads;
   Write (demo_msg 64); CopyFrom [Got (demo_msg 9); Failed]; Write (demo_msg 2)].
Example C65_example :
  supported (demo_env true) AVX2 /\ Forall typed demo_settings /\ Forall proper demo_calls /\
  length (concat (map handed demo_calls)) = 891%nat /\
  map right_answer demo_calls =
    [Count 3; Success; Count 0; Success; Success; Count 705; Count 64; Failure; Count 2]%N /\
  (** with layers of 16 and 64 bytes the State is behind at the end *)
  exists w, calls (layers_writer (state_writer V2b (demo_env true)) 2)
      (layers_new [16; 64]%nat (to_state V2b (build V2b AVX2 []))) demo_calls = Ret (w, map right_answer demo_calls).
Proof.
  assert (P : Forall proper demo_calls).
  { repeat apply Forall_cons; try apply Forall_nil; try exact I.
    - split; [|repeat apply Forall_cons; try apply Forall_nil; try exact I; vm_compute; discriminate].
      eexists. unfold demo_reads. apply d_some; [discriminate|]. apply d_again. apply d_some; [discriminate|]. apply d_end.
    - split; [|repeat apply Forall_cons; try apply Forall_nil; try exact I; vm_compute; discriminate].
      eexists. apply d_some; [discriminate|]. apply d_error. }
  split; [apply demo_supported|]. split; [exact demo_typed|]. split; [exact P|]. split; [reflexivity|]. split; [reflexivity|].
  destruct (C65_writers V2b (demo_env true) AVX2 [] [16; 64]%nat demo_calls (demo_supported true AVX2) (Forall_nil _) P) as ((w & _ & _ & E & _) & _).
  exists w. exact E.
Qed.

(** A program that retries what was not taken, and flushes after every piece. *)
Fixpoint demo_client (fuel : nat) (x : list byte) : client bool :=
  match fuel with
  | O => Stop false
  | S fuel =>
      match x with
      | [] => Stop true
      | _ => AskWrite (firstn 50 x) (fun r =>
               match r with Some n => AskFlush (fun ok => if ok then demo_client fuel (skipn n x) else Stop false) | None => Stop false end)
      end
  end.
Example C65_client_example : hands (demo_client 10 (demo_msg 300)) = demo_msg 300 /\ yields (demo_client 10 (demo_msg 300)) = true /\
  exists w, serve (layers_writer (state_writer V2s (demo_env true)) 1) (layers_new [16]%nat (to_state V2s (build V2s AVX2 [])))
    (demo_client 10 (demo_msg 300)) = Ret (w, true).
Proof.
  assert (H : hands (demo_client 10 (demo_msg 300)) = demo_msg 300 /\ yields (demo_client 10 (demo_msg 300)) = true) by (split; vm_compute; reflexivity).
  destruct H as (H1 & H2). split; [exact H1|]. split; [exact H2|].
  destruct (C65_any_program V2s (demo_env true) AVX2 [] [] [16]%nat (demo_client 10 (demo_msg 300)) (demo_supported true AVX2) (Forall_nil _)) as ((w & _ & _ & E & _) & _).
  exists w. rewrite H2 in E. exact E.
Qed.
