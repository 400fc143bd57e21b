(** C46: what the command-line tool leaves on its output streams when writing
    fails, falls short or is never answered (OutSpec.v).

    [main_out why t e o inputs stdin outs errs] is the run of the tool whose
    writes to standard output and standard error are answered by [outs] and
    [errs]; when the answers are used up, it waits for ever, or is killed. *)
From Coq Require Import String Ascii.
From Coq Require Import Arith NArith List Bool Lia.
From Coq Require Import Init.Byte Strings.Byte.
From Verif Require Import Base Impl Api.
From Verif Require Import Spec ApiSpec Machine BinSpec.
From Verif Require Import LaneLoops ApiProof Bin BinProof Demo PropBin.
From Verif Require Import OutSpec Out OutProof.
Import ListNotations.
Open Scope list_scope.
Open Scope nat_scope.
Local Notation length := List.length.

(** What is on a stream is always a beginning of what should be there.  The run
    ends as it should, with all of its text written; or it ends with a panic, and
    then one of the streams was broken; or it waits, and then one of the streams
    took less than its text. *)
Theorem C46_output (why : nat -> list byte) (t : target) (e : env) (o : options) (inputs : list (string * source))
    (stdin : list event) (outs errs : list answer) :
  ~ In Closed outs -> ~ In Closed errs ->
  let ideal := main t e o inputs stdin in
  let real := main_out why t e o inputs stdin outs errs in
  let out := out_text (lines ideal) in
  let err := err_text why 0 (lines ideal) in
  begins (on_out real) out /\ begins (on_err real) err /\
  match ended real with
  | Some f => f = finish_ ideal /\ on_out real = out /\ on_err real = err
              \/ f = Aborted /\ (Exists broken outs \/ Exists broken errs)
  | None => length (filter useful outs) < length out \/ length (filter useful errs) < length err
  end.
Proof.
  intros CO CE. destruct (main_faithful why t e o inputs stdin outs errs CO CE) as [A B C]. cbv zeta.
  cbn in A, B, C. split; [exact A|]. split; [exact B|]. destruct (ended _); [exact C|].
  unfold uses in C. rewrite !Nat.add_0_r in C. exact C.
Qed.
Print Assumptions C46_output.

(** Whatever standard error does, also if it is not open: the same for standard output. *)
Theorem C46_stdout (why : nat -> list byte) (t : target) (e : env) (o : options) (inputs : list (string * source))
    (stdin : list event) (outs errs : list answer) :
  ~ In Closed outs ->
  let ideal := main t e o inputs stdin in
  let real := main_out why t e o inputs stdin outs errs in
  let out := out_text (lines ideal) in
  let err := err_text why 0 (lines ideal) in
  begins (on_out real) out /\
  match ended real with
  | Some f => f = finish_ ideal /\ on_out real = out \/ f = Aborted /\ (Exists broken outs \/ Exists broken errs)
  | None => length (filter useful outs) < length out \/ length (filter ahead errs) < length err
  end.
Proof.
  intros CO. destruct (main_half why t e o inputs stdin outs errs CO) as [A B C]. cbv zeta.
  cbn in A, C. split; [exact A|]. destruct (ended _); [exact C|].
  unfold uses, steps in C. rewrite !Nat.add_0_r in C. exact C.
Qed.
Print Assumptions C46_stdout.

(** A run over files that exits with status 0 has read every file, and has written the hash of each, in order. *)
Theorem C46_success (why : nat -> list byte) (t : target) (e : env) (o : options) (ss : list setting)
    (inputs : list (string * source)) (ds : list (option (list byte))) (stdin : list event) (outs errs : list answer) :
  honest t e -> typed_options o -> verdict_of o = Accept ss ->
  inputs <> [] -> Forall2 (fun x d => content (o_mmap o) (snd x) d) inputs ds ->
  ~ In Closed outs ->
  let real := main_out why t e o inputs stdin outs errs in
  ended real = Some (Exited 0) ->
  exists datas, ds = map Some datas /\ on_err real = [] /\
    on_out real = flat_map (fun '(name, data) =>
      list_byte_of_string (hex (tool_digest o ss data) ++ (if Nat.ltb 1 (length inputs) then "  " ++ name else ""))%string ++ nl)
      (combine (map fst inputs) datas).
Proof.
  intros H T V NE F CO real EN. destruct (main_half why t e o inputs stdin outs errs CO) as [_ ET C].
  fold real in C, ET. rewrite EN in C. destruct C as [(X & OT)|(X & _)]; [|discriminate]. cbn in OT, ET.
  rewrite (C35_lines t e o ss inputs ds stdin H T V NE F) in X, OT, ET. cbn [lines finish_] in *.
  assert (K : exists datas, ds = map Some datas).
  { injection X as X. clear - X. induction ds as [|[d|] ds IH]; [now exists []| |discriminate].
    destruct (IH X) as (datas & ->). now exists (d :: datas). }
  destruct K as (datas & K). exists datas. split; [exact K|]. subst ds. split.
  - apply ET. clear. set (b := Nat.ltb 1 (length inputs)). clearbody b. revert inputs.
    induction datas as [|d datas IH]; intros [|[n s] names]; try reflexivity. cbn. apply IH.
  - rewrite OT. clear. set (b := Nat.ltb 1 (length inputs)). clearbody b. revert inputs.
    induction datas as [|d datas IH]; intros [|[n s] names]; try reflexivity.
    cbn [map combine out_text flat_map]. fold (out_text). rewrite <- IH. unfold out_text. f_equal. f_equal. f_equal.
    destruct b; [reflexivity|]. now rewrite append_empty.
Qed.
Print Assumptions C46_success.

(** A stream that is not open swallows its text: the tool does not notice.  It
    reports success although nothing was written. *)
Theorem C46_closed (why : nat -> list byte) (t : target) (e : env) (o : options) (inputs : list (string * source))
    (stdin : list event) (outs errs : list answer) :
  Forall (eq Closed) outs -> ~ Exists broken errs ->
  let ideal := main t e o inputs stdin in
  let real := main_out why t e o inputs stdin outs errs in
  on_out real = [] /\ (ended real = None \/ ended real = Some (finish_ ideal)).
Proof.
  intros CO NE ideal real. destruct (main_sound why t e o inputs stdin outs errs) as (A & B).
  - cbn. intros X. apply Exists_exists in X. destruct X as (a & I & X). rewrite Forall_forall in CO. rewrite <- (CO a I) in X.
    destruct X; discriminate.
  - exact NE.
  - split; [apply B; exact CO|exact A].
Qed.
Print Assumptions C46_closed.


(** If the streams go on taking bytes, however few at a time, the run ends as it should and all of its text is written. *)
Theorem C46_progress (why : nat -> list byte) (t : target) (e : env) (o : options) (inputs : list (string * source))
    (stdin : list event) (outs errs : list answer) :
  let ideal := main t e o inputs stdin in
  let real := main_out why t e o inputs stdin outs errs in
  let out := out_text (lines ideal) in
  let err := err_text why 0 (lines ideal) in
  Forall (fun a => useful a = true \/ a = Again) outs -> length out <= length (filter useful outs) ->
  Forall (fun a => useful a = true \/ a = Again) errs -> length err <= length (filter useful errs) ->
  real = {| on_out := out; on_err := err; ended := Some (finish_ ideal) |}.
Proof.
  intros ideal real out err GO LO GE LE.
  assert (NC : forall l, Forall (fun a => useful a = true \/ a = Again) l -> ~ In Closed l).
  { intros l F I. rewrite Forall_forall in F. destruct (F _ I); discriminate. }
  assert (NB : forall l, Forall (fun a => useful a = true \/ a = Again) l -> ~ Exists broken l).
  { intros l F X. apply Exists_exists in X. destruct X as (a & I & X). rewrite Forall_forall in F.
    destruct (F _ I) as [U| ->]; destruct X as [X|X]; subst; discriminate. }
  destruct (C46_output why t e o inputs stdin outs errs (NC _ GO) (NC _ GE)) as (_ & _ & C). cbv zeta in C. fold ideal real out err in C.
  destruct real as [ro re rn]. cbn in C. destruct rn as [f|].
  - destruct C as [(-> & -> & ->)|(_ & [X|X])]; [reflexivity| |]; exfalso; [exact (NB _ GO X)|exact (NB _ GE X)].
  - exfalso. destruct C; lia.
Qed.
Print Assumptions C46_progress.

(** Demonstrations.  A file that can be read, written one byte at a time: the
    hypotheses of C46_progress and C46_success hold. *)
Definition demo_run := main_out (fun _ => list_byte_of_string "not found") demo_target (demo_env true) (demo_options false).
Lemma useful_ones n : Forall (fun a => useful a = true \/ a = Again) (repeat (Took 1) n) /\ length (filter useful (repeat (Took 1) n)) = n.
Proof.
  split.
  - apply Forall_forall. intros a I. apply repeat_spec in I. subst. now left.
  - induction n; cbn; auto.
Qed.
Example C46_success_example :
  exists n, ended (demo_run [("a"%string, demo_source)] [] (repeat (Took 1) n) []) = Some (Exited 0) /\ ~ In Closed (repeat (Took 1) n) /\
    Forall2 (fun x d => content false (snd x) d) [("a"%string, demo_source)] [Some demo_data].
Proof.
  destruct C33_example as (H & T & V & C & _).
  pose proof (C33_file demo_target (demo_env true) (demo_options false) demo_requests "a" demo_source (Some demo_data) [] H T V C) as M. cbv iota in M.
  exists (length (out_text [Out (hex (tool_digest (demo_options false) demo_requests demo_data))])).
  split; [|split; [intros I; apply repeat_spec in I; discriminate|constructor; [exact C|constructor]]].
  set (n := length _). unfold demo_run. destruct (useful_ones n) as (U & L).
  rewrite (C46_progress (fun _ => list_byte_of_string "not found") demo_target (demo_env true) (demo_options false) [("a"%string, demo_source)] [] (repeat (Took 1) n) []);
    rewrite ?M; [reflexivity|exact U| |constructor|cbn; lia].
  rewrite L. apply Nat.le_refl.
Qed.
(** Two missing files: an interrupted write, short writes; a disk that is full
    after five bytes; no answer after five bytes; a closed standard error. *)
Example C46_example :
  let two := [("a", missing); ("b", missing)]%string in
  let text := list_byte_of_string "blake2: a: not found" ++ nl ++ list_byte_of_string "blake2: b: not found" ++ nl in
  demo_run two [] [] (repeat (Took 3) 7 ++ [Again] ++ repeat (Took 50) 8) = {| on_out := []; on_err := text; ended := Some (Exited 1) |} /\
  demo_run two [] [] [Took 5; Broke] = {| on_out := []; on_err := firstn 5 text; ended := Some Aborted |} /\
  demo_run two [] [] [Took 5] = {| on_out := []; on_err := firstn 5 text; ended := None |} /\
  demo_run two [] [] (repeat Closed 10) = {| on_out := []; on_err := []; ended := Some (Exited 1) |} /\
  Exists broken [Took 5; Broke] /\ Forall (eq Closed) (repeat Closed 10) /\ ~ Exists broken (repeat Closed 10).
Proof.
  cbv zeta. split; [lazy; reflexivity|]. split; [lazy; reflexivity|]. split; [lazy; reflexivity|]. split; [lazy; reflexivity|].
  split; [right; left; now left|]. split; [repeat constructor|].
  intros X. apply Exists_exists in X. destruct X as (a & I & X). apply repeat_spec in I. subst a. destruct X; discriminate.
Qed.
