(** C51: the command-line tool as a whole, from the words on its command line to
    the bytes on its standard output.

    [blake2_out why usage t e about files argv stdin outs errs] is a run with the
    words [argv], where [files] is what each path leads to and [outs] and [errs]
    are the system's answers to the writes on the two streams (OutSpec.v).
    ArgsSpec.v says how a command line is written and what it means, BinSpec.v
    what the options ask for. *)
From Coq Require Import String Ascii.
From Coq Require Import Arith NArith List Bool Lia.
From Coq Require Import Init.Byte Strings.Byte.
From Verif Require Import Base Impl Api.
From Verif Require Import Spec ApiSpec Machine BinSpec.
From Verif Require Import LaneLoops ApiProof Bin BinProof Demo PropBin.
From Verif Require Import OutSpec Out OutProof PropOut.
From Verif Require Import TextSpec Utf8Proof ArgsSpec Args ArgsProof PropArgs Tool.
Import ListNotations.
Open Scope list_scope.
Open Scope nat_scope.
Local Notation length := List.length.

(** Whatever the words and the streams are, if standard output is open: it has a beginning of what
    should be there; and if the run ends, it ends as it should with all of that
    text written, or it has panicked because a stream was broken. *)
Theorem C51_whole (why : nat -> list byte) (usage : list byte) (t : target) (e : env) (about : info -> string)
    (files : string -> source) (argv : list string) (stdin : list event) (outs errs : list answer) :
  ~ In Closed outs ->
  let ideal := blake2 t e about files argv stdin in
  let real := blake2_out why usage t e about files argv stdin outs errs in
  let out := out_text (lines ideal) in
  begins (on_out real) out /\
  match OutSpec.ended real with
  | Some f => f = finish_ ideal /\ on_out real = out \/ f = Aborted /\ (Exists broken outs \/ Exists broken errs)
  | None => True
  end.
Proof.
  intros CO. cbv zeta. unfold blake2, blake2_out. destruct (from_args argv) as [o ps|[|i|]|] eqn:P.
  - destruct (C46_stdout why t e o (map (fun p => (p, files p)) ps) stdin outs errs CO) as (A & C). cbv zeta in A, C.
    split; [exact A|]. destruct (OutSpec.ended _); [exact C|exact I].
  - unfold exit_usage. destruct (print_err _ _) as [r f]. cbn [lines finish_ out_text flat_map].
    destruct r; try (rewrite leave_tidy by reflexivity); cbn; (split; [apply begins_refl|]); auto.
  - unfold exit_info. cbn [lines finish_].
    pose proof (half_say (fun _ => []) {| io_out := {| so_fd := {| seen := []; answers := outs |}; so_buf := [] |};
              io_err := {| seen := []; answers := errs |}; io_complaints := 0 |} [list_byte_of_string (about i)] (about i) (stop (Exited 0))
              (fun s => leave s (Exited 0))) as F.
    destruct F as [A _ C]; [split; auto|cbn [concat]; now rewrite app_nil_r|intros; now apply half_leave|].
    cbn [app so_ io_out io_err so_fd seen answers io_complaints] in A, C.
    change (lines (with_line (Out (about i)) (stop (Exited 0)))) with [Out (about i)] in A, C.
    split; [exact A|]. destruct (OutSpec.ended _); [exact C|exact I].
  - rewrite leave_tidy by reflexivity. cbn. split; [apply begins_refl|]. auto.
  - pose proof (from_args_always argv) as Q. rewrite P in Q. destruct Q.
Qed.
Print Assumptions C51_whole.

(** If the run exits with status 0 and files were named, then the command line had
    a meaning, its options were in order, every file was read, and standard output
    has the digest of each file, in order, and nothing else. *)
Theorem C51_files (why : nat -> list byte) (usage : list byte) (t : target) (e : env) (about : info -> string)
    (files : string -> source) (gs : list item) (argv : list string) (stdin : list event) (outs errs : list answer) :
  honest t e -> command_line gs argv -> paths gs <> [] -> ~ In Closed outs ->
  let real := blake2_out why usage t e about files argv stdin outs errs in
  OutSpec.ended real = Some (Exited 0) ->
  exists o ss, meaning gs = Some o /\ verdict_of o = Accept ss /\
    forall ds, Forall2 (fun p d => content (o_mmap o) (files p) d) (paths gs) ds ->
    exists datas, ds = map Some datas /\
      on_out real = flat_map (fun '(name, data) =>
        list_byte_of_string (hex (tool_digest o ss data) ++ (if Nat.ltb 1 (length (paths gs)) then "  " ++ name else ""))%string ++ nl)
        (combine (paths gs) datas).
Proof.
  intros H C NE CO real EN. subst real.
  destruct (C51_whole why usage t e about files argv stdin outs errs CO) as (_ & W). rewrite EN in W.
  destruct W as [(W & OT)|(W & _)]; [|discriminate].
  destruct (meaning gs) as [o|] eqn:M.
  2:{ rewrite (C49_refused t e about files gs argv stdin C M) in W. discriminate. }
  destruct (Forall_dec text text_dec argv) as [TX|TX].
  2:{ rewrite (C49_not_text t e about files gs argv stdin C TX), M in W. discriminate. }
  assert (B : blake2 t e about files argv stdin = main t e o (map (fun p => (p, files p)) (paths gs)) stdin)
    by (unfold blake2; now rewrite (from_args_spec gs argv C TX), M).
  rewrite B in W. pose proof (C34_rejected t e o (map (fun p => (p, files p)) (paths gs)) stdin) as V.
  destruct (verdict_of o) as [ss| |] eqn:VO; [|rewrite V in W; discriminate|rewrite V in W; discriminate].
  exists o, ss. split; [reflexivity|]. split; [exact VO|]. intros ds F.
  assert (F' : Forall2 (fun x d => content (o_mmap o) (snd x) d) (map (fun p => (p, files p)) (paths gs)) ds)
    by (clear - F; induction F; cbn [map]; constructor; assumption).
  assert (BO : blake2_out why usage t e about files argv stdin outs errs =
               main_out why t e o (map (fun p => (p, files p)) (paths gs)) stdin outs errs)
    by (unfold blake2_out; now rewrite (from_args_spec gs argv C TX), M).
  rewrite BO in *.
  destruct (C46_success why t e o ss (map (fun p => (p, files p)) (paths gs)) ds stdin outs errs H (meaning_typed gs argv o C TX M) VO
             ltac:(destruct (paths gs); [congruence|discriminate]) F' CO EN) as (datas & E & _ & T).
  exists datas. split; [exact E|]. rewrite T, map_length, map_map. cbn [fst]. now rewrite map_id.
Qed.
Print Assumptions C51_files.

(** Standard input, if no file was named. *)
Theorem C51_stdin (why : nat -> list byte) (usage : list byte) (t : target) (e : env) (about : info -> string)
    (files : string -> source) (gs : list item) (argv : list string) (evs : list event) (outs errs : list answer) :
  honest t e -> command_line gs argv -> paths gs = [] -> ~ In Closed outs ->
  let real := blake2_out why usage t e about files argv evs outs errs in
  OutSpec.ended real = Some (Exited 0) ->
  exists o ss, meaning gs = Some o /\ verdict_of o = Accept ss /\ o_mmap o = false /\
    forall d, bounded_reads evs -> delivers evs d ->
    exists data, d = Some data /\ on_out real = list_byte_of_string (hex (tool_digest o ss data)) ++ nl.
Proof.
  intros H C NE CO real EN. subst real.
  destruct (C51_whole why usage t e about files argv evs outs errs CO) as (_ & W). rewrite EN in W.
  destruct W as [(W & OT)|(W & _)]; [|discriminate].
  destruct (meaning gs) as [o|] eqn:M.
  2:{ rewrite (C49_refused t e about files gs argv evs C M) in W. discriminate. }
  destruct (Forall_dec text text_dec argv) as [TX|TX].
  2:{ rewrite (C49_not_text t e about files gs argv evs C TX), M in W. discriminate. }
  assert (B : blake2 t e about files argv evs = main t e o [] evs)
    by (unfold blake2; now rewrite (from_args_spec gs argv C TX), M, NE).
  rewrite B in W, OT. pose proof (C34_rejected t e o [] evs) as V.
  destruct (verdict_of o) as [ss| |] eqn:VO; [|rewrite V in W; discriminate|rewrite V in W; discriminate].
  exists o, ss. split; [reflexivity|]. split; [exact VO|]. destruct (o_mmap o) eqn:MM.
  { exfalso. rewrite (C33_stdin_mmap t e o ss evs VO MM) in W. discriminate. }
  split; [reflexivity|]. intros d BR DV. rewrite (C33_stdin t e o ss evs d H (meaning_typed gs argv o C TX M) VO MM BR DV) in W, OT.
  destruct d as [data|]; [|discriminate]. exists data. split; [reflexivity|]. rewrite OT. cbn. now rewrite app_nil_r.
Qed.
Print Assumptions C51_stdin.

(** A command line without a meaning, or options that are not in order: standard output stays empty, and the status is not 0. *)
Theorem C51_refused (why : nat -> list byte) (usage : list byte) (t : target) (e : env) (about : info -> string)
    (files : string -> source) (gs : list item) (argv : list string) (stdin : list event) (outs errs : list answer) :
  command_line gs argv -> ~ In Closed outs ->
  match meaning gs with None => True | Some o => match verdict_of o with Accept _ => False | _ => True end end ->
  let real := blake2_out why usage t e about files argv stdin outs errs in
  on_out real = [] /\ OutSpec.ended real <> Some (Exited 0).
Proof.
  intros C CO X real. subst real. destruct (C51_whole why usage t e about files argv stdin outs errs CO) as (A & W).
  assert (K : out_text (lines (blake2 t e about files argv stdin)) = [] /\ finish_ (blake2 t e about files argv stdin) <> Exited 0).
  { destruct (meaning gs) as [o|] eqn:M.
    - destruct (Forall_dec text text_dec argv) as [TX|TX].
      2:{ rewrite (C49_not_text t e about files gs argv stdin C TX), M. split; [reflexivity|discriminate]. }
      assert (B : blake2 t e about files argv stdin = main t e o (map (fun p => (p, files p)) (paths gs)) stdin)
        by (unfold blake2; now rewrite (from_args_spec gs argv C TX), M).
      rewrite B. pose proof (C34_rejected t e o (map (fun p => (p, files p)) (paths gs)) stdin) as V.
      destruct (verdict_of o); [destruct X|rewrite V|rewrite V]; split; try reflexivity; discriminate.
    - rewrite (C49_refused t e about files gs argv stdin C M). split; [reflexivity|discriminate]. }
  destruct K as (K1 & K2). cbv zeta in A, W. rewrite K1 in A. split.
  - destruct A as (r & A). symmetry in A. now apply app_eq_nil in A.
  - intros EN. rewrite EN in W. destruct W as [(W & _)|(W & _)]; [congruence|discriminate].
Qed.
Print Assumptions C51_refused.

(** Words that are not UTF-8: standard output stays empty, and the status is not 0. *)
Theorem C51_not_text (why : nat -> list byte) (usage : list byte) (t : target) (e : env) (about : info -> string)
    (files : string -> source) (gs : list item) (argv : list string) (stdin : list event) (outs errs : list answer) :
  command_line gs argv -> ~ Forall text argv -> ~ In Closed outs ->
  let real := blake2_out why usage t e about files argv stdin outs errs in
  on_out real = [] /\ OutSpec.ended real <> Some (Exited 0).
Proof.
  intros C TX CO real. subst real. destruct (C51_whole why usage t e about files argv stdin outs errs CO) as (A & W).
  cbv zeta in A, W. rewrite (C49_not_text t e about files gs argv stdin C TX) in A, W. split.
  - destruct A as (r & A). symmetry in A. destruct (meaning gs); now apply app_eq_nil in A.
  - intros EN. rewrite EN in W. destruct (meaning gs), W as [(W & _)|(W & _)]; discriminate W.
Qed.
Print Assumptions C51_not_text.

(** If the streams go on taking bytes, the run does end as it should. *)
Theorem C51_progress (why : nat -> list byte) (usage : list byte) (t : target) (e : env) (about : info -> string)
    (files : string -> source) (gs : list item) (argv : list string) (o : options) (stdin : list event) (outs errs : list answer) :
  command_line gs argv -> meaning gs = Some o ->
  let ideal := blake2 t e about files argv stdin in
  let real := blake2_out why usage t e about files argv stdin outs errs in
  let out := out_text (lines ideal) in
  let err := err_text why 0 (lines ideal) in
  Forall (fun a => useful a = true \/ a = Again) outs -> length out <= length (filter useful outs) ->
  Forall (fun a => useful a = true \/ a = Again) errs -> length err <= length (filter useful errs) ->
  real = {| on_out := out; on_err := err; OutSpec.ended := Some (finish_ ideal) |}.
Proof.
  intros C M. cbv zeta. unfold blake2, blake2_out. destruct (Forall_dec text text_dec argv) as [TX|TX].
  2:{ rewrite (from_args_not_text gs argv C TX), M. intros _ _ _ _. rewrite leave_tidy by reflexivity. reflexivity. }
  rewrite (from_args_spec gs argv C TX), M.
  exact (C46_progress why t e o (map (fun p => (p, files p)) (paths gs)) stdin outs errs).
Qed.
Print Assumptions C51_progress.

(** A demonstration: the command line of C49's, on files that can all be read, one byte at a time. *)
Definition demo_tool := blake2_out (fun _ => list_byte_of_string "not found") [] demo_target (demo_env true) (fun _ => ""%string) (fun _ => demo_source) demo_argv [].
Example C51_example :
  command_line demo_items demo_argv /\ paths demo_items <> [] /\
  (exists n, OutSpec.ended (demo_tool (repeat (Took 1) n) []) = Some (Exited 0)) /\
  Forall2 (fun p d => content false demo_source d) (paths demo_items) (repeat (Some demo_data) 4).
Proof.
  destruct C33_example as (H & T & V & C & _).
  assert (F : Forall2 (fun p d => content false demo_source d) (paths demo_items) (repeat (Some demo_data) 4))
    by (repeat (apply Forall2_cons; [exact C|]); constructor).
  split; [exact demo_spelled|]. split; [discriminate|]. split; [|exact F].
  set (ideal := blake2 demo_target (demo_env true) (fun _ => ""%string) (fun _ => demo_source) demo_argv []).
  exists (length (out_text (lines ideal))). unfold demo_tool.
  assert (E : ideal = _) by (apply (C49_files demo_target (demo_env true) (fun _ => ""%string) (fun _ => demo_source)
    demo_items demo_argv (demo_options false) demo_requests (repeat (Some demo_data) 4) [] H demo_spelled demo_text demo_meaning V);
    [discriminate|exact F]).
  destruct (useful_ones (length (out_text (lines ideal)))) as (U & L).
  pose proof (C51_progress (fun _ => list_byte_of_string "not found") [] demo_target (demo_env true) (fun _ => ""%string) (fun _ => demo_source)
    demo_items demo_argv (demo_options false) [] (repeat (Took 1) (length (out_text (lines ideal)))) [] demo_spelled demo_meaning) as P.
  cbv zeta in P. fold ideal in P. rewrite P; clear P.
  - cbn [OutSpec.ended]. rewrite E. reflexivity.
  - exact U.
  - rewrite L. apply Nat.le_refl.
  - constructor.
  - rewrite E. apply Nat.le_0_l.
Qed.
