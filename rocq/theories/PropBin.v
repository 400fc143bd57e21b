(** Properties of the command-line tool (BinSpec.v says what its options, its
    inputs and its output are).

    [main t e o inputs stdin] is the run of the tool, compiled for [t] on the CPU
    [e], with options [o], the paths [inputs] and the given standard input. *)
From Coq Require Import String Ascii.
From Coq Require Import Arith NArith List Bool Lia.
From Coq Require Import Init.Byte.
From Verif Require Import Base Impl Api.
From Verif Require Import Spec ApiSpec Machine BinSpec.
From Verif Require Import LaneLoops ApiProof Bin BinProof Demo.
Import ListNotations.
Open Scope list_scope.
Open Scope N_scope.
Local Notation length := List.length.

(** ** C33: the hash of exactly the input's bytes *)
(** Standard input, for every sequence of read results: short reads, interruptions, an error. *)
Theorem C33_stdin (t : target) (e : env) (o : options) (ss : list setting) (evs : list event) (d : option (list byte)) :
  honest t e -> typed_options o -> verdict_of o = Accept ss -> o_mmap o = false ->
  bounded_reads evs -> delivers evs d ->
  main t e o [] evs =
  match d with
  | Some data => {| lines := [Out (hex (tool_digest o ss data))]; finish_ := Exited 0 |}
  | None => {| lines := [Complaint "stdin" System]; finish_ := Exited 1 |}
  end.
Proof.
  intros H T V M B D. rewrite (main_stdin t e o ss evs d H T V B D), M. cbv zeta.
  destruct d; [|reflexivity]. unfold report_line. rewrite append_empty. reflexivity.
Qed.
Print Assumptions C33_stdin.
(** Standard input cannot be mapped: with --mmap it is refused, unread. *)
Theorem C33_stdin_mmap (t : target) (e : env) (o : options) (ss : list setting) (evs : list event) :
  verdict_of o = Accept ss -> o_mmap o = true ->
  main t e o [] evs = {| lines := [Complaint "stdin" (Said "--mmap not supported for stdin")]; finish_ := Exited 1 |}.
Proof. intros V M. unfold main. rewrite make_params_spec, V. unfold hash_stdin. rewrite M. reflexivity. Qed.
Print Assumptions C33_stdin_mmap.
(** A file, read or mapped. *)
Theorem C33_file (t : target) (e : env) (o : options) (ss : list setting) (name : string) (s : source)
    (d : option (list byte)) (stdin : list event) :
  honest t e -> typed_options o -> verdict_of o = Accept ss -> content (o_mmap o) s d ->
  main t e o [(name, s)] stdin =
  match d with
  | Some data => {| lines := [Out (hex (tool_digest o ss data))]; finish_ := Exited 0 |}
  | None => {| lines := [Complaint name (file_problem (o_mmap o) s)]; finish_ := Exited 1 |}
  end.
Proof.
  intros H T V C. rewrite (main_files t e o ss [(name, s)] [d] stdin H T V); [|discriminate|constructor; [exact C|constructor]].
  destruct d; [|reflexivity]. cbn [map combine fst report_line length Nat.ltb Nat.leb]. rewrite append_empty. reflexivity.
Qed.
Print Assumptions C33_file.
(** --mmap changes nothing for a file that can be mapped. *)
Theorem C33_mmap (t : target) (e : env) (o : options) (ss : list setting) (name : string) (s : source)
    (data : list byte) (stdin : list event) :
  honest t e -> typed_options o -> verdict_of o = Accept ss ->
  can_open s = true -> bounded_reads (reads s) -> delivers (reads s) (Some data) ->
  meta_len s = Some (N.of_nat (length data)) -> N.of_nat (length data) < 2 ^ 63 ->
  mapped s (N.of_nat (length data)) = Some data ->
  main t e (with_mmap true o) [(name, s)] stdin = main t e (with_mmap false o) [(name, s)] stdin.
Proof.
  intros H T V O B D L G M.
  assert (V' : forall b, verdict_of (with_mmap b o) = Accept ss) by (intros b; exact V).
  assert (T' : forall b, typed_options (with_mmap b o)) by (intros b; exact T).
  rewrite (C33_file t e (with_mmap true o) ss name s (Some data) stdin H (T' _) (V' _)).
  2:{ rewrite <- M. apply c_map; auto. }
  rewrite (C33_file t e (with_mmap false o) ss name s (Some data) stdin H (T' _) (V' _)); [reflexivity|].
  apply c_read; auto.
Qed.
Print Assumptions C33_mmap.
(** Whatever the operating system answers, the tool has no undefined behaviour,
    does not panic after its options were accepted, and goes on for ever only if
    some input never ends. *)
Theorem C33_always (t : target) (e : env) (o : options) (ss : list setting) (inputs : list (string * source)) (stdin : list event) :
  honest t e -> typed_options o -> verdict_of o = Accept ss ->
  bounded_reads stdin -> Forall (fun x => bounded_reads (reads (snd x))) inputs ->
  match finish_ (main t e o inputs stdin) with
  | Exited _ => True
  | Endless => never_ends stdin \/ Exists (fun x => never_ends (reads (snd x))) inputs
  | Aborted | Undefined => False
  end.
Proof. exact (main_always t e o ss inputs stdin). Qed.
Print Assumptions C33_always.

(** A demonstration: many settings; reads of 3, 5 and 1 bytes, two interrupted. *)
Definition demo_options (mmap : bool) : options :=
  {| o_mmap := mmap; o_big := true; o_small := false; o_parallel := false;
     o_length := Some 20%nat; o_key := Some "00ffA9b0"%string; o_salt := Some "01"%string; o_personal := None;
     o_fanout := Some 2; o_max_depth := None; o_max_leaf_length := Some 77; o_node_offset := Some 5; o_node_depth := None;
     o_inner_hash_length := Some 32%nat; o_last_node := true |}.
Definition demo_requests : list setting :=
  [HashLength 20; Key [x00; xff; xa9; xb0]; Salt [x01]; Fanout 2; MaxLeafLength 77; NodeOffset 5; InnerHashLength 32; LastNode true].
Definition demo_events : list event :=
  [Interrupted; Got [x01; x02; x03]; Got [x04; x05; x06; x07; x08]; Interrupted; Interrupted; Got [x09]; Got []].
Definition demo_data : list byte := [x01; x02; x03; x04; x05; x06; x07; x08; x09].
Definition demo_source : source :=
  {| can_open := true; meta_len := Some 9; mapped := fun n => Some (firstn (N.to_nat n) demo_data); reads := demo_events |}.
Definition missing : source := {| can_open := false; meta_len := None; mapped := fun _ => None; reads := [] |}.
Definition broken : source :=
  {| can_open := true; meta_len := None; mapped := fun _ => None; reads := [Got [x07]; Failed] |}.

Lemma demo_accept b : verdict_of (demo_options b) = Accept demo_requests.
Proof. reflexivity. Qed.
Lemma demo_options_typed b : typed_options (demo_options b).
Proof. unfold typed_options. cbn. repeat (apply Forall_cons; [cbn; lia || exact I|]). constructor. Qed.
Example C33_stdin_mmap_example :
  verdict_of (demo_options true) = Accept demo_requests /\ o_mmap (demo_options true) = true /\
  main demo_target (demo_env true) (demo_options true) [] demo_events = {| lines := [Complaint "stdin" (Said "--mmap not supported for stdin")]; finish_ := Exited 1 |}.
Proof. split; [apply demo_accept|]. split; [reflexivity|]. exact (C33_stdin_mmap _ _ _ _ _ (demo_accept true) eq_refl). Qed.
Lemma demo_bounded : bounded_reads demo_events.
Proof.
  intros bs I. unfold demo_events in I. cbn [In] in I.
  repeat (destruct I as [I|I]; [(discriminate I || (injection I as <-; unfold read_limit; cbn; lia))|]). destruct I.
Qed.
Lemma demo_delivers : delivers demo_events (Some demo_data).
Proof.
  apply d_again. apply (d_some [x01; x02; x03] _ (Some [x04; x05; x06; x07; x08; x09])); [discriminate|].
  apply (d_some [x04; x05; x06; x07; x08] _ (Some [x09])); [discriminate|]. do 2 apply d_again.
  apply (d_some [x09] _ (Some [])); [discriminate|]. apply d_end.
Qed.
Lemma broken_fails : content false broken None.
Proof.
  apply c_read; auto.
  - intros bs I. cbn [In broken reads] in I. destruct I as [I|[I|[]]]; [|discriminate].
    injection I as <-. unfold read_limit. cbn. lia.
  - apply (d_some [x07] _ None); [discriminate|]. apply d_error.
Qed.
Example C33_example :
  honest demo_target (demo_env true) /\ typed_options (demo_options false) /\
  verdict_of (demo_options false) = Accept demo_requests /\
  content false demo_source (Some demo_data) /\ content true demo_source (Some demo_data) /\
  content false broken None /\ content false missing None /\
  meta_len demo_source = Some (N.of_nat (length demo_data)) /\ with_mmap true (demo_options false) = demo_options true /\
  never_ends [Got [x01]; Interrupted] /\ ~ never_ends demo_events.
Proof.
  split; [apply demo_honest|]. split; [apply demo_options_typed|]. split; [apply demo_accept|].
  split; [apply c_read; auto using demo_bounded, demo_delivers|].
  split; [exact (c_map true demo_source 9 eq_refl eq_refl eq_refl ltac:(reflexivity))|].
  split; [exact broken_fails|]. split; [apply c_missing; reflexivity|]. split; [reflexivity|]. split; [reflexivity|].
  split.
  - repeat (apply Forall_cons; [cbn; auto; discriminate|]). constructor.
  - intros F. unfold never_ends, demo_events in F. rewrite Forall_forall in F. apply (F (Got [])); cbn; tauto.
Qed.

(** ** C34: the options *)
(** The options are accepted exactly if they do not conflict, their hexadecimal is
    well-formed and their values are in range; then each of them has become one
    setting, and [tool_digest] (see C33) is the published function under these. *)
Theorem C34_accepted (o : options) (ss : list setting) :
  verdict_of o = Accept ss <->
  ~ (o_big o = true /\ o_small o = true) /\
  requests o = map Some ss /\
  Forall (fun s => legal (chosen o) s = true /\ (o_parallel o = true -> for_parallel s <> None)) ss.
Proof. exact (accepted o ss). Qed.
Print Assumptions C34_accepted.
(** What happens to options that are not accepted: no hash is printed and the
    status is not 0. *)
Theorem C34_rejected (t : target) (e : env) (o : options) (inputs : list (string * source)) (stdin : list event) :
  match verdict_of o with
  | Accept _ => True
  | Refuse => main t e o inputs stdin = {| lines := [Refusal (problem o)]; finish_ := Exited 1 |}
  | Crash => main t e o inputs stdin = {| lines := []; finish_ := Aborted |}
  end.
Proof. exact (main_rejects t e o inputs stdin). Qed.
Print Assumptions C34_rejected.
(** -b with -s is an error whatever else is given. *)
Theorem C34_big_small (t : target) (e : env) (o : options) (inputs : list (string * source)) (stdin : list event) :
  o_big o = true -> o_small o = true ->
  main t e o inputs stdin = {| lines := [Refusal (Said "-b and -s can't be used together")]; finish_ := Exited 1 |}.
Proof.
  intros B S. pose proof (main_rejects t e o inputs stdin) as R. unfold verdict_of, problem, problems in R. rewrite B, S in R. exact R.
Qed.
Print Assumptions C34_big_small.
(** So is a tree option, a salt or a personalization with -p, if --length and --key are in order. *)
Theorem C34_tree_with_parallel (t : target) (e : env) (o : options) (inputs : list (string * source)) (stdin : list event) :
  o_parallel o = true -> has_tree_option o = true ->
  (forall n, o_length o = Some n -> legal (chosen o) (HashLength n) = true) ->
  (forall s bs, o_key o = Some s -> hex_bytes s = Some bs -> legal (chosen o) (Key bs) = true) ->
  main t e o inputs stdin = {| lines := [Refusal (problem o)]; finish_ := Exited 1 |}.
Proof. intros P X L K. pose proof (main_rejects t e o inputs stdin) as R. rewrite (tree_refused o P X L K) in R. exact R. Qed.
Print Assumptions C34_tree_with_parallel.
(** So is malformed hexadecimal, if no earlier value is out of range. *)
Theorem C34_malformed (t : target) (e : env) (o : options) (before after : list (option setting))
    (inputs : list (string * source)) (stdin : list event) :
  requests o = before ++ None :: after ->
  (forall s, In (Some s) before -> legal (chosen o) s = true) ->
  main t e o inputs stdin = {| lines := [Refusal (problem o)]; finish_ := Exited 1 |}.
Proof. intros Q L. pose proof (main_rejects t e o inputs stdin) as R. rewrite (malformed_refused o _ _ Q L) in R. exact R. Qed.
Print Assumptions C34_malformed.
(** A value out of range, after options that are in order, ends the tool with a panic. *)
Theorem C34_out_of_range (t : target) (e : env) (o : options) (before : list setting) (s : setting) (after : list (option setting))
    (inputs : list (string * source)) (stdin : list event) :
  ~ (o_big o = true /\ o_small o = true) ->
  requests o = map Some before ++ Some s :: after ->
  Forall (fun s => legal (chosen o) s = true) before ->
  (o_parallel o = true -> Forall (fun s => for_parallel s <> None) (before ++ [s])) ->
  legal (chosen o) s = false ->
  main t e o inputs stdin = {| lines := []; finish_ := Aborted |}.
Proof.
  intros BS Q L P I. pose proof (main_rejects t e o inputs stdin) as R. replace (verdict_of o) with Crash in R; [exact R|].
  unfold verdict_of. replace (o_big o && o_small o) with false by (destruct (o_big o), (o_small o); try reflexivity; exfalso; auto).
  rewrite Q. clear Q R BS. generalize dependent (chosen o). intros f L I.
  assert (G : forall x, In x (before ++ [s]) -> o_parallel o && match for_parallel x with None => true | Some _ => false end = false).
  { intros x IN. destruct (o_parallel o); [|reflexivity]. specialize (P eq_refl). rewrite Forall_forall in P. specialize (P x IN).
    destruct (for_parallel x); [reflexivity|congruence]. }
  clear P. induction before as [|b before IH]; cbn [map app judge].
  - rewrite (G s) by (now left). now rewrite I.
  - rewrite (G b) by (now left). inversion L as [|? ? Lb L']; subst. rewrite Lb, <- IH; [reflexivity|exact L'|].
    intros x IN. apply G. now right.
Qed.
Print Assumptions C34_out_of_range.
Example C34_example :
  let o := {| o_mmap := false; o_big := false; o_small := true; o_parallel := true;
     o_length := Some 20%nat; o_key := Some "00ff"%string; o_salt := Some "0x"%string; o_personal := None;
     o_fanout := Some 2; o_max_depth := None; o_max_leaf_length := None; o_node_offset := None; o_node_depth := None;
     o_inner_hash_length := None; o_last_node := false |} in
  hex_bytes "00ffA9b0" = Some [x00; xff; xa9; xb0] /\ hex_bytes "00f" = None /\ hex_bytes "0g" = None /\
  verdict_of (demo_options true) = Accept demo_requests /\
  has_tree_option o = true /\ legal (chosen o) (HashLength 20) = true /\ legal (chosen o) (Key [x00; xff]) = true /\
  requests o = [Some (HashLength 20); Some (Key [x00; xff])] ++ None :: [Some (Fanout 2)].
Proof. repeat split. Qed.

Example C34_out_of_range_example :
  let o := {| o_mmap := false; o_big := false; o_small := true; o_parallel := true;
     o_length := Some 33%nat; o_key := Some "0g"%string; o_salt := None; o_personal := None;
     o_fanout := None; o_max_depth := None; o_max_leaf_length := None; o_node_offset := None; o_node_depth := None;
     o_inner_hash_length := None; o_last_node := true |} in
  requests o = map Some [] ++ Some (HashLength 33) :: [None; Some (LastNode true)] /\
  Forall (fun s => for_parallel s <> None) ([] ++ [HashLength 33]) /\ legal (chosen o) (HashLength 33) = false.
Proof. split; [reflexivity|]. split; [|reflexivity]. repeat constructor. discriminate. Qed.

(** ** C35: the lines and the exit status *)
(** One line for each input, in order: the hash on standard output (with the path,
    if there are several inputs), or a complaint; the status is 0 if every input
    could be read, else 1. *)
Theorem C35_lines (t : target) (e : env) (o : options) (ss : list setting) (inputs : list (string * source))
    (ds : list (option (list byte))) (stdin : list event) :
  honest t e -> typed_options o -> verdict_of o = Accept ss ->
  inputs <> [] -> Forall2 (fun x d => content (o_mmap o) (snd x) d) inputs ds ->
  main t e o inputs stdin =
  {| lines := map (fun '((name, s), d) =>
       match d with
       | Some data =>
           Out (if Nat.ltb 1 (length inputs) then hex (tool_digest o ss data) ++ "  " ++ name else hex (tool_digest o ss data))
       | None => Complaint name (file_problem (o_mmap o) s)
       end) (combine inputs ds);
     finish_ := Exited (if existsb (fun d => match d with None => true | Some _ => false end) ds then 1 else 0) |}.
Proof.
  intros H T V NE F. rewrite (main_files t e o ss inputs ds stdin H T V NE F). f_equal.
  - apply map_ext. intros [[name s] [data|]]; [|reflexivity]. unfold report_line.
    destruct (Nat.ltb 1 (length inputs)); [reflexivity|]. rewrite append_empty. reflexivity.
  - unfold status_of. f_equal. clear. induction ds as [|[d|] ds IH]; cbn [forallb existsb ok andb orb]; auto.
Qed.
Print Assumptions C35_lines.
Example C35_example :
  let inputs := [("a", demo_source); ("b", missing); ("c", broken); ("d", demo_source)]%string in
  Forall2 (fun x d => content false (snd x) d) inputs [Some demo_data; None; None; Some demo_data] /\
  main demo_target (demo_env true) (demo_options false) inputs [] =
  let h := hex (tool_digest (demo_options false) demo_requests demo_data) in
  {| lines := [Out (h ++ "  a"); Complaint "b" System; Complaint "c" System; Out (h ++ "  d")]; finish_ := Exited 1 |}.
Proof.
  cbv zeta. destruct C33_example as (H & T & V & C & _ & B & M & _).
  assert (F : Forall2 (fun (x : string * source) d => content false (snd x) d)
    [("a", demo_source); ("b", missing); ("c", broken); ("d", demo_source)]%string [Some demo_data; None; None; Some demo_data])
    by (repeat (apply Forall2_cons; [assumption|]); constructor).
  split; [exact F|].
  rewrite (C35_lines demo_target (demo_env true) (demo_options false) demo_requests
    [("a", demo_source); ("b", missing); ("c", broken); ("d", demo_source)]%string [Some demo_data; None; None; Some demo_data] [] H T V); [reflexivity|discriminate|exact F].
Qed.
