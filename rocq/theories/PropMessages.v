(** C57: what the command-line tool puts on its standard error.

    [problems o] (BinSpec.v) lists all that is wrong with the options, in the order in which the tool looks.  [why i]
    is the operating system's reason in the [i]-th complaint.  [blake2_out] is a run of the tool on the words [argv]
    (PropTool.v); [outs] and [errs] are the system's answers to its writes (OutSpec.v). *)
From Coq Require Import String Ascii.
From Coq Require Import Arith NArith List Bool Lia.
From Coq Require Import Init.Byte Strings.Byte.
From Verif Require Import Base Impl Api.
From Verif Require Import Spec ApiSpec Machine BinSpec.
From Verif Require Import LaneLoops ApiProof Bin BinProof Demo PropBin.
From Verif Require Import OutSpec Out OutProof PropOut.
From Verif Require Import TextSpec Utf8Proof ArgsSpec Args ArgsProof PropArgs Tool PropTool.
Import ListNotations.
Open Scope list_scope.
Open Scope nat_scope.
Local Notation length := List.length.

(** A stream that takes a text of [n] bytes, whatever portions it takes it in. *)
Definition takes (answers : list answer) (n : nat) : Prop :=
  Forall (fun a => useful a = true \/ a = Again) answers /\ n <= length (filter useful answers).

(** Options that are not in order: one line, with the first thing that is wrong, on standard error; nothing on standard
    output; status 1. *)
Theorem C57_refused (why : nat -> list byte) (usage : list byte) (t : target) (e : env) (about : info -> string)
    (files : string -> source) (gs : list item) (argv : list string) (o : options) (stdin : list event) (outs errs : list answer) :
  command_line gs argv -> Forall text argv -> meaning gs = Some o -> verdict_of o = Refuse ->
  exists first others, problems o = first :: others /\
    let message := list_byte_of_string "blake2: " ++ list_byte_of_string first ++ nl in
    let real := blake2_out why usage t e about files argv stdin outs errs in
    (takes outs 0 -> takes errs (length message) ->
     real = {| on_out := []; on_err := message; OutSpec.ended := Some (Exited 1) |}) /\
    (~ In Closed outs -> ~ In Closed errs -> begins (on_err real) message /\ on_out real = []).
Proof.
  intros C TX M V. pose proof (verdict_problems o) as Q. rewrite V in Q.
  destruct (problems o) as [|first others] eqn:PS; [congruence|]. exists first, others. split; [reflexivity|]. cbv zeta.
  assert (W : main t e o (map (fun p => (p, files p)) (paths gs)) stdin = {| lines := [Refusal (Said first)]; finish_ := Exited 1 |}).
  { pose proof (C34_rejected t e o (map (fun p => (p, files p)) (paths gs)) stdin) as R. rewrite V in R.
    unfold problem in R. rewrite PS in R. exact R. }
  assert (B : blake2_out why usage t e about files argv stdin outs errs =
              main_out why t e o (map (fun p => (p, files p)) (paths gs)) stdin outs errs)
    by (unfold blake2_out; now rewrite (from_args_spec gs argv C TX), M).
  rewrite B. split.
  - intros (TO & _) (TE & LE).
    pose proof (C46_progress why t e o (map (fun p => (p, files p)) (paths gs)) stdin outs errs) as P. cbv zeta in P.
    rewrite W in P. cbn [lines finish_ out_text flat_map err_text complaint_text reason_text] in P. rewrite !app_nil_r in P.
    apply P; [exact TO|apply Nat.le_0_l|exact TE|exact LE].
  - intros CO CE. destruct (C46_output why t e o (map (fun p => (p, files p)) (paths gs)) stdin outs errs CO CE) as (A & D & _).
    rewrite W in A, D. cbn [lines out_text flat_map err_text complaint_text reason_text] in A, D. rewrite !app_nil_r in D.
    split; [exact D|]. destruct A as (r & A). symmetry in A. now apply app_eq_nil in A.
Qed.
Print Assumptions C57_refused.

(** Nothing is wrong with accepted options. *)
Theorem C57_accepted (o : options) (ss : list setting) : verdict_of o = Accept ss -> problems o = [].
Proof. intros V. pose proof (verdict_problems o) as Q. rewrite V in Q. exact Q. Qed.
Print Assumptions C57_accepted.

(** About a malformed hexadecimal value, a key say, the message tells that its length is odd, or the first character
    that is no digit, and where it stands; no other character of the value. *)
Theorem C57_hex (s first : string) (others : list string) :
  hex_problems s = first :: others ->
  (Nat.odd (String.length s) = true /\ first = "Odd number of digits"%string) \/
  (Nat.odd (String.length s) = false /\
   exists i c, String.get i s = Some c /\ hex_letter c = None /\
     (forall j d, j < i -> String.get j s = Some d -> hex_letter d <> None) /\
     first = ("Invalid character " ++ quoted (N_of_ascii c) ++ " at position " ++ decimal_numeral i)%string).
Proof.
  unfold hex_problems. destruct (Nat.odd (String.length s)).
  { intros [= <- _]. left. auto. }
  intros H. right. split; [reflexivity|].
  assert (G : forall s k, bad_digits k s = first :: others ->
    exists i c, String.get i s = Some c /\ hex_letter c = None /\
     (forall j d, j < i -> String.get j s = Some d -> hex_letter d <> None) /\
     first = ("Invalid character " ++ quoted (N_of_ascii c) ++ " at position " ++ decimal_numeral (k + i))%string).
  { clear. induction s as [|c r IH]; intros k H; [discriminate|]. cbn [bad_digits] in H.
    destruct (hex_letter c) as [n|] eqn:L.
    - destruct (IH (S k) H) as (i & d & G & N & A & E). exists (S i), d. split; [exact G|]. split; [exact N|]. split.
      + intros [|j] x LT X; cbn in X; [injection X as <-; now rewrite L|]. apply (A j x); [lia|exact X].
      + now rewrite Nat.add_succ_r.
    - injection H as <- _. exists 0, c. split; [reflexivity|]. split; [exact L|]. split; [intros j d LT; lia|now rewrite Nat.add_0_r]. }
  exact (G s 0 H).
Qed.
Print Assumptions C57_hex.

(** And no message if the value is well-formed. *)
Theorem C57_hex_fine (s : string) : hex_problems s = [] <-> exists bs, hex_bytes s = Some bs.
Proof.
  pose proof (hex_problems_spec s) as (A & B). destruct (hex_bytes s) as [bs|].
  - split; [eauto|]. intros _. destruct (hex_problems s) as [|x l]; [reflexivity|].
    assert (X : Some bs = None) by (apply B; discriminate). discriminate X.
  - split; [intros X; exfalso; now apply (A eq_refl)|intros (bs & X); discriminate X].
Qed.
Print Assumptions C57_hex_fine.

(** The tool's message about a malformed key is about the key and not about an option that comes later, unless -b and
    -s are both given. *)
Theorem C57_key (o : options) (s first : string) (others : list string) :
  o_big o && o_small o = false -> o_key o = Some s -> hex_problems s = first :: others ->
  hd ""%string (problems o) = first.
Proof. intros B K H. unfold problems. rewrite B, K. cbn [malformed app]. rewrite H. reflexivity. Qed.
Print Assumptions C57_key.

(** The lines about paths that could not be read: one for each, in order, with the path and the reason. *)
Fixpoint unread (why : nat -> list byte) (mmap : bool) (files : string -> source) (i : nat)
    (paths : list string) (ds : list (option (list byte))) : list byte :=
  match paths, ds with
  | p :: ps, Some _ :: r => unread why mmap files i ps r
  | p :: ps, None :: r =>
      list_byte_of_string ("blake2: " ++ p ++ ": ") ++
      match file_problem mmap (files p) with Said s => list_byte_of_string s | System => why i end ++ nl ++
      unread why mmap files (S i) ps r
  | _, _ => []
  end.
Theorem C57_files (why : nat -> list byte) (usage : list byte) (t : target) (e : env) (about : info -> string)
    (files : string -> source) (gs : list item) (argv : list string) (o : options) (ss : list setting)
    (ds : list (option (list byte))) (stdin : list event) (outs errs : list answer) :
  honest t e -> command_line gs argv -> Forall text argv -> meaning gs = Some o -> verdict_of o = Accept ss ->
  paths gs <> [] -> Forall2 (fun p d => content (o_mmap o) (files p) d) (paths gs) ds ->
  let message := unread why (o_mmap o) files 0 (paths gs) ds in
  let real := blake2_out why usage t e about files argv stdin outs errs in
  (~ In Closed outs -> ~ In Closed errs ->
   begins (on_err real) message /\
   forall status, OutSpec.ended real = Some (Exited status) -> on_err real = message /\ (status = 0%N <-> ~ In None ds)) /\
  (takes outs (length (out_text (lines (blake2 t e about files argv stdin)))) -> takes errs (length message) ->
   on_err real = message /\ exists status, OutSpec.ended real = Some (Exited status)).
Proof.
  intros H C TX M V NE F. cbv zeta.
  pose proof (C49_files t e about files gs argv o ss ds stdin H C TX M V NE F) as W.
  assert (B : blake2_out why usage t e about files argv stdin outs errs =
              main_out why t e o (map (fun p => (p, files p)) (paths gs)) stdin outs errs)
    by (unfold blake2_out; now rewrite (from_args_spec gs argv C TX), M).
  assert (B' : blake2 t e about files argv stdin = main t e o (map (fun p => (p, files p)) (paths gs)) stdin)
    by (unfold blake2; now rewrite (from_args_spec gs argv C TX), M).
  assert (E : err_text why 0 (lines (blake2 t e about files argv stdin)) = unread why (o_mmap o) files 0 (paths gs) ds).
  { rewrite W. cbn [lines]. generalize (Nat.ltb 1 (length (paths gs))) as several. clear. intros several. generalize 0 as i.
    revert ds. induction (paths gs) as [|p ps IH]; intros [|[d|] ds] i; try reflexivity; cbn [combine map err_text unread].
    - apply IH.
    - rewrite IH. cbn [complaint_text]. unfold reason_text. destruct (file_problem _ _); rewrite <- !app_assoc; reflexivity. }
  assert (S : finish_ (blake2 t e about files argv stdin) = Exited (if existsb (fun d => match d with None => true | Some _ => false end) ds then 1 else 0))
    by now rewrite W.
  split.
  - intros CO CE. destruct (C46_output why t e o (map (fun p => (p, files p)) (paths gs)) stdin outs errs CO CE) as (_ & D & K).
    rewrite <- B', <- B in *. rewrite E in *. split; [exact D|]. intros status EN. rewrite EN in K.
    destruct K as [(K & _ & K2)|(K & _)]; [|discriminate]. split; [exact K2|].
    rewrite S in K. injection K as ->. clear. induction ds as [|[d|] ds IH]; cbn.
    + split; [intros _ []|reflexivity].
    + rewrite IH. split; [intros X [Y|Y]; [discriminate|now apply X]|intros X Y; apply X; now right].
    + split; [discriminate|]. intros X. exfalso. apply X. now left.
  - intros (TO & LO) (TE & LE).
    pose proof (C46_progress why t e o (map (fun p => (p, files p)) (paths gs)) stdin outs errs) as P. cbv zeta in P.
    rewrite <- B', <- B, E in P. rewrite P; try assumption. cbn [on_err OutSpec.ended]. split; [reflexivity|]. rewrite S. eauto.
Qed.
Print Assumptions C57_files.

(** --mmap without a path. *)
Theorem C57_stdin_mmap (why : nat -> list byte) (usage : list byte) (t : target) (e : env) (about : info -> string)
    (files : string -> source) (gs : list item) (argv : list string) (o : options) (ss : list setting)
    (stdin : list event) (outs errs : list answer) :
  command_line gs argv -> Forall text argv -> meaning gs = Some o -> verdict_of o = Accept ss ->
  paths gs = [] -> o_mmap o = true ->
  let message := list_byte_of_string "blake2: stdin: --mmap not supported for stdin" ++ nl in
  takes outs 0 -> takes errs (length message) ->
  blake2_out why usage t e about files argv stdin outs errs =
  {| on_out := []; on_err := message; OutSpec.ended := Some (Exited 1) |}.
Proof.
  intros C TX M V NE MM. cbv zeta. intros (TO & _) (TE & LE).
  assert (B : blake2_out why usage t e about files argv stdin outs errs = main_out why t e o [] stdin outs errs)
    by (unfold blake2_out; now rewrite (from_args_spec gs argv C TX), M, NE).
  rewrite B. pose proof (C46_progress why t e o [] stdin outs errs) as P. cbv zeta in P.
  rewrite (C33_stdin_mmap t e o ss stdin V MM) in P. apply P; [exact TO|apply Nat.le_0_l|exact TE|exact LE].
Qed.
Print Assumptions C57_stdin_mmap.

(** ** Demonstrations *)
Lemma takes_ones (n : nat) : takes (repeat (Took 1) n) n.
Proof. destruct (useful_ones n) as (U & L). split; [exact U|]. rewrite L. apply Nat.le_refl. Qed.

(** A salt with -p, and a key with a "g" in it: the key is found first, and only the "g" is shown. *)
Definition bad_items : list item := [Flag SmallFlag; Flag ParallelFlag; Valued SaltOption "01"; Valued KeyOption "00f1g7ga"].
Definition bad_argv : list string := ["-s"; "-p"; "--salt=01"; "--key=00f1g7ga"]%string.
Lemma bad_spelled : command_line bad_items bad_argv.
Proof.
  apply c_open. apply (s_short SmallFlag [] "s"); [apply letters_cons; [reflexivity|constructor]|].
  apply (s_short ParallelFlag [] "p"); [apply letters_cons; [reflexivity|constructor]|].
  apply (s_equals SaltOption "01"); [discriminate|]. apply (s_equals KeyOption "00f1g7ga"); [discriminate|]. constructor.
Qed.
Example C57_refused_example :
  exists o, command_line bad_items bad_argv /\ Forall text bad_argv /\ meaning bad_items = Some o /\ verdict_of o = Refuse /\
  problems o = ["Invalid character 'g' at position 4"; "Invalid character 'g' at position 6"; "--salt not supported"]%string /\
  blake2_out (fun _ => []) [] demo_target (demo_env true) (fun _ => ""%string) (fun _ => demo_source) bad_argv [] []
    (repeat (Took 1) 100) =
  {| on_out := []; on_err := list_byte_of_string "blake2: Invalid character 'g' at position 4" ++ nl;
     OutSpec.ended := Some (Exited 1) |}.
Proof.
  eexists. split; [exact bad_spelled|]. assert (TX : Forall text bad_argv) by (apply forallb_utf8; reflexivity).
  split; [exact TX|]. split; [reflexivity|]. split; [reflexivity|]. split; [reflexivity|].
  destruct (C57_refused (fun _ => []) [] demo_target (demo_env true) (fun _ => ""%string) (fun _ => demo_source) bad_items bad_argv
    _ [] [] (repeat (Took 1) 100) bad_spelled TX eq_refl eq_refl) as (first & others & P & R & _).
  assert (Q : first = "Invalid character 'g' at position 4"%string) by (cbn in P; now injection P). subst first.
  apply R; [split; [constructor|apply Nat.le_refl]|]. destruct (takes_ones 100) as (T & _). split; [exact T|].
  apply Nat.leb_le. reflexivity.
Qed.

(** Characters that are shown escaped, and a byte of a letter in UTF-8. *)
Example C57_hex_example :
  hex_problems "0'" = ["Invalid character '\'' at position 1"]%string /\
  hex_problems "012" = ["Odd number of digits"]%string /\
  hex_problems "01é" = ["Invalid character 'Ã' at position 2"; "Invalid character '©' at position 3"]%string /\
  hex_problems (String "001" "0") = ["Invalid character '\u{1}' at position 0"]%string /\
  hex_problems "a1B2" = [].
Proof. do 4 (split; [reflexivity|]). reflexivity. Qed.

Example C57_key_example :
  exists o, meaning bad_items = Some o /\ o_big o && o_small o = false /\ o_key o = Some "00f1g7ga"%string /\
  hd ""%string (problems o) = "Invalid character 'g' at position 4"%string.
Proof. eexists. split; [reflexivity|]. split; [reflexivity|]. split; reflexivity. Qed.

(** Four files, of which the second cannot be opened and the fourth is too long to be mapped. *)
Definition too_long : source := {| can_open := true; meta_len := Some (2 ^ 63)%N; mapped := fun _ => None; reads := [] |}.
Definition some_files (p : string) : source :=
  if String.eqb p "b" then missing else if String.eqb p "d" then too_long else demo_source.
Definition four_items : list item := [Flag MmapFlag; Input "a"; Input "b"; Input "c"; Input "d"].
Definition four_argv : list string := ["--mmap"; "a"; "b"; "c"; "d"]%string.
Lemma four_spelled : command_line four_items four_argv.
Proof.
  apply c_open. apply (s_long MmapFlag); [reflexivity|]. do 4 (apply s_input; [left; discriminate|]). constructor.
Qed.
Example C57_files_example :
  exists o, meaning four_items = Some o /\ verdict_of o = Accept [] /\
  Forall2 (fun p d => content (o_mmap o) (some_files p) d) (paths four_items) [Some demo_data; None; Some demo_data; None] /\
  (exists n, on_err (blake2_out (fun _ => list_byte_of_string "No such file") [] demo_target (demo_env true) (fun _ => ""%string)
     some_files four_argv [] (repeat (Took 1) n) (repeat (Took 1) 100)) =
   list_byte_of_string "blake2: b: No such file" ++ nl ++ list_byte_of_string "blake2: d: mmap length would overflow isize" ++ nl).
Proof.
  destruct C33_example as (H & _ & _ & _ & CM & _).
  assert (TX : Forall text four_argv) by (apply forallb_utf8; reflexivity).
  eexists. split; [reflexivity|]. split; [reflexivity|].
  assert (F : Forall2 (fun p d => content true (some_files p) d) (paths four_items) [Some demo_data; None; Some demo_data; None]).
  { apply Forall2_cons; [exact CM|]. apply Forall2_cons; [apply c_missing; reflexivity|]. apply Forall2_cons; [exact CM|].
    apply Forall2_cons; [|constructor]. apply (c_too_long true (some_files "d") (2 ^ 63)); try reflexivity. }
  split; [exact F|]. eexists.
  refine (proj1 (proj2 (C57_files (fun _ => list_byte_of_string "No such file") [] demo_target (demo_env true) (fun _ => ""%string)
    some_files four_items four_argv _ [] [Some demo_data; None; Some demo_data; None] [] _ (repeat (Took 1) 100) H four_spelled TX eq_refl eq_refl _ F)
    (takes_ones _) _)).
  - discriminate.
  - destruct (takes_ones 100) as (T & _). split; [exact T|]. apply Nat.leb_le. reflexivity.
Qed.
Example C57_stdin_mmap_example :
  command_line [Flag MmapFlag] ["--mmap"%string] /\ paths [Flag MmapFlag] = [] /\
  on_err (blake2_out (fun _ => []) [] demo_target (demo_env true) (fun _ => ""%string) some_files ["--mmap"%string] [] [] (repeat (Took 7) 50)) =
  list_byte_of_string "blake2: stdin: --mmap not supported for stdin" ++ nl.
Proof.
  assert (C : command_line [Flag MmapFlag] ["--mmap"%string]) by exact (c_open _ _ (s_long MmapFlag "--mmap" [] [] eq_refl s_nil)).
  split; [exact C|]. split; [reflexivity|].
  rewrite (C57_stdin_mmap (fun _ => []) [] demo_target (demo_env true) (fun _ => ""%string) some_files _ _ _ [] [] [] (repeat (Took 7) 50) C
    ltac:(apply forallb_utf8; reflexivity) eq_refl eq_refl eq_refl eq_refl); [reflexivity| |].
  - split; [constructor|apply Nat.le_refl].
  - split; [|apply Nat.leb_le; reflexivity]. apply Forall_forall. intros x I. apply repeat_spec in I. subst x. now left.
Qed.
