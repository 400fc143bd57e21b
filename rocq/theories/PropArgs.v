(** Properties of the tool's command line (ArgsSpec.v says how options and inputs
    are written and what they mean).

    [from_args argv] is what the tool makes of the words after its name;
    [blake2 t e about files argv stdin] is its whole run, where [files] is what each
    path leads to.  Words are byte strings; [text w] says that the word is UTF-8
    (TextSpec.v). *)
From Coq Require Import String Ascii.
From Coq Require Import Arith NArith List Bool Lia Permutation.
From Coq Require Import Init.Byte.
From Verif Require Import Base Impl Api.
From Verif Require Import Spec ApiSpec Machine BinSpec TextSpec ArgsSpec.
From Verif Require Import LaneLoops ApiProof Bin BinProof Demo PropBin.
From Verif Require Import Args Utf8Proof ArgsProof.
Import ListNotations.
Open Scope list_scope.
Open Scope N_scope.
Local Notation length := List.length.

(** ** C49: the command line *)
(** However the items are written, the tool gets their meaning; if they have none
    (something is given twice, or a number is malformed or too large) it refuses. *)
Theorem C49_understood (gs : list item) (argv : list string) :
  command_line gs argv -> Forall text argv ->
  from_args argv =
  match meaning gs with Some o => Parsed o (paths gs) | None => Stopped UsageError end.
Proof. exact (from_args_spec gs argv). Qed.
Print Assumptions C49_understood.
(** Neither the style nor the order of the options matters, only the order of the inputs. *)
Theorem C49_order (gs hs : list item) (argv argv' : list string) :
  command_line gs argv -> command_line hs argv' -> Forall text argv -> Forall text argv' ->
  Permutation gs hs -> paths gs = paths hs ->
  from_args argv = from_args argv'.
Proof.
  intros A B TA TB P E. rewrite (from_args_spec gs argv A TA), (from_args_spec hs argv' B TB), (meaning_permute gs hs P), E. reflexivity.
Qed.
Print Assumptions C49_order.
(** What has no meaning, an unknown option, and a last option without its value are
    refused: nothing is hashed, and the status is not 0. *)
Theorem C49_refused (t : target) (e : env) (about : info -> string) (files : string -> source)
    (gs : list item) (argv : list string) (stdin : list event) :
  command_line gs argv -> meaning gs = None ->
  blake2 t e about files argv stdin = {| lines := [Misuse]; finish_ := Exited 1 |}.
Proof.
  intros C M. unfold blake2. destruct (Forall_dec text text_dec argv) as [T|T].
  - rewrite (from_args_spec gs argv C T), M. reflexivity.
  - rewrite (from_args_not_text gs argv C T), M. reflexivity.
Qed.
Print Assumptions C49_refused.
Theorem C49_unknown (t : target) (e : env) (about : info -> string) (files : string -> source)
    (gs : list item) (ws : list string) (w : string) (rest : list string) (stdin : list event) :
  spelled gs ws -> unknown w ->
  let run := blake2 t e about files (ws ++ w :: rest) stdin in
  (run = {| lines := [Misuse]; finish_ := Exited 1 |} \/ run = {| lines := []; finish_ := Aborted |}) /\
  (Forall text (ws ++ w :: rest) -> run = {| lines := [Misuse]; finish_ := Exited 1 |}).
Proof.
  intros S U. cbv zeta. unfold blake2. pose proof (from_args_always (ws ++ w :: rest)) as A.
  destruct (unknown_refused gs ws w rest S U) as [E|E]; rewrite E in *.
  - split; [left|intros _]; reflexivity.
  - split; [right; reflexivity|]. intros T. contradiction.
Qed.
Print Assumptions C49_unknown.
Theorem C49_no_value (t : target) (e : env) (about : info -> string) (files : string -> source)
    (gs : list item) (ws : list string) (v : valued) (stdin : list event) :
  spelled gs ws ->
  blake2 t e about files (ws ++ [long_option v]) stdin = {| lines := [Misuse]; finish_ := Exited 1 |}.
Proof. intros S. unfold blake2. rewrite (missing_refused gs ws v S). reflexivity. Qed.
Print Assumptions C49_no_value.
(** A request for help or for the version is answered, whatever follows. *)
Theorem C49_help (t : target) (e : env) (about : info -> string) (files : string -> source)
    (gs : list item) (ws : list string) (w : string) (i : info) (rest : list string) (stdin : list event) :
  spelled gs ws -> In (w, i) [("--help", Help); ("-h", Help); ("--version", Version); ("-V", Version)]%string ->
  blake2 t e about files (ws ++ w :: rest) stdin = {| lines := [Out (about i)]; finish_ := Exited 0 |}.
Proof. intros S I. unfold blake2. rewrite (help_shown gs ws w i rest S I). reflexivity. Qed.
Print Assumptions C49_help.
(** Words that are not UTF-8, even if they are the names of files, make the tool panic before it has hashed
    anything (unless it refuses the command line anyway). *)
Theorem C49_not_text (t : target) (e : env) (about : info -> string) (files : string -> source)
    (gs : list item) (argv : list string) (stdin : list event) :
  command_line gs argv -> ~ Forall text argv ->
  blake2 t e about files argv stdin =
  match meaning gs with
  | Some _ => {| lines := []; finish_ := Aborted |}
  | None => {| lines := [Misuse]; finish_ := Exited 1 |}
  end.
Proof. intros C T. unfold blake2. rewrite (from_args_not_text gs argv C T). destruct (meaning gs); reflexivity. Qed.
Print Assumptions C49_not_text.
(** On any list of words, the parser only panics if one of them is not UTF-8.  The values it yields fit their
    types, and the paths are text, so that they can be printed as they are. *)
Theorem C49_always (argv : list string) :
  match from_args argv with
  | Parsed o ps => typed_options o /\ Forall text ps
  | Stopped InvalidUtf8 => ~ Forall text argv
  | Stopped _ => True
  | UnwrapPanic => False
  end.
Proof. exact (from_args_always argv). Qed.
Print Assumptions C49_always.

Lemma meaning_typed gs argv o : command_line gs argv -> Forall text argv -> meaning gs = Some o -> typed_options o.
Proof. intros C U M. pose proof (from_args_always argv) as T. rewrite (from_args_spec gs argv C U), M in T. apply T. Qed.
(** From the words to the lines: the files named on the command line are hashed
    under the settings written there, in order. *)
Theorem C49_files (t : target) (e : env) (about : info -> string) (files : string -> source)
    (gs : list item) (argv : list string) (o : options) (ss : list setting) (ds : list (option (list byte))) (stdin : list event) :
  honest t e -> command_line gs argv -> Forall text argv -> meaning gs = Some o -> verdict_of o = Accept ss ->
  paths gs <> [] -> Forall2 (fun p d => content (o_mmap o) (files p) d) (paths gs) ds ->
  blake2 t e about files argv stdin =
  {| lines := map (fun '(name, d) =>
       match d with
       | Some data =>
           Out (if Nat.ltb 1 (length (paths gs)) then hex (tool_digest o ss data) ++ "  " ++ name else hex (tool_digest o ss data))
       | None => Complaint name (file_problem (o_mmap o) (files name))
       end) (combine (paths gs) ds);
     finish_ := Exited (if existsb (fun d => match d with None => true | Some _ => false end) ds then 1 else 0) |}.
Proof.
  intros H C U M V NE F. unfold blake2. rewrite (from_args_spec gs argv C U), M.
  rewrite (C35_lines t e o ss (map (fun p => (p, files p)) (paths gs)) ds stdin H (meaning_typed gs argv o C U M) V).
  - rewrite map_length. f_equal. generalize (Nat.ltb 1 (length (paths gs))) as several. clear. intros several. revert ds.
    induction (paths gs) as [|p ps IH]; intros [|d ds]; try reflexivity. cbn [map combine]. f_equal. apply IH.
  - destruct (paths gs); [congruence|discriminate].
  - clear - F. induction F; cbn [map]; constructor; assumption.
Qed.
Print Assumptions C49_files.
(** Without an input, standard input is hashed. *)
Theorem C49_stdin (t : target) (e : env) (about : info -> string) (files : string -> source)
    (gs : list item) (argv : list string) (o : options) (ss : list setting) (evs : list event) (data : list byte) :
  honest t e -> command_line gs argv -> Forall text argv -> meaning gs = Some o -> verdict_of o = Accept ss ->
  paths gs = [] -> o_mmap o = false -> bounded_reads evs -> delivers evs (Some data) ->
  blake2 t e about files argv evs = {| lines := [Out (hex (tool_digest o ss data))]; finish_ := Exited 0 |}.
Proof.
  intros H C U M V NE MM B D. unfold blake2. rewrite (from_args_spec gs argv C U), M, NE. cbn [map].
  exact (C33_stdin t e o ss evs (Some data) H (meaning_typed gs argv o C U M) V MM B D).
Qed.
Print Assumptions C49_stdin.

(** A demonstration: every style, with an input that looks like an option after "--". *)
Definition demo_argv : list string :=
  ["-b"; "--length=20"; "first"; "--key"; "00ffA9b0"; "--salt=01"; "--fanout"; "+2"; "--max-leaf-length=0077";
   "--node-offset"; "5"; "-"; "--inner-hash-length=32"; "--last-node"; "--"; "--mmap"; "--"]%string.
Definition demo_items : list item :=
  [Flag BigFlag; Valued LengthOption "20"; Input "first"; Valued KeyOption "00ffA9b0"; Valued SaltOption "01";
   Valued FanoutOption "+2"; Valued MaxLeafLengthOption "0077"; Valued NodeOffsetOption "5"; Input "-";
   Valued InnerHashLengthOption "32"; Flag LastNodeFlag; Input "--mmap"; Input "--"].
Lemma demo_spelled : command_line demo_items demo_argv.
Proof.
  refine (c_dashes [Flag BigFlag; Valued LengthOption "20"; Input "first"; Valued KeyOption "00ffA9b0"; Valued SaltOption "01";
   Valued FanoutOption "+2"; Valued MaxLeafLengthOption "0077"; Valued NodeOffsetOption "5"; Input "-";
   Valued InnerHashLengthOption "32"; Flag LastNodeFlag]
   ["-b"; "--length=20"; "first"; "--key"; "00ffA9b0"; "--salt=01"; "--fanout"; "+2"; "--max-leaf-length=0077";
    "--node-offset"; "5"; "-"; "--inner-hash-length=32"; "--last-node"]%string ["--mmap"; "--"]%string _).
  apply (s_short BigFlag [] "b"); [apply letters_cons; [reflexivity|constructor]|].
  apply (s_equals LengthOption "20"); [discriminate|].
  apply s_input; [left; discriminate|].
  apply (s_next KeyOption); [left; discriminate|].
  apply (s_equals SaltOption "01"); [discriminate|].
  apply (s_next FanoutOption); [left; discriminate|].
  apply (s_equals MaxLeafLengthOption "0077"); [discriminate|].
  apply (s_next NodeOffsetOption); [left; discriminate|].
  apply s_input; [right; reflexivity|].
  apply (s_equals InnerHashLengthOption "32"); [discriminate|].
  apply (s_long LastNodeFlag); [reflexivity|]. constructor.
Qed.
Lemma demo_text : Forall text demo_argv.
Proof. apply forallb_utf8. reflexivity. Qed.
Lemma demo_meaning : meaning demo_items = Some (demo_options false).
Proof. reflexivity. Qed.
Example C49_example :
  command_line demo_items demo_argv /\ Forall text demo_argv /\ meaning demo_items = Some (demo_options false) /\
  verdict_of (demo_options false) = Accept demo_requests /\ paths demo_items = ["first"; "-"; "--mmap"; "--"]%string /\
  meaning [Flag BigFlag; Flag BigFlag] = None /\ meaning [Valued FanoutOption "256"] = None /\
  meaning [Valued NodeDepthOption "-1"] = None /\ meaning [Valued LengthOption ""] = None /\
  meaning [Valued KeyOption ""; Flag SmallFlag] <> None /\
  unknown "--lenght=20" /\ unknown "-bx" /\
  blake2 demo_target (demo_env true) (fun _ => ""%string) (fun p => if String.eqb p "-" then missing else demo_source) demo_argv [] =
  let h := hex (tool_digest (demo_options false) demo_requests demo_data) in
  {| lines := [Out (h ++ "  first"); Complaint "-" System; Out (h ++ "  --mmap"); Out (h ++ "  --")]; finish_ := Exited 1 |}.
Proof.
  destruct C33_example as (H & T & V & C & _ & B & M & _).
  split; [exact demo_spelled|]. split; [exact demo_text|]. split; [exact demo_meaning|]. split; [exact V|].
  do 5 (split; [reflexivity|]). split; [discriminate|].
  split.
  { apply (unknown_name "l" "enght=20"); [discriminate|]. cbn. intros K.
    repeat (destruct K as [K|K]; [discriminate K|]). exact K. }
  split.
  { apply (unknown_letter [BigFlag] "b" "x" ""); [apply letters_cons; [reflexivity|constructor]|]. cbn. intros K.
    repeat (destruct K as [K|K]; [discriminate K|]). exact K. }
  rewrite (C49_files demo_target (demo_env true) (fun _ => ""%string) (fun p => if String.eqb p "-" then missing else demo_source)
    demo_items demo_argv (demo_options false) demo_requests [Some demo_data; None; Some demo_data; Some demo_data] []
    H demo_spelled demo_text demo_meaning V); [reflexivity|discriminate|].
  repeat (apply Forall2_cons; [cbn; assumption|]). constructor.
Qed.
(** A name in UTF-8, and one in Latin-1: the tool panics although the second could be opened. *)
Definition latin1 : string := String "003" (String "233" "t")%char.
Example C49_not_text_example :
  text "ét.txt" /\ ~ text latin1 /\ command_line [Flag SmallFlag; Input latin1] ["-s"; "--"; latin1]%string /\
  blake2 demo_target (demo_env true) (fun _ => ""%string) (fun _ => demo_source) ["-s"; "--"; latin1]%string [] =
  {| lines := []; finish_ := Aborted |}.
Proof.
  assert (N : ~ text latin1) by (rewrite <- utf8_spec; discriminate).
  assert (C : command_line [Flag SmallFlag; Input latin1] ["-s"; "--"; latin1]%string).
  { refine (c_dashes [Flag SmallFlag] ["-s"%string] [latin1] _).
    apply (s_short SmallFlag [] "s"); [apply letters_cons; [reflexivity|constructor]|constructor]. }
  split; [apply utf8_spec; reflexivity|]. split; [exact N|]. split; [exact C|].
  rewrite (C49_not_text _ _ _ _ _ _ _ C); [reflexivity|]. rewrite !Forall_cons_iff. tauto.
Qed.
