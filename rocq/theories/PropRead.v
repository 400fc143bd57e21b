(** C56: what the command-line tool prints for several files can be read back
    (ReadSpec.v says how), unless a name has a newline in it. *)
From Coq Require Import String Ascii.
From Coq Require Import Arith NArith List Bool Lia.
From Coq Require Import Init.Byte Strings.Byte.
From Verif Require Import Base Impl Api.
From Verif Require Import Spec ApiSpec Machine BinSpec.
From Verif Require Import LaneLoops ApiProof Bin BinProof Demo PropBin.
From Verif Require Import OutSpec Out PropOut TextSpec Utf8Proof ArgsSpec Args ArgsProof PropArgs Tool PropTool Targets PropTargets.
From Verif Require Import ReadSpec.
Import ListNotations.
Open Scope list_scope.
Open Scope nat_scope.
Local Notation length := List.length.

Lemma text_lines_cons l r : ~ In x0a l -> text_lines (l ++ nl ++ r) = l :: text_lines r.
Proof.
  induction l as [|b l IH]; intros H; [reflexivity|]. cbn [app text_lines].
  destruct (Byte.eqb b x0a) eqn:E; [apply Byte.byte_dec_bl in E; subst; exfalso; apply H; now left|].
  cbn [app] in IH. rewrite IH by (intros I; apply H; now right). reflexivity.
Qed.
Lemma first_word_app w r : ~ In x20 w -> first_word (w ++ x20 :: r) = (w, x20 :: r).
Proof.
  induction w as [|b w IH]; intros H; [reflexivity|]. cbn [app first_word].
  destruct (Byte.eqb b x20) eqn:E; [apply Byte.byte_dec_bl in E; subst; exfalso; apply H; now left|].
  rewrite IH by (intros I; apply H; now right). reflexivity.
Qed.
Definition hexadecimal (b : byte) : bool := negb (Byte.eqb b x0a || Byte.eqb b x20).
Lemma hex_digit_plain n : (n < 16)%N -> Forall (fun b => hexadecimal b = true) (list_byte_of_string (hex_digit n)).
Proof.
  intros H. assert (n = 0 \/ n = 1 \/ n = 2 \/ n = 3 \/ n = 4 \/ n = 5 \/ n = 6 \/ n = 7 \/ n = 8 \/ n = 9 \/ n = 10 \/ n = 11 \/ n = 12 \/ n = 13 \/ n = 14 \/ n = 15)%N as K by lia.
  repeat (destruct K as [->|K]; [repeat constructor|]). subst. repeat constructor.
Qed.
Lemma hex_plain bs : Forall (fun b => hexadecimal b = true) (list_byte_of_string (hex bs)).
Proof.
  induction bs as [|b r IH]; [constructor|]. rewrite hex_cons, !bytes_app. apply Forall_app. split; [apply Forall_app; split|exact IH].
  - apply hex_digit_plain. apply N.div_lt_upper_bound; [lia|]. pose proof (Byte.to_N_bounded b). lia.
  - apply hex_digit_plain. apply N.mod_lt. lia.
Qed.
Lemma hex_without bs : ~ In x0a (list_byte_of_string (hex bs)) /\ ~ In x20 (list_byte_of_string (hex bs)).
Proof. pose proof (hex_plain bs) as F. rewrite Forall_forall in F. split; intros I; apply F in I; discriminate I. Qed.

Lemma read_line h name r :
  ~ In x0a (list_byte_of_string name) ->
  read_back (list_byte_of_string (hex h ++ "  " ++ name)%string ++ nl ++ r) = (list_byte_of_string (hex h), list_byte_of_string name) :: read_back r.
Proof.
  intros N. destruct (hex_without h) as (A & B). unfold read_back. rewrite text_lines_cons.
  - cbn [map]. f_equal. rewrite !bytes_app. change (list_byte_of_string "  ") with [x20; x20]. cbn [app].
    unfold digest_and_name. rewrite (first_word_app _ _ B). reflexivity.
  - rewrite !bytes_app. change (list_byte_of_string "  ") with [x20; x20]. cbn [app]. intros I. apply in_app_or in I as [I|I]; [exact (A I)|].
    destruct I as [I|[I|I]]; [discriminate|discriminate|exact (N I)].
Qed.

(** The names and the digests of the files that could be read, in order, are what one reads on standard output. *)
Theorem C56_read_back (t : target) (e : env) (about : info -> string) (files : string -> source)
    (gs : list item) (argv : list string) (o : options) (ss : list setting) (ds : list (option (list byte))) (stdin : list event) :
  honest t e -> command_line gs argv -> Forall text argv -> meaning gs = Some o -> verdict_of o = Accept ss ->
  2 <= length (paths gs) -> Forall2 (fun p d => content (o_mmap o) (files p) d) (paths gs) ds ->
  (forall p, In p (paths gs) -> ~ In x0a (list_byte_of_string p)) ->
  read_back (out_text (lines (blake2 t e about files argv stdin))) =
  flat_map (fun '(name, d) =>
    match d with
    | Some data => [(list_byte_of_string (hex (tool_digest o ss data)), list_byte_of_string name)]
    | None => []
    end) (combine (paths gs) ds).
Proof.
  intros H C TX M V L F N.
  rewrite (C49_files t e about files gs argv o ss ds stdin H C TX M V) by (try exact F; intros E; rewrite E in L; cbn in L; lia).
  cbn [lines]. destruct (Nat.ltb_spec 1 (length (paths gs))) as [_|B]; [|lia]. clear L.
  induction F as [|p d ps ds CT F IH]; [reflexivity|]. cbn [combine map flat_map]. specialize (IH (fun q I => N q (or_intror I))).
  unfold out_text in *. cbn [flat_map]. destruct d as [data|].
  - rewrite <- app_assoc, read_line by (apply N; left; reflexivity). rewrite IH. reflexivity.
  - cbn [app]. exact IH.
Qed.
Print Assumptions C56_read_back.

(** After status 0 there is one entry for each file, whatever happened on the way out. *)
Theorem C56_success (why : nat -> list byte) (usage : list byte) (t : target) (e : env) (about : info -> string)
    (files : string -> source) (gs : list item) (argv : list string) (stdin : list event) (outs errs : list answer) :
  honest t e -> command_line gs argv -> 2 <= length (paths gs) -> ~ In Closed outs ->
  (forall p, In p (paths gs) -> ~ In x0a (list_byte_of_string p)) ->
  let real := blake2_out why usage t e about files argv stdin outs errs in
  OutSpec.ended real = Some (Exited 0) ->
  exists o ss, meaning gs = Some o /\ verdict_of o = Accept ss /\
    forall ds, Forall2 (fun p d => content (o_mmap o) (files p) d) (paths gs) ds ->
    exists datas, ds = map Some datas /\
      read_back (on_out real) =
      combine (map (fun data => list_byte_of_string (hex (tool_digest o ss data))) datas) (map list_byte_of_string (paths gs)).
Proof.
  intros H C L CO N real EN.
  destruct (C51_files why usage t e about files gs argv stdin outs errs H C) as (o & ss & M & V & K); [intros E; rewrite E in L; cbn in L; lia|exact CO|exact EN|].
  exists o, ss. split; [exact M|]. split; [exact V|]. intros ds F. destruct (K ds F) as (datas & -> & E). exists datas. split; [reflexivity|].
  unfold real. rewrite E. destruct (Nat.ltb_spec 1 (length (paths gs))) as [_|B]; [|lia]. clear - F N.
  remember (map Some datas) as ds eqn:D. revert datas D. induction F as [|p d ps ds CT F IH]; intros [|data datas] D; try discriminate D; [reflexivity|].
  injection D as -> D. cbn [combine map flat_map]. rewrite <- app_assoc, read_line by (apply N; left; reflexivity).
  rewrite (IH (fun q I => N q (or_intror I)) datas D). reflexivity.
Qed.
Print Assumptions C56_success.

(** Names with newlines spoil it: two files can look like three. *)
Lemma hex_text bs : text (hex bs).
Proof.
  apply text_whole. induction bs as [|b r IH]; intros c I; [destruct I|]. rewrite hex_cons in I.
  assert (A : forall x y, list_ascii_of_string (x ++ y) = list_ascii_of_string x ++ list_ascii_of_string y)
    by (intros x y; induction x as [|d x IHx]; cbn; [reflexivity|now rewrite IHx]).
  rewrite !A in I. apply in_app_or in I as [I|I]; [|exact (IH c I)].
  assert (D : forall n, (n < 16)%N -> In c (list_ascii_of_string (hex_digit n)) -> (N_of_ascii c < 128)%N).
  { intros n Hn J. assert (n = 0 \/ n = 1 \/ n = 2 \/ n = 3 \/ n = 4 \/ n = 5 \/ n = 6 \/ n = 7 \/ n = 8 \/ n = 9 \/ n = 10 \/ n = 11 \/ n = 12 \/ n = 13 \/ n = 14 \/ n = 15)%N as K by lia.
    repeat (destruct K as [->|K]; [destruct J as [<-|[]]; reflexivity|]). subst. destruct J as [<-|[]]; reflexivity. }
  apply in_app_or in I as [I|I]; refine (D _ _ I).
  - apply N.div_lt_upper_bound; [lia|]. pose proof (Byte.to_N_bounded b). lia.
  - apply N.mod_lt. lia.
Qed.
Definition newline : string := String "010" EmptyString.
Theorem C56_newline_refuted (t : target) (e : env) (about : info -> string) (file : source) (data : list byte) (stdin : list event) :
  honest t e -> content false file (Some data) ->
  exists two three : list string,
    length two = 2 /\ command_line (map Input two) two /\ Forall text two /\
    length three = 3 /\ command_line (map Input three) three /\ Forall text three /\
    let run names := blake2 t e about (fun _ => file) names stdin in
    finish_ (run two) = Exited 0 /\ finish_ (run three) = Exited 0 /\
    out_text (lines (run two)) = out_text (lines (run three)).
Proof.
  intros H CT.
  assert (M : exists o, forall ps, meaning (map Input ps) = Some o /\ verdict_of o = Accept [] /\ o_mmap o = false).
  { assert (K : forall ps, meaning (map Input ps) = meaning []).
    { intros ps. assert (KF : forall f, flags f (map Input ps) = []) by (clear; intros f; induction ps; [reflexivity|exact IHps]).
      assert (KT : forall v, texts v (map Input ps) = []) by (clear; intros v; induction ps; [reflexivity|exact IHps]).
      unfold meaning, flag_given, number_given, text_given. rewrite !KF, !KT. reflexivity. }
    eexists. intros ps. rewrite K. split; [reflexivity|]. split; reflexivity. }
  destruct M as (o & M).
  set (h := hex (tool_digest o [] data)).
  assert (TH : text h) by apply hex_text.
  set (two := [("x" ++ newline ++ h ++ "  y")%string; "z"%string]). set (three := ["x"; "y"; "z"]%string).
  assert (C2 : command_line (map Input two) two)
    by (apply c_open; repeat (apply s_input; [left; discriminate|]); constructor).
  assert (C3 : command_line (map Input three) three)
    by (apply c_open; repeat (apply s_input; [left; discriminate|]); constructor).
  assert (T3 : Forall text three) by (apply forallb_utf8; reflexivity).
  assert (T2 : Forall text two).
  { constructor; [|apply forallb_utf8; reflexivity]. do 2 (apply text_ascii; [reflexivity|]). clearbody h.
    destruct TH as (cs & F & ->). exists (cs ++ [32; 32; 121])%N. split.
    - apply Forall_app. split; [exact F|]. repeat constructor.
    - unfold encoded. rewrite flat_map_app, map_app. generalize (map ascii_of_N (flat_map utf8_bytes cs)) as l.
      induction l as [|a l IH]; [reflexivity|]. cbn in *. now rewrite IH. }
  assert (PI : forall ps, paths (map Input ps) = ps) by (intros ps; induction ps; [reflexivity|cbn; f_equal; exact IHps]).
  exists two, three. repeat (split; [first [reflexivity|assumption]|]). cbv zeta.
  destruct (M two) as (M2 & V & MM). destruct (M three) as (M3 & _ & _).
  rewrite (C49_files t e about (fun _ => file) (map Input two) two o [] (repeat (Some data) 2) stdin H C2 T2 M2 V)
    by (rewrite ?PI, ?MM; first [discriminate|repeat (apply Forall2_cons; [exact CT|]); constructor]).
  rewrite (C49_files t e about (fun _ => file) (map Input three) three o [] (repeat (Some data) 3) stdin H C3 T3 M3 V)
    by (rewrite ?PI, ?MM; first [discriminate|repeat (apply Forall2_cons; [exact CT|]); constructor]).
  rewrite !PI. unfold two, three. cbn [lines finish_ List.length Nat.ltb Nat.leb repeat combine map existsb].
  split; [reflexivity|]. split; [reflexivity|]. fold h. clearbody h. unfold out_text. cbn [flat_map].
  rewrite !app_nil_r, !bytes_app. change (list_byte_of_string newline) with nl. unfold nl.
  repeat (rewrite <- ?app_assoc; cbn [app]). reflexivity.
Qed.
Print Assumptions C56_newline_refuted.

(** The demonstration of C49, with one file missing, and a name with blanks. *)
Example C56_example :
  let gs := [Flag BigFlag; Valued LengthOption "20"; Valued KeyOption "00ffA9b0"; Valued SaltOption "01"; Valued FanoutOption "+2";
             Valued MaxLeafLengthOption "0077"; Valued NodeOffsetOption "5"; Valued InnerHashLengthOption "32"; Flag LastNodeFlag;
             Input "a  b"; Input "gone"; Input "c"] in
  let argv := ["-b"; "--length=20"; "--key=00ffA9b0"; "--salt=01"; "--fanout=+2"; "--max-leaf-length=0077";
               "--node-offset=5"; "--inner-hash-length=32"; "--last-node"; "a  b"; "gone"; "c"]%string in
  command_line gs argv /\ Forall text argv /\ meaning gs = Some (demo_options false) /\ 2 <= length (paths gs) /\
  (forall p, In p (paths gs) -> ~ In x0a (list_byte_of_string p)) /\
  let h := list_byte_of_string (hex (tool_digest (demo_options false) demo_requests demo_data)) in
  read_back (out_text (lines (blake2 demo_target (demo_env true) (fun _ => ""%string)
    (fun p => if String.eqb p "gone" then missing else demo_source) argv []))) =
  [(h, list_byte_of_string "a  b"); (h, list_byte_of_string "c")].
Proof.
  intros gs argv. destruct C33_example as (H & T & V & CT & _ & B & MS & _).
  assert (C : command_line gs argv).
  { apply c_open. unfold gs, argv. apply (s_short BigFlag [] "b"); [apply letters_cons; [reflexivity|constructor]|].
    do 7 (apply s_equals; [discriminate|]). apply (s_long LastNodeFlag); [reflexivity|].
    repeat (apply s_input; [left; discriminate|]). constructor. }
  assert (TX : Forall text argv) by (apply forallb_utf8; reflexivity).
  assert (M : meaning gs = Some (demo_options false)) by reflexivity.
  assert (L : 2 <= length (paths gs)) by (cbn; lia).
  assert (N : forall p, In p (paths gs) -> ~ In x0a (list_byte_of_string p)).
  { cbn. intros p [<-|[<-|[<-|[]]]] I; cbn in I; intuition discriminate. }
  do 5 (split; [assumption|]). cbv zeta.
  rewrite (C56_read_back demo_target (demo_env true) (fun _ => ""%string) (fun p => if String.eqb p "gone" then missing else demo_source)
    gs argv (demo_options false) demo_requests [Some demo_data; None; Some demo_data] [] H C TX M V L); [reflexivity| |exact N].
  repeat (apply Forall2_cons; [cbn; assumption|]). constructor.
Qed.
