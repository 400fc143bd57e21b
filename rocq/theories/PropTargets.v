(** C50, continued: the fuzz targets return whatever data the fuzzer finds, and the tests that run the
    command-line tool accept the right text and no other, whatever they are run on (Targets.v). *)
From Coq Require Import String Ascii.
From Coq Require Import Arith NArith List Bool Lia.
From Coq Require Import Init.Byte Strings.Byte.
From Verif Require Import Base Guts KernelSpec Impl Loops LaneLoops Lib Par.
From Verif Require Import Spec ApiSpec Machine BinSpec.
From Verif Require Import Api ApiProof Runs Laws Bin BinProof Xof XofProof Demo PropHash PropPar PropBin.
From Verif Require Import OutSpec Out PropOut TextSpec Utf8Proof ArgsSpec Args PropArgs Tool PropTool Targets.
Import ListNotations.
Open Scope list_scope.
Open Scope nat_scope.
Local Notation length := List.length.

(** No data makes a fuzz target fail; [w] ranges over all that the fuzzer can build, in range or not. *)
Theorem C50_fuzz_targets (v : variant) (e : env) (imp : platform) (data : list byte) (w : wrapper) :
  supported e imp ->
  fuzz_blake2 v e imp data = Ret tt /\ fuzz_blake2p v e imp data = Ret tt /\ fuzz_updates v e imp w = Ret tt.
Proof.
  intros Su. split; [|split].
  - destruct (C01_one_shot_is_blake2 v e imp data Su) as (h & E & _). unfold fuzz_blake2. rewrite E. reflexivity.
  - destruct (C14_one_shot v e imp data Su) as (h & E & _). unfold fuzz_blake2p. rewrite E. reflexivity.
  - unfold fuzz_updates. destruct (Nat.ltb_spec (personalbytes v) (length (wr_personal w))) as [P|P]; [reflexivity|].
    destruct (Nat.ltb_spec (keybytes v) (length (wr_key w))) as [K|K]; [reflexivity|].
    destruct (Nat.ltb_spec (wr_hash_length w) 1) as [L|L]; [reflexivity|].
    destruct (Nat.ltb_spec (outbytes v) (wr_hash_length w)) as [L'|L']; [reflexivity|]. cbn [orb].
    set (ss := [HashLength (wr_hash_length w); Key (wr_key w); Personal (wr_personal w)]).
    assert (LG : Forall (fun s => legal (fl v) s = true) ss).
    { unfold ss. repeat apply Forall_cons; [| | |constructor]; cbn [legal].
      - apply andb_true_intro. split; apply Nat.leb_le; destruct v; cbn in *; lia.
      - apply Nat.leb_le; destruct v; cbn in *; lia.
      - apply Nat.leb_le; destruct v; cbn in *; lia. }
    rewrite chain_legal by exact LG. cbn [Base.bind].
    change (fold_left (fun p s => fst (call_setter v s p)) ss (params_new v imp)) with (build v imp ss).
    assert (T : Forall typed ss) by (unfold ss; repeat constructor).
    destruct (C03_incremental_is_one_shot v e imp ss (wr_updates w) Su T) as (s & E & F). rewrite E. cbn [Base.bind]. rewrite F.
    destruct (C02_parameters_have_their_meaning v e imp ss (concat (wr_updates w)) Su T) as (h & H & _). rewrite H. reflexivity.
Qed.
Print Assumptions C50_fuzz_targets.

Lemma kept l : Forall (fun b => line_end b = false) l -> drop_line_ends l = l.
Proof. destruct 1 as [|b r H]; cbn; [reflexivity|]. rewrite H. reflexivity. Qed.
Lemma hex_digit_kept n : (n < 16)%N -> Forall (fun b => line_end b = false) (list_byte_of_string (hex_digit n)).
Proof.
  intros H. assert (n = 0 \/ n = 1 \/ n = 2 \/ n = 3 \/ n = 4 \/ n = 5 \/ n = 6 \/ n = 7 \/ n = 8 \/ n = 9 \/ n = 10 \/ n = 11 \/ n = 12 \/ n = 13 \/ n = 14 \/ n = 15)%N as K by lia.
  repeat (destruct K as [->|K]; [repeat constructor|]). subst. repeat constructor.
Qed.
Lemma bytes_app s t : list_byte_of_string (s ++ t) = list_byte_of_string s ++ list_byte_of_string t.
Proof. induction s as [|c s IH]; cbn; [reflexivity|]. unfold list_byte_of_string in *. cbn. now rewrite IH. Qed.
Lemma hex_cons b r : hex (b :: r) = ((hex_digit (Byte.to_N b / 16) ++ hex_digit (Byte.to_N b mod 16)) ++ hex r)%string.
Proof.
  unfold hex. cbn [map String.concat]. destruct r as [|c r]; [|reflexivity]. cbn [map String.concat].
  generalize (hex_digit (to_N b / 16) ++ hex_digit (to_N b mod 16))%string as s. induction s as [|x s IH]; cbn; [reflexivity|]. now rewrite <- IH.
Qed.
Lemma hex_kept bs : Forall (fun b => line_end b = false) (list_byte_of_string (hex bs)).
Proof.
  induction bs as [|b r IH]; [constructor|]. rewrite hex_cons, !bytes_app. apply Forall_app. split; [apply Forall_app; split|exact IH].
  - apply hex_digit_kept. apply N.div_lt_upper_bound; [lia|]. pose proof (Byte.to_N_bounded b). lia.
  - apply hex_digit_kept. apply N.mod_lt. lia.
Qed.
Lemma printed_line bs : rev (drop_line_ends (rev (list_byte_of_string (hex bs) ++ nl))) = list_byte_of_string (hex bs).
Proof.
  rewrite rev_app_distr. cbn [rev app nl drop_line_ends]. change (line_end x0a) with true. cbn iota.
  rewrite kept, rev_involutive; [reflexivity|]. apply Forall_rev, hex_kept.
Qed.
Lemma bytes_length s : length (list_byte_of_string s) = String.length s.
Proof. induction s; cbn; [reflexivity|]. unfold list_byte_of_string in *. cbn. now rewrite IHs. Qed.

(** A test of the tool with one input, given by standard input or by a file: any command line, any content, any
    schedule of reads, mapped or not, any pieces in which the pipe takes the output. *)
Theorem C50_tool_tests (why : nat -> list byte) (usage : list byte) (t : target) (e : env) (about : info -> string)
    (files : string -> source) (gs : list item) (argv : list string) (o : options) (ss : list setting)
    (evs : list event) (data : list byte) (outs errs : list answer) (expected : string) :
  honest t e -> command_line gs argv -> Forall text argv -> meaning gs = Some o -> verdict_of o = Accept ss ->
  (paths gs = [] /\ o_mmap o = false /\ bounded_reads evs /\ delivers evs (Some data)) \/
  (exists p, paths gs = [p] /\ content (o_mmap o) (files p) (Some data)) ->
  Forall (fun a => useful a = true \/ a = Again) outs -> Forall (fun a => useful a = true \/ a = Again) errs ->
  let right := hex (tool_digest o ss data) in
  S (String.length right) <= length (filter useful outs) ->
  tool_case (blake2_out why usage t e about files argv evs outs errs) expected =
  if String.eqb right expected then Ret tt else Panic.
Proof.
  intros H C TX M V I UO UE right LO.
  assert (B : blake2 t e about files argv evs = {| lines := [BinSpec.Out right]; finish_ := Exited 0 |}).
  { destruct I as [(NP & MM & BR & DV)|(p & P & CT)].
    - exact (C49_stdin t e about files gs argv o ss evs data H C TX M V NP MM BR DV).
    - rewrite (C49_files t e about files gs argv o ss [Some data] evs H C TX M V); rewrite P; [reflexivity|discriminate|].
      constructor; [exact CT|constructor]. }
  unfold tool_case, read_tool.
  pose proof (C51_progress why usage t e about files gs argv o evs outs errs C M) as P. cbv zeta in P. rewrite B in P.
  cbn [lines finish_ out_text flat_map err_text] in P. rewrite P; clear P; [|exact UO| |exact UE|apply Nat.le_0_l].
  - cbn [OutSpec.ended on_out]. rewrite app_nil_r. unfold right at 1. rewrite printed_line. cbn [Base.bind]. fold right.
    destruct (String.eqb_spec right expected) as [->|N]; destruct (list_eq_dec _ _ _) as [Q|Q]; try reflexivity.
    + congruence.
    + exfalso. apply N. rewrite <- (string_of_list_byte_of_string right), <- (string_of_list_byte_of_string expected). now rewrite Q.
  - rewrite app_nil_r, app_length, bytes_length. cbn [nl List.length]. lia.
Qed.
Print Assumptions C50_tool_tests.

(** The command lines of the tests are in the documented style, and are accepted. *)
Definition test_items (path : string) : list (list item) :=
  let all f salt personal offset :=
    [Flag f; Valued LengthOption "18"; Valued KeyOption "626172"; Valued SaltOption salt; Valued PersonalOption personal;
     Valued FanoutOption "2"; Valued MaxDepthOption "3"; Valued MaxLeafLengthOption "67438087"; Valued NodeOffsetOption offset;
     Valued NodeDepthOption "16"; Valued InnerHashLengthOption "17"; Flag LastNodeFlag] in
  [[Valued LengthOption "16"];
   [Valued LengthOption "16"; Input path];
   [Valued LengthOption "16"; Flag MmapFlag; Input path];
   [Flag BigFlag; Flag ParallelFlag; Input path];
   [Valued LengthOption "16"; Flag LastNodeFlag];
   all BigFlag "62617a62617a62617a62617a62617a62" "62696e672062696e672062696e672062" "579005069656919567";
   all SmallFlag "62617a62617a6261" "62696e672062696e" "8834916224013";
   [Flag BigFlag; Flag ParallelFlag; Valued LengthOption "18"; Valued KeyOption "626172"];
   [Flag SmallFlag; Flag ParallelFlag; Valued LengthOption "18"; Valued KeyOption "626172"]]%string.
Ltac spell :=
  repeat first
    [ apply s_nil
    | apply s_input; [assumption|]
    | apply (s_long MmapFlag); [reflexivity|]
    | apply (s_long LastNodeFlag); [reflexivity|]
    | apply (s_short BigFlag [ParallelFlag] "bp"); [repeat (apply letters_cons; [reflexivity|]); constructor|]
    | apply (s_short SmallFlag [ParallelFlag] "sp"); [repeat (apply letters_cons; [reflexivity|]); constructor|]
    | apply (s_short BigFlag [] "b"); [repeat (apply letters_cons; [reflexivity|]); constructor|]
    | apply (s_short SmallFlag [] "s"); [repeat (apply letters_cons; [reflexivity|]); constructor|]
    | apply s_equals; [discriminate|] ].
Lemma test_lines_spelled path : plain path -> Forall2 command_line (test_items path) (test_lines path).
Proof. intros P. unfold test_items, test_lines. repeat (apply Forall2_cons; [apply c_open; spell|]). apply Forall2_nil. Qed.
Theorem C50_tool_lines (path : string) : plain path -> text path ->
  Forall2 command_line (test_items path) (test_lines path) /\ Forall (Forall text) (test_lines path) /\
  Forall (fun gs => exists o ss, meaning gs = Some o /\ verdict_of o = Accept ss) (test_items path).
Proof.
  intros P TX. split; [exact (test_lines_spelled path P)|].
  split; [unfold test_lines; repeat constructor; first [assumption|apply utf8_spec; reflexivity]|]. unfold test_items.
  repeat (apply Forall_cons; [do 2 eexists; split; [reflexivity|lazy; reflexivity]|]). apply Forall_nil.
Qed.
Print Assumptions C50_tool_lines.

(** The largest values that the fuzzer lets through, and a test on a file with the right and with a wrong text. *)
Example C50_targets_example :
  fuzz_updates V2b (demo_env true) AVX2 {| wr_hash_length := 64; wr_key := demo_msg 64; wr_personal := demo_msg 16; wr_updates := [demo_msg 300; []] |} = Ret tt /\
  plain "/tmp/.tmpA1b2C3" /\ text "/tmp/.tmpA1b2C3" /\
  let right := hex (tool_digest (demo_options false) demo_requests demo_data) in
  forall argv, argv = ["-b"; "--length=20"; "--key"; "00ffA9b0"; "--salt=01"; "--fanout"; "+2"; "--max-leaf-length=0077";
                       "--node-offset"; "5"; "--inner-hash-length=32"; "--last-node"; "one"]%string ->
  let run := tool_case (blake2_out (fun _ => []) [] demo_target (demo_env true) (fun _ => ""%string) (fun _ => demo_source) argv []
                          (repeat (Took 1) (S (String.length right))) []) in
  run right = Ret tt /\ run ("0" ++ right)%string = Panic.
Proof.
  split; [apply (C50_fuzz_targets _ _ _ []), demo_supported|]. split; [left; discriminate|].
  split; [apply utf8_spec; reflexivity|]. intros right argv -> run.
  destruct C33_example as (H & T & V & CT & _).
  set (gs := [Flag BigFlag; Valued LengthOption "20"; Valued KeyOption "00ffA9b0"; Valued SaltOption "01"; Valued FanoutOption "+2";
              Valued MaxLeafLengthOption "0077"; Valued NodeOffsetOption "5"; Valued InnerHashLengthOption "32"; Flag LastNodeFlag; Input "one"]).
  assert (C : command_line gs ["-b"; "--length=20"; "--key"; "00ffA9b0"; "--salt=01"; "--fanout"; "+2"; "--max-leaf-length=0077";
                       "--node-offset"; "5"; "--inner-hash-length=32"; "--last-node"; "one"]%string).
  { apply c_open. unfold gs.
    apply (s_short BigFlag [] "b"); [apply letters_cons; [reflexivity|constructor]|].
    apply (s_equals LengthOption "20"); [discriminate|].
    apply (s_next KeyOption); [left; discriminate|].
    apply (s_equals SaltOption "01"); [discriminate|].
    apply (s_next FanoutOption); [left; discriminate|].
    apply (s_equals MaxLeafLengthOption "0077"); [discriminate|].
    apply (s_next NodeOffsetOption); [left; discriminate|].
    apply (s_equals InnerHashLengthOption "32"); [discriminate|].
    apply (s_long LastNodeFlag); [reflexivity|]. apply s_input; [left; discriminate|]. constructor. }
  match type of C with command_line _ ?l => assert (TX : Forall text l) by (apply ArgsProof.forallb_utf8; reflexivity) end.
  assert (M : meaning gs = Some (demo_options false)) by reflexivity. assert (P : paths gs = ["one"%string]) by reflexivity.
  destruct (useful_ones (S (String.length right))) as (U & L).
  assert (G : forall x, run x = if String.eqb right x then Ret tt else Panic).
  { intros x. unfold run. clearbody gs.
    pose proof (C50_tool_tests (fun _ => []) [] demo_target (demo_env true) (fun _ => ""%string) (fun _ => demo_source) gs _
      (demo_options false) demo_requests [] demo_data (repeat (Took 1) (S (String.length right))) [] x H C TX M V) as Q.
    cbv zeta in Q. fold right in Q. rewrite L in Q. apply Q.
    - right. exists "one"%string. split; [exact P|exact CT].
    - exact U.
    - constructor.
    - apply Nat.le_refl. }
  rewrite !G, String.eqb_refl. split; [reflexivity|]. clear G U L. clearbody run. clear run. clearbody right.
  destruct (String.eqb_spec right ("0" ++ right)) as [E|_]; [|reflexivity].
  apply (f_equal String.length) in E. cbn in E. lia.
Qed.
