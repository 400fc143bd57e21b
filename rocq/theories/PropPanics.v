(** C59: the message of a panic names the value that is out of range, and nothing of what a key, a salt or a
    personalization is made of.

    [bad_value] and [faults] (PanicSpec.v) say what the message should be; [setter_says], [psetter_says], [to_hash_says]
    and [make_params_says] (Panics.v) are the messages in the code. *)
From Coq Require Import String Ascii.
From Coq Require Import Arith NArith List Bool Lia.
From Coq Require Import Init.Byte Strings.Byte.
From Verif Require Import Base Guts Impl Lib Par Many Api.
From Verif Require Import Spec ApiSpec Machine BinSpec PanicSpec.
From Verif Require Import KernelSpec ParamsProof ApiProof LaneLoops Laws Bin BinProof Panics Demo PropBin.
Import ListNotations.
Open Scope list_scope.
Open Scope nat_scope.
Local Notation length := List.length.

Lemma setter_says_spec v s : setter_says v s = if legal (fl v) s then None else Some (bad_value s).
Proof.
  destruct s; cbn [setter_says legal bad_value]; try reflexivity.
  - unfold hash_length_says, assert_says. now rewrite max_out_fl.
  - unfold key_says, assert_says. now rewrite max_out_fl.
  - unfold salt_says, assert_says. now rewrite salt_len_fl.
  - unfold personal_says, assert_says. now rewrite salt_len_fl.
  - unfold node_offset_says, assert_says. destruct v; cbn [fl]; [reflexivity|]. change (N.shiftl 1 48) with (2 ^ 48)%N. reflexivity.
  - unfold inner_hash_length_says, assert_says. now rewrite max_out_fl.
Qed.
Lemma psetter_says_spec v s : psetter_says v s = if plegal (fl v) s then None else Some (bad_pvalue s).
Proof.
  destruct s; cbn [psetter_says plegal bad_pvalue bad_value];
    [unfold p_hash_length_says, assert_says|unfold p_key_says, assert_says]; now rewrite max_out_fl.
Qed.

(** A setter panics exactly if the value is out of range; then the message is that of the specification, and the builder
    is as before. *)
Theorem C59_setter (v : variant) (s : setting) (p : Lib.params) :
  (setter_says v s = None <-> legal (fl v) s = true) /\
  (setter_says v s = None -> snd (call_setter v s p) = Ret tt) /\
  (forall text, setter_says v s = Some text -> call_setter v s p = (p, Panic) /\ text = bad_value s).
Proof.
  rewrite setter_says_spec. destruct (legal (fl v) s) eqn:L.
  - split; [tauto|]. split; [|discriminate]. intros _. apply setter_accepts, L.
  - split; [split; discriminate|]. split; [discriminate|]. intros text E. injection E as <-.
    split; [apply setter_refuses, L|reflexivity].
Qed.
Print Assumptions C59_setter.
Theorem C59_psetter (v : variant) (s : psetting) (p : pparams) :
  (psetter_says v s = None <-> plegal (fl v) s = true) /\
  (psetter_says v s = None -> snd (call_psetter v s p) = Ret tt) /\
  (forall text, psetter_says v s = Some text -> call_psetter v s p = (p, Panic) /\ text = bad_pvalue s).
Proof.
  rewrite psetter_says_spec. destruct (plegal (fl v) s) eqn:L.
  - split; [tauto|]. split; [|discriminate]. intros _. apply psetter_accepts, L.
  - split; [split; discriminate|]. split; [discriminate|]. intros text E. injection E as <-.
    split; [apply psetter_refuses, L|reflexivity].
Qed.
Print Assumptions C59_psetter.

(** ** The tool *)
Definition first_of (l : list fault) : course :=
  match l with [] => On | Wrong text :: _ => Bailed (Said text) | Outside text :: _ => PanickedWith text end.
Lemma first_app a b : first_of (a ++ b) = next (first_of a) (first_of b).
Proof. destruct a as [|[t|t] a]; reflexivity. Qed.
Lemma next_on c : next c On = c.
Proof. destruct c; reflexivity. Qed.
Lemma fl_kind o : fl (kind o) = chosen o.
Proof. unfold kind, chosen. destruct (o_small o); reflexivity. Qed.
Lemma calls_range o s : calls (setter_says (kind o) s) = first_of (range (chosen o) s).
Proof. rewrite setter_says_spec, fl_kind. unfold range. destruct (legal (chosen o) s); reflexivity. Qed.
Lemma number_both {A} o (x : option A) (k : A -> setting) text says :
  (forall a, says a = setter_says (kind o) (k a)) ->
  when_given x (fun a => serial_only o (says a) text) =
  first_of ((if o_parallel o && given x then [Wrong text] else []) ++ number_range (chosen o) x k).
Proof.
  intros H. destruct x as [a|]; cbn [when_given given number_range]; [|now rewrite andb_false_r].
  unfold serial_only. rewrite andb_true_r. destruct (o_parallel o); [reflexivity|]. now rewrite H, calls_range.
Qed.
Lemma number_none {A} o (x : option A) text :
  when_given x (fun a => serial_only o None text) =
  first_of (if o_parallel o && given x then [Wrong text] else []).
Proof.
  destruct x as [a|]; cbn [when_given given]; [|now rewrite andb_false_r].
  unfold serial_only. rewrite andb_true_r. destruct (o_parallel o); reflexivity.
Qed.
Lemma decoded_first (s : string) (k : list byte -> course) :
  decoded s k = next (first_of (map Wrong (hex_problems s))) (match hex_bytes s with Some b => k b | None => On end).
Proof.
  unfold decoded. rewrite hex_decode_spec. pose proof (hex_problems_spec s) as P.
  destruct (hex_bytes s) as [b|]; destruct (hex_problems s) as [|t l]; try reflexivity.
  - exfalso. destruct P as (_ & P). discriminate P. discriminate.
  - exfalso. now apply P.
Qed.
Lemma hex_both o (x : option string) (k : list byte -> setting) text says :
  (forall a, says a = setter_says (kind o) (k a)) ->
  when_given x (fun a => decoded a (fun b => serial_only o (says b) text)) =
  first_of (map Wrong (malformed x) ++
            (if o_parallel o && given x then [Wrong text] else []) ++ hex_range (chosen o) x k).
Proof.
  intros H. destruct x as [a|]; cbn [when_given given malformed hex_range]; [|now rewrite andb_false_r].
  rewrite decoded_first, !first_app. rewrite andb_true_r. pose proof (hex_problems_spec a) as P.
  destruct (hex_bytes a) as [b|].
  - f_equal. unfold serial_only. destruct (o_parallel o); [reflexivity|]. now rewrite H, calls_range.
  - destruct (hex_problems a) as [|t l]; [exfalso; now apply P|reflexivity].
Qed.
Lemma make_params_first o : make_params_says o = first_of (faults o).
Proof.
  unfold make_params_says, faults. cbv zeta. destruct (o_big o && o_small o); [reflexivity|]. cbn [map app].
  rewrite first_app. f_equal.
  { destruct (o_length o) as [n|]; [|reflexivity]. cbn [when_given number_range].
    rewrite <- calls_range. destruct (o_parallel o); reflexivity. }
  rewrite (app_assoc (map Wrong (malformed (o_key o)))), first_app. f_equal.
  { destruct (o_key o) as [s|]; [|reflexivity]. cbn [when_given malformed hex_range]. rewrite decoded_first, first_app. f_equal.
    destruct (hex_bytes s) as [b|]; [|reflexivity]. rewrite <- calls_range. destruct (o_parallel o); reflexivity. }
  rewrite (hex_both o (o_salt o) Salt "--salt not supported"%string), (hex_both o (o_personal o) Personal "--personal not supported"%string) by reflexivity.
  rewrite (number_none o (o_fanout o) "--fanout not supported"%string), (number_none o (o_max_depth o) "--max-depth not supported"%string),
    (number_none o (o_max_leaf_length o) "--max-leaf-length not supported"%string), (number_none o (o_node_depth o) "--node-depth not supported"%string).
  rewrite (number_both o (o_node_offset o) NodeOffset "--node-offset not supported"%string),
    (number_both o (o_inner_hash_length o) InnerHashLength "--inner-hash-length not supported"%string) by reflexivity.
  replace (if o_last_node o then serial_only o None "--last-node not supported" else On)
    with (first_of (if o_parallel o && o_last_node o then [Wrong ("--last-node" ++ " not supported")%string] else []))
    by (unfold serial_only; destruct (o_last_node o), (o_parallel o); reflexivity).
  rewrite <- !first_app, <- !app_assoc. reflexivity.
Qed.

(** The verdict about an entry of [labelled], with the message. *)
Definition cstep (o : options) (r : ask) : course :=
  let '(name, bad, r) := r in
  match r with
  | None => Bailed (said bad)
  | Some s =>
      if o_parallel o && match for_parallel s with None => true | Some _ => false end then Bailed (said [unsupported name])
      else first_of (range (chosen o) s)
  end.
Fixpoint cfold (o : options) (rs : list ask) : course :=
  match rs with [] => On | r :: rest => next (cstep o r) (cfold o rest) end.
Lemma gfold_course t o rs : forall ss,
  match cfold o rs with
  | On => exists p, gfold (built t o ss) rs = Ret (Ok p)
  | Bailed why => gfold (built t o ss) rs = Ret (Error why)
  | PanickedWith _ => gfold (built t o ss) rs = Panic
  end.
Proof.
  induction rs as [|[[n bad] [s|]] rs IH]; intros ss; cbn [cfold gfold cstep].
  - now exists (built t o ss).
  - rewrite gstep_spec. destruct (o_parallel o && _); [reflexivity|]. unfold range.
    destruct (legal (chosen o) s); [|reflexivity]. cbn [first_of next]. unfold rbind. cbn [bind]. apply IH.
  - reflexivity.
Qed.
Lemma cfold_app o a b : cfold o (a ++ b) = next (cfold o a) (cfold o b).
Proof. induction a as [|r a IH]; [reflexivity|]. cbn [app cfold]. rewrite IH. destruct (cstep o r); reflexivity. Qed.
Lemma cfold_number {A} o name (x : option A) (k : A -> setting) says : (forall a, for_parallel (k a) = None) ->
  (forall a, says a = setter_says (kind o) (k a)) ->
  cfold o (named name x fine_ (fun a => Some (k a))) =
  when_given x (fun a => serial_only o (says a) (unsupported name)).
Proof.
  intros N H. destruct x as [a|]; [|reflexivity]. cbn [named cfold cstep when_given]. rewrite next_on, N, andb_true_r.
  unfold serial_only. destruct (o_parallel o); [reflexivity|]. now rewrite H, calls_range.
Qed.
Lemma cfold_hex o name (x : option string) (k : list byte -> setting) says : (forall a, for_parallel (k a) = None) ->
  (forall a, says a = setter_says (kind o) (k a)) ->
  cfold o (named name x hex_problems (fun s => option_map k (hex_bytes s))) =
  when_given x (fun a => decoded a (fun b => serial_only o (says b) (unsupported name))).
Proof.
  intros N H. destruct x as [a|]; [|reflexivity]. cbn [named cfold cstep when_given]. rewrite next_on.
  unfold decoded. rewrite hex_decode_spec. destruct (hex_bytes a) as [b|]; cbn [option_map]; [|reflexivity].
  rewrite N, andb_true_r. unfold serial_only. destruct (o_parallel o); [reflexivity|]. now rewrite H, calls_range.
Qed.
Lemma make_params_cfold o : make_params_says o =
  if o_big o && o_small o then Bailed (Said "-b and -s can't be used together") else cfold o (labelled o).
Proof.
  unfold make_params_says. cbv zeta. destruct (o_big o && o_small o); [reflexivity|]. unfold labelled. rewrite !cfold_app.
  f_equal.
  { destruct (o_length o) as [n|]; [|reflexivity]. cbn [named cfold cstep when_given for_parallel]. rewrite andb_false_r, next_on.
    rewrite <- calls_range. destruct (o_parallel o); reflexivity. }
  f_equal.
  { destruct (o_key o) as [s|]; [|reflexivity]. cbn [named cfold cstep when_given]. rewrite next_on. unfold decoded.
    rewrite hex_decode_spec. destruct (hex_bytes s) as [b|]; cbn [option_map for_parallel]; [|reflexivity]. rewrite andb_false_r.
    rewrite <- calls_range. destruct (o_parallel o); reflexivity. }
  rewrite (cfold_hex o "--salt" (o_salt o) Salt (salt_says (kind o))), (cfold_hex o "--personal" (o_personal o) Personal (personal_says (kind o)))
    by reflexivity.
  rewrite (cfold_number o "--fanout" (o_fanout o) Fanout (fun _ => None)), (cfold_number o "--max-depth" (o_max_depth o) MaxDepth (fun _ => None)),
    (cfold_number o "--max-leaf-length" (o_max_leaf_length o) MaxLeafLength (fun _ => None)),
    (cfold_number o "--node-depth" (o_node_depth o) NodeDepth (fun _ => None)),
    (cfold_number o "--node-offset" (o_node_offset o) NodeOffset (node_offset_says (kind o))),
    (cfold_number o "--inner-hash-length" (o_inner_hash_length o) InnerHashLength (inner_hash_length_says (kind o))),
    (cfold_number o "--last-node" (if o_last_node o then Some tt else None) (fun _ => LastNode true) (fun _ => None)) by reflexivity.
  destruct (o_last_node o); reflexivity.
Qed.

(** [make_params_says] tells how make_params ends. *)
Theorem C59_faithful (t : target) (o : options) :
  match make_params_says o with
  | On => exists p, make_params t o = Ret (Ok p)
  | Bailed why => make_params t o = Ret (Error why)
  | PanickedWith _ => make_params t o = Panic
  end.
Proof.
  rewrite make_params_cfold, make_params_fold. destruct (o_big o && o_small o); [reflexivity|].
  change (first_params t o) with (built t o []). apply gfold_course.
Qed.
Print Assumptions C59_faithful.

(** The first thing that is wrong with the options decides: a malformed or unsupported one gives an error message and
    status 1, a value out of range a panic with its message.  If nothing is wrong, the options are accepted. *)
Theorem C59_tool (t : target) (e : env) (o : options) (inputs : list (string * source)) (stdin : list event) :
  match faults o with
  | [] => exists ss, verdict_of o = Accept ss
  | Wrong text :: _ =>
      make_params_says o = Bailed (Said text) /\
      main t e o inputs stdin = {| lines := [Refusal (Said text)]; finish_ := Exited 1 |}
  | Outside text :: _ =>
      make_params_says o = PanickedWith text /\
      main t e o inputs stdin = {| lines := []; finish_ := Aborted |}
  end.
Proof.
  pose proof (make_params_first o) as F. pose proof (C59_faithful t o) as M. pose proof (make_params_spec t o) as S.
  rewrite F in M. destruct (faults o) as [|[text|text] rest]; cbn [first_of] in F, M.
  - destruct M as (p & M). rewrite S in M. destruct (verdict_of o) as [ss| |]; try discriminate. now exists ss.
  - split; [exact F|]. unfold main. now rewrite M.
  - split; [exact F|]. unfold main. now rewrite M.
Qed.
Print Assumptions C59_tool.
(** What C57 calls the problems are those faults that are no matter of range. *)
Theorem C59_problems (o : options) :
  problems o = flat_map (fun x => match x with Wrong text => [text] | Outside _ => [] end) (faults o).
Proof.
  set (w := fun x => match x with Wrong text => [text] | Outside _ => [] end).
  assert (W : forall l, flat_map w (map Wrong l) = l) by (induction l as [|x l IH]; cbn; [reflexivity|now rewrite IH]).
  assert (R : forall f s, flat_map w (range f s) = []) by (intros f s; unfold range; destruct (legal f s); reflexivity).
  assert (NR : forall A f (x : option A) k, flat_map w (number_range f x k) = []) by (intros A f [a|] k; [apply R|reflexivity]).
  assert (HR : forall f x k, flat_map w (hex_range f x k) = []).
  { intros f [s|] k; [|reflexivity]. cbn [hex_range]. destruct (hex_bytes s); [apply R|reflexivity]. }
  assert (U : forall (b : bool) (s : string), flat_map w (if b then [Wrong s] else []) = (if b then [s] else []))
    by (intros [] s; reflexivity).
  unfold problems, faults. cbv zeta. rewrite !flat_map_app, !W, !NR, !HR, !U. cbn [app]. reflexivity.
Qed.
Print Assumptions C59_problems.

Lemma hex_bytes_length s : forall b, hex_bytes s = Some b -> String.length s = 2 * length b.
Proof.
  induction s as [|a|a c r IH] using two_ind; intros b H; cbn [hex_bytes] in H.
  - injection H as <-. reflexivity.
  - discriminate.
  - destruct (hex_letter a); [|discriminate]. destruct (hex_letter c); [|discriminate].
    destruct (hex_bytes r) as [bs|]; [|discriminate]. destruct (Byte.of_N _) as [x|]; [|discriminate]. injection H as <-.
    cbn [String.length length]. rewrite (IH bs eq_refl). lia.
Qed.
(** Nothing of a key shows in a message: with keys of the same length the faults, hence the messages, are the same. *)
Theorem C59_secret (o : options) (k k' : string) :
  hex_bytes k <> None -> hex_bytes k' <> None -> String.length k = String.length k' ->
  faults (with_key (Some k) o) = faults (with_key (Some k') o) /\
  make_params_says (with_key (Some k) o) = make_params_says (with_key (Some k') o).
Proof.
  intros K K' L.
  assert (F : faults (with_key (Some k) o) = faults (with_key (Some k') o)).
  { pose proof (hex_problems_spec k) as P. pose proof (hex_problems_spec k') as P'.
    destruct (hex_bytes k) as [b|] eqn:E; [|congruence]. destruct (hex_bytes k') as [b'|] eqn:E'; [|congruence].
    pose proof (hex_bytes_length k b E) as B. pose proof (hex_bytes_length k' b' E') as B'.
    assert (LL : length b = length b') by lia.
    destruct (hex_problems k) eqn:Q; [|exfalso; destruct P as (_ & P); discriminate P; discriminate].
    destruct (hex_problems k') eqn:Q'; [|exfalso; destruct P' as (_ & P'); discriminate P'; discriminate].
    unfold faults, with_key, chosen. cbn. rewrite E, E', Q, Q'. unfold range. cbn. now rewrite LL. }
  split; [exact F|]. now rewrite !make_params_first, F.
Qed.
Print Assumptions C59_secret.
(** In the library the message depends on the length of a key, a salt or a personalization only. *)
Theorem C59_length_only (v : variant) (a b : list byte) : length a = length b ->
  setter_says v (Key a) = setter_says v (Key b) /\ setter_says v (Salt a) = setter_says v (Salt b) /\
  setter_says v (Personal a) = setter_says v (Personal b) /\ psetter_says v (PKey a) = psetter_says v (PKey b).
Proof.
  intros L. cbn [setter_says psetter_says]. unfold key_says, salt_says, personal_says, p_key_says. now rewrite L.
Qed.
Print Assumptions C59_length_only.
(** The hash of a job that was not run: a panic with this message in a build with debug assertions, a value in one
    without (see C58). *)
Theorem C59_to_hash (v : variant) (e : env) (j : hash_many_job) :
  match to_hash_says e j with
  | Some text => text = "job hasn't been run yet"%string /\ e_dbg e = true /\ hj_finished j = false /\ to_hash v e j = Panic
  | None => exists h, to_hash v e j = Ret h
  end.
Proof.
  unfold to_hash_says, to_hash, debug_assert, assert_. destruct (e_dbg e); [destruct (hj_finished j)|]; cbn [bind]; eauto.
Qed.
Print Assumptions C59_to_hash.

(** Two values out of range and malformed hexadecimal between them: the first decides. *)
Definition wrong_options (n : nat) (k s : string) (off : N) : options :=
  {| o_mmap := false; o_big := false; o_small := true; o_parallel := false;
     o_length := Some n; o_key := Some k; o_salt := Some s; o_personal := None;
     o_fanout := Some 2%N; o_max_depth := None; o_max_leaf_length := None; o_node_offset := Some off; o_node_depth := None;
     o_inner_hash_length := None; o_last_node := false |}.
Example C59_example :
  faults (wrong_options 33 "00f" "" (2 ^ 48)) =
    [Outside "Bad hash length: 33"; Wrong "Odd number of digits"; Outside "Bad node offset: 281474976710656"]%string /\
  faults (wrong_options 32 "00ff" "010203040506070809" (2 ^ 48 - 1)) = [Outside "Bad salt length: 9"%string] /\
  faults (wrong_options 32 "00ff" "0102030405060708" (2 ^ 48 - 1)) = [] /\
  hex_bytes "00ff" <> None /\ hex_bytes "BEEF" <> None /\
  setter_says V2b (HashLength 0) = Some "Bad hash length: 0"%string /\
  setter_says V2b (InnerHashLength 65) = Some "Bad inner hash length: 65"%string /\
  setter_says V2b (NodeOffset (2 ^ 48)) = None /\
  psetter_says V2s (PKey (demo_msg 33)) = Some "Bad key length: 33"%string.
Proof. repeat split; vm_compute; reflexivity || discriminate. Qed.
