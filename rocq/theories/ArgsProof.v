(** The argument parser does what ArgsSpec.v says. *)
From Coq Require Import String Ascii.
From Coq Require Import Arith NArith List Bool Lia Permutation.
From Verif Require Import Impl.
From Verif Require Import Spec ApiSpec BinSpec TextSpec ArgsSpec.
From Verif Require Import Bin Utf8 Utf8Proof Args.
Import ListNotations.
Open Scope list_scope.
Open Scope N_scope.
Local Notation length := List.length.

(** ** Numbers *)
Lemma digit_agrees c : to_digit c = digit c.
Proof. destruct c as [[] [] [] [] [] [] [] []]; reflexivity. Qed.
Lemma digits_spec bits s : forall acc, acc < 2 ^ bits ->
  digits bits acc s =
  match all_digits s with
  | Some ds => let v := acc * 10 ^ N.of_nat (length ds) + decimal ds in if v <? 2 ^ bits then Some v else None
  | None => None
  end.
Proof.
  induction s as [|c s IH]; intros acc L; cbn [digits all_digits].
  - cbn [length decimal]. cbv zeta. replace (acc * 10 ^ N.of_nat 0 + 0) with acc by (change (10 ^ N.of_nat 0) with 1; lia).
    apply N.ltb_lt in L. rewrite L. reflexivity.
  - rewrite digit_agrees. destruct (digit c) as [d|]; [|reflexivity]. unfold checked.
    assert (P : forall ds : list N, acc * 10 ^ N.of_nat (length (d :: ds)) + decimal (d :: ds) =
      (acc * 10 + d) * 10 ^ N.of_nat (length ds) + decimal ds).
    { intros ds. cbn [length decimal]. rewrite Nat2N.inj_succ, N.pow_succ_r'. lia. }
    assert (Q : forall ds : list N, acc * 10 + d <= (acc * 10 + d) * 10 ^ N.of_nat (length ds) + decimal ds).
    { intros ds. assert (0 < 10 ^ N.of_nat (length ds)) by (apply N.neq_0_lt_0, N.pow_nonzero; lia). nia. }
    destruct (acc * 10 <? 2 ^ bits) eqn:E1.
    + destruct (acc * 10 + d <? 2 ^ bits) eqn:E2.
      * rewrite IH by (apply N.ltb_lt; exact E2). destruct (all_digits s) as [ds|]; [|reflexivity].
        cbv zeta. rewrite P. reflexivity.
      * destruct (all_digits s) as [ds|]; [|reflexivity]. cbv zeta. rewrite P.
        apply N.ltb_ge in E2. specialize (Q ds).
        assert (E : (acc * 10 + d) * 10 ^ N.of_nat (length ds) + decimal ds <? 2 ^ bits = false) by (apply N.ltb_ge; lia).
        rewrite E. reflexivity.
    + destruct (all_digits s) as [ds|]; [|reflexivity]. cbv zeta. rewrite P.
      apply N.ltb_ge in E1. specialize (Q ds).
      assert (E : (acc * 10 + d) * 10 ^ N.of_nat (length ds) + decimal ds <? 2 ^ bits = false) by (apply N.ltb_ge; lia).
      rewrite E. reflexivity.
Qed.
Definition is_plus (c : ascii) : bool := Ascii.eqb c "+".
Lemma from_str_alt bits s : from_str bits s =
  match s with
  | EmptyString => None
  | String c r => if is_plus c then match r with EmptyString => None | _ => digits bits 0 r end else digits bits 0 s
  end.
Proof. destruct s as [|c r]; [reflexivity|]. destruct c as [[] [] [] [] [] [] [] []]; try reflexivity; destruct r; reflexivity. Qed.
Lemma numeral_alt bits s : numeral bits s =
  match all_digits (match s with String c r => if is_plus c then r else s | EmptyString => s end) with
  | Some (d :: ds) => if decimal (d :: ds) <? 2 ^ bits then Some (decimal (d :: ds)) else None
  | _ => None
  end.
Proof. unfold numeral. destruct s as [|c r]; [reflexivity|]. destruct c as [[] [] [] [] [] [] [] []]; reflexivity. Qed.
Lemma all_digits_nil s : all_digits s = Some [] -> s = ""%string.
Proof. destruct s as [|c s]; [reflexivity|]. cbn. destruct (digit c), (all_digits s); discriminate. Qed.
Lemma from_str_spec bits s : from_str bits s = numeral bits s.
Proof.
  assert (Z : 0 < 2 ^ bits) by (apply N.neq_0_lt_0, N.pow_nonzero; lia).
  assert (D : forall r, r <> ""%string -> digits bits 0 r =
    match all_digits r with
    | Some (d :: ds) => if decimal (d :: ds) <? 2 ^ bits then Some (decimal (d :: ds)) else None
    | _ => None
    end).
  { intros r NE. rewrite (digits_spec bits r 0 Z). destruct (all_digits r) as [[|d ds]|] eqn:E; try reflexivity.
    apply all_digits_nil in E. contradiction. }
  rewrite from_str_alt, numeral_alt. destruct s as [|c r]; [reflexivity|].
  destruct (is_plus c).
  - destruct r as [|c' r]; [reflexivity|]. apply D. discriminate.
  - apply D. discriminate.
Qed.
Lemma numeral_below bits s x : numeral bits s = Some x -> x < 2 ^ bits.
Proof.
  unfold numeral. destruct (all_digits _) as [[|d ds]|]; try discriminate.
  destruct (_ <? _) eqn:E; [|discriminate]. intros H. injection H as <-. apply N.ltb_lt. exact E.
Qed.

(** ** What the items leave in the matcher *)
Definition fname (f : flag) : string :=
  match f with
  | MmapFlag => "mmap" | BigFlag => "big" | SmallFlag => "small" | ParallelFlag => "parallel" | LastNodeFlag => "last-node"
  end.
Definition vname (v : valued) : string :=
  match v with
  | LengthOption => "length" | KeyOption => "key" | SaltOption => "salt" | PersonalOption => "personal"
  | FanoutOption => "fanout" | MaxDepthOption => "max-depth" | MaxLeafLengthOption => "max-leaf-length"
  | NodeOffsetOption => "node-offset" | NodeDepthOption => "node-depth"
  | InnerHashLengthOption => "inner-hash-length"
  end.
Definition note (m : matcher) (i : item) : matcher :=
  match i with
  | Flag f => inc_occurrence (fname f) m
  | Valued v t => inc_occurrence (vname v) (add_val (vname v) t m)
  | Input p => add_input p m
  end.
Definition noted (gs : list item) (m : matcher) : matcher := fold_left note gs m.

Definition settled (nv : parse_result) : Prop := match nv with OptFound _ => False | _ => True end.
Lemma plain_start p : plain p -> starts_dashes p = false /\ starts_dash p && negb (Nat.eqb (String.length p) 1) = false.
Proof.
  destruct p as [|c r]; [split; reflexivity|]. cbn [plain].
  destruct (Ascii.eqb_spec c "-") as [->|NE].
  - intros [H | ->]; [contradiction H; reflexivity|]. split; reflexivity.
  - intros _. split; destruct c as [[] [] [] [] [] [] [] []]; try reflexivity; contradiction NE; reflexivity.
Qed.
Lemma plain_not_dashes p : plain p -> String.eqb p "--" = false.
Proof. intros H. destruct (String.eqb_spec p "--") as [->|]; [|reflexivity]. cbn in H. destruct H as [H|H]; [contradiction H; reflexivity|discriminate]. Qed.
Lemma input_step p rest nv m : plain p -> settled nv ->
  get_matches (p :: rest) false nv m = get_matches rest false nv (add_input p m).
Proof.
  intros P S. cbn [get_matches]. rewrite (plain_not_dashes p P). cbn [andb negb].
  destruct (plain_start p P) as [A B]. rewrite A, B.
  destruct (is_new_arg p nv); [reflexivity|]. destruct nv; reflexivity || contradiction.
Qed.
Lemma long_flag_step f w rest nv m : long_flag f = Some w ->
  get_matches (w :: rest) false nv m = get_matches rest false FlagFound (inc_occurrence (fname f) m).
Proof. destruct f; intros H; try discriminate H; injection H as <-; destruct nv; reflexivity. Qed.
Lemma letters_trim fs s : letters fs s -> trim_left "-" s = s.
Proof. intros H. destruct H as [|f c fs s E H]; [reflexivity|]. destruct f; try discriminate E; injection E as <-; reflexivity. Qed.
Lemma letters_step fs s : letters fs s -> forall more ret m,
  parse_letters (s ++ more) ret m =
  parse_letters more (match fs with [] => ret | _ => FlagFound end) (noted (map Flag fs) m).
Proof.
  induction 1 as [|f c fs s E H IH]; intros more ret m; [reflexivity|].
  cbn [String.append parse_letters map noted fold_left note].
  destruct f; try discriminate E; injection E as <-; cbn -[parse_letters noted];
    (rewrite IH; destruct fs; reflexivity).
Qed.
Lemma append_nil_r s : (s ++ "")%string = s.
Proof. induction s; cbn; congruence. Qed.
Lemma short_step f fs s rest nv m : letters (f :: fs) s ->
  get_matches (("-" ++ s)%string :: rest) false nv m = get_matches rest false FlagFound (noted (map Flag (f :: fs)) m).
Proof.
  intros H. pose proof (letters_trim _ _ H) as T. pose proof (letters_step _ _ H "" NotFound m) as P.
  rewrite append_nil_r in P. cbn [parse_letters] in P.
  inversion H as [|f' c fs' s' E H' E1 E2]. subst.
  assert (C : c = "b"%char \/ c = "s"%char \/ c = "p"%char) by (destruct f; try discriminate E; injection E as <-; auto).
  assert (NV : is_new_arg ("-" ++ String c s') nv = true).
  { destruct C as [->|[->| ->]]; destruct nv; reflexivity. }
  assert (SH : parse_short_arg ("-" ++ String c s') m = inl (FlagFound, noted (map Flag (f :: fs)) m)).
  { unfold parse_short_arg. change (trim_left "-" ("-" ++ String c s')%string) with (trim_left "-" (String c s')).
    rewrite T. exact P. }
  cbn [get_matches]. rewrite NV, SH.
  replace (String.eqb ("-" ++ String c s') "--") with false by (destruct C as [->|[->| ->]]; reflexivity).
  replace (starts_dashes ("-" ++ String c s')) with false by (destruct C as [->|[->| ->]]; reflexivity).
  cbn [andb negb String.append starts_dash String.length Nat.eqb]. reflexivity.
Qed.
Lemma no_equals_trim t : no_equals_first t -> trim_left "=" t = t.
Proof. destruct t as [|c r]; [reflexivity|]. cbn [no_equals_first trim_left]. intros H. destruct (Ascii.eqb_spec "=" c); [congruence|reflexivity]. Qed.
Lemma is_new_dashes r nv : is_new_arg (String "-" (String "-" r)) nv = true.
Proof. destruct nv; reflexivity. Qed.
Lemma equals_step v t rest nv m : no_equals_first t ->
  get_matches ((long_option v ++ "=" ++ t)%string :: rest) false nv m =
  get_matches rest false ValuesDone (note m (Valued v t)).
Proof.
  intros H. destruct v; cbn -[is_new_arg trim_left]; rewrite is_new_dashes;
    unfold parse_long_arg; cbn -[trim_left get_matches is_new_arg];
    repeat (change (trim_left "-" (String "-" ?s)) with (trim_left "-" s));
    cbn -[get_matches is_new_arg]; rewrite ?(no_equals_trim t H); reflexivity.
Qed.
Lemma option_alone v rest nv m :
  get_matches (long_option v :: rest) false nv m = get_matches rest false (OptFound (vname v)) (inc_occurrence (vname v) m).
Proof. destruct v; destruct nv; reflexivity. Qed.
Lemma value_step n t rest m : plain t ->
  get_matches (t :: rest) false (OptFound n) m = get_matches rest false ValuesDone (add_val n t m).
Proof.
  intros P. cbn [get_matches]. rewrite (plain_not_dashes t P). cbn [andb negb].
  destruct (plain_start t P) as [A B].
  assert (N : is_new_arg t (OptFound n) = false).
  { unfold is_new_arg. rewrite A. destruct (starts_dash t); [|reflexivity]. exact B. }
  rewrite N. reflexivity.
Qed.

Lemma spelled_step gs ws : spelled gs ws -> forall rest nv m, settled nv ->
  exists nv', settled nv' /\ get_matches (ws ++ rest) false nv m = get_matches rest false nv' (noted gs m).
Proof.
  induction 1 as [|p gs ws P H IH|f w gs ws E H IH|f fs s gs ws L H IH|v t gs ws N H IH|v t gs ws P H IH]; intros rest nv m S.
  - exists nv. split; [exact S|reflexivity].
  - destruct (IH rest nv (add_input p m) S) as (nv' & S' & E). exists nv'. split; [exact S'|].
    cbn [app]. rewrite input_step by assumption. exact E.
  - destruct (IH rest FlagFound (inc_occurrence (fname f) m) I) as (nv' & S' & E'). exists nv'. split; [exact S'|].
    cbn [app]. rewrite (long_flag_step f w) by exact E. exact E'.
  - destruct (IH rest FlagFound (noted (map Flag (f :: fs)) m) I) as (nv' & S' & E'). exists nv'. split; [exact S'|].
    cbn [app]. rewrite (short_step f fs s) by exact L. rewrite E'. unfold noted. rewrite fold_left_app. reflexivity.
  - destruct (IH rest ValuesDone (note m (Valued v t)) I) as (nv' & S' & E'). exists nv'. split; [exact S'|].
    cbn [app]. rewrite (equals_step v t) by exact N. exact E'.
  - destruct (IH rest ValuesDone (note m (Valued v t)) I) as (nv' & S' & E'). exists nv'. split; [exact S'|].
    cbn [app]. rewrite option_alone, value_step by exact P. exact E'.
Qed.
Lemma trailing_step ps : forall nv m, get_matches ps true nv m = inl (noted (map Input ps) m).
Proof. induction ps as [|p ps IH]; intros nv m; [reflexivity|]. cbn [get_matches negb andb]. rewrite IH. reflexivity. Qed.
Lemma noted_app gs hs m : noted (gs ++ hs) m = noted hs (noted gs m).
Proof. apply fold_left_app. Qed.
Lemma command_line_matches gs ws : command_line gs ws -> get_matches ws false NotFound no_matches = inl (noted gs no_matches).
Proof.
  intros H. destruct H as [gs ws H|gs ws ps H].
  - destruct (spelled_step gs ws H [] NotFound no_matches I) as (nv & S & E). rewrite app_nil_r in E. rewrite E. reflexivity.
  - destruct (spelled_step gs ws H ("--"%string :: ps) NotFound no_matches I) as (nv & S & E). rewrite E.
    transitivity (get_matches ps true nv (noted gs no_matches)); [destruct nv; reflexivity|].
    rewrite trailing_step, noted_app. reflexivity.
Qed.

(** ** What is in it in the end *)
Lemma noted_inputs gs : forall m, inputs (noted gs m) = inputs m ++ paths gs.
Proof.
  induction gs as [|g gs IH]; intros m; [symmetry; apply app_nil_r|]. unfold noted. cbn [fold_left]. fold (noted gs (note m g)). rewrite IH.
  destruct g; cbn [note inc_occurrence add_val add_input inputs paths flat_map app]; [reflexivity|reflexivity|].
  rewrite <- app_assoc. reflexivity.
Qed.
Lemma count_app n l k : count n (l ++ k) = (count n l + count n k)%nat.
Proof. unfold count. rewrite filter_app, app_length. reflexivity. Qed.
Lemma noted_count_flag f gs : forall m,
  count (fname f) (occurs (noted gs m)) = (count (fname f) (occurs m) + length (flags f gs))%nat.
Proof.
  induction gs as [|g gs IH]; intros m; [cbn; lia|]. unfold noted. cbn [fold_left]. fold (noted gs (note m g)). rewrite IH.
  unfold flags. cbn [filter]. fold (flags f gs).
  destruct g as [g|v t|p]; cbn [note inc_occurrence add_val add_input occurs].
  - rewrite count_app. assert (E : count (fname f) [fname g] = if flag_eqb f g then 1%nat else 0%nat) by (destruct f, g; reflexivity).
    rewrite E. destruct (flag_eqb f g); cbn [length]; lia.
  - rewrite count_app. assert (E : count (fname f) [vname v] = 0%nat) by (destruct f, v; reflexivity). rewrite E. lia.
  - reflexivity.
Qed.
Lemma noted_count_valued v gs : forall m,
  count (vname v) (occurs (noted gs m)) = (count (vname v) (occurs m) + length (texts v gs))%nat.
Proof.
  induction gs as [|g gs IH]; intros m; [cbn; lia|]. unfold noted. cbn [fold_left]. fold (noted gs (note m g)). rewrite IH.
  unfold texts. cbn [flat_map]. fold (texts v gs). rewrite app_length.
  destruct g as [g|w t|p]; cbn [note inc_occurrence add_val add_input occurs].
  - rewrite count_app. assert (E : count (vname v) [fname g] = 0%nat) by (destruct v, g; reflexivity). rewrite E. cbn [length]. lia.
  - rewrite count_app. assert (E : count (vname v) [vname w] = if valued_eqb v w then 1%nat else 0%nat) by (destruct v, w; reflexivity).
    rewrite E. destruct (valued_eqb v w); cbn [length]; lia.
  - reflexivity.
Qed.
Lemma noted_values v gs : forall m, values_of (vname v) (noted gs m) = values_of (vname v) m ++ texts v gs.
Proof.
  induction gs as [|g gs IH]; intros m; [symmetry; apply app_nil_r|]. unfold noted. cbn [fold_left]. fold (noted gs (note m g)). rewrite IH.
  destruct g as [g|w t|p]; cbn [note inc_occurrence add_val add_input vals texts flat_map]; [reflexivity| |reflexivity].
  unfold values_of. cbn [vals add_val inc_occurrence]. rewrite filter_app, map_app, <- app_assoc. f_equal. f_equal.
  destruct v, w; reflexivity.
Qed.

(** ** Text *)
(** What is given is text. *)
Definition legible (gs : list item) : Prop :=
  Forall (fun i => match i with Flag _ => True | Valued _ t => text t | Input p => text p end) gs.
Lemma forallb_utf8 l : forallb utf8 l = true <-> Forall text l.
Proof. rewrite forallb_forall, Forall_forall. split; intros H x I; apply utf8_spec; auto. Qed.
Lemma text_ascii c s : N_of_ascii c < 128 -> (text (String c s) <-> text s).
Proof. intros H. rewrite <- !utf8_spec, utf8_ascii by exact H. tauto. Qed.
Lemma digit_ascii c d : digit c = Some d -> N_of_ascii c < 128.
Proof. destruct c as [[] [] [] [] [] [] [] []]; cbn; try discriminate; reflexivity. Qed.
Lemma digits_text s ds : all_digits s = Some ds -> text s.
Proof.
  revert ds. induction s as [|c s IH]; intros ds E; [apply text_nil|]. cbn [all_digits] in E.
  destruct (digit c) as [d|] eqn:D; [|discriminate]. destruct (all_digits s) as [ds'|]; [|discriminate].
  apply text_ascii; [exact (digit_ascii c d D)|]. exact (IH ds' eq_refl).
Qed.
Lemma numeral_text bits s x : numeral bits s = Some x -> text s.
Proof.
  unfold numeral. intros E.
  assert (T : text match s with String "+" r => r | _ => s end).
  { destruct (all_digits match s with String "+" r => r | _ => s end) as [ds|] eqn:D; [|discriminate E]. exact (digits_text _ _ D). }
  destruct s as [|c s]; [exact T|]. destruct c as [[] [] [] [] [] [] [] []]; try exact T.
  apply text_ascii; [reflexivity|exact T].
Qed.

Section Final.
Context (gs : list item).
Let m := noted gs no_matches.
Lemma flag_present f : is_present (fname f) m = match flags f gs with [] => false | _ => true end.
Proof. unfold is_present, m. rewrite noted_count_flag. cbn [no_matches occurs count filter length Nat.add]. destruct (flags f gs); reflexivity. Qed.
Lemma flag_valid f a : name a = fname f -> takes_value a = false -> width a = None ->
  valid_arg m a = match flag_given f gs with Some _ => true | None => false end.
Proof.
  intros E T W. unfold valid_arg. rewrite E, T, W. unfold m. rewrite noted_count_flag. unfold flag_given.
  cbn [no_matches occurs count filter length Nat.add]. destruct (flags f gs) as [|x [|y l]]; reflexivity.
Qed.
Lemma value_found v : value_of (vname v) m = match texts v gs with [] => None | t :: _ => Some t end.
Proof. unfold value_of, m. rewrite noted_values. reflexivity. Qed.
Lemma text_valid v a : name a = vname v -> takes_value a = true -> width a = None ->
  valid_arg m a = match text_given v gs with Some _ => true | None => false end.
Proof.
  intros E T W. unfold valid_arg. rewrite E, T, W. unfold m. rewrite noted_count_valued, noted_values. unfold text_given.
  cbn [no_matches occurs vals values_of count filter map length Nat.add app]. destruct (texts v gs) as [|x [|y l]]; reflexivity.
Qed.
Lemma number_valid v a bits : name a = vname v -> takes_value a = true -> width a = Some bits ->
  valid_arg m a = match number_given bits v gs with Some _ => true | None => false end.
Proof.
  intros E T W. unfold valid_arg. rewrite E, T, W. unfold m. rewrite noted_count_valued, noted_values. unfold number_given, text_given.
  cbn [no_matches occurs vals values_of count filter map length Nat.add app]. destruct (texts v gs) as [|x [|y l]]; [reflexivity| |reflexivity].
  cbn [forallb length Nat.ltb Nat.leb Nat.eqb negb andb]. rewrite from_str_spec. destruct (numeral bits x); reflexivity.
Qed.
Lemma flag_fill f b : flag_given f gs = Some b -> is_present (fname f) m = b.
Proof. rewrite flag_present. unfold flag_given. destruct (flags f gs) as [|x [|y l]]; congruence. Qed.
Lemma text_fill v t : text_given v gs = Some t -> value_of (vname v) m = t.
Proof. rewrite value_found. unfold text_given. destruct (texts v gs) as [|x [|y l]]; congruence. Qed.
Lemma number_fill v bits x : number_given bits v gs = Some x -> number_of bits (vname v) m = Some x.
Proof.
  unfold number_of. rewrite value_found. unfold number_given, text_given. destruct (texts v gs) as [|t [|y l]]; [congruence| |discriminate].
  rewrite from_str_spec. destruct (numeral bits t); cbn; congruence.
Qed.

Lemma matched :
  (if forallb (valid_arg m) declared
   then match from_clap m with Some (o, ps) => Parsed o ps | None => UnwrapPanic end
   else Stopped UsageError) =
  match meaning gs with Some o => Parsed o (paths gs) | None => Stopped UsageError end.
Proof.
  unfold declared. cbn [forallb].
  rewrite (flag_valid MmapFlag), (flag_valid BigFlag), (flag_valid SmallFlag), (flag_valid ParallelFlag),
    (number_valid LengthOption _ 64), (text_valid KeyOption), (text_valid SaltOption), (text_valid PersonalOption),
    (number_valid FanoutOption _ 8), (number_valid MaxDepthOption _ 8), (number_valid MaxLeafLengthOption _ 32),
    (number_valid NodeOffsetOption _ 64), (number_valid NodeDepthOption _ 8), (number_valid InnerHashLengthOption _ 64),
    (flag_valid LastNodeFlag) by reflexivity.
  unfold meaning.
  destruct (flag_given MmapFlag gs) as [x1|] eqn:E1; cbn [bind andb]; [|reflexivity].
  destruct (flag_given BigFlag gs) as [x2|] eqn:E2; cbn [bind andb]; [|reflexivity].
  destruct (flag_given SmallFlag gs) as [x3|] eqn:E3; cbn [bind andb]; [|reflexivity].
  destruct (flag_given ParallelFlag gs) as [x4|] eqn:E4; cbn [bind andb]; [|reflexivity].
  destruct (number_given 64 LengthOption gs) as [x5|] eqn:E5; cbn [bind andb]; [|reflexivity].
  destruct (text_given KeyOption gs) as [x6|] eqn:E6; cbn [bind andb]; [|reflexivity].
  destruct (text_given SaltOption gs) as [x7|] eqn:E7; cbn [bind andb]; [|reflexivity].
  destruct (text_given PersonalOption gs) as [x8|] eqn:E8; cbn [bind andb]; [|reflexivity].
  destruct (number_given 8 FanoutOption gs) as [x9|] eqn:E9; cbn [bind andb]; [|reflexivity].
  destruct (number_given 8 MaxDepthOption gs) as [x10|] eqn:E10; cbn [bind andb]; [|reflexivity].
  destruct (number_given 32 MaxLeafLengthOption gs) as [x11|] eqn:E11; cbn [bind andb]; [|reflexivity].
  destruct (number_given 64 NodeOffsetOption gs) as [x12|] eqn:E12; cbn [bind andb]; [|reflexivity].
  destruct (number_given 8 NodeDepthOption gs) as [x13|] eqn:E13; cbn [bind andb]; [|reflexivity].
  destruct (number_given 64 InnerHashLengthOption gs) as [x14|] eqn:E14; cbn [bind andb]; [|reflexivity].
  destruct (flag_given LastNodeFlag gs) as [x15|] eqn:E15; cbn [bind andb]; [|reflexivity].
  unfold from_clap.
  rewrite (number_fill LengthOption 64 _ E5 : number_of 64 "length" m = _),
    (number_fill FanoutOption 8 _ E9 : number_of 8 "fanout" m = _),
    (number_fill MaxDepthOption 8 _ E10 : number_of 8 "max-depth" m = _),
    (number_fill MaxLeafLengthOption 32 _ E11 : number_of 32 "max-leaf-length" m = _),
    (number_fill NodeOffsetOption 64 _ E12 : number_of 64 "node-offset" m = _),
    (number_fill NodeDepthOption 8 _ E13 : number_of 8 "node-depth" m = _),
    (number_fill InnerHashLengthOption 64 _ E14 : number_of 64 "inner-hash-length" m = _),
    (flag_fill MmapFlag _ E1 : is_present "mmap" m = _), (flag_fill BigFlag _ E2 : is_present "big" m = _),
    (flag_fill SmallFlag _ E3 : is_present "small" m = _), (flag_fill ParallelFlag _ E4 : is_present "parallel" m = _),
    (flag_fill LastNodeFlag _ E15 : is_present "last-node" m = _),
    (text_fill KeyOption _ E6 : value_of "key" m = _), (text_fill SaltOption _ E7 : value_of "salt" m = _),
    (text_fill PersonalOption _ E8 : value_of "personal" m = _).
  unfold m. rewrite noted_inputs. reflexivity.
Qed.

Lemma legible_parts : legible gs <-> Forall text (paths gs) /\ forall v, Forall text (texts v gs).
Proof.
  clear m. unfold legible. induction gs as [|i l IH]; [split; [intros _; split; [constructor|intros v; constructor]|constructor]|].
  rewrite Forall_cons_iff, IH. unfold paths, texts in *. cbn [flat_map]. destruct i as [f|w t|p].
  - cbn [app]. tauto.
  - cbn [app]. split.
    + intros (T & P & V). split; [exact P|]. intros v. destruct (valued_eqb v w); [constructor; auto|apply V].
    + intros (P & V). assert (E : forall x, valued_eqb x x = true) by (intros x; apply String.eqb_refl).
      split; [|split; [exact P|]].
      * specialize (V w). rewrite E in V. now inversion V.
      * intros v. specialize (V v). destruct (valued_eqb v w); [now inversion V|exact V].
  - rewrite Forall_app, Forall_cons_iff. cbn [app]. split.
    + intros (T & P & V). auto.
    + intros (((T & _) & P) & V). auto.
Qed.
Lemma number_text bits v x : number_given bits v gs = Some x -> Forall text (texts v gs).
Proof.
  unfold number_given, text_given. destruct (texts v gs) as [|t [|y l]]; [constructor| |discriminate].
  destruct (numeral bits t) as [n|] eqn:E; [|discriminate]. intros _. constructor; [|constructor].
  exact (numeral_text _ _ _ E).
Qed.
Lemma all_utf8_spec o : meaning gs = Some o -> (all_utf8 m = true <-> legible gs).
Proof.
  intros M. rewrite legible_parts. unfold all_utf8, m. rewrite noted_inputs. cbn [no_matches inputs app forallb].
  change "key"%string with (vname KeyOption). change "salt"%string with (vname SaltOption).
  change "personal"%string with (vname PersonalOption). rewrite !noted_values. cbn [no_matches vals values_of filter map app].
  rewrite andb_true_r, !andb_true_iff, !forallb_utf8. unfold meaning in M.
  repeat match type of M with
  | (let? x := number_given ?b ?v ?g in _) = _ =>
      let E := fresh "E" in destruct (number_given b v g) eqn:E; cbn [bind] in M; [|discriminate M]; apply number_text in E
  | (let? x := ?e in _) = _ => destruct e; cbn [bind] in M; [|discriminate M]
  end.
  split.
  - intros (P & K & S & Q). split; [exact P|]. intros []; assumption.
  - intros (P & V). repeat split; auto.
Qed.
End Final.
(** What a command line gives is text if its words are. *)
Lemma text_prefix a b : (forall c, In c (list_ascii_of_string a) -> N_of_ascii c < 128) -> (text (a ++ b) <-> text b).
Proof.
  induction a as [|c a IH]; intros H; [reflexivity|]. cbn [append]. rewrite text_ascii by (apply H; left; reflexivity).
  apply IH. intros d I. apply H. right. exact I.
Qed.
Lemma text_whole a : (forall c, In c (list_ascii_of_string a) -> N_of_ascii c < 128) -> text a.
Proof.
  induction a as [|c a IH]; intros H; [apply text_nil|].
  apply text_ascii; [apply H; left; reflexivity|]. apply IH. intros d I. apply H. right. exact I.
Qed.
Lemma letters_ascii fs s : letters fs s -> forall c, In c (list_ascii_of_string s) -> N_of_ascii c < 128.
Proof.
  induction 1 as [|f c fs s E L IH]; intros d I; [destruct I|]. destruct I as [<-|I]; [|exact (IH d I)].
  destruct f; try discriminate E; injection E as <-; reflexivity.
Qed.
Lemma spelled_text gs ws : spelled gs ws -> (legible gs <-> Forall text ws).
Proof.
  unfold legible.
  induction 1 as [|p gs ws P H IH|f w gs ws E H IH|f fs s gs ws L H IH|v t gs ws N H IH|v t gs ws P H IH].
  - split; constructor.
  - rewrite !Forall_cons_iff, IH. tauto.
  - rewrite !Forall_cons_iff, IH. assert (T : text w).
    { apply text_whole. destruct f; try discriminate E; injection E as <-; cbn; intuition subst; reflexivity. }
    tauto.
  - rewrite Forall_app, Forall_cons_iff, IH.
    assert (T : text ("-" ++ s)).
    { cbn [append]. apply text_ascii; [reflexivity|]. apply text_whole. exact (letters_ascii _ _ L). }
    assert (Q : Forall (fun i => match i with Flag _ => True | Valued _ t => text t | Input p => text p end) (map Flag (f :: fs)))
      by (apply Forall_map, Forall_forall; intros; exact I).
    tauto.
  - rewrite !Forall_cons_iff, IH.
    assert (T : text (long_option v ++ "=" ++ t) <-> text t).
    { rewrite text_prefix by (destruct v; cbn; intuition subst; reflexivity). cbn [append]. apply text_ascii. reflexivity. }
    tauto.
  - rewrite !Forall_cons_iff, IH.
    assert (T : text (long_option v)) by (apply text_whole; destruct v; cbn; intuition subst; reflexivity).
    tauto.
Qed.
Lemma command_line_text gs ws : command_line gs ws -> (legible gs <-> Forall text ws).
Proof.
  intros H. destruct H as [gs ws H|gs ws ps H]; [exact (spelled_text gs ws H)|].
  unfold legible. rewrite !Forall_app, Forall_cons_iff. fold (legible gs). rewrite (spelled_text gs ws H), Forall_map.
  assert (T : text "--") by (apply text_whole; cbn; intuition subst; reflexivity). tauto.
Qed.
Theorem from_args_spec gs ws : command_line gs ws -> Forall text ws ->
  from_args ws = match meaning gs with Some o => Parsed o (paths gs) | None => Stopped UsageError end.
Proof.
  intros H L. rewrite <- (command_line_text gs ws H) in L. unfold from_args. rewrite (command_line_matches gs ws H). pose proof (matched gs) as E.
  destruct (meaning gs) as [o|] eqn:M.
  - rewrite (proj2 (all_utf8_spec gs o M) L). exact E.
  - destruct (forallb _ declared); [|exact E]. destruct (from_clap _) as [[? ?]|]; discriminate E.
Qed.
Theorem from_args_not_text gs ws : command_line gs ws -> ~ Forall text ws ->
  from_args ws = Stopped (match meaning gs with Some _ => InvalidUtf8 | None => UsageError end).
Proof.
  intros H L. rewrite <- (command_line_text gs ws H) in L. unfold from_args. rewrite (command_line_matches gs ws H). pose proof (matched gs) as E.
  destruct (meaning gs) as [o|] eqn:M.
  - destruct (forallb _ declared); [|discriminate E].
    destruct (all_utf8 _) eqn:U; [|reflexivity]. apply (all_utf8_spec gs o M) in U. contradiction.
  - destruct (forallb _ declared); [|exact E]. destruct (from_clap _) as [[? ?]|]; discriminate E.
Qed.

(** ** Every command line *)
Lemma number_typed bits n m x : number_of bits n m = Some (Some x) -> x < 2 ^ bits.
Proof.
  unfold number_of. destruct (value_of n m) as [t|]; [|discriminate]. rewrite from_str_spec.
  destruct (numeral bits t) as [y|] eqn:E; [|discriminate]. intros H. injection H as <-. exact (numeral_below _ _ _ E).
Qed.
Lemma number_sure m a bits : width a = Some bits -> valid_arg m a = true -> exists x, number_of bits (name a) m = Some x.
Proof.
  intros W V. unfold valid_arg in V. rewrite W in V. apply andb_true_iff in V as [_ V]. unfold number_of, value_of.
  destruct (values_of (name a) m) as [|t l]; [eauto|]. cbn [forallb] in V. apply andb_true_iff in V as [V _].
  destruct (from_str bits t); [eauto|discriminate].
Qed.
Lemma from_clap_sure m : forallb (valid_arg m) declared = true ->
  exists o, from_clap m = Some (o, inputs m) /\ typed_options o.
Proof.
  intros V. rewrite forallb_forall in V.
  assert (Nu : forall n l bits, In (opt_number n l bits) declared -> exists x, number_of bits n m = Some x).
  { intros n l bits I. apply (number_sure m (opt_number n l bits) bits eq_refl (V _ I)). }
  destruct (Nu "length" "length" 64)%string as [x1 E1]; [cbn; tauto|].
  destruct (Nu "fanout" "fanout" 8)%string as [x2 E2]; [cbn; tauto|].
  destruct (Nu "max-depth" "max-depth" 8)%string as [x3 E3]; [cbn; tauto|].
  destruct (Nu "max-leaf-length" "max-leaf-length" 32)%string as [x4 E4]; [cbn; tauto|].
  destruct (Nu "node-offset" "node-offset" 64)%string as [x5 E5]; [cbn; tauto|].
  destruct (Nu "node-depth" "node-depth" 8)%string as [x6 E6]; [cbn; tauto|].
  destruct (Nu "inner-hash-length" "inner-hash-length" 64)%string as [x7 E7]; [cbn; tauto|].
  unfold from_clap. rewrite E1, E2, E3, E4, E5, E6, E7. eexists. split; [reflexivity|].
  unfold typed_options, requests.
  cbn [o_length o_key o_salt o_personal o_fanout o_max_depth o_max_leaf_length o_node_offset o_node_depth o_inner_hash_length o_last_node].
  assert (K : forall v (P : list Byte.byte -> setting), (forall k, typed (P k)) ->
    Forall (fun r => match r with Some s => typed s | None => True end) (asks v (fun s => option_map P (hex_bytes s)))).
  { intros [s|] P T; cbn [asks]; constructor; [|constructor]. destruct (hex_bytes s); [apply T|exact I]. }
  assert (Q : forall bits x n (P : N -> setting), number_of bits n m = Some x -> (forall k, k < 2 ^ bits -> typed (P k)) ->
    Forall (fun r => match r with Some s => typed s | None => True end) (asks x (fun v => Some (P v)))).
  { intros bits [x|] n P E T; cbn [asks]; constructor; [|constructor]. apply T. exact (number_typed _ _ _ _ E). }
  repeat (apply Forall_app; split).
  all: try (apply K; intros k; exact I).
  - destruct x1; constructor; [exact I|constructor].
  - exact (Q 8 x2 _ Fanout E2 (fun k H => H)).
  - exact (Q 8 x3 _ MaxDepth E3 (fun k H => H)).
  - exact (Q 32 x4 _ MaxLeafLength E4 (fun k H => H)).
  - exact (Q 64 x5 _ NodeOffset E5 (fun k H => H)).
  - exact (Q 8 x6 _ NodeDepth E6 (fun k H => H)).
  - destruct x7; constructor; [exact I|constructor].
  - destruct (is_present "last-node" m); constructor; [exact I|constructor].
Qed.
(** Pieces of text are text. *)
Lemma high_not c a : N_of_ascii c < 128 -> 128 <= N_of_ascii a -> Ascii.eqb c a = false.
Proof. intros L H. apply Ascii.eqb_neq. intros ->. lia. Qed.
Lemma text_trim c s : N_of_ascii c < 128 -> text s -> text (trim_left c s).
Proof.
  intros C T. induction T as [|a s A T IH|l s H L T IH] using text_induction.
  - apply text_nil.
  - cbn [trim_left]. destruct (Ascii.eqb c a); [exact IH|]. now apply text_ascii.
  - destruct l as [|a l]; [exact IH|]. cbn [string_of_list_ascii append trim_left].
    rewrite (high_not c a C) by now inversion H. exact (L s T).
Qed.
Lemma text_split c s : N_of_ascii c < 128 -> text s ->
  text (fst (split_at c s)) /\ match snd (split_at c s) with Some r => text r | None => True end.
Proof.
  intros C T. induction T as [|a s A T IH|l s H L T IH] using text_induction.
  - split; [apply text_nil|exact I].
  - cbn [split_at]. destruct (Ascii.eqb c a); [split; [apply text_nil|exact T]|].
    destruct (split_at c s) as [x y]. cbn [fst snd] in *. split; [now apply text_ascii|apply IH].
  - assert (E : split_at c (string_of_list_ascii l ++ s) = ((string_of_list_ascii l ++ fst (split_at c s))%string, snd (split_at c s))).
    { clear - C H. induction H as [|a l A H IH]; [apply surjective_pairing|]. cbn [string_of_list_ascii append split_at].
      rewrite (high_not c a C A), IH. reflexivity. }
    rewrite E. cbn [fst snd]. split; [apply L|]; apply IH.
Qed.
Definition all_text (m : matcher) : Prop := Forall text (inputs m) /\ Forall (fun x => text (snd x)) (vals m).
Lemma add_val_text n v m : text v -> all_text m -> all_text (add_val n v m).
Proof. intros T [A B]. split; [exact A|]. cbn. apply Forall_app. split; [exact B|]. constructor; [exact T|constructor]. Qed.
Lemma add_input_text p m : text p -> all_text m -> all_text (add_input p m).
Proof. intros T [A B]. split; [|exact B]. cbn. apply Forall_app. split; [exact A|]. constructor; [exact T|constructor]. Qed.
Lemma inc_text n m : all_text m -> all_text (inc_occurrence n m).
Proof. intros [A B]. split; assumption. Qed.
Definition good (r : parsing (parse_result * matcher)) : Prop :=
  match r with inl (_, m) => all_text m | inr s => s <> InvalidUtf8 end.
Lemma parse_flag_text f m : all_text m -> good (parse_flag f m).
Proof.
  intros A. unfold parse_flag. destruct (String.eqb (name f) "help"); [discriminate|].
  destruct (String.eqb (name f) "version"); [discriminate|]. exact (inc_text _ m A).
Qed.
Lemma parse_long_text full it m : text full -> Forall text it -> all_text m -> good (parse_long_arg full it m).
Proof.
  intros T F A. unfold parse_long_arg.
  pose proof (text_split "=" (trim_left "-" full) eq_refl (text_trim "-" full eq_refl T)) as [W V].
  destruct (split_at "=" (trim_left "-" full)) as [w val]. cbn [fst snd] in W, V.
  destruct (find _ all_args) as [o|].
  - destruct val as [v|]; cbn [parse_opt good].
    + apply inc_text, add_val_text; [apply text_trim; [reflexivity|exact V]|exact A].
    + apply inc_text, A.
  - destruct (find _ all_args) as [f|]; [apply parse_flag_text, A|].
    rewrite (proj2 (forallb_utf8 it) F), (proj2 (utf8_spec w) W). discriminate.
Qed.
Lemma parse_letters_text cs : forall ret m, all_text m -> good (parse_letters cs ret m).
Proof.
  induction cs as [|c cs IH]; intros ret m A; [exact A|]. cbn [parse_letters].
  destruct (find _ all_args) as [f|]; [|discriminate].
  pose proof (parse_flag_text f m A) as G. destruct (parse_flag f m) as [[r m']|s]; [apply IH, G|exact G].
Qed.
Lemma get_matches_text ws : forall trailing nv m, Forall text ws -> all_text m ->
  match get_matches ws trailing nv m with inl m' => all_text m' | inr s => s <> InvalidUtf8 end.
Proof.
  induction ws as [|w ws IH]; intros trailing nv m F A; [exact A|]. inversion F as [|? ? T F']; subst. cbn [get_matches].
  destruct (negb trailing && (w =? "--")%string && is_new_arg w nv); [now apply IH|].
  assert (P : forall nv, match get_matches ws trailing nv (add_input w m) with inl m' => all_text m' | inr s => s <> InvalidUtf8 end)
    by (intros; apply IH; [exact F'|now apply add_input_text]).
  destruct trailing; [apply P|]. destruct (is_new_arg w nv).
  - destruct (starts_dashes w).
    { pose proof (parse_long_text w ws m T F' A) as G. destruct (parse_long_arg w ws m) as [[r m']|s]; [now apply IH|exact G]. }
    destruct (starts_dash w && _); [|apply P].
    pose proof (parse_letters_text (trim_left "-" w) NotFound m A) as G. unfold parse_short_arg.
    destruct (parse_letters (trim_left "-" w) NotFound m) as [[r m']|s]; [|exact G].
    destruct r; [apply IH; [exact F'|now apply add_input_text]|now apply IH|now apply IH|now apply IH].
  - destruct nv; try apply P. apply IH; [exact F'|now apply add_val_text].
Qed.
Theorem from_args_always ws :
  match from_args ws with
  | Parsed o ps => typed_options o /\ Forall text ps
  | Stopped InvalidUtf8 => ~ Forall text ws
  | Stopped _ => True
  | UnwrapPanic => False
  end.
Proof.
  unfold from_args.
  assert (G : Forall text ws -> match get_matches ws false NotFound no_matches with inl m' => all_text m' | inr s => s <> InvalidUtf8 end).
  { intros F. apply get_matches_text; [exact F|split; constructor]. }
  destruct (get_matches ws false NotFound no_matches) as [m|s].
  - destruct (forallb (valid_arg m) declared) eqn:V; [|exact I].
    destruct (all_utf8 m) eqn:U.
    + destruct (from_clap_sure m V) as (o & E & T). rewrite E. split; [exact T|].
      unfold all_utf8 in U. apply andb_true_iff in U as [U _]. now apply forallb_utf8.
    + intros F. destruct (G F) as [A B]. enough (X : all_utf8 m = true) by congruence.
      unfold all_utf8. rewrite (proj2 (forallb_utf8 _) A). apply forallb_forall. intros n _. apply forallb_utf8.
      unfold values_of. apply Forall_map. apply Forall_forall. intros x I. apply filter_In in I as [I _].
      rewrite Forall_forall in B. exact (B x I).
  - destruct s; try exact I. intros F. exact (G F eq_refl).
Qed.

(** ** Words that are refused *)
Lemma split_name s : fst (split_at "=" s) = up_to_equals s.
Proof.
  induction s as [|c s IH]; [reflexivity|]. cbn [split_at up_to_equals]. rewrite Ascii.eqb_sym.
  destruct (Ascii.eqb c "="); [reflexivity|]. destruct (split_at "=" s) as [a b]. cbn [fst] in *. congruence.
Qed.
Lemma not_known w : ~ In w known_names -> forall b : bool, find (fun a => (if b then takes_value a else negb (takes_value a)) && has_long w a) all_args = None.
Proof.
  intros H b. unfold known_names in H.
  assert (E : forall l, In l known_names -> String.eqb l w = false).
  { intros l I. apply String.eqb_neq. intros ->. exact (H I). }
  destruct (find _ all_args) as [a|] eqn:F; [|reflexivity]. apply find_some in F as [I F].
  apply andb_true_iff in F as [_ F]. exfalso.
  assert (A : forall a, In a all_args -> match long a with Some l => In l known_names | None => True end).
  { apply Forall_forall. unfold all_args, declared. cbn [app].
    repeat (apply Forall_cons; [cbn; tauto|]). constructor. }
  specialize (A a I). unfold has_long in F. destruct (long a) as [l|]; [|discriminate]. rewrite (E l A) in F. discriminate.
Qed.
Lemma unknown_step w rest nv m : unknown w -> settled nv ->
  get_matches (w :: rest) false nv m = inr UsageError \/ get_matches (w :: rest) false nv m = inr InvalidUtf8.
Proof.
  intros U S. destruct U as [c s NE K|fs s c r L K].
  - cbn [get_matches].
    assert (P : exists s', parse_long_arg ("--" ++ String c s) rest m = inr s' /\ (s' = UsageError \/ s' = InvalidUtf8)).
    { unfold parse_long_arg. change (trim_left "-" ("--" ++ String c s)) with (trim_left "-" (String c s)).
      cbn [trim_left]. destruct (Ascii.eqb_spec "-" c); [congruence|].
      destruct (split_at "=" (String c s)) as [w val] eqn:E.
      assert (W : w = up_to_equals (String c s)) by (rewrite <- split_name, E; reflexivity). rewrite <- W in K.
      pose proof (not_known w K true) as T1. pose proof (not_known w K false) as T2. cbn iota in T1, T2. rewrite T1, T2.
      eexists. split; [reflexivity|]. destruct (forallb utf8 rest && utf8 w); auto. }
    destruct P as (s' & P & O). rewrite P. change ("--" ++ String c s)%string with (String "-" (String "-" (String c s))). rewrite is_new_dashes.
    cbn [String.eqb Ascii.eqb Bool.eqb andb negb starts_dashes]. destruct O as [-> | ->]; auto.
  - left. assert (F : forall x, find (fun a => negb (takes_value a) && has_short c a) all_args = Some x -> False).
    { intros x F. apply find_some in F as [I F]. apply andb_true_iff in F as [_ F].
      assert (A : forall a, In a all_args -> match short a with Some l => In l ["-"; "b"; "s"; "p"; "h"; "V"]%char | None => True end).
      { apply Forall_forall. unfold all_args, declared. cbn [app].
        repeat (apply Forall_cons; [cbn; tauto|]). constructor. }
      specialize (A x I). unfold has_short in F. destruct (short x) as [d|]; [|discriminate].
      apply Ascii.eqb_eq in F as ->. exact (K A). }
    assert (F' : find (fun a => negb (takes_value a) && has_short c a) all_args = None)
      by (destruct (find _ all_args); [exfalso; eapply F; reflexivity|reflexivity]).
    assert (D : exists d q, (s ++ String c r)%string = String d q /\ d <> "-"%char).
    { destruct L as [|f d fs s E L].
      - exists c, r. split; [reflexivity|]. intros ->. apply K. left. reflexivity.
      - exists d, (s ++ String c r)%string. split; [reflexivity|]. destruct f; try discriminate E; injection E as <-; discriminate. }
    destruct D as (d & q & D & ND).
    assert (P : parse_short_arg ("-" ++ s ++ String c r) m = inr UsageError).
    { unfold parse_short_arg. change (trim_left "-" ("-" ++ s ++ String c r)) with (trim_left "-" (s ++ String c r)).
      rewrite D. cbn [trim_left]. destruct (Ascii.eqb_spec "-" d); [congruence|]. rewrite <- D.
      rewrite (letters_step fs s L). cbn [parse_letters]. rewrite F'. reflexivity. }
    cbn [get_matches]. rewrite P, D.
    assert (E1 : String.eqb ("-" ++ String d q) "--" = false).
    { cbn [String.append String.eqb]. change (Ascii.eqb "-" "-") with true. cbn iota.
      destruct (Ascii.eqb_spec d "-"); [congruence|]. reflexivity. }
    assert (E2 : starts_dashes ("-" ++ String d q) = false).
    { cbn [String.append]. destruct d as [[] [] [] [] [] [] [] []]; try reflexivity. contradiction ND; reflexivity. }
    assert (E3 : is_new_arg ("-" ++ String d q) nv = true).
    { unfold is_new_arg. rewrite E2. destruct nv; reflexivity. }
    rewrite E1, E2, E3. cbn [andb negb String.append starts_dash String.length Nat.eqb]. reflexivity.
Qed.
Theorem unknown_refused gs ws w rest : spelled gs ws -> unknown w ->
  from_args (ws ++ w :: rest) = Stopped UsageError \/ from_args (ws ++ w :: rest) = Stopped InvalidUtf8.
Proof.
  intros H U. unfold from_args. destruct (spelled_step gs ws H (w :: rest) NotFound no_matches I) as (nv & S & E).
  rewrite E. destruct (unknown_step w rest nv (noted gs no_matches) U S) as [-> | ->]; auto.
Qed.
Lemma in_declared v : exists a, In a declared /\ name a = vname v /\ takes_value a = true.
Proof.
  destruct v; [exists (opt_number "length" "length" 64)|exists (opt_string "key" "key")|exists (opt_string "salt" "salt")
    |exists (opt_string "personal" "personal")|exists (opt_number "fanout" "fanout" 8)|exists (opt_number "max-depth" "max-depth" 8)
    |exists (opt_number "max-leaf-length" "max-leaf-length" 32)|exists (opt_number "node-offset" "node-offset" 64)
    |exists (opt_number "node-depth" "node-depth" 8)|exists (opt_number "inner-hash-length" "inner-hash-length" 64)];
  (split; [cbn; tauto|split; reflexivity]).
Qed.
Theorem missing_refused gs ws v : spelled gs ws -> from_args (ws ++ [long_option v]) = Stopped UsageError.
Proof.
  intros H. unfold from_args. destruct (spelled_step gs ws H [long_option v] NotFound no_matches I) as (nv & St & E).
  rewrite E, option_alone. cbn [get_matches].
  set (m := inc_occurrence (vname v) (noted gs no_matches)).
  assert (F : forallb (valid_arg m) declared = false).
  { destruct (in_declared v) as (a & IN & NA & TA).
    destruct (forallb (valid_arg m) declared) eqn:F; [|reflexivity]. rewrite forallb_forall in F. specialize (F a IN).
    unfold valid_arg in F. rewrite NA, TA in F. unfold m in F. cbn [occurs inc_occurrence] in F.
    rewrite count_app, noted_count_valued in F.
    change (values_of (vname v) (inc_occurrence (vname v) (noted gs no_matches))) with (values_of (vname v) (noted gs no_matches)) in F.
    rewrite noted_values in F.
    replace (count (vname v) [vname v]) with 1%nat in F by (destruct v; reflexivity).
    cbn [no_matches occurs vals values_of filter map count length app Nat.add] in F.
    destruct (texts v gs) as [|t l]; [discriminate F|].
    cbn [length] in F. replace (Nat.ltb 1 (S (length l) + 1)) with true in F by (symmetry; apply Nat.ltb_lt; lia).
    discriminate F. }
  rewrite F. reflexivity.
Qed.

(** ** The order of the options *)
Lemma flags_permute f gs hs : Permutation gs hs -> length (flags f gs) = length (flags f hs).
Proof.
  intros P. induction P; unfold flags in *; cbn [filter] in *; try congruence.
  - destruct (match x with Flag g => flag_eqb f g | _ => false end); cbn [length]; congruence.
  - destruct (match x with Flag g => flag_eqb f g | _ => false end), (match y with Flag g => flag_eqb f g | _ => false end); reflexivity.
Qed.
Lemma texts_permute v gs hs : Permutation gs hs -> Permutation (texts v gs) (texts v hs).
Proof.
  intros P. induction P; unfold texts in *; cbn [flat_map] in *.
  - constructor.
  - apply Permutation_app_head. exact IHP.
  - rewrite !app_assoc. apply Permutation_app_tail, Permutation_app_comm.
  - eapply perm_trans; eassumption.
Qed.
Lemma flag_given_permute f gs hs : Permutation gs hs -> flag_given f gs = flag_given f hs.
Proof.
  intros P. pose proof (flags_permute f gs hs P) as L. unfold flag_given.
  destruct (flags f gs) as [|x [|y l]], (flags f hs) as [|x' [|y' l']]; try discriminate L; reflexivity.
Qed.
Lemma text_given_permute v gs hs : Permutation gs hs -> text_given v gs = text_given v hs.
Proof.
  intros P. pose proof (texts_permute v gs hs P) as L. unfold text_given.
  pose proof (Permutation_length L) as N.
  destruct (texts v gs) as [|x [|y l]], (texts v hs) as [|x' [|y' l']]; try discriminate N; try reflexivity.
  apply Permutation_length_1 in L as ->. reflexivity.
Qed.
Theorem meaning_permute gs hs : Permutation gs hs -> meaning gs = meaning hs.
Proof.
  intros P. unfold meaning, number_given.
  rewrite !(fun f => flag_given_permute f gs hs P), !(fun v => text_given_permute v gs hs P). reflexivity.
Qed.
Theorem help_shown gs ws w i rest :
  spelled gs ws -> In (w, i) [("--help", Help); ("-h", Help); ("--version", Version); ("-V", Version)]%string ->
  from_args (ws ++ w :: rest) = Stopped (Shown i).
Proof.
  intros H K. unfold from_args. destruct (spelled_step gs ws H (w :: rest) NotFound no_matches I) as (nv & S & E). rewrite E.
  assert (P : get_matches (w :: rest) false nv (noted gs no_matches) = inr (Shown i)).
  { cbn [In] in K. destruct K as [K|[K|[K|[K|[]]]]]; injection K as <- <-; destruct nv; reflexivity. }
  rewrite P. reflexivity.
Qed.
