(** Proofs about the command-line tool. *)
From Coq Require Import String Ascii.
From Coq Require Import ZArith Arith NArith List Bool Lia ZifyBool ZifyNat ZifyN.
From Coq Require Import Init.Byte Strings.Byte.
From Verif Require Import Base ByteLemmas Guts KernelSpec Simd Impl Sched Lib Many Par.
From Verif Require Import Loops LaneLoops SchedProof StateProof ParamsProof FedProof ManyProof ParProof ParFed HashProof.
From Verif Require Import Machine Api ApiProof History Runs HistoryProof BatchProof Calls InjProof Words Laws.
From Verif Require Import BinSpec Bin.
From Verif Require Spec ApiSpec.
Import ListNotations.
Open Scope list_scope.
Open Scope N_scope.
Local Notation length := List.length.

(** ** Hexadecimal *)
Lemma hex_val_spec c : hex_val c = hex_letter c.
Proof. destruct c as [[] [] [] [] [] [] [] []]; reflexivity. Qed.

Lemma hex_val_lt c x : hex_val c = Some x -> x < 16.
Proof.
  unfold hex_val. intros H.
  repeat (match type of H with (if ?b then _ else _) = _ => destruct b eqn:? end; [injection H as <-; lia|]). discriminate.
Qed.

Lemma nibbles x y : x < 16 -> y < 16 -> N.lor (N.shiftl x 4) y = 16 * x + y.
Proof.
  intros Hx Hy. rewrite <- (N.lor_0_r (16 * x + y)). 
  assert (C : forall n, n < 16 -> In n [0; 1; 2; 3; 4; 5; 6; 7; 8; 9; 10; 11; 12; 13; 14; 15]).
  { intros n Hn. cbn [In]. lia. }
  pose proof (C x Hx) as Ix. pose proof (C y Hy) as Iy. cbn [In] in Ix, Iy.
  repeat (destruct Ix as [<-|Ix]; [repeat (destruct Iy as [<-|Iy]; [reflexivity|]); contradiction|]). contradiction.
Qed.

Fixpoint two_ind (P : string -> Prop) (H0 : P EmptyString) (H1 : forall a, P (String a EmptyString))
    (H2 : forall a b r, P r -> P (String a (String b r))) (s : string) : P s :=
  match s with
  | EmptyString => H0
  | String a EmptyString => H1 a
  | String a (String b r) => H2 a b r (two_ind P H0 H1 H2 r)
  end.

Lemma append_assoc (a b c : string) : ((a ++ b) ++ c)%string = (a ++ (b ++ c))%string.
Proof. induction a as [|x a IH]; cbn; [reflexivity|]. now rewrite IH. Qed.
Lemma escape_debug_spec c : ("'" ++ escape_debug c ++ "'")%string = quoted (N_of_ascii c).
Proof. destruct c as [[] [] [] [] [] [] [] []]; reflexivity. Qed.
Lemma invalid_spec c i : invalid_hex_character c (N.of_nat i) =
  Said ("Invalid character " ++ quoted (N_of_ascii c) ++ " at position " ++ decimal_numeral i)%string.
Proof. unfold invalid_hex_character. rewrite <- escape_debug_spec, !append_assoc. reflexivity. Qed.

Definition said (l : list string) : reason := Said (hd ""%string l).
Lemma hex_pairs_spec s : Nat.odd (String.length s) = false -> forall i,
  hex_pairs (N.of_nat i) s = match hex_bytes s with Some bs => Ok bs | None => Error (said (bad_digits (2 * i) s)) end /\
  (hex_bytes s = None <-> bad_digits (2 * i) s <> []).
Proof.
  induction s as [|a|a b r IH] using two_ind; [intros _ i; split; [reflexivity|split; [discriminate|contradiction]]|discriminate|].
  intros O i. specialize (IH O (S i)). replace (2 * S i)%nat with (S (S (2 * i))) in IH by lia.
  replace (N.of_nat (S i)) with (N.of_nat i + 1) in IH by lia. destruct IH as (IH & NP).
  cbn [hex_pairs hex_bytes bad_digits]. rewrite <- !hex_val_spec.
  replace (2 * N.of_nat i) with (N.of_nat (2 * i)) by lia. replace (N.of_nat (2 * i) + 1) with (N.of_nat (S (2 * i))) by lia.
  destruct (hex_val a) as [x|] eqn:Ea; [|cbn [app]; split; [rewrite invalid_spec; reflexivity|split; [discriminate|reflexivity]]].
  destruct (hex_val b) as [y|] eqn:Eb; [|cbn [app]; split; [rewrite invalid_spec; reflexivity|split; [discriminate|reflexivity]]].
  cbn [app]. rewrite IH. rewrite nibbles by eauto using hex_val_lt.
  destruct (hex_bytes r) as [bs|]; [|split; [reflexivity|exact NP]].
  assert (B : (16 * x + y) < 256) by (pose proof (hex_val_lt _ _ Ea); pose proof (hex_val_lt _ _ Eb); lia).
  destruct (Byte.of_N (16 * x + y)) eqn:E; cbn [option_map]; [split; [reflexivity|]|].
  - split; [discriminate|]. intros K. apply NP in K. discriminate K.
  - apply Byte.of_N_None_iff in E. lia.
Qed.
Lemma odd_bytes s : Nat.odd (String.length s) = true -> hex_bytes s = None.
Proof.
  induction s as [|a|a b r IH] using two_ind; [discriminate|reflexivity|]. intros O. cbn [hex_bytes].
  destruct (hex_letter a), (hex_letter b); try reflexivity. rewrite (IH O). reflexivity.
Qed.
Lemma hex_decode_spec s : hex_decode s = match hex_bytes s with Some bs => Ok bs | None => Error (said (hex_problems s)) end.
Proof.
  unfold hex_decode, hex_problems. destruct (Nat.odd (String.length s)) eqn:O; [now rewrite (odd_bytes s O)|].
  exact (proj1 (hex_pairs_spec s O 0)).
Qed.
Lemma hex_problems_spec s : hex_bytes s = None <-> hex_problems s <> [].
Proof.
  unfold hex_problems. destruct (Nat.odd (String.length s)) eqn:O; [rewrite (odd_bytes s O); split; [discriminate|reflexivity]|].
  exact (proj2 (hex_pairs_spec s O 0)).
Qed.

(** ** make_params as a fold over the requests *)
(** A request with the option's name and what is wrong with its hexadecimal. *)
Definition ask : Type := string * list string * option ApiSpec.setting.
Definition unsupported (name : string) : string := (name ++ " not supported")%string.
Definition gstep (p : tool_params) (r : ask) : outcome (result tool_params) :=
  let '(name, bad, r) := r in
  match r with
  | None => Ret (Error (said bad))
  | Some s =>
      match p with
      | P2b p => set_on P2b (call_setter V2b s) p
      | P2s p => set_on P2s (call_setter V2s s) p
      | P2bp p => match for_parallel s with Some s => set_on P2bp (call_psetter V2b s) p | None => Ret (Error (said [unsupported name])) end
      | P2sp p => match for_parallel s with Some s => set_on P2sp (call_psetter V2s s) p | None => Ret (Error (said [unsupported name])) end
      end
  end.
Fixpoint gfold (p : tool_params) (rs : list ask) : outcome (result tool_params) :=
  match rs with [] => Ret (Ok p) | r :: rest => try p <- gstep p r; gfold p rest end.

Lemma rbind_ext {A B} (x y : outcome (result A)) (k l : A -> outcome (result B)) :
  x = y -> (forall a, k a = l a) -> rbind x k = rbind y l.
Proof. intros -> H. unfold rbind. destruct y as [[a|]| | |]; cbn [bind]; auto. Qed.
Lemma rbind_assoc {A B C} (x : outcome (result A)) (k : A -> outcome (result B)) (l : B -> outcome (result C)) :
  rbind (rbind x k) l = rbind x (fun a => rbind (k a) l).
Proof. unfold rbind. destruct x as [[a|]| | |]; reflexivity. Qed.
Lemma rbind_ok {A} (x : outcome (result A)) : rbind x (fun a => Ret (Ok a)) = x.
Proof. unfold rbind. destruct x as [[a|]| | |]; reflexivity. Qed.

Lemma gfold_app a : forall p b, gfold p (a ++ b) = try p <- gfold p a; gfold p b.
Proof.
  induction a as [|r a IH]; intros p b; [reflexivity|]. cbn [app gfold]. rewrite rbind_assoc.
  apply rbind_ext; auto.
Qed.
(** As [asks], named. *)
Definition named {A} (name : string) (x : option A) (bad : A -> list string) (k : A -> option ApiSpec.setting) : list ask :=
  match x with Some a => [(name, bad a, k a)] | None => [] end.
Definition fine_ {A} (_ : A) : list string := [].
Definition labelled (o : options) : list ask :=
  named "--length" (o_length o) fine_ (fun n => Some (ApiSpec.HashLength n)) ++
  named "--key" (o_key o) hex_problems (fun s => option_map ApiSpec.Key (hex_bytes s)) ++
  named "--salt" (o_salt o) hex_problems (fun s => option_map ApiSpec.Salt (hex_bytes s)) ++
  named "--personal" (o_personal o) hex_problems (fun s => option_map ApiSpec.Personal (hex_bytes s)) ++
  named "--fanout" (o_fanout o) fine_ (fun x => Some (ApiSpec.Fanout x)) ++
  named "--max-depth" (o_max_depth o) fine_ (fun x => Some (ApiSpec.MaxDepth x)) ++
  named "--max-leaf-length" (o_max_leaf_length o) fine_ (fun x => Some (ApiSpec.MaxLeafLength x)) ++
  named "--node-offset" (o_node_offset o) fine_ (fun x => Some (ApiSpec.NodeOffset x)) ++
  named "--node-depth" (o_node_depth o) fine_ (fun x => Some (ApiSpec.NodeDepth x)) ++
  named "--inner-hash-length" (o_inner_hash_length o) fine_ (fun n => Some (ApiSpec.InnerHashLength n)) ++
  named "--last-node" (if o_last_node o then Some tt else None) fine_ (fun _ => Some (ApiSpec.LastNode true)).
Lemma named_asks {A} n (x : option A) bad k : map snd (named n x bad k) = asks x k.
Proof. destruct x; reflexivity. Qed.
Lemma labelled_requests o : map snd (labelled o) = requests o.
Proof. unfold labelled, requests. rewrite !map_app, !named_asks. reflexivity. Qed.
Lemma gfold_named {A} n (x : option A) bad k p : gfold p (named n x bad k) = if_some x p (fun a p => gstep p (n, bad a, k a)).
Proof. destruct x; cbn [named gfold if_some]; [apply rbind_ok|reflexivity]. Qed.
Lemma if_some_ext {A} (x : option A) p k l : (forall a p, k a p = l a p) -> if_some x p k = if_some x p l.
Proof. intros H. destruct x; cbn; auto. Qed.

(** What is wrong with a request. *)
Definition complaints (par : bool) (r : ask) : list string :=
  let '(name, bad, r) := r in
  bad ++ (if par && match r with Some s => negb (given (for_parallel s)) | None => negb (String.eqb name "--key") end
          then [unsupported name] else []).
Lemma named_none {A} par n (x : option A) k :
  (forall a, given (k a) = true /\ forall s, k a = Some s -> for_parallel s = None) ->
  flat_map (complaints par) (named n x fine_ k) = if par && given x then [unsupported n] else [].
Proof.
  intros H. destruct x as [a|]; cbn [named flat_map given]; [|now rewrite andb_false_r].
  destruct (H a) as (G & N). unfold complaints, fine_. destruct (k a) as [s|]; [|discriminate]. rewrite (N s eq_refl). cbn.
  rewrite app_nil_r. reflexivity.
Qed.
Lemma named_hex par n (x : option string) k : n <> "--key"%string ->
  (forall b, for_parallel (k b) = None) ->
  flat_map (complaints par) (named n x hex_problems (fun s => option_map k (hex_bytes s))) =
  malformed x ++ if par && given x then [unsupported n] else [].
Proof.
  intros NK H. destruct x as [a|]; cbn [named flat_map given malformed]; [|now rewrite andb_false_r].
  unfold complaints. rewrite app_nil_r. f_equal. destruct (hex_bytes a) as [b|]; cbn [option_map]; [now rewrite (H b)|].
  apply String.eqb_neq in NK. now rewrite NK.
Qed.
Lemma labelled_problems o : problems o =
  (if o_big o && o_small o then ["-b and -s can't be used together"%string] else []) ++
  flat_map (complaints (o_parallel o)) (labelled o).
Proof.
  unfold problems, labelled. cbv zeta. f_equal. rewrite !flat_map_app.
  assert (L : flat_map (complaints (o_parallel o)) (named "--length" (o_length o) fine_ (fun n => Some (ApiSpec.HashLength n))) = []).
  { destruct (o_length o); [|reflexivity]. cbn. now rewrite andb_false_r. }
  assert (K : flat_map (complaints (o_parallel o)) (named "--key" (o_key o) hex_problems (fun s => option_map ApiSpec.Key (hex_bytes s))) = malformed (o_key o)).
  { destruct (o_key o) as [s|]; [|reflexivity]. cbn [named flat_map malformed]. unfold complaints.
    destruct (hex_bytes s); cbn; rewrite andb_false_r, !app_nil_r; reflexivity. }
  rewrite L, K.
  rewrite (named_hex _ "--salt"), (named_hex _ "--personal") by (try discriminate; reflexivity).
  rewrite !named_none by (intros a; split; [reflexivity|intros s E; injection E as <-; reflexivity]).
  cbn [app]. rewrite <- !app_assoc. unfold unsupported.
  replace (given (if o_last_node o then Some tt else None)) with (o_last_node o) by (destruct (o_last_node o); reflexivity).
  reflexivity.
Qed.

Definition first_params (t : target) (o : options) : tool_params :=
  if o_small o
  then if o_parallel o then P2sp (pparams_new V2s (detect t)) else P2s (params_new V2s (detect t))
  else if o_parallel o then P2bp (pparams_new V2b (detect t)) else P2b (params_new V2b (detect t)).

Lemma make_params_fold t o : make_params t o =
  if o_big o && o_small o then Ret (Error (Said "-b and -s can't be used together")) else gfold (first_params t o) (labelled o).
Proof.
  unfold make_params. destruct (o_big o && o_small o); [reflexivity|]. fold (first_params t o). cbv zeta.
  unfold labelled. rewrite gfold_app, gfold_named.
  apply rbind_ext; [apply if_some_ext; intros a [p|p|p|p]; reflexivity|]. intros p1. rewrite gfold_app, gfold_named.
  apply rbind_ext; [apply if_some_ext; intros a p; rewrite hex_decode_spec; unfold gstep; destruct (hex_bytes a), p; reflexivity|].
  intros p2. rewrite gfold_app, gfold_named.
  apply rbind_ext; [apply if_some_ext; intros a p; rewrite hex_decode_spec; unfold gstep; destruct (hex_bytes a), p; reflexivity|].
  intros p3. rewrite gfold_app, gfold_named.
  apply rbind_ext; [apply if_some_ext; intros a p; rewrite hex_decode_spec; unfold gstep; destruct (hex_bytes a), p; reflexivity|].
  intros p4. rewrite gfold_app, gfold_named.
  apply rbind_ext; [apply if_some_ext; intros a [p|p|p|p]; reflexivity|]. intros p5. rewrite gfold_app, gfold_named.
  apply rbind_ext; [apply if_some_ext; intros a [p|p|p|p]; reflexivity|]. intros p6. rewrite gfold_app, gfold_named.
  apply rbind_ext; [apply if_some_ext; intros a [p|p|p|p]; reflexivity|]. intros p7. rewrite gfold_app, gfold_named.
  apply rbind_ext; [apply if_some_ext; intros a [p|p|p|p]; reflexivity|]. intros p8. rewrite gfold_app, gfold_named.
  apply rbind_ext; [apply if_some_ext; intros a [p|p|p|p]; reflexivity|]. intros p9. rewrite gfold_app, gfold_named.
  apply rbind_ext; [apply if_some_ext; intros a [p|p|p|p]; reflexivity|]. intros p10.
  rewrite gfold_named, rbind_ok. destruct (o_last_node o); cbn [if_some]; [|reflexivity]. destruct p10; reflexivity.
Qed.

(** ** The parameters that result *)
Definition psettings (ss : list ApiSpec.setting) : list ApiSpec.psetting :=
  flat_map (fun s => match for_parallel s with Some p => [p] | None => [] end) ss.
Definition built (t : target) (o : options) (ss : list ApiSpec.setting) : tool_params :=
  if o_small o
  then if o_parallel o then P2sp (pbuild V2s (detect t) (psettings ss)) else P2s (build V2s (detect t) ss)
  else if o_parallel o then P2bp (pbuild V2b (detect t) (psettings ss)) else P2b (build V2b (detect t) ss).

Lemma build_snoc v imp ss s : build v imp (ss ++ [s]) = fst (call_setter v s (build v imp ss)).
Proof. unfold build. rewrite fold_left_app. reflexivity. Qed.
Lemma pbuild_snoc v imp ss s : pbuild v imp (ss ++ [s]) = fst (call_psetter v s (pbuild v imp ss)).
Proof. unfold pbuild. rewrite fold_left_app. reflexivity. Qed.
Lemma psettings_snoc ss s p : for_parallel s = Some p -> psettings (ss ++ [s]) = psettings ss ++ [p].
Proof. intros H. unfold psettings. rewrite flat_map_app. cbn [flat_map]. rewrite H. reflexivity. Qed.
Lemma for_parallel_legal f s p : for_parallel s = Some p -> ApiSpec.plegal f p = ApiSpec.legal f s.
Proof. destruct s; try discriminate; cbn; intros H; injection H as <-; reflexivity. Qed.

Lemma gstep_spec t o ss n bad s : gstep (built t o ss) (n, bad, Some s) =
  if o_parallel o && match for_parallel s with None => true | Some _ => false end then Ret (Error (said [unsupported n]))
  else if ApiSpec.legal (chosen o) s then Ret (Ok (built t o (ss ++ [s]))) else Panic.
Proof.
  unfold built, chosen, gstep. destruct (o_small o), (o_parallel o); cbn [andb].
  - destruct (for_parallel s) as [p|] eqn:Ep; [|reflexivity].
    rewrite <- (for_parallel_legal _ _ _ Ep). rewrite (psettings_snoc _ _ _ Ep), pbuild_snoc. unfold set_on.
    destruct (ApiSpec.plegal Spec.F2s p) eqn:L.
    + pose proof (psetter_accepts V2s p (pbuild V2s (detect t) (psettings ss)) L) as A.
      destruct (call_psetter _ _ _) as [p' r]. cbn [snd fst] in *. subst. reflexivity.
    + rewrite (psetter_refuses V2s p _ L). reflexivity.
  - rewrite build_snoc. unfold set_on. destruct (ApiSpec.legal Spec.F2s s) eqn:L.
    + pose proof (setter_accepts V2s s (build V2s (detect t) ss) L) as A.
      destruct (call_setter _ _ _) as [p' r]. cbn [snd fst] in *. subst. reflexivity.
    + rewrite (setter_refuses V2s s _ L). reflexivity.
  - destruct (for_parallel s) as [p|] eqn:Ep; [|reflexivity].
    rewrite <- (for_parallel_legal _ _ _ Ep). rewrite (psettings_snoc _ _ _ Ep), pbuild_snoc. unfold set_on.
    destruct (ApiSpec.plegal Spec.F2b p) eqn:L.
    + pose proof (psetter_accepts V2b p (pbuild V2b (detect t) (psettings ss)) L) as A.
      destruct (call_psetter _ _ _) as [p' r]. cbn [snd fst] in *. subst. reflexivity.
    + rewrite (psetter_refuses V2b p _ L). reflexivity.
  - rewrite build_snoc. unfold set_on. destruct (ApiSpec.legal Spec.F2b s) eqn:L.
    + pose proof (setter_accepts V2b s (build V2b (detect t) ss) L) as A.
      destruct (call_setter _ _ _) as [p' r]. cbn [snd fst] in *. subst. reflexivity.
    + rewrite (setter_refuses V2b s _ L). reflexivity.
Qed.

(** An entry is labelled rightly: its hexadecimal has problems exactly if it is malformed. *)
Definition rightly (r : ask) : Prop := let '(_, bad, r) := r in r = None <-> bad <> [].
Lemma gfold_judge t o rs : Forall rightly rs -> forall ss, gfold (built t o ss) rs =
  match judge (chosen o) (o_parallel o) (map snd rs) with
  | Accept ss' => Ret (Ok (built t o (ss ++ ss')))
  | Refuse => Ret (Error (said (flat_map (complaints (o_parallel o)) rs)))
  | Crash => Panic
  end.
Proof.
  induction 1 as [|[[n bad] [s|]] rs R F IH]; intros ss; cbn [gfold judge map snd].
  - rewrite app_nil_r. reflexivity.
  - assert (bad = []) as -> by (destruct bad; [reflexivity|destruct R as (_ & R); discriminate R; discriminate]).
    rewrite gstep_spec. cbn [flat_map complaints app].
    replace (negb (given (for_parallel s))) with (match for_parallel s with None => true | Some _ => false end) by (destruct (for_parallel s); reflexivity).
    destruct (o_parallel o && _); [reflexivity|].
    destruct (ApiSpec.legal (chosen o) s); [|reflexivity]. unfold rbind at 1. cbn [bind app]. rewrite IH.
    destruct (judge _ _ (map snd rs)); auto. rewrite <- app_assoc. reflexivity.
  - cbn [gstep]. unfold rbind. cbn [bind]. cbn [flat_map complaints].
    destruct bad as [|b bad]; [destruct R as (R & _); exfalso; apply R; reflexivity|reflexivity].
Qed.
Lemma rightly_labelled o : Forall rightly (labelled o).
Proof.
  assert (S : forall A n (x : option A) k rest, Forall rightly rest -> (forall a, given (k a) = true) -> Forall rightly (named n x fine_ k ++ rest)).
  { intros A n x k rest F G. destruct x as [a|]; cbn [named app]; [|exact F]. constructor; [|exact F]. unfold rightly, fine_. specialize (G a).
    destruct (k a); [|discriminate]. split; [discriminate|contradiction]. }
  assert (H : forall n x (k : list byte -> ApiSpec.setting) rest, Forall rightly rest ->
    Forall rightly (named n x hex_problems (fun s => option_map k (hex_bytes s)) ++ rest)).
  { intros n x k rest F. destruct x as [a|]; cbn [named app]; [|exact F]. constructor; [|exact F]. unfold rightly.
    rewrite <- hex_problems_spec. destruct (hex_bytes a); cbn [option_map]; split; (discriminate || reflexivity). }
  unfold labelled. apply S; [|reflexivity]. do 3 apply H. do 6 (apply S; [|reflexivity]). rewrite <- (app_nil_r (named "--last-node" _ _ _)).
  apply S; [constructor|reflexivity].
Qed.

Lemma make_params_spec t o : make_params t o =
  match verdict_of o with
  | Accept ss => Ret (Ok (built t o ss))
  | Refuse => Ret (Error (problem o))
  | Crash => Panic
  end.
Proof.
  rewrite make_params_fold. unfold verdict_of, problem. rewrite labelled_problems. destruct (o_big o && o_small o); [reflexivity|].
  change (first_params t o) with (built t o []). rewrite gfold_judge by apply rightly_labelled.
  rewrite labelled_requests. reflexivity.
Qed.
(** Something is wrong exactly if the options are refused, unless a value is out of range. *)
Lemma judge_problems f par rs : Forall rightly rs ->
  match judge f par (map snd rs) with
  | Accept _ => flat_map (complaints par) rs = []
  | Refuse => flat_map (complaints par) rs <> []
  | Crash => True
  end.
Proof.
  induction 1 as [|[[n bad] [s|]] rs R F IH]; cbn [judge map snd flat_map complaints]; [reflexivity| |].
  - assert (bad = []) as -> by (destruct bad; [reflexivity|destruct R as (_ & R); discriminate R; discriminate]). cbn [app].
    replace (negb (given (for_parallel s))) with (match for_parallel s with None => true | Some _ => false end) by (destruct (for_parallel s); reflexivity).
    destruct (par && _); [discriminate|]. destruct (ApiSpec.legal f s); [|exact I]. cbn [app].
    destruct (judge f par (map snd rs)); exact IH.
  - destruct bad as [|b bad]; [destruct R as (R & _); exfalso; apply R; reflexivity|discriminate].
Qed.
Lemma verdict_problems o :
  match verdict_of o with Accept _ => problems o = [] | Refuse => problems o <> [] | Crash => True end.
Proof.
  unfold verdict_of. rewrite labelled_problems. destruct (o_big o && o_small o); [discriminate|]. cbn [app].
  rewrite <- labelled_requests. apply judge_problems, rightly_labelled.
Qed.

Lemma judge_typed f par rs ss : judge f par rs = Accept ss ->
  Forall (fun r => match r with Some s => ApiSpec.typed s | None => True end) rs -> Forall ApiSpec.typed ss.
Proof.
  revert ss. induction rs as [|[s|] rs IH]; cbn [judge]; intros ss H T.
  - injection H as <-. constructor.
  - inversion T; subst. destruct (par && _); [discriminate|]. destruct (ApiSpec.legal f s); [|discriminate].
    destruct (judge f par rs); try discriminate. injection H as <-. constructor; auto.
  - discriminate.
Qed.
Lemma verdict_typed o ss : verdict_of o = Accept ss -> typed_options o -> Forall ApiSpec.typed ss.
Proof. unfold verdict_of. destruct (_ && _); [discriminate|]. apply judge_typed. Qed.

(** ** States of the tool *)
Definition tool_holds (e : env) (o : options) (ss : list ApiSpec.setting) (msg : list byte) (st : tool_state) : Prop :=
  let f := chosen o in
  let c := ApiSpec.configure f ss (ApiSpec.default_config f) in
  let pc := ApiSpec.pconfigure f (psettings ss) (ApiSpec.pdefault_config f) in
  match st with
  | S2b s => f = Spec.F2b /\ o_parallel o = false /\ holds V2b e c msg s
  | S2s s => f = Spec.F2s /\ o_parallel o = false /\ holds V2s e c msg s
  | S2bp s => f = Spec.F2b /\ o_parallel o = true /\ pholds V2b e pc msg s
  | S2sp s => f = Spec.F2s /\ o_parallel o = true /\ pholds V2s e pc msg s
  end.

Lemma tool_new t e o ss : honest t e -> Forall ApiSpec.typed ss ->
  exists st, tool_to_state (built t o ss) = Ret st /\ tool_holds e o ss [] st.
Proof.
  intros H T. pose proof (detect_supported t e H) as S. unfold built, tool_holds, chosen.
  destruct (o_small o), (o_parallel o) eqn:P; cbn [tool_to_state].
  - rewrite pbuild_spec. pose proof (wfp_configure Spec.F2s (psettings ss) _ (wfp_default Spec.F2s)) as W.
    destruct (pholds_new V2s e (detect t) _ W S) as (s0 & E0 & Hs & _). cbn [fl] in *. rewrite E0. cbn [bind].
    eexists. split; [reflexivity|]. split; [reflexivity|]. split; [reflexivity|]. exact Hs.
  - eexists. split; [reflexivity|]. split; auto. split; auto. exact (new_holds V2s e (detect t) ss S T).
  - rewrite pbuild_spec. pose proof (wfp_configure Spec.F2b (psettings ss) _ (wfp_default Spec.F2b)) as W.
    destruct (pholds_new V2b e (detect t) _ W S) as (s0 & E0 & Hs & _). cbn [fl] in *. rewrite E0. cbn [bind].
    eexists. split; [reflexivity|]. split; [reflexivity|]. split; [reflexivity|]. exact Hs.
  - eexists. split; [reflexivity|]. split; auto. split; auto. exact (new_holds V2b e (detect t) ss S T).
Qed.

Lemma tool_fed e o ss msg st x : tool_holds e o ss msg st ->
  exists st', tool_update e st x = Ret st' /\ tool_holds e o ss (msg ++ x) st'.
Proof.
  destruct st as [s|s|s|s]; intros (F & P & H); cbn [tool_update].
  - destruct (holds_update _ _ _ _ _ x H) as (s' & E & H' & _). rewrite E. cbn [bind]. eexists. split; [reflexivity|]. cbn. auto.
  - destruct (pholds_update _ _ _ _ _ x H) as (s' & E & H' & _). rewrite E. cbn [bind]. eexists. split; [reflexivity|]. cbn. auto.
  - destruct (holds_update _ _ _ _ _ x H) as (s' & E & H' & _). rewrite E. cbn [bind]. eexists. split; [reflexivity|]. cbn. auto.
  - destruct (pholds_update _ _ _ _ _ x H) as (s' & E & H' & _). rewrite E. cbn [bind]. eexists. split; [reflexivity|]. cbn. auto.
Qed.

Lemma as_bytes_short v h b : as_bytes h = Ret b -> length (h_bytes h) = outbytes v -> (length b <= outbytes v)%nat.
Proof.
  unfold as_bytes, slice. intros H L. destruct (_ && _); [|discriminate]. apply (f_equal (fun o => match o with Ret x => length x | _ => O end)) in H.
  cbv beta iota in H. rewrite firstn_length, skipn_length in H. lia.
Qed.

Lemma tool_result e o ss msg st : tool_holds e o ss msg st ->
  tool_finalize e st = Ret (Machine.hex (tool_digest o ss msg)).
Proof.
  unfold tool_digest. destruct st as [s|s|s|s]; intros (F & P & H); cbn [tool_finalize]; rewrite P, F in *.
  - rewrite (holds_finalize _ _ _ _ _ H). cbn [bind]. apply to_hex_spec; [apply hash_value_bytes, H|].
    destruct (digest_size V2b _ msg (hd_wf _ _ _ _ _ H)) as (b & Eb & _ & Lb & _).
    rewrite hash_value_bytes in Eb by apply H. injection Eb as <-. apply Lb.
  - rewrite (pholds_finalize _ _ _ _ _ H). cbn [bind]. apply to_hex_spec; [apply phash_value_bytes, H|].
    eapply as_bytes_short; [apply (phash_value_bytes V2b), H|]. apply (Rh_phash V2b). apply H.
  - rewrite (holds_finalize _ _ _ _ _ H). cbn [bind]. apply to_hex_spec; [apply hash_value_bytes, H|].
    destruct (digest_size V2s _ msg (hd_wf _ _ _ _ _ H)) as (b & Eb & _ & Lb & _).
    rewrite hash_value_bytes in Eb by apply H. injection Eb as <-. apply Lb.
  - rewrite (pholds_finalize _ _ _ _ _ H). cbn [bind]. apply to_hex_spec; [apply phash_value_bytes, H|].
    eapply as_bytes_short; [apply (phash_value_bytes V2s), H|]. apply (Rh_phash V2s). apply H.
Qed.

(** ** Reading *)
Lemma read_loop_spec e o ss evs d : delivers evs d -> bounded_reads evs -> forall msg st buf,
  tool_holds e o ss msg st ->
  match d with
  | Some data => exists st', read_loop e evs buf st = Ret (Ok st') /\ tool_holds e o ss (msg ++ data) st'
  | None => read_loop e evs buf st = Ret (Error System)
  end.
Proof.
  intros D. induction D as [r|bs r d NE D IH|r d D IH|r]; intros B msg st buf H.
  - cbn [read_loop length Nat.eqb]. exists st. rewrite app_nil_r. auto.
  - assert (B' : bounded_reads r) by (intros x I; apply B; right; exact I).
    cbn [read_loop]. destruct (Nat.eqb_spec (length bs) 0) as [Z|_]; [destruct bs; [congruence|discriminate]|].
    rewrite (proj2 (N.leb_le _ _) (B bs (or_introl eq_refl))). cbn [assert_ bind].
    rewrite firstn_app, firstn_all, Nat.sub_diag. cbn [firstn]. rewrite app_nil_r.
    destruct (tool_fed e o ss msg st bs H) as (st1 & E1 & H1). rewrite E1. cbn [bind].
    specialize (IH B' (msg ++ bs) st1 (bs ++ skipn (length bs) buf) H1).
    destruct d as [data|]; cbn [option_map]; [|exact IH]. rewrite app_assoc. exact IH.
  - cbn [read_loop]. apply IH; auto. intros x I; apply B; right; exact I.
  - reflexivity.
Qed.

Lemma hash_file_spec t e o ss s d : honest t e -> Forall ApiSpec.typed ss -> content (o_mmap o) s d ->
  hash_file e o (built t o ss) s =
  Ret (match d with Some data => Ok (Machine.hex (tool_digest o ss data)) | None => Error (file_problem (o_mmap o) s) end).
Proof.
  intros H T C. destruct (tool_new t e o ss H T) as (st & E & Hs). unfold hash_file. rewrite E. cbn [bind].
  destruct C as [O|d O M B D|O M L|n O M L G|n O M L G]; unfold file_problem; rewrite O; try rewrite M.
  - rewrite andb_false_r. reflexivity.
  - pose proof (read_loop_spec e o ss _ d D B [] st (repeat x00 (N.to_nat read_limit)) Hs) as R. unfold read_write_all.
    destruct d as [data|].
    + destruct R as (st' & R & Hs'). rewrite R. unfold rbind. cbn [bind]. rewrite (tool_result _ _ _ _ _ Hs'). reflexivity.
    + rewrite R. reflexivity.
  - unfold mmap_file. rewrite L. reflexivity.
  - unfold mmap_file. rewrite L. replace (isize_max <? n) with true by (symmetry; apply N.ltb_lt; unfold isize_max; lia).
    replace (2 ^ 63 <=? n) with true by (symmetry; apply N.leb_le; exact G). reflexivity.
  - unfold mmap_file. rewrite L. replace (isize_max <? n) with false by (symmetry; apply N.ltb_ge; unfold isize_max; lia).
    replace (2 ^ 63 <=? n) with false by (symmetry; apply N.leb_gt; exact G).
    destruct (mapped s n) as [data|]; [|reflexivity]. unfold rbind. cbn [bind].
    destruct (tool_fed e o ss [] st data Hs) as (st1 & E1 & H1). rewrite E1. cbn [bind].
    rewrite (tool_result _ _ _ _ _ H1). reflexivity.
Qed.

Lemma hash_stdin_spec t e o ss evs d : honest t e -> Forall ApiSpec.typed ss ->
  bounded_reads evs -> delivers evs d ->
  hash_stdin e o (built t o ss) evs =
  Ret (match (if o_mmap o then None else d) with
       | Some data => Ok (Machine.hex (tool_digest o ss data)) | None => Error (stdin_problem (o_mmap o)) end).
Proof.
  intros H T B D. unfold hash_stdin. destruct (o_mmap o); [reflexivity|].
  destruct (tool_new t e o ss H T) as (st & E & Hs). rewrite E. cbn [bind].
  pose proof (read_loop_spec e o ss _ d D B [] st (repeat x00 (N.to_nat read_limit)) Hs) as R. unfold read_write_all.
  destruct d as [data|].
  - destruct R as (st' & R & Hs'). rewrite R. unfold rbind. cbn [bind]. rewrite (tool_result _ _ _ _ _ Hs'). reflexivity.
  - rewrite R. reflexivity.
Qed.

(** ** The whole run *)
Lemma append_empty s : (s ++ "")%string = s.
Proof. induction s; cbn; congruence. Qed.

Lemma hash_inputs_spec t e o ss several : honest t e -> Forall ApiSpec.typed ss ->
  forall inputs ds failed, Forall2 (fun x d => content (o_mmap o) (snd x) d) inputs ds ->
  hash_inputs e o (built t o ss) several failed inputs =
  {| lines := map (fun '((name, s), d) => report_line o ss several name (file_problem (o_mmap o) s) d) (combine inputs ds);
     finish_ := Exited (if failed then 1 else status_of ds) |}.
Proof.
  intros H T. induction inputs as [|[name s] inputs IH]; intros ds failed F; inversion F as [|? d ? ds' C F']; subst.
  - cbn. destruct failed; reflexivity.
  - cbn [hash_inputs map fst snd combine] in *. rewrite (hash_file_spec t e o ss s d H T C).
    destruct d as [data|].
    + rewrite (IH ds' failed F'). unfold with_line. cbn [lines finish_]. f_equal. f_equal. unfold report_line.
      destruct several; [reflexivity|]. rewrite append_empty. reflexivity.
    + rewrite (IH ds' true F'). unfold with_line, status_of. cbn [lines finish_ forallb ok andb]. destruct failed; reflexivity.
Qed.

Lemma main_files t e o ss inputs ds stdin : honest t e -> typed_options o -> verdict_of o = Accept ss ->
  inputs <> [] -> Forall2 (fun x d => content (o_mmap o) (snd x) d) inputs ds ->
  main t e o inputs stdin =
  {| lines := map (fun '((name, s), d) => report_line o ss (Nat.ltb 1 (length inputs)) name (file_problem (o_mmap o) s) d) (combine inputs ds);
     finish_ := Exited (status_of ds) |}.
Proof.
  intros H T V NE F. pose proof (verdict_typed o ss V T) as TS. unfold main. rewrite make_params_spec, V.
  destruct inputs as [|i inputs]; [congruence|]. apply (hash_inputs_spec t e o ss _ H TS _ _ false F).
Qed.

Lemma main_stdin t e o ss evs d : honest t e -> typed_options o -> verdict_of o = Accept ss ->
  bounded_reads evs -> delivers evs d ->
  main t e o [] evs =
  (let d := if o_mmap o then None else d in
   {| lines := [report_line o ss false "stdin" (stdin_problem (o_mmap o)) d]; finish_ := Exited (status_of [d]) |}).
Proof.
  intros H T V B D. pose proof (verdict_typed o ss V T) as TS. unfold main. rewrite make_params_spec, V.
  rewrite (hash_stdin_spec t e o ss evs d H TS B D). cbv zeta.
  destruct (if o_mmap o then None else d); [|reflexivity]. unfold report_line. rewrite append_empty. reflexivity.
Qed.

Lemma main_rejects t e o inputs stdin :
  match verdict_of o with
  | Accept _ => True
  | Refuse => main t e o inputs stdin = {| lines := [Refusal (problem o)]; finish_ := Exited 1 |}
  | Crash => main t e o inputs stdin = {| lines := []; finish_ := Aborted |}
  end.
Proof. unfold main. rewrite make_params_spec. destruct (verdict_of o); auto. Qed.

(** ** What becomes of options *)
Lemma judge_accept f par rs : forall ss, judge f par rs = Accept ss <->
  rs = map Some ss /\ Forall (fun s => ApiSpec.legal f s = true /\ (par = true -> for_parallel s <> None)) ss.
Proof.
  induction rs as [|[s|] rs IH]; intros ss; cbn [judge].
  - split.
    + intros [= <-]. split; [reflexivity|constructor].
    + intros [E _]. destruct ss; [reflexivity|discriminate].
  - split.
    + intros H. destruct (par && match for_parallel s with None => true | _ => false end) eqn:P; [discriminate|].
      destruct (ApiSpec.legal f s) eqn:L; [|discriminate].
      destruct (judge f par rs) as [ss'| |] eqn:J; try discriminate. injection H as <-.
      destruct (proj1 (IH ss') eq_refl) as [E F]. split; [cbn [map]; congruence|]. constructor; [|exact F].
      split; [exact L|]. intros -> K. rewrite K in P. discriminate.
    + intros [E F]. destruct ss as [|s' ss]; [discriminate|]. cbn [map] in E. injection E as -> E.
      inversion F as [|? ? [L P] F']; subst. rewrite (proj2 (IH ss) (conj eq_refl F')), L.
      destruct par; [|reflexivity]. specialize (P eq_refl). destruct (for_parallel s'); [reflexivity|congruence].
  - split; [discriminate|]. intros [E _]. destruct ss; discriminate.
Qed.

Lemma accepted o ss : verdict_of o = Accept ss <->
  ~ (o_big o = true /\ o_small o = true) /\ requests o = map Some ss /\
  Forall (fun s => ApiSpec.legal (chosen o) s = true /\ (o_parallel o = true -> for_parallel s <> None)) ss.
Proof.
  unfold verdict_of. destruct (o_big o && o_small o) eqn:C.
  - apply andb_true_iff in C. split; [discriminate|tauto].
  - assert (~ (o_big o = true /\ o_small o = true)) by (rewrite <- andb_true_iff; congruence).
    rewrite judge_accept. tauto.
Qed.

Lemma judge_malformed f par before after : (forall s, In (Some s) before -> ApiSpec.legal f s = true) ->
  judge f par (before ++ None :: after) = Refuse.
Proof.
  induction before as [|[s|] b IH]; intros L; cbn [app judge]; auto.
  destruct (par && _); [reflexivity|]. rewrite (L s (or_introl eq_refl)), IH; auto. intros x I. apply L. right. exact I.
Qed.
Lemma malformed_refused o before after : requests o = before ++ None :: after ->
  (forall s, In (Some s) before -> ApiSpec.legal (chosen o) s = true) -> verdict_of o = Refuse.
Proof. intros E L. unfold verdict_of. destruct (_ && _); [reflexivity|]. rewrite E. apply judge_malformed, L. Qed.

(** A request that -p refuses, unless its hexadecimal is malformed. *)
Definition unsuited (r : option ApiSpec.setting) : Prop :=
  match r with Some s => for_parallel s = None | None => True end.
Definition fine (f : Spec.flavour) (r : option ApiSpec.setting) : Prop :=
  match r with Some s => ApiSpec.legal f s = true | None => True end.
Lemma judge_unsuited f before r after : Forall (fine f) before -> unsuited r ->
  judge f true (before ++ r :: after) = Refuse.
Proof.
  intros F U. induction F as [|[s|] b L F IH]; cbn [app judge andb]; auto.
  - destruct r as [s|]; [|reflexivity]. cbn [judge andb]. rewrite U. reflexivity.
  - destruct (for_parallel s); [|reflexivity]. cbn in L. rewrite L, IH. reflexivity.
Qed.
Definition tree_requests (o : options) : list (option ApiSpec.setting) :=
  asks (o_salt o) (fun s => option_map ApiSpec.Salt (hex_bytes s)) ++
  asks (o_personal o) (fun s => option_map ApiSpec.Personal (hex_bytes s)) ++
  asks (o_fanout o) (fun x => Some (ApiSpec.Fanout x)) ++
  asks (o_max_depth o) (fun x => Some (ApiSpec.MaxDepth x)) ++
  asks (o_max_leaf_length o) (fun x => Some (ApiSpec.MaxLeafLength x)) ++
  asks (o_node_offset o) (fun x => Some (ApiSpec.NodeOffset x)) ++
  asks (o_node_depth o) (fun x => Some (ApiSpec.NodeDepth x)) ++
  asks (o_inner_hash_length o) (fun n => Some (ApiSpec.InnerHashLength n)) ++
  asks (if o_last_node o then Some tt else None) (fun _ => Some (ApiSpec.LastNode true)).
Lemma unsuited_asks {A} (x : option A) k rest : (forall a, unsuited (k a)) -> Forall unsuited rest ->
  Forall unsuited (asks x k ++ rest).
Proof. intros Hk Hr. destruct x; cbn [asks app]; auto. Qed.
Lemma tree_unsuited o : Forall unsuited (tree_requests o).
Proof.
  unfold tree_requests.
  do 8 (apply unsuited_asks; [intros a; try (destruct (hex_bytes a)); cbn; auto|]).
  destruct (o_last_node o); repeat constructor.
Qed.
Lemma tree_some o : has_tree_option o = true -> tree_requests o <> [].
Proof.
  unfold has_tree_option, tree_requests.
  destruct (o_salt o), (o_personal o), (o_fanout o), (o_max_depth o), (o_max_leaf_length o), (o_node_offset o),
    (o_node_depth o), (o_inner_hash_length o), (o_last_node o); cbn; discriminate.
Qed.
Lemma fine_asks {A} f (x : option A) k : (forall a, x = Some a -> fine f (k a)) -> Forall (fine f) (asks x k).
Proof. destruct x; cbn [asks]; auto. Qed.
Lemma tree_refused o : o_parallel o = true -> has_tree_option o = true ->
  (forall n, o_length o = Some n -> ApiSpec.legal (chosen o) (ApiSpec.HashLength n) = true) ->
  (forall s bs, o_key o = Some s -> hex_bytes s = Some bs -> ApiSpec.legal (chosen o) (ApiSpec.Key bs) = true) ->
  verdict_of o = Refuse.
Proof.
  intros P X L K. unfold verdict_of. destruct (_ && _); [reflexivity|]. rewrite P.
  pose proof (tree_unsuited o) as U. pose proof (tree_some o X) as NE.
  change (requests o) with (asks (o_length o) (fun n => Some (ApiSpec.HashLength n)) ++
    asks (o_key o) (fun s => option_map ApiSpec.Key (hex_bytes s)) ++ tree_requests o).
  rewrite app_assoc. destruct (tree_requests o) as [|r after]; [congruence|]. inversion U; subst.
  apply judge_unsuited; auto. apply Forall_app. split; apply fine_asks.
  - intros n E. apply L, E.
  - intros s E. destruct (hex_bytes s) as [bs|] eqn:B; [|exact I]. exact (K s bs E B).
Qed.

(** ** Every answer of the operating system *)
Lemma delivers_or_not evs : (exists d, delivers evs d) \/ never_ends evs.
Proof.
  induction evs as [|[bs| |] evs IH].
  - right. constructor.
  - destruct bs as [|b bs]; [left; eexists; apply d_end|].
    destruct IH as [(d & D)|N]; [left; eexists; apply d_some; [discriminate|exact D]|right; constructor; [discriminate|exact N]].
  - destruct IH as [(d & D)|N]; [left; eexists; apply d_again, D|right; constructor; auto].
  - left. eexists. apply d_error.
Qed.
Lemma read_loop_endless e o ss evs : never_ends evs -> bounded_reads evs -> forall msg st buf,
  tool_holds e o ss msg st -> read_loop e evs buf st = Diverge.
Proof.
  induction 1 as [|[bs| |] r NE N IH]; intros B msg st buf H; cbn [read_loop]; auto.
  - assert (B' : bounded_reads r) by (intros x I; apply B; right; exact I).
    destruct (Nat.eqb_spec (length bs) 0) as [Z|_]; [destruct bs; [congruence|discriminate]|].
    rewrite (proj2 (N.leb_le _ _) (B bs (or_introl eq_refl))). cbn [assert_ bind].
    rewrite firstn_app, firstn_all, Nat.sub_diag. cbn [firstn]. rewrite app_nil_r.
    destruct (tool_fed e o ss msg st bs H) as (st1 & E1 & H1). rewrite E1. cbn [bind].
    eapply IH; eauto.
  - eapply IH; eauto. intros x I; apply B; right; exact I.
  - destruct NE.
Qed.
Lemma content_or_not mmap s : bounded_reads (reads s) -> (exists d, content mmap s d) \/
  (can_open s = true /\ mmap = false /\ never_ends (reads s)).
Proof.
  intros B. destruct (can_open s) eqn:O; [|left; eexists; apply c_missing, O].
  destruct mmap.
  - left. destruct (meta_len s) as [n|] eqn:L; [|eexists; apply c_no_len; auto].
    destruct (N.lt_ge_cases n (2 ^ 63)); eexists; [eapply c_map|eapply c_too_long]; eauto.
  - destruct (delivers_or_not (reads s)) as [(d & D)|N]; [left; eexists; apply c_read; eauto|right; auto].
Qed.
Lemma hash_file_endless t e o ss s : honest t e -> Forall ApiSpec.typed ss ->
  can_open s = true -> o_mmap o = false -> bounded_reads (reads s) -> never_ends (reads s) ->
  hash_file e o (built t o ss) s = Diverge.
Proof.
  intros H T O M B N. destruct (tool_new t e o ss H T) as (st & E & Hs). unfold hash_file, read_write_all.
  rewrite E. cbn [bind]. rewrite O, M. rewrite (read_loop_endless e o ss _ N B _ _ _ Hs). reflexivity.
Qed.
Definition good_end (r : run) (endless : Prop) : Prop :=
  match finish_ r with Exited _ => True | Endless => endless | Aborted | Undefined => False end.
Lemma hash_inputs_always t e o ss several : honest t e -> Forall ApiSpec.typed ss ->
  forall inputs failed, Forall (fun x => bounded_reads (reads (snd x))) inputs ->
  good_end (hash_inputs e o (built t o ss) several failed inputs) (Exists (fun x => never_ends (reads (snd x))) inputs).
Proof.
  intros H T. induction inputs as [|[name s] inputs IH]; intros failed B; [exact I|].
  inversion B as [|? ? B1 B2]; subst. cbn [snd] in B1. cbn [hash_inputs].
  destruct (content_or_not (o_mmap o) s B1) as [(d & C)|(O & M & N)].
  - rewrite (hash_file_spec t e o ss s d H T C).
    assert (X : forall f, good_end (hash_inputs e o (built t o ss) several f inputs)
      (Exists (fun x => never_ends (reads (snd x))) ((name, s) :: inputs))).
    { intros f. specialize (IH f B2). unfold good_end in *. destruct (finish_ _); auto. }
    destruct d; apply X.
  - rewrite (hash_file_endless t e o ss s H T O M B1 N). cbn. apply Exists_cons_hd. exact N.
Qed.
Lemma main_always t e o ss inputs stdin : honest t e -> typed_options o -> verdict_of o = Accept ss ->
  bounded_reads stdin -> Forall (fun x => bounded_reads (reads (snd x))) inputs ->
  match finish_ (main t e o inputs stdin) with
  | Exited _ => True
  | Endless => never_ends stdin \/ Exists (fun x => never_ends (reads (snd x))) inputs
  | Aborted | Undefined => False
  end.
Proof.
  intros H T V B BI. pose proof (verdict_typed o ss V T) as TS. unfold main. rewrite make_params_spec, V.
  destruct inputs as [|i inputs].
  - destruct (delivers_or_not stdin) as [(d & D)|N].
    + rewrite (hash_stdin_spec t e o ss stdin d H TS B D). destruct (if o_mmap o then None else d); exact I.
    + unfold hash_stdin. destruct (o_mmap o); [exact I|]. destruct (tool_new t e o ss H TS) as (st & E & Hs).
      unfold read_write_all. rewrite E. cbn [bind]. rewrite (read_loop_endless e o ss _ N B _ _ _ Hs). cbn. auto.
  - pose proof (hash_inputs_always t e o ss (Nat.ltb 1 (length (i :: inputs))) H TS (i :: inputs) false BI) as X.
    unfold good_end in X. destruct (finish_ _); auto.
Qed.
