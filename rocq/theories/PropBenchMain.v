(** C55: the benchmark program reports the rates that its workers measured. *)
From Coq Require Import String Ascii.
From Coq Require Import Arith NArith ZArith List Bool Lia Permutation Sorted.
From Verif Require Import Base Lib ArgsSpec Args ArgsProof Bench PropBench BenchMain BenchMainSpec BenchMainProof.
Import ListNotations.
Open Scope list_scope.
Open Scope nat_scope.
Local Notation length := List.length.

(** With a name of the list as its argument the program starts a hundred processes and prints the rate of all bytes over the
    sum of the times that the function of this name took in them. *)
Theorem C55_one (dbg : bool) (processes : nat -> process) (times : nat -> algorithm -> N)
    (sort : (f32 * string -> f32 * string -> bool) -> list (f32 * string) -> list (f32 * string))
    (own : algorithm -> N) (name : string) (f : algorithm) :
  In (name, f) ALGOS -> measurable times ->
  (forall i, i < 100 -> gives (processes i) (times i)) ->
  exists s v, shows (time_spent times f 0 100) s v /\
    main dbg processes sort None own (Some name) = {| stdout := s ++ newline; started := 100; ended := Returned |}.
Proof.
  intros I M U. destruct (C52_names name f) as (G & C & _).
  exists (show_f32 (rate_f32 (time_spent times f 0 100) all_bytes)), (value_of_rate (rate_f32 (time_spent times f 0 100) all_bytes)).
  split; [exact (line_shows name _ (spent_101 times M f 0))|].
  unfold main. rewrite (C (in_map fst _ _ I)).
  rewrite (run_up dbg processes times M name f 0) by first [apply G; exact I | intros j J; apply U; lia]. reflexivity.
Qed.
Print Assumptions C55_one.

(** With any other argument it panics and starts nothing; if one of the processes fails it panics and prints nothing. *)
Theorem C55_one_failure (dbg : bool) (processes : nat -> process) (times : nat -> algorithm -> N)
    (sort : (f32 * string -> f32 * string -> bool) -> list (f32 * string) -> list (f32 * string))
    (own : algorithm -> N) (name : string) :
  (~ In name (map fst ALGOS) ->
   main dbg processes sort None own (Some name) = {| stdout := ""; started := 0; ended := Panicked |}) /\
  (forall k, In name (map fst ALGOS) -> measurable times -> k < 100 ->
   (forall i, i < k -> gives (processes i) (times i)) -> useless (processes k) ->
   exists n, main dbg processes sort None own (Some name) = {| stdout := ""; started := n; ended := Panicked |}).
Proof.
  split.
  - intros N. destruct (C52_names name Blake2b_hash) as (_ & _ & C). unfold main. rewrite (C N). reflexivity.
  - intros k I M K U D. apply in_map_iff in I as ([name' f] & E & I). cbn in E. subst name'.
    destruct (C52_names name f) as (G & C & _). unfold main. rewrite (C (in_map fst _ _ I)).
    pose proof (run_down dbg processes times M name f 0 k (proj2 G I) K (fun j J => U j (proj2 J)) D) as R.
    destruct (run_algo dbg processes name 0) as [o i]. cbn [fst] in R. subst o. exists i. reflexivity.
Qed.
Print Assumptions C55_one_failure.

(** Without an argument it starts a hundred processes for each algorithm, prints a line for each with its rate, and then all
    of them again, fastest first. *)
Theorem C55_all (dbg : bool) (processes : nat -> process) (times : nat -> algorithm -> N)
    (sort : (f32 * string -> f32 * string -> bool) -> list (f32 * string) -> list (f32 * string))
    (own : algorithm -> N) :
  sorts sort -> measurable times ->
  (forall i, i < 1300 -> gives (processes i) (times i)) ->
  exists xs order lines,
    measured times 0 ALGOS xs /\ Permutation xs order /\ StronglySorted not_before order /\ Forall2 second_line order lines /\
    main dbg processes sort None own None =
      {| stdout := first_part xs ++ newline ++ "In order:" ++ newline ++ String.concat "" lines;
         started := 1300; ended := Returned |}.
Proof.
  intros SO M U. set (xs := entries times ALGOS 0).
  pose proof (entries_lines times M ALGOS 0) as FL. fold xs in FL.
  destruct (SO is_less (map proj xs)) as [P S].
  assert (O : orders is_less (map proj xs)).
  { apply orders_rates. apply Forall_forall. intros y Y. apply in_map_iff in Y as (x & <- & X). cbn [proj fst].
    rewrite Forall_forall in FL. apply rate_number. apply (FL x X). }
  specialize (S O). apply Permutation_sym in P. apply Permutation_map_inv in P as (order & E & P).
  assert (FO : Forall (fun x => x = line_of (e_name x) (e_time x) /\ (e_time x < 2 ^ 101)%N) order).
  { apply Forall_forall. intros x X. rewrite Forall_forall in FL. apply FL. eapply Permutation_in; [apply Permutation_sym, P|exact X]. }
  exists xs, order, (map (fun x => (pad (e_name x) max_name_len ++ " " ++ e_shown x ++ newline)%string) order).
  split; [apply entries_measured, M|]. split; [exact P|]. split; [|split].
  - apply sorted_entries; [exact FO|]. rewrite <- E. exact S.
  - assert (N : Forall (fun x => In (e_name x) (map fst ALGOS)) order).
    { apply Forall_forall. intros x X. rewrite <- (entries_names times ALGOS 0). apply in_map.
      eapply Permutation_in; [apply Permutation_sym, P|exact X]. }
    clear -N. induction N as [|x l H N IH]; cbn [map]; constructor; [|exact IH].
    apply in_map_iff in H as ([n f] & E & I). cbn in E. subst n.
    exists (pad (e_name x) max_name_len). split; [apply (pad_name _ f I)|reflexivity].
  - unfold main. rewrite (run_all_up dbg processes times M ALGOS).
    + cbn [app]. fold xs. rewrite E.
      assert (LE : map (fun '(throughput, name) => (pad name max_name_len ++ " " ++ show_f32 throughput ++ newline)%string) (map proj order) =
                   map (fun x => (pad (e_name x) max_name_len ++ " " ++ e_shown x ++ newline)%string) order).
      { rewrite map_map. apply map_ext_in. intros x X. rewrite Forall_forall in FO. destruct (FO x X) as [F _].
        rewrite F. reflexivity. }
      cbv zeta. rewrite LE. reflexivity.
    + intros name f I. destruct (C52_names name f) as (G & _). apply G, I.
    + intros j J. apply U. cbn in J. lia.
Qed.
Print Assumptions C55_all.

(** If one of the processes fails it panics, and what was printed until then is right. *)
Theorem C55_all_failure (dbg : bool) (processes : nat -> process) (times : nat -> algorithm -> N)
    (sort : (f32 * string -> f32 * string -> bool) -> list (f32 * string) -> list (f32 * string))
    (own : algorithm -> N) (k : nat) :
  measurable times -> k < 1300 ->
  (forall i, i < k -> gives (processes i) (times i)) -> useless (processes k) ->
  exists done name f rest xs n,
    ALGOS = done ++ (name, f) :: rest /\ length done = k / 100 /\ measured times 0 done xs /\
    main dbg processes sort None own None = {| stdout := first_part xs ++ name ++ ": "; started := n; ended := Panicked |}.
Proof.
  intros M K U D.
  destruct (run_all_down dbg processes times M ALGOS (fun n f I => proj2 (proj1 (C52_names n f)) I) 0 k "" []
    (fun j J => U j (proj2 J)) D K) as (xs & name & f & rest & i' & E & L & R).
  exists xs, name, f, rest, (entries times xs 0), i'. split; [exact E|]. split; [exact L|]. split; [apply entries_measured, M|].
  unfold main. rewrite R. reflexivity.
Qed.
Print Assumptions C55_all_failure.

(** A worker prints the time of the function whose name it was given. *)
Theorem C55_worker (dbg : bool) (processes : nat -> process)
    (sort : (f32 * string -> f32 * string -> bool) -> list (f32 * string) -> list (f32 * string))
    (own : algorithm -> N) (arg : option string) (name : string) :
  (forall f, In (name, f) ALGOS -> exists digits ds,
     main dbg processes sort (Some name) own arg = {| stdout := digits ++ newline; started := 0; ended := Returned |} /\
     all_digits digits = Some ds /\ decimal ds = own f) /\
  (~ In name (map fst ALGOS) -> main dbg processes sort (Some name) own arg = {| stdout := ""; started := 0; ended := Panicked |}).
Proof.
  split.
  - intros f I. destruct (C52_names name f) as (G & _). unfold main, worker. rewrite (proj2 G I).
    destruct (dec_all (own f)) as (ds & A & _ & E). exists (dec (own f)), ds. split; [reflexivity|]. split; assumption.
  - intros N. unfold main, worker. destruct (get_hash_bench name) as [f| | |] eqn:E; try reflexivity.
    apply C52_names in E. exfalso. apply N. exact (in_map fst _ _ E).
Qed.
Print Assumptions C55_worker.

(** Insertion is such a sort. *)
Fixpoint insert {A} (less : A -> A -> bool) (x : A) (l : list A) : list A :=
  match l with [] => [x] | y :: r => if less y x then y :: insert less x r else x :: l end.
Definition insertion {A} (less : A -> A -> bool) (l : list A) : list A := fold_right (insert less) [] l.
Lemma insert_perm {A} (less : A -> A -> bool) x l : Permutation (x :: l) (insert less x l).
Proof.
  induction l as [|y r IH]; cbn; [reflexivity|]. destruct (less y x); [|reflexivity].
  rewrite perm_swap. constructor. exact IH.
Qed.
Lemma insertion_perm {A} (less : A -> A -> bool) l : Permutation l (insertion less l).
Proof. induction l as [|x l IH]; cbn; [reflexivity|]. rewrite <- insert_perm. now constructor. Qed.
Lemma insert_sorted {A} (less : A -> A -> bool) x l :
  orders less (x :: l) -> StronglySorted (fun x y => less y x = false) l ->
  StronglySorted (fun x y => less y x = false) (insert less x l).
Proof.
  intros (Ir & Tr & Ng) S. induction l as [|y r IH]; cbn [insert]; [repeat constructor|].
  apply StronglySorted_inv in S as [S F]. rewrite Forall_forall in F. destruct (less y x) eqn:L.
  - constructor.
    + apply IH; [| | |exact S].
      * intros z Z. apply Ir. cbn in Z |- *; tauto.
      * intros a b c Ha Hb Hc. apply Tr; cbn in Ha, Hb, Hc |- *; tauto.
      * intros a b c Ha Hb Hc. apply Ng; cbn in Ha, Hb, Hc |- *; tauto.
    + apply Forall_forall. intros z Z. apply (Permutation_in _ (Permutation_sym (insert_perm less x r))) in Z.
      destruct Z as [<-|Z]; [|apply F, Z]. destruct (less x y) eqn:L'; [|reflexivity].
      assert (X : less x x = true) by (apply (Tr x y x); cbn; tauto). rewrite Ir in X by (cbn; tauto). discriminate.
  - constructor; [constructor; [exact S|now apply Forall_forall]|]. constructor; [exact L|].
    apply Forall_forall. intros z Z. apply (Ng z y x); [cbn; tauto..|apply F, Z|exact L].
Qed.
Example C55_example_sort : sorts (@insertion (f32 * string)).
Proof.
  intros less l. split; [apply insertion_perm|]. intros O. induction l as [|x l IH]; [constructor|]. cbn [insertion fold_right].
  destruct O as (Ir & Tr & Ng).
  assert (SUB : forall z, In z (x :: insertion less l) -> In z (x :: l)).
  { intros z [<-|Z]; [now left|right]. eapply Permutation_in; [apply Permutation_sym, insertion_perm|exact Z]. }
  apply insert_sorted; [|apply IH].
  - split; [|split].
    + intros z Z. apply Ir, SUB, Z.
    + intros a b c Ha Hb Hc. apply Tr; apply SUB; assumption.
    + intros a b c Ha Hb Hc. apply Ng; apply SUB; assumption.
  - split; [|split].
    + intros z Z. apply Ir. now right.
    + intros a b c Ha Hb Hc. apply Tr; now right.
    + intros a b c Ha Hb Hc. apply Ng; now right.
Qed.
(** A machine on which everything runs, and takes 51.2 milliseconds, but for one function: 10 GB/s and 2 GB/s. *)
Definition demo_time (f : algorithm) : N := match f with Blake2s_hash => 256000000 | _ => 51200000 end.
Example C55_example :
  measurable (fun _ => demo_time) /\ time_spent (fun _ => demo_time) Blake2s_hash 0 100 = 25600000000%N /\
  stdout (main true (fun _ => Up demo_time) (@insertion _) None (fun _ => 0%N) (Some "blake2s_simd BLAKE2s"%string)) = ("2.000" ++ newline)%string /\
  close 2000 25600000000 /\ ~ close 2001 25600000000.
Proof.
  split; [|split; [|split; [|split]]].
  - intros i f. destruct f; vm_compute; reflexivity.
  - vm_compute. reflexivity.
  - vm_compute. reflexivity.
  - vm_compute. discriminate.
  - vm_compute. intros H. apply H. reflexivity.
Qed.
(** Answers with white space around them, and texts that are no answer. *)
Example C55_example_answers :
  gives (Printed (String "009" (" +0051" ++ newline))%string) (fun _ => 51%N) /\
  useless (Printed "51 2"%string) /\ useless (Printed ""%string) /\ useless (Printed "-1"%string).
Proof.
  assert (U : forall s, from_str 128 (trim s) = None -> useless (Printed s)).
  { intros s H n T. apply tells_spec in T. congruence. }
  split; [|split; [|split]]; [|apply U; vm_compute; reflexivity..].
  intros f. apply tells_spec. vm_compute. reflexivity.
Qed.
