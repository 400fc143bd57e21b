(** Lemmas for C63. *)
From Coq Require Import Arith NArith List Bool Lia.
From Coq Require Import Init.Byte.
From Verif Require Import Base Guts KernelSpec Impl Lib Many Par.
From Verif Require Import Spec ApiSpec Calls Collisions ExtendSpec.
From Verif Require Import Words ParamsProof FedProof ParProof ParFed CollisionProof.
Import ListNotations.
Open Scope list_scope.
Open Scope N_scope.
Local Notation length := List.length.

(** A use of a chain is its first one or goes on from the one before it. *)
Lemma use_place f cs : forall h x, In x (uses_from f h cs) ->
  (fst x = h /\ exists after, uses_from f h cs = x :: after) \/
  exists before z after, uses_from f h cs = before ++ z :: x :: after /\ fst x = result f z.
Proof.
  induction cs as [|c cs IH]; intros h x I; [destruct I|]. cbn [uses_from] in *.
  destruct I as [<-|I]; [left; split; [reflexivity|eexists; reflexivity]|right].
  destruct (IH _ _ I) as [(E & after & U)|(before & z & after & U & E)].
  - exists [], (h, c), after. rewrite U. auto.
  - exists ((h, c) :: before), z, after. rewrite U. auto.
Qed.

(** Only the last call of a chain carries the flag. *)
Lemma flag_last f key msg ln h before z x after :
  uses_from f h (calls f key msg ln) = before ++ z :: x :: after -> fc_last_block (snd z) = false.
Proof.
  unfold calls. rewrite uses_from_snoc.
  set (q := map _ _). intros E.
  assert (A : Forall (fun u => fc_last_block (snd u) = false) (uses_from f h q)).
  { assert (Q : Forall (fun c => fc_last_block c = false) q) by (apply Forall_map, Forall_forall; reflexivity).
    clear E. revert h. induction Q as [|c r C Q IH]; intros h; cbn [uses_from]; constructor; auto. }
  destruct (exists_last (l := x :: after)) as (a & l & L); [discriminate|]. rewrite L in E.
  change (before ++ z :: a ++ [l]) with (before ++ (z :: a) ++ [l]) in E. rewrite app_assoc in E.
  apply app_inj_tail in E. destruct E as [E _]. rewrite E in A. apply Forall_app in A. destruct A as [_ A].
  inversion A; auto.
Qed.

Lemma last_use f key msg ln h : exists before y,
  uses_from f h (calls f key msg ln) = before ++ [y] /\ fc_last_block (snd y) = true /\
  result f y = make_calls f h (calls f key msg ln).
Proof.
  unfold calls. rewrite uses_from_snoc, make_calls_snoc. eexists _, _. split; [reflexivity|]. auto.
Qed.

(** Every chain is a chain of [calls] that starts from one of the values in [starts]. *)
Lemma chains_shape f k ch : In ch (chains f k) ->
  exists h key msg ln, In h (starts f k) /\ ch = uses_from f h (calls f key msg ln).
Proof.
  destruct k as [c msg|c msg]; cbn [chains starts].
  - intros [<-|[]]. eexists _, _, _, _. split; [left; reflexivity|]. reflexivity.
  - rewrite in_app_iff, in_map_iff. intros [(i & <- & I)|[<-|[]]].
    + eexists _, _, _, _. split; [|reflexivity]. apply in_or_app. left.
      apply (in_map (fun i => initial_state f (tree_node f (pc_hash_length c) (length (pc_key c)) (N.of_nat i) 0))). exact I.
    + eexists _, _, _, _. split; [|reflexivity]. apply in_or_app. right. left. reflexivity.
Qed.

Definition wf_computation f k :=
  match k with Sequential c _ => wf_config f c | Parallel c _ => wf_pconfig f c end.

Lemma answer_use v k : wf_computation (fl v) k -> exists y, gives_digest (fl v) k y /\ fc_last_block (snd y) = true /\
  words_ok v (result (fl v) y) /\
  answer (fl v) k = firstn (length (answer (fl v) k)) (words_to_bytes (fl v) (result (fl v) y)).
Proof.
  destruct k as [c msg|c msg]; cbn [wf_computation answer chains]; intros W.
  - destruct (last_use (fl v) (c_key c) msg (c_last_node c) (initial_state (fl v) (c_params c))) as (b & y & U & L & R).
    exists y. split; [exists [], b; cbn [chains app]; unfold uses; rewrite U; reflexivity|]. split; [exact L|]. rewrite R.
    split; [apply make_calls_ok, initial_state_ok|]. rewrite digest_length_eq by exact W. apply blake2_calls.
  - destruct (last_use (fl v) [] (flat_map (leaf_hash (fl v) (pc_hash_length c) (pc_key c) msg) (seq 0 (leaves (fl v)))) true
      (initial_state (fl v) (tree_node (fl v) (pc_hash_length c) (length (pc_key c)) 0 1))) as (b & y & U & L & R).
    exists y. split; [eexists _, b; cbn [chains]; unfold root_uses; rewrite U; reflexivity|]. split; [exact L|]. rewrite R.
    split; [apply make_calls_ok, initial_state_ok|]. rewrite pdigest_length_eq by exact W. apply pdigest_calls.
Qed.

Lemma starts_ok v k h : In h (starts (fl v) k) -> words_ok v h.
Proof.
  destruct k; cbn [starts]; [intros [<-|[]]; apply initial_state_ok|].
  rewrite in_app_iff, in_map_iff. intros [(i & <- & _)|[<-|[]]]; apply initial_state_ok.
Qed.

Lemma uses_ok v cs : forall h z, words_ok v h -> In z (uses_from (fl v) h cs) -> words_ok v (result (fl v) z).
Proof.
  induction cs as [|c cs IH]; intros h z O I; [destruct I|]. cbn [uses_from] in I.
  assert (O' : words_ok v (result (fl v) (h, c))) by (apply F_ok, O).
  destruct I as [<-|I]; [exact O'|]. eapply IH; eauto.
Qed.

Lemma no_extension v k k' ch x : wf_computation (fl v) k ->
  In ch (chains (fl v) k') -> In x ch ->
  firstn (length (answer (fl v) k)) (words_to_bytes (fl v) (fst x)) = answer (fl v) k ->
  (In (fst x) (starts (fl v) k') /\ exists after, ch = x :: after) \/
  exists y z, gives_digest (fl v) k y /\ goes_on (fl v) k' z x /\
    fc_last_block (snd y) = true /\ fc_last_block (snd z) = false /\
    firstn (length (answer (fl v) k)) (words_to_bytes (fl v) (result (fl v) y)) =
    firstn (length (answer (fl v) k)) (words_to_bytes (fl v) (result (fl v) z)) /\
    (length (answer (fl v) k) = max_out (fl v) -> result (fl v) y = result (fl v) z).
Proof.
  intros W I J E. destruct (chains_shape _ _ _ I) as (h & key & msg & ln & S & ->).
  destruct (use_place _ _ _ _ J) as [(X & after & U)|(b & z & after & U & X)].
  - left. rewrite X. split; [exact S|]. eauto.
  - right. destruct (answer_use v k W) as (y & G & L & O & A). exists y, z.
    assert (Oz : words_ok v (result (fl v) z)).
    { eapply uses_ok; [eapply starts_ok; exact S|]. rewrite U. apply in_elt. }
    split; [exact G|]. split; [exists b, after; rewrite <- U; exact I|]. split; [exact L|].
    split; [eapply flag_last; exact U|]. rewrite X in E. split; [congruence|].
    intros F. apply (words_to_bytes_inj v); auto.
    assert (FL : forall w, words_ok v w -> firstn (max_out (fl v)) (words_to_bytes (fl v) w) = words_to_bytes (fl v) w).
    { intros w Ow. apply firstn_all2. rewrite max_out_fl, <- words_to_bytes_eq, words_to_bytes_length by exact Ow. unfold outbytes. lia. }
    rewrite F in A, E. rewrite FL in A, E by assumption. congruence.
Qed.
