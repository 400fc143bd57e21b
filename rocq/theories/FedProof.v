(** A State seen from outside: which configuration it has and which bytes it
    was fed. *)
From Coq Require Import ZArith Arith NArith List Bool Lia ZifyBool ZifyNat ZifyN.
From Verif Require Import Base ByteLemmas Guts Portable KernelSpec Simd Impl Loops LaneLoops Lib StateProof ParamsProof.
From Verif Require Spec ApiSpec.
Import ListNotations.
Open Scope N_scope.

Definition keyed (c : ApiSpec.config) : bool :=
  match ApiSpec.c_key c with [] => false | _ => true end.

Record holds (v : variant) (e : env) (c : ApiSpec.config) (msg : list byte) (s : state) : Prop := {
  hd_wf : wf_config (fl v) c;
  hd_sup : supported e (s_imp s);
  hd_abs : exists k,
    absorbed v (Spec.initial_state (fl v) (ApiSpec.c_params c)) (Spec.data (fl v) (ApiSpec.c_key c) msg) k s /\
    (0 < k -> 0 < s_buflen s)%nat;
  hd_ln : s_last_node s = ApiSpec.c_last_node c;
  hd_len : s_hash_length s = Spec.digest_length (ApiSpec.c_params c);
  hd_keyed : s_is_keyed s = keyed c }.

(** The Hash object of a digest. *)
Definition hash_value (v : variant) (c : ApiSpec.config) (msg : list byte) : hash :=
  {| h_bytes := Spec.words_to_bytes (fl v)
       (Spec.hash_words (fl v) (Spec.initial_state (fl v) (ApiSpec.c_params c))
          (Spec.data (fl v) (ApiSpec.c_key c) msg) (ApiSpec.c_last_node c));
     h_len := Spec.digest_length (ApiSpec.c_params c) |}.

Lemma xor_words_ok v a b : length a = 8%nat -> length b = 8%nat ->
  Forall (fun x => x < wmod v) a -> Forall (fun x => x < wmod v) b -> words_ok v (Spec.xor_words a b).
Proof.
  intros La Lb Ha Hb. unfold Spec.xor_words. split.
  - rewrite map_length, combine_length, La, Lb. reflexivity.
  - apply Forall_forall. intros x Hx. apply in_map_iff in Hx. destruct Hx as ([p q] & <- & H).
    cbn [fst snd]. rewrite Forall_forall in Ha, Hb. unfold wmod. apply lxor_lt.
    + apply Ha. eapply in_combine_l; eauto.
    + apply Hb. eapply in_combine_r; eauto.
Qed.

Lemma initial_state_ok v p : words_ok v (Spec.initial_state (fl v) p).
Proof.
  unfold Spec.initial_state. rewrite iv_spec. destruct (iv_ok v) as [L F].
  apply xor_words_ok; auto.
  apply Forall_forall. intros x Hx. apply in_map_iff in Hx. destruct Hx as (i & <- & _).
  unfold Spec.word. rewrite decode_from_le, word_len_fl. unfold wmod. rewrite wbits_wbytes.
  eapply N.lt_le_trans; [apply from_le_lt|]. apply N.pow_le_mono_r; [lia|].
  rewrite firstn_length. lia.
Qed.

Lemma hash_words_ok v h0 d ln : words_ok v h0 -> words_ok v (Spec.hash_words (fl v) h0 d ln).
Proof.
  intros H. unfold Spec.hash_words. apply F_ok. rewrite block_len_fl. apply (chain_ok v d h0 0). exact H.
Qed.

Lemma data_nil v c : wf_config (fl v) c ->
  Spec.data (fl v) (ApiSpec.c_key c) [] = if keyed c then Spec.pad_to (blockbytes v) (ApiSpec.c_key c) else [].
Proof.
  intros _. unfold Spec.data, keyed. destruct (ApiSpec.c_key c); auto. rewrite app_nil_r, block_len_fl. reflexivity.
Qed.

Lemma data_app f k a b : Spec.data f k (a ++ b) = Spec.data f k a ++ b.
Proof. unfold Spec.data. destruct k; auto. rewrite app_assoc. reflexivity. Qed.

Lemma key_length_pos v c : wf_config (fl v) c ->
  N.ltb 0 (Spec.key_length (ApiSpec.c_params c)) = keyed c.
Proof. intros W. rewrite (wf_key _ _ W). unfold keyed. destruct (ApiSpec.c_key c); reflexivity. Qed.

Lemma keyed_pad_length v c : wf_config (fl v) c ->
  length (Spec.pad_to (blockbytes v) (ApiSpec.c_key c)) = blockbytes v.
Proof.
  intros W. unfold Spec.pad_to. rewrite app_length, repeat_length. pose proof (wf_keylen _ _ W) as K.
  rewrite max_out_fl in K. unfold outbytes, blockbytes in *. lia.
Qed.

Lemma holds_new v e imp c : wf_config (fl v) c -> supported e imp ->
  holds v e c [] (to_state v (params_of v imp c)).
Proof.
  intros W S. unfold to_state, with_params.
  assert (KP : N.ltb 0 (p_key_length (params_of v imp c)) = keyed c) by (apply (key_length_pos v); auto).
  cbv zeta. rewrite KP. clear KP.
  pose proof (keyed_pad_length v c W) as PL. pose proof (bb_lt_256 v) as B.
  pose proof (initial_state_ok v (ApiSpec.c_params c)) as IO.
  assert (DN := data_nil v c W).
  destruct (keyed c) eqn:K.
  - constructor; auto.
    + exists 0%nat. split; [|lia]. rewrite DN.
      constructor; stf; cbn [params_of p_key_block Nat.mul skipn].
      * rewrite to_words_spec by auto. reflexivity.
      * reflexivity.
      * rewrite as_u8_id by lia. lia.
      * rewrite as_u8_id by lia. apply firstn_all.
      * exact PL.
      * rewrite as_u8_id by lia. lia.
      * exact IO.
  - constructor; auto.
    + exists 0%nat. split; [|lia]. rewrite DN.
      constructor; stf; cbn [Nat.mul skipn firstn].
      * rewrite to_words_spec by auto. reflexivity.
      * reflexivity.
      * reflexivity.
      * reflexivity.
      * apply repeat_length.
      * lia.
      * exact IO.
Qed.

Lemma holds_update v e c msg s x : holds v e c msg s ->
  exists s', update v e s x = Ret s' /\ holds v e c (msg ++ x) s' /\ s_imp s' = s_imp s.
Proof.
  intros [W S (k & A & NE) L H K].
  destruct (update_spec v e _ _ k s x S A NE) as (s' & k' & E & A' & (C1 & C2 & C3 & C4) & NE').
  exists s'. split; [exact E|]. split; [|auto]. constructor; auto; try congruence.
  exists k'. rewrite data_app. auto.
Qed.

Lemma holds_finalize v e c msg s : holds v e c msg s -> finalize v e s = Ret (hash_value v c msg).
Proof.
  intros [W S (k & A & NE) L H K]. rewrite (finalize_spec v e _ _ k s S A NE).
  rewrite words_to_bytes_eq by (apply hash_words_ok, initial_state_ok).
  unfold hash_value. congruence.
Qed.

Lemma holds_set_last_node v e c msg s b : holds v e c msg s ->
  holds v e (ApiSpec.apply (ApiSpec.LastNode b) c) msg (set_last_node b s).
Proof.
  intros [W S (k & A & NE) L H K]. constructor; stf; auto.
  - apply wf_apply; auto. exact I.
  - exists k. split; auto. destruct A. constructor; auto.
Qed.

(** Number of bytes the key block takes. *)
Definition key_bytes (v : variant) (c : ApiSpec.config) : nat := if keyed c then blockbytes v else 0%nat.

Lemma data_length v c msg : wf_config (fl v) c ->
  length (Spec.data (fl v) (ApiSpec.c_key c) msg) = (key_bytes v c + length msg)%nat.
Proof.
  intros W. change msg with ([] ++ msg) at 1. rewrite data_app, app_length, data_nil by auto.
  unfold key_bytes. destruct (keyed c); auto. rewrite keyed_pad_length by auto. reflexivity.
Qed.

Lemma holds_count v e c msg s : holds v e c msg s ->
  let total := N.of_nat (key_bytes v c + length msg) mod cmod v in
  count v e s = if keyed c then count_sub v e total (N.of_nat (blockbytes v)) else Ret total.
Proof.
  intros [W S (k & A & NE) L H K]. cbv zeta. unfold count.
  rewrite (count_spec v _ _ k s A), data_length, K by auto. reflexivity.
Qed.

Lemma hash_value_bytes v c msg : wf_config (fl v) c ->
  as_bytes (hash_value v c msg) = Ret (ApiSpec.digest (fl v) c msg).
Proof.
  intros W. unfold as_bytes, hash_value. cbn [h_bytes h_len].
  rewrite slice0_ok; [reflexivity|].
  rewrite <- words_to_bytes_eq, words_to_bytes_length by (apply hash_words_ok, initial_state_ok).
  pose proof (wf_digest _ _ W) as D. rewrite max_out_fl in D. lia.
Qed.

Lemma params_hash_spec v e imp c msg : wf_config (fl v) c -> supported e imp ->
  params_hash v e (params_of v imp c) msg = Ret (hash_value v c msg).
Proof.
  intros W S. unfold params_hash.
  assert (KP : N.ltb 0 (p_key_length (params_of v imp c)) = keyed c) by (apply (key_length_pos v); auto).
  cbv zeta. rewrite KP. clear KP.
  destruct (keyed c) eqn:K.
  - destruct (holds_update v e c [] _ msg (holds_new v e imp c W S)) as (s' & E & H & _).
    rewrite E. cbn [bind]. apply holds_finalize. exact H.
  - pose proof (initial_state_ok v (ApiSpec.c_params c)) as IO. rewrite to_words_spec by auto.
    rewrite compress1_loop_spec; auto; [|left; reflexivity]. cbn [bind].
    rewrite C1_whole by auto. unfold hash_value, Spec.data.
    unfold keyed in K. destruct (ApiSpec.c_key c); [|discriminate].
    rewrite words_to_bytes_eq by (apply hash_words_ok; auto). reflexivity.
Qed.

(** *** Settings applied one after the other *)
(** Running setters in order, each of which may panic; a panic is caught by the
    caller, who goes on with the same object. *)
Definition run_settings (v : variant) (ss : list ApiSpec.setting) (p : params) : params :=
  fold_left (fun p s => fst (setter v s p)) ss p.

Lemma run_settings_spec v imp ss c :
  run_settings v ss (params_of v imp c) = params_of v imp (ApiSpec.configure (fl v) ss c).
Proof.
  unfold run_settings, ApiSpec.configure. revert c. induction ss as [|s ss IH]; intros c; auto.
  cbn [fold_left]. rewrite setter_spec. destruct (ApiSpec.legal (fl v) s); apply IH.
Qed.
