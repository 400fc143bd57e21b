(** Consequences of the refinement proofs in the form in which the properties
    are stated. *)
From Coq Require Import String Ascii.
From Coq Require Import ZArith Arith NArith List Bool Lia ZifyBool ZifyNat ZifyN.
From Coq Require Import Permutation.
From Coq Require Import Strings.Byte.
From Verif Require Import Base ByteLemmas Guts KernelSpec Simd Impl Sched Lib Many Par.
From Verif Require Import Loops LaneLoops SchedProof StateProof ParamsProof FedProof ManyProof ParProof ParFed HashProof.
From Verif Require Import Machine Api ApiProof History Runs HistoryProof BatchProof Calls InjProof Words.
From Verif Require Spec ApiSpec.
Import ListNotations.
Open Scope list_scope.
Open Scope N_scope.
Local Notation length := List.length.

(** *** Setters *)
Lemma setter_accepts v s p : ApiSpec.legal (fl v) s = true -> snd (call_setter v s p) = Ret tt.
Proof.
  intros L. destruct s; cbn [call_setter ApiSpec.legal] in *;
    try rewrite max_out_fl in L; try rewrite salt_len_fl in L; try reflexivity.
  - unfold Lib.hash_length, m_seq, m_assert. rewrite L. reflexivity.
  - unfold Lib.key, m_seq, m_assert. replace (keybytes v) with (outbytes v) by (destruct v; reflexivity). rewrite L.
    cbn [assert_ m_assign m_try]. unfold m_try.
    cbn [p_key_block set_p_key_block]. rewrite copy_zeros; [reflexivity|].
    apply Nat.leb_le in L. destruct v; cbn in *; lia.
  - unfold Lib.salt, m_seq, m_assert. rewrite L. cbn [assert_ m_assign m_try]. unfold m_try.
    cbn [p_salt set_p_salt]. rewrite copy_zeros; [reflexivity|]. apply Nat.leb_le in L. exact L.
  - unfold Lib.personal, m_seq, m_assert. replace (personalbytes v) with (saltbytes v) by (destruct v; reflexivity).
    rewrite L. cbn [assert_ m_assign m_try]. unfold m_try.
    cbn [p_personal set_p_personal]. rewrite copy_zeros; [reflexivity|]. apply Nat.leb_le in L. exact L.
  - unfold Lib.node_offset, m_seq, m_assert. destruct v; cbn [fl] in L; [reflexivity|]. change (N.shiftl 1 48) with (2 ^ 48). rewrite L. reflexivity.
  - unfold Lib.inner_hash_length, m_seq, m_assert. rewrite L. reflexivity.
Qed.

Lemma setter_refuses v s p : ApiSpec.legal (fl v) s = false -> call_setter v s p = (p, Panic).
Proof.
  intros L. destruct s; cbn [call_setter ApiSpec.legal] in *;
    try rewrite max_out_fl in L; try rewrite salt_len_fl in L; try discriminate.
  - unfold Lib.hash_length, m_seq, m_assert. rewrite L. reflexivity.
  - unfold Lib.key, m_seq, m_assert. replace (keybytes v) with (outbytes v) by (destruct v; reflexivity). rewrite L. reflexivity.
  - unfold Lib.salt, m_seq, m_assert. rewrite L. reflexivity.
  - unfold Lib.personal, m_seq, m_assert. replace (personalbytes v) with (saltbytes v) by (destruct v; reflexivity).
    rewrite L. reflexivity.
  - unfold Lib.node_offset, m_seq, m_assert. destruct v; cbn [fl] in L; [discriminate|]. change (N.shiftl 1 48) with (2 ^ 48). rewrite L. reflexivity.
  - unfold Lib.inner_hash_length, m_seq, m_assert. rewrite L. reflexivity.
Qed.

Lemma psetter_accepts v s p : ApiSpec.plegal (fl v) s = true -> snd (call_psetter v s p) = Ret tt.
Proof.
  intros L. destruct s; cbn [call_psetter ApiSpec.plegal] in *; rewrite max_out_fl in L.
  - unfold p_set_hash_length, m_seq, m_assert. rewrite L. reflexivity.
  - unfold p_set_key, m_seq, m_assert. replace (keybytes v) with (outbytes v) by (destruct v; reflexivity). rewrite L.
    cbn [assert_ m_assign m_try]. unfold m_try.
    cbn. rewrite copy_zeros; [reflexivity|].
    apply Nat.leb_le in L. destruct v; cbn in *; lia.
Qed.
Lemma psetter_refuses v s p : ApiSpec.plegal (fl v) s = false -> call_psetter v s p = (p, Panic).
Proof.
  intros L. destruct s; cbn [call_psetter ApiSpec.plegal] in *; rewrite max_out_fl in L.
  - unfold p_set_hash_length, m_seq, m_assert. rewrite L. reflexivity.
  - unfold p_set_key, m_seq, m_assert. replace (keybytes v) with (outbytes v) by (destruct v; reflexivity). rewrite L. reflexivity.
Qed.

(** *** The last value wins *)
Definition from_last (f : Spec.flavour) (g : field -> option ApiSpec.setting) : ApiSpec.config :=
  {| ApiSpec.c_params :=
       {| Spec.digest_length := match g fHashLength with Some (ApiSpec.HashLength n) => N.of_nat n | _ => N.of_nat (Spec.max_out f) end;
          Spec.key_length := match g fKey with Some (ApiSpec.Key k) => N.of_nat (length k) | _ => 0 end;
          Spec.fanout := match g fFanout with Some (ApiSpec.Fanout x) => x | _ => 1 end;
          Spec.depth := match g fMaxDepth with Some (ApiSpec.MaxDepth x) => x | _ => 1 end;
          Spec.leaf_length := match g fMaxLeafLength with Some (ApiSpec.MaxLeafLength x) => x | _ => 0 end;
          Spec.node_offset := match g fNodeOffset with Some (ApiSpec.NodeOffset x) => x | _ => 0 end;
          Spec.node_depth := match g fNodeDepth with Some (ApiSpec.NodeDepth x) => x | _ => 0 end;
          Spec.inner_length := match g fInnerHashLength with Some (ApiSpec.InnerHashLength n) => N.of_nat n | _ => 0 end;
          Spec.salt := match g fSalt with Some (ApiSpec.Salt s) => s | _ => [] end;
          Spec.personal := match g fPersonal with Some (ApiSpec.Personal s) => s | _ => [] end |};
     ApiSpec.c_key := match g fKey with Some (ApiSpec.Key k) => k | _ => [] end;
     ApiSpec.c_last_node := match g fLastNode with Some (ApiSpec.LastNode b) => b | _ => false end |}.

Lemma last_accepted_snoc f k ss s : last_accepted f k (ss ++ [s]) =
  if same_field (field_of s) k && ApiSpec.legal f s then Some s else last_accepted f k ss.
Proof. unfold last_accepted. rewrite rev_app_distr. cbn [rev app find]. reflexivity. Qed.

Lemma configure_snoc f ss s c : ApiSpec.configure f (ss ++ [s]) c =
  if ApiSpec.legal f s then ApiSpec.apply s (ApiSpec.configure f ss c) else ApiSpec.configure f ss c.
Proof. unfold ApiSpec.configure. rewrite fold_left_app. reflexivity. Qed.

Lemma configure_last f ss : ApiSpec.configure f ss (ApiSpec.default_config f) =
  from_last f (fun k => last_accepted f k ss).
Proof.
  induction ss as [|s ss IH] using rev_ind.
  - reflexivity.
  - rewrite configure_snoc, IH. unfold from_last. rewrite !last_accepted_snoc.
    destruct (ApiSpec.legal f s) eqn:L; rewrite ?andb_true_r, ?andb_false_r; [|reflexivity].
    destruct s; reflexivity.
Qed.

Lemma build_last v imp ss ss' : (forall k, last_accepted (fl v) k ss = last_accepted (fl v) k ss') ->
  build v imp ss = build v imp ss'.
Proof. intros H. rewrite !build_spec, !configure_last. unfold from_last. rewrite !H. reflexivity. Qed.

Lemma last_accepted_filter f k ss : same_field fKey k = false ->
  last_accepted f k (filter (fun s => negb (is_key s)) ss) = last_accepted f k ss.
Proof.
  intros K. induction ss as [|s ss IH] using rev_ind; [reflexivity|].
  rewrite filter_app. cbn [filter]. rewrite last_accepted_snoc.
  destruct (is_key s) eqn:E; cbn [negb].
  - rewrite app_nil_r, IH. replace (same_field (field_of s) k) with false; [reflexivity|].
    unfold is_key in E. destruct s; cbn in E; try discriminate. cbn [field_of]. auto.
  - rewrite last_accepted_snoc, IH. reflexivity.
Qed.
Lemma last_accepted_nokey f ss : last_accepted f fKey (filter (fun s => negb (is_key s)) ss) = None.
Proof.
  induction ss as [|s ss IH] using rev_ind; [reflexivity|].
  rewrite filter_app. cbn [filter]. destruct (is_key s) eqn:E; cbn [negb]; [rewrite app_nil_r; auto|].
  rewrite last_accepted_snoc. unfold is_key in E. rewrite E. auto.
Qed.

Lemma build_no_key v imp ss : build v imp (ss ++ [ApiSpec.Key []]) = build v imp (filter (fun s => negb (is_key s)) ss).
Proof.
  rewrite !build_spec, !configure_last. unfold from_last.
  rewrite !last_accepted_nokey, !last_accepted_filter by reflexivity.
  rewrite !last_accepted_snoc. reflexivity.
Qed.

Lemma pconfigure_nokey f ss : forall c,
  ApiSpec.pconfigure f (filter (fun s => negb (is_pkey s)) ss) {| ApiSpec.pc_hash_length := ApiSpec.pc_hash_length c; ApiSpec.pc_key := [] |} =
  {| ApiSpec.pc_hash_length := ApiSpec.pc_hash_length (ApiSpec.pconfigure f ss c); ApiSpec.pc_key := [] |}.
Proof.
  unfold ApiSpec.pconfigure. induction ss as [|s ss IH]; intros c; [reflexivity|].
  cbn [filter fold_left]. destruct s as [n|k]; cbn [is_pkey negb fold_left].
  - rewrite <- IH. destruct (ApiSpec.plegal f _); reflexivity.
  - rewrite <- IH. destruct (ApiSpec.plegal f _); reflexivity.
Qed.
Lemma pbuild_no_key v imp ss : pbuild v imp (ss ++ [ApiSpec.PKey []]) = pbuild v imp (filter (fun s => negb (is_pkey s)) ss).
Proof.
  rewrite !pbuild_spec. f_equal.
  pose proof (pconfigure_nokey (fl v) ss (ApiSpec.pdefault_config (fl v))) as E.
  change {| ApiSpec.pc_hash_length := ApiSpec.pc_hash_length (ApiSpec.pdefault_config (fl v)); ApiSpec.pc_key := [] |}
    with (ApiSpec.pdefault_config (fl v)) in E.
  rewrite E. unfold ApiSpec.pconfigure at 1. rewrite fold_left_app. reflexivity.
Qed.

(** Shorter salts and personalisations are zero-padded. *)
Lemma pad_to_zeros n s k : Spec.pad_to n (s ++ repeat x00 k) = Spec.pad_to n s \/ (n < length s + k)%nat.
Proof.
  destruct (Nat.ltb_spec n (length s + k)); [auto|left]. unfold Spec.pad_to.
  rewrite <- app_assoc, <- repeat_app, app_length, repeat_length. do 2 f_equal. lia.
Qed.

Lemma build_salt_padded v imp ss s k : (length s + k <= ApiSpec.salt_len (fl v))%nat ->
  build v imp (ss ++ [ApiSpec.Salt (s ++ repeat x00 k)]) = build v imp (ss ++ [ApiSpec.Salt s]).
Proof.
  intros L. rewrite !build_spec, !configure_snoc. cbn [ApiSpec.legal]. rewrite app_length, repeat_length.
  rewrite !(proj2 (Nat.leb_le _ _)) by lia. unfold params_of. cbn [ApiSpec.apply ApiSpec.c_params ApiSpec.c_key ApiSpec.c_last_node Spec.salt Spec.personal Spec.digest_length Spec.key_length Spec.fanout Spec.depth Spec.leaf_length Spec.node_offset Spec.node_depth Spec.inner_length].
  destruct (pad_to_zeros (saltbytes v) s k) as [->|H]; [reflexivity|]. rewrite <- salt_len_fl in H. lia.
Qed.
Lemma build_personal_padded v imp ss s k : (length s + k <= ApiSpec.salt_len (fl v))%nat ->
  build v imp (ss ++ [ApiSpec.Personal (s ++ repeat x00 k)]) = build v imp (ss ++ [ApiSpec.Personal s]).
Proof.
  intros L. rewrite !build_spec, !configure_snoc. cbn [ApiSpec.legal]. rewrite app_length, repeat_length.
  rewrite !(proj2 (Nat.leb_le _ _)) by lia. unfold params_of. cbn [ApiSpec.apply ApiSpec.c_params ApiSpec.c_key ApiSpec.c_last_node Spec.salt Spec.personal Spec.digest_length Spec.key_length Spec.fanout Spec.depth Spec.leaf_length Spec.node_offset Spec.node_depth Spec.inner_length].
  destruct (pad_to_zeros (personalbytes v) s k) as [->|H]; [reflexivity|].
  replace (personalbytes v) with (saltbytes v) in H by (destruct v; reflexivity). rewrite <- salt_len_fl in H. lia.
Qed.

(** *** Hashing *)
Lemma hash_is_digest v e imp ss m : supported e imp -> Forall ApiSpec.typed ss ->
  exists h, params_hash v e (build v imp ss) m = Ret h /\
    as_bytes h = Ret (ApiSpec.digest (fl v) (ApiSpec.configure (fl v) ss (ApiSpec.default_config (fl v))) m).
Proof.
  intros S T. rewrite build_spec. pose proof (build_wf v ss T) as W.
  eexists. split; [apply params_hash_spec; auto|apply hash_value_bytes; auto].
Qed.

Lemma blake2_default_eq v e imp m : blake2_default v e imp m = params_hash v e (build v imp []) m.
Proof. reflexivity. Qed.

Lemma phash_is_digest v e imp ss m : supported e imp ->
  exists h, p_hash v e (pbuild v imp ss) m = Ret h /\
    as_bytes h = Ret (ApiSpec.pdigest (fl v) (ApiSpec.pconfigure (fl v) ss (ApiSpec.pdefault_config (fl v))) m).
Proof.
  intros S. rewrite pbuild_spec. pose proof (wfp_configure (fl v) ss _ (wfp_default (fl v))) as W.
  eexists. split; [apply p_hash_spec; auto|apply phash_value_bytes; auto].
Qed.

Lemma incremental_is_hash v e imp ss chunks : supported e imp -> Forall ApiSpec.typed ss ->
  exists s, update_all v e (to_state v (build v imp ss)) chunks = Ret s /\
    finalize v e s = params_hash v e (build v imp ss) (concat chunks).
Proof.
  intros S T. pose proof (new_holds v e imp ss S T) as H.
  destruct (update_all_holds v e _ chunks [] _ H) as (s & E & Hs). exists s. split; [exact E|].
  rewrite (holds_finalize _ _ _ _ _ Hs). rewrite build_spec. symmetry. apply params_hash_spec; auto. apply build_wf; auto.
Qed.

Lemma p_incremental_is_hash v e imp ss chunks : supported e imp ->
  exists s0 s, p_to_state v (pbuild v imp ss) = Ret s0 /\ p_update_all v e s0 chunks = Ret s /\
    p_finalize v e s = p_hash v e (pbuild v imp ss) (concat chunks).
Proof.
  intros S. rewrite pbuild_spec. pose proof (wfp_configure (fl v) ss _ (wfp_default (fl v))) as W.
  destruct (pholds_new v e imp _ W S) as (s0 & E0 & H & _).
  destruct (p_update_all_holds v e _ chunks [] _ H) as (s & E & Hs). exists s0, s. split; [exact E0|]. split; [exact E|].
  rewrite (pholds_finalize _ _ _ _ _ Hs). symmetry. apply p_hash_spec; auto.
Qed.

(** *** Histories *)
Lemma history_shows v e imp ss pre o post : supported e imp -> Forall ApiSpec.typed ss ->
  nth_error (watch (do_op v e) (to_state v (build v imp ss)) (pre ++ o :: post)) (length pre) =
  Some (shown (fl v) (e_dbg e) (ApiSpec.configure (fl v) ss (ApiSpec.default_config (fl v))) pre o).
Proof. intros S T. apply watch_shown. apply new_holds; auto. Qed.

Lemma phistory_shows v e imp ss pre o post : supported e imp ->
  exists s0, p_to_state v (pbuild v imp ss) = Ret s0 /\
  nth_error (watch (do_pop v e) s0 (pre ++ o :: post)) (length pre) =
  Some (pshown (fl v) (e_dbg e) (ApiSpec.pconfigure (fl v) ss (ApiSpec.pdefault_config (fl v))) pre o).
Proof.
  intros S. rewrite pbuild_spec. pose proof (wfp_configure (fl v) ss _ (wfp_default (fl v))) as W.
  destruct (pholds_new v e imp _ W S) as (s0 & E0 & H & _). exists s0. split; [exact E0|]. apply pwatch_shown. exact H.
Qed.

(** *** Hash values *)
Lemma hash_eq_iff h h' a b : as_bytes h = Ret a -> as_bytes h' = Ret b ->
  exists r, hash_eq h h' = Ret r /\ (r = true <-> a = b).
Proof. intros A B. unfold hash_eq. rewrite A, B. cbn [bind]. eexists. split; [reflexivity|apply constant_time_eq_iff]. Qed.
Lemma hash_eq_slice_iff h a b : as_bytes h = Ret a ->
  exists r, hash_eq_slice h b = Ret r /\ (r = true <-> a = b).
Proof. intros A. unfold hash_eq_slice. rewrite A. cbn [bind]. eexists. split; [reflexivity|apply constant_time_eq_iff]. Qed.

(** *** Hex *)
Lemma digit_value_hex n : n < 16 ->
  exists c, hex_digit n = String c EmptyString /\ digit_value c = Some n.
Proof.
  intros H. unfold hex_digit. eexists. split; [reflexivity|].
  assert (C : n = 0 \/ n = 1 \/ n = 2 \/ n = 3 \/ n = 4 \/ n = 5 \/ n = 6 \/ n = 7 \/ n = 8 \/ n = 9 \/ n = 10 \/
    n = 11 \/ n = 12 \/ n = 13 \/ n = 14 \/ n = 15) by lia.
  repeat (destruct C as [->|C]; [reflexivity|]). subst. reflexivity.
Qed.

Lemma unhex_hex bs : unhex (Machine.hex bs) = Some bs /\ String.length (Machine.hex bs) = (2 * length bs)%nat.
Proof.
  unfold Machine.hex. induction bs as [|b bs [IH1 IH2]]; [split; reflexivity|]. cbn [map].
  rewrite concat_empty_cons.
  assert (B : Byte.to_N b < 256) by (pose proof (Byte.to_N_bounded b); lia).
  destruct (digit_value_hex (Byte.to_N b / 16)) as (c1 & E1 & V1); [apply N.div_lt_upper_bound; lia|].
  destruct (digit_value_hex (Byte.to_N b mod 16)) as (c2 & E2 & V2); [apply N.mod_lt; lia|].
  rewrite E1, E2. cbn [append unhex String.length]. rewrite V1, V2, IH1, IH2.
  rewrite <- (N.div_mod (Byte.to_N b) 16) by lia. rewrite Byte.of_to_N. split; [reflexivity|]. cbn [length]. lia.
Qed.

Lemma to_hex_spec v h b : as_bytes h = Ret b -> (length b <= outbytes v)%nat -> to_hex v h = Ret (Machine.hex b).
Proof. intros A L. unfold to_hex. rewrite A. cbn [bind]. apply bytes_to_hex_spec. auto. Qed.

(** *** More on histories *)
Lemma watch_skip {S} (step : S -> op -> S * obs) s pre post :
  skipn (length pre) (watch step s (pre ++ post)) = watch step (after step s pre) post.
Proof.
  rewrite watch_app. rewrite skipn_app, (watch_length step pre s), Nat.sub_diag. cbn [skipn].
  rewrite skipn_all2 by (rewrite watch_length; lia). reflexivity.
Qed.

Definition observer (o : op) : Prop := o = DoFinalize \/ o = DoCount \/ o = DoShow \/ o = DoFlush.

Lemma observers_after v e c msg s obs : holds v e c msg s -> (forall o, In o obs -> observer o) ->
  after (do_op v e) s obs = s.
Proof.
  intros H. induction obs as [|o obs IH]; intros O; [reflexivity|].
  change (o :: obs) with ([o] ++ obs). rewrite after_app.
  replace (after (do_op v e) s [o]) with s; [apply IH; intros; apply O; right; auto|].
  destruct (O o (or_introl eq_refl)) as [->|[->|[->| ->]]]; unfold after; cbn [do_ops fst].
  - cbn [do_op]. rewrite (holds_finalize _ _ _ _ _ H). cbn [bind]. rewrite hash_value_bytes by apply H. reflexivity.
  - cbn [do_op]. destruct (count v e s); reflexivity.
  - cbn [do_op]. destruct (state_debug v e s); reflexivity.
  - reflexivity.
Qed.

Lemma observers_leave_no_trace v e imp ss pre obs post :
  supported e imp -> Forall ApiSpec.typed ss ->
  (forall o, In o obs -> o = DoFinalize \/ o = DoCount \/ o = DoShow \/ o = DoFlush) ->
  let s := to_state v (build v imp ss) in
  watch (do_op v e) s (pre ++ obs ++ post) =
  watch (do_op v e) s pre ++ watch (do_op v e) (after (do_op v e) s pre) obs ++
  skipn (length pre) (watch (do_op v e) s (pre ++ post)).
Proof.
  intros S T O s. rewrite watch_skip, (watch_app _ s pre), (watch_app _ _ obs). do 2 f_equal.
  pose proof (after_holds v e _ [] s pre (new_holds v e imp ss S T)) as H.
  rewrite (observers_after _ _ _ _ _ _ H O). reflexivity.
Qed.

Lemma last_node_any_time v e imp ss pre post :
  supported e imp -> Forall ApiSpec.typed ss ->
  let b := last_flag (ApiSpec.c_last_node (ApiSpec.configure (fl v) ss (ApiSpec.default_config (fl v)))) pre in
  exists h, params_hash v e (build v imp (ss ++ [ApiSpec.LastNode b])) (fed pre) = Ret h /\
  exists bytes, as_bytes h = Ret bytes /\
  nth_error (watch (do_op v e) (to_state v (build v imp ss)) (pre ++ DoFinalize :: post)) (length pre) =
  Some (Bytes bytes).
Proof.
  intros S T b. destruct (hash_is_digest v e imp (ss ++ [ApiSpec.LastNode b]) (fed pre) S) as (h & E & B).
  { apply Forall_app. split; auto. repeat constructor. }
  exists h. split; [exact E|]. eexists. split; [exact B|]. rewrite history_shows by auto.
  rewrite configure_snoc. reflexivity.
Qed.

Lemma count_is_bytes_fed v e imp ss pre post :
  supported e imp -> Forall ApiSpec.typed ss ->
  let range := match fl v with Spec.F2b => 2 ^ 128 | Spec.F2s => 2 ^ 64 end in
  let block := match fl v with Spec.F2b => 128 | Spec.F2s => 64 end in
  let keyed := negb (Nat.eqb (length (ApiSpec.c_key (ApiSpec.configure (fl v) ss (ApiSpec.default_config (fl v))))) 0) in
  let n := N.of_nat (length (fed pre)) in
  nth_error (watch (do_op v e) (to_state v (build v imp ss)) (pre ++ DoCount :: post)) (length pre) =
  Some (if e_dbg e && keyed && N.ltb ((block + n) mod range) block
        then Panicked
        else Number (n mod range)).
Proof.
  intros S T. cbv zeta. rewrite history_shows by auto. cbn [shown]. f_equal. unfold count_of.
  set (c := ApiSpec.configure _ _ _). set (k := ApiSpec.c_key c). set (n := length (fed pre)).
  replace (match fl v with Spec.F2b => 2 ^ 128 | Spec.F2s => 2 ^ 64 end) with (counter_range (fl v)) by (destruct v; reflexivity).
  assert (CR : 0 < counter_range (fl v)) by (destruct v; reflexivity).
  destruct k as [|b k]; cbn [key_block_len length Nat.eqb negb].
  - rewrite andb_false_r. replace (N.ltb _ (N.of_nat 0)) with false by (symmetry; apply N.ltb_ge; lia).
    rewrite andb_false_r. reflexivity.
  - rewrite andb_true_r. rewrite Nnat.Nat2N.inj_add.
    replace (N.of_nat (Spec.block_len (fl v))) with (match fl v with Spec.F2b => 128 | Spec.F2s => 64 end) by (destruct v; reflexivity).
    destruct (_ && _); reflexivity.
Qed.

Lemma count_exact v e imp ss pre post :
  supported e imp -> Forall ApiSpec.typed ss -> N.of_nat (length (fed pre)) < 2 ^ 63 ->
  nth_error (watch (do_op v e) (to_state v (build v imp ss)) (pre ++ DoCount :: post)) (length pre) =
  Some (Number (N.of_nat (length (fed pre)))).
Proof.
  intros S T L. rewrite count_is_bytes_fed by auto.
  set (n := N.of_nat (length (fed pre))) in *. change (2 ^ 63) with 9223372036854775808 in L.
  destruct v; cbn [fl].
  - change (2 ^ 128) with 340282366920938463463374607431768211456.
    rewrite !N.mod_small by lia. replace (N.ltb (128 + n) 128) with false by (symmetry; apply N.ltb_ge; lia).
    rewrite andb_false_r. reflexivity.
  - change (2 ^ 64) with 18446744073709551616.
    rewrite !N.mod_small by lia. replace (N.ltb (64 + n) 64) with false by (symmetry; apply N.ltb_ge; lia).
    rewrite andb_false_r. reflexivity.
Qed.

Lemma list_of_length (n : N) : exists x : list byte, N.of_nat (length x) = n.
Proof. exists (repeat x00 (N.to_nat n)). rewrite repeat_length. apply N2Nat.id. Qed.

Lemma count_debug_panic e imp k :
  supported e imp -> e_dbg e = true -> (0 < length k <= 32)%nat ->
  exists x, N.of_nat (length x) = 2 ^ 64 - 64 /\
  watch (do_op V2s e) (to_state V2s (build V2s imp [ApiSpec.Key k])) [DoUpdate x; DoCount] = [Unit; Panicked].
Proof.
  intros S D K. destruct (list_of_length (2 ^ 64 - 64)) as (x & Lx). exists x. split; [exact Lx|].
  assert (T : Forall ApiSpec.typed [ApiSpec.Key k]) by (repeat constructor).
  pose proof (history_shows V2s e imp [ApiSpec.Key k] [] (DoUpdate x) [DoCount] S T) as H1.
  pose proof (count_is_bytes_fed V2s e imp [ApiSpec.Key k] [DoUpdate x] [] S T) as H2.
  cbv zeta in H2. cbn [app length shown] in H1, H2.
  set (w := watch _ _ _) in *. assert (LW : length w = 2%nat) by apply watch_length. clearbody w.
  destruct w as [|a [|b [|? ?]]]; cbn in LW; try discriminate. cbn [nth_error] in H1, H2.
  injection H1 as ->. do 2 f_equal. enough (Q : Some b = Some Panicked) by congruence. rewrite H2. apply f_equal. unfold ApiSpec.configure. cbn [fold_left].
  cbn [ApiSpec.legal]. rewrite (proj2 (Nat.leb_le _ _)) by (cbn; lia). cbn [ApiSpec.apply ApiSpec.c_key].
  destruct k as [|k0 k]; [cbn in K; lia|]. rewrite D. cbn [length Nat.eqb negb andb].
  replace (fed [DoUpdate x]) with x by (unfold fed; cbn; rewrite app_nil_r; reflexivity). rewrite Lx. vm_compute. reflexivity.
Qed.

Lemma key_is_one_leading_block v e imp ss k m :
  supported e imp -> Forall ApiSpec.typed ss -> (0 < length k <= Spec.max_out (fl v))%nat ->
  let c := ApiSpec.configure (fl v) (ss ++ [ApiSpec.Key k]) (ApiSpec.default_config (fl v)) in
  exists h, params_hash v e (build v imp (ss ++ [ApiSpec.Key k])) m = Ret h /\
    as_bytes h = Ret (firstn (N.to_nat (Spec.digest_length (ApiSpec.c_params c))) (Spec.words_to_bytes (fl v)
      (Spec.hash_words (fl v) (Spec.initial_state (fl v) (ApiSpec.c_params c))
         (k ++ repeat x00 (Spec.block_len (fl v) - length k) ++ m) (ApiSpec.c_last_node c)))).
Proof.
  intros S T K c. destruct (hash_is_digest v e imp (ss ++ [ApiSpec.Key k]) m S) as (h & E & B).
  { apply Forall_app. split; auto. repeat constructor. }
  exists h. split; [exact E|]. rewrite B. fold c. unfold ApiSpec.digest, Spec.blake2.
  assert (CK : ApiSpec.c_key c = k).
  { unfold c. rewrite configure_snoc. cbn [ApiSpec.legal]. rewrite (proj2 (Nat.leb_le _ _)) by lia. reflexivity. }
  rewrite CK. unfold Spec.data. destruct k; [cbn in K; lia|]. unfold Spec.pad_to. rewrite <- app_assoc. reflexivity.
Qed.

Lemma to_state_words v p : s_words (to_state v p) = to_words v p.
Proof. unfold to_state, with_params. destruct (N.ltb _ _); reflexivity. Qed.

Lemma parameter_block_injective v imp imp' ss ss' :
  Forall ApiSpec.typed ss -> Forall ApiSpec.typed ss' ->
  (s_words (to_state v (build v imp ss)) = s_words (to_state v (build v imp' ss')) <->
   same_fields (fl v) (ApiSpec.salt_len (fl v))
     (ApiSpec.c_params (ApiSpec.configure (fl v) ss (ApiSpec.default_config (fl v))))
     (ApiSpec.c_params (ApiSpec.configure (fl v) ss' (ApiSpec.default_config (fl v))))).
Proof.
  intros T T'. rewrite !to_state_words, !build_spec.
  rewrite !to_words_spec by (apply build_wf; auto). apply initial_state_inj; apply build_wf; auto.
Qed.

Lemma no_truncation v imp ss n n' :
  Forall ApiSpec.typed ss -> (1 <= n <= Spec.max_out (fl v))%nat -> (1 <= n' <= Spec.max_out (fl v))%nat -> n <> n' ->
  s_words (to_state v (build v imp (ss ++ [ApiSpec.HashLength n]))) <>
  s_words (to_state v (build v imp (ss ++ [ApiSpec.HashLength n']))).
Proof.
  intros T N1 N2 NE E. apply parameter_block_injective in E; try (apply Forall_app; split; auto; repeat constructor).
  rewrite !configure_snoc in E. cbn [ApiSpec.legal] in E.
  rewrite !(proj2 (Nat.leb_le _ _)) in E by lia. cbn [andb] in E. destruct E as (E & _). cbn in E. lia.
Qed.

Lemma hash_is_its_calls v e imp ss m :
  supported e imp -> Forall ApiSpec.typed ss ->
  let c := ApiSpec.configure (fl v) ss (ApiSpec.default_config (fl v)) in
  exists h, params_hash v e (build v imp ss) m = Ret h /\
    h_bytes h = Spec.words_to_bytes (fl v)
      (make_calls (fl v) (s_words (to_state v (build v imp ss))) (calls (fl v) (ApiSpec.c_key c) m (ApiSpec.c_last_node c))).
Proof.
  intros S T c. rewrite to_state_words, build_spec. fold c. pose proof (build_wf v ss T) as W. fold c in W.
  rewrite to_words_spec by auto. eexists. split; [apply params_hash_spec; auto|].
  cbn [hash_value h_bytes]. rewrite make_calls_hash. reflexivity.
Qed.

Lemma padding_unambiguous v imp imp' ss ss' m m' :
  Forall ApiSpec.typed ss -> Forall ApiSpec.typed ss' ->
  let c := ApiSpec.configure (fl v) ss (ApiSpec.default_config (fl v)) in
  let c' := ApiSpec.configure (fl v) ss' (ApiSpec.default_config (fl v)) in
  s_words (to_state v (build v imp ss)) = s_words (to_state v (build v imp' ss')) ->
  calls (fl v) (ApiSpec.c_key c) m (ApiSpec.c_last_node c) = calls (fl v) (ApiSpec.c_key c') m' (ApiSpec.c_last_node c') ->
  ApiSpec.c_key c = ApiSpec.c_key c' /\ m = m' /\ ApiSpec.c_last_node c = ApiSpec.c_last_node c' /\
  same_fields (fl v) (ApiSpec.salt_len (fl v)) (ApiSpec.c_params c) (ApiSpec.c_params c').
Proof.
  intros T T' c c' W E. apply parameter_block_injective in W; auto. fold c c' in W.
  pose proof (build_wf v ss T) as WF. pose proof (build_wf v ss' T') as WF'. fold c in WF. fold c' in WF'.
  enough (LE : length (ApiSpec.c_key c) = length (ApiSpec.c_key c') /\ (length (ApiSpec.c_key c) <= Spec.block_len (fl v))%nat).
  { destruct LE as [L1 L2]. destruct (calls_inj _ _ _ _ _ _ _ L1 L2 E) as (K & M & L). auto. }
  split.
  - destruct W as (_ & KL & _). rewrite (wf_key _ _ WF), (wf_key _ _ WF') in KL. lia.
  - pose proof (wf_keylen _ _ WF) as KM. rewrite max_out_fl in KM. destruct v; cbn in *; lia.
Qed.

(** *** More on hashes *)
Lemma hash_eq_equivalence h1 h2 h3 a b c :
  as_bytes h1 = Ret a -> as_bytes h2 = Ret b -> as_bytes h3 = Ret c ->
  hash_eq h1 h1 = Ret true /\ hash_eq h1 h2 = hash_eq h2 h1 /\
  (hash_eq h1 h2 = Ret true -> hash_eq h2 h3 = Ret true -> hash_eq h1 h3 = Ret true).
Proof.
  intros A B C. unfold hash_eq. rewrite A, B, C. cbn [bind]. repeat split.
  - f_equal. apply constant_time_eq_iff. reflexivity.
  - f_equal. apply eq_true_iff_eq. rewrite !constant_time_eq_iff. split; congruence.
  - intros E1 E2. injection E1 as E1. injection E2 as E2. f_equal.
    apply constant_time_eq_iff in E1, E2. apply constant_time_eq_iff. congruence.
Qed.

Lemma hash_eq_tail bytes tail tail' n h : length bytes = N.to_nat n ->
  hash_eq {| h_bytes := bytes ++ tail; h_len := n |} h = hash_eq {| h_bytes := bytes ++ tail'; h_len := n |} h.
Proof.
  intros L. unfold hash_eq. replace (as_bytes {| h_bytes := bytes ++ tail; h_len := n |}) with
    (as_bytes {| h_bytes := bytes ++ tail'; h_len := n |}); [reflexivity|].
  unfold as_bytes, slice. cbn [h_bytes h_len]. rewrite !app_length, !skipn_O.
  rewrite !(proj2 (Nat.leb_le _ _)) by lia. cbn [andb].
  rewrite !firstn_app, <- L, Nat.sub_0_r, Nat.sub_diag. rewrite !firstn_all. reflexivity.
Qed.

Lemma Rh_size v h a : Rh v h a ->
  exists bytes, as_bytes h = Ret bytes /\ length bytes = N.to_nat (h_len h) /\
    (1 <= length bytes <= Spec.max_out (fl v))%nat /\ length (h_bytes h) = Spec.max_out (fl v).
Proof.
  intros H. exists (visible a). split; [apply (as_bytes_R _ _ _ H)|].
  destruct H as (E1 & E2 & L & B). rewrite E1, E2, Nat2N.id, max_out_fl. unfold visible.
  rewrite firstn_length, L. lia.
Qed.

Lemma digest_size v c msg : wf_config (fl v) c ->
  exists bytes, as_bytes (hash_value v c msg) = Ret bytes /\
    length bytes = N.to_nat (Spec.digest_length (ApiSpec.c_params c)) /\
    (1 <= length bytes <= Spec.max_out (fl v))%nat /\ length (h_bytes (hash_value v c msg)) = Spec.max_out (fl v).
Proof. intros W. exact (Rh_size v _ _ (Rh_hash v c msg W)). Qed.

Lemma hash_length_ok v e imp ss m : supported e imp -> Forall ApiSpec.typed ss ->
  exists h bytes, params_hash v e (build v imp ss) m = Ret h /\ as_bytes h = Ret bytes /\
    length bytes = N.to_nat (Spec.digest_length (ApiSpec.c_params (ApiSpec.configure (fl v) ss (ApiSpec.default_config (fl v))))) /\
    (1 <= length bytes <= Spec.max_out (fl v))%nat /\ length (h_bytes h) = Spec.max_out (fl v).
Proof.
  intros S T. pose proof (build_wf v ss T) as W. rewrite build_spec.
  destruct (digest_size v _ m W) as (b & H). eexists _, b. split; [apply params_hash_spec; auto|exact H].
Qed.

Lemma live_length v e s : live v e s ->
  exists h bytes, finalize v e s = Ret h /\ as_bytes h = Ret bytes /\
    length bytes = N.to_nat (s_hash_length s) /\
    (1 <= length bytes <= Spec.max_out (fl v))%nat /\ length (h_bytes h) = Spec.max_out (fl v).
Proof.
  intros L. destruct (live_holds _ _ _ L) as (c & msg & H). destruct (digest_size v c msg (hd_wf _ _ _ _ _ H)) as (b & D).
  eexists _, b. split; [apply (holds_finalize _ _ _ _ _ H)|]. rewrite (hd_len _ _ _ _ _ H). exact D.
Qed.

Lemma array_roundtrip v e bytes h : length bytes = Spec.max_out (fl v) ->
  as_array v e (hash_from v bytes) = Ret bytes /\ as_bytes (hash_from v bytes) = Ret bytes /\
  (as_bytes h = Ret bytes -> length (h_bytes h) = Spec.max_out (fl v) ->
     as_array v e h = Ret bytes /\ hash_from v bytes = h).
Proof.
  intros L. rewrite max_out_fl in *. unfold as_array, as_bytes, hash_from. cbn [h_len h_bytes].
  rewrite as_u8_small by apply outbytes_lt. rewrite N.eqb_refl.
  replace (debug_assert (e_dbg e) true) with (Ret tt) by (destruct (e_dbg e); reflexivity). cbn [bind].
  split; [reflexivity|]. split.
  - rewrite Nat2N.id. unfold slice. rewrite <- L, Nat.leb_refl. cbn [andb Nat.leb]. rewrite Nat.sub_0_r.
    cbn [skipn]. rewrite firstn_all. reflexivity.
  - destruct h as [hb n]. cbn [h_bytes h_len]. unfold slice. cbn [skipn]. rewrite Nat.sub_0_r. intros E LB.
    destruct (Nat.leb 0 (N.to_nat n) && Nat.leb (N.to_nat n) (length hb)) eqn:C; [|discriminate].
    apply andb_prop in C. destruct C as [_ C]. apply Nat.leb_le in C. injection E as E.
    assert (N.to_nat n = outbytes v) as EN. { rewrite <- E, firstn_length in L. lia. }
    rewrite firstn_all2 in E by lia. subst hb. assert (n = N.of_nat (outbytes v)) as -> by lia.
    rewrite N.eqb_refl. replace (debug_assert (e_dbg e) true) with (Ret tt) by (destruct (e_dbg e); reflexivity).
    split; reflexivity.
Qed.

Lemma hex_roundtrip v h b : as_bytes h = Ret b -> (length b <= Spec.max_out (fl v))%nat ->
  exists t, to_hex v h = Ret t /\ String.length t = (2 * length b)%nat /\ unhex t = Some b.
Proof.
  intros A L. rewrite max_out_fl in L. exists (Machine.hex b). split; [apply to_hex_spec; auto|].
  destruct (unhex_hex b). auto.
Qed.

Lemma hex_injective v h h' b b' : as_bytes h = Ret b -> as_bytes h' = Ret b' ->
  (length b <= Spec.max_out (fl v))%nat -> (length b' <= Spec.max_out (fl v))%nat ->
  (to_hex v h = to_hex v h' <-> hash_eq h h' = Ret true).
Proof.
  intros A A' L L'. rewrite max_out_fl in L, L'. rewrite (to_hex_spec v h b), (to_hex_spec v h' b') by auto.
  unfold hash_eq. rewrite A, A'. cbn [bind]. split; intros E; injection E as E.
  - f_equal. apply constant_time_eq_iff. pose proof (proj1 (unhex_hex b)) as U. rewrite E, (proj1 (unhex_hex b')) in U.
    injection U as <-. reflexivity.
  - apply constant_time_eq_iff in E. subst. reflexivity.
Qed.

(** *** io::Write *)
Lemma fill_buf_nil v e s : (s_buflen s <= blockbytes v)%nat -> length (s_buf s) = blockbytes v ->
  fill_buf v e s [] = Ret (s, []).
Proof.
  intros L B. unfold fill_buf. cbn [length]. rewrite Nat.min_0_r. cbn [slice Nat.leb andb length firstn skipn bind Nat.sub].
  unfold slice. cbn [Nat.leb andb length firstn skipn bind Nat.sub].
  unfold copy_into. cbn [length]. rewrite Nat.add_0_r, (proj2 (Nat.leb_le _ _)) by lia. cbn [bind app].
  rewrite firstn_skipn. unfold add_small. change (N.to_nat (as_u8 0)) with 0%nat. rewrite Nat.add_0_r.
  rewrite (proj2 (Nat.ltb_lt _ _)) by (destruct v; cbn in *; lia). cbn. destruct s; reflexivity.
Qed.
Lemma update_nil v e s : (s_buflen s <= blockbytes v)%nat -> length (s_buf s) = blockbytes v ->
  update v e s [] = Ret s.
Proof.
  intros L B. unfold update, compress_buffer_if_possible. pose proof (fill_buf_nil v e s L B) as E.
  destruct (Nat.ltb 0 (s_buflen s)); rewrite ?E; cbn [bind];
    cbn [length sat_sub Nat.sub]; unfold sat_sub; cbn [length Nat.sub];
    cbn [Nat.sub Nat.ltb Nat.leb bind]; rewrite E; reflexivity.
Qed.

Lemma write_is_update v e s x : live v e s ->
  exists s', update v e s x = Ret s' /\
    write v e s x = Ret (s', length x) /\ write_all (write v e) s x = Ret s' /\ flush s = Ret s.
Proof.
  intros L. destruct (live_holds _ _ _ L) as (c & msg & H).
  destruct (holds_update _ _ _ _ _ x H) as (s' & E & H' & Q). exists s'.
  assert (W : write v e s x = Ret (s', length x)) by (unfold write; rewrite E; reflexivity).
  split; [exact E|]. split; [exact W|]. split; [|reflexivity].
  destruct x as [|b x].
  - destruct (hd_abs _ _ _ _ _ H) as (k & A & _). destruct A. rewrite update_nil in E by auto. injection E as <-. reflexivity.
  - apply write_all_once; [discriminate|exact W].
Qed.

Lemma p_fill_buf_nil e s : (ps_buf_len s <= length (ps_buf s))%nat -> N.of_nat (ps_buf_len s) < 65536 ->
  p_fill_buf e s [] = Ret (s, []).
Proof.
  intros L B. unfold p_fill_buf. cbn [length]. rewrite Nat.min_0_r.
  unfold slice. cbn [Nat.leb andb length firstn skipn bind Nat.sub].
  unfold copy_into. cbn [length]. rewrite Nat.add_0_r, (proj2 (Nat.leb_le _ _)) by lia. cbn [bind app].
  rewrite firstn_skipn. unfold add_u16. change (N.to_nat (N.of_nat 0 mod 65536)) with 0%nat. rewrite Nat.add_0_r, N.add_0_r.
  rewrite (proj2 (N.ltb_lt _ _)) by auto. cbn. destruct s; reflexivity.
Qed.
Lemma p_update_nil v e s : (ps_buf_len s <= length (ps_buf s))%nat -> N.of_nat (ps_buf_len s) < 65536 ->
  p_update v e s [] = Ret s.
Proof.
  intros L B. unfold p_update. pose proof (p_fill_buf_nil e s L B) as E.
  destruct (Nat.ltb 0 (ps_buf_len s)); rewrite ?E; cbn [bind];
    unfold sat_sub; cbn [length Nat.sub];
    cbn [Nat.sub Nat.ltb Nat.leb bind]; rewrite E; destruct (e_dbg e); reflexivity.
Qed.

Lemma p_write_is_update v e s x : plive v e s ->
  exists s', p_update v e s x = Ret s' /\
    p_write v e s x = Ret (s', length x) /\ write_all (p_write v e) s x = Ret s'.
Proof.
  intros L. destruct (plive_holds _ _ _ L) as (c & msg & H).
  destruct (pholds_update _ _ _ _ _ x H) as (s' & E & H' & Q). exists s'.
  assert (W : p_write v e s x = Ret (s', length x)) by (unfold p_write; rewrite E; reflexivity).
  split; [exact E|]. split; [exact W|].
  destruct x as [|b x].
  - destruct (ph_abs _ _ _ _ _ H) as (k & A & _). pose proof (pa_buflen _ _ _ _ _ A) as A1. pose proof (pa_le _ _ _ _ _ A) as A2.
    pose proof (P_lt v) as PL.
    rewrite p_update_nil in E; [injection E as <-; reflexivity|lia|lia].
  - apply write_all_once; [discriminate|exact W].
Qed.

Lemma no_stale_bytes v e imp imp' ss ops ops' more :
  supported e imp -> supported e imp' -> Forall ApiSpec.typed ss ->
  fed ops = fed ops' ->
  last_flag (ApiSpec.c_last_node (ApiSpec.configure (fl v) ss (ApiSpec.default_config (fl v)))) ops =
  last_flag (ApiSpec.c_last_node (ApiSpec.configure (fl v) ss (ApiSpec.default_config (fl v)))) ops' ->
  watch (do_op v e) (after (do_op v e) (to_state v (build v imp ss)) ops) more =
  watch (do_op v e) (after (do_op v e) (to_state v (build v imp' ss)) ops') more.
Proof.
  intros S S' T E F.
  pose proof (after_holds v e _ [] _ ops (new_holds v e imp ss S T)) as H.
  pose proof (after_holds v e _ [] _ ops' (new_holds v e imp' ss S' T)) as H'.
  unfold flagged in H, H'. rewrite <- E, <- F in H'. eapply same_watch; eauto.
Qed.

Lemma live_after v e ops : forall s, live v e s -> live v e (after (do_op v e) s ops).
Proof.
  induction ops as [|o ops IH] using rev_ind; intros s L; [exact L|]. rewrite after_app.
  unfold after at 1. cbn [do_ops]. specialize (IH s L). pose proof (live_op v e _ o IH) as H.
  destruct (do_op v e (after (do_op v e) s ops) o). exact H.
Qed.
Lemma plive_after v e ops : forall s, plive v e s -> plive v e (after (do_pop v e) s ops).
Proof.
  induction ops as [|o ops IH] using rev_ind; intros s L; [exact L|]. rewrite after_app.
  unfold after at 1. cbn [do_ops]. specialize (IH s L). pose proof (plive_op v e _ o IH) as H.
  destruct (do_pop v e (after (do_pop v e) s ops) o). exact H.
Qed.
