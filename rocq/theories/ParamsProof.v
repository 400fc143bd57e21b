(** Params: the setters, and the words they produce. *)
From Coq Require Import ZArith Arith NArith List Bool Lia ZifyBool ZifyNat ZifyN.
From Verif Require Import Base ByteLemmas Guts Portable KernelSpec Simd Impl Loops LaneLoops Lib StateProof.
From Verif Require Spec ApiSpec.
Import ListNotations.
Open Scope N_scope.

(** *** Encodings *)
Lemma encode_to_le n : forall x, Spec.encode n x = to_le n x.
Proof.
  induction n as [|n IH]; intros x; auto.
  unfold Spec.encode. cbn [seq map to_le]. rewrite N.pow_0_r, N.div_1_r. f_equal.
  rewrite <- IH. unfold Spec.encode. rewrite <- seq_shift, map_map. apply map_ext. intros i.
  rewrite Nat2N.inj_succ, N.pow_succ_r', N.div_div; [reflexivity|lia|]. apply N.pow_nonzero. lia.
Qed.

Lemma encode_length n x : length (Spec.encode n x) = n.
Proof. rewrite encode_to_le. apply to_le_length. Qed.

Lemma decode_encode n x : x < 2 ^ (8 * N.of_nat n) -> from_le (Spec.encode n x) = x.
Proof. intros H. rewrite encode_to_le, from_le_to_le. apply N.mod_small. exact H. Qed.

Lemma words_to_bytes_eq v ws : words_ok v ws ->
  state_words_to_bytes v ws = Spec.words_to_bytes (fl v) ws.
Proof.
  intros [L _]. destruct (len8 ws L) as (a & b & c & d & e & f & g & h & ->).
  unfold state_words_to_bytes, Spec.words_to_bytes. cbn [seq flat_map nth].
  rewrite word_len_fl, !encode_to_le. reflexivity.
Qed.

Lemma words_to_bytes_length v ws : words_ok v ws -> length (state_words_to_bytes v ws) = outbytes v.
Proof.
  intros _. unfold state_words_to_bytes. cbn [seq flat_map].
  rewrite !app_length, !to_le_length. unfold outbytes. cbn [length]. lia.
Qed.

(** *** The words of a parameter block *)
Lemma word_concat v (gs : list (list byte)) : Forall (fun g => length g = wbytes v) gs ->
  forall i, Spec.word (fl v) (concat gs) i = from_le (nth i gs []).
Proof.
  intros H i. unfold Spec.word. rewrite word_len_fl, decode_from_le. revert i.
  induction H as [|g gs Hg H IH]; intros i.
  - cbn [concat]. rewrite skipn_nil, firstn_nil. destruct i; reflexivity.
  - cbn [concat]. destruct i as [|i].
    + cbn [Nat.mul skipn nth]. rewrite firstn_app, Hg, Nat.sub_diag. cbn [firstn].
      rewrite app_nil_r, firstn_all2 by lia. reflexivity.
    + cbn [nth]. rewrite <- IH. f_equal. f_equal.
      rewrite skipn_app, skipn_all2 by (rewrite Hg; nia). cbn [app]. f_equal. rewrite Hg. cbn [Nat.mul]. lia.
Qed.

Lemma lxor_add x y k : x < 2 ^ k -> N.lxor x (2 ^ k * y) = x + 2 ^ k * y.
Proof.
  intros H. apply N.bits_inj. intros n. rewrite N.lxor_spec, testbit_add_mul by auto.
  rewrite N.mul_comm. destruct (N.ltb_spec n k) as [L|L].
  - rewrite N.mul_pow2_bits_low by auto. apply xorb_false_r.
  - rewrite N.mul_pow2_bits_high by auto. rewrite (testbit_lt_false x k n) by auto. apply xorb_false_l.
Qed.

(** *** Configurations of the API and their Params *)
Record wf_config (f : Spec.flavour) (c : ApiSpec.config) : Prop := {
  wf_digest : 1 <= Spec.digest_length (ApiSpec.c_params c) <= N.of_nat (Spec.max_out f);
  wf_key : Spec.key_length (ApiSpec.c_params c) = N.of_nat (length (ApiSpec.c_key c));
  wf_keylen : (length (ApiSpec.c_key c) <= Spec.max_out f)%nat;
  wf_fanout : Spec.fanout (ApiSpec.c_params c) < 2 ^ 8;
  wf_depth : Spec.depth (ApiSpec.c_params c) < 2 ^ 8;
  wf_leaf : Spec.leaf_length (ApiSpec.c_params c) < 2 ^ 32;
  wf_offset : Spec.node_offset (ApiSpec.c_params c) < match f with Spec.F2b => 2 ^ 64 | Spec.F2s => 2 ^ 48 end;
  wf_ndepth : Spec.node_depth (ApiSpec.c_params c) < 2 ^ 8;
  wf_inner : Spec.inner_length (ApiSpec.c_params c) <= N.of_nat (Spec.max_out f);
  wf_salt : (length (Spec.salt (ApiSpec.c_params c)) <= ApiSpec.salt_len f)%nat;
  wf_personal : (length (Spec.personal (ApiSpec.c_params c)) <= ApiSpec.salt_len f)%nat }.

Lemma wf_default f : wf_config f (ApiSpec.default_config f).
Proof. destruct f; constructor; cbn; try lia; reflexivity. Qed.

Lemma wf_apply f s c : ApiSpec.typed s -> ApiSpec.legal f s = true -> wf_config f c -> wf_config f (ApiSpec.apply s c).
Proof.
  intros T L [H1 H2 H3 H4 H5 H6 H7 H8 H9 H10 H11].
  destruct s; cbn [ApiSpec.typed ApiSpec.legal] in *; constructor;
    cbn [ApiSpec.apply ApiSpec.c_params ApiSpec.c_key Spec.digest_length Spec.key_length Spec.fanout
         Spec.depth Spec.leaf_length Spec.node_offset Spec.node_depth Spec.inner_length Spec.salt Spec.personal];
    auto; try lia; try (destruct f; lia).
Qed.

Lemma wf_configure f ss c : Forall ApiSpec.typed ss -> wf_config f c -> wf_config f (ApiSpec.configure f ss c).
Proof.
  intros T. revert c. unfold ApiSpec.configure.
  induction T as [|s ss Hs T IH]; intros c W; auto. cbn [fold_left]. apply IH.
  destruct (ApiSpec.legal f s) eqn:L; auto using wf_apply.
Qed.

(** The Params object of a configuration. *)
Definition params_of (v : variant) (imp : platform) (c : ApiSpec.config) : params :=
  let p := ApiSpec.c_params c in
  {| p_hash_length := Spec.digest_length p;
     p_key_length := Spec.key_length p;
     p_key_block := Spec.pad_to (blockbytes v) (ApiSpec.c_key c);
     p_salt := Spec.pad_to (saltbytes v) (Spec.salt p);
     p_personal := Spec.pad_to (personalbytes v) (Spec.personal p);
     p_fanout := Spec.fanout p;
     p_max_depth := Spec.depth p;
     p_max_leaf_length := Spec.leaf_length p;
     p_node_offset := Spec.node_offset p;
     p_node_depth := Spec.node_depth p;
     p_inner_hash_length := Spec.inner_length p;
     p_last_node := ApiSpec.c_last_node c;
     p_imp := imp |}.

Lemma params_new_of v imp : params_new v imp = params_of v imp (ApiSpec.default_config (fl v)).
Proof. destruct v; reflexivity. Qed.

(** The model's setter for a setting. *)
Definition setter (v : variant) (s : ApiSpec.setting) : method params :=
  match s with
  | ApiSpec.HashLength n => hash_length v n
  | ApiSpec.Key k => key v k
  | ApiSpec.Salt s => salt v s
  | ApiSpec.Personal s => personal v s
  | ApiSpec.Fanout x => fanout x
  | ApiSpec.MaxDepth x => max_depth x
  | ApiSpec.MaxLeafLength x => max_leaf_length x
  | ApiSpec.NodeOffset x => node_offset v x
  | ApiSpec.NodeDepth x => node_depth x
  | ApiSpec.InnerHashLength n => inner_hash_length v n
  | ApiSpec.LastNode b => last_node b
  end.

Lemma max_out_fl v : Spec.max_out (fl v) = outbytes v.
Proof. destruct v; reflexivity. Qed.
Lemma salt_len_fl v : ApiSpec.salt_len (fl v) = saltbytes v.
Proof. destruct v; reflexivity. Qed.

Lemma copy_zeros n (k : list byte) : (length k <= n)%nat ->
  copy_into (zeros n) 0 k = Ret (Spec.pad_to n k).
Proof.
  intros H. unfold zeros. rewrite copy_into_ok by (rewrite repeat_length; lia).
  cbn [firstn app Nat.add]. unfold Spec.pad_to. do 2 f_equal.
  replace n with (length k + (n - length k))%nat at 1 by lia.
  rewrite repeat_app, skipn_app, repeat_length, Nat.sub_diag, skipn_all2 by (rewrite repeat_length; lia).
  reflexivity.
Qed.

Lemma as_u8_small n : (n < 256)%nat -> as_u8 n = N.of_nat n.
Proof. intros H. unfold as_u8. apply N.mod_small. lia. Qed.

Lemma outbytes_lt v : (outbytes v < 256)%nat.
Proof. destruct v; cbn; lia. Qed.

(** A legal setting does what it says; an illegal one panics and changes nothing. *)
Lemma setter_spec v imp s c :
  setter v s (params_of v imp c) =
  if ApiSpec.legal (fl v) s then (params_of v imp (ApiSpec.apply s c), Ret tt)
  else (params_of v imp c, Panic).
Proof.
  pose proof (outbytes_lt v) as OB.
  assert (BO : (outbytes v <= blockbytes v)%nat) by (destruct v; cbn; lia).
  destruct s; cbn [setter ApiSpec.legal]; try reflexivity.
  - (* hash_length *)
    unfold hash_length, m_seq, m_assert, m_assign, assert_. rewrite max_out_fl.
    destruct (Nat.leb 1 n && Nat.leb n (outbytes v)) eqn:E; [|reflexivity].
    unfold params_of, set_p_hash_length. cbn. rewrite as_u8_small by lia. reflexivity.
  - (* key *)
    unfold key, m_seq, m_assert, m_assign, m_try, assert_. rewrite max_out_fl.
    change (keybytes v) with (outbytes v).
    destruct (Nat.leb (length k) (outbytes v)) eqn:E; [|reflexivity].
    cbn [set_p_key_block p_key_block]. rewrite copy_zeros by lia. cbn [bind].
    unfold params_of, set_p_key_block, set_p_key_length. cbn. rewrite as_u8_small by lia. reflexivity.
  - (* salt *)
    unfold salt, m_seq, m_assert, m_assign, m_try, assert_. rewrite salt_len_fl.
    destruct (Nat.leb (length s) (saltbytes v)) eqn:E; [|reflexivity].
    cbn [set_p_salt p_salt]. rewrite copy_zeros by lia. reflexivity.
  - (* personal *)
    unfold personal, m_seq, m_assert, m_assign, m_try, assert_. rewrite salt_len_fl.
    change (personalbytes v) with (saltbytes v).
    destruct (Nat.leb (length s) (saltbytes v)) eqn:E; [|reflexivity].
    cbn [set_p_personal p_personal]. rewrite copy_zeros by lia. reflexivity.
  - (* node_offset *)
    unfold node_offset, m_seq, m_assert, m_assign, assert_.
    destruct v; cbn [fl]; [reflexivity|]. change (N.shiftl 1 48) with (2 ^ 48).
    destruct (N.ltb x (2 ^ 48)); reflexivity.
  - (* inner_hash_length *)
    unfold inner_hash_length, m_seq, m_assert, m_assign, assert_. rewrite max_out_fl.
    destruct (Nat.leb n (outbytes v)) eqn:E; [|reflexivity].
    unfold params_of, set_p_inner_hash_length. cbn. rewrite as_u8_small by lia. reflexivity.
Qed.

Lemma pad_to_split w (s : list byte) : (length s <= 2 * w)%nat ->
  length (firstn w (Spec.pad_to (2 * w) s)) = w /\
  length (firstn w (skipn w (Spec.pad_to (2 * w) s))) = w /\
  Spec.pad_to (2 * w) s = firstn w (Spec.pad_to (2 * w) s) ++ firstn w (skipn w (Spec.pad_to (2 * w) s)).
Proof.
  intros H. assert (L : length (Spec.pad_to (2 * w) s) = (2 * w)%nat).
  { unfold Spec.pad_to. rewrite app_length, repeat_length. lia. }
  generalize dependent (Spec.pad_to (2 * w) s). intros l L. clear H.
  assert (L2 : length (skipn w l) = w) by (rewrite skipn_length; lia).
  split; [rewrite firstn_length; lia|]. split; [rewrite firstn_length; lia|].
  rewrite (firstn_all2 (skipn w l)) by lia. symmetry. apply firstn_skipn.
Qed.

Lemma shl_small v x k : x * 2 ^ k < wmod v -> shl v x k = 2 ^ k * x.
Proof. intros H. unfold shl. rewrite N.shiftl_mul_pow2, N.mod_small by auto. lia. Qed.

Lemma from_le_2 a b : from_le (a ++ b) = from_le a + 2 ^ (8 * N.of_nat (length a)) * from_le b.
Proof. apply from_le_app. Qed.

Lemma lx2 i a b : N.lxor (N.lxor i a) b = N.lxor i (N.lxor a b).
Proof. apply N.lxor_assoc. Qed.
Lemma lx3 i a b c : N.lxor (N.lxor (N.lxor i a) b) c = N.lxor i (N.lxor (N.lxor a b) c).
Proof. rewrite !N.lxor_assoc. reflexivity. Qed.
Lemma lx4 i a b c d : N.lxor (N.lxor (N.lxor (N.lxor i a) b) c) d
  = N.lxor i (N.lxor (N.lxor (N.lxor a b) c) d).
Proof. rewrite !N.lxor_assoc. reflexivity. Qed.
Lemma lx5 i a b c d e : N.lxor (N.lxor (N.lxor (N.lxor (N.lxor i a) b) c) d) e
  = N.lxor i (N.lxor (N.lxor (N.lxor (N.lxor a b) c) d) e).
Proof. rewrite !N.lxor_assoc. reflexivity. Qed.
Lemma pack3 a b c d : a < 2 ^ 8 -> b < 2 ^ 8 -> c < 2 ^ 8 ->
  N.lxor (N.lxor (N.lxor a (2 ^ 8 * b)) (2 ^ 16 * c)) (2 ^ 24 * d)
  = a + 2 ^ 8 * b + 2 ^ 16 * c + 2 ^ 24 * d.
Proof. intros. rewrite (lxor_add a), (lxor_add (a + _)), (lxor_add (a + _ + _)) by lia. reflexivity. Qed.
Lemma pack4 a b c d e : a < 2 ^ 8 -> b < 2 ^ 8 -> c < 2 ^ 8 -> d < 2 ^ 8 ->
  N.lxor (N.lxor (N.lxor (N.lxor a (2 ^ 8 * b)) (2 ^ 16 * c)) (2 ^ 24 * d)) (2 ^ 32 * e)
  = a + 2 ^ 8 * b + 2 ^ 16 * c + 2 ^ 24 * d + 2 ^ 32 * e.
Proof. intros. rewrite pack3, lxor_add by lia. reflexivity. Qed.
Lemma pack2s a b c : a < 2 ^ 16 -> b < 2 ^ 8 ->
  N.lxor (N.lxor a (2 ^ 16 * b)) (2 ^ 24 * c) = a + 2 ^ 16 * b + 2 ^ 24 * c.
Proof. intros. rewrite (lxor_add a), (lxor_add (a + _)) by lia. reflexivity. Qed.

(** to_words is the specification's initial state. *)
Lemma to_words_spec v imp c : wf_config (fl v) c ->
  to_words v (params_of v imp c) = Spec.initial_state (fl v) (ApiSpec.c_params c).
Proof.
  intros [H1 H2 H3 H4 H5 H6 H7 H8 H9 H10 H11]. unfold Spec.initial_state. rewrite iv_spec.
  set (p := ApiSpec.c_params c) in *. unfold to_words, params_of. fold p.
  cbn [p_hash_length p_key_length p_key_block p_salt p_personal p_fanout p_max_depth
       p_max_leaf_length p_node_offset p_node_depth p_inner_hash_length].
  rewrite salt_len_fl in H10, H11. rewrite max_out_fl in H1, H3, H9. pose proof (outbytes_lt v) as OB.
  change (personalbytes v) with (2 * wbytes v)%nat. change (saltbytes v) with (2 * wbytes v)%nat in *.
  destruct (pad_to_split (wbytes v) (Spec.salt p) H10) as (S1 & S2 & S3).
  destruct (pad_to_split (wbytes v) (Spec.personal p) H11) as (P1 & P2 & P3).
  set (sl := firstn (wbytes v) (Spec.pad_to (2 * wbytes v) (Spec.salt p))) in *.
  set (sr := firstn (wbytes v) (skipn (wbytes v) (Spec.pad_to (2 * wbytes v) (Spec.salt p)))) in *.
  set (pl := firstn (wbytes v) (Spec.pad_to (2 * wbytes v) (Spec.personal p))) in *.
  set (pr := firstn (wbytes v) (skipn (wbytes v) (Spec.pad_to (2 * wbytes v) (Spec.personal p)))) in *.
  assert (K : Spec.key_length p < 2 ^ 8) by lia.
  assert (D : Spec.digest_length p < 2 ^ 8) by lia.
  assert (I : Spec.inner_length p < 2 ^ 8) by lia.
  destruct v.
  - (* blake2b *)
    set (gs := [Spec.encode 1 (Spec.digest_length p) ++ Spec.encode 1 (Spec.key_length p) ++
                Spec.encode 1 (Spec.fanout p) ++ Spec.encode 1 (Spec.depth p) ++
                Spec.encode 4 (Spec.leaf_length p);
                Spec.encode 8 (Spec.node_offset p);
                Spec.encode 1 (Spec.node_depth p) ++ Spec.encode 1 (Spec.inner_length p) ++ repeat x00 6;
                repeat x00 8; sl; sr; pl; pr]).
    assert (E : Spec.param_block (fl V2b) p = concat gs).
    { unfold Spec.param_block, gs. cbn [fl concat].
      change (Spec.pad_to 16) with (Spec.pad_to (2 * wbytes V2b)). rewrite S3, P3.
      change (repeat x00 14) with (repeat x00 6 ++ repeat x00 8).
      rewrite !app_nil_r, <- !app_assoc. reflexivity. }
    assert (G : Forall (fun g => length g = wbytes V2b) gs).
    { unfold gs. repeat constructor; auto; rewrite ?app_length, ?encode_length, ?repeat_length; reflexivity. }
    assert (W : forall i, Spec.word (fl V2b) (Spec.param_block (fl V2b) p) i = from_le (nth i gs [])).
    { intros i. rewrite E. apply word_concat. exact G. }
    rewrite (map_ext _ _ W). unfold gs. cbn [seq map nth].
    unfold Spec.xor_words, iv. cbn [combine map fst snd nth].
    rewrite !from_le_app, !encode_length, !from_le_zeros, !decode_encode by (cbn [fl] in H7; cbn; lia).
    rewrite !shl_small by (unfold wmod; cbn [wbits]; lia).
    rewrite lx5. rewrite pack4 by auto. rewrite lx2, (lxor_add (Spec.node_depth p)) by auto.
    repeat (apply (f_equal2 (@cons N)); [try reflexivity|]); try reflexivity.
    + apply f_equal. cbn [N.of_nat N.mul Pos.of_succ_nat Pos.mul Pos.succ]. lia.
    + apply f_equal. cbn [N.of_nat N.mul Pos.of_succ_nat Pos.mul Pos.succ]. lia.
  - (* blake2s *)
    set (gs := [Spec.encode 1 (Spec.digest_length p) ++ Spec.encode 1 (Spec.key_length p) ++
                Spec.encode 1 (Spec.fanout p) ++ Spec.encode 1 (Spec.depth p);
                Spec.encode 4 (Spec.leaf_length p);
                Spec.encode 4 (Spec.node_offset p mod 2 ^ 32);
                Spec.encode 2 (Spec.node_offset p / 2 ^ 32) ++
                  Spec.encode 1 (Spec.node_depth p) ++ Spec.encode 1 (Spec.inner_length p);
                sl; sr; pl; pr]).
    assert (EO : Spec.encode 6 (Spec.node_offset p) =
                 Spec.encode 4 (Spec.node_offset p mod 2 ^ 32) ++ Spec.encode 2 (Spec.node_offset p / 2 ^ 32)).
    { rewrite !encode_to_le. apply from_le_inj.
      - rewrite app_length, !to_le_length. reflexivity.
      - rewrite from_le_app, !from_le_to_le, to_le_length. cbn [fl] in H7.
        cbn [N.of_nat N.mul Pos.of_succ_nat Pos.mul Pos.succ]. lia. }
    assert (E : Spec.param_block (fl V2s) p = concat gs).
    { unfold Spec.param_block, gs. cbn [fl concat].
      change (Spec.pad_to 8) with (Spec.pad_to (2 * wbytes V2s)). rewrite S3, P3, EO.
      rewrite !app_nil_r, <- !app_assoc. reflexivity. }
    assert (G : Forall (fun g => length g = wbytes V2s) gs).
    { unfold gs. repeat constructor; auto; rewrite ?app_length, ?encode_length, ?repeat_length; reflexivity. }
    assert (W : forall i, Spec.word (fl V2s) (Spec.param_block (fl V2s) p) i = from_le (nth i gs [])).
    { intros i. rewrite E. apply word_concat. exact G. }
    rewrite (map_ext _ _ W). unfold gs. cbn [seq map nth].
    unfold Spec.xor_words, iv. cbn [combine map fst snd nth].
    cbn [fl] in H7. rewrite N.shiftr_div_pow2.
    assert (O2 : Spec.node_offset p / 2 ^ 32 < 2 ^ 16) by (apply N.div_lt_upper_bound; [lia|exact H7]).
    assert (O1 : Spec.node_offset p mod 2 ^ 32 < 2 ^ 32) by (apply N.mod_lt; lia).
    change (wmod V2s) with (2 ^ 32) in *.
    rewrite !from_le_app, !encode_length, !decode_encode by (cbn; lia).
    rewrite !shl_small by (unfold wmod; cbn [wbits]; lia).
    rewrite lx4, pack3 by auto. rewrite lx3, (N.mod_small (_ / _)) by lia.
    rewrite pack2s by auto.
    repeat (apply (f_equal2 (@cons N)); [try reflexivity|]); try reflexivity.
    + apply f_equal. cbn [N.of_nat N.mul Pos.of_succ_nat Pos.mul Pos.succ]. lia.
    + apply f_equal. cbn [N.of_nat N.mul Pos.of_succ_nat Pos.mul Pos.succ]. lia.
Qed.
