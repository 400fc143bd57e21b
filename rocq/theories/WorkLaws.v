(** The work of a whole stream, from the work of its calls. *)
From Coq Require Import Arith NArith List Bool Lia.
From Coq Require Import Init.Byte.
From Verif Require Import Base Guts KernelSpec Impl Lib Many Par.
From Verif Require Import Spec ApiSpec Machine Views.
From Verif Require Import Api ApiProof Leak WorkSpec WorkApi.
Import ListNotations.
Open Scope list_scope.
Open Scope nat_scope.
Local Notation length := List.length.

Lemma num_blocks_mono f a b : length a <= length b -> num_blocks f a <= num_blocks f b.
Proof.
  intros H. unfold num_blocks. apply Nat.max_le_compat_l. apply Nat.div_le_mono; [destruct f; cbn; lia|lia].
Qed.
Lemma data_mono f k a b : length a <= length b -> length (data f k a) <= length (data f k b).
Proof. intros H. unfold data. destruct k; rewrite ?app_length; lia. Qed.
Lemma num_blocks_nil f k : length k <= max_out f -> num_blocks f (data f k []) = 1.
Proof.
  intros H. unfold data. destruct k as [|b k]; [destruct f; reflexivity|]. rewrite app_nil_r. unfold num_blocks, pad_to.
  rewrite app_length, repeat_length. set (n := length (b :: k)) in *. clearbody n.
  assert (E : n + (block_len f - n) = block_len f) by (destruct f; unfold block_len, max_out in *; lia).
  rewrite E. destruct f; reflexivity.
Qed.

Lemma stream_sum f dbg c : forall chunks w ld ns msg, a_states w = [(c, msg)] ->
  works_of f dbg w ld (map (Update 0) chunks ++ [Finalize 0]) ns ->
  list_sum ns + num_blocks f (data f (c_key c) msg) = num_blocks f (data f (c_key c) (msg ++ concat chunks)) + 1.
Proof.
  induction chunks as [|m r IH]; intros w ld ns msg E H; cbn [map app works_of concat] in *.
  - destruct ns as [|n [|? ?]]; try (destruct H; fail); [|destruct H as [_ []]]. destruct H as [H _]. cbn [work_of] in H. rewrite E in H. cbn in H.
    subst n. rewrite app_nil_r. cbn. lia.
  - destruct ns as [|n ns]; [destruct H|]. destruct H as [H1 H2]. cbn [work_of] in H1. rewrite E in H1. cbn -[num_blocks update_blocks] in H1.
    cbn [astep] in H2. unfold with_obj in H2. rewrite E in H2. cbn [nth_error] in H2.
    apply IH with (msg := msg ++ m) in H2; [|reflexivity].
    rewrite app_assoc. unfold update_blocks in H1. cbn [list_sum fold_right]. fold (list_sum ns).
    pose proof (num_blocks_mono f _ _ (data_mono f (c_key c) msg (msg ++ m) ltac:(rewrite app_length; lia))). lia.
Qed.

Lemma tree_sum f dbg c : forall chunks w d ns msg, a_pstates w = [(c, msg)] ->
  works_of f dbg w [d] (map (PUpdate 0) chunks ++ [PFinalize 0]) ns ->
  d + list_sum ns = tree_blocks f (pc_key c) (msg ++ concat chunks).
Proof.
  induction chunks as [|m r IH]; intros w d ns msg E H; cbn [map app works_of concat] in *.
  - destruct ns as [|n [|? ?]]; try (destruct H; fail); [|destruct H as [_ []]]. destruct H as [H _]. cbn [work_of] in H. rewrite E in H. cbn in H.
    rewrite app_nil_r. cbn. lia.
  - destruct ns as [|n ns]; [destruct H|]. destruct H as [_ H2].
    cbn [astep ledger_after] in H2. unfold with_obj in H2. rewrite E in H2. cbn [nth_error] in H2.
    change (replace [d] 0 (d + n)) with [d + n] in H2. apply IH with (msg := msg ++ m) in H2; [|reflexivity].
    rewrite app_assoc, <- H2. cbn [list_sum fold_right]. fold (list_sum ns). lia.
Qed.

Lemma stream_program f dbg k chunks ns : length k <= max_out f ->
  works_of f dbg empty_aworld [] ([NewParams; Set_ 0 (Key k); ToState 0] ++ map (Update 0) chunks ++ [Finalize 0]) ns ->
  list_sum ns = num_blocks f (data f k (concat chunks)).
Proof.
  intros LK H. cbn [app works_of] in H. destruct ns as [|n1 ns]; [destruct H|]. destruct H as [H1 H].
  destruct ns as [|n2 ns]; [destruct H|]. destruct H as [H2 H]. destruct ns as [|n3 ns]; [destruct H|]. destruct H as [H3 H].
  cbn in H1, H2, H3. subst.
  assert (LG : legal f (Key k) = true) by (cbn; apply Nat.leb_le; exact LK).
  unfold astep at 2 in H. unfold astep at 2 in H. cbn [fst] in H. unfold with_obj in H.
  change (nth_error (a_params (with_a_params (a_params empty_aworld ++ [default_config f]) empty_aworld)) 0) with (Some (default_config f)) in H.
  cbv iota in H. rewrite LG in H. cbn [astep with_obj fst] in H.
  apply stream_sum with (c := apply (Key k) (default_config f)) (msg := []) in H; [|reflexivity].
  change (c_key (apply (Key k) (default_config f))) with k in H. rewrite num_blocks_nil in H by exact LK. cbn [app list_sum fold_right] in *.
  fold (list_sum ns). cbn [Nat.add]. lia.
Qed.

Lemma tree_program f dbg k chunks ns : length k <= max_out f ->
  works_of f dbg empty_aworld [] ([PNewParams; PSet 0 (PKey k); PToState 0] ++ map (PUpdate 0) chunks ++ [PFinalize 0]) ns ->
  list_sum ns = tree_blocks f k (concat chunks).
Proof.
  intros LK H. cbn [app works_of] in H. destruct ns as [|n1 ns]; [destruct H|]. destruct H as [H1 H].
  destruct ns as [|n2 ns]; [destruct H|]. destruct H as [H2 H]. destruct ns as [|n3 ns]; [destruct H|]. destruct H as [H3 H].
  cbn in H1, H2, H3. subst.
  assert (LG : plegal f (PKey k) = true) by (cbn; apply Nat.leb_le; exact LK).
  cbn [ledger_after] in H. cbn [astep] in H. cbn [fst] in H. unfold with_obj in H.
  change (nth_error (a_pparams (with_a_pparams (a_pparams empty_aworld ++ [pdefault_config f]) empty_aworld)) 0) with (Some (pdefault_config f)) in H.
  cbv iota in H. rewrite LG in H. cbn [fst] in H.
  apply tree_sum with (c := papply (PKey k) (pdefault_config f)) (msg := []) in H; [|reflexivity].
  change (pc_key (papply (PKey k) (pdefault_config f))) with k in H. cbn [app list_sum fold_right Nat.add] in *. exact H.
Qed.
