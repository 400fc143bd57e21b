(** The functions of Leak.v compute what the functions of the model compute:
    forgetting the events gives the model back. *)
From Coq Require Import String Ascii.
From Coq Require Import ZArith Arith NArith List Bool Lia.
From Verif Require Import Base Guts Portable Intrinsics Avx2b Sse41s Simd Impl Sched Lib Many Par.
From Verif Require Import Spec ApiSpec Machine Api Leak.
Import ListNotations.
Open Scope list_scope.
Open Scope N_scope.
Local Notation length := List.length.

Lemma bind_ext {A B} (x y : outcome A) (f g : A -> outcome B) :
  x = y -> (forall a, f a = g a) -> bind x f = bind y g.
Proof. intros -> H. destruct y; cbn [bind]; auto. Qed.

Lemma snd_lbind {A B} (x : L A) (f : A -> L B) : snd (lbind x f) = bind (snd x) (fun a => snd (f a)).
Proof. unfold lbind. destruct (snd x); reflexivity. Qed.
Lemma snd_tell {A} t (x : L A) : snd (tell t x) = snd x.
Proof. reflexivity. Qed.
Lemma snd_emit {A} t (o : outcome A) : snd (emit t o) = o.
Proof. reflexivity. Qed.
Lemma snd_ret {A} (a : A) : snd (ret a) = Ret a.
Proof. reflexivity. Qed.
Lemma snd_branch {A} c (x y : L A) : snd (branch c x y) = if c then snd x else snd y.
Proof. destruct c; reflexivity. Qed.
Lemma snd_if {A} (c : bool) (x y : L A) : snd (if c then x else y) = if c then snd x else snd y.
Proof. destruct c; reflexivity. Qed.

Lemma bind_ret {A} (x : outcome A) : bind x (fun a => Ret a) = x.
Proof. destruct x; reflexivity. Qed.

Lemma snd_min a b : snd (min_lk a b) = Ret (Nat.min a b).
Proof. reflexivity. Qed.
Lemma snd_sat_sub a b : snd (sat_sub_lk a b) = Ret (sat_sub a b).
Proof. reflexivity. Qed.
Lemma snd_round_down a b : snd (round_down_lk a b) = Ret (a - a mod b)%nat.
Proof. reflexivity. Qed.
Lemma snd_flag_word v b : snd (flag_word_lk v b) = Ret (flag_word v b).
Proof. reflexivity. Qed.
Lemma snd_with_params v p : snd (with_params_lk v p) = Ret (with_params v p).
Proof. reflexivity. Qed.

(** Pushing [snd] inwards. *)
Ltac push := repeat first
  [ rewrite snd_tell | rewrite snd_lbind | rewrite snd_branch | rewrite snd_emit | rewrite snd_ret
  | rewrite snd_if | rewrite snd_min | rewrite snd_sat_sub | rewrite snd_round_down | rewrite snd_flag_word
  | rewrite snd_with_params | progress cbn [bind] ].
Ltac er := push;
  try lazymatch goal with
  | |- bind _ _ = bind _ _ => apply bind_ext; [try reflexivity | intros; er]
  | |- (if _ then _ else _) = (if _ then _ else _) =>
      let E := fresh "E" in
      match goal with |- (if ?c then _ else _) = _ => destruct c eqn:E; er end
  | |- snd (match ?p with _ => _ end) = match ?p with _ => _ end => destruct p; er
  | _ => try reflexivity
  end.

Lemma mapM_ext {A B} (f g : A -> outcome B) l : (forall x, f x = g x) -> mapM f l = mapM g l.
Proof. intros H. induction l; cbn [mapM]; [reflexivity|]. rewrite H, IHl. reflexivity. Qed.
Lemma mapM_erase {A B} (f : A -> L B) l : snd (mapM_lk f l) = mapM (fun x => snd (f x)) l.
Proof.
  induction l; cbn [mapM_lk mapM]; push; [reflexivity|]. apply bind_ext; [reflexivity|]. intros. push.
  rewrite IHl. apply bind_ext; reflexivity.
Qed.
Lemma mapM_erase_to {A B} (f : A -> L B) g l : (forall x, snd (f x) = g x) -> snd (mapM_lk f l) = mapM g l.
Proof. intros H. rewrite mapM_erase. apply mapM_ext, H. Qed.

Lemma final_block_erase v input offset buffer s :
  snd (final_block_lk v input offset buffer s) = final_block v input offset buffer s.
Proof. unfold final_block_lk, final_block. er. Qed.
Lemma input_debug_asserts_erase v dbg input fin :
  snd (input_debug_asserts_lk v dbg input fin) = input_debug_asserts v dbg input fin.
Proof. unfold input_debug_asserts_lk, input_debug_asserts. er. Qed.

Lemma compress1_iter_erase v k rd rd' fuel : (forall l o n, snd (rd l o n) = rd' l o n) ->
  forall input fo fb fl flb fln st offset count words,
  snd (compress1_iter_lk v k rd fuel input fo fb fl flb fln st offset count words) =
  compress1_iter v k rd' fuel input fo fb fl flb fln st offset count words.
Proof.
  intros Hrd. induction fuel as [|fuel IH]; intros; cbn [compress1_iter_lk compress1_iter]; [reflexivity|].
  push. apply bind_ext.
  - destruct (Nat.eqb offset fo); push; [reflexivity|]. rewrite Hrd. apply bind_ext; [reflexivity|]. intros. er.
  - intros [[[block cd] lb] ln]. push. destruct (Nat.eqb offset fo); push; [reflexivity|]. apply IH.
Qed.

Lemma compress1_gen_erase v k rd rd' dbg input words count ln fin st : (forall l o n, snd (rd l o n) = rd' l o n) ->
  snd (compress1_loop_gen_lk v k rd dbg input words count ln fin st) =
  compress1_loop_gen v k rd' dbg input words count ln fin st.
Proof.
  intros Hrd. unfold compress1_loop_gen_lk, compress1_loop_gen. push.
  apply bind_ext; [apply input_debug_asserts_erase|intros _]. push.
  apply bind_ext; [apply final_block_erase|]. intros [[fb fl] sf]. push.
  apply compress1_iter_erase, Hrd.
Qed.

Lemma min_of_erase m js :
  snd (min_of_lk m js) = Ret (fold_left (fun m j => Nat.min m (length (j_input j))) js m).
Proof. revert m. induction js as [|j js IH]; intros; cbn [min_of_lk fold_left]; push; [reflexivity|]. apply IH. Qed.
Lemma min_len_erase js : snd (min_len_lk js) = min_len js.
Proof. destruct js; cbn [min_len_lk min_len]; push; [reflexivity|]. apply min_of_erase. Qed.

Lemma compressn_iter_erase S fuel : forall inputs fo fbs fcd flb fln st offset h lo hi,
  snd (compressn_iter_lk S fuel inputs fo fbs fcd flb fln st offset h lo hi) =
  compressn_iter S fuel inputs fo fbs fcd flb fln st offset h lo hi.
Proof.
  induction fuel as [|fuel IH]; intros; cbn [compressn_iter_lk compressn_iter]; [reflexivity|].
  push. apply bind_ext.
  - destruct (Nat.eqb offset fo); push; [reflexivity|]. rewrite mapM_erase. apply bind_ext; [reflexivity|]. intros. er.
  - intros [[[block cd] lb] ln]. destruct (add_to_counts S lo hi cd). push.
    destruct (Nat.eqb offset fo); push; [reflexivity|]. apply IH.
Qed.

Lemma compressn_erase S dbg jobs fin st :
  snd (compressn_loop_lk S dbg jobs fin st) = compressn_loop S dbg jobs fin st.
Proof.
  unfold compressn_loop_lk, compressn_loop. cbv zeta. push.
  apply bind_ext; [apply mapM_erase_to; intros; apply input_debug_asserts_erase|intros _].
  destruct (load_counts S jobs) as [lo hi]. push.
  apply bind_ext; [apply min_len_erase|intros ml]. push.
  apply bind_ext; [apply mapM_erase_to; intros; apply final_block_erase|intros f]. push.
  destruct fin; push; (apply bind_ext; [apply compressn_iter_erase|]; intros [[[h l] h'] o]; push;
    apply mapM_erase_to; intros [i j]; er).
Qed.

Lemma target_feature_erase {A} b (x : L A) : snd (target_feature_lk b x) = target_feature b (snd x).
Proof. destruct b; reflexivity. Qed.

Lemma compress1_erase v e imp input words count ln fin st :
  snd (compress1_loop_lk v e imp input words count ln fin st) = compress1_loop v e imp input words count ln fin st.
Proof.
  unfold compress1_loop_lk, compress1_loop. push.
  destruct v, imp; rewrite ?target_feature_erase; try (f_equal; apply compress1_gen_erase; reflexivity);
    apply compress1_gen_erase; reflexivity.
Qed.
Lemma narrow_erase v e imp jobs fin st :
  snd (compress_narrow_loop_lk v e imp jobs fin st) = compress_narrow_loop v e imp jobs fin st.
Proof.
  unfold compress_narrow_loop_lk, compress_narrow_loop. push.
  destruct imp; rewrite ?target_feature_erase, ?compressn_erase; reflexivity.
Qed.
Lemma wide_erase v e imp jobs fin st :
  snd (compress_wide_loop_lk v e imp jobs fin st) = compress_wide_loop v e imp jobs fin st.
Proof.
  unfold compress_wide_loop_lk, compress_wide_loop. push.
  destruct imp; rewrite ?target_feature_erase, ?compressn_erase; reflexivity.
Qed.

Section Scheduler.
Context {C A : Type}.
Variable get : C -> list N.
Variable put : C -> list N -> C.
Variable prep_lk : A -> C -> L (C * prepared).
Variable prep : A -> C -> outcome (C * prepared).
Hypothesis Hprep : forall a c, snd (prep_lk a c) = prep a c.
Variables (v : variant) (e : env) (imp : platform) (fin : bool) (st : stride).

Lemma start_erase cells it : snd (start_lk prep_lk cells it) = start prep cells it.
Proof.
  destruct it as [r a]. unfold start_lk, start, cell_lk. push. apply bind_ext; [reflexivity|]. intros c. push.
  apply bind_ext; [apply Hprep|]. intros [c' [[[i n] l]|]]; reflexivity.
Qed.
Lemma pull_erase src : forall calls cells, snd (pull_src_lk prep_lk src calls cells) = pull_src prep src calls cells.
Proof.
  induction src as [|[it|] src IH]; intros; cbn [pull_src_lk pull_src]; push; try reflexivity.
  apply bind_ext; [apply start_erase|]. intros [cells' [j|]]; push; [reflexivity|]. apply IH.
Qed.
Lemma next_erase it cells : snd (next_lk prep_lk it cells) = next prep it cells.
Proof.
  unfold next_lk, next. push. destruct (i_done it); push; [reflexivity|].
  destruct (i_peeked it); push; [|apply pull_erase].
  apply bind_ext; [apply start_erase|]. intros [cells' [j|]]; push; [reflexivity|]. apply pull_erase.
Qed.
Lemma fill_erase k : forall it cells vec, snd (fill_lk prep_lk v k it cells vec) = fill prep v k it cells vec.
Proof.
  induction k as [|k IH]; intros; cbn [fill_lk fill]; push; [reflexivity|].
  apply bind_ext; [apply next_erase|]. intros [[it' cells'] [j|]]; push; [|reflexivity].
  apply bind_ext; [reflexivity|]. intros _. apply IH.
Qed.
Lemma evict_erase n : forall vec, snd (evict_finished_lk e vec n) = evict_finished e vec n.
Proof.
  induction n as [|n IH]; intros; cbn [evict_finished_lk evict_finished]; push; [reflexivity|].
  apply bind_ext; [reflexivity|]. intros _. push.
  destruct (nth_error vec n) as [j|]; [|apply IH]. destruct (v_input j); apply IH.
Qed.
Lemma store_jobs_erase js : forall cells, snd (store_jobs_lk put cells js) = store_jobs put cells js.
Proof.
  induction js as [|[j k] js IH]; intros; cbn [store_jobs_lk store_jobs]; push; [reflexivity|].
  apply bind_ext; [unfold store_words_lk; push; reflexivity|]. intros cells'. push.
  apply bind_ext; [apply IH|]. intros [c vs]. reflexivity.
Qed.
Lemma run_jobs_erase loop_lk loop n cells vec : (forall js, snd (loop_lk js) = loop js) ->
  snd (run_jobs_lk get put loop_lk n cells vec) = run_jobs get put loop n cells vec.
Proof.
  intros Hl. unfold run_jobs_lk, run_jobs. push. apply bind_ext; [reflexivity|]. intros front. push.
  apply bind_ext; [apply mapM_erase_to; intros; unfold load_job_lk, load_job, cell_lk; er|]. intros js. push.
  apply bind_ext; [apply Hl|]. intros js'. push.
  apply bind_ext; [apply store_jobs_erase|]. intros [cs f']. reflexivity.
Qed.
Lemma batch_erase loop_lk loop n fuel : (forall js, snd (loop_lk js) = loop js) -> forall it cells vec,
  snd (batch_loop_lk get put prep_lk v e loop_lk n fuel it cells vec) =
  batch_loop get put prep v e loop n fuel it cells vec.
Proof.
  intros Hl. induction fuel as [|fuel IH]; intros; cbn [batch_loop_lk batch_loop]; [reflexivity|].
  push. apply bind_ext; [apply fill_erase|]. intros [[it' cells'] vec']. push.
  destruct (Nat.ltb (length vec') n); push; [reflexivity|].
  apply bind_ext; [apply run_jobs_erase, Hl|]. intros [cells'' vec'']. push.
  apply bind_ext; [apply evict_erase|]. intros vec3. apply IH.
Qed.
Lemma run_one_erase cells j : snd (run_one_lk get put v e imp fin st cells j) = run_one get put v e imp fin st cells j.
Proof.
  unfold run_one_lk, run_one. push. apply bind_ext; [reflexivity|]. intros c. push.
  apply bind_ext; [apply compress1_erase|]. intros ws. unfold store_words_lk. push. reflexivity.
Qed.
Lemma run_vec_erase vec : forall cells,
  snd (run_vec_lk get put v e imp fin st cells vec) = run_vec get put v e imp fin st cells vec.
Proof.
  induction vec as [|j vec IH]; intros; cbn [run_vec_lk run_vec]; push; [reflexivity|].
  apply bind_ext; [apply run_one_erase|]. intros; apply IH.
Qed.
Lemma run_rest_erase fuel : forall it cells,
  snd (run_rest_lk get put prep_lk v e imp fin st fuel it cells) =
  run_rest get put prep v e imp fin st fuel it cells.
Proof.
  induction fuel as [|fuel IH]; intros; cbn [run_rest_lk run_rest]; [reflexivity|]. push.
  apply bind_ext; [apply next_erase|]. intros [[it' cells'] [j|]]; push; [|reflexivity].
  apply bind_ext; [apply run_one_erase|]. intros; apply IH.
Qed.
Lemma compress_many_erase it cells :
  snd (compress_many_lk get put prep_lk v e imp fin st it cells) =
  compress_many get put prep v e imp fin st it cells.
Proof.
  unfold compress_many_lk, compress_many. cbv zeta. push. apply bind_ext.
  - destruct (Nat.leb (wide v) (degree v imp)); [|reflexivity].
    apply batch_erase. intros; apply wide_erase.
  - intros [[it' cells'] vec]. push. apply bind_ext.
    + destruct (Nat.leb (narrow v) (degree v imp)); [|reflexivity].
      apply batch_erase. intros; apply narrow_erase.
    + intros [[it2 cells2] vec2]. push. apply bind_ext; [apply run_vec_erase|]. intros; apply run_rest_erase.
Qed.
End Scheduler.

(** lib.rs *)
Lemma lm_seq_erase {P} (a b : lmethod P) (a' b' : method P) : (forall p, snd (a p) = a' p) ->
  (forall p, snd (b p) = b' p) -> forall p, snd (lm_seq a b p) = m_seq a' b' p.
Proof.
  intros Ha Hb p. unfold lm_seq, m_seq. specialize (Ha p). destruct (a p) as [t [p' o]]. cbn [snd] in Ha.
  rewrite <- Ha. destruct o; try reflexivity. specialize (Hb p'). destruct (b p'). exact Hb.
Qed.
Lemma lm_assert_erase {P} c (p : P) : snd (lm_assert c p) = m_assert c p.
Proof. reflexivity. Qed.
Lemma lm_assign_erase {P} f (p : P) : snd (lm_assign f p) = m_assign f p.
Proof. reflexivity. Qed.
Lemma lm_try_erase {P} (f : P -> L P) g : (forall p, snd (f p) = g p) -> forall p, snd (lm_try f p) = m_try g p.
Proof. intros H p. unfold lm_try, m_try. cbn [snd]. rewrite H. reflexivity. Qed.
Ltac em := repeat first [apply lm_seq_erase; intros | apply lm_assert_erase | apply lm_assign_erase
  | apply lm_try_erase; intros; push; reflexivity | reflexivity].
Lemma setter_erase v s p : snd (call_setter_lk v s p) = call_setter v s p.
Proof.
  destruct s; cbn [call_setter_lk call_setter];
  unfold hash_length_lk, hash_length, key_lk, key, salt_lk, salt, personal_lk, personal, fanout_lk, fanout,
    max_depth_lk, max_depth, max_leaf_length_lk, max_leaf_length, node_offset_lk, node_offset, node_depth_lk, node_depth,
    inner_hash_length_lk, inner_hash_length, last_node_lk, last_node; em.
Qed.
Lemma psetter_erase v s p : snd (call_psetter_lk v s p) = call_psetter v s p.
Proof.
  destruct s; cbn [call_psetter_lk call_psetter];
  unfold p_set_hash_length_lk, p_set_hash_length, p_set_key_lk, p_set_key; em.
Qed.
Lemma run_erase {P} (m : lmethod P) m' p : (forall p, snd (m p) = m' p) -> snd (run_lk m p) = run m' p.
Proof. intros H. specialize (H p). unfold run_lk, run. destruct (m p) as [t [p' o]]. cbn [snd] in H. rewrite <- H. reflexivity. Qed.

Lemma ct_loop_erase ps : forall i t,
  snd (ct_loop_lk i ps t) = Ret (fold_left (fun t p => N.lor t (N.lxor (b2n (fst p)) (b2n (snd p)))) ps t).
Proof. induction ps as [|p ps IH]; intros; cbn [ct_loop_lk fold_left]; [reflexivity|]. push. apply IH. Qed.
Lemma ct_erase a b : snd (constant_time_eq_lk a b) = Ret (constant_time_eq a b).
Proof.
  unfold constant_time_eq_lk, constant_time_eq. push. destruct (Nat.eqb _ _); push; [|reflexivity].
  rewrite ct_loop_erase. reflexivity.
Qed.
Lemma hash_eq_erase a b : snd (hash_eq_lk a b) = hash_eq a b.
Proof.
  unfold hash_eq_lk, hash_eq, as_bytes_lk. push. apply bind_ext; [reflexivity|]. intros x. push.
  apply bind_ext; [reflexivity|]. intros. apply ct_erase.
Qed.
Lemma hash_eq_slice_erase a b : snd (hash_eq_slice_lk a b) = hash_eq_slice a b.
Proof.
  unfold hash_eq_slice_lk, hash_eq_slice, as_bytes_lk. push. apply bind_ext; [reflexivity|]. intros. apply ct_erase.
Qed.
Lemma as_array_erase v e h : snd (as_array_lk v e h) = as_array v e h.
Proof. unfold as_array_lk, as_array. er. Qed.
Lemma push_hex_erase v bytes : forall s, snd (push_hex_lk v s bytes) = push_hex v s bytes.
Proof.
  induction bytes as [|b r IH]; intros; cbn [push_hex_lk push_hex]; [reflexivity|]. push.
  unfold push_byte_lk. push.
  unfold index_table_lk at 1. push. destruct (index_table (N.shiftr (b2n b) 4)); cbn [bind]; try reflexivity.
  unfold push_char_lk at 1. push. destruct (push_char v s a); cbn [bind]; try reflexivity.
  unfold index_table_lk. push. destruct (index_table (N.land (b2n b) 15)); cbn [bind]; try reflexivity.
  unfold push_char_lk. push. destruct (push_char v a0 a1); cbn [bind]; try reflexivity. apply IH.
Qed.
Lemma to_hex_erase v h : snd (to_hex_lk v h) = to_hex v h.
Proof.
  unfold to_hex_lk, to_hex, as_bytes_lk, bytes_to_hex_lk, bytes_to_hex. push. apply bind_ext; [reflexivity|].
  intros b. push. rewrite push_hex_erase. apply bind_ext; [reflexivity|]. intros; reflexivity.
Qed.
Lemma hash_debug_erase v h : snd (hash_debug_lk v h) = hash_debug v h.
Proof. unfold hash_debug_lk, hash_debug. push. rewrite to_hex_erase. apply bind_ext; [reflexivity|]. intros; reflexivity. Qed.

Lemma fill_buf_erase v e s input : snd (fill_buf_lk v e s input) = fill_buf v e s input.
Proof. unfold fill_buf_lk, fill_buf. er. Qed.
Lemma compress_buffer_erase v e s input :
  snd (compress_buffer_if_possible_lk v e s input) = compress_buffer_if_possible v e s input.
Proof.
  unfold compress_buffer_if_possible_lk, compress_buffer_if_possible. push.
  destruct (Nat.ltb 0 (s_buflen s)); push; [|reflexivity].
  apply bind_ext; [apply fill_buf_erase|]. intros [s' i']. push. destruct i' as [|b i']; cbn [is_empty]; push; [reflexivity|].
  apply bind_ext; [apply compress1_erase|]. intros; reflexivity.
Qed.
Lemma update_erase v e s input : snd (update_lk v e s input) = update v e s input.
Proof.
  unfold update_lk, update. push. apply bind_ext; [apply compress_buffer_erase|]. intros [s' i']. push.
  apply bind_ext.
  - cbv zeta. match goal with |- (if ?c then _ else _) = _ => destruct c end; push; [|reflexivity].
    apply bind_ext; [reflexivity|]. intros. push. apply bind_ext; [apply compress1_erase|]. intros. er.
  - intros [s2 i2]. push. apply bind_ext; [apply fill_buf_erase|]. intros [s3 i3]. reflexivity.
Qed.
Lemma finalize_erase v e s : snd (finalize_lk v e s) = finalize v e s.
Proof.
  unfold finalize_lk, finalize. push. apply bind_ext; [reflexivity|]. intros. push.
  apply bind_ext; [apply compress1_erase|]. intros. reflexivity.
Qed.
Lemma count_erase v e s : snd (count_lk v e s) = count v e s.
Proof. unfold count_lk, count. cbv zeta. push. destruct (s_is_keyed s); reflexivity. Qed.
Lemma state_debug_erase v e s : snd (state_debug_lk v e s) = state_debug v e s.
Proof. unfold state_debug_lk, state_debug. push. rewrite count_erase. apply bind_ext; [reflexivity|]. intros; reflexivity. Qed.
Lemma write_erase v e s b : snd (write_lk v e s b) = write v e s b.
Proof. unfold write_lk, write. push. rewrite update_erase. apply bind_ext; [reflexivity|]. intros; reflexivity. Qed.
Lemma params_hash_erase v e p input : snd (params_hash_lk v e p input) = params_hash v e p input.
Proof.
  unfold params_hash_lk, params_hash. push. destruct (N.ltb 0 (p_key_length p)); push.
  - unfold to_state_lk, with_params_lk. push. rewrite update_erase. apply bind_ext; [reflexivity|].
    intros. apply finalize_erase.
  - apply bind_ext; [apply compress1_erase|]. intros; reflexivity.
Qed.

(** many.rs *)
Lemma update_prep_erase v e i s : snd (update_prep_lk v e i s) = update_prep v e i s.
Proof.
  unfold update_prep_lk, update_prep. push. apply bind_ext; [apply compress_buffer_erase|]. intros [s' i']. push.
  destruct i' as [|b i']; cbn [is_empty]; push; [reflexivity|]. cbv zeta. push.
  apply bind_ext; [reflexivity|]. intros blocks. push. apply bind_ext; [reflexivity|]. intros lb. push.
  apply bind_ext; [reflexivity|]. intros buf. push. destruct blocks; reflexivity.
Qed.
Lemma update_many_erase v e states xs : snd (update_many_lk v e states xs) = update_many v e states xs.
Proof.
  unfold update_many_lk, update_many. cbv zeta. destruct (i_peeked (peek xs)) as [[r i]|]; push; [|reflexivity].
  unfold cell_lk. push. apply bind_ext; [reflexivity|]. intros s. push.
  apply bind_ext; [apply compress_many_erase; intros; apply update_prep_erase|]. intros [it ss]. reflexivity.
Qed.
Lemma job_new_erase v e p i : snd (hash_many_job_new_lk v e p i) = hash_many_job_new v e p i.
Proof.
  unfold hash_many_job_new_lk, hash_many_job_new. cbv zeta. push. apply bind_ext.
  - destruct (N.ltb 0 (p_key_length p)); push; [|reflexivity].
    apply bind_ext; [rewrite compress1_erase; destruct i; reflexivity|]. intros. destruct i; reflexivity.
  - intros [[w c] f]. reflexivity.
Qed.
Lemma to_hash_erase v e j : snd (to_hash_lk v e j) = to_hash v e j.
Proof. unfold to_hash_lk, to_hash. er. Qed.
Lemma hash_prep_erase u j : snd (hash_prep_lk u j) = hash_prep u j.
Proof. unfold hash_prep_lk, hash_prep. er. Qed.
Lemma hash_many_erase v e jobs xs : snd (hash_many_lk v e jobs xs) = hash_many v e jobs xs.
Proof.
  unfold hash_many_lk, hash_many. cbv zeta. destruct (i_peeked (peek xs)) as [[r i]|]; push; [|reflexivity].
  unfold cell_lk. push. apply bind_ext; [reflexivity|]. intros s. push.
  apply bind_ext; [apply compress_many_erase; intros; apply hash_prep_erase|]. intros [it ss]. reflexivity.
Qed.

(** blake2bp.rs *)
Lemma p_to_words_erase v p : snd (p_to_words_lk v p) = p_to_words v p.
Proof.
  unfold p_to_words_lk, p_to_words. push. apply bind_ext; [reflexivity|]. intros k. push.
  apply bind_ext.
  { apply run_erase. intros q. unfold hash_length_lk, hash_length, key_lk, key, fanout_lk, fanout,
    max_depth_lk, max_depth, max_leaf_length_lk, max_leaf_length, inner_hash_length_lk, inner_hash_length. em. }
  intros base. push. apply bind_ext.
  { apply mapM_erase_to. intros i. push. apply bind_ext; [|intros; reflexivity].
    apply run_erase. intros q. unfold node_offset_lk, node_offset, node_depth_lk, node_depth. em. }
  intros lw. push. apply bind_ext; [|intros; reflexivity].
  apply run_erase. intros q. unfold node_offset_lk, node_offset, node_depth_lk, node_depth. em.
Qed.
Lemma compress_leaves_erase v e imp fin leaves jobs :
  snd (compress_leaves_lk v e imp fin leaves jobs) = compress_leaves v e imp fin leaves jobs.
Proof.
  unfold compress_leaves_lk, compress_leaves. push.
  apply bind_ext; [apply compress_many_erase; intros; reflexivity|]. intros [it l]. reflexivity.
Qed.
Lemma root_erase v e lw rw hl imp :
  snd (finalize_root_words_lk v e lw rw hl imp) = finalize_root_words v e lw rw hl imp.
Proof.
  unfold finalize_root_words_lk, finalize_root_words. push. apply bind_ext; [reflexivity|]. intros _. cbv zeta. push.
  apply bind_ext; [apply compress1_erase|]. intros; reflexivity.
Qed.
Lemma copy_keys_erase v k is : forall buf, snd (copy_keys_lk v k is buf) = copy_keys v k is buf.
Proof.
  induction is as [|i r IH]; intros; cbn [copy_keys_lk copy_keys]; push; [reflexivity|].
  apply bind_ext; [reflexivity|]. intros; apply IH.
Qed.
Lemma p_with_params_erase v p : snd (p_with_params_lk v p) = p_with_params v p.
Proof.
  unfold p_with_params_lk, p_with_params. push. apply bind_ext; [apply p_to_words_erase|]. intros [lw rw]. cbv zeta. push.
  apply bind_ext.
  - destruct (N.ltb 0 (pp_key_length p)); push; [|reflexivity].
    apply bind_ext; [reflexivity|]. intros k. push. apply bind_ext; [apply copy_keys_erase|]. intros; reflexivity.
  - intros [buf bl]. reflexivity.
Qed.
Lemma p_fill_buf_erase e s i : snd (p_fill_buf_lk e s i) = p_fill_buf e s i.
Proof. unfold p_fill_buf_lk, p_fill_buf. er. Qed.
Lemma compress_to_leaves_erase v e imp leaves input count :
  snd (compress_to_leaves_lk v e imp leaves input count) = compress_to_leaves v e imp leaves input count.
Proof.
  unfold compress_to_leaves_lk, compress_to_leaves. push.
  apply bind_ext; [apply mapM_erase_to; intros; er|]. intros jobs. push.
  apply bind_ext; [apply compress_leaves_erase|]. intros; reflexivity.
Qed.
Lemma p_update_erase v e s input : snd (p_update_lk v e s input) = p_update v e s input.
Proof.
  unfold p_update_lk, p_update. cbv zeta. push. apply bind_ext.
  - destruct (Nat.ltb 0 (ps_buf_len s)); push; [|reflexivity].
    apply bind_ext; [apply p_fill_buf_erase|]. intros [s' i']. push.
    destruct i' as [|b i']; cbn [is_empty]; push; [reflexivity|].
    match goal with |- (if ?c then _ else _) = _ => destruct c end; push.
    + apply bind_ext; [apply compress_to_leaves_erase|]. intros [l c]. reflexivity.
    + apply bind_ext; [reflexivity|]. intros front. push.
      apply bind_ext; [apply compress_to_leaves_erase|]. intros [l c]. push.
      apply bind_ext; [reflexivity|]. intros bf. push. apply bind_ext; [reflexivity|]. intros bb. push.
      apply bind_ext; [|intros; reflexivity]. destruct (Nat.eqb _ _); reflexivity.
  - intros [s' i']. push. apply bind_ext.
    + match goal with |- (if ?c then _ else _) = _ => destruct c end; push; [|reflexivity].
      apply bind_ext; [reflexivity|]. intros bulk. push.
      apply bind_ext; [apply compress_to_leaves_erase|]. intros [l c]. push.
      apply bind_ext; [reflexivity|]. intros; reflexivity.
    + intros [s2 i2]. push. apply bind_ext; [apply p_fill_buf_erase|]. intros [s3 i3]. push.
      apply bind_ext; [reflexivity|]. intros; reflexivity.
Qed.
Lemma p_finalize_erase v e s : snd (p_finalize_lk v e s) = p_finalize v e s.
Proof.
  unfold p_finalize_lk, p_finalize. cbv zeta. push. apply bind_ext; [apply mapM_erase_to; intros; er|]. intros jobs. push.
  apply bind_ext; [apply compress_leaves_erase|]. intros; apply root_erase.
Qed.
Lemma p_count_erase v e s : snd (p_count_lk v e s) = p_count v e s.
Proof. unfold p_count_lk, p_count. cbv zeta. push. destruct (ps_is_keyed s); reflexivity. Qed.
Lemma pstate_debug_erase v e s : snd (pstate_debug_lk v e s) = pstate_debug v e s.
Proof. unfold pstate_debug_lk, pstate_debug. push. rewrite p_count_erase. apply bind_ext; [reflexivity|]. intros; reflexivity. Qed.
Lemma p_write_erase v e s b : snd (p_write_lk v e s b) = p_write v e s b.
Proof. unfold p_write_lk, p_write. push. rewrite p_update_erase. apply bind_ext; [reflexivity|]. intros; reflexivity. Qed.
Lemma p_hash_erase v e p input : snd (p_hash_lk v e p input) = p_hash v e p input.
Proof.
  unfold p_hash_lk, p_hash. push. destruct (N.ltb 0 (pp_key_length p)); push.
  - unfold p_to_state_lk, p_to_state. rewrite p_with_params_erase. apply bind_ext; [reflexivity|]. intros s. push.
    rewrite p_update_erase. apply bind_ext; [reflexivity|]. intros. apply p_finalize_erase.
  - apply bind_ext; [apply p_to_words_erase|]. intros [lw rw]. push.
    apply bind_ext; [apply mapM_erase_to; intros; er|]. intros jobs. push.
    apply bind_ext; [apply compress_leaves_erase|]. intros; apply root_erase.
Qed.

(** Programs *)
Lemma write_all_erase {S} (wl : S -> list byte -> L (S * nat)) wr : (forall s b, snd (wl s b) = wr s b) ->
  forall s buf, snd (write_all_lk wl s buf) = write_all wr s buf.
Proof.
  intros H. unfold write_all_lk, write_all. intros s buf. generalize (length buf). intros n. revert s buf.
  induction n as [|n IH]; intros s [|b buf]; cbn [write_all_loop_lk write_all_loop]; try reflexivity.
  push. rewrite H. apply bind_ext; [reflexivity|]. intros [s' k]. push. destruct (Nat.eqb k 0); [reflexivity|]. push.
  apply bind_ext; [reflexivity|]. intros; apply IH.
Qed.

Lemma on_obj_erase {A} w (l : list A) i k k' : (forall x, snd (k x) = k' x) ->
  snd (on_obj_lk w l i k) = on_obj w l i k'.
Proof. intros H. unfold on_obj_lk, on_obj. destruct (nth_error l i); [apply H|reflexivity]. Qed.
Lemma finish_erase {A} w (x : L A) o k : snd x = o -> snd (finish_lk w x k) = finish w o k.
Proof. intros <-. reflexivity. Qed.
Lemma run_method_erase {P} (m : lmethod P) m' p (upd : P -> world) : snd (m p) = m' p ->
  snd (run_method_lk m p upd) = run_method m' p upd.
Proof. unfold run_method_lk, run_method. destruct (m p) as [t [p' o]]. cbn [snd]. intros <-. reflexivity. Qed.

Lemma step_erase v e imp w c : snd (step_lk v e imp w c) = step v e imp w c.
Proof.
  destruct c; cbn [step_lk step];
  try (apply on_obj_erase; intros); try (apply on_obj_erase; intros);
  try (apply run_method_erase; first [apply setter_erase | apply psetter_erase | reflexivity]);
  try match goal with |- snd (if ?c then _ else _) = _ => destruct c; [|reflexivity] end;
  try (apply finish_erase; first
    [ apply params_hash_erase | apply update_erase | apply write_erase | apply finalize_erase | apply count_erase
    | apply state_debug_erase | apply update_many_erase | apply job_new_erase | apply hash_many_erase
    | apply to_hash_erase | apply p_hash_erase | apply p_with_params_erase | apply p_update_erase | apply p_write_erase
    | apply p_finalize_erase | apply p_count_erase | apply pstate_debug_erase | apply as_array_erase | apply to_hex_erase
    | apply hash_debug_erase | apply hash_eq_erase | apply hash_eq_slice_erase
    | apply write_all_erase; intros; first [apply write_erase | apply p_write_erase] | reflexivity ]);
  reflexivity.
Qed.

Lemma run_from_erase v e imp prog : forall w, map snd (run_from_lk v e imp w prog) = run_from v e imp w prog.
Proof.
  induction prog as [|c r IH]; intros; cbn [run_from_lk run_from]; [reflexivity|].
  pose proof (step_erase v e imp w c) as H. destruct (step_lk v e imp w c) as [t [w' o]]. cbn [snd] in H.
  rewrite <- H. cbn [map snd]. rewrite IH. reflexivity.
Qed.

Theorem program_erase v t e prog : map snd (run_program_lk v t e prog) = run_program v t e prog.
Proof. apply run_from_erase. Qed.
