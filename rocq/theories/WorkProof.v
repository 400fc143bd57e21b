(** Counting the compressions in the traces of Leak.v. *)
From Coq Require Import String Ascii.
From Coq Require Import ZArith Arith NArith List Bool Lia ZifyBool ZifyNat ZifyN.
From Verif Require Import Base ByteLemmas Guts Portable Intrinsics Avx2b Sse41s KernelSpec Simd Impl Loops LaneLoops Sched SchedProof.
From Verif Require Import Lib StateProof ParamsProof FedProof Many ManyProof Par Stripe ParProof ParFed.
From Verif Require Import Spec ApiSpec Machine Api ApiProof Leak LeakErase WorkSpec.
Import ListNotations.
Open Scope list_scope.
Open Scope nat_scope.
Local Notation length := List.length.

Notation ks x := (compressions (fst x)).

Lemma ks_app a b : compressions (a ++ b) = compressions a ++ compressions b.
Proof. apply flat_map_app. Qed.
Lemma fst_tell {A} t (x : L A) : fst (tell t x) = t ++ fst x.
Proof. reflexivity. Qed.
Lemma ks_tell {A} t (x : L A) : ks (tell t x) = compressions t ++ ks x.
Proof. rewrite fst_tell. apply ks_app. Qed.
Lemma ks_branch {A} c (x y : L A) : ks (branch c x y) = if c then ks x else ks y.
Proof. unfold branch. rewrite ks_tell. destruct c; reflexivity. Qed.
Lemma ks_ret {A} (a : A) : ks (ret a) = [].
Proof. reflexivity. Qed.

Lemma lbind_inv {A B} (x : L A) (f : A -> L B) b : snd (lbind x f) = Ret b ->
  exists a, snd x = Ret a /\ snd (f a) = Ret b /\ ks (lbind x f) = ks x ++ ks (f a).
Proof.
  unfold lbind. destruct (snd x) as [a| | |]; try discriminate. intros H. exists a. cbn [fst snd] in *.
  rewrite ks_app. auto.
Qed.
Lemma lbind_ks {A B} (x : L A) (f : A -> L B) a : snd x = Ret a -> ks (lbind x f) = ks x ++ ks (f a).
Proof. unfold lbind. intros ->. cbn [fst]. apply ks_app. Qed.

(** Functions that compress nothing. *)
Lemma q_bind {A B} (x : L A) (f : A -> L B) : ks x = [] -> (forall a, ks (f a) = []) -> ks (lbind x f) = [].
Proof. unfold lbind. intros H1 H2. destruct (snd x); cbn [fst]; rewrite ?ks_app, ?H1, ?H2; reflexivity. Qed.
Lemma q_tell {A} t (x : L A) : compressions t = [] -> ks x = [] -> ks (tell t x) = [].
Proof. rewrite ks_tell. intros -> ->. reflexivity. Qed.
Lemma q_branch {A} c (x y : L A) : ks x = [] -> ks y = [] -> ks (branch c x y) = [].
Proof. rewrite ks_branch. destruct c; auto. Qed.
Lemma q_if {A} (c : bool) (x y : L A) : ks x = [] -> ks y = [] -> ks (if c then x else y) = [].
Proof. destruct c; auto. Qed.
Lemma q_mapM {A B} (f : A -> L B) l : (forall x, ks (f x) = []) -> ks (mapM_lk f l) = [].
Proof.
  intros H. induction l; cbn [mapM_lk]; [reflexivity|]. apply q_tell; [reflexivity|].
  apply q_bind; [apply H|]. intros. apply q_bind; [apply IHl|]. reflexivity.
Qed.
Lemma q_debug d c : ks (debug_assert_lk d c) = [].
Proof. destruct d; reflexivity. Qed.
Lemma q_branches l : compressions (map Branch l) = [].
Proof. induction l; auto. Qed.

Ltac qt := intros; try reflexivity;
  first
  [ apply q_debug
  | apply q_bind; [qt | intros; qt]
  | apply q_tell; [reflexivity | qt]
  | apply q_branch; qt
  | apply q_if; qt
  | apply q_mapM; qt
  | lazymatch goal with
    | |- compressions (fst (match ?p with _ => _ end)) = [] => destruct p; qt
    | |- compressions (if ?p then _ else _) = [] => destruct p; qt
    end
  | idtac ].

Lemma q_asserts v d i f : ks (input_debug_asserts_lk v d i f) = [].
Proof. unfold input_debug_asserts_lk. qt. destruct d; reflexivity. Qed.
Lemma q_final_block v i o b s : ks (final_block_lk v i o b s) = [].
Proof. unfold final_block_lk. qt. Qed.

(** ** The loops *)
Definition need (v : variant) (st : stride) (n : nat) : nat := S ((n - 1) / padded_blockbytes v st).

Lemma pb_pos v st : 0 < padded_blockbytes v st.
Proof. destruct v, st; cbn; lia. Qed.

Lemma fin_div len pb : 0 < pb -> (len - 1) - (len - 1) mod pb = (len - 1) / pb * pb.
Proof.
  intros H. pose proof (Nat.div_mod (len - 1) pb ltac:(lia)). rewrite Nat.mul_comm.
  generalize dependent ((len - 1) mod pb). generalize (pb * ((len - 1) / pb)). intros. lia.
Qed.

Lemma ks_c1_iter v k rd st input fb fl0 flb fln b : (forall l o n, ks (rd l o n) = []) ->
  forall fuel a count words r, a <= b ->
  snd (compress1_iter_lk v k rd fuel input (b * padded_blockbytes v st) fb fl0 flb fln st (a * padded_blockbytes v st) count words) = Ret r ->
  ks (compress1_iter_lk v k rd fuel input (b * padded_blockbytes v st) fb fl0 flb fln st (a * padded_blockbytes v st) count words)
  = repeat 1 (S (b - a)).
Proof.
  intros RD. pose proof (pb_pos v st) as PB.
  induction fuel as [|fuel IH]; intros a count words r LE H; [discriminate H|]. cbn [compress1_iter_lk] in *.
  destruct (lbind_inv _ _ _ H) as ([[[block cd] lb] ln] & H1 & H2 & E). rewrite E. clear E H.
  assert (Q : ks (branch (Nat.eqb (a * padded_blockbytes v st) (b * padded_blockbytes v st))
          (ret (fb, fl0, flb, fln))
          (ldo b0 <- rd input (a * padded_blockbytes v st) (blockbytes v);
           ldo last_block <- flag_word_lk v false;
           ldo last_node <- flag_word_lk v false;
           ret (b0, blockbytes v, last_block, last_node))) = []).
  { apply q_branch; [reflexivity|]. apply q_bind; [apply RD|]. qt. }
  rewrite Q. clear Q H1. cbn [app]. rewrite ks_tell, ks_branch. rewrite snd_tell, snd_branch in H2.
  destruct (Nat.eqb_spec (a * padded_blockbytes v st) (b * padded_blockbytes v st)) as [EQ|NE].
  - assert (a = b) by nia. subst. rewrite Nat.sub_diag. reflexivity.
  - assert (a < b) by nia.
    replace (a * padded_blockbytes v st + padded_blockbytes v st) with (S a * padded_blockbytes v st) in * by lia.
    rewrite (IH (S a) _ _ r) by (auto; lia).
    replace (b - a) with (S (b - S a)) by lia. reflexivity.
Qed.

Lemma ks_c1_gen v k rd dbg input words count ln fin st r : (forall l o n, ks (rd l o n) = []) ->
  snd (compress1_loop_gen_lk v k rd dbg input words count ln fin st) = Ret r ->
  ks (compress1_loop_gen_lk v k rd dbg input words count ln fin st) = repeat 1 (need v st (length input)).
Proof.
  intros RD H. unfold compress1_loop_gen_lk in *.
  destruct (lbind_inv _ _ _ H) as (u & _ & H1 & ->). clear H. rewrite q_asserts. cbn [app].
  destruct (lbind_inv _ _ _ H1) as (fo & X & H2 & ->). clear H1. injection X as <-. cbn [app].
  destruct (lbind_inv _ _ _ H2) as (fo & X & H3 & ->). clear H2. injection X as <-. cbn [app].
  destruct (lbind_inv _ _ _ H3) as ([[fb fl0] ff] & X & H4 & ->). clear H3. rewrite q_final_block. cbn [app].
  destruct (lbind_inv _ _ _ H4) as (f1 & _ & H5 & ->). clear H4. cbn [app].
  destruct (lbind_inv _ _ _ H5) as (f2 & _ & H6 & ->). clear H5.
  change (ks (sat_sub_lk (length input) 1)) with (@nil nat).
  change (ks (flag_word_lk v fin)) with (@nil nat). change (ks (flag_word_lk v (fin && ln))) with (@nil nat).
  change (ks (round_down_lk (sat_sub (length input) 1) (padded_blockbytes v st))) with (@nil nat).
  cbn [app]. unfold sat_sub in *. pose proof (pb_pos v st) as PB.
  rewrite fin_div in * by auto. clear X.
  change 0 with (0 * padded_blockbytes v st) in H6 at 2.
  change 0 with (0 * padded_blockbytes v st) at 2.
  rewrite (ks_c1_iter v k rd st input fb fl0 f1 f2 ((length input - 1) / padded_blockbytes v st) RD _ 0 _ _ r) by (auto; apply Nat.le_0_l). rewrite Nat.sub_0_r. reflexivity.
Qed.

Lemma ks_c1 v e imp input words count ln fin st r :
  snd (compress1_loop_lk v e imp input words count ln fin st) = Ret r ->
  ks (compress1_loop_lk v e imp input words count ln fin st) = repeat 1 (need v st (length input)).
Proof.
  unfold compress1_loop_lk. rewrite ks_tell, snd_tell. cbn [compressions flat_map app]. unfold target_feature_lk.
  destruct v, imp; try destruct (e_avx2 e); try destruct (e_sse41 e); try discriminate;
    apply ks_c1_gen; reflexivity.
Qed.

Lemma mapM_inv {A B} (f : A -> L B) l : forall ys, snd (mapM_lk f l) = Ret ys ->
  Forall2 (fun x y => snd (f x) = Ret y) l ys.
Proof.
  induction l as [|x l IH]; intros ys H; cbn [mapM_lk] in H.
  - injection H as <-. constructor.
  - rewrite snd_tell in H. destruct (lbind_inv _ _ _ H) as (y & H1 & H2 & _).
    destruct (lbind_inv _ _ _ H2) as (zs & H3 & H4 & _). injection H4 as <-. constructor; auto.
Qed.

Lemma slice_from_inv {A} (l : list A) a x : snd (slice_from_lk l a) = Ret x -> x = skipn a l /\ a <= length l.
Proof.
  unfold slice_from_lk, slice_from, emit. cbn [snd]. destruct (Nat.leb_spec a (length l)); [|discriminate].
  intros [= <-]. auto.
Qed.
Lemma slice_inv {A} (l : list A) a b x : snd (slice_lk l a b) = Ret x -> x = firstn (b - a) (skipn a l) /\ a <= b <= length l.
Proof.
  unfold slice_lk, slice, emit. cbn [snd]. destruct (Nat.leb_spec a b); [|discriminate].
  destruct (Nat.leb_spec b (length l)); [|discriminate]. intros [= <-]. auto.
Qed.

Lemma ks_cn_iter S st inputs fbs fcd flb fln b :
  forall fuel a h lo hi r, a <= b ->
  snd (compressn_iter_lk S fuel inputs (b * padded_blockbytes (s_var S) st) fbs fcd flb fln st (a * padded_blockbytes (s_var S) st) h lo hi) = Ret r ->
  ks (compressn_iter_lk S fuel inputs (b * padded_blockbytes (s_var S) st) fbs fcd flb fln st (a * padded_blockbytes (s_var S) st) h lo hi)
  = repeat (s_degree S) (Datatypes.S (b - a)) /\ snd r = b * padded_blockbytes (s_var S) st.
Proof.
  pose proof (pb_pos (s_var S) st) as PB.
  induction fuel as [|fuel IH]; intros a h lo hi r LE H; [discriminate H|]. cbn [compressn_iter_lk] in *.
  destruct (lbind_inv _ _ _ H) as ([[[blocks cd] lb] ln] & H1 & H2 & E). rewrite E. clear E H.
  match goal with |- context [ks ?x ++ _] => assert (Q : ks x = []) end.
  { apply q_branch; [reflexivity|]. apply q_bind; [|reflexivity]. apply q_mapM. reflexivity. }
  rewrite Q. clear Q H1. cbn [app].
  destruct (add_to_counts S lo hi cd) as [lo' hi'] eqn:EC.
  rewrite ks_tell, ks_branch. rewrite snd_tell, snd_branch in H2.
  destruct (Nat.eqb_spec (a * padded_blockbytes (s_var S) st) (b * padded_blockbytes (s_var S) st)) as [EQ|NE].
  - assert (a = b) by nia. subst. rewrite Nat.sub_diag. injection H2 as <-. split; reflexivity.
  - assert (a < b) by nia.
    replace (a * padded_blockbytes (s_var S) st + padded_blockbytes (s_var S) st) with (Datatypes.S a * padded_blockbytes (s_var S) st) in * by lia.
    destruct (IH (Datatypes.S a) _ _ _ r ltac:(lia) H2) as [E1 E2]. rewrite E1.
    replace (b - a) with (Datatypes.S (b - Datatypes.S a)) by lia. split; [reflexivity|exact E2].
Qed.

Lemma q_min_of js : forall m, ks (min_of_lk m js) = [].
Proof. induction js; intros m; cbn [min_of_lk]; [reflexivity|]. apply q_tell; [reflexivity|]. apply q_bind; auto. Qed.
Lemma q_min_len js : ks (min_len_lk js) = [].
Proof. destruct js; [reflexivity|]. apply q_min_of. Qed.

Lemma Forall2_combine_seq {A B} (P : nat * A -> B -> Prop) (l : list A) : forall k (r : list B),
  Forall2 P (combine (seq k (length l)) l) r -> Forall2 (fun a b => exists i, P (i, a) b) l r.
Proof.
  induction l as [|a l IH]; intros k r H; cbn [length seq combine] in H; inversion H; subst; constructor; eauto.
Qed.

Lemma ks_cn S dbg jobs fin st r : snd (compressn_loop_lk S dbg jobs fin st) = Ret r ->
  exists m, (forall j, In j jobs -> m <= length (j_input j)) /\ (exists j, In j jobs /\ m = length (j_input j)) /\
    ks (compressn_loop_lk S dbg jobs fin st) = repeat (s_degree S) (need (s_var S) st m) /\
    Forall2 (fun j j' => length (j_input j') = length (j_input j) - need (s_var S) st m * padded_blockbytes (s_var S) st) jobs r.
Proof.
  intros H. unfold compressn_loop_lk in *. pose proof (pb_pos (s_var S) st) as PB.
  destruct (lbind_inv _ _ _ H) as (u & _ & H1 & ->). clear H. rewrite q_mapM by (intros; apply q_asserts). cbn [app].
  destruct (load_counts S jobs) as [lo hi].
  destruct (lbind_inv _ _ _ H1) as (m & EM & H2 & ->). clear H1. rewrite ks_tell, q_min_len. rewrite snd_tell, min_len_erase in EM.
  cbn [app compressions flat_map].
  destruct (lbind_inv _ _ _ H2) as (fo & X & H3 & ->). clear H2. injection X as <-.
  destruct (lbind_inv _ _ _ H3) as (fo & X & H4 & ->). clear H3. injection X as <-.
  destruct (lbind_inv _ _ _ H4) as (fins & _ & H5 & ->). clear H4. rewrite q_mapM by (intros; apply q_final_block).
  destruct (lbind_inv _ _ _ H5) as ([f1 f2] & _ & H6 & ->). clear H5.
  rewrite ks_branch, ks_tell, ks_app, !q_branches, !ks_ret. cbn [app].
  match goal with |- context [if ?b then [] else []] => replace (if b then @nil nat else []) with (@nil nat) by (destruct b; reflexivity) end.
  destruct (lbind_inv _ _ _ H6) as ([[[h lo'] hi'] offset] & H7 & H8 & ->). clear H6.
  change (ks (sat_sub_lk m 1)) with (@nil nat).
  change (ks (round_down_lk (sat_sub m 1) (padded_blockbytes (s_var S) st))) with (@nil nat). cbn [app].
  unfold sat_sub in *. rewrite fin_div in * by auto.
  change 0 with (0 * padded_blockbytes (s_var S) st) in H7 at 2.
  change 0 with (0 * padded_blockbytes (s_var S) st) at 2.
  destruct (ks_cn_iter S st _ _ _ _ _ _ _ 0 _ _ _ _ (Nat.le_0_l _) H7) as [E1 E2]. rewrite E1. cbn [snd] in E2.
  rewrite Nat.sub_0_r. clear E1 H7. rewrite ks_tell.
  rewrite q_mapM by (intros [i j]; qt). cbn [app compressions flat_map]. rewrite app_nil_r.
  rewrite snd_tell in H8. apply mapM_inv in H8. apply Forall2_combine_seq in H8.
  assert (NE : jobs <> []) by (intros ->; discriminate EM).
  destruct (min_len_spec jobs NE) as (m' & EM' & M1 & M2). rewrite EM in EM'. injection EM' as <-.
  exists m. split; [exact M1|]. split; [exact M2|]. split; [reflexivity|].
  clear - H8 E2. induction H8 as [|j j' l l' [i H] _ IH]; constructor; auto.
  destruct (lbind_inv _ _ _ H) as (cs & X & H1 & _). injection X as <-.
  destruct (lbind_inv _ _ _ H1) as (rest & X & H2 & _). apply slice_from_inv in X. destruct X as [-> _].
  injection H2 as <-. cbn [j_input]. rewrite skipn_length. unfold need. subst offset.
  rewrite Nat.mul_succ_l. generalize ((m - 1) / padded_blockbytes (s_var S) st * padded_blockbytes (s_var S) st). intros. lia.
Qed.
