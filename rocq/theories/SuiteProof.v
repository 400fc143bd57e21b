(** The project's comparison tests pass on every input. *)
From Coq Require Import String Ascii.
From Coq Require Import ZArith Arith NArith List Bool Lia ZifyBool ZifyNat ZifyN.
From Coq Require Import Init.Byte.
From Verif Require Import Base ByteLemmas LaneLemmas Guts Portable KernelSpec Simd Transposed Impl Loops LaneLoops Sched SchedProof Lib StateProof
  ParamsProof FedProof Many ManyProof Par Stripe ParProof ParFed HashProof Machine Api ApiProof
  History Runs HistoryProof BatchProof Words Laws ParLaws Xof XofProof Suite.
From Verif Require Spec ApiSpec.
Import ListNotations.
Open Scope list_scope.
Open Scope N_scope.
Local Notation length := List.length.

(** *** Small things *)
Lemma bindR {A B} (o : outcome A) (f : A -> outcome B) b : bind o f = Ret b -> exists a, o = Ret a /\ f a = Ret b.
Proof. destruct o; cbn; try discriminate. eauto. Qed.
Lemma each_ok {A} (f : A -> outcome unit) l : (forall x, In x l -> f x = Ret tt) -> each f l = Ret tt.
Proof.
  induction l as [|x l IH]; intros H; [reflexivity|]. cbn [each]. rewrite H by (left; reflexivity). cbn [bind].
  apply IH. intros y Hy. apply H. right. exact Hy.
Qed.
Lemma at_index_ok {A} (l : list A) i x : nth_error l i = Some x -> at_index l i = Ret x.
Proof. intros H. unfold at_index. rewrite H. reflexivity. Qed.
Lemma assert_same_ok a b x y : as_bytes a = Ret x -> as_bytes b = Ret y -> x = y -> assert_same a b = Ret tt.
Proof.
  intros A B ->. unfold assert_same. destruct (hash_eq_iff a b y y A B) as (r & E & I). rewrite E. cbn [bind].
  destruct r; [reflexivity|]. assert (false = true) by (apply I; reflexivity). discriminate.
Qed.
Lemma assert_count_ok n : assert_count n n = Ret tt.
Proof. unfold assert_count. rewrite N.eqb_refl. reflexivity. Qed.
Lemma assert_words_ok w : assert_words w w = Ret tt.
Proof. unfold assert_words. destruct (list_eq_dec N.eq_dec w w); [reflexivity|congruence]. Qed.
Lemma assert_same_is a b x y : as_bytes a = Ret x -> as_bytes b = Ret y ->
  assert_same a b = if list_eq_dec Byte.byte_eq_dec x y then Ret tt else Panic.
Proof.
  intros A B. unfold assert_same. destruct (hash_eq_iff a b x y A B) as (r & E & I). rewrite E. cbn [bind].
  destruct (list_eq_dec Byte.byte_eq_dec x y) as [H|H]; destruct r; try reflexivity.
  - assert (false = true) by (apply I; exact H). discriminate.
  - exfalso. apply H, I. reflexivity.
Qed.
Lemma slice_0 {A} (l : list A) n : (n <= length l)%nat -> slice l 0 n = Ret (firstn n l).
Proof. intros H. unfold slice. destruct (Nat.leb_spec n (length l)); [|lia]. cbn. rewrite Nat.sub_0_r. reflexivity. Qed.
Lemma slice_from_ok {A} (l : list A) n : (n <= length l)%nat -> slice_from l n = Ret (skipn n l).
Proof. intros H. unfold slice_from. destruct (Nat.leb_spec n (length l)); [reflexivity|lia]. Qed.
Lemma set_length {A} (l : list A) i x : length (set l i x) = length l.
Proof. revert i. induction l as [|y l IH]; intros [|i]; cbn; auto. Qed.
Lemma set_same {A} (l : list A) i x : (i < length l)%nat -> nth_error (set l i x) i = Some x.
Proof. revert i. induction l as [|y l IH]; intros [|i] H; cbn in *; try lia; auto. apply IH. lia. Qed.
Lemma set_other {A} (l : list A) i j x : i <> j -> nth_error (set l i x) j = nth_error l j.
Proof. revert i j. induction l as [|y l IH]; intros [|i] [|j] H; cbn; auto; try congruence. Qed.

Lemma cmod_big v : 2 ^ 64 <= cmod v.
Proof. destruct v; vm_compute; discriminate. Qed.
Lemma holds_count_small v e c msg s : holds v e c msg s -> N.of_nat (length msg) < 2 ^ 63 + 2 ^ 62 ->
  count v e s = Ret (N.of_nat (length msg)).
Proof.
  intros H B. rewrite (holds_count _ _ _ _ _ H). pose proof (cmod_big v) as CB.
  change (2 ^ 64) with 18446744073709551616 in CB. change (2 ^ 63 + 2 ^ 62) with 13835058055282163712 in B.
  assert (BB : (blockbytes v <= 128)%nat) by (destruct v; cbn; lia).
  unfold key_bytes. destruct (keyed c); cbv zeta.
  - rewrite N.mod_small by lia. unfold count_sub. destruct (N.leb_spec (N.of_nat (blockbytes v)) (N.of_nat (blockbytes v + length msg))); [|lia].
    f_equal. lia.
  - cbn [Nat.add]. rewrite N.mod_small by lia. reflexivity.
Qed.
Lemma pholds_count_small v e c msg s : pholds v e c msg s -> N.of_nat (length msg) < 2 ^ 63 + 2 ^ 62 ->
  p_count v e s = Ret (N.of_nat (length msg)).
Proof.
  intros H B. rewrite (pholds_count _ _ _ _ _ H). pose proof (cmod_big v) as CB.
  change (2 ^ 64) with 18446744073709551616 in CB. change (2 ^ 63 + 2 ^ 62) with 13835058055282163712 in B.
  assert (BB : (P v <= 512)%nat) by (destruct v; cbn; lia).
  destruct (pkeyed c); cbv zeta.
  - rewrite N.mod_small by lia. unfold count_sub. destruct (N.leb_spec (N.of_nat (P v)) (N.of_nat (P v + length msg))); [|lia].
    f_equal. lia.
  - cbn [Nat.add]. rewrite N.mod_small by lia. reflexivity.
Qed.

(** *** The reference implementation of the parallel functions *)
Section Reference.
Import ApiSpec.
Variables (v : variant) (e : env) (imp : platform).
Hypothesis Su : supported e imp.

Lemma new_state_holds ss : Forall typed ss -> Forall (fun s => legal (fl v) s = true) ss ->
  exists s, new_state v imp ss = Ret s /\ holds v e (configure (fl v) ss (default_config (fl v))) [] s.
Proof.
  intros T L. unfold new_state. rewrite chain_legal by exact L. cbn [bind]. eexists. split; [reflexivity|].
  exact (new_holds v e imp ss Su T).
Qed.

Definition leaf_cfg (i : nat) : config :=
  {| c_params := Spec.tree_node (fl v) (Spec.max_out (fl v)) 0 (N.of_nat i) 0; c_key := [];
     c_last_node := Nat.eqb i (Spec.leaves (fl v) - 1) |}.
Definition root_cfg : config :=
  {| c_params := Spec.tree_node (fl v) (Spec.max_out (fl v)) 0 0 1; c_key := []; c_last_node := true |}.

Definition dealt (leaves : list state) (m : list byte) : Prop :=
  length leaves = par_degree v /\
  forall i, (i < par_degree v)%nat -> exists s, nth_error leaves i = Some s /\ holds v e (leaf_cfg i) (L v i m) s.

Lemma L_chunk j m c i : length m = (j * blockbytes v)%nat -> (length c <= blockbytes v)%nat ->
  (i < par_degree v)%nat ->
  L v i (m ++ c) = L v i m ++ (if Nat.eqb (j mod par_degree v) i then c else []).
Proof.
  intros Hm Hc Hi. pose proof (blockbytes_pos v) as BP. rewrite !L_lmr, lmr_app by exact Hi. f_equal. cbn [Nat.add].
  assert (M : forall q, (length m <= q < length m + length c)%nat -> mine v i q = Nat.eqb (j mod par_degree v) i).
  { intros q Hq. unfold mine. replace (q / blockbytes v)%nat with j; [reflexivity|].
    apply Nat.div_unique with (q - j * blockbytes v)%nat; lia. }
  destruct (Nat.eqb (j mod par_degree v) i).
  - apply lmr_all; [exact Hi|exact M].
  - apply lmr_none; [exact Hi|exact M].
Qed.

Lemma deal_one j m c leaves : dealt leaves m -> length m = (j * blockbytes v)%nat -> (length c <= blockbytes v)%nat ->
  exists leaves', (do s <- at_index leaves (j mod par_degree v);
                   do s <- update v e s c; Ret (set leaves (j mod par_degree v) s)) = Ret leaves' /\ dealt leaves' (m ++ c).
Proof.
  intros [Ln D] Hm Hc. assert (K : (j mod par_degree v < par_degree v)%nat) by (apply Nat.mod_upper_bound; pose proof (par_degree_pos v); lia).
  destruct (D _ K) as (s & Es & Hs). rewrite (at_index_ok _ _ _ Es). cbn [bind].
  destruct (holds_update _ _ _ _ _ c Hs) as (s' & Eu & Hs' & _). rewrite Eu. cbn [bind].
  eexists. split; [reflexivity|]. split; [rewrite set_length; exact Ln|].
  intros i Hi. rewrite (L_chunk j) by assumption. destruct (Nat.eqb_spec (j mod par_degree v) i) as [<-|NE].
  - exists s'. split; [apply set_same; lia|exact Hs'].
  - rewrite app_nil_r. rewrite set_other by exact NE. apply D. exact Hi.
Qed.

Lemma deal_spec : forall fuel x j m leaves, (length x <= fuel)%nat -> length m = (j * blockbytes v)%nat -> dealt leaves m ->
  exists leaves', deal v e j (chunks_loop fuel (blockbytes v) x) leaves = Ret leaves' /\ dealt leaves' (m ++ x).
Proof.
  pose proof (blockbytes_pos v) as BP.
  induction fuel as [|fuel IH]; intros x j m leaves Hx Hm D.
  - destruct x; [|cbn in Hx; lia]. cbn. rewrite app_nil_r. eauto.
  - destruct x as [|b x']. { cbn. rewrite app_nil_r. eauto. }
    set (x := b :: x') in *. assert (E : chunks_loop (S fuel) (blockbytes v) x = firstn (blockbytes v) x :: chunks_loop fuel (blockbytes v) (skipn (blockbytes v) x)) by reflexivity.
    rewrite E. clear E. cbn [deal].
    destruct (deal_one j m (firstn (blockbytes v) x) leaves D Hm) as (l1 & E1 & D1). { rewrite firstn_length. lia. }
    apply bindR in E1. destruct E1 as (s & Ea & E1). rewrite Ea. cbn [bind].
    apply bindR in E1. destruct E1 as (s' & Eu & E1). rewrite Eu. cbn [bind]. injection E1 as ->.
    destruct (Nat.le_gt_cases (length x) (blockbytes v)) as [Le|Gt].
    + rewrite skipn_all2 by lia. rewrite firstn_all2 in D1 by lia.
      exists l1. split; [destruct fuel; reflexivity|exact D1].
    + destruct (IH (skipn (blockbytes v) x) (S j) (m ++ firstn (blockbytes v) x) l1) as (l2 & E2 & D2); auto.
      * rewrite skipn_length. lia.
      * rewrite app_length, firstn_length. cbn [Nat.mul]. lia.
      * exists l2. split; [exact E2|]. rewrite <- app_assoc, firstn_skipn in D2. exact D2.
Qed.

Lemma feed_root_spec c : forall leaves bs m root,
  Forall2 (fun s b => exists h, finalize v e s = Ret h /\ as_bytes h = Ret b) leaves bs ->
  holds v e c m root -> exists root', feed_root v e root leaves = Ret root' /\ holds v e c (m ++ concat bs) root'.
Proof.
  intros leaves bs m root F. revert m root. induction F as [|s b leaves bs (h & Ef & Eb) F IH]; intros m root H.
  - cbn. rewrite app_nil_r. eauto.
  - cbn [feed_root concat]. rewrite Ef. cbn [bind]. rewrite Eb. cbn [bind].
    destruct (holds_update _ _ _ _ _ b H) as (r1 & Eu & H1 & _). rewrite Eu. cbn [bind].
    rewrite app_assoc. apply IH. exact H1.
Qed.

Lemma degree_u8 : as_u8 (par_degree v) = N.of_nat (Spec.leaves (fl v)).
Proof. destruct v; reflexivity. Qed.
Lemma offset_legal i : (i < par_degree v)%nat -> legal (fl v) (NodeOffset (N.of_nat i)) = true.
Proof. intros Hi. destruct v; [reflexivity|]. cbn [fl legal]. apply N.ltb_lt. cbn in Hi. change (2 ^ 48) with 281474976710656. lia. Qed.

Lemma reference_leaf_cfg i : (i < par_degree v)%nat ->
  configure (fl v) (reference_leaf v i) (default_config (fl v)) =
  {| c_params := Spec.tree_node (fl v) (Spec.max_out (fl v)) 0 (N.of_nat i) 0; c_key := []; c_last_node := false |}.
Proof.
  intros Hi. unfold reference_leaf, configure. cbn [fold_left]. rewrite (offset_legal i Hi). rewrite degree_u8.
  destruct v; reflexivity.
Qed.
Lemma reference_root_cfg : configure (fl v) (reference_root v) (default_config (fl v)) = root_cfg.
Proof. unfold reference_root, configure, root_cfg. cbn [fold_left]. rewrite degree_u8. destruct v; reflexivity. Qed.
Lemma reference_leaf_typed i : (i < par_degree v)%nat -> Forall typed (reference_leaf v i) /\
  Forall (fun s => legal (fl v) s = true) (reference_leaf v i).
Proof.
  intros Hi. assert (N.of_nat i < 2 ^ 64). { change (2 ^ 64) with 18446744073709551616. destruct v; cbn in Hi; lia. }
  split; unfold reference_leaf; repeat (apply Forall_cons; [|]); try apply Forall_nil; auto using offset_legal;
    try (destruct v; reflexivity).
Qed.

Lemma leaves_made : exists leaves,
  mapM (fun i => new_state v imp (reference_leaf v i)) (seq 0 (par_degree v)) = Ret leaves /\
  length leaves = par_degree v /\
  forall i, (i < par_degree v)%nat -> exists s, nth_error leaves i = Some s /\
    holds v e {| c_params := Spec.tree_node (fl v) (Spec.max_out (fl v)) 0 (N.of_nat i) 0; c_key := []; c_last_node := false |} [] s.
Proof.
  assert (G : forall n a, (a + n <= par_degree v)%nat -> exists leaves,
    mapM (fun i => new_state v imp (reference_leaf v i)) (seq a n) = Ret leaves /\ length leaves = n /\
    forall i, (i < n)%nat -> exists s, nth_error leaves i = Some s /\
      holds v e {| c_params := Spec.tree_node (fl v) (Spec.max_out (fl v)) 0 (N.of_nat (a + i)) 0; c_key := []; c_last_node := false |} [] s).
  { induction n as [|n IH]; intros a Ha.
    - exists []. split; [reflexivity|]. split; [reflexivity|]. intros i Hi. lia.
    - cbn [seq mapM]. destruct (reference_leaf_typed a ltac:(lia)) as [T Lg].
      destruct (new_state_holds _ T Lg) as (s & Es & Hs). rewrite Es. cbn [bind].
      destruct (IH (S a) ltac:(lia)) as (r & Er & Lr & Hr). rewrite Er. cbn [bind].
      exists (s :: r). split; [reflexivity|]. split; [cbn; lia|]. intros [|i] Hi.
      + exists s. split; [reflexivity|]. rewrite reference_leaf_cfg in Hs by lia. rewrite Nat.add_0_r. exact Hs.
      + cbn [nth_error]. replace (a + S i)%nat with (S a + i)%nat by lia. apply Hr. lia. }
  destruct (G (par_degree v) 0%nat ltac:(lia)) as (l & E & Ln & H). exists l. split; [exact E|]. split; [exact Ln|]. exact H.
Qed.

(** The bytes that a leaf contributes. *)
Lemma leaf_bytes i m : (i < par_degree v)%nat ->
  as_bytes (hash_value v (leaf_cfg i) m) = Ret (h_bytes (hash_value v (leaf_cfg i) m)) /\
  as_array v e (hash_value v (leaf_cfg i) m) = Ret (h_bytes (hash_value v (leaf_cfg i) m)).
Proof.
  intros Hi. assert (Ln : length (h_bytes (hash_value v (leaf_cfg i) m)) = outbytes v) by (apply spec_bytes_length, initial_state_ok).
  assert (HL : h_len (hash_value v (leaf_cfg i) m) = N.of_nat (outbytes v)) by (unfold hash_value; cbn [h_len leaf_cfg c_params Spec.tree_node Spec.digest_length]; rewrite max_out_fl; reflexivity).
  unfold as_bytes, as_array. rewrite HL, Nat2N.id, N.eqb_refl. split.
  - rewrite slice_0 by lia. rewrite firstn_all2 by lia. reflexivity.
  - destruct (e_dbg e); reflexivity.
Qed.

Theorem par_reference_ok input : exists h, par_reference v e imp input = Ret h /\
  blake2p_default v e imp input = Ret h /\ as_bytes h = Ret (pdigest (fl v) (pdefault_config (fl v)) input).
Proof.
  unfold par_reference. destruct leaves_made as (l0 & E0 & L0 & H0). rewrite E0. cbn [bind].
  pose proof (par_degree_pos v) as DP.
  destruct (H0 (par_degree v - 1)%nat ltac:(lia)) as (sl & El & Hl). rewrite (at_index_ok _ _ _ El). cbn [bind].
  set (l1 := set l0 (par_degree v - 1) (set_last_node true sl)).
  assert (D1 : dealt l1 []).
  { split; [unfold l1; rewrite set_length; exact L0|]. intros i Hi. rewrite L_nil.
    destruct (Nat.eq_dec i (par_degree v - 1)) as [->|NE].
    - exists (set_last_node true sl). split; [apply set_same; lia|].
      pose proof (holds_set_last_node _ _ _ _ _ true Hl) as HS. unfold leaf_cfg. rewrite leaves_fl, Nat.eqb_refl. exact HS.
    - unfold l1. rewrite set_other by congruence. destruct (H0 i Hi) as (s & Es & Hs). exists s. split; [exact Es|].
      unfold leaf_cfg. rewrite leaves_fl. destruct (Nat.eqb_spec i (par_degree v - 1)); [congruence|]. exact Hs. }
  destruct (deal_spec (length input) input 0%nat [] l1 ltac:(lia) eq_refl D1) as (l2 & E2 & D2). fold l1. unfold chunks.
  rewrite E2. cbn [bind]. cbn [app] in D2.
  destruct (new_state_holds (reference_root v)) as (r0 & Er & Hr).
  { unfold reference_root. repeat (apply Forall_cons; [|]); try apply Forall_nil; try (destruct v; reflexivity); exact I. }
  { unfold reference_root. repeat (apply Forall_cons; [|]); try apply Forall_nil; destruct v; reflexivity. }
  rewrite Er. cbn [bind]. rewrite reference_root_cfg in Hr.
  set (lb := fun i => h_bytes (hash_value v (leaf_cfg i) (L v i input))).
  destruct (feed_root_spec root_cfg l2 (map lb (seq 0 (par_degree v))) [] r0) as (r1 & E3 & H3).
  { destruct D2 as [L2 D2]. assert (G : forall n a l, length l = n ->
      (forall i, (i < n)%nat -> exists s, nth_error l i = Some s /\ (a + i < par_degree v)%nat /\ holds v e (leaf_cfg (a + i)) (L v (a + i) input) s) ->
      Forall2 (fun s b => exists h, finalize v e s = Ret h /\ as_bytes h = Ret b) l (map lb (seq a n))).
    { induction n as [|n IH]; intros a l Ll H; destruct l as [|s l]; cbn in Ll; try lia; [constructor|].
      cbn [seq map]. constructor.
      - destruct (H 0%nat ltac:(lia)) as (s' & Es & Ha & Hs). injection Es as <-. rewrite Nat.add_0_r in *.
        exists (hash_value v (leaf_cfg a) (L v a input)). split; [exact (holds_finalize _ _ _ _ _ Hs)|]. apply leaf_bytes. exact Ha.
      - apply IH; [lia|]. intros i Hi. destruct (H (S i) ltac:(lia)) as (s' & Es & Ha & Hs). exists s'.
        replace (S a + i)%nat with (a + S i)%nat by lia. split; [exact Es|]. split; [exact Ha|exact Hs]. }
    apply G; [exact L2|]. intros i Hi. destruct (D2 i Hi) as (s & Es & Hs). exists s. cbn [Nat.add]. auto. }
  { exact Hr. }
  rewrite E3. cbn [bind app] in *. exists (hash_value v root_cfg (concat (map lb (seq 0 (par_degree v))))).
  split; [exact (holds_finalize _ _ _ _ _ H3)|].
  assert (HB : blake2p_default v e imp input = Ret (hash_value v root_cfg (concat (map lb (seq 0 (par_degree v)))))).
  { assert (Mx : (1 <= Spec.max_out (fl v) <= Spec.max_out (fl v))%nat) by (destruct v; cbn; lia).
    destruct (tree_by_hand v e imp imp (Spec.max_out (fl v)) input (fun i => [L v i input]) Su Su Mx (or_introl eq_refl)) as (lv & h & A1 & A2 & A3).
    { intros i _. cbn [concat]. apply app_nil_r. }
    rewrite node_value in A2 by (auto using root_typed). rewrite root_config in A2 by exact Mx. injection A2 as A2.
    assert (EL : lv = map lb (seq 0 (par_degree v))).
    { rewrite leaves_fl in A1. rewrite (mapM_Ret _ lb) in A1; [injection A1 as <-; reflexivity|].
      intros i Hi. apply in_seq in Hi. rewrite node_value by (auto; apply leaf_typed; rewrite leaves_fl; lia). cbn [bind].
      rewrite leaf_config by (try exact Mx; rewrite leaves_fl; lia). cbn [concat]. rewrite app_nil_r.
      destruct (leaf_bytes i (L v i input)) as [_ X]; [lia|]. exact X. }
    rewrite EL in A2. unfold root_cfg. rewrite A2. unfold blake2p_default. rewrite <- A3.
    f_equal. rewrite pbuild_spec. change (pparams_new v imp) with (pbuild v imp []). rewrite pbuild_spec. f_equal.
    unfold pconfigure. cbn [fold_left]. destruct v; reflexivity. }
  split; [exact HB|].
  destruct (phash_is_digest v e imp [] input Su) as (h & E & B). unfold blake2p_default in HB. cbn [pbuild fold_left] in E.
  change (pbuild v imp []) with (pparams_new v imp) in E. rewrite HB in E. injection E as <-. exact B.
Qed.
End Reference.

(** The whole of blake2bp.rs:536-566. *)
Lemma pparams_new_wf v : wf_pconfig (fl v) (ApiSpec.pdefault_config (fl v)).
Proof. apply wfp_default. Qed.

Theorem against_reference_ok v e imp portable input : supported e imp -> N.of_nat (length input) < 2 ^ 63 ->
  against_reference v e imp portable input = Ret tt.
Proof.
  intros Su B. unfold against_reference. change (2 ^ 63) with 9223372036854775808 in B.
  set (imp' := if portable then Portable else imp).
  assert (Su' : supported e imp') by (unfold imp'; destruct portable; [exact I|exact Su]).
  assert (Ep : (if portable then run p_force_portable (pparams_new v imp) else Ret (pparams_new v imp)) =
               Ret (pparams_of v imp' (ApiSpec.pdefault_config (fl v)))).
  { rewrite pparams_new_of. unfold imp'. destruct portable; reflexivity. }
  rewrite Ep. cbn [bind].
  destruct (par_reference_ok v e imp Su input) as (h & E & EB & HB). rewrite E. cbn [bind].
  pose proof (pparams_new_wf v) as W.
  destruct (pholds_new v e imp' _ W Su') as (s0 & E0 & H0 & _). rewrite E0. cbn [bind].
  destruct (pholds_update _ _ _ _ _ input H0) as (s1 & E1 & H1 & _). rewrite E1. cbn [bind].
  rewrite (pholds_finalize _ _ _ _ _ H1). cbn [bind app].
  assert (SA : assert_same h (phash_value v (ApiSpec.pdefault_config (fl v)) input) = Ret tt).
  { eapply assert_same_ok; [exact HB|apply phash_value_bytes; exact W|reflexivity]. }
  rewrite SA. cbn [bind].
  rewrite slice_0 by lia. cbn [bind].
  set (m := Nat.min 1 (length input)).
  destruct (pholds_update _ _ _ _ _ (firstn m input) H0) as (s2 & E2 & H2 & _). rewrite E2. cbn [bind].
  cbn [app] in H2. assert (Lm : length (firstn m input) = m) by (rewrite firstn_length; unfold m; lia).
  rewrite (pholds_count_small _ _ _ _ _ H2) by (rewrite Lm; unfold m; change (2 ^ 63 + 2 ^ 62) with 13835058055282163712; lia).
  cbn [bind]. rewrite Lm, assert_count_ok. cbn [bind]. rewrite (pholds_finalize _ _ _ _ _ H2). cbn [bind].
  rewrite slice_from_ok by (unfold m; lia). cbn [bind].
  destruct (pholds_update _ _ _ _ _ (skipn m input) H2) as (s3 & E3 & H3 & _). rewrite E3. cbn [bind].
  rewrite firstn_skipn in H3.
  rewrite (pholds_count_small _ _ _ _ _ H3) by (change (2 ^ 63 + 2 ^ 62) with 13835058055282163712; lia).
  cbn [bind]. rewrite assert_count_ok. cbn [bind]. rewrite (pholds_finalize _ _ _ _ _ H3). cbn [bind]. rewrite SA. cbn [bind].
  rewrite EB. cbn [bind]. eapply assert_same_ok; [exact HB|exact HB|reflexivity].
Qed.

Theorem test_against_reference_ok v e imp buf : supported e imp -> N.of_nat (length buf) < 2 ^ 63 ->
  (21 * blockbytes v <= length buf)%nat -> test_against_reference v e imp buf = Ret tt.
Proof.
  intros Su B Ln. unfold test_against_reference. change (2 ^ 63) with 9223372036854775808 in B.
  pose proof (blockbytes_pos v) as BP.
  apply each_ok. intros n Hn. apply in_seq in Hn. apply each_ok. intros x Hx. apply each_ok. intros p _.
  assert (x <= blockbytes v - 1)%nat. { destruct Hx as [<-|[<-|[<-|[]]]]; destruct v; cbn; lia. }
  rewrite slice_0 by nia. cbn [bind]. apply against_reference_ok; [exact Su|].
  change (2 ^ 63) with 9223372036854775808. rewrite firstn_length. lia.
Qed.

(** *** The compression loops *)
Section Kernels.
Import ApiSpec.
Variables (v : variant) (e : env).

Lemma test_words i imp : (i < 8)%nat -> exists w, initial_test_words v imp i = Ret w /\ words_ok v w.
Proof.
  intros Hi. unfold initial_test_words.
  assert (OL : legal (fl v) (NodeOffset (N.of_nat i)) = true).
  { destruct v; [reflexivity|]. cbn [fl legal]. apply N.ltb_lt. change (2 ^ 48) with 281474976710656. lia. }
  rewrite chain_legal by (repeat constructor; exact OL). cbn [bind]. eexists. split; [reflexivity|].
  change (fold_left (fun p s => fst (call_setter v s p)) [NodeOffset (N.of_nat i)] (params_new v imp)) with (build v imp [NodeOffset (N.of_nat i)]).
  rewrite build_spec, to_words_spec; [apply initial_state_ok|]. apply build_wf. repeat constructor.
  cbn. change (2 ^ 64) with 18446744073709551616. lia.
Qed.

Lemma reference_loop_spec st ln fin input : input_ok v fin input -> forall fuel n ws c,
  (n = 0 \/ n * padded_blockbytes v st < length input)%nat ->
  (length input - n * padded_blockbytes v st < fuel)%nat -> words_ok v ws ->
  reference_loop v e fuel input st ln fin ws c (n * padded_blockbytes v st) =
  Ret (C1 v st fin ln (skipn (n * padded_blockbytes v st) input) ws c).
Proof.
  intros IO. pose proof (blockbytes_pos v) as BP.
  assert (PB : exists q, (padded_blockbytes v st = q * blockbytes v /\ 1 <= q)%nat).
  { destruct v, st; [exists 1%nat|exists 4%nat|exists 1%nat|exists 8%nat]; cbn; split; lia. }
  destruct PB as (q & EP & Hq). pose proof (padded_ge v st) as PG.
  induction fuel as [|fuel IH]; intros n ws c Hn Hf O; [lia|].
  set (P := padded_blockbytes v st) in *. set (off := (n * P)%nat) in *.
  cbn [reference_loop]. assert (Hc : Nat.eqb off 0 || Nat.ltb off (length input) = true).
  { destruct Hn as [->|Hn]; [reflexivity|]. apply orb_true_iff. right. apply Nat.ltb_lt. exact Hn. }
  rewrite Hc. cbv zeta. assert (Ho : (off <= length input)%nat) by (destruct Hn as [->|]; unfold off; lia).
  rewrite slice_from_ok by exact Ho. cbn [bind]. set (y := skipn off input).
  assert (Ly : length y = (length input - off)%nat) by apply skipn_length.
  rewrite <- Ly. rewrite slice_0 by lia. cbn [bind].
  assert (FB : firstn (Nat.min (blockbytes v) (length y)) y = firstn (blockbytes v) y).
  { destruct (Nat.le_gt_cases (length y) (blockbytes v)); [rewrite !firstn_all2 by lia; reflexivity|]. f_equal. lia. }
  rewrite FB. fold P.
  assert (LB : length (firstn (blockbytes v) y) = Nat.min (blockbytes v) (length y)) by apply firstn_length.
  set (mf := if Nat.ltb (off + P) (length input) then false else fin).
  assert (IB : input_ok v mf (firstn (blockbytes v) y)).
  { unfold mf. destruct (Nat.ltb_spec (off + P) (length input)).
    - right. assert (length (firstn (blockbytes v) y) = blockbytes v) as LE by (rewrite LB; lia).
      split; [intros X; rewrite X in LE; cbn [List.length] in LE; lia|]. rewrite LE. apply Nat.mod_same. lia.
    - destruct IO as [->|[NE MO]]; [left; reflexivity|]. right.
      assert (length y <> 0%nat). { destruct Hn as [Hn|Hn]; [|lia]. unfold off in Ly. rewrite Hn in Ly. cbn [Nat.mul] in Ly. destruct input; [congruence|cbn [List.length] in Ly; lia]. }
      assert (length y mod blockbytes v = 0)%nat as MY.
      { rewrite Ly. unfold off. rewrite EP. apply Nat.mod_divides in MO; [|lia]. destruct MO as (k & Ek). rewrite Ek.
        replace (blockbytes v * k - n * (q * blockbytes v))%nat with ((k - n * q) * blockbytes v)%nat by nia.
        apply Nat.mod_mul. lia. }
      assert (length (firstn (blockbytes v) y) = blockbytes v) as LE.
      { rewrite LB. apply Nat.mod_divides in MY; [|lia]. destruct MY as (k & Ek). destruct k; [lia|].
        rewrite Nat.min_l; [reflexivity|]. rewrite Ek. nia. }
      split; [intros X; rewrite X in LE; cbn [List.length] in LE; lia|]. rewrite LE. apply Nat.mod_same. lia. }
  unfold portable_compress1_loop. rewrite (compress1_loop_gen_spec _ _ _ _ _ _ _ _ _ _ (portable_kernel_ok v) array_ref_reader_ok O IB).
  cbn [bind]. assert (PS : padded_blockbytes v Serial = blockbytes v) by (destruct v; reflexivity). rewrite C1_last by lia.
  assert (FF : front v (firstn (blockbytes v) y) = front v y).
  { unfold front. rewrite firstn_firstn, Nat.min_id. reflexivity. }
  unfold fin_step, fin_count. rewrite FF, LB, Nat.min_assoc, Nat.min_id.
  unfold mf. destruct (Nat.ltb_spec (off + P) (length input)) as [Lt|Ge].
  - replace (off + P)%nat with (S n * P)%nat by (unfold off; lia). rewrite IH.
    + rewrite (C1_more v st fin ln y) by (fold P; lia). fold P. unfold y. rewrite skipn_skipn_add.
      replace (off + P)%nat with (S n * P)%nat by (unfold off; lia). f_equal. f_equal.
      unfold mid_step. fold y. rewrite Nat.min_l by lia. reflexivity.
    + right. unfold off in Lt. lia.
    + unfold off in *. nia.
    + apply F_ok. exact O.
  - assert (X : reference_loop v e fuel input st ln fin
        (Spec.F (fl v) ws (front v y) (count_wrapping_add v c (N.of_nat (Nat.min (blockbytes v) (length y)))) fin (fin && ln))
        (count_wrapping_add v c (N.of_nat (blockbytes v))) (off + P) =
        Ret (Spec.F (fl v) ws (front v y) (count_wrapping_add v c (N.of_nat (Nat.min (blockbytes v) (length y)))) fin (fin && ln))).
    { assert (Hd : Nat.eqb (off + P) 0 || Nat.ltb (off + P) (length input) = false).
      { apply orb_false_iff. split; [apply Nat.eqb_neq; nia|apply Nat.ltb_ge; lia]. }
      destruct fuel; cbn [reference_loop]; rewrite Hd; reflexivity. }
    rewrite X. rewrite C1_last by (fold P; lia). reflexivity.
Qed.

Lemma reference_compression_spec imp input st ln fin c i : input_ok v fin input -> (i < 8)%nat ->
  exists w, initial_test_words v imp i = Ret w /\ words_ok v w /\
    reference_compression v e imp input st ln fin c i = Ret (C1 v st fin ln input w c).
Proof.
  intros IO Hi. destruct (test_words i imp Hi) as (w & E & O). exists w. split; [exact E|]. split; [exact O|].
  unfold reference_compression. rewrite E. cbn [bind].
  pose proof (reference_loop_spec st ln fin input IO (S (length input)) 0%nat w c) as R. cbn [Nat.mul skipn] in R. apply R; auto. lia.
Qed.

(** A length that the kernels accept. *)
Definition len_ok (fin : bool) (len : nat) : Prop := fin = true \/ (len <> 0%nat /\ (len mod blockbytes v = 0)%nat).
Lemma len_input fin len (x : list byte) : len_ok fin len -> (len <= length x)%nat -> input_ok v fin (firstn len x).
Proof.
  intros [->|[H1 H2]] L; [left; reflexivity|right]. assert (E : length (firstn len x) = len) by (rewrite firstn_length; lia).
  split; [intros X; rewrite X in E; cbn in E; lia|]. rewrite E. exact H2.
Qed.

Theorem exercise1_ok imp impl input st len ln fin c : supported e impl -> (len <= length input)%nat -> len_ok fin len ->
  exercise1 v e imp impl input st len ln fin c = Ret tt.
Proof.
  intros Su L K. unfold exercise1. rewrite slice_0 by exact L. cbn [bind].
  destruct (reference_compression_spec imp (firstn len input) st ln fin c 0%nat (len_input _ _ _ K L) ltac:(lia)) as (w & E & O & R).
  rewrite R. cbn [bind]. rewrite E. cbn [bind]. rewrite compress1_loop_spec by (auto using len_input). cbn [bind].
  apply assert_words_ok.
Qed.
End Kernels.

(** Jobs of the same length all finish in one call. *)
Lemma mapM_nth {A B} (f : A -> outcome B) : forall l r, mapM f l = Ret r ->
  length r = length l /\ forall i d d', (i < length l)%nat -> f (nth i l d) = Ret (nth i r d').
Proof.
  induction l as [|x l IH]; intros r E; cbn [mapM] in E.
  - injection E as <-. split; [reflexivity|]. intros i d d' H. cbn in H. lia.
  - apply bindR in E. destruct E as (b & Eb & E). apply bindR in E. destruct E as (r' & Er & E). injection E as <-.
    destruct (IH _ Er) as [L H]. split; [cbn; lia|]. intros [|i] d d' Hi; cbn in *; [exact Eb|]. apply H. lia.
Qed.

Lemma compressn_equal S dbg jobs fin st n :
  simd_ok S -> length jobs = s_degree S -> (forall j, In j jobs -> job_ok (s_var S) fin j) ->
  (forall j, In j jobs -> length (j_input j) = n) ->
  exists jobs', compressn_loop S dbg jobs fin st = Ret jobs' /\ length jobs' = s_degree S /\
    forall l, (l < s_degree S)%nat -> j_words (nth l jobs' job0) = job_result (s_var S) st fin (nth l jobs job0).
Proof.
  intros OK L J Eq. destruct (compressn_loop_spec S dbg jobs fin st OK L J) as (jobs' & E & L' & A & (k & Hk & Ek)).
  exists jobs'. split; [exact E|]. split; [exact L'|].
  assert (C : exists a, forall l, (l < s_degree S)%nat ->
    j_input (nth l jobs' job0) = skipn (Nat.min a (length (j_input (nth l jobs job0)))) (j_input (nth l jobs job0))).
  { unfold compressn_loop in E. apply bindR in E. destruct E as (u & _ & E).
    destruct (load_counts S jobs) as [lo hi]. apply bindR in E. destruct E as (ml & _ & E).
    apply bindR in E. destruct E as (f & _ & E).
    destruct (if fin then _ else _) as [flb fln]. apply bindR in E. destruct E as ([[[hv cl] ch] off] & _ & E).
    exists (off + padded_blockbytes (s_var S) st)%nat. intros l Hl. apply mapM_nth in E. destruct E as [_ E].
    specialize (E l (0%nat, job0) job0). rewrite (combine_seq_nth jobs job0), map_length, seq_length in E.
    specialize (E ltac:(lia)).
    rewrite (nth_indep _ (0%nat, job0) (0%nat, nth 0 jobs job0)) in E by (rewrite map_length, seq_length; lia).
    rewrite (map_nth (fun i => (i, nth i jobs job0)) (seq 0 (length jobs)) 0%nat l), seq_nth in E by lia. cbn [Nat.add] in E.
    apply bindR in E. destruct E as (rest & Er & E). injection E as E. rewrite <- E. cbn [j_input].
    rewrite slice_from_ok in Er by lia. injection Er as <-. reflexivity. }
  destruct C as (a & C).
  assert (In' : forall l, (l < s_degree S)%nat -> In (nth l jobs job0) jobs) by (intros l Hl; apply nth_In; lia).
  assert (NE : (n <= a)%nat).
  { rewrite (C k Hk) in Ek. rewrite (Eq _ (In' k Hk)) in Ek. apply (f_equal (@length byte)) in Ek.
    rewrite skipn_length, (Eq _ (In' k Hk)) in Ek. cbn in Ek. lia. }
  intros l Hl. destruct (A l Hl) as (_ & _ & _ & _ & [[_ X]|[X _]]); [exact X|].
  exfalso. apply X. rewrite (C l Hl), (Eq _ (In' l Hl)). apply skipn_all2. rewrite (Eq _ (In' l Hl)). lia.
Qed.

Section Lanes.
Import ApiSpec.
Variables (v : variant) (e : env).

(** What a loop over [n] equal jobs does. *)
Definition even_loop (loop : list job -> bool -> stride -> outcome (list job)) (n : nat) : Prop :=
  forall jobs fin st len, length jobs = n -> (forall j, In j jobs -> job_ok v fin j) ->
    (forall j, In j jobs -> length (j_input j) = len) ->
    exists jobs', loop jobs fin st = Ret jobs' /\ length jobs' = n /\
      forall l, (l < n)%nat -> j_words (nth l jobs' job0) = job_result v st fin (nth l jobs job0).

Lemma narrow_even impl : supported e impl -> impl <> Portable -> even_loop (compress_narrow_loop v e impl) (narrow v).
Proof.
  intros Su NP jobs fin st len L J Eq. assert (S2 : e_sse41 e = true) by (destruct impl; [congruence|exact Su|apply Su]).
  unfold compress_narrow_loop, target_feature. rewrite S2.
  assert (X : forall S, simd_ok S -> s_degree S = narrow v -> s_var S = v -> exists jobs',
     compressn_loop S (e_dbg e) jobs fin st = Ret jobs' /\ length jobs' = narrow v /\
     forall l, (l < narrow v)%nat -> j_words (nth l jobs' job0) = job_result v st fin (nth l jobs job0)).
  { intros S OK Hd Hv. pose proof (compressn_equal S (e_dbg e) jobs fin st len OK) as X. rewrite Hd, Hv in X. apply X; auto. }
  destruct impl; [congruence| |]; destruct v; apply X; auto using sse41b_ok, sse41s_ok.
Qed.
Lemma wide_even impl : supported e impl -> impl = AVX2 -> even_loop (compress_wide_loop v e impl) (wide v).
Proof.
  intros Su -> jobs fin st len L J Eq. destruct Su as [S1 S2]. unfold compress_wide_loop, target_feature. rewrite S1.
  destruct v; [apply (compressn_equal avx2b _ _ _ _ len)|apply (compressn_equal avx2s _ _ _ _ len)]; auto using avx2b_ok, avx2s_ok.
Qed.

Lemma mapM_ex {A B} (f : A -> outcome B) (R : A -> B -> Prop) l : (forall x, In x l -> exists y, f x = Ret y /\ R x y) ->
  exists r, mapM f l = Ret r /\ Forall2 R l r.
Proof.
  induction l as [|x l IH]; intros H; [exists []; split; [reflexivity|constructor]|].
  destruct (H x (or_introl eq_refl)) as (y & E & Ry). destruct IH as (r & Er & Fr); [intros z Hz; apply H; right; exact Hz|].
  exists (y :: r). cbn [mapM]. rewrite E. cbn [bind]. rewrite Er. split; [reflexivity|]. constructor; assumption.
Qed.

Lemma aligned_lane c i : aligned v c -> aligned v (count_wrapping_add v c (N.of_nat (i * blockbytes v))).
Proof.
  intros Hc. induction i as [|i IH].
  - cbn [Nat.mul N.of_nat]. unfold count_wrapping_add. rewrite N.add_0_r. destruct Hc as [H1 H2]. rewrite N.mod_small by exact H1. split; assumption.
  - apply aligned_add in IH. unfold count_wrapping_add in *. rewrite N.add_mod_idemp_l in IH by apply cmod_nz.
    replace (c + N.of_nat (S i * blockbytes v)) with (c + N.of_nat (i * blockbytes v) + N.of_nat (blockbytes v)) by lia. exact IH.
Qed.

Theorem exercise_many_ok imp loop n inputs st len ln fin c : even_loop loop n -> (n <= 8)%nat ->
  (forall i, (i < n)%nat -> exists x, nth_error inputs i = Some x /\ (len <= length x)%nat) ->
  len_ok v fin len -> aligned v c -> exercise_many v e imp loop n inputs st len ln fin c = Ret tt.
Proof.
  intros EL Hn Hx K Al. unfold exercise_many.
  set (tw := fun i => match initial_test_words v imp i with Ret w => w | _ => [] end).
  set (xs := fun i => match nth_error inputs i with Some x => firstn len x | None => [] end).
  set (cs := fun i => count_wrapping_add v c (N.of_nat (i * blockbytes v))).
  assert (TW : forall i, (i < n)%nat -> initial_test_words v imp i = Ret (tw i) /\ words_ok v (tw i)).
  { intros i Hi. destruct (test_words v i imp ltac:(lia)) as (w & E & O). unfold tw. rewrite E. auto. }
  assert (XS : forall i, (i < n)%nat -> (do x <- at_index inputs i; slice x 0 len) = Ret (xs i) /\ length (xs i) = len /\ input_ok v fin (xs i)).
  { intros i Hi. destruct (Hx i Hi) as (x & Ex & Lx). unfold xs. rewrite Ex. rewrite (at_index_ok _ _ _ Ex). cbn [bind].
    rewrite slice_0 by exact Lx. split; [reflexivity|]. split; [rewrite firstn_length; lia|]. apply len_input; assumption. }
  rewrite (mapM_Ret _ (fun i => C1 v st fin ln (xs i) (tw i) (cs i))).
  2:{ intros i Hi. apply in_seq in Hi. destruct (XS i ltac:(lia)) as (E & _ & IO). apply bindR in E. destruct E as (x & E1 & E2).
      rewrite E1. cbn [bind]. rewrite E2. cbn [bind].
      destruct (reference_compression_spec v e imp (xs i) st ln fin (cs i) i IO ltac:(lia)) as (w & Ew & O & R).
      destruct (TW i ltac:(lia)) as [Et _]. rewrite Et in Ew. injection Ew as <-. exact R. }
  cbn [bind]. rewrite (mapM_Ret _ tw). 2:{ intros i Hi. apply in_seq in Hi. apply TW. lia. }
  cbn [bind].
  set (job_at := fun i => {| j_input := xs i; j_words := tw i; j_count := cs i; j_last_node := ln |}).
  assert (CM : combine (seq 0 n) (map tw (seq 0 n)) = map (fun i => (i, tw i)) (seq 0 n)).
  { generalize (seq 0 n). induction l as [|y l IH]; cbn; congruence. }
  rewrite CM. rewrite (mapM_Ret _ (fun p => job_at (fst p))).
  2:{ intros p Hp. apply in_map_iff in Hp. destruct Hp as (i & <- & Hi). apply in_seq in Hi.
      destruct (XS i ltac:(lia)) as (E & _ & IO). apply bindR in E. destruct E as (x & E1 & E2).
      rewrite E1. cbn [bind]. rewrite E2. reflexivity. }
  cbn [bind]. assert (MM : map (fun p : nat * list N => job_at (fst p)) (map (fun i => (i, tw i)) (seq 0 n)) = map job_at (seq 0 n)) by (rewrite map_map; reflexivity).
  rewrite MM.
  assert (Nth : forall i, (i < n)%nat -> nth i (map job_at (seq 0 n)) job0 = job_at i).
  { intros i Hi. rewrite (nth_indep _ job0 (job_at 0%nat)) by (rewrite map_length, seq_length; lia).
    rewrite map_nth, seq_nth by lia. reflexivity. }
  destruct (EL (map job_at (seq 0 n)) fin st len) as (jobs' & E & L' & W).
  { rewrite map_length, seq_length. reflexivity. }
  { intros j Hj. apply in_map_iff in Hj. destruct Hj as (i & <- & Hi). apply in_seq in Hi.
    split; [apply TW; lia|]. split; [apply aligned_lane; exact Al|]. apply XS. lia. }
  { intros j Hj. apply in_map_iff in Hj. destruct Hj as (i & <- & Hi). apply in_seq in Hi. apply XS. lia. }
  rewrite E. cbn [bind]. apply each_ok. intros i Hi. apply in_seq in Hi.
  rewrite (at_index_ok _ _ (C1 v st fin ln (xs i) (tw i) (cs i))).
  2:{ rewrite nth_error_map. rewrite (nth_error_nth' _ 0%nat) by (rewrite seq_length; lia). rewrite seq_nth by lia. reflexivity. }
  cbn [bind]. rewrite (at_index_ok _ _ (j_words (nth i jobs' job0))).
  2:{ rewrite nth_error_map. rewrite (nth_error_nth' _ job0) by lia. reflexivity. }
  cbn [bind]. rewrite W by lia. rewrite Nth by lia. apply assert_words_ok.
Qed.

(** *** All the cases that the tests go through *)
Lemma exercise_cases_ok f :
  (forall st len ln fin c, (len <= 2 * padded_blockbytes v st + 1)%nat -> len_ok v fin len -> aligned v c -> f st len ln fin c = Ret tt) ->
  exercise_cases v f = Ret tt.
Proof.
  intros H. unfold exercise_cases. apply each_ok. intros st _. apply each_ok. intros len Hl. apply each_ok. intros ln _.
  apply each_ok. intros fin _.
  destruct (negb fin && (Nat.eqb len 0 || negb (Nat.eqb (len mod blockbytes v) 0))) eqn:C; [reflexivity|].
  apply each_ok. intros c Hc. apply H.
  - pose proof (padded_ge v st) as PG. pose proof (blockbytes_pos v) as BP. cbv zeta in Hl.
    cbn [In] in Hl. decompose [or] Hl; subst; try lia; contradiction.
  - destruct fin; [left; reflexivity|right]. cbn [negb andb] in C. apply orb_false_iff in C. destruct C as [C1 C2].
    apply Nat.eqb_neq in C1. apply negb_false_iff, Nat.eqb_eq in C2. auto.
  - destruct Hc as [<-|[<-|[<-|[]]]]; destruct v; split; vm_compute; reflexivity.
Qed.

Theorem test_compress1_ok imp impl input : supported e impl ->
  (2 * padded_blockbytes v Parallel + 1 <= length input)%nat -> test_compress1 v e imp impl input = Ret tt.
Proof.
  intros Su L. apply exercise_cases_ok. intros st len ln fin c Hl K Al. apply exercise1_ok; auto.
  assert (padded_blockbytes v st <= padded_blockbytes v Parallel)%nat by (destruct v, st; cbn; lia). lia.
Qed.

Lemma overlapping_ok n input : (n <= length input)%nat -> exists l, overlapping n input = Ret l /\
  forall i, (i < n)%nat -> nth_error l i = Some (skipn i input).
Proof.
  intros L. exists (map (fun i => skipn i input) (seq 0 n)). split.
  - apply mapM_Ret. intros i Hi. apply in_seq in Hi. apply slice_from_ok. lia.
  - intros i Hi. rewrite nth_error_map. rewrite (nth_error_nth' _ 0%nat) by (rewrite seq_length; lia). rewrite seq_nth by lia. reflexivity.
Qed.
Lemma exercise_lanes_ok imp loop n input : even_loop loop n -> (n <= 8)%nat ->
  (2 * padded_blockbytes v Parallel + n <= length input)%nat ->
  (do inputs <- overlapping n input; exercise_cases v (exercise_many v e imp loop n inputs)) = Ret tt.
Proof.
  intros EL Hn L. destruct (overlapping_ok n input ltac:(lia)) as (l & E & H). rewrite E. cbn [bind].
  apply exercise_cases_ok. intros st len ln fin c Hl K Al. apply exercise_many_ok; auto.
  intros i Hi. exists (skipn i input). split; [apply H; exact Hi|]. rewrite skipn_length.
  assert (padded_blockbytes v st <= padded_blockbytes v Parallel)%nat by (destruct v, st; cbn; lia). lia.
Qed.
Theorem test_narrow_ok imp impl input : supported e impl -> impl <> Portable ->
  (2 * padded_blockbytes v Parallel + narrow v <= length input)%nat -> test_narrow v e imp impl input = Ret tt.
Proof.
  intros Su NP L. unfold test_narrow, exercise_narrow. apply exercise_lanes_ok; auto using narrow_even. destruct v; cbn; lia.
Qed.
Theorem test_wide_ok imp impl input : supported e impl -> impl = AVX2 ->
  (2 * padded_blockbytes v Parallel + wide v <= length input)%nat -> test_wide v e imp impl input = Ret tt.
Proof.
  intros Su NP L. unfold test_wide, exercise_wide. apply exercise_lanes_ok; auto using wide_even. destruct v; cbn; lia.
Qed.
End Lanes.

(** *** Batches *)
Definition asked_params (v : variant) (r : request) : Lib.params := let '(imp, ss, _) := r in build v imp ss.
Definition asked_input (r : request) : list byte := let '(_, _, m) := r in m.

Lemma mapM_map {A B C} (g : A -> B) (f : B -> outcome C) l : mapM f (map g l) = mapM (fun x => f (g x)) l.
Proof. induction l as [|x l IH]; [reflexivity|]. cbn [map mapM]. rewrite IH. reflexivity. Qed.
Lemma mapM_ext {A B} (f g : A -> outcome B) l : (forall x, In x l -> f x = g x) -> mapM f l = mapM g l.
Proof.
  induction l as [|x l IH]; intros H; [reflexivity|]. cbn [mapM]. rewrite (H x) by (left; reflexivity).
  rewrite IH; [reflexivity|]. intros y Hy. apply H. right. exact Hy.
Qed.

Theorem fuzz_hash_many_ok v e reqs : Forall (askable e) reqs ->
  fuzz_hash_many v e (map (asked_params v) reqs) (map asked_input reqs) = Ret tt.
Proof.
  intros A. unfold fuzz_hash_many. rewrite !combine_map_same, !mapM_map.
  destruct (hash_many_all v e reqs (seq 0 (length reqs)) A (Permutation.Permutation_refl _)) as (jobs & jobs' & EJ & EH & ET).
  rewrite (mapM_ext _ (hash_alone v e)) by (intros [[? ?] ?] _; reflexivity).
  assert (X : exists hs, mapM (hash_alone v e) reqs = Ret hs /\ Forall2 (fun _ h => exists b, as_bytes h = Ret b) reqs hs).
  { apply mapM_ex. intros [[imp ss] m] Hr. rewrite Forall_forall in A. destruct (A _ Hr) as [Su T].
    destruct (hash_is_digest v e imp ss m Su T) as (h & E & B). exists h. split; [exact E|]. eexists. exact B. }
  destruct X as (hs & EA & FA). rewrite EA. cbn [bind].
  rewrite (mapM_ext _ (make_job v e)) by (intros [[? ?] ?] _; reflexivity). rewrite EJ. cbn [bind].
  destruct (mapM_nth _ _ _ EJ) as [LJ _]. rewrite LJ. unfold items in EH. rewrite EH. cbn [bind].
  rewrite EA in ET. destruct (mapM_nth _ _ _ ET) as [LH HT]. pose proof (proj1 (mapM_nth _ _ _ EA)) as LA.
  replace (length jobs') with (length reqs) by lia.
  apply each_ok. intros i Hi. apply in_seq in Hi.
  destruct (nth_error hs i) as [h|] eqn:Eh; [|apply nth_error_None in Eh; lia].
  destruct (nth_error jobs' i) as [j|] eqn:Ej; [|apply nth_error_None in Ej; lia].
  rewrite (at_index_ok _ _ _ Eh), (at_index_ok _ _ _ Ej). cbn [bind].
  specialize (HT i j h ltac:(lia)). rewrite (nth_error_nth _ _ _ Ej), (nth_error_nth _ _ _ Eh) in HT. rewrite HT. cbn [bind].
  assert (exists b, as_bytes h = Ret b) as (b & Eb).
  { assert (G : forall (l : list request) r, Forall2 (fun _ h => exists b, as_bytes h = Ret b) l r -> forall h, In h r -> exists b, as_bytes h = Ret b).
    { induction 1; intros h' Hh; [destruct Hh|]. destruct Hh as [<-|Hh]; auto. }
    eapply G; [exact FA|]. eapply nth_error_In. exact Eh. }
  eapply assert_same_ok; eauto.
Qed.

Theorem fuzz_update_many_ok v e reqs : Forall (askable e) reqs ->
  Forall (fun r => 2 * N.of_nat (length (asked_input r)) < 2 ^ 63) reqs ->
  fuzz_update_many v e (map (asked_params v) reqs) (map asked_input reqs) = Ret tt.
Proof.
  intros A B. unfold fuzz_update_many. rewrite !combine_map_same, !mapM_map.
  pose (cfg := fun r => request_config v r). pose (msg := asked_input).
  assert (H0 : forall i r, nth_error reqs i = Some r -> holds v e (cfg r) [] (to_state v (asked_params v r))).
  { intros i [[imp ss] m] Hr. apply nth_error_In in Hr. rewrite Forall_forall in A. destruct (A _ Hr) as [Su T].
    apply new_holds; assumption. }
  rewrite (mapM_Ret _ (fun r => hash_value v (cfg r) (msg r ++ msg r))).
  2:{ intros r Hr. apply In_nth_error in Hr. destruct Hr as (i & Hr). pose proof (H0 _ _ Hr) as H.
      fold msg. change (asked_input r) with (msg r).
      destruct (holds_update _ _ _ _ _ (msg r) H) as (s1 & E1 & H1 & _). rewrite E1. cbn [bind].
      destruct (holds_update _ _ _ _ _ (msg r) H1) as (s2 & E2 & H2 & _). rewrite E2. cbn [bind].
      exact (holds_finalize _ _ _ _ _ H2). }
  cbn [bind]. cbv zeta. rewrite (map_map (asked_params v) (to_state v)).
  set (n := length reqs).
  assert (Step : forall (pre : request -> list byte) states, length states = n ->
    (forall i r, nth_error reqs i = Some r -> exists s, nth_error states i = Some s /\ holds v e (cfg r) (pre r) s) ->
    exists states' k, update_many v e states (zipped states (map asked_input reqs)) = Ret (states', k) /\ length states' = n /\
      forall i r, nth_error reqs i = Some r -> exists s, nth_error states' i = Some s /\ holds v e (cfg r) (pre r ++ msg r) s).
  { intros pre states L H. unfold zipped. rewrite L.
    set (pairs := combine (seq 0 n) (map asked_input reqs)).
    assert (LP : length (seq 0 n) = length (map asked_input reqs)) by (rewrite seq_length, map_length; reflexivity).
    assert (NP : forall i r, nth_error reqs i = Some r -> In (i, msg r) pairs).
    { intros i r Hr. assert (Hi : (i < n)%nat) by (apply nth_error_Some; congruence).
      replace (i, msg r) with (nth i pairs (0%nat, [])).
      - apply nth_In. unfold pairs. rewrite combine_length, LP, Nat.min_id, map_length. exact Hi.
      - unfold pairs. rewrite combine_nth by exact LP. rewrite seq_nth by exact Hi. f_equal.
        apply nth_error_nth. rewrite nth_error_map, Hr. reflexivity. }
    assert (PN : forall i x, In (i, x) pairs -> exists r, nth_error reqs i = Some r).
    { intros i x Hi. apply in_combine_l, in_seq in Hi. destruct (nth_error reqs i) eqn:E; [eauto|]. apply nth_error_None in E. unfold n in Hi. lia. }
    destruct (update_many_spec v e states (map Some pairs)) as (st' & E & L' & _ & I).
    - rewrite upto_none_somes. unfold pairs. assert (G : forall (a : list nat) (b : list (list byte)), length a = length b -> map fst (combine a b) = a).
      { induction a as [|x a IH]; intros [|y b] Hl; cbn in *; try discriminate; auto. f_equal. apply IH. lia. }
      rewrite G by exact LP. apply seq_NoDup.
    - rewrite upto_none_somes. intros i x Hi. destruct (PN _ _ Hi) as (r & Hr). destruct (H _ _ Hr) as (s & Es & Hs). eauto 6.
    - rewrite upto_none_somes in I. eexists _, _. split; [exact E|]. split; [lia|]. intros i r Hr.
      destruct (H _ _ Hr) as (s & Es & Hs). destruct (I i (msg r) s _ _ (NP _ _ Hr) Es Hs) as (s' & Es' & Hs' & _). eauto. }
  destruct (Step (fun _ => []) (map (fun r => to_state v (asked_params v r)) reqs)) as (st1 & k1 & E1 & L1 & S1).
  { apply map_length. }
  { intros i r Hr. eexists. split; [rewrite nth_error_map, Hr; reflexivity|]. apply (H0 i). exact Hr. }
  rewrite E1. cbn [bind]. destruct (Step msg st1 L1 S1) as (st2 & k2 & E2 & L2 & S2). rewrite E2. cbn [bind]. rewrite L2.
  apply each_ok. intros i Hi. apply in_seq in Hi.
  destruct (nth_error reqs i) as [r|] eqn:Er; [|apply nth_error_None in Er; unfold n in Hi; lia].
  destruct (S2 _ _ Er) as (s & Es & Hs).
  rewrite (at_index_ok _ _ (msg r)) by (rewrite nth_error_map, Er; reflexivity). rewrite (at_index_ok _ _ _ Es). cbn [bind].
  rewrite Forall_forall in B. specialize (B r (nth_error_In _ _ Er)). fold msg in B. change (2 ^ 63) with 9223372036854775808 in B.
  rewrite (holds_count_small _ _ _ _ _ Hs) by (rewrite app_length; change (2 ^ 63 + 2 ^ 62) with 13835058055282163712; lia).
  cbn [bind]. rewrite app_length. replace (N.of_nat (length (msg r) + length (msg r))) with (2 * N.of_nat (length (msg r))) by lia.
  rewrite assert_count_ok. cbn [bind].
  rewrite (at_index_ok _ _ (hash_value v (cfg r) (msg r ++ msg r))) by (rewrite nth_error_map, Er; reflexivity). cbn [bind].
  rewrite (holds_finalize _ _ _ _ _ Hs). cbn [bind].
  assert (W : wf_config (fl v) (cfg r)).
  { rewrite Forall_forall in A. specialize (A r (nth_error_In _ _ Er)). destruct r as [[imp ss] m]. apply build_wf. apply A. }
  eapply assert_same_ok; [apply hash_value_bytes; exact W|apply hash_value_bytes; exact W|reflexivity].
Qed.

(** *** Published answers *)
Section Answers.
Import ApiSpec.
Variables (v : variant) (e : env) (imp : platform).
Hypothesis Su : supported e imp.

Definition verdict (out : string) (digest : list byte) : outcome unit :=
  if String.eqb (Machine.hex digest) out then Ret tt else Panic.

Lemma assert_hex_is h b out : as_bytes h = Ret b -> (length b <= outbytes v)%nat -> assert_hex v h out = verdict out b.
Proof. intros A L. unfold assert_hex. rewrite (to_hex_spec v h b A L). cbn [bind]. reflexivity. Qed.
Lemma verdict_seq out b (k : outcome unit) : (String.eqb (Machine.hex b) out = true -> k = verdict out b) ->
  (do _ <- verdict out b; k) = verdict out b.
Proof. unfold verdict. destruct (String.eqb (Machine.hex b) out); cbn; auto. Qed.

Lemma holds_hex c msg s out : holds v e c msg s ->
  (do h <- finalize v e s; assert_hex v h out) = verdict out (digest (fl v) c msg).
Proof.
  intros H. rewrite (holds_finalize _ _ _ _ _ H). cbn [bind]. assert (W : wf_config (fl v) c) by apply H.
  apply assert_hex_is; [apply hash_value_bytes; exact W|].
  unfold digest, Spec.blake2. rewrite firstn_length. rewrite spec_bytes_length by apply initial_state_ok. lia.
Qed.

Lemma byte_by_byte_ok c input : forall msg s n, holds v e c msg s -> n = N.of_nat (length msg) ->
  N.of_nat (length msg + length input) < 2 ^ 63 ->
  exists s', byte_by_byte v e s n input = Ret s' /\ holds v e c (msg ++ input) s'.
Proof.
  induction input as [|b r IH]; intros msg s n H -> B; cbn [byte_by_byte].
  - rewrite app_nil_r. eauto.
  - destruct (holds_update _ _ _ _ _ [b] H) as (s' & E & H' & _). rewrite E. cbn [bind].
    change (2 ^ 63) with 9223372036854775808 in *. cbn [List.length] in B.
    rewrite (holds_count_small _ _ _ _ _ H') by (rewrite app_length; cbn [List.length]; change (2 ^ 63 + 2 ^ 62) with 13835058055282163712; lia).
    cbn [bind]. replace (N.of_nat (length (msg ++ [b]))) with (N.of_nat (length msg) + 1) by (rewrite app_length; cbn [List.length]; lia).
    rewrite assert_count_ok. cbn [bind]. replace (msg ++ b :: r) with ((msg ++ [b]) ++ r) by (rewrite <- app_assoc; reflexivity).
    apply IH; [exact H'|rewrite app_length; cbn [List.length]; lia|]. rewrite app_length. cbn [List.length]. change (2 ^ 63) with 9223372036854775808. lia.
Qed.

Lemma fresh_holds : holds v e (default_config (fl v)) [] (to_state v (params_new v imp)).
Proof. exact (new_holds v e imp [] Su (Forall_nil _)). Qed.

Theorem update_state_is input out : N.of_nat (length input) < 2 ^ 63 ->
  update_state v e imp input out = verdict out (digest (fl v) (default_config (fl v)) input).
Proof.
  intros B. change (2 ^ 63) with 9223372036854775808 in B. unfold update_state.
  assert (W : wf_config (fl v) (default_config (fl v))) by apply wf_default.
  assert (E0 : blake2_default v e imp input = Ret (hash_value v (default_config (fl v)) input)).
  { unfold blake2_default. rewrite params_new_of. apply params_hash_spec; [exact W|exact Su]. }
  rewrite E0. cbn [bind].
  rewrite (assert_hex_is _ (digest (fl v) (default_config (fl v)) input)).
  2:{ apply hash_value_bytes. exact W. }
  2:{ unfold digest, Spec.blake2. rewrite firstn_length, spec_bytes_length by apply initial_state_ok. lia. }
  apply verdict_seq. intros V. pose proof fresh_holds as H0.
  assert (Hs : (length input / 2 <= length input)%nat) by (apply Nat.div_le_upper_bound; lia).
  rewrite slice_0 by exact Hs. cbn [bind]. set (k := (length input / 2)%nat) in *.
  destruct (holds_update _ _ _ _ _ (firstn k input) H0) as (s1 & E1 & H1 & _). rewrite E1. cbn [bind]. cbn [app] in H1.
  assert (Lk : length (firstn k input) = k) by (rewrite firstn_length; lia).
  rewrite (holds_count_small _ _ _ _ _ H1) by (rewrite Lk; change (2 ^ 63 + 2 ^ 62) with 13835058055282163712; lia).
  cbn [bind]. rewrite Lk, assert_count_ok. cbn [bind]. rewrite slice_from_ok by exact Hs. cbn [bind].
  destruct (holds_update _ _ _ _ _ (skipn k input) H1) as (s2 & E2 & H2 & _). rewrite E2. cbn [bind]. rewrite firstn_skipn in H2.
  rewrite (holds_count_small _ _ _ _ _ H2) by (change (2 ^ 63 + 2 ^ 62) with 13835058055282163712; lia).
  cbn [bind]. rewrite assert_count_ok. cbn [bind].
  assert (R : forall k : outcome unit, (do h <- finalize v e s2; do _ <- assert_hex v h out; k) =
     (do _ <- (do h <- finalize v e s2; assert_hex v h out); k)).
  { intros k0. destruct (finalize v e s2); reflexivity. }
  rewrite R, (holds_hex _ _ _ out H2). apply verdict_seq. intros _.
  destruct (byte_by_byte_ok _ input [] _ 0 H0 eq_refl) as (s3 & E3 & H3). { cbn [List.length Nat.add]. change (2 ^ 63) with 9223372036854775808. lia. }
  rewrite E3. cbn [bind]. cbn [app] in H3. exact (holds_hex _ _ _ out H3).
Qed.

Theorem write_state_is input out : write_state v e imp input out = verdict out (digest (fl v) (default_config (fl v)) input).
Proof.
  unfold write_state.
  assert (W : exists s, write_all (write v e) (to_state v (params_new v imp)) input = Ret s /\ holds v e (default_config (fl v)) input s).
  { destruct input as [|b r].
    - eexists. split; [reflexivity|apply fresh_holds].
    - destruct (holds_update _ _ _ _ _ (b :: r) fresh_holds) as (s & E & H & _). exists s. split; [|exact H].
      apply write_all_once; [discriminate|]. unfold write. rewrite E. reflexivity. }
  destruct W as (s & W & H). rewrite W. cbn [bind]. exact (holds_hex _ _ _ out H).
Qed.

Theorem hash_from_array_ok input : hash_from_array v e imp input = Ret tt.
Proof.
  unfold hash_from_array. assert (W : wf_config (fl v) (default_config (fl v))) by apply wf_default.
  assert (E0 : blake2_default v e imp input = Ret (hash_value v (default_config (fl v)) input)).
  { unfold blake2_default. rewrite params_new_of. apply params_hash_spec; [exact W|exact Su]. }
  rewrite E0. cbn [bind].
  set (h := hash_value v (default_config (fl v)) input).
  assert (HL : h_len h = N.of_nat (outbytes v)) by (destruct v; reflexivity).
  assert (Ea : as_array v e h = Ret (h_bytes h)). { unfold as_array. rewrite HL, N.eqb_refl. destruct (e_dbg e); reflexivity. }
  rewrite Ea. cbn [bind].
  assert (Eh : hash_from v (h_bytes h) = h). { unfold hash_from. replace (as_u8 (outbytes v)) with (h_len h) by (rewrite HL; destruct v; reflexivity). destruct h; reflexivity. }
  rewrite Eh. assert (X : assert_same h h = Ret tt) by (eapply assert_same_ok; [apply hash_value_bytes; exact W|apply hash_value_bytes; exact W|reflexivity]).
  rewrite X. reflexivity.
Qed.

Theorem vector_case_is input k out : (length k <= Spec.max_out (fl v))%nat -> N.of_nat (length input) < 2 ^ 63 ->
  vector_case v e imp input k out = verdict out (digest (fl v) (configure (fl v) [Key k] (default_config (fl v))) input).
Proof.
  intros Lk B. change (2 ^ 63) with 9223372036854775808 in B. unfold vector_case.
  assert (Lg : legal (fl v) (Key k) = true) by (cbn [legal]; apply Nat.leb_le; exact Lk).
  set (c := configure (fl v) [Key k] (default_config (fl v))).
  assert (Ep : exists p, match k with [] => Ret (params_new v imp) | _ => run (Lib.key v k) (params_new v imp) end = Ret p /\
     p = params_of v imp c).
  { destruct k as [|b k'].
    - eexists. split; [reflexivity|]. rewrite params_new_of. unfold c, configure. cbn [fold_left]. rewrite Lg. reflexivity.
    - pose proof (build_spec v imp [Key (b :: k')]) as BS. unfold build in BS. cbn [fold_left] in BS.
      pose proof (setter_accepts v (Key (b :: k')) (params_new v imp) Lg) as SA. cbn [call_setter] in *.
      unfold run. destruct (Lib.key v (b :: k') (params_new v imp)) as [p o]. cbn [snd fst] in *. rewrite SA. cbn [bind]. eauto. }
  destruct Ep as (p & Ep & ->). rewrite Ep. cbn [bind].
  assert (W : wf_config (fl v) c) by (apply build_wf; repeat constructor).
  rewrite (params_hash_spec v e imp c input W Su). cbn [bind].
  rewrite (assert_hex_is _ (digest (fl v) c input)).
  2:{ apply hash_value_bytes. exact W. }
  2:{ unfold digest, Spec.blake2. rewrite firstn_length, spec_bytes_length by apply initial_state_ok. lia. }
  apply verdict_seq. intros V.
  destruct (holds_update _ _ _ _ _ input (holds_new v e imp c W Su)) as (s & E & H & _). rewrite E. cbn [bind app] in *.
  assert (R : forall k : outcome unit, (do h <- finalize v e s; do _ <- assert_hex v h out; k) =
     (do _ <- (do h <- finalize v e s; assert_hex v h out); k)).
  { intros k0. destruct (finalize v e s); reflexivity. }
  rewrite R, (holds_hex _ _ _ out H). apply verdict_seq. intros _.
  rewrite (holds_count_small _ _ _ _ _ H) by (change (2 ^ 63 + 2 ^ 62) with 13835058055282163712; lia).
  cbn [bind]. rewrite assert_count_ok. unfold verdict. rewrite V. reflexivity.
Qed.

Theorem p_vector_case_is input k out : (length k <= Spec.max_out (fl v))%nat -> N.of_nat (length input) < 2 ^ 63 ->
  p_vector_case v e imp input k out = verdict out (pdigest (fl v) (pconfigure (fl v) [PKey k] (pdefault_config (fl v))) input).
Proof.
  intros Lk B. change (2 ^ 63) with 9223372036854775808 in B. unfold p_vector_case.
  assert (Lg : plegal (fl v) (PKey k) = true) by (cbn [plegal]; apply Nat.leb_le; exact Lk).
  set (c := pconfigure (fl v) [PKey k] (pdefault_config (fl v))).
  assert (Ep : exists p, match k with [] => Ret (pparams_new v imp) | _ => run (p_set_key v k) (pparams_new v imp) end = Ret p /\
     p = pparams_of v imp c).
  { destruct k as [|b k'].
    - eexists. split; [reflexivity|]. rewrite pparams_new_of. unfold c, pconfigure. cbn [fold_left]. rewrite Lg. reflexivity.
    - pose proof (pbuild_spec v imp [PKey (b :: k')]) as BS. unfold pbuild in BS. cbn [fold_left] in BS.
      pose proof (psetter_accepts v (PKey (b :: k')) (pparams_new v imp) Lg) as SA. cbn [call_psetter] in *.
      unfold run. destruct (p_set_key v (b :: k') (pparams_new v imp)) as [p o]. cbn [snd fst] in *. rewrite SA. cbn [bind]. eauto. }
  destruct Ep as (p & Ep & ->). rewrite Ep. cbn [bind].
  assert (W : wf_pconfig (fl v) c) by (apply wfp_configure, wfp_default).
  rewrite (p_hash_spec v e imp c input W Su). cbn [bind].
  assert (PL : (length (pdigest (fl v) c input) <= outbytes v)%nat).
  { unfold pdigest, Spec.blake2p. rewrite firstn_length, spec_bytes_length by apply initial_state_ok. lia. }
  rewrite (assert_hex_is _ (pdigest (fl v) c input)); [|apply phash_value_bytes; exact W|exact PL].
  apply verdict_seq. intros V.
  destruct (pholds_new v e imp c W Su) as (s0 & E0 & H0 & _). rewrite E0. cbn [bind].
  destruct (pholds_update _ _ _ _ _ input H0) as (s & E & H & _). rewrite E. cbn [bind app] in *.
  rewrite (pholds_finalize _ _ _ _ _ H). cbn [bind].
  rewrite (assert_hex_is _ (pdigest (fl v) c input)); [|apply phash_value_bytes; exact W|exact PL].
  apply verdict_seq. intros _.
  rewrite (pholds_count_small _ _ _ _ _ H) by (change (2 ^ 63 + 2 ^ 62) with 13835058055282163712; lia).
  cbn [bind]. rewrite assert_count_ok. unfold verdict. rewrite V. reflexivity.
Qed.
End Answers.

(** *** Detection *)
Lemma test_detection_ok t : (detected (t_tf_avx2 t) (t_cpu_avx2 t) = true -> detected (t_tf_sse41 t) (t_cpu_sse41 t) = true) ->
  test_detection t = Ret tt.
Proof.
  destruct t as [x a b s c d]; unfold test_detection, detected; destruct x, a, b, s, c, d; cbn; intros H; try reflexivity;
    try (specialize (H eq_refl); discriminate).
Qed.
Lemma test_degree_ok v t : (detected (t_tf_avx2 t) (t_cpu_avx2 t) = true -> detected (t_tf_sse41 t) (t_cpu_sse41 t) = true) ->
  test_degree v t = Ret tt.
Proof.
  destruct t as [x a b s c d]; unfold test_degree, detected; destruct v, x, a, b, s, c, d; cbn; intros H; try reflexivity;
    try (specialize (H eq_refl); discriminate).
Qed.
