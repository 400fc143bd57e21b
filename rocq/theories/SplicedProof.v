(** A State whose words have gone wrong goes on wrong in the same way. *)
From Coq Require Import ZArith Arith NArith List Bool Lia ZifyBool ZifyNat ZifyN.
From Verif Require Import Base ByteLemmas Guts Portable KernelSpec Simd Impl Loops LaneLoops Sched SchedProof
  Lib StateProof ParamsProof FedProof Many ManyProof Api ApiProof Runs HistoryProof BatchProof Unwind Crashes UnwindProof.
From Verif Require Spec ApiSpec Machine History.
From Verif Require Import CasualtySpec CasualtyProof.
Import ListNotations.
Open Scope N_scope.

Lemma blocks_any v e imp ln d k n ws : supported e imp -> words_ok v ws ->
  ((k + S n) * blockbytes v <= length d)%nat ->
  compress1_loop v e imp (firstn (S n * blockbytes v) (skipn (k * blockbytes v) d)) ws
    (N.of_nat (k * blockbytes v) mod cmod v) ln false Serial = Ret (chain v d ws k (S n)).
Proof.
  intros S O L. rewrite compress1_loop_spec; auto.
  - apply f_equal. apply C1_nonfinal. exact L.
  - apply (input_ok_full v _ n). rewrite firstn_length, skipn_length. nia.
Qed.

Lemma fill_buf_words v e s x w s' y : fill_buf v e s x = Ret (s', y) ->
  fill_buf v e (set_s_words w s) x = Ret (set_s_words w s', y) /\ s_words s' = s_words s /\ s_count s' = s_count s.
Proof.
  unfold fill_buf. cbn [set_s_words s_buflen s_buf].
  destruct (slice x 0 _); cbn [bind]; try discriminate.
  destruct (copy_into _ _ _); cbn [bind]; try discriminate.
  destruct (add_small _ _ _ _); cbn [bind]; try discriminate.
  destruct (slice_from x _); cbn [bind]; try discriminate.
  intros E. injection E as <- <-. repeat split.
Qed.

Lemma buffer_words v e h0 d k s x w : supported e (s_imp s) -> absorbed v h0 d k s -> words_ok v w ->
  forall s' y, compress_buffer_if_possible v e s x = Ret (s', y) ->
  exists t k', y = skipn t x /\ (t <= length x)%nat /\ absorbed v h0 (d ++ firstn t x) k' s' /\ (k <= k')%nat /\
    same_config s s' /\ (y <> [] -> s_buflen s' = 0%nat) /\
    compress_buffer_if_possible v e (set_s_words w s) x =
      Ret (set_s_words (chain v (d ++ firstn t x) w k (k' - k)) s', y).
Proof.
  intros SUP A OW s' y E. unfold compress_buffer_if_possible in *. cbn [set_s_words s_buflen s_imp s_count s_last_node].
  destruct (Nat.ltb_spec 0 (s_buflen s)) as [Pos|Zero].
  - destruct (fill_buf_spec v e h0 d k s x A) as (s1 & E1 & A' & Bl & SC). cbv zeta in E1, A', Bl.
    set (t := Nat.min (blockbytes v - s_buflen s) (length x)) in *. rewrite E1 in E. cbn [bind] in E.
    destruct (fill_buf_words v e s x w _ _ E1) as (E2 & _ & _). rewrite E2. cbn [bind]. clear E2.
    destruct (skipn t x) as [|b r] eqn:R.
    + injection E as <- <-. exists t, k. rewrite Nat.sub_diag. repeat split; auto; try apply A'; try apply SC; try lia; congruence.
    + assert (Lx : (t < length x)%nat).
      { apply (f_equal (@length byte)) in R. rewrite skipn_length in R. cbn [length] in R. lia. }
      destruct A' as [A1 A2 A3 A4 A5 A6 A7].
      assert (Full : s_buflen s1 = blockbytes v) by (unfold t in *; lia).
      destruct SC as (SC1 & SC2 & SC3 & SC4).
      assert (EB : s_buf s1 = firstn (1 * blockbytes v) (skipn (k * blockbytes v) (d ++ firstn t x))).
      { rewrite <- A4, Full, firstn_firstn, Nat.mul_1_l, Nat.min_id, firstn_all2; auto. lia. }
      rewrite EB, A2 in E. rewrite blocks_any in E by (try (rewrite SC3; exact SUP); try (rewrite A1; apply chain_ok; exact A7); lia).
      cbn [bind] in E. injection E as <- <-.
      exists t, (k + 1)%nat. split; [congruence|]. split; [lia|]. split; [|split; [lia|split; [|split; [reflexivity|]]]].
      * constructor; stf.
        -- rewrite A1. change 1%nat with (1)%nat. rewrite (chain_add v _ _ 0 k 1). reflexivity.
        -- rewrite ?A2, count_step. f_equal. f_equal. lia.
        -- lia.
        -- symmetry. apply skipn_all2. lia.
        -- exact A5.
        -- lia.
        -- exact A7.
      * repeat split; auto.
      * cbn [set_s_words s_buf s_imp s_count s_last_node s_words]. rewrite EB, A2.
        rewrite blocks_any by (try (rewrite SC3; exact SUP); auto; lia). cbn [bind].
        replace (k + 1 - k)%nat with 1%nat by lia. reflexivity.
  - injection E as <- <-. exists 0%nat, k. cbn [firstn skipn]. rewrite app_nil_r, Nat.sub_diag.
    repeat split; auto; try apply A; lia.
Qed.

Lemma update_words v e h0 d k s x w s' : supported e (s_imp s) -> absorbed v h0 d k s -> words_ok v w ->
  update v e s x = Ret s' ->
  exists k', absorbed v h0 (d ++ x) k' s' /\ (k <= k')%nat /\
    update v e (set_s_words w s) x = Ret (set_s_words (chain v (d ++ x) w k (k' - k)) s').
Proof.
  intros SUP A OW E. unfold update in *.
  destruct (compress_buffer_spec v e h0 d k s x SUP A) as (s1 & t0 & k0 & E0 & _).
  destruct (buffer_words v e h0 d k s x w SUP A OW _ _ E0) as (t & k1 & EY & Lt & A1 & K1 & SC1 & Nem & E1).
  rewrite E0 in E. rewrite E1. cbn [bind] in *. clear E0 E1. rewrite EY in *. clear t0 k0 EY.
  set (y := skipn t x) in *. unfold sat_sub in *.
  destruct (last_start v (length y)) as (n & En & H1 & H2). cbv zeta in En, H1, H2.
  set (en := ((length y - 1) - (length y - 1) mod blockbytes v)%nat) in *. clearbody en.
  pose proof (blockbytes_pos v) as BP.
  assert (EX : (d ++ firstn t x) ++ y = d ++ x).
  { rewrite <- app_assoc. f_equal. apply firstn_skipn. }
  pose proof (ab_len _ _ _ _ _ A) as L0.
  assert (Lk : (k1 * blockbytes v <= length (d ++ firstn t x))%nat) by (rewrite (ab_len _ _ _ _ _ A1); lia).
  set (d1 := d ++ firstn t x) in *. clearbody d1.
  destruct (Nat.ltb_spec 0 en) as [Pos|Zero].
  - assert (Hy : y <> []). { intros Z. rewrite Z in *. cbn in H1. lia. }
    specialize (Nem Hy). destruct n as [|n]; [lia|].
    rewrite slice0_ok in * by lia. cbn [bind] in *.
    pose proof (ab_len _ _ _ _ _ A1) as L1. rewrite Nem, Nat.add_0_r in L1.
    assert (EB : firstn en y = firstn (S n * blockbytes v) (skipn (k1 * blockbytes v) (d1 ++ y))).
    { rewrite skipn_app, skipn_all2, <- L1, Nat.sub_diag by lia. cbn [skipn app]. rewrite En. reflexivity. }
    cbn [set_s_words s_imp s_count s_last_node s_words].
    assert (SU1 : supported e (s_imp s1)) by (destruct SC1 as (_ & _ & -> & _); exact SUP).
    assert (LN : ((k1 + S n) * blockbytes v <= length (d1 ++ y))%nat) by (rewrite app_length; nia).
    assert (OA : words_ok v (s_words s1)) by (rewrite (ab_words _ _ _ _ _ A1); apply chain_ok, A1).
    rewrite EB, (ab_count _ _ _ _ _ A1) in *.
    rewrite blocks_any in E by assumption.
    rewrite blocks_any by (try assumption; apply chain_ok; exact OW).
    cbn [bind] in *. rewrite slice_from_ok in * by lia. cbn [bind] in *.
    match type of E with context [fill_buf v e ?s0 _] => set (s2 := s0) in * end.
    assert (A2 : absorbed v h0 (d1 ++ firstn en y) (k1 + S n) s2).
    { constructor; unfold s2; stf.
      - rewrite (ab_words _ _ _ _ _ A1). rewrite <- (chain_app v d1 y) by lia.
        rewrite <- (chain_add v (d1 ++ y) h0 0 k1 (S n) : _ = chain v _ _ k1 _).
        replace (d1 ++ y) with ((d1 ++ firstn en y) ++ skipn en y) by (rewrite <- app_assoc, firstn_skipn; reflexivity).
        rewrite (chain_app v (d1 ++ firstn en y)); [reflexivity|].
        rewrite app_length, firstn_length_le; nia.
      - rewrite ?(ab_count _ _ _ _ _ A1), count_step. f_equal. f_equal. nia.
      - rewrite app_length, firstn_length_le by lia. rewrite Nem. nia.
      - rewrite Nem. cbn [firstn]. symmetry. apply skipn_all2. rewrite app_length, firstn_length_le by lia. nia.
      - apply (ab_buflen _ _ _ _ _ A1).
      - apply (ab_le _ _ _ _ _ A1).
      - apply (ab_h0 _ _ _ _ _ A1). }
    destruct (fill_buf_spec v e h0 _ _ s2 (skipn en y) A2) as (s3 & E3 & A3 & B3 & SC3).
    rewrite E3 in E. cbn [bind] in E. injection E as <-.
    destruct (fill_buf_words v e s2 _ (chain v (d1 ++ y) (chain v d1 w k (k1 - k)) k1 (S n)) _ _ E3) as (E4 & _ & _).
    exists (k1 + S n)%nat. split; [|split; [lia|]].
    + assert (B2 : s_buflen s2 = 0%nat) by exact Nem.
      rewrite B2 in *. rewrite skipn_length in A3, B3.
      rewrite Nat.min_r in A3, B3 by lia. rewrite (firstn_all2 (skipn en y)) in A3 by (rewrite skipn_length; lia).
      rewrite <- app_assoc, firstn_skipn in A3. rewrite EX in A3. exact A3.
    + match goal with |- context [fill_buf v e ?s0 _] =>
        replace s0 with (set_s_words (chain v (d1 ++ y) (chain v d1 w k (k1 - k)) k1 (S n)) s2)
          by (unfold s2; cbn [set_s_words s_count]; rewrite (ab_count _ _ _ _ _ A1); reflexivity) end.
      rewrite E4. cbn [bind]. do 2 f_equal.
      rewrite <- (chain_app v d1 y) by nia. rewrite EX.
      replace (k1 + S n - k)%nat with ((k1 - k) + S n)%nat by lia. rewrite chain_add. do 2 f_equal. lia.
  - cbn [bind] in *.
    destruct (fill_buf_spec v e h0 _ _ s1 y A1) as (s3 & E3 & A3 & B3 & SC3).
    rewrite E3 in E. cbn [bind] in E. injection E as <-.
    destruct (fill_buf_words v e s1 _ (chain v d1 w k (k1 - k)) _ _ E3) as (E4 & _ & _). rewrite E4. cbn [bind].
    exists k1. split; [|split; [exact K1|]].
    + destruct y as [|b r] eqn:Ey.
      * cbn [length firstn] in *. rewrite Nat.min_0_r in *. cbn [firstn] in A3. rewrite EX in A3. exact A3.
      * specialize (Nem ltac:(congruence)). rewrite Nem in *. rewrite Nat.sub_0_r in *.
        rewrite Nat.min_r in * by lia. rewrite firstn_all in A3. rewrite EX in A3. exact A3.
    + do 2 f_equal. rewrite <- EX. symmetry. apply chain_app. nia.
Qed.

Lemma holds_at v e c msg s k : holds v e c msg s ->
  absorbed v (Spec.initial_state (fl v) (ApiSpec.c_params c)) (Spec.data (fl v) (ApiSpec.c_key c) msg) k s ->
  Spec.num_blocks (fl v) (Spec.data (fl v) (ApiSpec.c_key c) msg) = S k.
Proof.
  intros H A. destruct (hd_abs _ _ _ _ _ H) as (k' & A' & NE).
  pose proof (ab_len _ _ _ _ _ A) as L. pose proof (ab_len _ _ _ _ _ A') as L'. pose proof (ab_le _ _ _ _ _ A) as LE.
  pose proof (blockbytes_pos v) as BP. assert (k' = k) by nia. subst k'.
  apply (num_blocks_k v _ k (s_buflen s)); lia.
Qed.

(** As [holds], but the words are what the blocks from number [b] on have made of [w]. *)
Definition spliced (v : variant) (e : env) (c : ApiSpec.config) (msg : list byte) (w : list N) (b : nat) (s : state) : Prop :=
  exists s0 k, holds v e c msg s0 /\
    absorbed v (Spec.initial_state (fl v) (ApiSpec.c_params c)) (Spec.data (fl v) (ApiSpec.c_key c) msg) k s0 /\
    (b <= k)%nat /\ words_ok v w /\
    s = set_s_words (chain v (Spec.data (fl v) (ApiSpec.c_key c) msg) w b (k - b)) s0.

Lemma spliced_update v e c msg w b s x : spliced v e c msg w b s ->
  exists s', update v e s x = Ret s' /\ spliced v e c (msg ++ x) w b s'.
Proof.
  intros (s0 & k & H & A & B & O & ->). set (d := Spec.data (fl v) (ApiSpec.c_key c) msg) in *.
  destruct (holds_update v e c msg s0 x H) as (s1 & E & H1 & _).
  destruct (update_words v e _ d k s0 x (chain v d w b (k - b)) s1 (hd_sup _ _ _ _ _ H) A (chain_ok v d w b (k - b) O) E)
    as (k1 & A1 & K & U).
  eexists. split; [exact U|]. exists s1, k1. rewrite data_app. fold d.
  split; [exact H1|]. split; [exact A1|]. split; [lia|]. split; [exact O|]. f_equal.
  pose proof (ab_len _ _ _ _ _ A) as L.
  rewrite <- (chain_app v d x w b (k - b)) by (replace (b + (k - b))%nat with k by lia; lia).
  replace (k1 - b)%nat with ((k - b) + (k1 - k))%nat by lia. rewrite chain_add. f_equal. lia.
Qed.

Definition spliced_shown (f : Spec.flavour) (dbg : bool) (c : ApiSpec.config) (msg : list byte) (w : list N) (b : nat) (o : History.op) : Machine.obs :=
  match o with
  | History.DoFinalize =>
      let d := Spec.data f (ApiSpec.c_key c) msg in
      let last := (Spec.num_blocks f d - 1)%nat in
      let h := fold_left (fun h i => Spec.F f h (Spec.block f d i) (N.of_nat ((i + 1) * Spec.block_len f)) false false)
                 (seq b (last - b)) w in
      Machine.Bytes (firstn (N.to_nat (Spec.digest_length (ApiSpec.c_params c)))
        (Spec.words_to_bytes f (Spec.F f h (Spec.block f d last) (N.of_nat (length d)) true (ApiSpec.c_last_node c))))
  | _ => shown_now f dbg c msg o
  end.

Lemma count_words v e w s : count v e (set_s_words w s) = count v e s.
Proof. reflexivity. Qed.
Lemma debug_words v e w s : state_debug v e (set_s_words w s) = state_debug v e s.
Proof. reflexivity. Qed.

Lemma spliced_op v e c msg w b s o : spliced v e c msg w b s ->
  exists s', do_op v e s o = (s', spliced_shown (fl v) (e_dbg e) c msg w b o) /\
    spliced v e (next_config c o) (msg ++ History.fed_by o) w b s'.
Proof.
  intros Z. destruct o; cbn [do_op spliced_shown shown_now next_config History.fed_by]; rewrite ?app_nil_r.
  - destruct (spliced_update _ _ _ _ _ _ _ x Z) as (s' & E & H'). rewrite E. cbn [seen]. eauto.
  - destruct (spliced_update _ _ _ _ _ _ _ x Z) as (s' & E & H'). unfold write. rewrite E. cbn [bind seen]. eauto.
  - destruct (spliced_update _ _ _ _ _ _ _ x Z) as (s' & E & H'). destruct x as [|y x].
    + cbn [write_all write_all_loop length seen]. exists s. rewrite app_nil_r. auto.
    + rewrite (write_all_once _ s s'); [cbn [seen]; eauto|discriminate|]. unfold write. rewrite E. reflexivity.
  - cbn [flush seen]. eauto.
  - destruct Z as (s0 & k & H & A & B & O & ->). eexists. split; [reflexivity|].
    exists (set_last_node b0 s0), k. split; [apply holds_set_last_node; exact H|].
    split; [|split; [exact B|split; [exact O|reflexivity]]]. destruct A. constructor; assumption.
  - destruct Z as (s0 & k & H & A & B & O & ->). eexists.
    pose proof (shown_cut v c msg _ e s0 H (chain_ok v (Spec.data (fl v) (ApiSpec.c_key c) msg) w b (k - b) O)) as SC. cbv zeta in SC.
    assert (F : fst (do_op v e (set_s_words (chain v (Spec.data (fl v) (ApiSpec.c_key c) msg) w b (k - b)) s0) History.DoFinalize)
      = set_s_words (chain v (Spec.data (fl v) (ApiSpec.c_key c) msg) w b (k - b)) s0).
    { cbn [do_op]. destruct (do h <- finalize v e _; as_bytes h); reflexivity. }
    cbn [do_op] in SC, F. split.
    + rewrite (surjective_pairing (seen _ _ _)), SC, F. do 2 f_equal.
      rewrite (holds_at v e c msg s0 k H A). replace (S k - 1)%nat with k by lia. unfold chain. rewrite block_len_fl. reflexivity.
    + exists s0, k. auto.
  - destruct Z as (s0 & k & H & A & B & O & ->). rewrite count_words, (count_state_R _ _ _ _ _ H). eexists.
    split; [destruct (Machine.count_of _ _ _ _); cbn [seen]; reflexivity|]. exists s0, k; auto.
  - destruct Z as (s0 & k & H & A & B & O & ->). rewrite debug_words. unfold state_debug. rewrite (count_state_R _ _ _ _ _ H).
    eexists. split; [|exists s0, k; split; [exact H|auto]]. destruct (Machine.count_of _ _ _ _); cbn [seen bind]; [|reflexivity].
    rewrite (hd_ln _ _ _ _ _ H), (hd_len _ _ _ _ _ H). reflexivity.
Qed.

Lemma after_spliced v e c msg w b s ops : spliced v e c msg w b s ->
  spliced v e (History.flagged c ops) (msg ++ History.fed ops) w b (after (do_op v e) s ops).
Proof.
  intros H. induction ops as [|o ops IH] using rev_ind.
  - rewrite flagged_nil. unfold History.fed. cbn [flat_map]. rewrite app_nil_r. exact H.
  - rewrite after_app, flagged_snoc, fed_snoc, app_assoc. destruct (spliced_op _ _ _ _ _ _ _ o IH) as (s' & E & H').
    unfold after at 1. cbn [do_ops]. rewrite E. exact H'.
Qed.

Lemma under_way_spliced v e c msg s x s' w : holds v e c msg s ->
  done s_words (fun s ws => set_s_words ws s) (update_prep v e) v false Serial x s = set_s_words w s' ->
  words_ok v (s_words s') -> under_way s_words (update_prep v e) v Serial x s (s_words s') ->
  let d := Spec.data (fl v) (ApiSpec.c_key c) (msg ++ x) in
  exists k b, (length (Spec.data (fl v) (ApiSpec.c_key c) msg) <= k * Spec.block_len (fl v))%nat /\ (k < b)%nat /\
    (b * Spec.block_len (fl v) < length d)%nat /\ (b + 1 = Spec.num_blocks (fl v) d)%nat /\
    spliced v e c (msg ++ x) (absorb (fl v) (Spec.initial_state (fl v) (ApiSpec.c_params c)) d k) b s'.
Proof.
  intros H D O (c' & input & count & ln & m & E & Sx & M).
  destruct (update_prep_spec v e c msg s x H) as (_ & HD & _).
  destruct (update_prep_job v e c msg s x c' input count ln H E) as (k & n & A1 & A2 & A3 & A4 & A5 & A6). cbv zeta in *.
  set (d := Spec.data (fl v) (ApiSpec.c_key c) (msg ++ x)) in *.
  set (h0 := Spec.initial_state (fl v) (ApiSpec.c_params c)) in *.
  pose proof (blockbytes_pos v) as BP.
  assert (Mn : (m <= n)%nat). { cbn [padded_blockbytes] in M. destruct M as [->|M]; [lia|]. rewrite A4 in M. nia. }
  assert (G : s_words s' = chain v d h0 0 (k + m)).
  { rewrite <- Sx, A1, A2, A3. rewrite steps_firstn by nia. rewrite steps_chain, chain_add. reflexivity. }
  rewrite D in HD. destruct (hd_abs _ _ _ _ _ HD) as (b & AB & NE).
  pose proof (holds_at v e c _ _ b HD AB) as NB. fold d in NB, AB.
  pose proof (num_blocks_k v d (k + S n) (length d - (k + S n) * blockbytes v) ltac:(lia) ltac:(lia) ltac:(lia)) as NB'.
  exists (k + m)%nat, b. rewrite block_len_fl. assert (b = k + S n)%nat by lia. subst b.
  split; [nia|]. split; [lia|]. split; [lia|]. split; [lia|].
  exists (set_s_words w s'), (k + S n)%nat. fold d h0.
  split; [exact HD|]. split; [exact AB|]. split; [lia|].
  rewrite absorb_chain, <- G. split; [exact O|]. rewrite Nat.sub_diag. destruct s'; reflexivity.
Qed.

Theorem update_casualties_go_on v e us l : Forall (usable e) us -> exclusive (length us) l ->
  exists left hurt, update_many_unwinding v e (map (use v e) us) (panics_after l) = Unwound left /\
    length left = length us /\ NoDup hurt /\ (length hurt < lanes v s_imp (map (use v e) us) l)%nat /\
    (forall i, In i hurt -> In i (map fst l)) /\
    forall i u x s, nth_error us i = Some u -> In (i, x) l -> nth_error left i = Some s ->
      (~ In i hurt -> holds v e (use_config v u) (use_fed u ++ x) s) /\
      (In i hurt ->
       let c := use_config v u in let d := Spec.data (fl v) (ApiSpec.c_key c) (use_fed u ++ x) in
       exists k b, (length (Spec.data (fl v) (ApiSpec.c_key c) (use_fed u)) <= k * Spec.block_len (fl v))%nat /\ (k < b)%nat /\
         (b * Spec.block_len (fl v) < length d)%nat /\ (b + 1 = Spec.num_blocks (fl v) d)%nat /\
         spliced v e c (use_fed u ++ x) (absorb (fl v) (Spec.initial_state (fl v) (ApiSpec.c_params c)) d k) b s).
Proof.
  intros A X.
  assert (FS : Forall (sane v e) (map (use v e) us)).
  { apply Forall_forall. intros s Hs. apply in_map_iff in Hs. destruct Hs as (u & <- & Hu). rewrite Forall_forall in A.
    apply (holds_sane v e _ _ _ (use_holds v e u (A u Hu))). }
  rewrite <- (map_length (use v e)) in X. destruct (update_unwound v e _ l FS X) as (left & hurt & U & L' & ND & K & T & H & FS').
  exists left, hurt. split; [exact U|]. split; [rewrite map_length in L'; exact L'|]. split; [exact ND|]. split; [exact K|].
  split. { intros i Hi. destruct (H i Hi) as (x & _ & _ & I & _). apply (in_map fst) in I. exact I. }
  intros i u x s Hu Hx Hs. cbv zeta.
  assert (HU : holds v e (use_config v u) (use_fed u) (use v e u)).
  { apply use_holds. rewrite Forall_forall in A. apply A. eapply nth_error_In; eauto. }
  assert (TG : update_result v e l (map (use v e) us) i =
    Some (done s_words (fun s ws => set_s_words ws s) (update_prep v e) v false Serial x (use v e u))).
  { unfold update_result, target_of. rewrite (find_ref _ _ _ (proj1 X) Hx), (map_nth_error (use v e) _ _ Hu). reflexivity. }
  split.
  - intros NH. rewrite T, TG in Hs by exact NH. injection Hs as <-.
    destruct (update_prep_spec v e _ _ _ x HU) as (_ & HD & _). exact HD.
  - intros HI. destruct (H i HI) as (x' & s' & w & A1 & A2 & A3 & A4 & s0 & A5 & A6).
    assert (x' = x).
    { pose proof (find_ref _ _ _ (proj1 X) A1) as F1. pose proof (find_ref _ _ _ (proj1 X) Hx) as F2. congruence. }
    subst x'. rewrite Hs in A3. injection A3 as <-. rewrite TG in A4. injection A4 as A4.
    rewrite (map_nth_error (use v e) _ _ Hu) in A5. injection A5 as <-.
    apply (under_way_spliced v e _ _ (use v e u) x s w HU A4); [|exact A6].
    rewrite Forall_forall in FS'. apply (FS' s). eapply nth_error_In; eauto.
Qed.

Lemma flagged_app c a b : History.flagged (History.flagged c a) b = History.flagged c (a ++ b).
Proof. unfold History.flagged, History.last_flag. rewrite fold_left_app. destruct c; reflexivity. Qed.
Lemma fed_app a b : History.fed (a ++ b) = History.fed a ++ History.fed b.
Proof. apply flat_map_app. Qed.

Theorem states_go_on v e us l : Forall (usable e) us -> exclusive (length us) l ->
  exists left hurt, update_many_unwinding v e (map (use v e) us) (panics_after l) = Unwound left /\
    length left = length us /\ NoDup hurt /\ (length hurt < lanes v s_imp (map (use v e) us) l)%nat /\
    (forall i, In i hurt -> In i (map fst l)) /\
    forall i imp ss pre x s, nth_error us i = Some (imp, ss, pre) -> In (i, x) l -> nth_error left i = Some s ->
      let c := ApiSpec.configure (fl v) ss (ApiSpec.default_config (fl v)) in
      let so_far := pre ++ [History.DoUpdate x] in
      let before := Spec.data (fl v) (ApiSpec.c_key c) (History.fed pre) in
      let d := Spec.data (fl v) (ApiSpec.c_key c) (History.fed so_far) in
      (~ In i hurt -> forall post o,
         snd (do_op v e (after (do_op v e) s post) o) = History.shown (fl v) (e_dbg e) c (so_far ++ post) o) /\
      (In i hurt -> exists k b,
         (length before <= k * Spec.block_len (fl v))%nat /\ (k < b)%nat /\
         (b * Spec.block_len (fl v) < length d)%nat /\ (b + 1 = Spec.num_blocks (fl v) d)%nat /\
         forall post,
           (forall o, o <> History.DoFinalize ->
              snd (do_op v e (after (do_op v e) s post) o) = History.shown (fl v) (e_dbg e) c (so_far ++ post) o) /\
           snd (do_op v e (after (do_op v e) s post) History.DoFinalize) =
             Machine.Bytes (spliced_digest (fl v) (History.flagged c (so_far ++ post)) (History.fed (so_far ++ post)) k b)).
Proof.
  intros A X. destruct (update_casualties_go_on v e us l A X) as (left & hurt & U & L & ND & K & IN & H).
  exists left, hurt. do 5 (split; [assumption|]). intros i imp ss pre x s Hu Hx Hs c so_far before d.
  assert (FE : History.fed so_far = History.fed pre ++ x).
  { unfold so_far. rewrite fed_app. cbn. rewrite app_nil_r. reflexivity. }
  assert (FL : History.flagged c so_far = History.flagged c pre).
  { unfold so_far. rewrite flagged_snoc. reflexivity. }
  destruct (H i (imp, ss, pre) x s Hu Hx Hs) as [H1 H2]. cbn [use_config use_fed] in H1, H2. fold c in H1, H2.
  rewrite <- FE, <- FL in H1, H2. split.
  - intros NH post o. specialize (H1 NH). pose proof (after_holds _ _ _ _ _ post H1) as AH.
    rewrite <- fed_app, flagged_app in AH.
    destruct (do_op_holds _ _ _ _ _ o AH) as (s' & E & _). rewrite E. reflexivity.
  - intros HI. destruct (H2 HI) as (k & b & B1 & B2 & B3 & B4 & Z). clear H1 H2. cbv zeta in *.
    exists k, b. split; [exact B1|]. split; [exact B2|]. split; [exact B3|]. split; [exact B4|]. intros post.
    pose proof (after_spliced _ _ _ _ _ _ _ post Z) as AH. rewrite <- fed_app, flagged_app in AH. split.
    + intros o NF. destruct (spliced_op _ _ _ _ _ _ _ o AH) as (s' & E & _). rewrite E. destruct o; try reflexivity. congruence.
    + destruct (spliced_op _ _ _ _ _ _ _ History.DoFinalize AH) as (s' & E & _). rewrite E. cbn [snd spliced_shown].
      unfold spliced_digest. cbv zeta. do 3 f_equal. f_equal. f_equal.
      change (ApiSpec.c_key (History.flagged c so_far)) with (ApiSpec.c_key c).
      change (ApiSpec.c_params (History.flagged c so_far)) with (ApiSpec.c_params c).
      change (ApiSpec.c_key (History.flagged c (so_far ++ post))) with (ApiSpec.c_key c).
      change (ApiSpec.c_params (History.flagged c (so_far ++ post))) with (ApiSpec.c_params c).
      fold d. rewrite fed_app, data_app. fold d. rewrite !absorb_chain. symmetry. apply chain_app.
      rewrite block_len_fl in B3.
      apply Nat.le_trans with (b * blockbytes v)%nat; [apply Nat.mul_le_mono_r; lia|apply Nat.lt_le_incl; exact B3].
Qed.

(** *** A job that was given out once is not touched again *)
Lemma result_finished v l jobs i j : In i (map fst l) -> NoDup (map fst l) -> hash_result v l jobs i = Some j -> hj_finished j = true.
Proof.
  intros I ND E. apply in_map_iff in I. destruct I as ([i' x] & EI & I). cbn [fst] in EI. subst i'.
  unfold hash_result, target_of in E. rewrite (find_ref _ _ _ ND I) in E.
  destruct (nth_error jobs i) as [j0|]; [|discriminate]. cbn [option_map] in E. injection E as <-.
  unfold done, hash_prep. destruct (hj_finished j0) eqn:F; [exact F|reflexivity].
Qed.
Lemma result_same v l jobs i j : nth_error jobs i = Some j -> hj_finished j = true -> hash_result v l jobs i = Some j.
Proof.
  intros N F. unfold hash_result, target_of. destruct (find _ l) as [[r x]|]; rewrite N; [|reflexivity].
  cbn [option_map]. unfold done, hash_prep. rewrite F. reflexivity.
Qed.

Theorem jobs_stay v e jobs l left : Forall (handled_job v e) jobs -> exclusive (length jobs) l ->
  hash_many_unwinding v e jobs (panics_after l) = Unwound left ->
  forall l', exclusive (length jobs) l' ->
  exists again interrupted, hash_many v e left (ends_after l') = Ret (again, S (length l')) /\
    hash_many_unwinding v e left (panics_after l') = Unwound interrupted /\
    forall i, In i (map fst l) -> nth_error again i = nth_error left i /\ nth_error interrupted i = nth_error left i.
Proof.
  intros HJ X U l' X'.
  assert (FS : Forall (sane_job v e) jobs) by (eapply Forall_impl; [|exact HJ]; intros; apply handled_job_sane; auto).
  destruct (hash_unwound v e jobs l FS X) as (left0 & hurt & U0 & L & ND & K & T & H & FS'). unfold panics_after in U.
  rewrite U in U0. injection U0 as <-. rewrite <- L in X'.
  destruct (hash_many_ends v e left l' FS' X') as (again & E1 & E2 & _).
  destruct (hash_many_sane v e left l' FS' X') as (again' & E2' & _ & T2 & _). rewrite E2 in E2'. injection E2' as <-.
  destruct (hash_unwound v e left l' FS' X') as (inter & hurt' & U' & _ & _ & _ & T' & H' & _).
  exists again, inter. split; [exact E1|]. split; [exact U'|]. intros i Hi.
  assert (exists j, nth_error left i = Some j /\ hj_finished j = true) as (j & Hj & FJ).
  { destruct (in_dec Nat.eq_dec i hurt) as [I|I].
    - destruct (H i I) as (x & j0 & j' & w & A1 & A2 & A3 & A4 & A5 & _). exists j'. split; [exact A4|].
      pose proof (result_finished v l jobs i _ Hi (proj1 X) A5) as R. exact R.
    - specialize (T i I). destruct (nth_error left i) as [j|] eqn:N.
      + exists j. split; [reflexivity|]. symmetry in T. apply (result_finished v l jobs i _ Hi (proj1 X) T).
      + apply nth_error_None in N. apply in_map_iff in Hi. destruct Hi as ([i' x] & EI & Hi). cbn [fst] in EI. subst i'.
        pose proof (proj2 X i x Hi). lia. }
  rewrite Hj. split; [rewrite T2; apply result_same; auto|].
  destruct (in_dec Nat.eq_dec i hurt') as [I|I].
  - destruct (H' i I) as (x & j0 & j' & w & A1 & A2 & A3 & _). congruence.
  - rewrite (T' i I). apply result_same; auto.
Qed.
