(** The work of each method: how many blocks it compresses. *)
From Coq Require Import String Ascii.
From Coq Require Import ZArith Arith NArith List Bool Lia ZifyBool ZifyNat ZifyN.
From Verif Require Import Base ByteLemmas Guts Portable Intrinsics KernelSpec Simd Impl Loops LaneLoops Sched SchedProof.
From Verif Require Import Lib StateProof ParamsProof FedProof Many ManyProof Par Stripe ParProof ParFed HashProof.
From Verif Require Spec ApiSpec.
From Verif Require Import Machine Api ApiProof Leak LeakErase WorkSpec WorkProof WorkSched.
Import ListNotations.
Open Scope list_scope.
Open Scope nat_scope.
Local Notation length := List.length.

(** ** Counting blocks *)
Lemma nb_eq v d : Spec.num_blocks (fl v) d = S ((length d - 1) / blockbytes v).
Proof.
  rewrite num_blocks_eq. pose proof (blockbytes_pos v) as B. destruct (length d) as [|n].
  - cbn [Nat.add Nat.sub]. rewrite (Nat.div_small (blockbytes v - 1)), (Nat.div_small 0) by lia. reflexivity.
  - replace (S n + blockbytes v - 1) with (1 * blockbytes v + n) by lia. rewrite Nat.div_add_l by lia.
    replace (S n - 1) with n by lia. generalize (n / blockbytes v). intros. lia.
Qed.
Lemma nb_need v d : Spec.num_blocks (fl v) d = need v Serial (length d).
Proof. apply nb_eq. Qed.

Lemma need_mult v q : 0 < q -> need v Serial (q * blockbytes v) = q.
Proof.
  intros H. unfold need. cbn [padded_blockbytes]. pose proof (blockbytes_pos v) as B. destruct q as [|q]; [lia|]. f_equal.
  replace (S q * blockbytes v - 1) with (q * blockbytes v + (blockbytes v - 1)) by lia.
  rewrite Nat.div_add_l, Nat.div_small by lia. lia.
Qed.
Lemma need_one v n : n <= blockbytes v -> need v Serial n = 1.
Proof. intros H. unfold need. cbn [padded_blockbytes]. rewrite Nat.div_small; [reflexivity|]. pose proof (blockbytes_pos v). lia. Qed.

Lemma ones_pos n : positive (repeat 1 n).
Proof. apply ge1_repeat. lia. Qed.
Lemma pos_nil : positive [].
Proof. constructor. Qed.

(** ** State *)
Record buffer_ok (v : variant) (s : state) : Prop := {
  bo_len : length (s_buf s) = blockbytes v;
  bo_le : s_buflen s <= blockbytes v }.
Lemma buffer_of v h0 d k s : absorbed v h0 d k s -> buffer_ok v s.
Proof. intros []. constructor; auto. Qed.

Lemma q_fill v e s x : ks (fill_buf_lk v e s x) = [].
Proof. unfold fill_buf_lk. qt. Qed.
Lemma fill_inv v e s x s' y : buffer_ok v s -> snd (fill_buf_lk v e s x) = Ret (s', y) ->
  buffer_ok v s' /\ length y = length x - (blockbytes v - s_buflen s) /\
  s_buflen s' = s_buflen s + Nat.min (blockbytes v - s_buflen s) (length x).
Proof.
  intros [B1 B2] H. rewrite fill_buf_erase in H. unfold fill_buf in H.
  set (t := Nat.min (blockbytes v - s_buflen s) (length x)) in *. pose proof (bb_lt_256 v) as B.
  assert (Ht : t <= length x /\ s_buflen s + t <= blockbytes v) by (unfold t; lia).
  rewrite slice0_ok in H by lia. cbn [bind] in H.
  assert (Lt : length (firstn t x) = t) by (apply firstn_length_le; lia).
  rewrite copy_into_ok in H by lia. cbn [bind] in H. unfold add_small in H. rewrite as_u8_id in H by lia.
  destruct (Nat.ltb_spec (s_buflen s + t) 256); [|lia]. cbn [bind] in H.
  rewrite slice_from_ok in H by lia. cbn [bind] in H. injection H as <- <-. stf.
  rewrite skipn_length. split; [|split; [unfold t; lia|reflexivity]].
  constructor; stf; [|lia]. rewrite !app_length, firstn_length, skipn_length, Lt. lia.
Qed.

Lemma cbip_work v e s x s' y : buffer_ok v s -> snd (compress_buffer_if_possible_lk v e s x) = Ret (s', y) ->
  buffer_ok v s' /\
  ((ks (compress_buffer_if_possible_lk v e s x) = [] /\ s_buflen s = 0 /\ y = x) \/
   (ks (compress_buffer_if_possible_lk v e s x) = [] /\ s_buflen s + length x <= blockbytes v /\ y = []) \/
   (ks (compress_buffer_if_possible_lk v e s x) = [1] /\ blockbytes v < s_buflen s + length x /\
    length y = s_buflen s + length x - blockbytes v)).
Proof.
  intros B H. unfold compress_buffer_if_possible_lk in *. rewrite snd_branch in H. rewrite ks_branch.
  destruct (Nat.ltb_spec 0 (s_buflen s)) as [Pos|Zero].
  - destruct (lbind_inv _ _ _ H) as ([s1 y1] & H1 & H2 & ->). clear H. rewrite q_fill. cbn [app].
    destruct (fill_inv _ _ _ _ _ _ B H1) as (B1 & L1 & L2). rewrite snd_branch in H2. rewrite ks_branch.
    pose proof (bo_le _ _ B) as LE.
    destruct y1 as [|b r]; cbn [is_empty] in *.
    + injection H2 as <- <-. split; [exact B1|]. right. left. rewrite ks_ret. cbn [length] in L1. repeat split; auto. lia.
    + destruct (lbind_inv _ _ _ H2) as (ws & H3 & H4 & ->). injection H4 as <- <-.
      rewrite (ks_c1 _ _ _ _ _ _ _ _ _ _ H3), ks_ret, app_nil_r.
      rewrite (bo_len _ _ B1), need_one by lia. split; [constructor; stf; [apply B1|lia]|].
      right. right. cbn [length] in *. repeat split; auto; lia.
  - injection H as <- <-. rewrite ks_ret. split; [exact B|]. left. repeat split; auto. lia.
Qed.

Lemma rounded v len : 0 < blockbytes v -> len - len mod blockbytes v = len / blockbytes v * blockbytes v.
Proof.
  intros. pose proof (Nat.div_mod len (blockbytes v) ltac:(lia)) as D. rewrite (Nat.mul_comm (len / _)).
  revert D. generalize (len mod blockbytes v), (blockbytes v * (len / blockbytes v)). intros. lia.
Qed.

Lemma tail_blocks B bl lx ly w : 0 < B -> bl <= B ->
  ((w = 0 /\ bl = 0 /\ ly = lx) \/ (w = 0 /\ bl + lx <= B /\ ly = 0) \/ (w = 1 /\ B < bl + lx /\ ly = bl + lx - B)) ->
  w + (ly - 1) / B = (bl + lx - 1) / B.
Proof.
  intros P LE [(-> & -> & ->)|[(-> & H & ->)|(-> & H & ->)]].
  - reflexivity.
  - rewrite !Nat.div_small by lia. reflexivity.
  - replace (bl + lx - 1) with (1 * B + (bl + lx - B - 1)) by lia. rewrite Nat.div_add_l by lia. lia.
Qed.

Lemma update_work v e s x s' : buffer_ok v s -> snd (update_lk v e s x) = Ret s' ->
  list_sum (ks (update_lk v e s x)) = (s_buflen s + length x - 1) / blockbytes v.
Proof.
  intros B H. unfold update_lk in *. pose proof (blockbytes_pos v) as BP.
  destruct (lbind_inv _ _ _ H) as ([s1 y] & H1 & H2 & ->). clear H.
  destruct (cbip_work _ _ _ _ _ _ B H1) as (B1 & CS).
  set (t0 := ks (compress_buffer_if_possible_lk v e s x)) in *. clearbody t0.
  rewrite <- (tail_blocks (blockbytes v) (s_buflen s) (length x) (length y) (list_sum t0) BP (bo_le _ _ B)).
  2:{ destruct CS as [(-> & H & ->)|[(-> & H & ->)|(-> & H & H')]]; [left|right; left|right; right]; repeat split; auto. }
  clear CS. rewrite list_sum_app. f_equal.
  destruct (lbind_inv _ _ _ H2) as (e1 & H3 & H4 & ->). clear H2. injection H3 as <-.
  change (ks (sat_sub_lk (length y) 1)) with (@nil nat). cbn [app].
  destruct (lbind_inv _ _ _ H4) as (e2 & H5 & H6 & ->). clear H4. injection H5 as <-.
  change (ks (round_down_lk (sat_sub (length y) 1) (blockbytes v))) with (@nil nat). cbn [app].
  destruct (lbind_inv _ _ _ H6) as ([s2 z] & H7 & H8 & ->). clear H6.
  destruct (lbind_inv _ _ _ H8) as ([s3 z'] & H9 & H10 & ->). rewrite q_fill, ks_ret. cbn [app]. rewrite app_nil_r.
  rewrite snd_branch in H7. rewrite ks_branch. unfold sat_sub in *. rewrite rounded in * by auto.
  set (q := (length y - 1) / blockbytes v) in *.
  destruct (Nat.ltb_spec 0 (q * blockbytes v)) as [Pos|Zero].
  - destruct (lbind_inv _ _ _ H7) as (bl & K1 & K2 & ->). apply slice_inv in K1. destruct K1 as [-> K1].
    change (ks (slice_lk y 0 (q * blockbytes v))) with (@nil nat). cbn [app].
    destruct (lbind_inv _ _ _ K2) as (ws & K3 & K4 & ->). rewrite (ks_c1 _ _ _ _ _ _ _ _ _ _ K3).
    rewrite q_bind by (intros; reflexivity). rewrite app_nil_r, list_sum_repeat, firstn_length, skipn_length.
    rewrite Nat.min_l by lia. rewrite Nat.sub_0_r, need_mult by nia. lia.
  - rewrite ks_ret. cbn. nia.
Qed.

Lemma finalize_work v e s h : buffer_ok v s -> snd (finalize_lk v e s) = Ret h ->
  ks (finalize_lk v e s) = [1].
Proof.
  intros B H. unfold finalize_lk in *. destruct (lbind_inv _ _ _ H) as (i & H1 & H2 & ->). apply slice_inv in H1. destruct H1 as [-> L].
  destruct (lbind_inv _ _ _ H2) as (ws & H3 & _ & ->). rewrite (ks_c1 _ _ _ _ _ _ _ _ _ _ H3).
  change (ks (slice_lk (s_buf s) 0 (s_buflen s))) with (@nil nat). rewrite ks_ret, app_nil_r. cbn [app].
  rewrite need_one; [reflexivity|]. rewrite firstn_length. pose proof (bo_le _ _ B). lia.
Qed.

Lemma holds_blocks v e c msg s : holds v e c msg s ->
  buffer_ok v s /\ forall x, (s_buflen s + length x - 1) / blockbytes v = update_blocks (fl v) (ApiSpec.c_key c) msg x.
Proof.
  intros H. destruct (hd_abs _ _ _ _ _ H) as (k & A & NE). split; [eapply buffer_of; eauto|]. intros x.
  unfold update_blocks. rewrite data_app, !nb_eq, app_length, (ab_len _ _ _ _ _ A). pose proof (blockbytes_pos v) as BP.
  destruct (Nat.eq_dec (s_buflen s + length x) 0) as [Z|NZ].
  - assert (s_buflen s = 0 /\ length x = 0 /\ k = 0) as (-> & -> & ->) by lia. cbn [Nat.mul Nat.add Nat.sub].
    rewrite Nat.div_0_l by lia. reflexivity.
  - replace (k * blockbytes v + s_buflen s + length x - 1) with (k * blockbytes v + (s_buflen s + length x - 1)) by lia.
    rewrite Nat.div_add_l by lia.
    assert (E : (k * blockbytes v + s_buflen s - 1) / blockbytes v = k).
    { pose proof (ab_le _ _ _ _ _ A). destruct (Nat.eq_dec k 0) as [->|NK].
      - apply Nat.div_small. lia.
      - replace (k * blockbytes v + s_buflen s - 1) with (k * blockbytes v + (s_buflen s - 1)) by lia.
        rewrite Nat.div_add_l, Nat.div_small by lia. lia. }
    rewrite E. generalize ((s_buflen s + length x - 1) / blockbytes v). intros. lia.
Qed.

Lemma update_holds_work v e c msg s x : holds v e c msg s ->
  list_sum (ks (update_lk v e s x)) = update_blocks (fl v) (ApiSpec.c_key c) msg x.
Proof.
  intros H. destruct (holds_blocks _ _ _ _ _ H) as [B E]. rewrite <- E.
  destruct (holds_update _ _ _ _ _ x H) as (s' & U & _). rewrite <- update_erase in U. eapply update_work; eauto.
Qed.
Lemma finalize_holds_work v e c msg s : holds v e c msg s -> ks (finalize_lk v e s) = [1].
Proof.
  intros H. destruct (holds_blocks _ _ _ _ _ H) as [B _]. pose proof (holds_finalize _ _ _ _ _ H) as F.
  rewrite <- finalize_erase in F. eapply finalize_work; eauto.
Qed.

Lemma params_hash_work v e imp c m : wf_config (fl v) c -> supported e imp ->
  list_sum (ks (params_hash_lk v e (params_of v imp c) m)) = Spec.num_blocks (fl v) (Spec.data (fl v) (ApiSpec.c_key c) m).
Proof.
  intros W S. pose proof (params_hash_spec v e imp c m W S) as P. rewrite <- params_hash_erase in P.
  unfold params_hash_lk in *. rewrite snd_branch in P. rewrite ks_branch.
  assert (KP : N.ltb 0 (p_key_length (params_of v imp c)) = keyed c).
  { pose proof (key_length_pos v c W) as K. rewrite <- K. reflexivity. }
  rewrite KP in *. destruct (keyed c) eqn:K.
  - destruct (lbind_inv _ _ _ P) as (s & P1 & P2 & ->). injection P1 as P1.
    change (ks (to_state_lk v (params_of v imp c))) with (compressions (fst (with_params_lk v (params_of v imp c)))).
    unfold with_params_lk, emit. cbn [fst]. rewrite KP. cbn [compressions flat_map app].
    pose proof (holds_new v e imp c W S) as Hn. unfold to_state in Hn. rewrite P1 in Hn.
    destruct (lbind_inv _ _ _ P2) as (s2 & P3 & P4 & ->).
    destruct (holds_update _ _ _ _ _ m Hn) as (s2' & U & Hu & _). rewrite update_erase in P3. rewrite U in P3. injection P3 as <-.
    rewrite list_sum_app, (update_holds_work _ _ _ _ _ _ Hn), (finalize_holds_work _ _ _ _ _ Hu).
    unfold update_blocks. rewrite app_nil_l.
    assert (E : Spec.num_blocks (fl v) (Spec.data (fl v) (ApiSpec.c_key c) []) = 1).
    { rewrite nb_eq, data_length by auto. unfold key_bytes. rewrite K. cbn [length]. rewrite Nat.add_0_r, Nat.div_small; [reflexivity|].
      pose proof (blockbytes_pos v). lia. }
    rewrite E. cbn [list_sum fold_right]. rewrite (nb_eq v (Spec.data _ _ m)).
    generalize ((length (Spec.data (fl v) (ApiSpec.c_key c) m) - 1) / blockbytes v). intros. lia.
  - destruct (lbind_inv _ _ _ P) as (ws & P1 & _ & ->). rewrite (ks_c1 _ _ _ _ _ _ _ _ _ _ P1), ks_ret, app_nil_r, list_sum_repeat.
    rewrite nb_need. unfold keyed in K. destruct (ApiSpec.c_key c); [|discriminate]. unfold Spec.data. lia.
Qed.

(** ** Batches of states *)
Lemma update_prep_work v e x s s' (p : prepared) : buffer_ok v s -> snd (update_prep_lk v e x s) = Ret (s', p) ->
  list_sum (ks (update_prep_lk v e x s)) + match p with Some (input, _, _) => need v Serial (length input) | None => 0 end
  = (s_buflen s + length x - 1) / blockbytes v.
Proof.
  intros B H. unfold update_prep_lk, prepared in *. cbv zeta in *. pose proof (blockbytes_pos v) as BP.
  destruct (lbind_inv _ _ _ H) as ([s1 y] & H1 & H2 & ->). clear H.
  destruct (cbip_work _ _ _ _ _ _ B H1) as (B1 & CS).
  set (t0 := ks (compress_buffer_if_possible_lk v e s x)) in *. clearbody t0.
  rewrite <- (tail_blocks (blockbytes v) (s_buflen s) (length x) (length y) (list_sum t0) BP (bo_le _ _ B)).
  2:{ destruct CS as [(-> & H & ->)|[(-> & H & ->)|(-> & H & H')]]; [left|right; left|right; right]; repeat split; auto. }
  clear CS. rewrite list_sum_app, <- Nat.add_assoc. f_equal.
  rewrite snd_branch in H2. rewrite ks_branch. destruct y as [|b r]; cbn [is_empty] in *.
  - injection H2 as <- <-. rewrite ks_ret. cbn [length Nat.sub]. rewrite Nat.div_0_l by lia. reflexivity.
  - set (y := b :: r) in *. clearbody y.
    destruct (lbind_inv _ _ _ H2) as (e2 & H5 & H6 & ->). clear H2. injection H5 as <-.
    change (ks (round_down_lk (length y - 1) (blockbytes v))) with (@nil nat). cbn [app].
    destruct (lbind_inv _ _ _ H6) as (bl & H7 & H8 & ->). clear H6. apply slice_inv in H7. destruct H7 as [-> L7].
    change (ks (slice_lk y _ _)) with (@nil nat). cbn [app].
    destruct (lbind_inv _ _ _ H8) as (lb & H9 & H10 & ->). clear H8.
    change (ks (slice_from_lk y _)) with (@nil nat). cbn [app].
    destruct (lbind_inv _ _ _ H10) as (bf & H11 & H12 & ->). clear H10.
    change (ks (copy_into_lk _ _ _)) with (@nil nat). cbn [app].
    rewrite ks_branch. rewrite snd_branch in H12. rewrite Nat.sub_0_r in *. cbn [skipn] in *.
    rewrite rounded in * by auto. set (q := (length y - 1) / blockbytes v) in *.
    assert (LF : length (firstn (q * blockbytes v) y) = q * blockbytes v) by (apply firstn_length_le; lia).
    destruct (firstn (q * blockbytes v) y) as [|b' r'] eqn:F; cbn [is_empty] in *.
    + injection H12 as <- <-. rewrite ks_ret. cbn [length] in LF. cbn. nia.
    + injection H12 as <- <-. rewrite ks_ret. change (list_sum []) with 0. rewrite Nat.add_0_l, LF, need_mult; [reflexivity|].
      cbn [length] in LF. nia.
Qed.

Lemma cbip_pos v e s x r : snd (compress_buffer_if_possible_lk v e s x) = Ret r ->
  positive (ks (compress_buffer_if_possible_lk v e s x)).
Proof.
  intros H. unfold compress_buffer_if_possible_lk in *. rewrite snd_branch in H. rewrite ks_branch.
  destruct (Nat.ltb 0 (s_buflen s)); [|apply pos_nil].
  destruct (lbind_inv _ _ _ H) as ([s1 y1] & _ & H2 & ->). rewrite q_fill. cbn [app].
  rewrite snd_branch in H2. rewrite ks_branch. destruct (is_empty y1); [apply pos_nil|].
  destruct (lbind_inv _ _ _ H2) as (ws & H3 & _ & ->). rewrite (ks_c1 _ _ _ _ _ _ _ _ _ _ H3), ks_ret, app_nil_r. apply ones_pos.
Qed.
Lemma update_prep_ks v e x s r : snd (update_prep_lk v e x s) = Ret r ->
  ks (update_prep_lk v e x s) = ks (compress_buffer_if_possible_lk v e s x) /\
  exists z, snd (compress_buffer_if_possible_lk v e s x) = Ret z.
Proof.
  intros H. unfold update_prep_lk, prepared in *. cbv zeta in *.
  destruct (lbind_inv _ _ _ H) as ([s1 y] & H1 & H2 & ->). rewrite H1. split; [|eauto].
  assert (Q : forall t : list nat, t = [] -> ks (compress_buffer_if_possible_lk v e s x) ++ t = ks (compress_buffer_if_possible_lk v e s x))
    by (intros t ->; apply app_nil_r). apply Q. qt.
Qed.
Lemma update_prep_pos v e x s r : snd (update_prep_lk v e x s) = Ret r -> positive (ks (update_prep_lk v e x s)).
Proof. intros H. destruct (update_prep_ks _ _ _ _ _ H) as [-> (z & Z)]. eapply cbip_pos; eauto. Qed.
Lemma update_prep_runs v e x s r : buffer_ok v s -> snd (update_prep_lk v e x s) = Ret r ->
  length (ks (update_prep_lk v e x s)) <= 1.
Proof.
  intros B H. destruct (update_prep_ks _ _ _ _ _ H) as [-> ([s' y] & Z)].
  destruct (cbip_work _ _ _ _ _ _ B Z) as (_ & [(-> & _)|[(-> & _)|(-> & _)]]); cbn; lia.
Qed.

Lemma sum_map_ext {X} (f g : X -> nat) l : (forall x, In x l -> f x = g x) -> list_sum (map f l) = list_sum (map g l).
Proof. intros H. f_equal. apply map_ext_in. auto. Qed.
Lemma sum_map_le {X} (f : X -> nat) l b : (forall x, In x l -> f x <= b) -> list_sum (map f l) <= length l * b.
Proof.
  intros H. rewrite <- (map_length f). apply list_sum_le_bound. apply Forall_forall. intros y Hy.
  apply in_map_iff in Hy. destruct Hy as (x & <- & Hx). auto.
Qed.

Lemma update_many_work v e states pairs (cost : nat * list byte -> nat) M :
  let items := upto_none pairs in
  NoDup (map fst items) ->
  (forall r x, In (r, x) items -> exists s c msg, nth_error states r = Some s /\ holds v e c msg s /\
     cost (r, x) = update_blocks (fl v) (ApiSpec.c_key c) msg x) ->
  (forall p, In p items -> cost p <= M) ->
  list_sum (ks (update_many_lk v e states pairs)) = list_sum (map cost items) /\
  (forall imp, (forall r x s, In (r, x) items -> nth_error states r = Some s -> s_imp s = imp) ->
   let d := degree v imp in let t := ks (update_many_lk v e states pairs) in
   d * length t <= list_sum t + (d - 1) * length items + (d - 1) * (d - 1) * M).
Proof.
  intros items ND HI HM.
  assert (READY : forall r x, In (r, x) items -> exists s c msg, nth_error states r = Some s /\ holds v e c msg s).
  { intros r x I. destruct (HI r x I) as (s & c & msg & H1 & H2 & _). eauto. }
  destruct (update_many_spec v e states pairs ND READY) as (states' & E & _). rewrite <- update_many_erase in E.
  unfold update_many_lk in *. destruct (i_peeked (peek pairs)) as [[r0 x0]|] eqn:EP.
  - destruct (peek_some _ _ _ EP) as (rest & EPr & EPk). rewrite EPk in *. rewrite snd_tell in E. rewrite ks_tell.
    cbn [compressions flat_map app].
    set (it := {| i_peeked := Some (r0, x0); i_src := rest; i_done := false; i_calls := 1 |}) in *.
    assert (PE : pend it = items) by (unfold items; rewrite EPr; reflexivity).
    destruct (lbind_inv _ _ _ E) as (s0 & E1 & E2 & ->). clear E. change (ks (cell_lk states r0)) with (@nil nat). cbn [app].
    destruct (lbind_inv _ _ _ E2) as ([it' states''] & E3 & _ & ->). clear E2.
    change (ks (ret (states'', i_calls it'))) with (@nil nat). rewrite app_nil_r.
    set (ic := item_cost (update_prep_lk v e) v Serial states). set (ir := item_runs (update_prep_lk v e) states).
    assert (C1 : forall p, In p items -> ic p = cost p /\ ir p <= 1).
    { intros [r x] I. destruct (HI r x I) as (s & c & msg & H1 & H2 & ->). unfold ic, ir, item_cost, item_runs. cbn [fst snd].
      rewrite H1. destruct (holds_blocks _ _ _ _ _ H2) as [B HB]. rewrite <- HB.
      destruct (update_prep_spec v e c msg s x H2) as (PG & _). unfold prep_good in PG.
      unfold icost, iruns.
      destruct (snd (update_prep_lk v e x s)) as [[s' p]| | |] eqn:SP.
      - rewrite <- (update_prep_work _ _ _ _ _ _ B SP). split; [|eapply update_prep_runs; eauto].
        destruct p as [[[i cc] l]|]; reflexivity.
      - exfalso. rewrite update_prep_erase in SP. rewrite SP in PG. destruct PG.
      - exfalso. rewrite update_prep_erase in SP. rewrite SP in PG. destruct PG.
      - exfalso. rewrite update_prep_erase in SP. rewrite SP in PG. destruct PG. }
    assert (HJ : J (update_prep_lk v e) v Serial states M (pend it) [] states).
    { rewrite PE. constructor; [exact ND|auto| |].
      - intros j [].
      - intros p I. fold ic. rewrite (proj1 (C1 p I)). auto. }
    destruct (compress_many_work s_words (fun s ws => set_s_words ws s) (update_prep_lk v e) v e (s_imp s0) false Serial
      states M (update_prep_pos v e) it states it' states'' HJ E3) as [W1 W2].
    rewrite PE in W1, W2. rewrite W1. split; [apply sum_map_ext; intros; apply C1; auto|].
    intros imp HS. cbv zeta in W2 |- *.
    assert (IE : s_imp s0 = imp).
    { apply (HS r0 x0); [unfold items; rewrite EPr; left; auto|]. revert E1. unfold cell_lk, cell, emit. cbn [snd].
      destruct (nth_error states r0); [congruence|discriminate]. }
    rewrite IE in *. rewrite W1 in W2. etransitivity; [exact W2|]. fold ic. apply Nat.add_le_mono_r, Nat.add_le_mono_l, Nat.mul_le_mono_l.
    unfold pruns. fold ir. rewrite <- (Nat.mul_1_r (length items)). apply sum_map_le. intros; apply C1; auto.
  - destruct (peek_none _ EP) as (U & _). unfold items. rewrite U. cbn. split; [reflexivity|]. intros. lia.
Qed.

(** ** Batches of hashes *)
Lemma hash_prep_q u j : ks (hash_prep_lk u j) = [].
Proof. unfold hash_prep_lk. qt. Qed.

Lemma hash_many_work v e jobs refs (cost : nat * unit -> nat) M :
  let items := upto_none refs in
  NoDup (map fst items) ->
  (forall r x, In (r, x) items -> exists j c msg, nth_error jobs r = Some j /\
     (pending v e c msg j \/ complete v e c msg j) /\
     cost (r, x) = if hj_finished j then 0 else Spec.num_blocks (fl v) msg) ->
  (forall p, In p items -> cost p <= M) ->
  list_sum (ks (hash_many_lk v e jobs refs)) = list_sum (map cost items) /\
  (forall imp, (forall r x j, In (r, x) items -> nth_error jobs r = Some j -> hj_imp j = imp) ->
   let d := degree v imp in let t := ks (hash_many_lk v e jobs refs) in
   d * length t <= list_sum t + (d - 1) * (d - 1) * M).
Proof.
  intros items ND HI HM.
  assert (READY : forall r x, In (r, x) items -> exists j c msg, nth_error jobs r = Some j /\ (pending v e c msg j \/ complete v e c msg j)).
  { intros r x I. destruct (HI r x I) as (s & c & msg & H1 & H2 & _). eauto. }
  destruct (hash_many_spec v e jobs refs ND READY) as (jobs' & E & _). rewrite <- hash_many_erase in E.
  unfold hash_many_lk in *. destruct (i_peeked (peek refs)) as [[r0 x0]|] eqn:EP.
  - destruct (peek_some _ _ _ EP) as (rest & EPr & EPk). rewrite EPk in *. rewrite snd_tell in E. rewrite ks_tell.
    cbn [compressions flat_map app].
    set (it := {| i_peeked := Some (r0, x0); i_src := rest; i_done := false; i_calls := 1 |}) in *.
    assert (PE : pend it = items) by (unfold items; rewrite EPr; reflexivity).
    destruct (lbind_inv _ _ _ E) as (j0 & E1 & E2 & ->). clear E. change (ks (cell_lk jobs r0)) with (@nil nat). cbn [app].
    destruct (lbind_inv _ _ _ E2) as ([it' jobs''] & E3 & _ & ->). clear E2.
    change (ks (ret (jobs'', i_calls it'))) with (@nil nat). rewrite app_nil_r.
    set (ic := item_cost hash_prep_lk v Serial jobs). set (ir := item_runs hash_prep_lk jobs).
    assert (C1 : forall p, In p items -> ic p = cost p /\ ir p = 0).
    { intros [r x] I. destruct (HI r x I) as (j & c & msg & H1 & H2 & ->). unfold ic, ir, item_cost, item_runs. cbn [fst snd].
      rewrite H1. unfold icost, iruns. rewrite hash_prep_q. split; [|reflexivity].
      change (list_sum []) with 0. rewrite hash_prep_erase. unfold hash_prep.
      destruct (hj_finished j) eqn:F; [reflexivity|].
      destruct H2 as [H2|H2]; [|pose proof (cj_fin _ _ _ _ _ H2); congruence].
      rewrite nb_need, <- (pj_input _ _ _ _ _ H2). reflexivity. }
    assert (HJ : J hash_prep_lk v Serial jobs M (pend it) [] jobs).
    { rewrite PE. constructor; [exact ND|auto| |].
      - intros j [].
      - intros p I. fold ic. rewrite (proj1 (C1 p I)). auto. }
    destruct (compress_many_work hj_words (fun j ws => set_hj_words ws j) hash_prep_lk v e (hj_imp j0) true Serial
      jobs M (fun a c x _ => eq_ind_r positive pos_nil (hash_prep_q a c)) it jobs it' jobs'' HJ E3) as [W1 W2].
    rewrite PE in W1, W2. rewrite W1. split; [apply sum_map_ext; intros; apply C1; auto|].
    intros imp HS. cbv zeta in W2 |- *.
    assert (IE : hj_imp j0 = imp).
    { apply (HS r0 x0); [unfold items; rewrite EPr; left; auto|]. revert E1. unfold cell_lk, cell, emit. cbn [snd].
      destruct (nth_error jobs r0); [congruence|discriminate]. }
    rewrite IE in *. rewrite W1 in W2. etransitivity; [exact W2|]. fold ic.
    assert (Z : pruns hash_prep_lk jobs items = 0).
    { unfold pruns. fold ir. pose proof (sum_map_le ir items 0 ltac:(intros p I; rewrite (proj2 (C1 p I)); lia)). lia. }
    rewrite Z. lia.
  - destruct (peek_none _ EP) as (U & _). unfold items. rewrite U. cbn. split; [reflexivity|]. intros. lia.
Qed.

Lemma job_new_work v e imp c m : wf_config (fl v) c -> supported e imp ->
  list_sum (ks (hash_many_job_new_lk v e (params_of v imp c) m)) = key_blocks (ApiSpec.c_key c).
Proof.
  intros W S. destruct (job_new_spec v e imp c m W S) as (j & E & _). rewrite <- job_new_erase in E.
  unfold hash_many_job_new_lk in *. destruct (lbind_inv _ _ _ E) as ([[ws cnt] fin] & E1 & _ & ->).
  change (ks (ret _)) with (@nil nat). rewrite app_nil_r. rewrite snd_branch in E1. rewrite ks_branch.
  assert (KP : N.ltb 0 (p_key_length (params_of v imp c)) = keyed c).
  { pose proof (key_length_pos v c W) as K. rewrite <- K. reflexivity. }
  rewrite KP in *. unfold key_blocks. unfold keyed in *. destruct (ApiSpec.c_key c) as [|b r] eqn:K.
  - reflexivity.
  - cbv zeta in *. rewrite snd_tell in E1. rewrite ks_tell. cbn [compressions flat_map app].
    destruct (lbind_inv _ _ _ E1) as (ws' & E2 & _ & ->). rewrite (ks_c1 _ _ _ _ _ _ _ _ _ _ E2), ks_ret, app_nil_r.
    rewrite list_sum_repeat, need_one; [reflexivity|].
    change (p_key_block (params_of v imp c)) with (Spec.pad_to (blockbytes v) (ApiSpec.c_key c)).
    rewrite keyed_pad_length by auto. lia.
Qed.
