(** The tests that paint or draw their inputs pass. *)
From Coq Require Import String.
From Coq Require Import ZArith Arith NArith List Bool Lia ZifyBool ZifyNat ZifyN.
From Coq Require Import Init.Byte.
From Verif Require Import Base ByteLemmas Guts Portable KernelSpec Simd Impl Loops LaneLoops Lib Many Par.
From Verif Require Import Spec ApiSpec Machine Api Runs ParamsProof BatchProof ApiProof Xof XofProof Suite SuiteProof Inputs PaintProof InputsProof.
Import ListNotations.
Open Scope list_scope.
Open Scope N_scope.
Local Notation length := List.length.

(** What rand promises: numbers in the range asked for, buffers of the length asked for. *)
Definition fair {R} (fill_bytes : R -> nat -> list byte * R) (range : R -> nat -> nat -> nat * R) : Prop :=
  (forall r n, length (fst (fill_bytes r n)) = n) /\
  (forall r low high, (low < high)%nat -> (low <= fst (range r low high) < high)%nat).

Section Draw.
Variables (v : variant) (e : env) (imp : platform) (Su : supported e imp).
Variables (R : Type) (fill_bytes : R -> nat -> list byte * R) (range : R -> nat -> nat -> nat * R) (gen : R -> bool * R).
Hypothesis Fair : fair fill_bytes range.

Lemma gen_range_ok r low high : (low < high)%nat ->
  exists n r', gen_range R range r low high = Ret (n, r') /\ (low <= n < high)%nat.
Proof.
  intros H. unfold gen_range. rewrite (proj2 (Nat.ltb_lt _ _) H). destruct Fair as [_ F]. specialize (F r low high H).
  destruct (range r low high) as [n r']. eauto.
Qed.

Lemma chain_app ss ss' : forall p, chain v p (ss ++ ss') = (do q <- chain v p ss; chain v q ss').
Proof.
  induction ss as [|s ss IH]; intros p; [reflexivity|]. cbn [app chain]. destruct (call_setter v s p) as [q o].
  destruct o; cbn [bind]; auto.
Qed.
Lemma chain_build ss : Forall (fun s => legal (fl v) s = true) ss -> chain v (params_new v imp) ss = Ret (build v imp ss).
Proof. intros H. apply chain_legal, H. Qed.
Lemma chain_build_app ss ss' : Forall (fun s => legal (fl v) s = true) ss -> Forall (fun s => legal (fl v) s = true) ss' ->
  chain v (build v imp ss) ss' = Ret (build v imp (ss ++ ss')).
Proof.
  intros H H'. rewrite <- (chain_build (ss ++ ss')) by (apply Forall_app; auto). rewrite chain_app, chain_build by auto. reflexivity.
Qed.

Lemma random_params_ok r : exists ss r', random_params v imp R range gen r = Ret (build v imp ss, r') /\ Forall typed ss.
Proof.
  unfold random_params. cbv zeta.
  destruct (gen_range_ok r 1 (outbytes v + 1)) as (n & r1 & E1 & H1); [destruct v; cbn; lia|]. rewrite E1. cbn [bind].
  assert (L1 : Forall (fun s => legal (fl v) s = true) [HashLength n]).
  { constructor; [|constructor]. cbn [legal]. rewrite max_out_fl. apply andb_true_intro. split; apply Nat.leb_le; lia. }
  rewrite (chain_build _ L1). cbn [bind]. destruct (gen r1) as [keyed r2].
  assert (X : exists ss r3, (if keyed then
      do '(len, r) <- gen_range R range r2 1 (keybytes v + 1);
      do key <- slice (repeat x01 (keybytes v)) 0 len;
      do params <- chain v (build v imp [HashLength n]) [Key key];
      Ret (params, r)
    else Ret (build v imp [HashLength n], r2)) = Ret (build v imp ss, r3) /\ Forall typed ss /\ Forall (fun s => legal (fl v) s = true) ss).
  { destruct keyed.
    - destruct (gen_range_ok r2 1 (keybytes v + 1)) as (len & r3 & E3 & H3); [destruct v; cbn; lia|]. rewrite E3. cbn [bind].
      unfold slice. rewrite repeat_length. rewrite (proj2 (Nat.leb_le 0 len)), (proj2 (Nat.leb_le len (keybytes v))) by lia. cbn [andb bind skipn].
      set (k := firstn _ _). assert (LK : (length k <= keybytes v)%nat) by (unfold k; rewrite firstn_length, repeat_length; lia).
      assert (L2 : Forall (fun s => legal (fl v) s = true) [Key k]).
      { constructor; [|constructor]. cbn [legal]. apply Nat.leb_le. destruct v; exact LK. }
      rewrite (chain_build_app _ _ L1 L2). cbn [bind]. eexists _, _. split; [reflexivity|].
      split; [repeat constructor|apply Forall_app; auto].
    - eexists _, _. split; [reflexivity|]. split; [repeat constructor|exact L1]. }
  destruct X as (ss & r3 & E3 & T3 & L3). rewrite E3. cbn [bind]. destruct (gen r3) as [ln r4].
  rewrite (chain_build_app ss [LastNode ln] L3) by (constructor; [reflexivity|constructor]). cbn [bind].
  eexists _, _. split; [reflexivity|]. apply Forall_app. split; [exact T3|]. repeat constructor.
Qed.

Lemma fill_bufs_ok n : forall r, exists bufs r', fill_bufs v R fill_bytes n r = (bufs, r') /\ length bufs = n /\
  Forall (fun b => length b = fuzz_max_len v) bufs.
Proof.
  induction n as [|n IH]; intros r; cbn [fill_bufs]; [eauto|].
  destruct Fair as [F _]. specialize (F r (fuzz_max_len v)). destruct (fill_bytes r (fuzz_max_len v)) as [b r1]. cbn in F.
  destruct (IH r1) as (bufs & r2 & E & L & A). rewrite E. eexists _, _. split; [reflexivity|]. cbn. split; [lia|]. constructor; auto.
Qed.
Lemma draw_inputs_ok cap bufs : Forall (fun b => length b = fuzz_max_len v) bufs -> forall is inputs r,
  (length inputs + length is <= cap)%nat -> Forall (fun i => (i < length bufs)%nat) is ->
  Forall (fun x => (length x <= fuzz_max_len v)%nat) inputs ->
  exists xs r', draw_inputs v R range cap bufs is inputs r = Ret (xs, r') /\ length xs = (length inputs + length is)%nat /\
    Forall (fun x => (length x <= fuzz_max_len v)%nat) xs.
Proof.
  intros HB is. induction is as [|i is IH]; intros inputs r C HI HX; cbn [draw_inputs].
  - eexists _, _. split; [reflexivity|]. cbn. split; [lia|exact HX].
  - inversion HI as [|? ? I1 I2]; subst. cbn [length] in C.
    destruct (gen_range_ok r 0 (fuzz_max_len v + 1)) as (len & r1 & E1 & H1); [lia|]. rewrite E1. cbn [bind].
    destruct (nth_error bufs i) as [b|] eqn:Eb; [|apply nth_error_None in Eb; lia].
    rewrite (at_index_ok _ _ _ Eb). cbn [bind].
    assert (Lb : length b = fuzz_max_len v) by (rewrite Forall_forall in HB; apply HB; eapply nth_error_In; exact Eb).
    unfold slice. rewrite (proj2 (Nat.leb_le 0 len)), (proj2 (Nat.leb_le len (length b))) by lia. cbn [andb bind skipn].
    set (x := firstn _ b). assert (Lx : (length x <= fuzz_max_len v)%nat) by (unfold x; rewrite firstn_length; lia).
    unfold push. rewrite (proj2 (Nat.ltb_lt _ _)) by lia. cbn [bind].
    destruct (IH (inputs ++ [x]) r1) as (xs & r2 & E2 & L2 & A2).
    + rewrite app_length. cbn. lia.
    + exact I2.
    + apply Forall_app. split; [exact HX|constructor; [exact Lx|constructor]].
    + rewrite E2. eexists _, _. split; [reflexivity|]. split; [|exact A2]. rewrite L2, app_length. cbn. lia.
Qed.
Lemma draw_params_ok cap n : forall sss r, (length sss + n <= cap)%nat -> Forall (Forall typed) sss ->
  exists sss' r', draw_params v imp R range gen cap n (map (build v imp) sss) r = Ret (map (build v imp) sss', r') /\
    length sss' = (length sss + n)%nat /\ Forall (Forall typed) sss'.
Proof.
  induction n as [|n IH]; intros sss r C T; cbn [draw_params].
  - eexists _, _. split; [reflexivity|]. split; [lia|exact T].
  - destruct (random_params_ok r) as (ss & r1 & E & T1). rewrite E. cbn [bind].
    unfold push. rewrite map_length. rewrite (proj2 (Nat.ltb_lt _ _)) by lia. cbn [bind].
    replace (map (build v imp) sss ++ [build v imp ss]) with (map (build v imp) (sss ++ [ss])) by (rewrite map_app; reflexivity).
    destruct (IH (sss ++ [ss]) r1) as (sss' & r2 & E2 & L2 & A2).
    + rewrite app_length. cbn. lia.
    + apply Forall_app. split; [exact T|constructor; [exact T1|constructor]].
    + rewrite E2. eexists _, _. split; [reflexivity|]. split; [|exact A2]. rewrite L2, app_length. cbn. lia.
Qed.

(** A body that accepts every list of built parameters with short inputs. *)
Definition accepts (len : nat) (f : list Lib.params -> list (list byte) -> outcome unit) : Prop :=
  forall sss xs, length sss = length xs -> Forall (Forall typed) sss ->
    Forall (fun x => (length x <= len)%nat) xs -> f (map (build v imp) sss) xs = Ret tt.

Lemma with_random_inputs_ok tests x86 f r : accepts (fuzz_max_len v) f ->
  with_random_inputs v imp R fill_bytes range gen tests x86 f r = Ret tt.
Proof.
  intros A. unfold with_random_inputs. destruct (fill_bufs_ok (fuzz_max_n v x86) r) as (bufs & r0 & E & L & FB). rewrite E.
  clear E r. revert r0. induction tests as [|tests IH]; intros r; cbn [fuzz_cases]; [reflexivity|].
  destruct (gen_range_ok r 0 (fuzz_max_n v x86 + 1)) as (n & r1 & E1 & H1); [lia|]. rewrite E1. cbn [bind].
  destruct (draw_inputs_ok (fuzz_max_n v x86) bufs FB (seq 0 n) [] r1) as (xs & r2 & E2 & L2 & A2).
  { rewrite seq_length. cbn [length]. lia. } { apply Forall_forall. intros i Hi. apply in_seq in Hi. lia. } { constructor. }
  rewrite E2. cbn [bind]. rewrite seq_length in L2. cbn in L2.
  destruct (draw_params_ok (fuzz_max_n v x86) n [] r2) as (sss & r3 & E3 & L3 & A3). { cbn [length]. lia. } { constructor. }
  change (map (build v imp) []) with (@nil Lib.params) in E3. rewrite E3. cbn [bind]. cbn in L3. rewrite A by (auto; lia). cbn [bind]. apply IH.
Qed.
End Draw.

Section Bodies.
Variables (v : variant) (e : env) (imp : platform) (Su : supported e imp).

Definition reqs (sss : list (list setting)) (xs : list (list byte)) : list request :=
  map (fun '(ss, x) => (imp, ss, x)) (combine sss xs).
Lemma reqs_params sss : forall xs, length sss = length xs -> map (asked_params v) (reqs sss xs) = map (build v imp) sss.
Proof.
  unfold reqs. induction sss as [|ss sss IH]; intros [|x xs] L; try discriminate L; [reflexivity|]. cbn. f_equal. apply IH. cbn in L. lia.
Qed.
Lemma reqs_inputs sss : forall xs, length sss = length xs -> map asked_input (reqs sss xs) = xs.
Proof.
  unfold reqs. induction sss as [|ss sss IH]; intros [|x xs] L; try discriminate L; [reflexivity|]. cbn. f_equal. apply IH. cbn in L. lia.
Qed.
Lemma reqs_ok sss xs : Forall (Forall typed) sss -> Forall (askable e) (reqs sss xs).
Proof.
  intros T. apply Forall_forall. intros r H. apply in_map_iff in H. destruct H as ([ss x] & <- & H). apply in_combine_l in H.
  rewrite Forall_forall in T. split; [exact Su|]. apply T, H.
Qed.
Lemma hash_many_accepts n : accepts v imp n (fuzz_hash_many v e).
Proof.
  intros sss xs L T _. rewrite <- (reqs_params sss xs L). rewrite <- (reqs_inputs sss xs L) at 2. apply fuzz_hash_many_ok, reqs_ok, T.
Qed.
Lemma update_many_accepts n : 2 * N.of_nat n < 2 ^ 63 -> accepts v imp n (fuzz_update_many v e).
Proof.
  intros B sss xs L T X. rewrite <- (reqs_params sss xs L). rewrite <- (reqs_inputs sss xs L) at 2.
  apply fuzz_update_many_ok; [apply reqs_ok, T|]. apply Forall_forall. intros r H. apply (in_map asked_input) in H.
  rewrite (reqs_inputs sss xs L) in H. rewrite Forall_forall in X. specialize (X _ H). lia.
Qed.

(** ** Painted inputs *)
Lemma painted n : N.of_nat n <= 1000000 -> exists p, paint_test_input (e_dbg e) (zeros n) = Ret p /\ length p = n.
Proof.
  intros H. exists (pattern n). unfold zeros. rewrite paint_is; rewrite repeat_length; [|unfold paint_limit; lia].
  rewrite pattern_length. auto.
Qed.

Lemma chunk_inputs_ok len start input : (0 < len)%nat -> (len * blockbytes v <= length input)%nat ->
  exists xs, chunk_inputs v len start input = Ret xs /\ length xs = len /\ Forall (fun x => (length x <= length input)%nat) xs.
Proof.
  intros P L. unfold chunk_inputs.
  exists (map (fun i => firstn (((i + start) mod len) * blockbytes v) input) (seq 0 len)). split.
  - apply mapM_Ret. intros i _. pose proof (Nat.mod_upper_bound (i + start) len ltac:(lia)).
    assert ((i + start) mod len * blockbytes v <= len * blockbytes v)%nat by (apply Nat.mul_le_mono_r; lia).
    unfold slice. rewrite (proj2 (Nat.leb_le 0 _)), (proj2 (Nat.leb_le _ (length input))) by lia. cbn [andb skipn]. rewrite Nat.sub_0_r. reflexivity.
  - split; [rewrite map_length, seq_length; reflexivity|]. apply Forall_map, Forall_forall. intros i _. rewrite firstn_length. lia.
Qed.
Lemma numbered_params_ok len : (len <= 1000)%nat -> exists sss, numbered_params v imp len = Ret (map (build v imp) sss) /\ length sss = len /\
  Forall (Forall typed) sss.
Proof.
  intros P. pose (f := fun i : nat => if Nat.eqb (i mod 2) 1 then [NodeOffset (N.of_nat i); LastNode true; Key [x66; x6f; x6f]] else [NodeOffset (N.of_nat i)]).
  exists (map f (seq 0 len)). split; [|split; [rewrite map_length, seq_length; reflexivity|]].
  - rewrite map_map. apply mapM_Ret. intros i Hi. apply in_seq in Hi. unfold f.
    assert (L1 : Forall (fun s => legal (fl v) s = true) [NodeOffset (N.of_nat i)]).
    { constructor; [|constructor]. cbn [legal]. destruct v; [reflexivity|]. apply N.ltb_lt. change (2 ^ 48) with 281474976710656. lia. }
    rewrite (chain_build v imp _ L1). cbn [bind]. destruct (Nat.eqb (i mod 2) 1); [|reflexivity].
    rewrite (chain_build_app v imp _ _ L1); [reflexivity|]. constructor; [reflexivity|]. constructor; [destruct v; reflexivity|constructor].
  - apply Forall_map, Forall_forall. intros i Hi. apply in_seq in Hi. unfold f.
    assert (typed (NodeOffset (N.of_nat i))) by (cbn [typed]; change (2 ^ 64) with 18446744073709551616; lia).
    destruct (Nat.eqb (i mod 2) 1); repeat constructor; auto.
Qed.
Lemma painted_many_ok x86 f : (forall n, N.of_nat n <= 1000000 -> accepts v imp n f) -> painted_many v e imp x86 f = Ret tt.
Proof.
  intros A. unfold painted_many. cbv zeta. set (len := (2 * max_degree v x86 - 1)%nat).
  assert (HL : (0 < len <= 15)%nat) by (unfold len, max_degree; destruct x86, v; cbn; lia).
  assert (HB : (blockbytes v <= 128)%nat) by (destruct v; cbn; lia).
  destruct (painted (len * blockbytes v)) as (p & E & L); [nia|]. rewrite E. cbn [bind].
  apply each_ok. intros s _. destruct (chunk_inputs_ok len s p) as (xs & Ex & Lx & Fx); [lia|lia|]. rewrite Ex. cbn [bind].
  destruct (numbered_params_ok len) as (sss & Es & Ls & Ts); [lia|]. rewrite Es. cbn [bind].
  apply (A (length p)); auto; [nia|congruence].
Qed.
End Bodies.
