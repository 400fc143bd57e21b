(** The vendored C library (Sneves.v): the kernels that compress four or eight messages at once
    compute the portable compression function in every lane. *)
From Coq Require Import ZArith Arith NArith List Bool Lia ZifyBool ZifyNat ZifyN.
From Verif Require Import Base ByteLemmas Guts Portable Intrinsics KernelSpec LaneLemmas RowKernels.
From Verif Require Import Simd Transposed SnevesIntrinsics SnevesLoad Sneves SnevesRows.
Import ListNotations.
Open Scope N_scope.

(** *** The register operations as an instance of the crate's *)
Definition simd_of (S : simd) (o : vops) : simd :=
  {| s_var := s_var S; s_degree := s_degree S; s_add := o_add o; s_eq := s_eq S; s_and := s_and S;
     s_negate_and := s_negate_and S; s_xor := XOR; s_set1 := s_set1 S; s_setn := s_setn S;
     s_rot1 := o_rot1 o; s_rot2 := o_rot2 o; s_rot3 := o_rot3 o; s_rot4 := o_rot4 o;
     s_transpose_vecs := s_transpose_vecs S |}.
Definition b_simd : simd := simd_of avx2b b_ops.
Definition s_simd : simd := simd_of avx2s s_ops.

Lemma b_simd_ok : simd_ok b_simd.
Proof.
  destruct avx2b_ok as [A X N1 N2 E S1 SN _ _ _ _ T D].
  exact (Build_simd_ok b_simd A X N1 N2 E S1 SN b_rot32_lane b_rot24_lane b_rot16_lane b_rot63_lane T D).
Qed.
Lemma s_simd_ok : simd_ok s_simd.
Proof.
  destruct avx2s_ok as [A X N1 N2 E S1 SN _ _ _ _ T D].
  exact (Build_simd_ok s_simd A X N1 N2 E S1 SN s_rot16_lane s_rot12_lane s_rot8_lane s_rot7_lane T D).
Qed.

(** *** A round *)
Definition stmt_ok (t : stmt) : Prop := match t with AddM _ k => (k < 16)%nat | _ => True end.
Lemma program_ok : Forall stmt_ok round_program.
Proof. unfold round_program. repeat constructor; cbn; lia. Qed.

Lemma exec_c_stmt S o sigma r w v t :
  (forall k, (k < 16)%nat -> (nth k sigma 0 / 32)%nat = sig (s_var S) r k) ->
  stmt_ok t -> exec_c o sigma w v t = exec_stmt (simd_of S o) r w v t.
Proof.
  intros H Ht. destruct t; try reflexivity.
  cbn [exec_c exec_stmt stmt_ok simd_of s_add s_var] in *. unfold load_at. rewrite H by auto. reflexivity.
Qed.
Lemma exec_c_program S o sigma r w ts :
  (forall k, (k < 16)%nat -> (nth k sigma 0 / 32)%nat = sig (s_var S) r k) ->
  forall v, Forall stmt_ok ts ->
  fold_left (exec_c o sigma w) ts v = fold_left (exec_stmt (simd_of S o) r w) ts v.
Proof.
  intros H. induction ts as [|t ts IH]; intros v F; cbn [fold_left]; auto.
  inversion F; subst. rewrite (exec_c_stmt S o sigma r) by auto. auto.
Qed.

Lemma b_sigma_sig r k : (r < 12)%nat -> (k < 16)%nat ->
  (nth k (nth r blake2b_sigma []) 0 / 32)%nat = sig V2b r k.
Proof.
  intros Hr Hk.
  do 12 (destruct r as [|r]; [do 16 (destruct k as [|k]; [vm_compute; reflexivity|]); lia|]). lia.
Qed.
Lemma s_sigma_sig r k : (r < 10)%nat -> (k < 16)%nat ->
  (nth k (nth r blake2s_sigma []) 0 / 32)%nat = sig V2s r k.
Proof.
  intros Hr Hk.
  do 10 (destruct r as [|r]; [do 16 (destruct k as [|k]; [vm_compute; reflexivity|]); lia|]). lia.
Qed.

Lemma b_round_v4_simd w v r : (r < 12)%nat -> b_round_v4 w v r = simd_round b_simd w v r.
Proof.
  intros Hr. unfold b_round_v4, simd_round. change b_round_v4_program with round_program.
  apply (exec_c_program avx2b); [|apply program_ok].
  intros k Hk. apply b_sigma_sig; auto.
Qed.
Lemma s_round_v8_simd w v r : (r < 10)%nat -> s_round_v8 w v r = simd_round s_simd w v r.
Proof.
  intros Hr. unfold s_round_v8, simd_round. change s_round_v8_program with round_program.
  apply (exec_c_program avx2s); [|apply program_ok].
  intros k Hk. apply s_sigma_sig; auto.
Qed.

Lemma fold_ext_in {A C} (f g : A -> C -> A) (cs : list C) :
  (forall a c, In c cs -> f a c = g a c) -> forall a, fold_left f cs a = fold_left g cs a.
Proof.
  induction cs as [|c cs IH]; intros H a; cbn [fold_left]; auto.
  rewrite H by (left; auto). apply IH. intros. apply H. right; auto.
Qed.

(** *** A whole compression, in lane [l] *)
Lemma wide_view S l h w x4 x5 x6 x7 block c f0 f1 :
  simd_ok S -> (l < s_degree S)%nat -> length h = 8%nat ->
  let v := s_var S in
  let c_ i := s_set1 S (nth i (iv v) 0) in
  let vr := fold_left (simd_round S w) (seq 0 (num_rounds v))
              (h ++ [c_ 0%nat; c_ 1%nat; c_ 2%nat; c_ 3%nat; x4; x5; x6; x7]) in
  view S l w = msg_words v block ->
  lane (wbytes v) x4 l = N.lxor (nth 4 (iv v) 0) (count_low v c) ->
  lane (wbytes v) x5 l = N.lxor (nth 5 (iv v) 0) (count_high v c) ->
  lane (wbytes v) x6 l = N.lxor (nth 6 (iv v) 0) f0 ->
  lane (wbytes v) x7 l = N.lxor (nth 7 (iv v) 0) f1 ->
  view S l (map (fun i => s_xor S (s_xor S (nth i vr []) (nth (i + 8) vr [])) (nth i h [])) (seq 0 8)) =
  compress_block v block (view S l h) c f0 f1.
Proof.
  intros OK Hl Lh v c_ vr Hw H4 H5 H6 H7. unfold compress_block. cbv zeta.
  assert (I : view S l (h ++ [c_ 0%nat; c_ 1%nat; c_ 2%nat; c_ 3%nat; x4; x5; x6; x7]) =
              init_v v (view S l h) c f0 f1).
  { apply len8 in Lh. destruct Lh as (h0 & h1 & h2 & h3 & h4 & h5 & h6 & h7 & ->).
    unfold init_v, at_. rewrite <- H4, <- H5, <- H6, <- H7. unfold view. cbn [map app nth].
    unfold c_. rewrite !ok_set1 by (auto; apply Forall_nth_lt, iv_ok). reflexivity. }
  assert (R : view S l vr = fold_left (fun s r => round v r (msg_words v block) s)
                             (seq 0 (num_rounds v)) (init_v v (view S l h) c f0 f1)).
  { unfold vr. rewrite simd_rounds_view by (auto; rewrite app_length, Lh; reflexivity).
    rewrite I, Hw. reflexivity. }
  rewrite <- R. clearbody vr. clear R I.
  unfold view at 1. rewrite map_map. apply map_ext. intros i.
  rewrite !ok_xor by auto. unfold at_. rewrite !view_nth. fold v. apply N.lxor_comm.
Qed.

(** *** The message registers *)
Lemma bytes_bytes r a n off k : (off + k <= n)%nat -> bytes (bytes r a n) off k = bytes r (a + off) k.
Proof.
  intros H. unfold bytes.
  apply (nth_ext _ _ x00 x00); rewrite !map_length, !seq_length; auto.
  intros i Hi. rewrite !nth_map_seq by auto. unfold getb at 1. rewrite nth_map_seq by lia.
  f_equal. lia.
Qed.
Lemma bytes_skipn r a off k : bytes (skipn a r) off k = bytes r (a + off) k.
Proof.
  unfold bytes.
  apply (nth_ext _ _ x00 x00); rewrite !map_length, !seq_length; auto.
  intros i Hi. rewrite !nth_map_seq by auto. unfold getb. rewrite nth_skipn_add. f_equal. lia.
Qed.

(** The words of block [l] of a stripe. *)
Lemma stripe_msg_words v m l : length m = 512%nat -> (S l * blockbytes v <= 512)%nat ->
  msg_words v (firstn (blockbytes v) (skipn (l * blockbytes v) m)) =
  map (fun k => from_le (bytes m (l * blockbytes v + k * wbytes v) (wbytes v))) (seq 0 16).
Proof.
  intros L Hl. unfold msg_words. apply map_ext_in. intros k Hk. apply in_seq in Hk.
  assert (Bw : blockbytes v = (16 * wbytes v)%nat) by (destruct v; reflexivity).
  rewrite skipn_firstn_comm, firstn_firstn, skipn_skipn_add, Nat.min_l by nia.
  rewrite bytes_firstn by nia. reflexivity.
Qed.

Lemma view_of_bytes S l (w : list reg) (f : nat -> list byte) n :
  length w = n ->
  (forall k, (k < n)%nat -> bytes (nth k w []) (l * wbytes (s_var S)) (wbytes (s_var S)) = f k) ->
  view S l w = map (fun k => from_le (f k)) (seq 0 n).
Proof.
  intros L H. unfold view. apply (nth_ext _ _ 0 0); rewrite !map_length, ?seq_length; auto.
  intros k Hk. rewrite L in Hk. rewrite nth_map_seq by auto. cbn [Nat.add].
  rewrite <- H by auto. rewrite <- (lane_nil (wbytes (s_var S)) l) at 1.
  rewrite (map_nth (fun r => lane (wbytes (s_var S)) r l)). reflexivity.
Qed.

Lemma len16r {A} (x : list A) : length x = 16%nat ->
  exists a0 a1 a2 a3 a4 a5 a6 a7 a8 a9 a10 a11 a12 a13 a14 a15,
  x = [a0; a1; a2; a3; a4; a5; a6; a7; a8; a9; a10; a11; a12; a13; a14; a15].
Proof.
  intros L. do 16 (destruct x as [|? x]; [discriminate L|]). destruct x; [|discriminate L].
  repeat eexists.
Qed.
Lemma len8r {A} (x : list A) : length x = 8%nat ->
  exists a0 a1 a2 a3 a4 a5 a6 a7, x = [a0; a1; a2; a3; a4; a5; a6; a7].
Proof.
  intros L. do 8 (destruct x as [|? x]; [discriminate L|]). destruct x; [|discriminate L].
  repeat eexists.
Qed.

(** The packing is a transposition: 64-bit word k of the block of lane l. *)
Lemma b_pack_bytes rs l k : length rs = 16%nat -> (l < 4)%nat -> (k < 16)%nat ->
  bytes (nth k (b_pack_msg_v4 rs) []) (l * 8) 8 = bytes (nth (l * 4 + k / 4) rs []) (k mod 4 * 8) 8.
Proof.
  intros L Hl Hk. apply len16r in L.
  destruct L as (a0 & a1 & a2 & a3 & a4 & a5 & a6 & a7 & a8 & a9 & a10 & a11 & a12 & a13 & a14 & a15 & ->).
  do 4 (destruct l as [|l]; [do 16 (destruct k as [|k]; [vm_compute; reflexivity|]); lia|]). lia.
Qed.
Lemma s_pack_bytes rs l k : length rs = 16%nat -> (l < 8)%nat -> (k < 16)%nat ->
  bytes (nth k (s_pack_msg_v8 rs) []) (l * 4) 4 = bytes (nth (l * 2 + k / 8) rs []) (k mod 8 * 4) 4.
Proof.
  intros L Hl Hk. apply len16r in L.
  destruct L as (a0 & a1 & a2 & a3 & a4 & a5 & a6 & a7 & a8 & a9 & a10 & a11 & a12 & a13 & a14 & a15 & ->).
  do 8 (destruct l as [|l]; [do 16 (destruct k as [|k]; [vm_compute; reflexivity|]); lia|]). lia.
Qed.

Lemma b_gather_bytes mem l : (l < 4)%nat ->
  bytes (mm256_i32gather_epi64 mem (mm_set_epi32 48 32 16 0) 8) (l * 8) 8 = bytes mem (l * 128) 8.
Proof. intros Hl. do 4 (destruct l as [|l]; [vm_compute; reflexivity|]). lia. Qed.
Lemma s_gather_bytes mem l : (l < 8)%nat ->
  bytes (mm256_i32gather_epi32 mem (mm256_set_epi32 112 96 80 64 48 32 16 0) 4) (l * 4) 4 =
  bytes mem (l * 64) 4.
Proof. intros Hl. do 8 (destruct l as [|l]; [vm_compute; reflexivity|]). lia. Qed.

Lemma b_loadmsg_view p m l : length m = 512%nat -> (l < 4)%nat ->
  view b_simd l (b_loadmsg_v4 p m) = msg_words V2b (firstn 128 (skipn (l * 128) m)).
Proof.
  intros L Hl. change 128%nat with (blockbytes V2b). rewrite stripe_msg_words by (cbn; lia).
  assert (P : view b_simd l (b_pack_msg_v4 (map (fun i => loadu_bytes 32 m (i * 32)) (seq 0 16))) =
    map (fun k => from_le (bytes m (l * blockbytes V2b + k * wbytes V2b) (wbytes V2b))) (seq 0 16)).
  { apply view_of_bytes; [reflexivity|]. intros k Hk.
    change (wbytes (s_var b_simd)) with 8%nat. change (wbytes V2b) with 8%nat. change (blockbytes V2b) with 128%nat.
    rewrite b_pack_bytes by (auto; rewrite map_length, seq_length; reflexivity).
    pose proof (Nat.div_mod k 4 ltac:(lia)) as D. pose proof (Nat.mod_upper_bound k 4 ltac:(lia)).
    rewrite nth_map_seq by lia. unfold loadu_bytes. rewrite bytes_bytes by lia.
    f_equal. lia. }
  destruct p; try exact P. unfold b_loadmsg_v4.
  apply view_of_bytes; [reflexivity|]. intros k Hk.
  change (wbytes (s_var b_simd)) with 8%nat. change (wbytes V2b) with 8%nat. change (blockbytes V2b) with 128%nat.
  rewrite nth_map_seq by lia. rewrite b_gather_bytes, bytes_skipn by auto. f_equal. lia.
Qed.
Lemma s_loadmsg_view p m l : length m = 512%nat -> (l < 8)%nat ->
  view s_simd l (s_loadmsg_v8 p m) = msg_words V2s (firstn 64 (skipn (l * 64) m)).
Proof.
  intros L Hl. change 64%nat with (blockbytes V2s). rewrite stripe_msg_words by (cbn; lia).
  assert (P : view s_simd l (s_pack_msg_v8 (map (fun i => loadu_bytes 32 m (i * 32)) (seq 0 16))) =
    map (fun k => from_le (bytes m (l * blockbytes V2s + k * wbytes V2s) (wbytes V2s))) (seq 0 16)).
  { apply view_of_bytes; [reflexivity|]. intros k Hk.
    change (wbytes (s_var s_simd)) with 4%nat. change (wbytes V2s) with 4%nat. change (blockbytes V2s) with 64%nat.
    rewrite s_pack_bytes by (auto; rewrite map_length, seq_length; reflexivity).
    pose proof (Nat.div_mod k 8 ltac:(lia)) as D. pose proof (Nat.mod_upper_bound k 8 ltac:(lia)).
    rewrite nth_map_seq by lia. unfold loadu_bytes. rewrite bytes_bytes by lia.
    f_equal. lia. }
  destruct p; try exact P. unfold s_loadmsg_v8.
  apply view_of_bytes; [reflexivity|]. intros k Hk.
  change (wbytes (s_var s_simd)) with 4%nat. change (wbytes V2s) with 4%nat. change (blockbytes V2s) with 64%nat.
  rewrite nth_map_seq by lia. rewrite s_gather_bytes, bytes_skipn by auto. f_equal. lia.
Qed.

(** *** The kernels *)
Lemma b_set1_simd i : mm256_set1_epi64x (nth i blake2b_IV 0) = s_set1 b_simd (nth i (iv V2b) 0).
Proof. reflexivity. Qed.
Lemma s_set1_simd i : mm256_set1_epi32 (nth i blake2s_IV 0) = s_set1 s_simd (nth i (iv V2s) 0).
Proof. reflexivity. Qed.
Lemma land_all v x : x < wmod v -> N.land x (wmod v - 1) = x.
Proof.
  intros H. unfold wmod in *. rewrite <- N.pred_sub, <- N.ones_equiv, N.land_ones. apply N.mod_small, H.
Qed.

Lemma b_compress_v4_simd p h m counter flag :
  b_compress_v4 p h m counter flag =
  let c_ i := s_set1 b_simd (nth i (iv V2b) 0) in
  let vr := fold_left (simd_round b_simd (b_loadmsg_v4 p m)) (seq 0 (num_rounds V2b))
    (h ++ [c_ 0%nat; c_ 1%nat; c_ 2%nat; c_ 3%nat; XOR (c_ 4%nat) counter; c_ 5%nat; XOR (c_ 6%nat) flag;
       XOR (c_ 7%nat) (AND flag (mm256_set_epi64x minus1_64 0 0 0))]) in
  map (fun i => XOR (XOR (nth i vr []) (nth (i + 8) vr [])) (nth i h [])) (seq 0 8).
Proof.
  unfold b_compress_v4. cbv zeta.
  rewrite (fold_ext_in _ (simd_round b_simd (b_loadmsg_v4 p m))).
  2:{ intros a r Hr. apply in_seq in Hr. apply b_round_v4_simd. lia. }
  rewrite !b_set1_simd. reflexivity.
Qed.

Theorem b_compress_v4_view p h m counter flag l c f :
  length h = 8%nat -> length m = 512%nat -> (l < 4)%nat ->
  lane 8 counter l = count_low V2b c -> count_high V2b c = 0 ->
  lane 8 flag l = f ->
  view b_simd l (b_compress_v4 p h m counter flag) =
  compress_block V2b (firstn 128 (skipn (l * 128) m)) (view b_simd l h) c f (if (l =? 3)%nat then f else 0).
Proof.
  intros Lh Lm Hl Hc Hz Hf.
  assert (F : f < wmod V2b) by (rewrite <- Hf, <- (lane_mod_wmod V2b); apply lane_lt).
  rewrite b_compress_v4_simd.
  apply (wide_view b_simd l h (b_loadmsg_v4 p m) _ _ _ _ (firstn 128 (skipn (l * 128) m)) c f
           (if (l =? 3)%nat then f else 0) b_simd_ok Hl Lh).
  - apply b_loadmsg_view; auto.
  - change (wbytes (s_var b_simd)) with 8%nat. unfold XOR, mm256_xor_si256. rewrite lane_xor by lia.
    rewrite Hc. f_equal. apply (lane_set1 8 4); auto. reflexivity.
  - change (s_var b_simd) with V2b. rewrite Hz, N.lxor_0_r. apply (lane_set1 8 4); auto. reflexivity.
  - change (wbytes (s_var b_simd)) with 8%nat. unfold XOR, mm256_xor_si256. rewrite lane_xor by lia.
    rewrite Hf. f_equal. apply (lane_set1 8 4); auto. reflexivity.
  - change (wbytes (s_var b_simd)) with 8%nat. unfold XOR, mm256_xor_si256, AND, mm256_and_si256.
    rewrite lane_xor, lane_and by lia. rewrite Hf. f_equal; [apply (lane_set1 8 4); auto; reflexivity|].
    unfold mm256_set_epi64x. rewrite lane_from_lanes by (cbn; lia).
    do 3 (destruct l as [|l]; [cbn [nth Nat.eqb]; apply N.land_0_r|]).
    destruct l as [|l]; [|lia]. apply (land_all V2b), F.
Qed.

Lemma s_compress_v8_simd p h m t0 t1 flag :
  s_compress_v8 p h m t0 t1 flag =
  let c_ i := s_set1 s_simd (nth i (iv V2s) 0) in
  let vr := fold_left (simd_round s_simd (s_loadmsg_v8 p m)) (seq 0 (num_rounds V2s))
    (h ++ [c_ 0%nat; c_ 1%nat; c_ 2%nat; c_ 3%nat; XOR (c_ 4%nat) t0; XOR (c_ 5%nat) t1; XOR (c_ 6%nat) flag;
       XOR (c_ 7%nat) (AND flag (mm256_set_epi32 minus1_32 0 0 0 0 0 0 0))]) in
  map (fun i => XOR (XOR (nth i vr []) (nth (i + 8) vr [])) (nth i h [])) (seq 0 8).
Proof.
  unfold s_compress_v8. cbv zeta.
  rewrite (fold_ext_in _ (simd_round s_simd (s_loadmsg_v8 p m))).
  2:{ intros a r Hr. apply in_seq in Hr. apply s_round_v8_simd. lia. }
  rewrite !s_set1_simd. reflexivity.
Qed.

Theorem s_compress_v8_view p h m t0 t1 flag l c f :
  length h = 8%nat -> length m = 512%nat -> (l < 8)%nat ->
  lane 4 t0 l = count_low V2s c -> lane 4 t1 l = count_high V2s c ->
  lane 4 flag l = f ->
  view s_simd l (s_compress_v8 p h m t0 t1 flag) =
  compress_block V2s (firstn 64 (skipn (l * 64) m)) (view s_simd l h) c f (if (l =? 7)%nat then f else 0).
Proof.
  intros Lh Lm Hl Hc Hh Hf.
  assert (F : f < wmod V2s) by (rewrite <- Hf, <- (lane_mod_wmod V2s); apply lane_lt).
  rewrite s_compress_v8_simd.
  apply (wide_view s_simd l h (s_loadmsg_v8 p m) _ _ _ _ (firstn 64 (skipn (l * 64) m)) c f
           (if (l =? 7)%nat then f else 0) s_simd_ok Hl Lh).
  - apply s_loadmsg_view; auto.
  - change (wbytes (s_var s_simd)) with 4%nat. unfold XOR, mm256_xor_si256. rewrite lane_xor by lia.
    rewrite Hc. f_equal. apply (lane_set1 4 8); auto. reflexivity.
  - change (wbytes (s_var s_simd)) with 4%nat. unfold XOR, mm256_xor_si256. rewrite lane_xor by lia.
    rewrite Hh. f_equal. apply (lane_set1 4 8); auto. reflexivity.
  - change (wbytes (s_var s_simd)) with 4%nat. unfold XOR, mm256_xor_si256. rewrite lane_xor by lia.
    rewrite Hf. f_equal. apply (lane_set1 4 8); auto. reflexivity.
  - change (wbytes (s_var s_simd)) with 4%nat. unfold XOR, mm256_xor_si256, AND, mm256_and_si256.
    rewrite lane_xor, lane_and by lia. rewrite Hf. f_equal; [apply (lane_set1 4 8); auto; reflexivity|].
    unfold mm256_set_epi32. rewrite lane_from_lanes by (cbn; lia).
    do 7 (destruct l as [|l]; [cbn [nth Nat.eqb]; apply N.land_0_r|]).
    destruct l as [|l]; [|lia]. apply (land_all V2s), F.
Qed.

(** *** Unpacking the state: two registers per lane *)
Lemma lanes_of_sel w n x (f : nat -> list byte) :
  (forall i, (i < n)%nat -> bytes x (i * w) w = f i) -> lanes w n x = map (fun i => from_le (f i)) (seq 0 n).
Proof.
  intros H. unfold lanes. apply map_ext_in. intros i Hi. apply in_seq in Hi.
  unfold lane. rewrite H by lia. reflexivity.
Qed.

Lemma b_unpack_view vs l : length vs = 8%nat -> (l < 4)%nat ->
  let s := b_unpack_state_v4 vs in
  lanes 8 4 (nth (l * 2) s []) ++ lanes 8 4 (nth (l * 2 + 1) s []) = view b_simd l vs.
Proof.
  intros L Hl. apply len8r in L. destruct L as (a0 & a1 & a2 & a3 & a4 & a5 & a6 & a7 & ->). cbv zeta.
  assert (E : forall i, (i < 4)%nat ->
     bytes (nth (l * 2) (b_unpack_state_v4 [a0; a1; a2; a3; a4; a5; a6; a7]) []) (i * 8) 8 =
     bytes (nth i [a0; a1; a2; a3; a4; a5; a6; a7] []) (l * 8) 8 /\
     bytes (nth (l * 2 + 1) (b_unpack_state_v4 [a0; a1; a2; a3; a4; a5; a6; a7]) []) (i * 8) 8 =
     bytes (nth (i + 4) [a0; a1; a2; a3; a4; a5; a6; a7] []) (l * 8) 8).
  { intros i Hi.
    do 4 (destruct l as [|l]; [do 4 (destruct i as [|i]; [split; vm_compute; reflexivity|]); lia|]). lia. }
  rewrite (lanes_of_sel _ _ _ _ (fun i Hi => proj1 (E i Hi))), (lanes_of_sel _ _ _ _ (fun i Hi => proj2 (E i Hi))).
  reflexivity.
Qed.
Lemma s_unpack_view vs l : length vs = 8%nat -> (l < 8)%nat ->
  let s := union_t_s (s_unpack_state_v8 vs) in
  lanes 4 4 (nth (l * 2) s []) ++ lanes 4 4 (nth (l * 2 + 1) s []) = view s_simd l vs.
Proof.
  intros L Hl. apply len8r in L. destruct L as (a0 & a1 & a2 & a3 & a4 & a5 & a6 & a7 & ->). cbv zeta.
  assert (E : forall i, (i < 4)%nat ->
     bytes (nth (l * 2) (union_t_s (s_unpack_state_v8 [a0; a1; a2; a3; a4; a5; a6; a7])) []) (i * 4) 4 =
     bytes (nth i [a0; a1; a2; a3; a4; a5; a6; a7] []) (l * 4) 4 /\
     bytes (nth (l * 2 + 1) (union_t_s (s_unpack_state_v8 [a0; a1; a2; a3; a4; a5; a6; a7])) []) (i * 4) 4 =
     bytes (nth (i + 4) [a0; a1; a2; a3; a4; a5; a6; a7] []) (l * 4) 4).
  { intros i Hi.
    do 8 (destruct l as [|l]; [do 4 (destruct i as [|i]; [split; vm_compute; reflexivity|]); lia|]). lia. }
  rewrite (lanes_of_sel _ _ _ _ (fun i Hi => proj1 (E i Hi))), (lanes_of_sel _ _ _ _ (fun i Hi => proj2 (E i Hi))).
  reflexivity.
Qed.
