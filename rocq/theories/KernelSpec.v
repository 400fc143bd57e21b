(** The portable compression function is the specification's F. *)
From Coq Require Import ZArith Arith NArith List Bool Lia ZifyBool ZifyNat ZifyN.
From Verif Require Import Base ByteLemmas Guts Portable.
From Verif Require Spec.
Import ListNotations.
Open Scope N_scope.

(** The flavour of BLAKE2 a crate implements. *)
Definition fl (v : variant) : Spec.flavour :=
  match v with V2b => Spec.F2b | V2s => Spec.F2s end.

(** A list of [n] machine words. *)
Definition wordsn (v : variant) (n : nat) (ws : list N) : Prop :=
  length ws = n /\ Forall (fun x => x < wmod v) ws.
Definition words_ok (v : variant) (ws : list N) : Prop := wordsn v 8 ws.

Lemma Forall_nth_lt v ws i : Forall (fun x => x < wmod v) ws -> nth i ws 0 < wmod v.
Proof.
  intros H. destruct (nth_in_or_default i ws 0) as [I| ->].
  - rewrite Forall_forall in H. auto.
  - apply wmod_pos.
Qed.

Lemma bits_fl v : Spec.bits (fl v) = wbits v.
Proof. destruct v; reflexivity. Qed.
Lemma pow_bits_fl v : 2 ^ Spec.bits (fl v) = wmod v.
Proof. destruct v; reflexivity. Qed.
Lemma block_len_fl v : Spec.block_len (fl v) = blockbytes v.
Proof. destruct v; reflexivity. Qed.
Lemma word_len_fl v : Spec.word_len (fl v) = wbytes v.
Proof. destruct v; reflexivity. Qed.

Lemma decode_from_le bs : Spec.decode bs = from_le bs.
Proof. induction bs; cbn [Spec.decode from_le]; [reflexivity|]. rewrite IHbs. reflexivity. Qed.

Lemma iv_spec v : Spec.IV (fl v) = iv v.
Proof. destruct v; vm_compute; reflexivity. Qed.
Lemma iv_ok v : words_ok v (iv v).
Proof. destruct v; split; auto; repeat constructor. Qed.

(** *** Rotation *)
Lemma rotr_rotate v x k : x < wmod v -> k <= wbits v ->
  rotate_right v x k = Spec.rotr (wbits v) x k.
Proof.
  intros Hx Hk. unfold rotate_right, Spec.rotr.
  rewrite N.shiftr_div_pow2, N.shiftl_mul_pow2.
  replace ((x * 2 ^ (wbits v - k)) mod wmod v) with (2 ^ (wbits v - k) * (x mod 2 ^ k)).
  - rewrite lor_add. { lia. }
    apply N.div_lt_upper_bound; [apply pow2_nz|].
    rewrite <- N.pow_add_r. replace (k + (wbits v - k)) with (wbits v) by lia. exact Hx.
  - unfold wmod. replace (wbits v) with (k + (wbits v - k)) at 3 by lia.
    rewrite N.pow_add_r, N.mul_mod_distr_r by apply pow2_nz. lia.
Qed.

Lemma rotate_right_lt v x k : x < wmod v -> rotate_right v x k < wmod v.
Proof.
  intros Hx. unfold rotate_right. apply (bitop_lt N.lor orb); [apply bitop_lor| |].
  - rewrite N.shiftr_div_pow2. eapply N.le_lt_trans; [|exact Hx].
    apply N.div_le_upper_bound; [apply pow2_nz|]. pose proof (pow2_pos k). nia.
  - apply N.mod_lt, wmod_nz.
Qed.

(** *** G on four words, in halves *)
Definition gh (v : variant) (r1 r2 : N) (s : N * N * N * N) (x : N) : N * N * N * N :=
  let '(a, b, c, d) := s in
  let a := wrapping_add v (wrapping_add v a b) x in
  let d := rotate_right v (N.lxor d a) r1 in
  let c := wrapping_add v c d in
  let b := rotate_right v (N.lxor b c) r2 in
  (a, b, c, d).
Definition gw (v : variant) (s : N * N * N * N) (x y : N) : N * N * N * N :=
  gh v (rot3 v) (rot4 v) (gh v (rot1 v) (rot2 v) s x) y.

Lemma gw_spec v a b c d x y :
  b < wmod v -> d < wmod v ->
  gw v (a, b, c, d) x y = Spec.G (fl v) a b c d x y.
Proof.
  intros Hb Hd. unfold gw, gh, Spec.G.
  assert (R : exists r1 r2 r3 r4, Spec.rot_consts (fl v) = (r1, r2, r3, r4) /\
     rot1 v = r1 /\ rot2 v = r2 /\ rot3 v = r3 /\ rot4 v = r4 /\
     r1 <= wbits v /\ r2 <= wbits v /\ r3 <= wbits v /\ r4 <= wbits v).
  { destruct v; do 4 eexists; (split; [reflexivity|]); cbv; repeat split; discriminate. }
  destruct R as (r1 & r2 & r3 & r4 & -> & <- & <- & <- & <- & H1 & H2 & H3 & H4).
  rewrite !wrapping_add_3, bits_fl. fold (wmod v).
  assert (X : forall p q, p < wmod v -> q < wmod v -> N.lxor p q < wmod v)
    by (intros; apply lxor_lt; auto).
  assert (M : forall p, p mod wmod v < wmod v) by (intros; apply N.mod_lt, wmod_nz).
  assert (RR : forall p k, p < wmod v -> k <= wbits v ->
             Spec.rotr (wbits v) p k = rotate_right v p k)
    by (intros; symmetry; apply rotr_rotate; auto).
  unfold wrapping_add.
  rewrite !RR; repeat first [assumption | apply X | apply M | apply rotate_right_lt];
    rewrite !N.add_mod_idemp_l by apply wmod_nz; reflexivity.
Qed.

Definition quad_ok v (s : N * N * N * N) : Prop :=
  let '(a, b, c, d) := s in a < wmod v /\ b < wmod v /\ c < wmod v /\ d < wmod v.

Lemma gh_ok v r1 r2 s x : quad_ok v s -> quad_ok v (gh v r1 r2 s x).
Proof.
  destruct s as [[[a b] c] d]. unfold quad_ok, gh. intros (A & B & C & D).
  repeat split;
    repeat first [assumption | apply wrapping_add_lt | apply rotate_right_lt | apply lxor_lt].
Qed.
Lemma gw_ok v s x y : quad_ok v s -> quad_ok v (gw v s x y).
Proof. intros. apply gh_ok, gh_ok. auto. Qed.

(** One round on sixteen words through [gw]. *)
Definition mixw (v : variant) (m : nat -> N) (s : list N) : list N :=
  match s with
  | [v0; v1; v2; v3; v4; v5; v6; v7; v8; v9; v10; v11; v12; v13; v14; v15] =>
      let '(v0, v4,  v8, v12) := gw v (v0, v4,  v8, v12) (m 0%nat) (m 1%nat) in
      let '(v1, v5,  v9, v13) := gw v (v1, v5,  v9, v13) (m 2%nat) (m 3%nat) in
      let '(v2, v6, v10, v14) := gw v (v2, v6, v10, v14) (m 4%nat) (m 5%nat) in
      let '(v3, v7, v11, v15) := gw v (v3, v7, v11, v15) (m 6%nat) (m 7%nat) in
      let '(v0, v5, v10, v15) := gw v (v0, v5, v10, v15) (m 8%nat) (m 9%nat) in
      let '(v1, v6, v11, v12) := gw v (v1, v6, v11, v12) (m 10%nat) (m 11%nat) in
      let '(v2, v7,  v8, v13) := gw v (v2, v7,  v8, v13) (m 12%nat) (m 13%nat) in
      let '(v3, v4,  v9, v14) := gw v (v3, v4,  v9, v14) (m 14%nat) (m 15%nat) in
      [v0; v1; v2; v3; v4; v5; v6; v7; v8; v9; v10; v11; v12; v13; v14; v15]
  | _ => s
  end.

Lemma len16 {A} (l : list A) : length l = 16%nat -> exists a0 a1 a2 a3 a4 a5 a6 a7 a8 a9 a10 a11 a12 a13 a14 a15,
  l = [a0; a1; a2; a3; a4; a5; a6; a7; a8; a9; a10; a11; a12; a13; a14; a15].
Proof.
  intros L. do 16 (destruct l as [|? l]; [discriminate L|]). destruct l; [|discriminate L].
  repeat eexists.
Qed.

Lemma len8 {A} (l : list A) : length l = 8%nat -> exists a0 a1 a2 a3 a4 a5 a6 a7,
  l = [a0; a1; a2; a3; a4; a5; a6; a7].
Proof.
  intros L. do 8 (destruct l as [|? l]; [discriminate L|]). destruct l; [|discriminate L].
  repeat eexists.
Qed.

Lemma round_mixw v r m s : length s = 16%nat ->
  round v r m s = mixw v (fun k => at_ m (sig v r k)) s.
Proof.
  intros L. apply len16 in L.
  destruct L as (a0 & a1 & a2 & a3 & a4 & a5 & a6 & a7 & a8 & a9 & a10 & a11 & a12 & a13 & a14 & a15 & ->).
  unfold round, mixw.
  set (w0 := at_ m (sig v r 0)). set (w1 := at_ m (sig v r 1)). set (w2 := at_ m (sig v r 2)).
  set (w3 := at_ m (sig v r 3)). set (w4 := at_ m (sig v r 4)). set (w5 := at_ m (sig v r 5)).
  set (w6 := at_ m (sig v r 6)). set (w7 := at_ m (sig v r 7)). set (w8 := at_ m (sig v r 8)).
  set (w9 := at_ m (sig v r 9)). set (w10 := at_ m (sig v r 10)). set (w11 := at_ m (sig v r 11)).
  set (w12 := at_ m (sig v r 12)). set (w13 := at_ m (sig v r 13)). set (w14 := at_ m (sig v r 14)).
  set (w15 := at_ m (sig v r 15)).
  clearbody w0 w1 w2 w3 w4 w5 w6 w7 w8 w9 w10 w11 w12 w13 w14 w15.
  (* evaluate the g calls one at a time *)
  assert (E0 : forall a0 a1 a2 a3 a4 a5 a6 a7 a8 a9 a10 a11 a12 a13 a14 a15 x y,
    g v [a0; a1; a2; a3; a4; a5; a6; a7; a8; a9; a10; a11; a12; a13; a14; a15] 0 4 8 12 x y =
    let '(a0, a4, a8, a12) := gw v (a0, a4, a8, a12) x y in
    [a0; a1; a2; a3; a4; a5; a6; a7; a8; a9; a10; a11; a12; a13; a14; a15]) by reflexivity.
  assert (E1 : forall a0 a1 a2 a3 a4 a5 a6 a7 a8 a9 a10 a11 a12 a13 a14 a15 x y,
    g v [a0; a1; a2; a3; a4; a5; a6; a7; a8; a9; a10; a11; a12; a13; a14; a15] 1 5 9 13 x y =
    let '(a1, a5, a9, a13) := gw v (a1, a5, a9, a13) x y in
    [a0; a1; a2; a3; a4; a5; a6; a7; a8; a9; a10; a11; a12; a13; a14; a15]) by reflexivity.
  assert (E2 : forall a0 a1 a2 a3 a4 a5 a6 a7 a8 a9 a10 a11 a12 a13 a14 a15 x y,
    g v [a0; a1; a2; a3; a4; a5; a6; a7; a8; a9; a10; a11; a12; a13; a14; a15] 2 6 10 14 x y =
    let '(a2, a6, a10, a14) := gw v (a2, a6, a10, a14) x y in
    [a0; a1; a2; a3; a4; a5; a6; a7; a8; a9; a10; a11; a12; a13; a14; a15]) by reflexivity.
  assert (E3 : forall a0 a1 a2 a3 a4 a5 a6 a7 a8 a9 a10 a11 a12 a13 a14 a15 x y,
    g v [a0; a1; a2; a3; a4; a5; a6; a7; a8; a9; a10; a11; a12; a13; a14; a15] 3 7 11 15 x y =
    let '(a3, a7, a11, a15) := gw v (a3, a7, a11, a15) x y in
    [a0; a1; a2; a3; a4; a5; a6; a7; a8; a9; a10; a11; a12; a13; a14; a15]) by reflexivity.
  assert (E4 : forall a0 a1 a2 a3 a4 a5 a6 a7 a8 a9 a10 a11 a12 a13 a14 a15 x y,
    g v [a0; a1; a2; a3; a4; a5; a6; a7; a8; a9; a10; a11; a12; a13; a14; a15] 0 5 10 15 x y =
    let '(a0, a5, a10, a15) := gw v (a0, a5, a10, a15) x y in
    [a0; a1; a2; a3; a4; a5; a6; a7; a8; a9; a10; a11; a12; a13; a14; a15]) by reflexivity.
  assert (E5 : forall a0 a1 a2 a3 a4 a5 a6 a7 a8 a9 a10 a11 a12 a13 a14 a15 x y,
    g v [a0; a1; a2; a3; a4; a5; a6; a7; a8; a9; a10; a11; a12; a13; a14; a15] 1 6 11 12 x y =
    let '(a1, a6, a11, a12) := gw v (a1, a6, a11, a12) x y in
    [a0; a1; a2; a3; a4; a5; a6; a7; a8; a9; a10; a11; a12; a13; a14; a15]) by reflexivity.
  assert (E6 : forall a0 a1 a2 a3 a4 a5 a6 a7 a8 a9 a10 a11 a12 a13 a14 a15 x y,
    g v [a0; a1; a2; a3; a4; a5; a6; a7; a8; a9; a10; a11; a12; a13; a14; a15] 2 7 8 13 x y =
    let '(a2, a7, a8, a13) := gw v (a2, a7, a8, a13) x y in
    [a0; a1; a2; a3; a4; a5; a6; a7; a8; a9; a10; a11; a12; a13; a14; a15]) by reflexivity.
  assert (E7 : forall a0 a1 a2 a3 a4 a5 a6 a7 a8 a9 a10 a11 a12 a13 a14 a15 x y,
    g v [a0; a1; a2; a3; a4; a5; a6; a7; a8; a9; a10; a11; a12; a13; a14; a15] 3 4 9 14 x y =
    let '(a3, a4, a9, a14) := gw v (a3, a4, a9, a14) x y in
    [a0; a1; a2; a3; a4; a5; a6; a7; a8; a9; a10; a11; a12; a13; a14; a15]) by reflexivity.
  cbv zeta.
  rewrite E0. destruct (gw v (a0, a4, a8, a12) w0 w1) as [[[? ?] ?] ?].
  rewrite E1. destruct (gw v (a1, a5, a9, a13) w2 w3) as [[[? ?] ?] ?].
  rewrite E2. destruct (gw v (a2, a6, a10, a14) w4 w5) as [[[? ?] ?] ?].
  rewrite E3. destruct (gw v (a3, a7, a11, a15) w6 w7) as [[[? ?] ?] ?].
  rewrite E4. match goal with |- context [gw v ?q w8 w9] => destruct (gw v q w8 w9) as [[[? ?] ?] ?] end.
  rewrite E5. match goal with |- context [gw v ?q w10 w11] => destruct (gw v q w10 w11) as [[[? ?] ?] ?] end.
  rewrite E6. match goal with |- context [gw v ?q w12 w13] => destruct (gw v q w12 w13) as [[[? ?] ?] ?] end.
  rewrite E7. match goal with |- context [gw v ?q w14 w15] => destruct (gw v q w14 w15) as [[[? ?] ?] ?] end.
  reflexivity.
Qed.

Lemma mixw_spec v m s : wordsn v 16 s ->
  mixw v m s = Spec.mix (fl v) m s /\ wordsn v 16 (mixw v m s).
Proof.
  intros [L H]. apply len16 in L.
  destruct L as (a0 & a1 & a2 & a3 & a4 & a5 & a6 & a7 & a8 & a9 & a10 & a11 & a12 & a13 & a14 & a15 & ->).
  repeat match goal with H : Forall _ (_ :: _) |- _ => inversion_clear H end.
  unfold mixw, Spec.mix.
  Ltac mstep v :=
    match goal with
    | |- context [gw v (?a, ?b, ?c, ?d) ?x ?y] =>
        rewrite <- (gw_spec v a b c d x y) by assumption;
        let Q := fresh "Q" in
        assert (Q : quad_ok v (gw v (a, b, c, d) x y)) by (apply gw_ok; repeat split; assumption);
        destruct (gw v (a, b, c, d) x y) as [[[? ?] ?] ?];
        destruct Q as (? & ? & ? & ?)
    end.
  do 8 mstep v.
  split; [reflexivity|]. split; [reflexivity|]. repeat constructor; assumption.
Qed.

Lemma msg_word_at v block i : (i < 16)%nat ->
  at_ (msg_words v block) i = Spec.word (fl v) block i.
Proof.
  intros H. unfold at_, msg_words.
  rewrite nth_map_seq by auto. cbn [Nat.add]. unfold Spec.word. rewrite word_len_fl. reflexivity.
Qed.

Lemma sig_spec v r k : (r < num_rounds v)%nat -> (k < 16)%nat ->
  sig v r k = nth k (nth (r mod 10) Spec.SIGMA []) 0%nat /\ (sig v r k < 16)%nat.
Proof.
  intros Hr Hk.
  assert (C : forall n, forallb (fun r => forallb (fun k =>
      Nat.eqb (sig v r k) (nth k (nth (r mod 10) Spec.SIGMA []) 0%nat) && Nat.ltb (sig v r k) 16)
      (seq 0 16)) (seq 0 n) = true -> (r < n)%nat ->
      sig v r k = nth k (nth (r mod 10) Spec.SIGMA []) 0%nat /\ (sig v r k < 16)%nat).
  { intros n C Hn. rewrite forallb_forall in C. specialize (C r ltac:(apply in_seq; lia)).
    rewrite forallb_forall in C. specialize (C k ltac:(apply in_seq; lia)).
    apply andb_prop in C. destruct C as [C1 C2].
    split; [apply Nat.eqb_eq, C1|apply Nat.ltb_lt, C2]. }
  apply (C (num_rounds v)); auto. destruct v; vm_compute; reflexivity.
Qed.

Lemma mixw_ext v m1 m2 s : (forall k, (k < 16)%nat -> m1 k = m2 k) -> mixw v m1 s = mixw v m2 s.
Proof.
  intros H. unfold mixw.
  do 17 (destruct s as [|? s]; auto).
  rewrite !H by lia. reflexivity.
Qed.

Lemma round_spec v block r s : wordsn v 16 s -> (r < num_rounds v)%nat ->
  round v r (msg_words v block) s = Spec.mix (fl v) (Spec.schedule (fl v) block r) s /\
  wordsn v 16 (round v r (msg_words v block) s).
Proof.
  intros Hs Hr. rewrite round_mixw by apply Hs.
  rewrite (mixw_ext v _ (Spec.schedule (fl v) block r)).
  - apply mixw_spec, Hs.
  - intros k Hk. destruct (sig_spec v r k Hr Hk) as [E B].
    rewrite msg_word_at by auto. unfold Spec.schedule. rewrite <- E. reflexivity.
Qed.

Lemma fold_left_inv {A B} (P : A -> Prop) (Q : B -> Prop) (f g : A -> B -> A) :
  (forall a b, P a -> Q b -> f a b = g a b /\ P (f a b)) ->
  forall bs a, P a -> Forall Q bs ->
  fold_left f bs a = fold_left g bs a /\ P (fold_left f bs a).
Proof.
  intros H bs. induction bs as [|b bs IH]; intros a Ha Hbs; cbn [fold_left]; auto.
  inversion_clear Hbs as [|? ? Hb Hbs']. destruct (H a b Ha Hb) as [E HP].
  rewrite <- E. apply IH; auto.
Qed.

Lemma fold_rounds_spec v block rs s : wordsn v 16 s -> Forall (fun r => (r < num_rounds v)%nat) rs ->
  fold_left (fun s r => round v r (msg_words v block) s) rs s =
  fold_left (fun s r => Spec.mix (fl v) (Spec.schedule (fl v) block r) s) rs s /\
  wordsn v 16 (fold_left (fun s r => round v r (msg_words v block) s) rs s).
Proof.
  intros Hs Hrs.
  apply (fold_left_inv (wordsn v 16) (fun r => (r < num_rounds v)%nat)
           (fun s r => round v r (msg_words v block) s)
           (fun s r => Spec.mix (fl v) (Spec.schedule (fl v) block r) s)); auto.
  intros a r Ha Hr. apply round_spec; auto.
Qed.

Lemma flag_word_lt v b : flag_word v b < wmod v.
Proof. pose proof (wmod_pos v). unfold flag_word. destruct b; lia. Qed.
Lemma count_low_lt v c : count_low v c < wmod v.
Proof. apply N.mod_lt, wmod_nz. Qed.
Lemma count_high_lt v c : count_high v c < wmod v.
Proof. apply N.mod_lt, wmod_nz. Qed.

Lemma init_v_ok v ws c f0 f1 : words_ok v ws -> f0 < wmod v -> f1 < wmod v ->
  wordsn v 16 (init_v v ws c f0 f1).
Proof.
  intros [L H] H0 H1. split; [reflexivity|]. unfold init_v, at_.
  destruct (iv_ok v) as [_ IVH].
  repeat constructor;
    repeat first [ apply lxor_lt | apply Forall_nth_lt; assumption
                 | apply count_low_lt | apply count_high_lt | assumption ].
Qed.

Lemma compress_block_spec v block ws c lb ln : words_ok v ws ->
  compress_block v block ws c (flag_word v lb) (flag_word v ln) =
  Spec.F (fl v) ws block c lb ln.
Proof.
  intros O. unfold compress_block, Spec.F.
  pose proof (init_v_ok v ws c (flag_word v lb) (flag_word v ln) O
                (flag_word_lt _ _) (flag_word_lt _ _)) as I.
  assert (E : ws ++ Spec.xor_words (Spec.IV (fl v))
      [0; 0; 0; 0; c mod 2 ^ Spec.bits (fl v); (c / 2 ^ Spec.bits (fl v)) mod 2 ^ Spec.bits (fl v);
       (if lb then 2 ^ Spec.bits (fl v) - 1 else 0); (if ln then 2 ^ Spec.bits (fl v) - 1 else 0)]
      = init_v v ws c (flag_word v lb) (flag_word v ln)).
  { rewrite pow_bits_fl, iv_spec.
    destruct O as [L _]. apply len8 in L. destruct L as (? & ? & ? & ? & ? & ? & ? & ? & ->).
    destruct (iv_ok v) as [L' _]. apply len8 in L'.
    unfold init_v. destruct L' as (? & ? & ? & ? & ? & ? & ? & ? & ->).
    cbn [app Spec.xor_words combine map fst snd at_ nth]. rewrite !N.lxor_0_r.
    unfold count_low, count_high, flag_word.
    rewrite N.shiftr_div_pow2, <- wbits_wbytes. reflexivity. }
  rewrite E.
  assert (R : Forall (fun r => (r < num_rounds v)%nat) (seq 0 (num_rounds v))).
  { apply Forall_forall. intros r Hr. apply in_seq in Hr. lia. }
  destruct (fold_rounds_spec v block _ _ I R) as [EQ W].
  replace (Spec.rounds (fl v)) with (num_rounds v) by (destruct v; reflexivity).
  rewrite <- EQ.
  set (s := fold_left _ _ _) in *. clearbody s.
  destruct W as [LW _]. apply len16 in LW.
  destruct LW as (a0 & a1 & a2 & a3 & a4 & a5 & a6 & a7 & a8 & a9 & a10 & a11 & a12 & a13 & a14 & a15 & ->).
  destruct O as [L _]. apply len8 in L. destruct L as (? & ? & ? & ? & ? & ? & ? & ? & ->).
  cbn [seq map at_ nth Nat.add firstn skipn Spec.xor_words combine fst snd].
  unfold Spec.xor_words. cbn [combine map fst snd].
  rewrite !N.lxor_assoc. reflexivity.
Qed.

Lemma F_ok v ws block c lb ln : words_ok v ws -> words_ok v (Spec.F (fl v) ws block c lb ln).
Proof.
  intros O. rewrite <- compress_block_spec by auto. unfold compress_block.
  set (s := fold_left _ _ _).
  assert (W : wordsn v 16 s).
  { apply fold_rounds_spec.
    - apply init_v_ok; auto using flag_word_lt.
    - apply Forall_forall. intros r Hr. apply in_seq in Hr. lia. }
  destruct W as [_ W]. destruct O as [_ O].
  split; [reflexivity|]. apply Forall_map, Forall_forall. intros i _.
  unfold at_. repeat apply lxor_lt; apply Forall_nth_lt; auto.
Qed.
