(** Trees of any shape: what hash_tree computes, and what two trees with the same
    root digest have in common. *)
From Coq Require Import Permutation Arith NArith List Bool Lia.
From Coq Require Import Init.Byte.
From Verif Require Import Base Guts KernelSpec Impl Lib Many Par.
From Verif Require Import Spec ApiSpec Machine History Calls Collisions.
From Verif Require Import Loops Api Runs Words ParamsProof FedProof ParProof ParFed ApiProof BatchProof Laws CollisionProof TreeSpec Trees.
Import ListNotations.
Open Scope list_scope.
Local Notation length := List.length.

(** ** Lists *)
Lemma grouped_concat {A} k : (1 <= k)%nat -> forall fuel (l : list A), (length l <= fuel)%nat ->
  concat (grouped fuel k l) = l.
Proof.
  intros K. induction fuel as [|n IH]; intros [|x l] L; cbn [grouped] in *; try reflexivity.
  - cbn in L. lia.
  - cbn [concat]. rewrite IH; [apply firstn_skipn|]. rewrite skipn_length. cbn [length] in *. lia.
Qed.
Lemma in_groups_concat {A} k (l : list A) : (1 <= k)%nat -> concat (in_groups k l) = l.
Proof. intros K. apply grouped_concat; auto. Qed.
Lemma grouped_length {A} k : forall fuel (l : list A), (length (grouped fuel k l) <= fuel)%nat.
Proof.
  induction fuel as [|n IH]; intros [|x l]; cbn [grouped length]; try lia. specialize (IH (skipn k (x :: l))). lia.
Qed.
Lemma in_groups_length {A} k (l : list A) : (length (in_groups k l) <= length l)%nat.
Proof. apply grouped_length. Qed.
Lemma in_groups_nonempty {A} k (l : list A) : l <> [] -> in_groups k l <> [].
Proof. unfold in_groups. destruct l; [congruence|]. cbn. discriminate. Qed.
Lemma grouped_sizes {A} k : forall fuel (l : list A) g, In g (grouped fuel k l) -> (length g <= length l)%nat.
Proof.
  induction fuel as [|n IH]; intros [|x l] g; cbn [grouped]; try contradiction.
  intros [<-|I]. { rewrite firstn_length. lia. }
  apply IH in I. rewrite skipn_length in I. lia.
Qed.

Lemma leaves_concat p file : (1 <= p)%nat -> concat (leaves_of p file) = file.
Proof. intros P. destruct file; [reflexivity|]. apply (in_groups_concat p (b :: file)); auto. Qed.
Lemma leaves_nonempty p file : leaves_of p file <> [].
Proof. destruct file; [discriminate|]. apply (in_groups_nonempty p (b :: file)). discriminate. Qed.
Lemma leaves_sizes p file m : In m (leaves_of p file) -> (length m <= length file)%nat.
Proof. destruct file. { intros [<-|[]]. cbn. lia. } apply (grouped_sizes p _ (b :: file)). Qed.

Lemma placed_length {A} (l : list A) : forall i, length (placed i l) = length l.
Proof. induction l; intros i; cbn [placed length]; auto. Qed.
Lemma placed_range {A} (l : list A) : forall i j b x, In (j, b, x) (placed i l) -> (i <= j < i + length l)%nat /\ In x l.
Proof.
  induction l as [|a l IH]; intros i j b x; cbn [placed length]; [contradiction|].
  intros [E|I]. { injection E as -> _ <-. split; [lia|left; auto]. }
  apply IH in I. destruct I. split; [lia|right; auto].
Qed.
Lemma placed_items {A} (l : list A) : forall i, map snd (placed i l) = l.
Proof. induction l; intros i; cbn [placed map]; f_equal; auto. Qed.

Lemma concat_eq_blocks {A} n (l l' : list (list A)) : (1 <= n)%nat ->
  Forall (fun x => length x = n) l -> Forall (fun x => length x = n) l' -> concat l = concat l' -> l = l'.
Proof.
  intros N F. revert l'. induction F as [|x l X F IH]; intros l' F' E; destruct F' as [|x' l' X' F'].
  - reflexivity.
  - cbn in E. symmetry in E. apply app_eq_nil in E as [-> _]. cbn in X'. lia.
  - cbn in E. apply app_eq_nil in E as [-> _]. cbn in X. lia.
  - cbn [concat] in E. assert (x = x' /\ concat l = concat l') as [-> E'].
    { assert (L : length x = length x') by lia. clear -L E. revert x' L E.
      induction x as [|a x IH]; intros [|a' x'] L E; cbn in *; try lia; auto.
      injection E as -> E. injection L as L. destruct (IH _ L E) as [-> ->]. auto. }
    f_equal. auto.
Qed.

(** ** Nodes *)
Lemma node_typed f t len d i last : sensible f t -> (d < 256)%nat -> (N.of_nat i < 2 ^ 64)%N ->
  Forall typed (node_settings t len d i last).
Proof.
  intros (T & _) D I. apply Forall_app. split; auto.
  repeat constructor; cbn [typed]; auto. change (2 ^ 8)%N with 256%N. lia.
Qed.
Lemma node_fields f t len d i last m : sensible f t -> (1 <= len <= max_out f)%nat ->
  let p := c_params (fst (the_node f t len d i last m)) in
  digest_length p = N.of_nat len /\ node_depth p = N.of_nat d /\ inner_length p = N.of_nat (t_inner t).
Proof.
  intros (_ & _ & I & _) L. unfold the_node, node_settings, configure. cbn [fst]. rewrite fold_left_app.
  generalize (fold_left (fun c s => if legal f s then apply s c else c) (t_common t) (default_config f)). intros c.
  cbn [fold_left].
  assert (E1 : legal f (HashLength len) = true) by (cbn [legal]; apply andb_true_intro; split; apply Nat.leb_le; lia).
  assert (E2 : legal f (InnerHashLength (t_inner t)) = true) by (cbn [legal]; apply Nat.leb_le; lia).
  rewrite E1, E2. change (legal f (NodeDepth (N.of_nat d))) with true. change (legal f (LastNode last)) with true.
  cbv iota. destruct (legal f (NodeOffset (N.of_nat i))); cbn; auto.
Qed.

Definition small (f : flavour) (ms : list (list byte)) : Prop :=
  (N.of_nat (length ms) <= 2 ^ 48)%N /\ Forall (countable f) ms.

Lemma above_small v t d ms : sensible (fl v) t -> (d < 256)%nat -> small (fl v) ms ->
  Forall (fun x => length x = t_inner t) (map (node_digest (fl v)) (level (fl v) t d ms)) /\
  small (fl v) (above (fl v) t d (level (fl v) t d ms)).
Proof.
  intros G D (L & C).
  assert (F : Forall (fun x => length x = t_inner t) (map (node_digest (fl v)) (level (fl v) t d ms))).
  { apply Forall_forall. intros x I. apply in_map_iff in I as (y & <- & I).
    unfold level in I. apply in_map_iff in I as (((i & b) & m) & <- & I). apply placed_range in I as (I & _).
    unfold node_digest. rewrite digest_length_eq.
    - assert (R := node_fields (fl v) t (t_inner t) d i b m G (proj1 (proj2 (proj2 G)))). cbn zeta in R.
      destruct R as (-> & _). lia.
    - apply build_wf. apply (node_typed (fl v)); auto. assert (2 ^ 48 < 2 ^ 64)%N by reflexivity. lia. }
  split; auto. unfold above. split.
  - rewrite map_length. pose proof (in_groups_length (t_arity t d) (map (node_digest (fl v)) (level (fl v) t d ms))) as X.
    unfold level in X at 2. rewrite !map_length, placed_length in X. lia.
  - apply Forall_forall. intros x I. apply in_map_iff in I as (g & <- & I).
    assert (LG : (length g <= length ms)%nat).
    { apply grouped_sizes in I. unfold level in I. rewrite !map_length, placed_length in I. auto. }
    assert (FG : Forall (fun x => length x = t_inner t) g).
    { apply Forall_forall. intros y Y. rewrite Forall_forall in F. apply F.
      rewrite <- (in_groups_concat (t_arity t d)) by apply (proj1 (proj2 G)).
      apply in_concat. exists g. auto. }
    assert (LL : length (concat g) = (t_inner t * length g)%nat).
    { clear -FG. induction FG as [|a g A FG IH]; cbn [concat length]; [lia|]. rewrite app_length, IH, A. lia. }
    pose proof (proj1 (proj2 (proj2 G))) as IR.
    assert (MO : (max_out (fl v) <= 64)%nat) by (destruct v; cbn; lia).
    unfold countable. rewrite LL.
    assert (B : (N.of_nat (t_inner t * length g) <= 2 ^ 48 * 64)%N) by nia.
    change (2 ^ 48 * 64)%N with (2 ^ 54)%N in B.
    assert (2 ^ 54 + 128 < 2 ^ (2 * bits (fl v)))%N by (destruct v; reflexivity).
    assert (N.of_nat (block_len (fl v)) <= 128)%N by (destruct v; cbn; lia). lia.
Qed.

(** ** What the program computes *)
Lemma hash_node_digest v e imp t len d i last m : supported e imp -> sensible (fl v) t -> (d < 256)%nat ->
  (N.of_nat i < 2 ^ 64)%N ->
  hash_node v e imp (node_settings t len d i last) m = Ret (node_digest (fl v) (the_node (fl v) t len d i last m)).
Proof.
  intros S G D I. unfold hash_node.
  destruct (hash_is_digest v e imp (node_settings t len d i last) m S (node_typed _ t len d i last G D I)) as (h & -> & A).
  exact A.
Qed.

Lemma level_hashes v e imp t d ms : supported e imp -> sensible (fl v) t -> (d < 256)%nat ->
  (N.of_nat (length ms) <= 2 ^ 48)%N ->
  mapM (fun '(i, last, m) => hash_node v e imp (node_settings t (t_inner t) d i last) m) (placed 0 ms) =
  Ret (map (node_digest (fl v)) (level (fl v) t d ms)).
Proof.
  intros S G D L. unfold level. rewrite map_map.
  assert (R : forall x, In x (placed 0 ms) -> (N.of_nat (fst (fst x)) < 2 ^ 64)%N).
  { intros ((i & b) & m) I. apply placed_range in I as (I & _). cbn [fst].
    assert (2 ^ 48 < 2 ^ 64)%N by reflexivity. lia. }
  induction (placed 0 ms) as [|((i & b) & m) l IH]; [reflexivity|].
  cbn [mapM map]. rewrite hash_node_digest; auto. 2: apply (R (i, b, m)); left; auto.
  cbn [bind]. rewrite IH by (intros; apply R; right; auto). reflexivity.
Qed.

Lemma hash_tree_root v e imp t : supported e imp -> sensible (fl v) t ->
  forall fuel d ms, (d + fuel <= 256)%nat -> small (fl v) ms ->
  hash_tree v e imp t fuel d ms =
  match root (fl v) t fuel d ms with Some x => Ret (node_digest (fl v) x) | None => Diverge end.
Proof.
  intros S G. induction fuel as [|n IH]; intros d ms D SM; [reflexivity|].
  assert (H : (do ds <- mapM (fun '(i, last, m) => hash_node v e imp (node_settings t (t_inner t) d i last) m) (placed 0 ms);
     hash_tree v e imp t n (Datatypes.S d) (map (@concat byte) (in_groups (t_arity t d) ds))) =
     match root (fl v) t n (Datatypes.S d) (above (fl v) t d (level (fl v) t d ms)) with
     | Some x => Ret (node_digest (fl v) x) | None => Diverge end).
  { rewrite level_hashes; auto; [|lia|apply SM]. cbn [bind]. apply IH; [lia|].
    apply above_small; auto. lia. }
  destruct ms as [|m [|m' ms]]; [exact H| |exact H].
  cbn [hash_tree root]. apply hash_node_digest; auto; [lia|reflexivity].
Qed.

(** ** Two trees *)
Lemma level_nonempty f t d ms : ms <> [] -> level f t d ms <> [].
Proof. destruct ms; [congruence|]. discriminate. Qed.
Lemma above_nonempty f t d xs : xs <> [] -> above f t d xs <> [].
Proof.
  intros X E. unfold above in E. apply map_eq_nil in E. revert E. apply in_groups_nonempty.
  intros E. apply map_eq_nil in E. auto.
Qed.

Lemma root_depth f t : sensible f t -> forall fuel d ms x, root f t fuel d ms = Some x ->
  exists d', (d <= d' < d + fuel)%nat /\ node_depth (c_params (fst x)) = N.of_nat d' /\
    inner_length (c_params (fst x)) = N.of_nat (t_inner t) /\
    (length ms = 1%nat -> d' = d) /\ (length ms <> 1%nat -> (d < d')%nat).
Proof.
  intros G. induction fuel as [|n IH]; intros d ms x E; [discriminate|].
  assert (H : root f t n (S d) (above f t d (level f t d ms)) = Some x -> 
     exists d', (d < d' < d + S n)%nat /\ node_depth (c_params (fst x)) = N.of_nat d' /\
    inner_length (c_params (fst x)) = N.of_nat (t_inner t)).
  { intros E'. apply IH in E' as (d' & ? & ? & ? & _). exists d'. repeat split; auto; lia. }
  cbn [root] in E. destruct ms as [|m [|m' ms]].
  - destruct (H E) as (d' & ? & ? & ?). exists d'. repeat split; auto; cbn [length]; lia.
  - injection E as <-. exists d. destruct (node_fields f t (t_out t) d 0 true m G (proj2 (proj2 (proj2 G)))) as (_ & ND & NI).
    repeat split; auto; cbn [length]; lia.
  - destruct (H E) as (d' & ? & ? & ?). exists d'. repeat split; auto; cbn [length]; lia.
Qed.

(** the nodes of a tree can be hashed: their configurations are in range and their messages can be counted *)
Definition proper_node (f : flavour) (x : node) : Prop := wf_config f (fst x) /\ countable f (snd x).

Lemma node_proper v t len d i last m : sensible (fl v) t -> (d < 256)%nat -> (N.of_nat i < 2 ^ 64)%N ->
  countable (fl v) m -> proper_node (fl v) (the_node (fl v) t len d i last m).
Proof. intros. split; auto. apply build_wf. apply (node_typed (fl v)); auto. Qed.

Lemma level_proper v t d ms : sensible (fl v) t -> (d < 256)%nat -> small (fl v) ms ->
  Forall (proper_node (fl v)) (level (fl v) t d ms).
Proof.
  intros G D (L & C). apply Forall_forall. intros x I. apply in_map_iff in I as (((i & b) & m) & <- & I).
  apply placed_range in I as (I & M). rewrite Forall_forall in C.
  apply node_proper; auto. assert (2 ^ 48 < 2 ^ 64)%N by reflexivity. lia.
Qed.
Lemma root_in f t : forall fuel d ms x, root f t fuel d ms = Some x -> In x (nodes f t fuel d ms).
Proof.
  induction fuel as [|n IH]; intros d ms x E; [discriminate|]. cbn [root nodes] in *.
  destruct ms as [|m [|m' ms]].
  - cbn zeta. apply in_or_app. right. auto.
  - injection E as <-. left. auto.
  - cbn zeta. apply in_or_app. right. auto.
Qed.
Lemma root_proper v t : sensible (fl v) t -> forall fuel d ms x, (d + fuel <= 256)%nat -> small (fl v) ms ->
  root (fl v) t fuel d ms = Some x -> proper_node (fl v) x.
Proof.
  intros G. induction fuel as [|n IH]; intros d ms x D SM E; [discriminate|].
  assert (H : root (fl v) t n (S d) (above (fl v) t d (level (fl v) t d ms)) = Some x -> proper_node (fl v) x).
  { intros E'. refine (IH _ _ _ _ _ E'); [lia|]. apply above_small; auto. lia. }
  cbn [root] in E. destruct ms as [|m [|m' ms]]; auto. injection E as <-.
  apply node_proper; auto; [lia|reflexivity|]. destruct SM as (_ & C). inversion C; auto.
Qed.

Lemma same_or_collision v x y : proper_node (fl v) x -> proper_node (fl v) y ->
  node_digest (fl v) x = node_digest (fl v) y ->
  same_node (fl v) x y \/
  contain_collision (fl v) (length (node_digest (fl v) x)) (uses (fl v) (fst x) (snd x)) (uses (fl v) (fst y) (snd y)).
Proof. intros (W & C) (W' & C') E. apply seq_collision; auto. Qed.

Lemma collision_app f xs xs' ys ys' zs zs' : tree_collision f ys ys' ->
  tree_collision f (xs ++ ys ++ zs) (xs' ++ ys' ++ zs').
Proof.
  intros (x & y & X & Y & R). exists x, y. repeat split; try apply R;
  apply in_or_app; right; apply in_or_app; left; auto.
Qed.

Lemma levels_same v : forall xs ys, Forall (proper_node (fl v)) xs -> Forall (proper_node (fl v)) ys ->
  map (node_digest (fl v)) xs = map (node_digest (fl v)) ys ->
  Forall2 (same_node (fl v)) xs ys \/ tree_collision (fl v) xs ys.
Proof.
  induction xs as [|x xs IH]; intros [|y ys] F F' E; try discriminate; auto.
  injection E as E1 E. inversion F as [|? ? F1 F2]; inversion F' as [|? ? F1' F2']; subst.
  destruct (same_or_collision v x y F1 F1' E1) as [S|C].
  - destruct (IH ys F2 F2' E) as [R|(a & b & A & B & R)]; [left; auto|].
    right. exists a, b. repeat split; try apply R; right; auto.
  - right. exists x, y. repeat split; auto; left; auto.
Qed.

Lemma same_messages f xs ys : Forall2 (same_node f) xs ys -> map snd xs = map snd ys.
Proof. induction 1 as [|x y xs ys (E & _) F IH]; cbn [map]; f_equal; auto. Qed.
Lemma level_messages f t d ms : map snd (level f t d ms) = ms.
Proof.
  unfold level. rewrite map_map. rewrite <- (placed_items ms 0) at 2. apply map_ext. intros ((i & b) & m). reflexivity.
Qed.

Lemma trees_same v t t' : sensible (fl v) t -> sensible (fl v) t' ->
  forall fuel fuel' d ms ms' x x', (d + fuel <= 256)%nat -> (d + fuel' <= 256)%nat ->
  small (fl v) ms -> small (fl v) ms' ->
  root (fl v) t fuel d ms = Some x -> root (fl v) t' fuel' d ms' = Some x' ->
  node_digest (fl v) x = node_digest (fl v) x' ->
  (ms = ms' /\ same_node (fl v) x x' /\
     Forall2 (same_node (fl v)) (nodes (fl v) t fuel d ms) (nodes (fl v) t' fuel' d ms')) \/
  tree_collision (fl v) (nodes (fl v) t fuel d ms) (nodes (fl v) t' fuel' d ms').
Proof.
  intros G G'. induction fuel as [|n IH]; intros fuel' d ms ms' x x' D D' SM SM' R R' E; [discriminate|].
  destruct fuel' as [|n']; [discriminate|].
  pose proof (root_proper v t G _ _ _ _ D SM R) as P. pose proof (root_proper v t' G' _ _ _ _ D' SM' R') as P'.
  destruct (same_or_collision v x x' P P' E) as [SN|C].
  2:{ right. exists x, x'. repeat split; auto; apply root_in; auto. }
  destruct (root_depth _ t G _ _ _ _ R) as (dx & DX & NX & IX & KX & LX).
  destruct (root_depth _ t' G' _ _ _ _ R') as (dy & DY & NY & IY & KY & LY).
  assert (SC := proj2 SN). destruct SC as (_ & _ & _ & _ & _ & _ & _ & _ & SD & SI & _).
  assert (ED : dx = dy) by lia. assert (EI : t_inner t = t_inner t') by lia. clear NX NY IX IY SD SI.
  (* the case in which neither is the root *)
  assert (H : root (fl v) t n (S d) (above (fl v) t d (level (fl v) t d ms)) = Some x ->
    root (fl v) t' n' (S d) (above (fl v) t' d (level (fl v) t' d ms')) = Some x' ->
    (ms = ms' /\ same_node (fl v) x x' /\
     Forall2 (same_node (fl v)) (level (fl v) t d ms ++ nodes (fl v) t n (S d) (above (fl v) t d (level (fl v) t d ms)))
       (level (fl v) t' d ms' ++ nodes (fl v) t' n' (S d) (above (fl v) t' d (level (fl v) t' d ms')))) \/
    tree_collision (fl v) (level (fl v) t d ms ++ nodes (fl v) t n (S d) (above (fl v) t d (level (fl v) t d ms)))
       (level (fl v) t' d ms' ++ nodes (fl v) t' n' (S d) (above (fl v) t' d (level (fl v) t' d ms')))).
  { intros Q Q'.
    assert (DL : (d < 256)%nat) by lia.
    destruct (above_small v t d ms G DL SM) as (FL & AS). destruct (above_small v t' d ms' G' DL SM') as (FL' & AS').
    assert (D1 : (S d + n <= 256)%nat) by lia. assert (D2 : (S d + n' <= 256)%nat) by lia.
    destruct (IH n' (S d) _ _ x x' D1 D2 AS AS' Q Q' E) as [(EM & _ & F)|(a & b & A & B & C)].
    - assert (EDg : map (node_digest (fl v)) (level (fl v) t d ms) = map (node_digest (fl v)) (level (fl v) t' d ms')).
      { apply (concat_eq_blocks (t_inner t)); auto. { apply (proj1 (proj2 (proj2 G))). } { rewrite EI. auto. }
        pose proof (f_equal (@concat byte) EM) as X. unfold above in X.
        rewrite <- (in_groups_concat (t_arity t d) (map (node_digest (fl v)) (level (fl v) t d ms))) by apply (proj1 (proj2 G)).
        rewrite <- (in_groups_concat (t_arity t' d) (map (node_digest (fl v)) (level (fl v) t' d ms'))) by apply (proj1 (proj2 G')).
        assert (CC : forall l : list (list (list byte)), concat (concat l) = concat (map (@concat byte) l)).
        { induction l as [|y l IHl]; [reflexivity|]. cbn [concat map]. rewrite concat_app, IHl. reflexivity. }
        rewrite !CC. exact X. }
      destruct (levels_same v _ _ (level_proper v t d ms G DL SM) (level_proper v t' d ms' G' DL SM') EDg) as [FS|TC].
      + left. split; [|split; auto].
        * pose proof (same_messages _ _ _ FS) as X. rewrite !level_messages in X. auto.
        * apply Forall2_app; auto.
      + right. exact (collision_app _ [] [] _ _ _ _ TC).
    - right. exists a, b. repeat split; try apply C; apply in_or_app; right; auto. }
  cbn [root] in R, R'. cbn [nodes].
  destruct ms as [|m [|m2 ms]]; destruct ms' as [|m' [|m2' ms']]; cbn zeta; auto.
  - cbn [length] in *. exfalso. lia.
  - cbn [length] in *. exfalso. lia.
  - injection R as <-. injection R' as <-. left. split; [|split; auto]. f_equal. apply SN.
  - cbn [length] in *. exfalso. lia.
  - cbn [length] in *. exfalso. lia.
Qed.

(** ** Enough levels *)
Lemma grouped_count {A} k : (1 <= k)%nat -> forall fuel (l : list A), (length l <= fuel)%nat ->
  (k * length (grouped fuel k l) < length l + k)%nat.
Proof.
  intros K. induction fuel as [|n IH]; intros [|x l] L; cbn [grouped length] in *; try lia.
  destruct (Nat.le_gt_cases (length (x :: l)) k) as [C|C].
  - rewrite skipn_all2 by exact C. destruct n; cbn [grouped length]; lia.
  - assert (X : (length (skipn k (x :: l)) <= n)%nat) by (rewrite skipn_length; cbn [length]; lia).
    specialize (IH _ X). rewrite skipn_length in IH. cbn [length] in *. lia.
Qed.
Lemma above_length f t d ms : length (above f t d (level f t d ms)) = length (in_groups (t_arity t d) ms).
Proof.
  unfold above. rewrite map_length.
  assert (H : forall A B k fuel (l : list A) (l' : list B), length l = length l' ->
     length (grouped fuel k l) = length (grouped fuel k l')).
  { intros A B k. induction fuel as [|n IH]; intros [|x l] [|x' l'] E; try discriminate; auto.
    cbn [grouped length]. f_equal. apply IH. rewrite !skipn_length, E. reflexivity. }
  assert (L : length (map (node_digest f) (level f t d ms)) = length ms).
  { unfold level. rewrite !map_length. apply placed_length. }
  unfold in_groups. rewrite L. apply H. exact L.
Qed.
Lemma root_exists f t : (forall d, 2 <= t_arity t d)%nat -> forall fuel d ms, ms <> [] ->
  (length ms <= 2 ^ fuel)%nat -> exists x, root f t (S fuel) d ms = Some x.
Proof.
  intros G. induction fuel as [|n IH]; intros d ms NE L.
  - destruct ms as [|m [|m' ms]]; [congruence| |cbn in L; lia]. eexists. reflexivity.
  - destruct ms as [|m [|m' ms]]; [congruence|eexists; reflexivity|].
    apply IH.
    + apply above_nonempty, level_nonempty. discriminate.
    + rewrite above_length. specialize (G d).
      assert (K : (1 <= t_arity t d)%nat) by lia.
      pose proof (grouped_count (t_arity t d) K _ (m :: m' :: ms) (le_n _)) as X. fold (in_groups (t_arity t d) (m :: m' :: ms)) in X.
      remember (length (in_groups (t_arity t d) (m :: m' :: ms))) as g. remember (length (m :: m' :: ms)) as q.
      cbn [Nat.pow] in L. destruct g as [|g]; [lia|]. 
      assert ((2 * g < q)%nat) by nia. lia.
Qed.
Lemma root_length v t : sensible (fl v) t -> forall fuel d ms x, (d + fuel <= 256)%nat -> small (fl v) ms ->
  root (fl v) t fuel d ms = Some x -> length (node_digest (fl v) x) = t_out t.
Proof.
  intros G fuel d ms x D SM E. pose proof (root_proper v t G _ _ _ _ D SM E) as (W & _).
  unfold node_digest. rewrite digest_length_eq by auto.
  assert (R : digest_length (c_params (fst x)) = N.of_nat (t_out t)).
  { clear D SM W. revert d ms E. induction fuel as [|n IH]; intros d ms E; [discriminate|]. cbn [root] in E.
    destruct ms as [|m [|m' ms]]; [eapply IH; eauto| |eapply IH; eauto].
    injection E as <-. apply (node_fields (fl v) t (t_out t) d 0 true m G). apply (proj2 (proj2 (proj2 G))). }
  rewrite R. lia.
Qed.

(** ** Batches *)
Lemma hash_level_alone v e imp t d order ms : supported e imp -> sensible (fl v) t -> (d < 256)%nat ->
  (N.of_nat (length ms) <= 2 ^ 48)%N -> Permutation order (seq 0 (length ms)) ->
  hash_level v e imp t d order ms = Ret (map (node_digest (fl v)) (level (fl v) t d ms)).
Proof.
  intros S G D L P. unfold hash_level.
  set (req := fun '(i, last, m) => (imp, node_settings t (t_inner t) d i last, m) : request).
  assert (A : Forall (askable e) (map req (placed 0 ms))).
  { apply Forall_forall. intros r I. apply in_map_iff in I as (((i & b) & m) & <- & I). apply placed_range in I as (I & _).
    split; auto. apply (node_typed (fl v)); auto. assert (2 ^ 48 < 2 ^ 64)%N by reflexivity. lia. }
  assert (P' : Permutation order (seq 0 (length (map req (placed 0 ms))))) by (rewrite map_length, placed_length; exact P).
  destruct (hash_many_all v e _ _ A P') as (jobs & jobs' & EJ & EH & ET).
  assert (MM : forall A B C (f : A -> B) (g : B -> outcome C) l, mapM g (map f l) = mapM (fun x => g (f x)) l).
  { intros. induction l as [|x l IH]; cbn [mapM map]; [reflexivity|]. rewrite IH. reflexivity. }
  assert (EXT : forall A B (f g : A -> outcome B) l, (forall x, f x = g x) -> mapM f l = mapM g l).
  { intros X Y f g l E. induction l as [|x l IH]; cbn [mapM]; [reflexivity|]. rewrite E, IH. reflexivity. }
  rewrite MM in EJ, ET.
  rewrite (EXT _ _ _ (fun x => make_job v e (req x))) by (intros ((i & b) & m); reflexivity).
  rewrite EJ. cbn [bind]. rewrite EH. cbn [bind]. rewrite ET.
  rewrite <- (level_hashes v e imp t d ms S G D L).
  assert (TW : forall l, (do hs <- mapM (fun x => hash_alone v e (req x)) l; mapM as_bytes hs) =
    mapM (fun '(i, last, m) => hash_node v e imp (node_settings t (t_inner t) d i last) m) l \/
    exists x, In x l /\ ~ exists b, hash_node v e imp (node_settings t (t_inner t) d (fst (fst x)) (snd (fst x))) (snd x) = Ret b).
  { induction l as [|((i & b) & m) l IH]; [left; reflexivity|].
    destruct IH as [IH|(x & I & N)]; [|right; exists x; split; [right|]; auto].
    cbn [mapM req hash_alone]. unfold hash_node at 1.
    destruct (params_hash v e (build v imp (node_settings t (t_inner t) d i b)) m) as [h| | |] eqn:E.
    2-4: right; exists (i, b, m); split; [left; auto|]; intros (y & Y); unfold hash_node in Y; cbn [fst snd] in Y; rewrite E in Y; discriminate.
    cbn [bind].
    destruct (as_bytes h) as [y| | |] eqn:EB.
    2-4: right; exists (i, b, m); split; [left; auto|]; intros (z & Z); unfold hash_node in Z; cbn [fst snd] in Z; rewrite E in Z; cbn [bind] in Z; congruence.
    left. cbn [bind]. rewrite <- IH. destruct (mapM (fun x => hash_alone v e (req x)) l); cbn [bind mapM]; auto.
    rewrite EB. reflexivity. }
  destruct (TW (placed 0 ms)) as [->|(((i & b) & m) & I & N)]; [reflexivity|]. exfalso. apply N.
  apply placed_range in I as (I & _). cbn [fst snd]. eexists. apply hash_node_digest; auto.
  assert (2 ^ 48 < 2 ^ 64)%N by reflexivity. lia.
Qed.

Lemma batched_same v e imp t order : supported e imp -> sensible (fl v) t ->
  (forall d n, Permutation (order d n) (seq 0 n)) ->
  forall fuel d ms, (d + fuel <= 256)%nat -> small (fl v) ms ->
  hash_tree_batched v e imp t order fuel d ms = hash_tree v e imp t fuel d ms.
Proof.
  intros S G P. induction fuel as [|n IH]; intros d ms D SM; [reflexivity|].
  assert (H : (do ds <- hash_level v e imp t d (order d (length ms)) ms;
      hash_tree_batched v e imp t order n (Datatypes.S d) (map (@concat byte) (in_groups (t_arity t d) ds))) =
    (do ds <- mapM (fun '(i, last, m) => hash_node v e imp (node_settings t (t_inner t) d i last) m) (placed 0 ms);
      hash_tree v e imp t n (Datatypes.S d) (map (@concat byte) (in_groups (t_arity t d) ds)))).
  { rewrite hash_level_alone, level_hashes; auto; try lia; try apply SM. cbn [bind]. apply IH; [lia|].
    apply above_small; auto. lia. }
  destruct ms as [|m [|m' ms]]; [exact H|reflexivity|exact H].
Qed.

(** ** Files *)
Lemma leaves_small f p file : countable f file -> (N.of_nat (length (leaves_of p file)) <= 2 ^ 48)%N ->
  small f (leaves_of p file).
Proof.
  intros C L. split; auto. apply Forall_forall. intros m I. apply leaves_sizes in I.
  unfold countable in *. lia.
Qed.

(** ** Positions *)
Lemma node_place f t len d i last m : (N.of_nat i < 2 ^ 48)%N ->
  let p := c_params (fst (the_node f t len d i last m)) in
  node_depth p = N.of_nat d /\ node_offset p = N.of_nat i.
Proof.
  intros I. unfold the_node, node_settings, configure. cbn [fst]. rewrite fold_left_app.
  generalize (fold_left (fun c s => if legal f s then apply s c else c) (t_common t) (default_config f)). intros c.
  cbn [fold_left].
  assert (E : legal f (NodeOffset (N.of_nat i)) = true).
  { cbn [legal]. destruct f; auto. apply N.ltb_lt. exact I. }
  rewrite E. change (legal f (NodeDepth (N.of_nat d))) with true. change (legal f (LastNode last)) with true.
  cbv iota. destruct (legal f (HashLength len)), (legal f (InnerHashLength (t_inner t))); cbn; auto.
Qed.

Definition place (x : node) : N * N := (node_depth (c_params (fst x)), node_offset (c_params (fst x))).

Lemma positions_below f t : forall fuel d ms x, (N.of_nat (length ms) < 2 ^ 48)%N ->
  In x (nodes f t fuel d ms) -> exists d', (d <= d')%nat /\ fst (place x) = N.of_nat d'.
Proof.
  induction fuel as [|n IH]; intros d ms x L I; [contradiction|].
  assert (H : In x (level f t d ms ++ nodes f t n (S d) (above f t d (level f t d ms))) ->
    exists d', (d <= d')%nat /\ fst (place x) = N.of_nat d').
  { intros J. apply in_app_or in J as [J|J].
    - apply in_map_iff in J as (((i & b) & m) & <- & J). apply placed_range in J as (J & _).
      exists d. split; auto. apply (node_place f t (t_inner t) d i b m). lia.
    - apply IH in J as (d' & A & B). { exists d'. split; auto; lia. }
      rewrite above_length. pose proof (in_groups_length (t_arity t d) ms). lia. }
  cbn [nodes] in I. destruct ms as [|m [|m' ms]]; auto.
  destruct I as [<-|[]]. exists d. split; auto. apply (node_place f t (t_out t) d 0 true m). reflexivity.
Qed.

Lemma positions_differ f t : sensible f t -> forall fuel d ms, (N.of_nat (length ms) < 2 ^ 48)%N ->
  NoDup (map place (nodes f t fuel d ms)).
Proof.
  intros G. induction fuel as [|n IH]; intros d ms L; [constructor|].
  assert (AL : (N.of_nat (length (above f t d (level f t d ms))) < 2 ^ 48)%N).
  { rewrite above_length. pose proof (in_groups_length (t_arity t d) ms). lia. }
  assert (H : NoDup (map place (level f t d ms ++ nodes f t n (S d) (above f t d (level f t d ms))))).
  { rewrite map_app. 
    assert (LV : NoDup (map place (level f t d ms))).
    { unfold level. rewrite map_map.
      assert (R : forall x, In x (placed 0 ms) -> (N.of_nat (fst (fst x)) < 2 ^ 48)%N).
      { intros ((i & b) & m) I. apply placed_range in I as (I & _). cbn [fst]. lia. }
      revert R. generalize 0%nat. clear. induction ms as [|m ms IHm]; intros k R; cbn [placed map]; constructor.
      - intros I. apply in_map_iff in I as (((i & b) & m') & E & I).
        assert (B1 := R _ (or_introl eq_refl)). assert (B2 := R (i, b, m') (or_intror I)). cbn [fst] in *.
        apply placed_range in I as (I & _). pose proof (f_equal snd E) as E2. unfold place in E2. cbn [snd] in E2. clear E. rename E2 into E.
        rewrite (proj2 (node_place f t (t_inner t) d i b m' B2)) in E.
        rewrite (proj2 (node_place f t (t_inner t) d k _ m B1)) in E. lia.
      - apply IHm. intros x I. apply R. right. exact I. }
    specialize (IH (S d) _ AL). revert LV IH.
    assert (DJ : forall q, In q (map place (level f t d ms)) ->
      ~ In q (map place (nodes f t n (S d) (above f t d (level f t d ms))))).
    { intros q A B. apply in_map_iff in A as (x & <- & A). apply in_map_iff in B as (y & E & B).
      apply positions_below in B as (d' & LE & ED); auto.
      apply in_map_iff in A as (((i & b) & m) & <- & J). apply placed_range in J as (J & _).
      rewrite E in ED. unfold place in ED. cbn [fst] in ED.
      assert (BI : (N.of_nat i < 2 ^ 48)%N) by lia.
      rewrite (proj1 (node_place f t (t_inner t) d i b m BI)) in ED. lia. }
    revert DJ. generalize (map place (level f t d ms)) (map place (nodes f t n (S d) (above f t d (level f t d ms)))).
    clear. intros xs ys DJ NX NY. induction NX as [|x xs NI NX IHx]; auto. cbn [app]. constructor.
    - intros I. apply in_app_or in I as [I|I]; auto. apply (DJ x); auto. left; auto.
    - apply IHx. intros q I. apply DJ. right; auto. }
  cbn [nodes]. destruct ms as [|m [|m' ms]]; auto. cbn [map]. constructor; [auto|constructor].
Qed.
