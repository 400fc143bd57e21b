(** Proofs about the output of the command-line tool (Out.v against OutSpec.v). *)
From Coq Require Import String Ascii.
From Coq Require Import Arith NArith List Bool Lia.
From Coq Require Import Init.Byte Strings.Byte.
From Verif Require Import Base Impl Api.
From Verif Require Import BinSpec OutSpec Bin Out.
Import ListNotations.
Open Scope list_scope.
Open Scope nat_scope.
Local Notation length := List.length.

Definition uses (l : list answer) : nat := length (filter useful l).
Definition closed (l : list answer) : Prop := Forall (eq Closed) l.

Lemma uses_app a b : uses (a ++ b) = uses a + uses b.
Proof. unfold uses. now rewrite filter_app, app_length. Qed.
Lemma begins_refl {A} (l : list A) : begins l l.
Proof. exists []. now rewrite app_nil_r. Qed.
Lemma begins_app {A} (l p : list A) : begins l (l ++ p).
Proof. now exists p. Qed.
Lemma begins_trans {A} (a b c : list A) : begins a b -> begins b c -> begins a c.
Proof. intros (x & ->) (y & ->). exists (x ++ y). now rewrite app_assoc. Qed.
Lemma begins_more {A} (a b p : list A) : begins a b -> begins a (b ++ p).
Proof. intros H. eapply begins_trans; [exact H|apply begins_app]. Qed.
Lemma begins_drop {A} (a p b : list A) : begins (a ++ p) b -> begins a b.
Proof. intros (x & ->). rewrite <- app_assoc. apply begins_app. Qed.
Lemma begins_length {A} (a b : list A) : begins a b -> length a <= length b.
Proof. intros (x & ->). rewrite app_length. lia. Qed.
Lemma begins_pre {A} (x a b : list A) : begins a b -> begins (x ++ a) (x ++ b).
Proof. intros (y & ->). exists y. now rewrite app_assoc. Qed.

Lemma put_flow : forall as_ file buf, let '(r, fd, rest) := put file as_ buf in
  (r = WOk -> rest = []) /\ (r = WStuck -> answers fd = [] /\ rest <> []) /\
  (exists used, as_ = used ++ answers fd /\ (r = WErr -> Exists broken used) /\
     (closed used -> seen fd = file)).
Proof.
  induction as_ as [|a as_ IH]; intros file buf; destruct buf as [|b buf]; cbn [put].
  1,3: split; [auto|]; split; [discriminate|]; exists []; repeat split; discriminate.
  - split; [discriminate|]. split; [split; [reflexivity|discriminate]|]. exists []. repeat split. discriminate.
  - destruct a as [n| | |].
    + destruct n as [|n].
      * cbn [Nat.min Nat.eqb]. split; [discriminate|]. split; [discriminate|]. exists [Took 0]. repeat split.
        intros _. constructor. now right.
      * cbn [length Nat.min Nat.eqb]. set (m := S (Nat.min n (length buf))). specialize (IH (file ++ firstn m (b :: buf)) (skipn m (b :: buf))).
        destruct (put _ as_ _) as [[r fd] rest]. destruct IH as (A & B & used & -> & D & C). split; [exact A|]. split; [exact B|].
        exists (Took (S n) :: used). split; [reflexivity|]. split; [intros E; constructor 2; auto|].
        intros F. apply Forall_inv in F. discriminate.
    + specialize (IH file (b :: buf)). destruct (put file as_ _) as [[r fd] rest]. destruct IH as (A & B & used & -> & D & C).
      split; [exact A|]. split; [exact B|]. exists (Again :: used). split; [reflexivity|]. split; [intros E; constructor 2; auto|].
      intros F. apply Forall_inv in F. discriminate.
    + split; [discriminate|]. split; [discriminate|]. exists [Broke]. repeat split. intros _. constructor. now left.
    + split; [auto|]. split; [discriminate|]. exists [Closed]. repeat split. discriminate.
Qed.
Lemma put_content : forall as_ file buf, ~ In Closed as_ -> let '(r, fd, rest) := put file as_ buf in
  seen fd ++ rest = file ++ buf /\ begins file (seen fd) /\
  uses as_ + length file <= uses (answers fd) + length (seen fd).
Proof.
  induction as_ as [|a as_ IH]; intros file buf NC; destruct buf as [|b buf]; cbn [put].
  1,3: cbn [seen answers]; repeat split; [apply begins_refl|lia].
  - cbn [seen answers]. repeat split; [apply begins_refl|lia].
  - assert (NC' : ~ In Closed as_) by (intros I; apply NC; now right). destruct a as [n| | |].
    + destruct n as [|n].
      * cbn [Nat.min Nat.eqb seen answers]. repeat split; [apply begins_refl|]. unfold uses. cbn. lia.
      * cbn [length Nat.min Nat.eqb]. set (m := S (Nat.min n (length buf))).
        specialize (IH (file ++ firstn m (b :: buf)) (skipn m (b :: buf)) NC').
        destruct (put _ as_ _) as [[r fd] rest]. destruct IH as (A & B & C).
        rewrite <- app_assoc, firstn_skipn in A. split; [exact A|]. split; [now apply begins_drop in B|].
        rewrite app_length, firstn_length in C. unfold uses in *. cbn [filter useful length] in *. lia.
    + specialize (IH file (b :: buf) NC'). destruct (put file as_ _) as [[r fd] rest]. exact IH.
    + cbn [seen answers]. repeat split; [apply begins_refl|]. unfold uses. cbn. lia.
    + exfalso. apply NC. now left.
Qed.

(** One operation on standard output that accepts the bytes [p]. *)
Definition flows (s : stdout) (x : wres * stdout) : Prop :=
  let '(r, s') := x in
  (r = WStuck -> answers (so_fd s') = []) /\
  exists used, answers (so_fd s) = used ++ answers (so_fd s') /\ (r = WErr -> Exists broken used) /\
    (closed used -> seen (so_fd s') = seen (so_fd s)).
Definition all (s : stdout) : list byte := seen (so_fd s) ++ so_buf s.
Definition carries (s : stdout) (p : list byte) (x : wres * stdout) : Prop :=
  let '(r, s') := x in
  uses (answers (so_fd s)) + length (seen (so_fd s)) <= uses (answers (so_fd s')) + length (seen (so_fd s')) /\
  match r with
  | WOk => all s' = all s ++ p
  | WErr => begins (all s') (all s ++ p)
  | WStuck => exists c, begins (seen (so_fd s') ++ [c]) (all s ++ p)
  end.
Definition clean (s : stdout) : Prop := ~ In Closed (answers (so_fd s)).

Lemma flows_refl s : flows s (WOk, s).
Proof. split; [discriminate|]. exists []. repeat split. discriminate. Qed.
Lemma flows_then s x k : flows s x -> (forall s', x = (WOk, s') -> flows s' (k s')) -> flows s (wthen x k).
Proof.
  destruct x as [[| |] s']; intros F K; cbn [wthen]; auto. specialize (K s' eq_refl). destruct (k s') as [r s2].
  destruct F as (_ & u & E & _ & C). destruct K as (A & u2 & E2 & D2 & C2). split; [exact A|].
  exists (u ++ u2). rewrite E, E2, app_assoc. split; [reflexivity|]. split.
  - intros ->. apply Exists_app. right. auto.
  - intros Q. apply Forall_app in Q. destruct Q as (Q1 & Q2). rewrite C2, C; auto.
Qed.
Lemma flows_clean s r s' : flows s (r, s') -> clean s -> clean s'.
Proof. intros (_ & u & E & _) C I. apply C. rewrite E. apply in_or_app. now right. Qed.
Lemma carries_refl s : carries s [] (WOk, s).
Proof. split; [lia|]. now rewrite app_nil_r. Qed.
Lemma carries_then s p q x k : carries s p x -> (forall s', x = (WOk, s') -> carries s' q (k s')) -> carries s (p ++ q) (wthen x k).
Proof.
  destruct x as [[| |] s']; intros (U & F) K; cbn [wthen].
  - specialize (K s' eq_refl). destruct (k s') as [r s2]. destruct K as (U2 & K). split; [lia|].
    rewrite F, <- app_assoc in K. exact K.
  - split; [lia|]. rewrite app_assoc. now apply begins_more.
  - split; [lia|]. destruct F as (c & F). exists c. rewrite app_assoc. now apply begins_more.
Qed.

Lemma flush_flow s : flows s (flush_buf s).
Proof.
  unfold flush_buf. pose proof (put_flow (answers (so_fd s)) (seen (so_fd s)) (so_buf s)) as H.
  destruct (put _ _ _) as [[r fd] rest]. destruct H as (_ & B & H). split; [intros E; now apply B|exact H].
Qed.
Lemma last_cons {A} (l : list A) : l <> [] -> exists c r, l = [c] ++ r.
Proof. destruct l as [|c r]; [congruence|]. intros _. now exists c, r. Qed.
Lemma flush_carries s : clean s -> carries s [] (flush_buf s).
Proof.
  intros C. unfold flush_buf. pose proof (put_flow (answers (so_fd s)) (seen (so_fd s)) (so_buf s)) as H.
  pose proof (put_content (answers (so_fd s)) (seen (so_fd s)) (so_buf s) C) as P.
  destruct (put _ _ _) as [[r fd] rest]. destruct H as (A & B & _). destruct P as (P & _ & U).
  split; [exact U|]. rewrite app_nil_r. unfold all. cbn [so_fd so_buf]. rewrite P. destruct r; [reflexivity|apply begins_refl|].
  destruct (B eq_refl) as (_ & NE). destruct (last_cons rest NE) as (c & q & ->). exists c. rewrite <- P, app_assoc. apply begins_app.
Qed.
Lemma flush_empties s s' : flush_buf s = (WOk, s') -> so_buf s' = [].
Proof.
  unfold flush_buf. pose proof (put_flow (answers (so_fd s)) (seen (so_fd s)) (so_buf s)) as H.
  destruct (put _ _ _) as [[r fd] rest]. destruct H as (A & _). intros E. injection E as -> <-. cbn. auto.
Qed.
Lemma put_fd_flow s p : flows s (put_fd s p).
Proof.
  unfold put_fd. pose proof (put_flow (answers (so_fd s)) (seen (so_fd s)) p) as H.
  destruct (put _ _ _) as [[r fd] rest]. destruct H as (_ & B & H). split; [intros E; now apply B|exact H].
Qed.
Lemma put_fd_carries s p : clean s -> so_buf s = [] -> carries s p (put_fd s p).
Proof.
  intros C Z. unfold put_fd. pose proof (put_flow (answers (so_fd s)) (seen (so_fd s)) p) as H.
  pose proof (put_content (answers (so_fd s)) (seen (so_fd s)) p C) as P.
  destruct (put _ _ _) as [[r fd] rest]. destruct H as (A & B & _). destruct P as (P & _ & U).
  split; [exact U|]. unfold all. cbn [so_fd so_buf]. rewrite Z, !app_nil_r, <- P. destruct r.
  - rewrite A by reflexivity. now rewrite app_nil_r.
  - apply begins_app.
  - destruct (B eq_refl) as (_ & NE). destruct (last_cons rest NE) as (c & q & ->). exists c. rewrite app_assoc. apply begins_app.
Qed.
Lemma put_fd_buf s p r s' : put_fd s p = (r, s') -> so_buf s' = so_buf s.
Proof. unfold put_fd. destruct (put _ _ _) as [[? ?] ?]. intros E. injection E as _ <-. reflexivity. Qed.
Lemma keep_flow s p : flows s (WOk, keep s p).
Proof. split; [discriminate|]. exists []. repeat split. discriminate. Qed.
Lemma keep_carries s p : carries s p (WOk, keep s p).
Proof. split; [cbn; lia|]. unfold all, keep. cbn. now rewrite app_assoc. Qed.

Lemma buf_write_flow s p : flows s (buf_write_all s p).
Proof.
  unfold buf_write_all. destruct (Nat.ltb _ _); [apply keep_flow|]. apply flows_then.
  - destruct (Nat.ltb _ _); [apply flush_flow|apply flows_refl].
  - intros s' _. destruct (Nat.leb _ _); [apply put_fd_flow|apply keep_flow].
Qed.
Lemma buf_write_carries s p : clean s -> length (so_buf s) <= capacity -> carries s p (buf_write_all s p).
Proof.
  intros C Z. unfold buf_write_all. destruct (Nat.ltb _ _) eqn:L; [apply keep_carries|]. apply Nat.ltb_ge in L.
  change p with ([] ++ p). apply carries_then.
  - destruct (Nat.ltb _ _); [now apply flush_carries|apply carries_refl].
  - intros s' E. cbn [app]. destruct (Nat.leb capacity (length p)) eqn:L2; [|apply keep_carries]. apply Nat.leb_le in L2.
    cbn [app] in E. destruct (Nat.ltb (capacity - length (so_buf s)) (length p)) eqn:L3.
    + pose proof (flush_flow s) as F. pose proof (flush_empties s s' E) as Z'. rewrite E in F.
      apply put_fd_carries; [eapply flows_clean; eauto|exact Z'].
    + injection E as <-. apply Nat.ltb_ge in L3. apply put_fd_carries; auto.
      destruct (so_buf s); [reflexivity|]. cbn [length] in *. exfalso. unfold capacity in *. lia.
Qed.
Lemma flush_buf_len s r s' : flush_buf s = (r, s') -> length (so_buf s') <= length (so_buf s).
Proof.
  unfold flush_buf. pose proof (fun C => put_content (answers (so_fd s)) (seen (so_fd s)) (so_buf s) C) as P.
  assert (Q : forall as_ file buf, let '(_, _, rest) := put file as_ buf in length rest <= length buf).
  { clear. induction as_ as [|a as_ IH]; intros file buf; destruct buf as [|b buf]; cbn [put]; try (cbn; lia).
    destruct a as [n| | |]; try (cbn; lia).
    - destruct (Nat.eqb _ 0); [cbn; lia|]. specialize (IH (file ++ firstn (Nat.min n (length (b :: buf))) (b :: buf)) (skipn (Nat.min n (length (b :: buf))) (b :: buf))).
      destruct (put _ _ _) as [[? ?] ?]. rewrite skipn_length in IH. lia.
    - apply IH. }
  specialize (Q (answers (so_fd s)) (seen (so_fd s)) (so_buf s)). destruct (put _ _ _) as [[? ?] ?].
  intros E. injection E as _ <-. exact Q.
Qed.
Lemma buf_write_room s p r s' : length (so_buf s) <= capacity -> buf_write_all s p = (r, s') -> length (so_buf s') <= capacity.
Proof.
  intros Z. unfold buf_write_all. destruct (Nat.ltb _ _) eqn:L.
  { intros E. injection E as <- <-. unfold keep. cbn. rewrite app_length. apply Nat.ltb_lt in L. lia. }
  apply Nat.ltb_ge in L. destruct (Nat.ltb (capacity - length (so_buf s)) (length p)) eqn:L3.
  - pose proof (flush_buf_len s) as F. pose proof (flush_empties s) as E0. destruct (flush_buf s) as [[| |] s1]; cbn [wthen].
    + destruct (Nat.leb capacity (length p)) eqn:L2.
      * intros E. apply put_fd_buf in E. rewrite E, (E0 s1 eq_refl). cbn. lia.
      * intros E. injection E as <- <-. unfold keep. cbn. rewrite (E0 s1 eq_refl). cbn. apply Nat.leb_gt in L2. lia.
    + intros E. injection E as <- <-. specialize (F _ _ eq_refl). lia.
    + intros E. injection E as <- <-. specialize (F _ _ eq_refl). lia.
  - cbn [wthen]. apply Nat.ltb_ge in L3. destruct (Nat.leb capacity (length p)).
    + intros E. apply put_fd_buf in E. rewrite E. lia.
    + intros E. injection E as <- <-. unfold keep. cbn. rewrite app_length. lia.
Qed.

Lemma through_le : forall p n, through_last_nl p = Some n -> n <= length p.
Proof.
  induction p as [|b p IH]; intros n E; cbn [through_last_nl] in E; [discriminate|].
  destruct (through_last_nl p) as [m|].
  - injection E as <-. specialize (IH m eq_refl). cbn. lia.
  - destruct (Byte.eqb b x0a); [|discriminate]. injection E as <-. cbn. lia.
Qed.

Lemma line_write_flow s p : flows s (line_write_all s p).
Proof.
  unfold line_write_all. destruct (through_last_nl p) as [n|].
  - apply flows_then.
    + destruct (so_buf s); [apply put_fd_flow|]. apply flows_then; [apply buf_write_flow|]. intros. apply flush_flow.
    + intros. apply buf_write_flow.
  - apply flows_then; [|intros; apply buf_write_flow]. unfold flush_if_completed_line.
    destruct (so_buf s); [apply flows_refl|]. destruct (Byte.eqb _ _); [apply flush_flow|apply flows_refl].
Qed.
Lemma line_write_room s p r s' : length (so_buf s) <= capacity -> line_write_all s p = (r, s') -> length (so_buf s') <= capacity.
Proof.
  intros Z. unfold line_write_all. destruct (through_last_nl p) as [n|].
  - destruct (so_buf s) as [|b buf] eqn:B.
    + pose proof (put_fd_buf s (firstn n p)) as P. destruct (put_fd s (firstn n p)) as [[| |] s1]; cbn [wthen]; specialize (P _ _ eq_refl); intros E.
      * eapply buf_write_room; [|exact E]. rewrite P, B. cbn. lia.
      * injection E as <- <-. rewrite P, B. cbn. lia.
      * injection E as <- <-. rewrite P, B. cbn. lia.
    + rewrite <- B in Z. pose proof (buf_write_room s (firstn n p)) as P. destruct (buf_write_all s (firstn n p)) as [[| |] s1]; cbn [wthen]; specialize (P _ _ Z eq_refl).
      * pose proof (flush_buf_len s1) as F. destruct (flush_buf s1) as [[| |] s2]; cbn [wthen]; specialize (F _ _ eq_refl); intros E.
        -- eapply buf_write_room; [|exact E]. lia.
        -- injection E as <- <-. lia.
        -- injection E as <- <-. lia.
      * intros E. injection E as <- <-. exact P.
      * intros E. injection E as <- <-. exact P.
  - assert (F : forall r s1, flush_if_completed_line s = (r, s1) -> length (so_buf s1) <= capacity).
    { intros r1 s1. unfold flush_if_completed_line. destruct (so_buf s) as [|b buf] eqn:B; [intros E; injection E as <- <-; rewrite B; cbn; lia|].
      destruct (Byte.eqb _ _); [intros E; apply flush_buf_len in E; rewrite B in E; lia|intros E; injection E as <- <-; rewrite B; exact Z]. }
    destruct (flush_if_completed_line s) as [[| |] s1]; cbn [wthen]; specialize (F _ _ eq_refl).
    + intros E. eapply buf_write_room; eauto.
    + intros E. injection E as <- <-. exact F.
    + intros E. injection E as <- <-. exact F.
Qed.
Lemma line_write_carries s p : clean s -> length (so_buf s) <= capacity -> carries s p (line_write_all s p).
Proof.
  intros C Z. unfold line_write_all. destruct (through_last_nl p) as [n|] eqn:T.
  - rewrite <- (firstn_skipn n p) at 1. apply carries_then.
    + destruct (so_buf s) as [|b buf] eqn:B; [now apply put_fd_carries|]. rewrite <- B in Z.
      rewrite <- (app_nil_r (firstn n p)) at 1. apply carries_then; [now apply buf_write_carries|].
      intros s' E. apply flush_carries. pose proof (buf_write_flow s (firstn n p)) as F. rewrite E in F. eapply flows_clean; eauto.
    + intros s' E. apply buf_write_carries.
      * assert (F : flows s (match so_buf s with [] => put_fd s (firstn n p) | _ :: _ => wthen (buf_write_all s (firstn n p)) flush_buf end)).
        { destruct (so_buf s); [apply put_fd_flow|]. apply flows_then; [apply buf_write_flow|]. intros. apply flush_flow. }
        rewrite E in F. eapply flows_clean; eauto.
      * destruct (so_buf s) as [|b buf] eqn:B; [apply put_fd_buf in E; rewrite E, B; cbn; lia|].
        destruct (buf_write_all s (firstn n p)) as [[| |] s1]; cbn [wthen] in E; [|discriminate|discriminate].
        apply flush_empties in E. rewrite E. cbn. lia.
  - change p with ([] ++ p) at 1. apply carries_then.
    + unfold flush_if_completed_line. destruct (so_buf s); [apply carries_refl|].
      destruct (Byte.eqb _ _); [now apply flush_carries|apply carries_refl].
    + unfold flush_if_completed_line. intros s' E. destruct (so_buf s) as [|b buf] eqn:B.
      * injection E as <-. apply buf_write_carries; auto. rewrite B. cbn. lia.
      * destruct (Byte.eqb _ _).
        -- pose proof (flush_flow s) as F. rewrite E in F. pose proof (flush_buf_len _ _ _ E) as L. rewrite B in L.
           apply buf_write_carries; [eapply flows_clean; eauto|lia].
        -- injection E as <-. apply buf_write_carries; auto. rewrite B. exact Z.
Qed.
Lemma line_write_nl s s' : line_write_all s nl = (WOk, s') -> so_buf s' = [].
Proof.
  unfold line_write_all. change (through_last_nl nl) with (Some 1). cbv iota beta. change (firstn 1 nl) with [x0a]. change (skipn 1 nl) with (@nil byte). cbv iota beta.
  assert (K : forall s0, so_buf s0 = [] -> buf_write_all s0 [] = (WOk, s') -> so_buf s' = []).
  { intros s0 B E. unfold buf_write_all in E. rewrite B in E. change (Nat.ltb (@length byte []) (capacity - @length byte [])) with true in E. cbv beta iota zeta in E.
    injection E as <-. unfold keep. cbn. now rewrite B. }
  destruct (so_buf s) as [|b buf] eqn:B.
  - pose proof (put_fd_buf s [x0a]) as P. destruct (put_fd s [x0a]) as [[| |] s1]; cbn [wthen]; [|discriminate|discriminate].
    apply K. now rewrite (P _ _ eq_refl).
  - destruct (buf_write_all s [x0a]) as [[| |] s1]; cbn [wthen]; [|discriminate|discriminate].
    pose proof (flush_empties s1) as P. destruct (flush_buf s1) as [[| |] s2]; cbn [wthen]; [|discriminate|discriminate].
    apply K. now apply P.
Qed.

Lemma print_flow : forall ps s, flows s (print_out s ps).
Proof.
  induction ps as [|p ps IH]; intros s; cbn [print_out]; [apply flows_refl|].
  apply flows_then; [apply line_write_flow|]. intros. apply IH.
Qed.
Lemma print_carries : forall ps s, clean s -> length (so_buf s) <= capacity -> carries s (concat ps) (print_out s ps).
Proof.
  induction ps as [|p ps IH]; intros s C Z; cbn [print_out concat]; [apply carries_refl|].
  apply carries_then; [now apply line_write_carries|]. intros s' E. apply IH.
  - pose proof (line_write_flow s p) as F. rewrite E in F. eapply flows_clean; eauto.
  - eapply line_write_room; eauto.
Qed.
Lemma print_nl : forall ps s s', print_out s (ps ++ [nl]) = (WOk, s') -> so_buf s' = [].
Proof.
  induction ps as [|p ps IH]; intros s s'; cbn [print_out app].
  - pose proof (line_write_nl s) as L. destruct (line_write_all s nl) as [[| |] s1]; cbn [wthen]; [|discriminate|discriminate].
    intros E. injection E as <-. now apply L.
  - destruct (line_write_all s p) as [[| |] s1]; cbn [wthen]; [|discriminate|discriminate]. apply IH.
Qed.

(** Standard error. *)
Definition eflows (s : stream) (x : wres * stream) : Prop :=
  let '(r, s') := x in
  (r = WStuck -> answers s' = []) /\
  exists used, answers s = used ++ answers s' /\ (r = WErr -> Exists broken used).
Definition ecarries (s : stream) (p : list byte) (x : wres * stream) : Prop :=
  let '(r, s') := x in
  uses (answers s) + length (seen s) <= uses (answers s') + length (seen s') /\
  match r with
  | WOk => seen s' = seen s ++ p
  | WErr => begins (seen s') (seen s ++ p)
  | WStuck => exists c, begins (seen s' ++ [c]) (seen s ++ p)
  end.
Lemma eprint_flow : forall ps s, eflows s (print_err s ps).
Proof.
  induction ps as [|p ps IH]; intros s; cbn [print_err].
  - split; [discriminate|]. exists []. split; [reflexivity|discriminate].
  - pose proof (put_flow (answers s) (seen s) p) as H. destruct (put _ _ _) as [[r fd] rest].
    destruct H as (_ & B & u & E & D & _). destruct r.
    + specialize (IH fd). destruct (print_err fd ps) as [r2 s2]. destruct IH as (A & u2 & E2 & D2). split; [exact A|].
      exists (u ++ u2). rewrite E, E2, app_assoc. split; [reflexivity|]. intros Q. apply Exists_app. right. auto.
    + split; [discriminate|]. exists u. split; auto.
    + split; [intros _; now apply B|]. exists u. split; [exact E|discriminate].
Qed.
Lemma eprint_carries : forall ps s, ~ In Closed (answers s) -> ecarries s (concat ps) (print_err s ps).
Proof.
  induction ps as [|p ps IH]; intros s C; cbn [print_err concat].
  - split; [lia|]. now rewrite app_nil_r.
  - pose proof (put_flow (answers s) (seen s) p) as H. pose proof (put_content (answers s) (seen s) p C) as P.
    destruct (put _ _ _) as [[r fd] rest]. destruct H as (A & B & u & E & D & _). destruct P as (P & _ & U). destruct r.
    + rewrite A, app_nil_r in P by reflexivity.
      assert (C' : ~ In Closed (answers fd)) by (intros I; apply C; rewrite E; apply in_or_app; now right).
      specialize (IH fd C'). destruct (print_err fd ps) as [r2 s2]. destruct IH as (U2 & K). split; [lia|].
      rewrite P, <- app_assoc in K. exact K.
    + split; [exact U|]. rewrite app_assoc, <- P, <- app_assoc. apply begins_app.
    + split; [exact U|]. destruct (B eq_refl) as (_ & NE). destruct (last_cons rest NE) as (c & q & ->). exists c.
      rewrite app_assoc, <- P, <- !app_assoc. rewrite app_assoc. apply begins_app.
Qed.

(** ** A run *)
Section Tool.
Variable why : nat -> list byte.
Variables (t : target) (e : env) (opt : options).

(** What the rest of a run does, given the rest of the ideal one. *)
Definition so_ (s : io) : stream := so_fd (io_out s).
Record faithful (s : io) (r : run) (rep : report) : Prop := {
  f_out : begins (on_out rep) (seen (so_ s) ++ out_text (lines r));
  f_err : begins (on_err rep) (seen (io_err s) ++ err_text why (io_complaints s) (lines r));
  f_end : match ended rep with
    | Some f =>
        f = finish_ r /\ on_out rep = seen (so_ s) ++ out_text (lines r) /\
          on_err rep = seen (io_err s) ++ err_text why (io_complaints s) (lines r)
        \/ f = Aborted /\ (Exists broken (answers (so_ s)) \/ Exists broken (answers (io_err s)))
    | None =>
        uses (answers (so_ s)) + length (seen (so_ s)) < length (seen (so_ s) ++ out_text (lines r)) \/
        uses (answers (io_err s)) + length (seen (io_err s)) < length (seen (io_err s) ++ err_text why (io_complaints s) (lines r))
    end }.
Definition tidy (s : io) : Prop := clean (io_out s) /\ ~ In Closed (answers (io_err s)) /\ so_buf (io_out s) = [].

Lemma leave_tidy s x : so_buf (io_out s) = [] ->
  leave s x = {| on_out := seen (so_ s); on_err := seen (io_err s); ended := Some x |}.
Proof. intros Z. unfold leave, flush_buf, so_. rewrite Z. destruct (answers _); reflexivity. Qed.
Lemma faithful_leave s x : tidy s -> faithful s (stop x) (leave s x).
Proof.
  intros (_ & _ & Z). rewrite leave_tidy by exact Z.
  constructor; cbn; rewrite ?app_nil_r; [apply begins_refl|apply begins_refl|left; auto].
Qed.
Lemma faithful_stay s x : faithful s (stop x) (stay s (Some x)).
Proof. constructor; cbn; rewrite ?app_nil_r; [apply begins_refl|apply begins_refl|left; auto]. Qed.

Lemma faithful_say s ps text r k : tidy s -> concat ps ++ nl = list_byte_of_string text ++ nl ->
  (forall s', tidy s' -> faithful s' r (k s')) -> faithful s (with_line (Out text) r) (say s (ps ++ [nl]) k).
Proof.
  intros (C & CE & Z) T K. unfold say.
  pose proof (print_flow (ps ++ [nl]) (io_out s)) as F. pose proof (print_carries (ps ++ [nl]) (io_out s) C) as P.
  rewrite Z in P. specialize (P (Nat.le_0_l _)). pose proof (print_nl ps (io_out s)) as N.
  destruct (print_out (io_out s) (ps ++ [nl])) as [res o]. destruct F as (FS & u & E & D & _). destruct P as (U & P).
  assert (T' : all (io_out s) ++ concat (ps ++ [nl]) = seen (so_ s) ++ list_byte_of_string text ++ nl).
  { unfold all, so_. rewrite Z, app_nil_r, concat_app. cbn [concat]. now rewrite app_nil_r, T. }
  rewrite T' in P. clear T'.
  set (s' := {| io_out := o; io_err := io_err s; io_complaints := io_complaints s |}).
  assert (CO : clean o) by (intros I; apply C; rewrite E; apply in_or_app; now right).
  destruct res.
  - specialize (N o eq_refl). assert (TS : tidy s') by (repeat split; auto). specialize (K s' TS).
    destruct K as [KO KE KN]. unfold all in P. rewrite N, app_nil_r in P. unfold so_ in *. subst s'. cbn [io_out io_err io_complaints] in *.
    rewrite P, <- !app_assoc in KO, KN.
    constructor; cbn [lines finish_ with_line out_text flat_map err_text]; fold (out_text (lines r)); rewrite <- ?app_assoc; unfold so_; auto.
    destruct (ended (k _)).
    + destruct KN as [KN|(KN & B)]; [left; exact KN|right]. split; [exact KN|]. destruct B as [B|B]; [left|right; exact B].
      rewrite E. apply Exists_app. now right.
    + destruct KN as [KN|KN]; [left|right; exact KN].
      rewrite !app_length in KN. rewrite P, !app_length in U. rewrite !app_length. lia.
  - (* the panic's flush *)
    unfold leave. change (io_out s') with o. pose proof (flush_carries o CO) as FC. pose proof (flush_flow o) as FF.
    destruct (flush_buf o) as [r2 o2]. destruct FC as (U2 & FC). rewrite app_nil_r in FC.
    assert (BO : begins (seen (so_fd o2)) (seen (so_ s) ++ list_byte_of_string text ++ nl)).
    { destruct r2.
      - unfold all in FC at 1. eapply begins_trans; [|exact P]. rewrite <- FC. apply begins_app.
      - eapply begins_trans; [|exact P]. eapply begins_trans; [|exact FC]. apply begins_app.
      - destruct FC as (c & FC). eapply begins_trans; [|exact P]. now apply begins_drop in FC. }
    constructor; cbn [on_out on_err ended lines finish_ with_line out_text flat_map err_text]; fold (out_text (lines r)).
    + rewrite app_assoc. now apply begins_more.
    + apply begins_app.
    + assert (X : Exists broken (answers (so_ s))) by (unfold so_; rewrite E; apply Exists_app; left; auto).
      destruct r2; [right; auto|right; auto|]. left. destruct FC as (c & FC).
      assert (LE : length (seen (so_fd o2) ++ [c]) <= length (seen (so_ s) ++ list_byte_of_string text ++ nl))
        by (apply begins_length; eapply begins_trans; [exact FC|exact P]).
      destruct FF as (FS2 & _). rewrite (FS2 eq_refl) in U2. unfold so_ in *. rewrite !app_length in *. cbn [length uses filter] in *.
      change (uses []) with 0 in U2. lia.
  - destruct P as (c & P).
    constructor; cbn [on_out on_err ended stay lines finish_ with_line out_text flat_map err_text]; fold (out_text (lines r)).
    + unfold so_ in *. cbn. rewrite app_assoc. apply begins_more. now apply begins_drop in P.
    + apply begins_app.
    + left. apply begins_length in P. rewrite (FS eq_refl) in U. unfold so_ in *. rewrite !app_length in *. cbn [length] in *.
      change (uses []) with 0 in U. lia.
Qed.

Lemma faithful_complain s ps l r k : tidy s -> concat ps = complaint_text l (why (io_complaints s)) ->
  match l with Out _ => False | _ => True end ->
  (forall s', tidy s' -> faithful s' r (k s')) -> faithful s (with_line l r) (complain s ps k).
Proof.
  intros (C & CE & Z) T NO K. unfold complain.
  pose proof (eprint_flow ps (io_err s)) as F. pose proof (eprint_carries ps (io_err s) CE) as P.
  destruct (print_err (io_err s) ps) as [res f]. destruct F as (FS & u & E & D). destruct P as (U & P). rewrite T in P.
  set (s' := {| io_out := io_out s; io_err := f; io_complaints := S (io_complaints s) |}).
  assert (OT : out_text (lines (with_line l r)) = out_text (lines r)) by (destruct l; [contradiction| | |]; reflexivity).
  assert (ET : err_text why (io_complaints s) (lines (with_line l r)) =
    complaint_text l (why (io_complaints s)) ++ err_text why (S (io_complaints s)) (lines r)) by (destruct l; [contradiction| | |]; reflexivity).
  assert (LT : forall x, leave s' x = {| on_out := seen (so_ s); on_err := seen f; ended := Some x |}) by (intros; apply leave_tidy; exact Z).
  destruct res.
  - assert (TS : tidy s'). { split; [exact C|]. split; [intros I; apply CE; rewrite E; apply in_or_app; now right|exact Z]. }
    specialize (K s' TS). destruct K as [KO KE KN]. subst s'. unfold so_ in *. cbn [io_out io_err io_complaints] in *.
    rewrite P, <- !app_assoc in KE, KN.
    constructor; rewrite ?OT, ?ET; unfold so_; auto. cbn [finish_ with_line]. destruct (ended (k _)).
    + destruct KN as [KN|(KN & B)]; [left; exact KN|right]. split; [exact KN|]. destruct B as [B|B]; [left; exact B|right].
      rewrite E. apply Exists_app. now right.
    + destruct KN as [KN|KN]; [left; exact KN|right].
      rewrite !app_length in KN. rewrite P, !app_length in U. rewrite !app_length. unfold so_ in *. lia.
  - rewrite LT. constructor; cbn [on_out on_err ended]; rewrite ?OT, ?ET.
    + apply begins_app.
    + rewrite app_assoc. now apply begins_more.
    + right. split; [reflexivity|]. right. rewrite E. apply Exists_app. left. auto.
  - destruct P as (c & P). constructor; cbn [on_out on_err ended stay]; rewrite ?OT, ?ET.
    + apply begins_app.
    + rewrite app_assoc. apply begins_more. now apply begins_drop in P.
    + right. apply begins_length in P. rewrite (FS eq_refl) in U. rewrite !app_length in *. cbn [length] in *.
      change (uses []) with 0 in U. lia.
Qed.

Lemma bytes_append a b : list_byte_of_string (a ++ b) = list_byte_of_string a ++ list_byte_of_string b.
Proof.
  unfold list_byte_of_string. rewrite <- map_app. f_equal. induction a as [|c a IH]; [reflexivity|]. cbn. now f_equal.
Qed.

Lemma hash_inputs_faithful params several : forall inputs failed s, tidy s ->
  faithful s (hash_inputs e opt params several failed inputs) (hash_inputs_out why e opt params several failed inputs s).
Proof.
  induction inputs as [|[name path] rest IH]; intros failed s T; cbn [hash_inputs hash_inputs_out]; [now apply faithful_leave|].
  destruct (hash_file e opt params path) as [[hash|]| | |].
  - destruct several.
    + change [list_byte_of_string hash; list_byte_of_string "  "; list_byte_of_string name; nl]
        with ([list_byte_of_string hash; list_byte_of_string "  "; list_byte_of_string name] ++ [nl]).
      apply faithful_say; auto. cbn [concat]. rewrite !bytes_append. now rewrite app_nil_r.
    + change [list_byte_of_string hash; nl] with ([list_byte_of_string hash] ++ [nl]).
      apply faithful_say; auto. cbn [concat]. now rewrite app_nil_r.
  - apply faithful_complain; auto. cbn [concat complaint_text]. rewrite !bytes_append, <- !app_assoc, app_nil_r. reflexivity.
  - now apply faithful_leave.
  - apply faithful_stay.
  - apply faithful_stay.
Qed.

Definition io_start (outs errs : list answer) : io :=
  {| io_out := {| so_fd := {| seen := []; answers := outs |}; so_buf := [] |};
     io_err := {| seen := []; answers := errs |}; io_complaints := 0 |}.
Lemma main_faithful inputs stdin outs errs : ~ In Closed outs -> ~ In Closed errs ->
  faithful (io_start outs errs) (main t e opt inputs stdin) (main_out why t e opt inputs stdin outs errs).
Proof.
  intros CO CE. unfold main, main_out. fold (io_start outs errs).
  assert (T : tidy (io_start outs errs)) by (repeat split; auto).
  destruct (make_params t opt) as [[params|err]| | |].
  - destruct inputs as [|i inputs]; [|now apply hash_inputs_faithful].
    destruct (hash_stdin e opt params stdin) as [[hash|]| | |].
    + change [list_byte_of_string hash; nl] with ([list_byte_of_string hash] ++ [nl]).
      apply faithful_say; auto using faithful_leave. cbn [concat]. now rewrite app_nil_r.
    + apply faithful_complain; auto using faithful_leave.
    + now apply faithful_leave.
    + apply faithful_stay.
    + apply faithful_stay.
  - apply (faithful_complain _ _ (Refusal err) (stop (Exited 1))); auto using faithful_leave.
  - now apply faithful_leave.
  - apply faithful_stay.
  - apply faithful_stay.
Qed.

(** Without broken answers, the run ends as it should, whatever becomes of the text. *)
Definition sound (s : io) (r : run) (rep : report) : Prop :=
  ~ Exists broken (answers (so_ s)) -> ~ Exists broken (answers (io_err s)) ->
  (ended rep = None \/ ended rep = Some (finish_ r)) /\
  (closed (answers (so_ s)) -> on_out rep = seen (so_ s)).
Lemma sound_leave s x : so_buf (io_out s) = [] -> sound s (stop x) (leave s x).
Proof. intros Z _ _. rewrite leave_tidy by exact Z. cbn. auto. Qed.
Lemma sound_stay s x : sound s (stop x) (stay s (Some x)).
Proof. intros _ _. cbn. auto. Qed.
Lemma sound_say s ps l r k : (forall s', so_buf (io_out s') = [] -> sound s' r (k s')) -> sound s (with_line l r) (say s (ps ++ [nl]) k).
Proof.
  intros K NB NE. unfold say. pose proof (print_flow (ps ++ [nl]) (io_out s)) as F. pose proof (print_nl ps (io_out s)) as N.
  destruct (print_out (io_out s) (ps ++ [nl])) as [res o]. destruct F as (FS & u & E & D & Q). destruct res.
  - destruct (K {| io_out := o; io_err := io_err s; io_complaints := io_complaints s |} (N o eq_refl)) as (A & B).
    + intros X. apply NB. unfold so_ in *. cbn in X. rewrite E. apply Exists_app. now right.
    + exact NE.
    + split; [exact A|]. unfold so_ in *. cbn in B. intros CL. rewrite E in CL. apply Forall_app in CL. destruct CL as (CU & CL).
      rewrite (B CL). now apply Q.
  - exfalso. apply NB. unfold so_. rewrite E. apply Exists_app. left. auto.
  - split; [left; reflexivity|]. cbn. unfold so_. intros CL. apply Q. rewrite E in CL. apply Forall_app in CL. tauto.
Qed.
Lemma sound_complain s ps l r k : so_buf (io_out s) = [] ->
  (forall s', so_buf (io_out s') = [] -> sound s' r (k s')) -> sound s (with_line l r) (complain s ps k).
Proof.
  intros Z K NB NE. unfold complain. pose proof (eprint_flow ps (io_err s)) as F.
  destruct (print_err (io_err s) ps) as [res f]. destruct F as (FS & u & E & D). destruct res.
  - destruct (K {| io_out := io_out s; io_err := f; io_complaints := S (io_complaints s) |} Z) as (A & B).
    + exact NB.
    + intros X. apply NE. cbn in X. rewrite E. apply Exists_app. now right.
    + split; [exact A|exact B].
  - exfalso. apply NE. rewrite E. apply Exists_app. left. auto.
  - split; [left; reflexivity|]. cbn. reflexivity.
Qed.
Lemma hash_inputs_sound params several : forall inputs failed s, so_buf (io_out s) = [] ->
  sound s (hash_inputs e opt params several failed inputs) (hash_inputs_out why e opt params several failed inputs s).
Proof.
  induction inputs as [|[name path] rest IH]; intros failed s Z; cbn [hash_inputs hash_inputs_out]; [now apply sound_leave|].
  destruct (hash_file e opt params path) as [[hash|]| | |].
  - destruct several.
    + change [list_byte_of_string hash; list_byte_of_string "  "; list_byte_of_string name; nl]
        with ([list_byte_of_string hash; list_byte_of_string "  "; list_byte_of_string name] ++ [nl]).
      apply sound_say; auto.
    + change [list_byte_of_string hash; nl] with ([list_byte_of_string hash] ++ [nl]). apply sound_say; auto.
  - apply sound_complain; auto.
  - now apply sound_leave.
  - apply sound_stay.
  - apply sound_stay.
Qed.
Lemma main_sound inputs stdin outs errs :
  sound (io_start outs errs) (main t e opt inputs stdin) (main_out why t e opt inputs stdin outs errs).
Proof.
  unfold main, main_out. fold (io_start outs errs).
  assert (T : so_buf (io_out (io_start outs errs)) = []) by reflexivity.
  destruct (make_params t opt) as [[params|err]| | |].
  - destruct inputs as [|i inputs]; [|now apply hash_inputs_sound].
    destruct (hash_stdin e opt params stdin) as [[hash|]| | |].
    + change [list_byte_of_string hash; nl] with ([list_byte_of_string hash] ++ [nl]).
      apply sound_say; auto using sound_leave.
    + apply sound_complain; auto using sound_leave.
    + now apply sound_leave.
    + apply sound_stay.
    + apply sound_stay.
  - apply (sound_complain _ _ (Refusal err) (stop (Exited 1))); auto using sound_leave.
  - now apply sound_leave.
  - apply sound_stay.
  - apply sound_stay.
Qed.

(** What is on standard output and how the run ends, whatever standard error does with its text. *)
Definition steps (l : list answer) : nat := length (filter ahead l).
Lemma steps_app a b : steps (a ++ b) = steps a + steps b.
Proof. unfold steps. now rewrite filter_app, app_length. Qed.
Lemma put_steps : forall as_ file buf, let '(r, fd, rest) := put file as_ buf in
  match r with
  | WOk => steps as_ <= steps (answers fd) + length buf
  | WErr => True
  | WStuck => steps as_ < length buf
  end.
Proof.
  induction as_ as [|a as_ IH]; intros file buf; destruct buf as [|b buf]; cbn [put]; try (cbn; lia).
  destruct a as [n| | |]; try exact I.
  - destruct n as [|n]; [exact I|]. cbn [length Nat.min Nat.eqb]. set (m := S (Nat.min n (length buf))).
    specialize (IH (file ++ firstn m (b :: buf)) (skipn m (b :: buf))).
    destruct (put _ as_ _) as [[r fd] rest]. rewrite skipn_length in IH. unfold steps in *. cbn [filter ahead useful orb length] in *.
    destruct r; [|exact I|]; cbn [length] in *; lia.
  - specialize (IH file (b :: buf)). destruct (put file as_ _) as [[r fd] rest]. exact IH.
  - unfold steps. cbn. lia.
Qed.
Lemma eprint_steps : forall ps s, let '(r, s') := print_err s ps in
  match r with
  | WOk => steps (answers s) <= steps (answers s') + length (concat ps)
  | WErr => True
  | WStuck => steps (answers s) < length (concat ps)
  end.
Proof.
  induction ps as [|p ps IH]; intros s; cbn [print_err concat]; [lia|].
  pose proof (put_steps (answers s) (seen s) p) as P. destruct (put _ _ _) as [[r fd] rest]. rewrite app_length. destruct r.
  - specialize (IH fd). destruct (print_err fd ps) as [r2 s2]. destruct r2; [lia|exact I|lia].
  - exact I.
  - lia.
Qed.

Record half (s : io) (r : run) (rep : report) : Prop := {
  h_out : begins (on_out rep) (seen (so_ s) ++ out_text (lines r));
  h_quiet : err_text why (io_complaints s) (lines r) = [] -> on_err rep = seen (io_err s);
  h_end : match ended rep with
    | Some f => f = finish_ r /\ on_out rep = seen (so_ s) ++ out_text (lines r)
                \/ f = Aborted /\ (Exists broken (answers (so_ s)) \/ Exists broken (answers (io_err s)))
    | None =>
        uses (answers (so_ s)) + length (seen (so_ s)) < length (seen (so_ s) ++ out_text (lines r)) \/
        steps (answers (io_err s)) < length (err_text why (io_complaints s) (lines r))
    end }.
Definition neat (s : io) : Prop := clean (io_out s) /\ so_buf (io_out s) = [].

Lemma half_leave s x : neat s -> half s (stop x) (leave s x).
Proof. intros (_ & Z). rewrite leave_tidy by exact Z. constructor; cbn; rewrite ?app_nil_r; [apply begins_refl|reflexivity|left; auto]. Qed.
Lemma half_stay s x : half s (stop x) (stay s (Some x)).
Proof. constructor; cbn; rewrite ?app_nil_r; [apply begins_refl|reflexivity|left; auto]. Qed.
Lemma half_say s ps text r k : neat s -> concat ps ++ nl = list_byte_of_string text ++ nl ->
  (forall s', neat s' -> half s' r (k s')) -> half s (with_line (Out text) r) (say s (ps ++ [nl]) k).
Proof.
  intros (C & Z) T K. unfold say.
  pose proof (print_flow (ps ++ [nl]) (io_out s)) as F. pose proof (print_carries (ps ++ [nl]) (io_out s) C) as P.
  rewrite Z in P. specialize (P (Nat.le_0_l _)). pose proof (print_nl ps (io_out s)) as N.
  destruct (print_out (io_out s) (ps ++ [nl])) as [res o]. destruct F as (FS & u & E & D & _). destruct P as (U & P).
  assert (T' : all (io_out s) ++ concat (ps ++ [nl]) = seen (so_ s) ++ list_byte_of_string text ++ nl).
  { unfold all, so_. rewrite Z, app_nil_r, concat_app. cbn [concat]. now rewrite app_nil_r, T. }
  rewrite T' in P. clear T'.
  set (s' := {| io_out := o; io_err := io_err s; io_complaints := io_complaints s |}).
  assert (CO : clean o) by (intros I; apply C; rewrite E; apply in_or_app; now right).
  destruct res.
  - specialize (N o eq_refl). assert (TS : neat s') by (split; auto). specialize (K s' TS).
    destruct K as [KO KE KN]. unfold all in P. rewrite N, app_nil_r in P. unfold so_ in *. subst s'. cbn [io_out io_err io_complaints] in *.
    rewrite P, <- !app_assoc in KO, KN.
    constructor; cbn [lines finish_ with_line out_text flat_map err_text]; fold (out_text (lines r)); rewrite <- ?app_assoc; unfold so_; auto.
    destruct (ended (k _)).
    + destruct KN as [KN|(KN & B)]; [left; exact KN|right]. split; [exact KN|]. destruct B as [B|B]; [left|right; exact B].
      rewrite E. apply Exists_app. now right.
    + destruct KN as [KN|KN]; [left|right; exact KN].
      rewrite !app_length in KN. rewrite P, !app_length in U. rewrite !app_length. lia.
  - unfold leave. change (io_out s') with o. pose proof (flush_carries o CO) as FC. pose proof (flush_flow o) as FF.
    destruct (flush_buf o) as [r2 o2]. destruct FC as (U2 & FC). rewrite app_nil_r in FC.
    assert (BO : begins (seen (so_fd o2)) (seen (so_ s) ++ list_byte_of_string text ++ nl)).
    { destruct r2.
      - unfold all in FC at 1. eapply begins_trans; [|exact P]. rewrite <- FC. apply begins_app.
      - eapply begins_trans; [|exact P]. eapply begins_trans; [|exact FC]. apply begins_app.
      - destruct FC as (c & FC). eapply begins_trans; [|exact P]. now apply begins_drop in FC. }
    constructor; cbn [on_out on_err ended lines finish_ with_line out_text flat_map err_text]; fold (out_text (lines r)).
    + rewrite app_assoc. now apply begins_more.
    + reflexivity.
    + assert (X : Exists broken (answers (so_ s))) by (unfold so_; rewrite E; apply Exists_app; left; auto).
      destruct r2; [right; auto|right; auto|]. left. destruct FC as (c & FC).
      assert (LE : length (seen (so_fd o2) ++ [c]) <= length (seen (so_ s) ++ list_byte_of_string text ++ nl))
        by (apply begins_length; eapply begins_trans; [exact FC|exact P]).
      destruct FF as (FS2 & _). rewrite (FS2 eq_refl) in U2. unfold so_ in *. rewrite !app_length in *. cbn [length uses filter] in *.
      change (uses []) with 0 in U2. lia.
  - destruct P as (c & P).
    constructor; cbn [on_out on_err ended stay lines finish_ with_line out_text flat_map err_text]; fold (out_text (lines r)).
    + unfold so_ in *. cbn. rewrite app_assoc. apply begins_more. now apply begins_drop in P.
    + reflexivity.
    + left. apply begins_length in P. rewrite (FS eq_refl) in U. unfold so_ in *. rewrite !app_length in *. cbn [length] in *.
      change (uses []) with 0 in U. lia.
Qed.
Lemma complaint_nonempty l w : match l with Out _ => False | _ => True end -> complaint_text l w <> [].
Proof. destruct l; cbn; [easy|discriminate|discriminate|]. intros _ H. now apply app_eq_nil in H. Qed.
Lemma half_complain s ps l r k : neat s -> concat ps = complaint_text l (why (io_complaints s)) ->
  match l with Out _ => False | _ => True end ->
  (forall s', neat s' -> half s' r (k s')) -> half s (with_line l r) (complain s ps k).
Proof.
  intros (C & Z) T NO K. unfold complain.
  pose proof (eprint_flow ps (io_err s)) as F. pose proof (eprint_steps ps (io_err s)) as P.
  destruct (print_err (io_err s) ps) as [res f]. destruct F as (FS & u & E & D). rewrite T in P.
  set (s' := {| io_out := io_out s; io_err := f; io_complaints := S (io_complaints s) |}).
  assert (OT : out_text (lines (with_line l r)) = out_text (lines r)) by (destruct l; [contradiction| | |]; reflexivity).
  assert (ET : err_text why (io_complaints s) (lines (with_line l r)) =
    complaint_text l (why (io_complaints s)) ++ err_text why (S (io_complaints s)) (lines r)) by (destruct l; [contradiction| | |]; reflexivity).
  assert (NQ : err_text why (io_complaints s) (lines (with_line l r)) = [] -> forall P : Prop, P).
  { rewrite ET. intros X. apply app_eq_nil in X. destruct X as (X & _). now apply complaint_nonempty in X. }
  assert (LT : forall x, leave s' x = {| on_out := seen (so_ s); on_err := seen f; ended := Some x |}) by (intros; apply leave_tidy; exact Z).
  destruct res.
  - assert (TS : neat s') by (split; [exact C|exact Z]).
    specialize (K s' TS). destruct K as [KO KE KN]. subst s'. unfold so_ in *. cbn [io_out io_err io_complaints] in *.
    constructor; [rewrite OT; exact KO|intros X; now apply NQ|]. rewrite OT, ET. cbn [finish_ with_line]. unfold so_. destruct (ended (k _)).
    + destruct KN as [KN|(KN & B)]; [left; exact KN|right]. split; [exact KN|]. destruct B as [B|B]; [left; exact B|right].
      rewrite E. apply Exists_app. now right.
    + destruct KN as [KN|KN]; [left; exact KN|right]. rewrite app_length. lia.
  - rewrite LT. constructor; cbn [on_out on_err ended]; [rewrite OT; apply begins_app|intros X; now apply NQ|].
    right. split; [reflexivity|]. right. rewrite E. apply Exists_app. left. auto.
  - constructor; cbn [on_out on_err ended stay]; [rewrite OT; apply begins_app|intros X; now apply NQ|].
    right. rewrite ET, app_length. lia.
Qed.
Lemma hash_inputs_half params several : forall inputs failed s, neat s ->
  half s (hash_inputs e opt params several failed inputs) (hash_inputs_out why e opt params several failed inputs s).
Proof.
  induction inputs as [|[name path] rest IH]; intros failed s T; cbn [hash_inputs hash_inputs_out]; [now apply half_leave|].
  destruct (hash_file e opt params path) as [[hash|]| | |].
  - destruct several.
    + change [list_byte_of_string hash; list_byte_of_string "  "; list_byte_of_string name; nl]
        with ([list_byte_of_string hash; list_byte_of_string "  "; list_byte_of_string name] ++ [nl]).
      apply half_say; auto. cbn [concat]. rewrite !bytes_append. now rewrite app_nil_r.
    + change [list_byte_of_string hash; nl] with ([list_byte_of_string hash] ++ [nl]).
      apply half_say; auto. cbn [concat]. now rewrite app_nil_r.
  - apply half_complain; auto. cbn [concat complaint_text]. rewrite !bytes_append, <- !app_assoc, app_nil_r. reflexivity.
  - now apply half_leave.
  - apply half_stay.
  - apply half_stay.
Qed.
Lemma main_half inputs stdin outs errs : ~ In Closed outs ->
  half (io_start outs errs) (main t e opt inputs stdin) (main_out why t e opt inputs stdin outs errs).
Proof.
  intros CO. unfold main, main_out. fold (io_start outs errs).
  assert (T : neat (io_start outs errs)) by (split; auto).
  destruct (make_params t opt) as [[params|err]| | |].
  - destruct inputs as [|i inputs]; [|now apply hash_inputs_half].
    destruct (hash_stdin e opt params stdin) as [[hash|]| | |].
    + change [list_byte_of_string hash; nl] with ([list_byte_of_string hash] ++ [nl]).
      apply half_say; auto using half_leave. cbn [concat]. now rewrite app_nil_r.
    + apply half_complain; auto using half_leave.
    + now apply half_leave.
    + apply half_stay.
    + apply half_stay.
  - apply (half_complain _ _ (Refusal err) (stop (Exited 1))); auto using half_leave.
  - now apply half_leave.
  - apply half_stay.
  - apply half_stay.
Qed.
End Tool.
