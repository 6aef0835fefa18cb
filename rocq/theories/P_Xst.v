(** Specification and proofs about the index maps of M_Xst. *)
From Coq Require Import ZArith QArith Bool List Arith Lia Sorting.Sorted.
From Verif Require Import Base M_Nd M_Cond M_Xst.
Import ListNotations.
Open Scope nat_scope.
Open Scope list_scope.

(** ** Specification *)
(** The storage order of the instrument: the visibility of the signal chains
    [a >= b] is number a (a + 1) / 2 + b; the chains of the Mini-Array at
    position [p] of the file are 2 p (feed X) and 2 p + 1 (feed Y). *)
Definition vis_no (a b : nat) : nat := a * (a + 1) / 2 + b.
Definition chain (p : nat) (c : feed) : nat := 2 * p + match c with X => 0 | Y => 1 end.

(** Increasing lists. *)
Definition increasing (l : list nat) : Prop :=
  forall i j, i < j -> j < length l -> nth i l 0 < nth j l 0.

(** ** Lemmas *)
Lemma tri_double a : 2 * (a * (a + 1) / 2) = a * (a + 1).
Proof.
  assert (H : exists k, a * (a + 1) = k * 2).
  { induction a as [|a [k IH]]; [exists 0; reflexivity|]. exists (k + (a + 1)). lia. }
  destruct H as [k ->]. rewrite Nat.div_mul by lia. lia.
Qed.

Lemma vis_no_lt a b a' b' : b <= a -> b' <= a' ->
  (vis_no a b < vis_no a' b' <-> a < a' \/ (a = a' /\ b < b')).
Proof.
  intros B B'. unfold vis_no. pose proof (tri_double a). pose proof (tri_double a').
  split.
  - intro L. destruct (lt_eq_lt_dec a a') as [[G|G]|G]; [left; lia|right; subst; lia|exfalso].
    assert (a' + 1 <= a) by lia. assert ((a' + 1) * (a' + 2) <= a * (a + 1)) by (apply Nat.mul_le_mono; lia). lia.
  - intros [L|[-> L]]; [|lia].
    assert (a + 1 <= a') by lia. assert ((a + 1) * (a + 2) <= a' * (a' + 1)) by (apply Nat.mul_le_mono; lia). lia.
Qed.

Lemma vis_no_inj a b a' b' : b <= a -> b' <= a' -> vis_no a b = vis_no a' b' -> a = a' /\ b = b'.
Proof.
  intros B B' E. pose proof (proj2 (vis_no_lt a b a' b' B B')). pose proof (proj2 (vis_no_lt a' b' a b B' B)). lia.
Qed.

Lemma tril_S n : tril (S n) = tril n ++ map (fun j => (n, j)) (seq 0 (S n)).
Proof.
  unfold tril. replace (seq 0 (S n)) with (seq 0 n ++ [n]) at 1 by (rewrite seq_S; reflexivity).
  rewrite flat_map_app. cbn [flat_map]. rewrite app_nil_r. reflexivity.
Qed.

Lemma tril_length n : length (tril n) = n * (n + 1) / 2.
Proof.
  induction n as [|n IH]; [reflexivity|].
  rewrite tril_S, app_length, map_length, seq_length, IH.
  pose proof (tri_double n). pose proof (tri_double (S n)). lia.
Qed.

Lemma tril_In n a b : In (a, b) (tril n) <-> b <= a /\ a < n.
Proof.
  unfold tril. rewrite in_flat_map. split.
  - intros [i [Hi H]]. apply in_seq in Hi. apply in_map_iff in H. destruct H as [j [E Hj]].
    apply in_seq in Hj. injection E as <- <-. lia.
  - intros [B A]. exists a. split; [apply in_seq; lia|]. apply in_map_iff. exists b. split; [reflexivity|apply in_seq; lia].
Qed.

Lemma tril_nth n a b d : b <= a -> a < n -> nth (vis_no a b) (tril n) d = (a, b).
Proof.
  intros B. induction n as [|n IH]; intro A; [lia|].
  rewrite tril_S. destruct (Nat.eq_dec a n) as [->|N].
  - rewrite app_nth2; rewrite tril_length; unfold vis_no; [|lia].
    replace (n * (n + 1) / 2 + b - n * (n + 1) / 2) with b by lia.
    rewrite (nth_indep _ d ((fun j => (n, j)) 0)) by (rewrite map_length, seq_length; lia).
    rewrite map_nth, seq_nth by lia. reflexivity.
  - rewrite app_nth1; [apply IH; lia|]. rewrite tril_length.
    pose proof (vis_no_lt a b n 0 B ltac:(lia)) as L. unfold vis_no in L at 2. unfold vis_no in *. lia.
Qed.

(** Every number below n (n + 1) / 2 is that of one pair. *)
Lemma vis_no_bound n a b : b <= a -> a < n -> vis_no a b < length (tril n).
Proof.
  intros B A. rewrite tril_length. pose proof (proj2 (vis_no_lt a b n 0 B ltac:(lia)) (or_introl A)) as L.
  unfold vis_no in L at 2. lia.
Qed.

Lemma tril_nth_inv n v d : v < length (tril n) ->
  exists a b, b <= a /\ a < n /\ v = vis_no a b /\ nth v (tril n) d = (a, b).
Proof.
  intro L. induction n as [|n IH].
  - cbn in L. lia.
  - rewrite tril_S, app_length, map_length, seq_length in L.
    destruct (Nat.lt_ge_cases v (length (tril n))) as [K|K].
    + destruct (IH K) as [a [b [B [A [E N]]]]]. exists a, b. repeat split; [assumption|lia|assumption|].
      rewrite tril_S, app_nth1 by assumption. exact N.
    + rewrite tril_length in *. exists n, (v - n * (n + 1) / 2).
      assert (v = vis_no n (v - n * (n + 1) / 2)) by (unfold vis_no; lia).
      split; [lia|split; [lia|split; [assumption|]]].
      transitivity (nth (vis_no n (v - n * (n + 1) / 2)) (tril (S n)) d); [congruence|].
      apply tril_nth; lia.
Qed.

(** ** Sorted lists *)
Lemma sorted_ext (l l' : list nat) : StronglySorted lt l -> StronglySorted lt l' ->
  (forall x, In x l <-> In x l') -> l = l'.
Proof.
  intro Hl. revert l'. induction Hl as [|a l Hl IH F]; intros l' Hl' E.
  - destruct l' as [|b l']; [reflexivity|]. exfalso. apply (proj2 (E b)). now left.
  - inversion Hl' as [|b l2 Hl2 F2].
    + subst. exfalso. apply (proj1 (E a)). now left.
    + subst l'. rewrite Forall_forall in F, F2.
      assert (a = b) as ->.
      { destruct (proj1 (E a) (or_introl eq_refl)) as [->|I1]; [reflexivity|].
        destruct (proj2 (E b) (or_introl eq_refl)) as [->|I2]; [reflexivity|].
        specialize (F _ I2). specialize (F2 _ I1). lia. }
      f_equal. apply IH; [assumption|]. intro x. split; intro I.
      * destruct (proj1 (E x) (or_intror I)) as [<-|J]; [|assumption]. specialize (F _ I). lia.
      * destruct (proj2 (E x) (or_intror I)) as [<-|J]; [|assumption]. specialize (F2 _ I). lia.
Qed.

Lemma sorted_app {A} (R : A -> A -> Prop) l l' : StronglySorted R l -> StronglySorted R l' ->
  (forall x y, In x l -> In y l' -> R x y) -> StronglySorted R (l ++ l').
Proof.
  intros H H' C. induction H as [|a l H IH F]; [assumption|]. cbn. constructor.
  - apply IH. intros x y I J. apply C; [now right|assumption].
  - apply Forall_forall. intros y I. apply in_app_iff in I. destruct I as [I|I].
    + rewrite Forall_forall in F. auto.
    + apply C; [now left|assumption].
Qed.

Lemma sorted_seq a n : StronglySorted lt (seq a n).
Proof.
  revert a. induction n as [|n IH]; intro a; [constructor|]. cbn. constructor; [apply IH|].
  apply Forall_forall. intros x I. apply in_seq in I. lia.
Qed.

Lemma sorted_filter {A} (R : A -> A -> Prop) (f : A -> bool) l : StronglySorted R l -> StronglySorted R (filter f l).
Proof.
  intro H. induction H as [|a l H IH F]; [constructor|]. cbn. destruct (f a); [|assumption].
  constructor; [assumption|]. rewrite Forall_forall in *. intros x I. apply filter_In in I. apply F. tauto.
Qed.

Lemma sorted_map {A B} (R : A -> A -> Prop) (R' : B -> B -> Prop) (f : A -> B) l : StronglySorted R l ->
  (forall x y, In x l -> In y l -> R x y -> R' (f x) (f y)) -> StronglySorted R' (map f l).
Proof.
  intros H C. induction H as [|a l H IH F]; [constructor|]. cbn. constructor.
  - apply IH. intros x y I J. apply C; now right.
  - apply Forall_forall. intros y I. apply in_map_iff in I. destruct I as [x [<- I]].
    rewrite Forall_forall in F. apply C; [now left|now right|auto].
Qed.

Lemma sorted_increasing l : StronglySorted lt l <-> increasing l.
Proof.
  split.
  - intros H i j L1 L2. revert i j L1 L2. induction H as [|a l H IH F]; intros i j L1 L2; [cbn in L2; lia|].
    rewrite Forall_forall in F. destruct j as [|j]; [lia|]. cbn in L2. destruct i as [|i]; cbn.
    + apply F. apply nth_In. lia.
    + apply IH; lia.
  - induction l as [|a l IH]; intro H; [constructor|]. constructor.
    + apply IH. intros i j L1 L2. apply (H (S i) (S j)); cbn; lia.
    + apply Forall_forall. intros x I. apply (In_nth _ _ 0) in I. destruct I as [n [L <-]].
      apply (H 0 (S n)); cbn; lia.
Qed.

Definition lex (p q : nat * nat) : Prop := fst p < fst q \/ (fst p = fst q /\ snd p < snd q).
Lemma tril_sorted n : StronglySorted lex (tril n).
Proof.
  induction n as [|n IH]; [constructor|]. rewrite tril_S. apply sorted_app; [assumption| |].
  - apply (sorted_map lt lex _ _ (sorted_seq 0 (S n))). intros. right. cbn. auto.
  - intros [a b] y I J. apply tril_In in I. apply in_map_iff in J. destruct J as [j [<- _]]. left. cbn. lia.
Qed.

(** ** Mini-Arrays *)
Lemma isin_In x l : isin x l = true <-> In x l.
Proof.
  unfold isin. rewrite existsb_exists. split.
  - intros [y [I E]]. apply Nat.eqb_eq in E. now subst.
  - intro I. exists x. split; [assumption|apply Nat.eqb_refl].
Qed.

Lemma ma_indices_sorted file sel : StronglySorted lt (ma_indices file sel).
Proof. apply sorted_filter, sorted_seq. Qed.

Lemma ma_indices_In file sel k : In k (ma_indices file sel) <-> k < length file /\ In (nth k file 0) sel.
Proof. unfold ma_indices. rewrite filter_In, in_seq, isin_In. intuition lia. Qed.

Lemma feed_chain p c : feed_of (chain p c) = c.
Proof.
  unfold feed_of, chain. destruct c.
  - rewrite Nat.add_0_r, Nat.even_mul. reflexivity.
  - rewrite Nat.even_add, Nat.even_mul. reflexivity.
Qed.
Lemma chain_half p c : chain p c / 2 = p.
Proof.
  unfold chain. destruct c.
  - rewrite Nat.add_0_r, Nat.mul_comm. apply Nat.div_mul. lia.
  - rewrite Nat.mul_comm, Nat.div_add_l by lia. cbn. lia.
Qed.
Lemma chain_of a : a = chain (a / 2) (feed_of a).
Proof.
  unfold chain, feed_of. rewrite (Nat.div_mod a 2) at 1 by lia. f_equal.
  pose proof (Nat.even_spec a) as E. pose proof (Nat.mod_upper_bound a 2 ltac:(lia)) as M.
  destruct (Nat.even a).
  - destruct (proj1 E eq_refl) as [m ->]. rewrite Nat.mul_comm. apply Nat.mod_mul. lia.
  - destruct (a mod 2) as [|[|]] eqn:R; [|reflexivity|lia].
    exfalso. apply Nat.mod_divides in R; [|lia]. destruct R as [c ->].
    discriminate (proj2 E (ex_intro _ c eq_refl)).
Qed.
Lemma feed_eqb_eq a b : feed_eqb a b = true <-> a = b.
Proof. destruct a, b; cbn; split; congruence. Qed.

(** The pair number [m] of the selection: positions in the file of its two
    Mini-Arrays. *)
Definition stored (P : list nat) (c1 c2 : feed) (p : nat * nat) : nat :=
  vis_no (chain (nth (fst p) P 0) c1) (chain (nth (snd p) P 0) c2).
(** X of a Mini-Array is only correlated with the Y of those before it. *)
Definition recorded (c1 c2 : feed) (p : nat * nat) : bool :=
  match c1, c2 with X, Y => negb (fst p =? snd p) | _, _ => true end.

Lemma chain_le P i j c1 c2 : increasing P -> j <= i -> i < length P -> recorded c1 c2 (i, j) = true ->
  chain (nth j P 0) c2 <= chain (nth i P 0) c1.
Proof.
  intros H B A R. unfold chain. destruct (Nat.eq_dec j i) as [->|N].
  - destruct c1, c2; cbn in R; try lia. rewrite Nat.eqb_refl in R. discriminate.
  - specialize (H j i ltac:(lia) A). destruct c1, c2; lia.
Qed.

Lemma cross_idx_spec file sel c1 c2 : let P := ma_indices file sel in
  cross_idx file sel c1 c2 = map (stored P c1 c2) (filter (recorded c1 c2) (tril (length P))).
Proof.
  intro P. pose proof (proj1 (sorted_increasing _) (ma_indices_sorted file sel)) as HP. fold P in HP.
  apply sorted_ext.
  - apply sorted_filter, sorted_seq.
  - apply (sorted_map lex); [apply sorted_filter, tril_sorted|].
    intros [i j] [i' j'] I I' L. apply filter_In in I, I'. destruct I as [I R], I' as [I' R'].
    apply tril_In in I, I'. unfold stored. cbn [fst snd] in *.
    apply vis_no_lt; [apply chain_le; tauto|apply chain_le; tauto|].
    unfold lex in L. cbn in L. destruct L as [L|[-> L]].
    + left. specialize (HP i i' L ltac:(tauto)). unfold chain. lia.
    + right. split; [reflexivity|]. specialize (HP j j' L ltac:(lia)). unfold chain. lia.
  - intro v. unfold cross_idx. rewrite filter_In, in_seq, in_map_iff. split.
    + intros [[_ L] C]. cbn in L. destruct (tril_nth_inv _ v (0, 0) L) as [a [b [B [A [E N]]]]].
      rewrite N in C. cbn [fst snd] in C.
      apply andb_prop in C. destruct C as [C D]. apply andb_prop in C, D. destruct C as [C1 C2], D as [D1 D2].
      apply feed_eqb_eq in C1, C2. apply isin_In in D1, D2. fold P in D1, D2.
      apply (In_nth _ _ 0) in D1, D2. destruct D1 as [i [Li Ei]], D2 as [j [Lj Ej]].
      exists (i, j). unfold stored. cbn [fst snd]. rewrite Ei, Ej, <- C1, <- C2, <- !chain_of.
      split; [now symmetry|]. apply filter_In. rewrite tril_In.
      assert (b / 2 <= a / 2) as Q by (apply Nat.div_le_mono; lia).
      assert (j <= i) as Q'.
      { destruct (Nat.lt_ge_cases i j) as [G|G]; [|lia]. specialize (HP i j G Lj). lia. }
      split; [lia|]. unfold recorded. cbn [fst snd].
      destruct (feed_of a) eqn:Fa, (feed_of b) eqn:Fb; try reflexivity.
      destruct (Nat.eqb_spec i j) as [->|]; [|reflexivity].
      rewrite (chain_of a), (chain_of b), Fa, Fb, <- Ei, <- Ej in B. unfold chain in B. lia.
    + intros [[i j] [<- I]]. apply filter_In in I. destruct I as [I R]. apply tril_In in I.
      pose proof (chain_le P i j c1 c2 HP (proj1 I) (proj2 I) R) as B.
      assert (In (nth i P 0) P) as Pi by (apply nth_In; lia).
      assert (In (nth j P 0) P) as Pj by (apply nth_In; lia).
      pose proof (proj1 (ma_indices_In _ _ _) Pi) as [Li _].
      assert (chain (nth i P 0) c1 < length file * 2) as A by (unfold chain; destruct c1; lia).
      unfold stored. cbn [fst snd]. split; [split; [lia|]; cbn; now apply vis_no_bound|].
      rewrite tril_nth by assumption. cbn [fst snd]. rewrite !feed_chain, !chain_half.
      fold P. rewrite (proj2 (isin_In _ _) Pi), (proj2 (isin_In _ _) Pj).
      destruct c1, c2; reflexivity.
Qed.

(** With all the Mini-Arrays, positions are numbers. *)
Lemma ma_indices_all file : ma_indices file file = seq 0 (length file).
Proof.
  apply sorted_ext; [apply ma_indices_sorted|apply sorted_seq|].
  intro x. rewrite ma_indices_In, in_seq. split; [lia|]. intro L. split; [lia|]. apply nth_In. lia.
Qed.

(** ** Partition of the stored visibilities *)
Lemma cross_idx_NoDup file sel c1 c2 : NoDup (cross_idx file sel c1 c2).
Proof. apply NoDup_filter, seq_NoDup. Qed.

Lemma cross_idx_total file v : v < 2 * length file * (2 * length file + 1) / 2 ->
  exists c1 c2, In v (cross_idx file file c1 c2).
Proof.
  intro L. unfold cross_idx.
  assert (v < length (tril (length file * 2))) as L' by (rewrite tril_length; replace (length file * 2) with (2 * length file) by lia; exact L).
  destruct (tril_nth_inv _ v (0, 0) L') as [a [b [B [A [E N]]]]].
  exists (feed_of a), (feed_of b). apply filter_In. split; [apply in_seq; lia|].
  rewrite N. cbn [fst snd]. rewrite !(proj2 (feed_eqb_eq _ _) eq_refl), !(proj2 (isin_In _ _)); [reflexivity| |];
    rewrite ma_indices_all; apply in_seq; (split; [lia|]); rewrite Nat.add_0_l; apply Nat.div_lt_upper_bound; lia.
Qed.

Lemma cross_idx_disjoint file sel sel' c1 c2 d1 d2 v :
  In v (cross_idx file sel c1 c2) -> In v (cross_idx file sel' d1 d2) -> c1 = d1 /\ c2 = d2.
Proof.
  unfold cross_idx. rewrite !filter_In. intros [_ H] [_ H'].
  apply andb_prop in H, H'. destruct H as [H _], H' as [H' _]. apply andb_prop in H, H'.
  destruct H as [H1 H2], H' as [H1' H2']. apply feed_eqb_eq in H1, H2, H1', H2'. split; congruence.
Qed.

Lemma recorded_all c1 c2 n : (c1, c2) <> (X, Y) -> filter (recorded c1 c2) (tril n) = tril n.
Proof.
  intro N. induction (tril n) as [|p l IH]; [reflexivity|]. cbn [filter].
  replace (recorded c1 c2 p) with true by (destruct c1, c2; try reflexivity; congruence). now rewrite IH.
Qed.

Lemma cross_count n : 2 * length (filter (recorded X Y) (tril n)) = n * (n - 1).
Proof.
  induction n as [|n IH]; [reflexivity|]. rewrite tril_S, filter_app, app_length.
  assert (forall m, m <= n -> length (filter (recorded X Y) (map (fun j => (n, j)) (seq 0 m))) = m) as G.
  { induction m as [|m IHm]; intro Lm; [reflexivity|].
    rewrite seq_S, map_app, filter_app, app_length, IHm by lia. cbn.
    destruct (Nat.eqb_spec n m); [lia|]. cbn. lia. }
  rewrite seq_S, map_app, filter_app, app_length, G by lia. cbn. rewrite Nat.eqb_refl. cbn. nia.
Qed.
