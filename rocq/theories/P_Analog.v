(** Specification and proofs for the analog pointing (C88, C89). *)
From Coq Require Import ZArith QArith Qabs Bool List Arith Lia Sorting.Sorted.
From Verif Require Import Base M_Analog.
Import ListNotations.
Open Scope nat_scope.
Open Scope list_scope.

(** * Specification *)
(** The direction [d] is the nearest of the grid for [sep c]. *)
Definition on_grid (d : dir) : Prop := exists i j, i < 128 /\ j < 128 /\ d = grid i j.
Definition nearest {C} (sep : C -> dir -> Q) (c : C) (d : dir) : Prop :=
  on_grid d /\ forall d', on_grid d' -> (sep c d <= sep c d')%Q.
(** It is strictly nearer than all the others. *)
Definition nearest_alone {C} (sep : C -> dir -> Q) (c : C) (d : dir) : Prop :=
  on_grid d /\ forall d', on_grid d' -> d' <> d -> (sep c d < sep c d')%Q.
(** One step back to the zenith. *)
Definition back1 (k : Z) : Z := if (0 <? k)%Z then (k - 1)%Z else k.
Definition back2 (k : Z) : Z := if (k <? 0)%Z then (k + 1)%Z else k.
Definition pulled (d : dir) : dir := match d with Steps k1 k2 => Steps (back1 k1) (back2 k2) | Nadir => Nadir end.

(** * The first smallest *)
Lemma first_min_spec : forall A (v : A -> Q) l best, let r := first_min v best l in
  In r (best :: l) /\ (forall x, In x (best :: l) -> (v r <= v x)%Q) /\
  exists l1 l2, best :: l = l1 ++ r :: l2 /\ forall x, In x l1 -> (v r < v x)%Q.
Proof.
  intros A v. induction l as [|y l IH]; intros best; cbn [first_min].
  - split; [left; reflexivity|]. split; [intros x [<-|[]]; apply Qle_refl|]. exists [], []. split; [reflexivity|intros x []].
  - destruct (Qle_bool (v best) (v y)) eqn:E.
    + apply Qle_bool_iff in E. destruct (IH best) as (I & M & l1 & l2 & S1 & S2). cbv zeta. split; [|split].
      * destruct I as [I|I]; [left; exact I|right; right; exact I].
      * intros x [<-|[<-|I']]; [apply M; left; reflexivity| |apply M; right; exact I'].
        eapply Qle_trans; [|exact E]. apply M. left. reflexivity.
      * destruct l1 as [|z l1].
        -- cbn in S1. injection S1 as Eb El. exists [], (y :: l2). split; [cbn; congruence|intros x []].
        -- cbn in S1. injection S1 as Eb El. subst z. exists (best :: y :: l1), l2. split; [cbn; congruence|].
           intros x [<-|[<-|I']]; [apply S2; left; reflexivity| |apply S2; right; exact I'].
           eapply Qlt_le_trans; [|exact E]. apply S2. left. reflexivity.
    + assert (L : (v y < v best)%Q). { apply Qnot_le_lt. intro C. apply Qle_bool_iff in C. congruence. }
      destruct (IH y) as (I & M & l1 & l2 & S1 & S2). cbv zeta. split; [|split].
      * right. exact I.
      * intros x [<-|I']; [|apply M; exact I']. eapply Qle_trans; [apply M; left; reflexivity|apply Qlt_le_weak; exact L].
      * exists (best :: l1), l2. split; [cbn; congruence|]. intros x [<-|I']; [|apply S2; exact I'].
        eapply Qle_lt_trans; [apply M; left; reflexivity|exact L].
Qed.

Definition lex (p q : nat * nat) : Prop := fst p < fst q \/ (fst p = fst q /\ snd p < snd q).
Lemma cells_in : forall i j, In (i, j) cells <-> i < 128 /\ j < 128.
Proof.
  intros i j. unfold cells. rewrite in_flat_map. split.
  - intros [x [I J]]. apply in_map_iff in J. destruct J as [y [E J]]. injection E as -> ->. apply in_seq in I, J. lia.
  - intros [A B]. exists i. split; [apply in_seq; lia|]. apply in_map. apply in_seq. lia.
Qed.
Lemma sorted_app : forall A (R : A -> A -> Prop) l l', StronglySorted R l -> StronglySorted R l' ->
  (forall x y, In x l -> In y l' -> R x y) -> StronglySorted R (l ++ l').
Proof.
  intros A R. induction l as [|x l IH]; intros l' H H' C; [exact H'|]. inversion H; subst. cbn. constructor.
  - apply IH; [assumption|assumption|]. intros; apply C; [right|]; assumption.
  - apply Forall_app. split; [assumption|]. apply Forall_forall. intros y I. apply C; [left; reflexivity|exact I].
Qed.
Lemma cells_sorted : StronglySorted lex cells.
Proof.
  assert (R : forall i n k, StronglySorted lex (map (pair i) (seq k n))).
  { intros i n. induction n as [|n IH]; intro k; cbn; constructor; [apply IH|]. apply Forall_forall. intros p I. apply in_map_iff in I.
    destruct I as [y [<- I]]. apply in_seq in I. right. cbn. lia. }
  assert (F : forall m n k, StronglySorted lex (flat_map (fun i => map (pair i) (seq 0 m)) (seq k n))).
  { intro m. induction n as [|n IH]; intro k; [constructor|]. cbn [seq flat_map]. apply sorted_app; [apply R|apply IH|].
    intros p q I J. apply in_map_iff in I. destruct I as [y [<- I]]. apply in_flat_map in J. destruct J as [x [J K]].
    apply in_map_iff in K. destruct K as [z [<- K]]. apply in_seq in J. left. cbn. lia. }
  exact (F 128 128 0).
Qed.
Lemma argmin_spec : forall v, let (i, j) := unravel_argmin v in i < 128 /\ j < 128 /\
  (forall i' j', i' < 128 -> j' < 128 -> (v (i, j) <= v (i', j'))%Q) /\
  (forall i' j', i' < 128 -> j' < 128 -> lex (i', j') (i, j) -> (v (i, j) < v (i', j'))%Q).
Proof.
  intro v. unfold unravel_argmin. pose proof cells_sorted as So. pose proof cells_in as In_.
  assert (Ne : cells <> []). { intro E. assert (I : In (0, 0) cells) by (apply In_; lia). rewrite E in I. destruct I. }
  revert So In_ Ne. generalize cells as l. intros l So In_ Ne. destruct l as [|x l]; [congruence|].
  destruct (first_min_spec _ v l x) as (I & M & l1 & l2 & S1 & S2). cbv zeta in *.
  destruct (first_min v x l) as [i j]. apply In_ in I. split; [apply I|]. split; [apply I|]. split.
  - intros i' j' A B. apply M, In_. auto.
  - intros i' j' A B L. apply S2. assert (J : In (i', j') (x :: l)) by (apply In_; auto). rewrite S1 in J, So.
    apply in_app_iff in J. destruct J as [J|[J|J]]; [exact J| |].
    + injection J as -> ->. unfold lex in L. cbn in L. lia.
    + exfalso. clear - So J L. induction l1 as [|z l1 IH]; cbn in So; inversion So; subst; [|auto].
      rewrite Forall_forall in H2. specialize (H2 _ J). unfold lex in *. cbn in *. lia.
Qed.

Local Opaque cells unravel_argmin.

(** * The grid *)
Lemma step1_64 : step1 64 = step1 63. Proof. reflexivity. Qed.
Lemma step2_64 : step2 64 = step2 63. Proof. reflexivity. Qed.
Lemma grid_64 : forall i j, grid 64 j = grid 63 j /\ grid i 64 = grid i 63.
Proof. intros. split; reflexivity. Qed.
Lemma step1_inj : forall a b, a <> 64 -> b <> 64 -> step1 a = step1 b -> a = b.
Proof. intros a b A B E. unfold step1 in E. destruct (64 <=? a) eqn:X, (64 <=? b) eqn:Y; apply Nat.leb_le in X || apply Nat.leb_gt in X; apply Nat.leb_le in Y || apply Nat.leb_gt in Y; lia. Qed.
Lemma step2_inj : forall a b, a <> 64 -> b <> 64 -> step2 a = step2 b -> a = b.
Proof. intros a b A B E. unfold step2 in E. destruct (64 <=? a) eqn:X, (64 <=? b) eqn:Y; apply Nat.leb_le in X || apply Nat.leb_gt in X; apply Nat.leb_le in Y || apply Nat.leb_gt in Y; lia. Qed.
Lemma direction_steps : forall a b k l, direction a b = Steps k l -> a = k /\ b = l.
Proof. unfold direction. intros a b k l H. destruct (9 * (a * a + b * b) <=? 40000)%Z; [injection H; auto|discriminate]. Qed.
Lemma direction_inj : forall a b a' b', direction a b = direction a' b' -> direction a b <> Nadir -> a = a' /\ b = b'.
Proof.
  unfold direction. intros a b a' b' E N. destruct (9 * (a * a + b * b) <=? 40000)%Z; [|congruence].
  destruct (9 * (a' * a' + b' * b') <=? 40000)%Z; [|discriminate]. injection E. auto.
Qed.
Lemma grid_inj : forall i j i' j', i <> 64 -> j <> 64 -> i' <> 64 -> j' <> 64 -> grid i j = grid i' j' -> grid i j <> Nadir ->
  i = i' /\ j = j'.
Proof.
  unfold grid. intros i j i' j' A B A' B' E N. destruct (direction_inj _ _ _ _ E N) as [E1 E2]. split.
  - apply step2_inj; assumption.
  - apply step1_inj; assumption.
Qed.

(** Directions are all the pairs of steps from -63 to 63 that are in the unit circle, and the nadir. *)
Theorem grid_directions : forall d, on_grid d <->
  (exists k1 k2, d = Steps k1 k2 /\ (-63 <= k1 <= 63)%Z /\ (-63 <= k2 <= 63)%Z /\ ((3 # 200) ^ 2 * inject_Z (k1 * k1 + k2 * k2) <= 1)%Q) \/ d = Nadir.
Proof.
  intro d. assert (V : forall a b, ((3 # 200) ^ 2 * inject_Z (a * a + b * b) <= 1)%Q <-> (9 * (a * a + b * b) <= 40000)%Z).
  { intros a b. unfold Qle. cbn -[Z.mul Z.add]. lia. }
  split.
  - intros (i & j & Hi & Hj & ->). unfold grid. destruct (direction (step1 j) (step2 i)) as [k1 k2|] eqn:E; [|right; reflexivity].
    left. pose proof E as E'. apply direction_steps in E'. destruct E' as [E1 E2]. exists k1, k2. rewrite V. unfold direction in E. rewrite E1, E2 in E.
    destruct (9 * (k1 * k1 + k2 * k2) <=? 40000)%Z eqn:B; [|discriminate]. apply Z.leb_le in B. split; [reflexivity|].
    unfold step1 in E1. unfold step2 in E2. destruct (64 <=? j) eqn:X, (64 <=? i) eqn:Y; apply Nat.leb_le in X || apply Nat.leb_gt in X; apply Nat.leb_le in Y || apply Nat.leb_gt in Y; lia.
  - intros [(k1 & k2 & -> & B1 & B2 & B3)| -> ].
    + apply V in B3. exists (Z.to_nat (if (0 <? k2)%Z then 63 - k2 else if (k2 =? 0)%Z then 63 else 64 - k2)%Z),
        (Z.to_nat (if (k1 <? 0)%Z then 63 + k1 else if (k1 =? 0)%Z then 63 else 64 + k1)%Z).
      destruct (0 <? k2)%Z eqn:X; [|destruct (k2 =? 0)%Z eqn:X']; (destruct (k1 <? 0)%Z eqn:Y; [|destruct (k1 =? 0)%Z eqn:Y']);
        rewrite ?Z.ltb_lt, ?Z.ltb_ge, ?Z.eqb_eq, ?Z.eqb_neq in *;
        (split; [lia|]; split; [lia|]); unfold grid, step1, step2;
        repeat match goal with |- context [64 <=? ?x] => let E := fresh in destruct (64 <=? x) eqn:E; [apply Nat.leb_le in E|apply Nat.leb_gt in E]; try lia end;
        unfold direction; match goal with |- context [direction ?a ?b] => idtac | |- Steps k1 k2 = (if (9 * (?a * ?a + ?b * ?b) <=? 40000)%Z then _ else _) =>
          replace a with k1 by lia; replace b with k2 by lia end;
        replace (9 * (k1 * k1 + k2 * k2) <=? 40000)%Z with true by (symmetry; apply Z.leb_le; exact B3); reflexivity.
    + exists 0, 0. split; [lia|]. split; [lia|]. reflexivity.
Qed.

(** * Orders *)
Section Orders.
Context {C : Type}.
Variable sep : C -> dir -> Q.

Lemma raw_order : forall c, let (i, j) := unravel_argmin (fun p => sep c (grid (fst p) (snd p))) in
  i < 128 /\ j < 128 /\ i <> 64 /\ j <> 64 /\ nearest sep c (grid i j).
Proof.
  intro c. pose proof (argmin_spec (fun p => sep c (grid (fst p) (snd p)))) as H.
  destruct (unravel_argmin (fun p => sep c (grid (fst p) (snd p)))) as [i j]. destruct H as (A & B & M & F). cbn [fst snd] in *.
  split; [exact A|]. split; [exact B|]. split; [|split].
  - intros ->. specialize (F 63 j ltac:(lia) B). rewrite (proj1 (grid_64 0 j)) in F. apply (Qlt_irrefl (sep c (grid 63 j))). apply F. left. cbn. lia.
  - intros ->. specialize (F i 63 A ltac:(lia)). rewrite (proj2 (grid_64 i 0)) in F. apply (Qlt_irrefl (sep c (grid i 63))). apply F. right. cbn. lia.
  - split; [exists i, j; auto|]. intros d' (i' & j' & A' & B' & ->). apply M; assumption.
Qed.
Lemma raw_order_t : forall c, let (i, j) := unravel_argmin (fun p => sep c (grid_t (fst p) (snd p))) in
  i < 128 /\ j < 128 /\ i <> 64 /\ j <> 64 /\ nearest sep c (grid_t i j).
Proof.
  intro c. pose proof (argmin_spec (fun p => sep c (grid_t (fst p) (snd p)))) as H.
  destruct (unravel_argmin (fun p => sep c (grid_t (fst p) (snd p)))) as [i j]. destruct H as (A & B & M & F). cbn [fst snd] in *. unfold grid_t in *.
  split; [exact A|]. split; [exact B|]. split; [|split].
  - intros ->. specialize (F 63 j ltac:(lia) B). rewrite (proj2 (grid_64 j 0)) in F. apply (Qlt_irrefl (sep c (grid j 63))). apply F. left. cbn. lia.
  - intros ->. specialize (F i 63 A ltac:(lia)). rewrite (proj1 (grid_64 0 i)) in F. apply (Qlt_irrefl (sep c (grid 63 i))). apply F. right. cbn. lia.
  - split; [exists j, i; auto|]. intros d' (i' & j' & A' & B' & ->). exact (M j' i' B' A').
Qed.
Lemma fix_id : forall o, o <> 64 -> fix_order o = o.
Proof. intros o H. unfold fix_order. apply Nat.eqb_neq in H. rewrite H. reflexivity. Qed.

(** Each order is that of a nearest direction. *)
Theorem orders_nearest : forall l, exists orders dirs,
  pointing_order sep false (Vector l) = Ok orders /\ pointing_coordinates orders = Ok dirs /\
  Forall (fun o => fst o < 128 /\ snd o < 128 /\ fst o <> 64 /\ snd o <> 64) orders /\
  Forall2 (nearest sep) l dirs.
Proof.
  intro l. eexists. unfold pointing_order.
  set (order := fun c : C => let (i, j) := unravel_argmin (fun p => sep c (grid (fst p) (snd p))) in (fix_order i, fix_order j)).
  assert (O : forall c, (fst (order c) < 128 /\ snd (order c) < 128 /\ fst (order c) <> 64 /\ snd (order c) <> 64) /\ nearest sep c (grid (fst (order c)) (snd (order c)))).
  { intro c. unfold order. pose proof (raw_order c) as R. destruct (unravel_argmin (fun p => sep c (grid (fst p) (snd p)))) as [i j].
    destruct R as (A & B & A' & B' & N). cbn [fst snd]. rewrite !fix_id by assumption. auto. }
  exists (map (fun o => grid (fst o) (snd o)) (map order l)).
  split; [reflexivity|]. split; [|split].
  - unfold pointing_coordinates. rewrite (proj2 (forallb_forall _ _)); [reflexivity|]. intros o I. apply in_map_iff in I. destruct I as [c [<- _]].
    destruct (O c) as [(A & B & _) _]. apply andb_true_iff. split; apply Nat.ltb_lt; assumption.
  - apply Forall_forall. intros o I. apply in_map_iff in I. destruct I as [c [<- _]]. apply O.
  - induction l as [|c l IH]; cbn; constructor; [apply O|apply IH].
Qed.
Theorem order_one : forall c, pointing_order sep false (Scalar c) = pointing_order sep false (Vector [c]).
Proof. reflexivity. Qed.
Theorem order_higher : forall w, pointing_order sep w Higher = Err EException.
Proof. reflexivity. Qed.

(** From an order to its direction and back. *)
Theorem order_back : forall o c d, fst o <> 64 -> snd o <> 64 -> pointing_coordinates [o] = Ok [d] -> d <> Nadir ->
  nearest_alone sep c d -> pointing_order sep false (Scalar c) = Ok [o].
Proof.
  intros [i j] c d Hi Hj E Nd [Gd Al]. unfold pointing_coordinates in E. cbn [forallb fst snd map] in E, Hi, Hj.
  destruct ((i <? 128) && (j <? 128) && true) eqn:B; [|discriminate]. injection E as E. subst d.
  unfold pointing_order. pose proof (raw_order c) as R. destruct (unravel_argmin (fun p => sep c (grid (fst p) (snd p)))) as [i' j'].
  destruct R as (A & B' & Hi' & Hj' & [Gn N]). rewrite !fix_id by assumption.
  assert (Eq : grid i j = grid i' j').
  { destruct (grid i' j') as [a b|] eqn:E1; destruct (grid i j) as [a' b'|] eqn:E2; try reflexivity.
    - destruct (Z.eq_dec a a') as [->|Na]; [destruct (Z.eq_dec b b') as [->|Nb]; [reflexivity|]|];
        exfalso; apply (Qle_not_lt _ _ (N _ Gd)); apply Al; try exact Gn; congruence.
    - exfalso. congruence.
    - exfalso; apply (Qle_not_lt _ _ (N _ Gd)); apply Al; try exact Gn; congruence. }
  destruct (grid_inj i j i' j' Hi Hj Hi' Hj' Eq Nd) as [-> ->]. reflexivity.
Qed.
Theorem coordinates_out : forall orders, Exists (fun o => 128 <= fst o \/ 128 <= snd o) orders -> pointing_coordinates orders = Err EIndexError.
Proof.
  intros orders H. unfold pointing_coordinates. destruct (forallb _ orders) eqn:E; [|reflexivity]. exfalso. rewrite forallb_forall in E.
  apply Exists_exists in H. destruct H as [o [I H]]. apply E in I. apply andb_true_iff in I. rewrite !Nat.ltb_lt in I. lia.
Qed.

(** * What the Mini-Array does *)
Lemma wrong_step1 : forall o, o < 128 -> o <> 64 -> step1 (wrong_order o) = back1 (step1 o).
Proof.
  intros o H N. unfold wrong_order, back1, step1. destruct (64 <=? o) eqn:X.
  - apply Nat.leb_le in X. replace (64 <=? o - 1) with true by (symmetry; apply Nat.leb_le; lia).
    replace (0 <? Z.of_nat o - 64)%Z with true by (symmetry; apply Z.ltb_lt; lia). lia.
  - rewrite X. apply Nat.leb_gt in X. replace (0 <? Z.of_nat o - 64 + 1)%Z with false by (symmetry; apply Z.ltb_ge; lia). reflexivity.
Qed.
Lemma wrong_step2 : forall o, o < 128 -> o <> 64 -> step2 (wrong_order o) = back2 (step2 o).
Proof.
  intros o H N. unfold wrong_order, back2, step2. destruct (64 <=? o) eqn:X.
  - apply Nat.leb_le in X. replace (64 <=? o - 1) with true by (symmetry; apply Nat.leb_le; lia).
    replace (64 - Z.of_nat o <? 0)%Z with true by (symmetry; apply Z.ltb_lt; lia). lia.
  - rewrite X. apply Nat.leb_gt in X. replace (64 - 1 - Z.of_nat o <? 0)%Z with false by (symmetry; apply Z.ltb_ge; lia). reflexivity.
Qed.
Lemma pulled_visible : forall a b, direction a b <> Nadir -> direction (back1 a) (back2 b) = Steps (back1 a) (back2 b).
Proof.
  intros a b H. unfold direction in *. destruct (9 * (a * a + b * b) <=? 40000)%Z eqn:B; [|congruence]. apply Z.leb_le in B.
  replace (9 * (back1 a * back1 a + back2 b * back2 b) <=? 40000)%Z with true; [reflexivity|]. symmetry. apply Z.leb_le.
  assert (back1 a * back1 a <= a * a)%Z. { unfold back1. destruct (0 <? a)%Z eqn:E; [apply Z.ltb_lt in E; nia|lia]. }
  assert (back2 b * back2 b <= b * b)%Z. { unfold back2. destruct (b <? 0)%Z eqn:E; [apply Z.ltb_lt in E; nia|lia]. } lia.
Qed.
Theorem snap_pulled : forall c, exists d, nearest sep c d /\ (d = Nadir \/ snap sep c = Ok (pulled d)).
Proof.
  intro c. unfold snap, skycoord_to_order. pose proof (raw_order_t c) as R.
  destruct (unravel_argmin (fun p => sep c (grid_t (fst p) (snd p)))) as [i j]. destruct R as (A & B & Hi & Hj & N).
  exists (grid_t i j). split; [exact N|]. destruct (grid_t i j) as [k1 k2|] eqn:E; [|left; reflexivity]. right.
  cbn [bind]. unfold order_to_skycoord, grid_t, grid in *. cbn [fst snd]. f_equal.
  rewrite wrong_step1, wrong_step2 by assumption. rewrite pulled_visible by (rewrite E; discriminate).
  apply direction_steps in E. destruct E as [<- <-]. reflexivity.
Qed.
(** A nearest direction when alone is the one found. *)
Lemma alone_unique : forall c d d', nearest_alone sep c d -> nearest sep c d' -> d = d'.
Proof.
  intros c d d' [G A] [G' N].
  assert (D : {d = d'} + {d <> d'}). { decide equality; apply Z.eq_dec. }
  destruct D as [E|E]; [exact E|]. exfalso. apply (Qle_not_lt _ _ (N d G)). apply A; [exact G'|congruence].
Qed.
Theorem snap_alone : forall c d, nearest_alone sep c d -> d <> Nadir -> snap sep c = Ok (pulled d).
Proof.
  intros c d A N. destruct (snap_pulled c) as [d' [N' [E|E]]]; rewrite (alone_unique c d d' A N') in *; [congruence|exact E].
Qed.
Theorem snap_right : forall c k1 k2, nearest_alone sep c (Steps k1 k2) -> (k1 <= 0)%Z -> (0 <= k2)%Z -> snap sep c = Ok (Steps k1 k2).
Proof.
  intros c k1 k2 A H1 H2. rewrite (snap_alone c _ A) by discriminate. cbn. unfold back1, back2.
  replace (0 <? k1)%Z with false by (symmetry; apply Z.ltb_ge; exact H1). replace (k2 <? 0)%Z with false by (symmetry; apply Z.ltb_ge; exact H2). reflexivity.
Qed.
Theorem snap_refuted : forall c k1 k2, nearest_alone sep c (Steps k1 k2) -> (0 < k1)%Z \/ (k2 < 0)%Z ->
  exists d, snap sep c = Ok d /\ on_grid d /\ d <> Steps k1 k2 /\ (sep c (Steps k1 k2) < sep c d)%Q.
Proof.
  intros c k1 k2 A H. exists (pulled (Steps k1 k2)). split; [apply snap_alone; [exact A|discriminate]|].
  assert (G : on_grid (pulled (Steps k1 k2))).
  { destruct A as [G _]. destruct G as (i & j & Hi & Hj & E). symmetry in E. pose proof E as E'. unfold grid in E'. apply direction_steps in E'. destruct E' as [E1 E2].
    exists (wrong_order i), (wrong_order j). unfold wrong_order at 1 2. split; [destruct (64 <=? i); lia|]. split; [destruct (64 <=? j); lia|].
    cbn [pulled]. unfold grid in *. destruct (Nat.eq_dec i 64) as [->|Ni], (Nat.eq_dec j 64) as [->|Nj].
    - exfalso. cbn in E1, E2. lia.
    - rewrite wrong_step1 by assumption. rewrite E1. change (step2 (wrong_order 64)) with (back2 (step2 64)). rewrite E2.
      symmetry. apply pulled_visible. rewrite <- E1, <- E2, E. discriminate.
    - rewrite wrong_step2 by assumption. rewrite E2. change (step1 (wrong_order 64)) with (back1 (step1 64)). rewrite E1.
      symmetry. apply pulled_visible. rewrite <- E1, <- E2, E. discriminate.
    - rewrite wrong_step1, wrong_step2 by assumption. rewrite E1, E2. symmetry. apply pulled_visible. rewrite <- E1, <- E2, E. discriminate. }
  assert (Ne : pulled (Steps k1 k2) <> Steps k1 k2).
  { cbn. unfold back1, back2. intro E. injection E as E1 E2. destruct H as [H|H].
    - apply Z.ltb_lt in H. rewrite H in E1. lia.
    - apply Z.ltb_lt in H. rewrite H in E2. lia. }
  split; [exact G|]. split; [exact Ne|]. apply A; assumption.
Qed.
(** The implementation called wrong in instrument_tools is this one. *)
Theorem wrong_is_snap : forall c, exists o, pointing_order sep true (Scalar c) = Ok [o] /\
  (forall d, nearest_alone sep c d -> d <> Nadir -> pointing_coordinates [o] = Ok [pulled d] /\ snap sep c = Ok (pulled d)).
Proof.
  intro c. unfold pointing_order. pose proof (raw_order c) as R. destruct (unravel_argmin (fun p => sep c (grid (fst p) (snd p)))) as [i j].
  destruct R as (A & B & Hi & Hj & N). eexists. split; [reflexivity|]. intros d Al Nd. split; [|apply snap_alone; assumption].
  rewrite (alone_unique c d _ Al N) in Nd |- *. unfold pointing_coordinates. cbn [forallb fst snd map].
  assert (X : (wrong_order i <? 128) && (wrong_order j <? 128) && true = true).
  { unfold wrong_order. rewrite !andb_true_iff, !Nat.ltb_lt. destruct (64 <=? i), (64 <=? j); repeat split; lia. }
  rewrite X. f_equal. f_equal. unfold grid in *. rewrite wrong_step1, wrong_step2 by assumption. rewrite pulled_visible by exact Nd.
  destruct (direction (step1 j) (step2 i)) as [k1 k2|] eqn:E; [|congruence]. apply direction_steps in E. destruct E as [<- <-]. reflexivity.
Qed.
Theorem snap_size : forall l, length l <> 1 -> skycoord_to_order sep l = Err EValueError.
Proof. intros [|a [|b l]] H; cbn in *; try reflexivity. lia. Qed.
End Orders.
