(** Specifications and lemmas for M_Antenna: tables, interpolation, azimuths of pixels. *)
From Coq Require Import Ascii String List Arith ZArith QArith Qabs Bool Lia Lqa.
From Verif Require Import Base M_Antenna.
Import ListNotations.
Open Scope nat_scope.
Open Scope list_scope.

(** * Tables *)
(** The rows of a grid, one coordinate after the other *)
Definition grid_x (xs ys : list Z) (g : Z -> Z -> Q) : list row := flat_map (fun x => map (fun y => mkRow x y (g x y)) ys) xs.
Definition grid_y (xs ys : list Z) (g : Z -> Z -> Q) : list row := flat_map (fun y => map (fun x => mkRow x y (g x y)) xs) ys.

Lemma grid_length : forall A B C (f : A -> B -> C) xs ys, length (flat_map (fun x => map (f x) ys) xs) = length xs * length ys.
Proof. intros A B C f xs ys; induction xs as [|x xs IH]; cbn; [reflexivity|]. now rewrite app_length, map_length, IH. Qed.
Lemma grid_nth : forall A B C (f : A -> B -> C) da db dc xs ys i j, i < length xs -> j < length ys ->
  nth (i * length ys + j) (flat_map (fun x => map (f x) ys) xs) dc = f (nth i xs da) (nth j ys db).
Proof.
  intros A B C f da db dc xs ys; induction xs as [|x xs IH]; intros i j Hi Hj; cbn [length] in Hi; [lia|].
  cbn [flat_map]. destruct i as [|i].
  - rewrite app_nth1 by (rewrite map_length; lia). cbn [Nat.mul Nat.add nth].
    rewrite nth_indep with (d' := f x db) by (rewrite map_length; lia). apply map_nth.
  - rewrite app_nth2 by (rewrite map_length; cbn; lia). rewrite map_length.
    replace (S i * length ys + j - length ys) with (i * length ys + j) by (cbn; lia). cbn [nth]. apply IH; lia.
Qed.
Lemma size_incl : forall l m, incl l m -> incl m l -> size l = size m.
Proof.
  intros l m A B. unfold size. apply Nat.le_antisymm; apply NoDup_incl_length; try apply NoDup_nodup;
    intros x X; apply nodup_In; apply nodup_In in X; auto.
Qed.
Lemma size_NoDup : forall l, NoDup l -> size l = length l.
Proof. intros l H. unfold size. now rewrite nodup_fixed_point. Qed.
Lemma grid_x_xs : forall xs ys g, ys <> [] -> NoDup xs -> size (map r_x (grid_x xs ys g)) = length xs.
Proof.
  intros xs ys g N D. rewrite <- size_NoDup by exact D. unfold grid_x. apply size_incl; intros x X.
  - apply in_map_iff in X. destruct X as (r & <- & I). apply in_flat_map in I. destruct I as (x & Ix & I).
    apply in_map_iff in I. destruct I as (y & <- & _). exact Ix.
  - destruct ys as [|y ys]; [congruence|]. apply in_map_iff. exists (mkRow x y (g x y)). split; [reflexivity|].
    apply in_flat_map. exists x. split; [exact X|now left].
Qed.
Lemma grid_x_ys : forall xs ys g, xs <> [] -> NoDup ys -> size (map r_y (grid_x xs ys g)) = length ys.
Proof.
  intros xs ys g N D. rewrite <- size_NoDup by exact D. unfold grid_x. apply size_incl; intros y Y.
  - apply in_map_iff in Y. destruct Y as (r & <- & I). apply in_flat_map in I. destruct I as (x & _ & I).
    apply in_map_iff in I. destruct I as (y & <- & Iy). exact Iy.
  - destruct xs as [|x xs]; [congruence|]. apply in_map_iff. exists (mkRow x y (g x y)). split; [reflexivity|].
    apply in_flat_map. exists x. split; [now left|]. apply in_map_iff; eauto.
Qed.
Lemma grid_y_swap : forall xs ys g, map (fun r => mkRow (r_y r) (r_x r) (r_gain r)) (grid_y xs ys g) = grid_x ys xs (fun y x => g x y).
Proof.
  intros xs ys g. unfold grid_y, grid_x. induction ys as [|y ys IH]; [reflexivity|]. cbn [flat_map]. rewrite map_app, IH, map_map. reflexivity.
Qed.
Lemma map_seq_nth : forall A (l : list A) d, map (fun i => nth i l d) (seq 0 (length l)) = l.
Proof.
  intros A l d. induction l as [|a l IH]; [reflexivity|]. cbn [length seq map nth]. f_equal. rewrite <- seq_shift, map_map. exact IH.
Qed.

Definition known_columns (names : list string) (x y g : string) : Prop := In x names /\ In y names /\ In g names.
Lemma known_spec : forall names c, existsb (String.eqb c) names = true <-> In c names.
Proof.
  intros names c. rewrite existsb_exists. split; [intros (d & I & E); apply String.eqb_eq in E; now subst|].
  intros I; exists c; split; [exact I|apply String.eqb_refl].
Qed.
Theorem cst_columns : forall names x y g rows, ~ known_columns names x y g -> cst names x y g rows = Err EValueError.
Proof.
  intros names x y g rows N. unfold cst.
  destruct (existsb (String.eqb x) names && existsb (String.eqb y) names && existsb (String.eqb g) names) eqn:E; cbn [negb]; [|reflexivity].
  apply andb_true_iff in E. destruct E as (E & C). apply andb_true_iff in E. destruct E as (A & B).
  apply known_spec in A. apply known_spec in B. apply known_spec in C. exfalso; apply N; repeat split; assumption.
Qed.
(** The number of rows is that of the couples of coordinates, or the table is refused. *)
Theorem cst_size : forall names x y g rows, known_columns names x y g ->
  (rows = [] -> cst names x y g rows = Err EZeroDivisionError) /\
  (rows <> [] -> length rows <> size (map r_x rows) * size (map r_y rows) -> cst names x y g rows = Err EAssertionError) /\
  (rows <> [] -> length rows = size (map r_x rows) * size (map r_y rows) -> exists m, cst names x y g rows = Ok m).
Proof.
  intros names x y g rows (A & B & C). apply known_spec in A, B, C. unfold cst. rewrite A, B, C. cbn [andb negb].
  assert (P : rows <> [] -> size (map r_y rows) <> 0).
  { intros N E. destruct rows as [|r rows]; [congruence|]. unfold size in E. apply length_zero_iff_nil in E.
    assert (I : In (r_y r) (nodup Z.eq_dec (map r_y (r :: rows)))) by (apply nodup_In; now left). rewrite E in I. inversion I. }
  unfold shape. split; [intros ->; reflexivity|]. split; intros N E; specialize (P N).
  - destruct (Nat.eqb_spec (size (map r_y rows)) 0); [contradiction|]. destruct (Nat.eqb_spec (length rows) (size (map r_x rows) * size (map r_y rows))); [contradiction|]. reflexivity.
  - destruct (Nat.eqb_spec (size (map r_y rows)) 0); [contradiction|]. rewrite E, Nat.eqb_refl. cbn [bind]. eauto.
Qed.
Definition y_axis (y : string) (ys : list Z) : list Z := if String.eqb y "Theta" then map (fun t => 90 * degree - t)%Z ys else ys.
(** A table by lines of the first coordinate gives its grid. *)
Theorem cst_grid : forall names x y g xs ys f, known_columns names x y g -> NoDup xs -> NoDup ys -> xs <> [] -> ys <> [] ->
  cst names x y g (grid_x xs ys f) = Ok (mkModel xs (y_axis y ys) (map (fun a => map (f a) ys) xs) (String.eqb x "Phi")).
Proof.
  intros names x y g xs ys f (A & B & C) Dx Dy Nx Ny. apply known_spec in A, B, C. unfold cst. rewrite A, B, C. cbn [andb negb].
  unfold shape. rewrite grid_x_xs, grid_x_ys by assumption. unfold grid_x at 1. rewrite grid_length.
  destruct (Nat.eqb_spec (length ys) 0) as [E|_]; [apply length_zero_iff_nil in E; contradiction|]. rewrite Nat.eqb_refl. cbn [bind].
  assert (Lx : 0 < length xs) by (destruct xs; [congruence|cbn; lia]). assert (Ly : 0 < length ys) by (destruct ys; [congruence|cbn; lia]).
  assert (G : forall i j, i < length xs -> j < length ys -> nth (i * length ys + j) (grid_x xs ys f) no_row = mkRow (nth i xs 0%Z) (nth j ys 0%Z) (f (nth i xs 0%Z) (nth j ys 0%Z))).
  { intros i j Hi Hj. unfold grid_x. now rewrite (grid_nth _ _ _ (fun a b => mkRow a b (f a b)) 0%Z 0%Z). }
  assert (X : map (fun i => r_x (nth (i * length ys + 0) (grid_x xs ys f) no_row)) (seq 0 (length xs)) = xs).
  { transitivity (map (fun i => nth i xs 0%Z) (seq 0 (length xs))); [|apply map_seq_nth]. apply map_ext_in. intros i I. apply in_seq in I. now rewrite G by lia. }
  assert (Y : map (fun j => r_y (nth (0 * length ys + j) (grid_x xs ys f) no_row)) (seq 0 (length ys)) = ys).
  { transitivity (map (fun i => nth i ys 0%Z) (seq 0 (length ys))); [|apply map_seq_nth]. apply map_ext_in. intros i I. apply in_seq in I. now rewrite G by lia. }
  assert (Z' : map (fun i => map (fun j => r_gain (nth (i * length ys + j) (grid_x xs ys f) no_row)) (seq 0 (length ys))) (seq 0 (length xs)) = map (fun a => map (f a) ys) xs).
  { transitivity (map (fun i => map (f (nth i xs 0%Z)) ys) (seq 0 (length xs))).
    - apply map_ext_in. intros i I. apply in_seq in I. transitivity (map (fun j => f (nth i xs 0%Z) (nth j ys 0%Z)) (seq 0 (length ys))).
      + apply map_ext_in. intros j J. apply in_seq in J. now rewrite G by lia.
      + rewrite <- (map_seq_nth _ ys 0%Z) at 2. now rewrite map_map.
    - rewrite <- (map_seq_nth _ xs 0%Z) at 2. now rewrite map_map. }
  rewrite X, Y, Z'. unfold y_axis. reflexivity.
Qed.
Lemma increasing_nth : forall l, increasing l = true <-> forall i, S i < length l -> (nth i l 0 < nth (S i) l 0)%Z.
Proof.
  induction l as [|x [|y l] IH]; cbn [increasing].
  - split; [cbn; intros; lia|reflexivity].
  - split; [cbn; intros; lia|reflexivity].
  - rewrite andb_true_iff, Z.ltb_lt, IH. split.
    + intros (A & B) [|i] H; [exact A|]. apply (B i). cbn in *; lia.
    + intros H; split; [apply (H 0); cbn; lia|]. intros i I. apply (H (S i)). cbn in *; lia.
Qed.
Lemma repeated_refused : forall l, 2 <= length l -> nth 0 l 0%Z = nth 1 l 0%Z -> axis l = Err EValueError.
Proof.
  intros [|a [|b l]]; cbn; intros L E; try lia. subst b. unfold axis. cbn. now rewrite Z.ltb_irrefl, Z.ltb_irrefl.
Qed.
(** A table by lines of the second coordinate is read without a complaint and refused when the
    map is computed. *)
Theorem cst_transposed : forall names x y g xs ys f, known_columns names x y g -> NoDup xs -> NoDup ys -> 2 <= length xs -> 2 <= length ys ->
  exists m, cst names x y g (grid_y xs ys f) = Ok m /\ interpolator m = Err EValueError /\ forall nside e, to_healpix m nside e = Err EValueError.
Proof.
  intros names x y g xs ys f K Dx Dy Lx Ly.
  assert (SX : size (map r_x (grid_y xs ys f)) = length xs).
  { replace (map r_x (grid_y xs ys f)) with (map r_y (map (fun r => mkRow (r_y r) (r_x r) (r_gain r)) (grid_y xs ys f))) by (now rewrite map_map).
    rewrite grid_y_swap. apply grid_x_ys; [destruct ys; [cbn in Ly; lia|discriminate]|exact Dx]. }
  assert (SY : size (map r_y (grid_y xs ys f)) = length ys).
  { replace (map r_y (grid_y xs ys f)) with (map r_x (map (fun r => mkRow (r_y r) (r_x r) (r_gain r)) (grid_y xs ys f))) by (now rewrite map_map).
    rewrite grid_y_swap. apply grid_x_xs; [destruct xs; [cbn in Lx; lia|discriminate]|exact Dy]. }
  destruct K as (A & B & C). apply known_spec in A, B, C. unfold cst. rewrite A, B, C. cbn [andb negb].
  unfold shape. rewrite SX, SY. unfold grid_y at 1. rewrite grid_length.
  destruct (Nat.eqb_spec (length ys) 0); [lia|]. rewrite Nat.mul_comm, Nat.eqb_refl. cbn [bind].
  eexists; split; [reflexivity|].
  assert (Y : forall j, j < 2 -> r_y (nth (0 * length ys + j) (grid_y xs ys f) no_row) = nth 0 ys 0%Z).
  { intros j Hj. replace (0 * length ys + j) with (0 * length xs + j) by lia. unfold grid_y.
    rewrite (grid_nth _ _ _ (fun b a => mkRow a b (f a b)) 0%Z 0%Z) by lia. reflexivity. }
  assert (I : forall p gm ph, interpolator (mkModel p (if String.eqb y "Theta" then map (fun t => 90 * degree - t)%Z (map (fun j => r_y (nth (0 * length ys + j) (grid_y xs ys f) no_row)) (seq 0 (length ys))) else map (fun j => r_y (nth (0 * length ys + j) (grid_y xs ys f) no_row)) (seq 0 (length ys))) gm ph) = Err EValueError).
  { intros p gm ph. unfold interpolator. destruct (closed _) as (xs', g'). cbn [m_y].
    assert (E : axis (if String.eqb y "Theta" then map (fun t => 90 * degree - t)%Z (map (fun j => r_y (nth (0 * length ys + j) (grid_y xs ys f) no_row)) (seq 0 (length ys))) else map (fun j => r_y (nth (0 * length ys + j) (grid_y xs ys f) no_row)) (seq 0 (length ys))) = Err EValueError).
    { destruct (length ys) as [|[|n']] eqn:L; try lia. cbn [seq map].
      apply repeated_refused; destruct (String.eqb y "Theta"); cbn [length nth]; try lia.
      - now rewrite (Y 0), (Y 1) by lia.
      - now rewrite (Y 0), (Y 1) by lia. }
    rewrite E. unfold axis. destruct (increasing xs'); [reflexivity|]. destruct (increasing (map Z.opp xs')); reflexivity. }
  split; [apply I|]. intros. unfold to_healpix. now rewrite I.
Qed.

(** * Interpolation *)
Lemma increasing_lt : forall l i j, increasing l = true -> i < j -> j < length l -> (nth i l 0 < nth j l 0)%Z.
Proof.
  intros l i j I L. rewrite increasing_nth in I. induction L as [|j L IH]; intros B.
  - apply I; lia.
  - eapply Z.lt_trans; [apply IH; lia|apply I; lia].
Qed.
Lemma knot_lt : forall l i j, increasing l = true -> i < j -> j < length l -> (knot l i < knot l j)%Q.
Proof. intros l i j I L B. unfold knot. rewrite <- Zlt_Qlt. now apply increasing_lt. Qed.
Lemma knot_le : forall l i j, increasing l = true -> i <= j -> j < length l -> (knot l i <= knot l j)%Q.
Proof.
  intros l i j I L B. destruct (Nat.eq_dec i j) as [->|N]; [apply Qle_refl|]. apply Qlt_le_weak, knot_lt; [assumption|lia|assumption].
Qed.
Lemma increasing_tail : forall a l, increasing (a :: l) = true -> increasing l = true.
Proof. intros a [|b l]; cbn [increasing]; [reflexivity|]. intros H; apply andb_true_iff in H; tauto. Qed.
Lemma count_le : forall l x, increasing l = true ->
  let n := length (filter (fun k => Qle_bool (inject_Z k) x) l) in
  (forall i, i < n -> (knot l i <= x)%Q) /\ (forall i, n <= i -> i < length l -> (x < knot l i)%Q) /\ n <= length l.
Proof.
  induction l as [|a l IH]; intros x I; cbn zeta.
  - cbn. repeat split; intros; lia.
  - pose proof (increasing_tail _ _ I) as I'. destruct (IH x I') as (A & B & C). cbn [filter].
    destruct (Qle_bool (inject_Z a) x) eqn:E; cbn [length].
    + apply Qle_bool_iff in E. split; [|split].
      * intros [|i] H; [exact E|]. unfold knot. cbn [nth]. apply A. lia.
      * intros [|i] H L; [lia|]. unfold knot. cbn [nth]. apply B; lia.
      * lia.
    + assert (E' : (x < inject_Z a)%Q) by (apply Qnot_le_lt; intros X; apply Qle_bool_iff in X; congruence).
      assert (N : length (filter (fun k => Qle_bool (inject_Z k) x) l) = 0).
      { destruct (filter (fun k => Qle_bool (inject_Z k) x) l) as [|y t] eqn:F; [reflexivity|]. exfalso.
        assert (P : (0 < length (y :: t))%nat) by (cbn; lia). specialize (A 0 P).
        destruct l as [|b l]; [discriminate|]. assert (K : (knot (a :: b :: l) 0 < knot (a :: b :: l) 1)%Q) by (apply knot_lt; [exact I|lia|cbn; lia]).
        unfold knot in K, A. cbn [nth] in K, A. apply (Qlt_irrefl x). eapply Qlt_le_trans; [exact E'|]. eapply Qle_trans; [apply Qlt_le_weak, K|exact A]. }
      rewrite N in *. split; [intros; lia|split; [|lia]]. intros [|i] _ L; [exact E'|]. unfold knot. cbn [nth]. apply B; lia.
Qed.
(** The interval holds the place, and the fraction is that of it. *)
Lemma place_some : forall l x i u, increasing l = true -> 2 <= length l -> place l x = Some (i, u) ->
  S i < length l /\ (knot l i <= x <= knot l (S i))%Q /\ (u == (x - knot l i) / (knot l (S i) - knot l i))%Q.
Proof.
  intros l x i u I L. unfold place. destruct (Qle_bool (knot l 0) x && Qle_bool x (knot l (length l - 1))) eqn:E; [|discriminate].
  apply andb_true_iff in E. destruct E as (E1 & E2). apply Qle_bool_iff in E1, E2.
  destruct (count_le l x I) as (A & B & C). set (n := length (filter (fun k => Qle_bool (inject_Z k) x) l)) in *.
  intros H. injection H as H1 H2. rewrite H1 in H2. split; [lia|].
  assert (P : 0 < n). { destruct (Nat.eq_dec n 0) as [Z0|]; [|lia]. exfalso. apply (Qlt_irrefl x). eapply Qlt_le_trans; [apply (B 0); lia|exact E1]. }
  split; [|now rewrite <- H2]. split.
  - apply A. lia.
  - destruct (Nat.lt_ge_cases (length l - 2) (n - 1)).
    + replace (S i) with (length l - 1) by lia. exact E2.
    + replace (S i) with n by lia. apply Qlt_le_weak, B; lia.
Qed.
Lemma place_none : forall l x, increasing l = true -> 2 <= length l ->
  (place l x = None <-> (x < knot l 0 \/ knot l (length l - 1) < x)%Q).
Proof.
  intros l x I L. unfold place. destruct (Qle_bool (knot l 0) x) eqn:E1; cbn [andb].
  - destruct (Qle_bool x (knot l (length l - 1))) eqn:E2.
    + split; [discriminate|]. apply Qle_bool_iff in E1, E2. intros [H|H]; exfalso; [apply (Qlt_not_le _ _ H E1)|apply (Qlt_not_le _ _ H E2)].
    + split; [|reflexivity]. intros _; right. apply Qnot_le_lt; intros X; apply Qle_bool_iff in X; congruence.
  - split; [|reflexivity]. intros _; left. apply Qnot_le_lt; intros X; apply Qle_bool_iff in X; congruence.
Qed.
(** The place of an axis in either sense *)
Definition sense (l : list Z) : Prop := increasing l = true \/ increasing (map Z.opp l) = true.
Lemma axis_ok : forall l, sense l -> exists p, axis l = Ok p.
Proof. intros l [H|H]; unfold axis; [rewrite H; eauto|]. destruct (increasing l); [eauto|rewrite H; eauto]. Qed.
Lemma axis_err : forall l, axis l = Err EValueError <-> ~ sense l.
Proof.
  intros l. unfold axis, sense. destruct (increasing l), (increasing (map Z.opp l)); split; try discriminate; try tauto; try (intros _ [H|H]; discriminate); reflexivity || (intros N; exfalso; apply N; tauto).
Qed.
Lemma knot_opp : forall l i, i < length l -> (knot (map Z.opp l) i == - knot l i)%Q.
Proof.
  intros l i H. unfold knot. rewrite nth_indep with (d' := (- 0)%Z) by (now rewrite map_length). rewrite map_nth, inject_Z_opp. reflexivity.
Qed.
(** At a knot, what is added to the left knot is null, or all the interval. *)
Definition reads (l : list Z) (k : nat) (p : nat * Q) : Prop :=
  S (fst p) < length l /\ ((fst p = k /\ snd p == 0)%Q \/ (S (fst p) = k /\ snd p == 1)%Q).
Lemma place_knot : forall l k, increasing l = true -> 2 <= length l -> k < length l -> exists p, place l (knot l k) = Some p /\ reads l k p.
Proof.
  intros l k I L K. destruct (place l (knot l k)) as [[i u]|] eqn:E.
  - exists (i, u); split; [reflexivity|]. destruct (place_some _ _ _ _ I L E) as (S1 & (A & B) & U). split; [exact S1|]. cbn [fst snd].
    assert (N : ~ (knot l (S i) - knot l i == 0)%Q) by (pose proof (knot_lt l i (S i) I ltac:(lia) S1); lra).
    destruct (lt_eq_lt_dec k i) as [[H|H]|H].
    + exfalso. pose proof (knot_lt l k i I H ltac:(lia)). lra.
    + left; split; [now symmetry|]. subst k. rewrite U. field. exact N.
    + destruct (Nat.eq_dec (S i) k) as [E'|E']; [right; split; [exact E'|]; subst k; rewrite U; field; exact N|].
      exfalso. pose proof (knot_lt l (S i) k I ltac:(lia) K). lra.
  - exfalso. apply place_none in E; try assumption. pose proof (knot_le l 0 k I ltac:(lia) K). pose proof (knot_le l k (length l - 1) I ltac:(lia) ltac:(lia)). lra.
Qed.
Lemma place_proper : forall l x y, (x == y)%Q -> match place l x, place l y with
  | Some (i, u), Some (j, v) => i = j /\ (u == v)%Q | None, None => True | _, _ => False end.
Proof.
  intros l x y E. unfold place.
  assert (F : forall a, Qle_bool a x = Qle_bool a y).
  { intros a. apply eq_true_iff_eq. rewrite !Qle_bool_iff. now rewrite E. }
  assert (G : forall a, Qle_bool x a = Qle_bool y a).
  { intros a. apply eq_true_iff_eq. rewrite !Qle_bool_iff. now rewrite E. }
  rewrite F, G. destruct (Qle_bool (knot l 0) y && Qle_bool y (knot l (length l - 1))); [|exact Logic.I].
  rewrite (filter_ext _ _ (fun k => F (inject_Z k))). split; [reflexivity|]. now rewrite E.
Qed.
Lemma axis_knot : forall l p k, axis l = Ok p -> 2 <= length l -> k < length l -> exists a, p (knot l k) = Some a /\ reads l k a.
Proof.
  intros l p k A L K. unfold axis in A. destruct (increasing l) eqn:I.
  - injection A as <-. now apply place_knot.
  - destruct (increasing (map Z.opp l)) eqn:J; [|discriminate]. injection A as <-.
    destruct (place_knot (map Z.opp l) k J) as (a & E & R); [now rewrite map_length|now rewrite map_length|].
    pose proof (place_proper (map Z.opp l) (- knot l k) (knot (map Z.opp l) k) ltac:(rewrite knot_opp by assumption; reflexivity)) as P.
    rewrite E in P. destruct (place (map Z.opp l) (- knot l k)) as [[i u]|]; [|destruct P]. destruct a as [j v].
    destruct P as (-> & P). exists (j, u). split; [reflexivity|]. unfold reads in *. cbn [fst snd] in *. rewrite map_length in R. now setoid_rewrite P.
Qed.
Lemma bilinear_knot : forall g l m i j a b, reads l i a -> reads m j b -> (bilinear g a b == entry g i j)%Q.
Proof.
  intros g l m i j [i' u] [j' v] (_ & A) (_ & B). cbn [fst snd] in A, B. unfold bilinear.
  destruct A as [(-> & U)|(<- & U)], B as [(-> & V)|(<- & V)]; rewrite U, V; ring.
Qed.
(** Weights of an interval *)
Definition fraction (p : nat * Q) : Prop := (0 <= snd p <= 1)%Q.
Lemma axis_fraction : forall l p x a, axis l = Ok p -> 2 <= length l -> p x = Some a -> S (fst a) < length l /\ fraction a.
Proof.
  assert (G : forall l x a, increasing l = true -> 2 <= length l -> place l x = Some a -> S (fst a) < length l /\ fraction a).
  { intros l x [i u] I L E. destruct (place_some _ _ _ _ I L E) as (S1 & (A & B) & U). split; [exact S1|]. unfold fraction. cbn [snd].
    pose proof (knot_lt l i (S i) I ltac:(lia) S1) as K. rewrite U. split.
    - apply Qle_shift_div_l; lra.
    - apply Qle_shift_div_r; lra. }
  intros l p x a A L E. unfold axis in A. destruct (increasing l) eqn:I; [injection A as <-; now apply G in E|].
  destruct (increasing (map Z.opp l)) eqn:J; [|discriminate]. injection A as <-. apply G in E; [|exact J|now rewrite map_length].
  now rewrite map_length in E.
Qed.
Lemma mix : forall lo hi u a b, (0 <= u <= 1 -> lo <= a <= hi -> lo <= b <= hi -> lo <= (1 - u) * a + u * b <= hi)%Q.
Proof. intros lo hi u a b (U & V) (A & B) (C & D). split; nra. Qed.
Lemma bilinear_bounds : forall g lo hi a b, fraction a -> fraction b ->
  (forall i j, i = fst a \/ i = S (fst a) -> j = fst b \/ j = S (fst b) -> lo <= entry g i j <= hi)%Q -> (lo <= bilinear g a b <= hi)%Q.
Proof.
  intros g lo hi [i u] [j v] U V H. cbn [fst snd] in *. unfold fraction in *. cbn [snd] in *. unfold bilinear.
  apply mix; [exact U| |]; (apply mix; [exact V| |]); apply H; auto.
Qed.

Definition well_formed (m : model) : Prop :=
  1 <= length (m_x m) /\ 2 <= length (fst (closed m)) /\ 2 <= length (m_y m) /\ sense (fst (closed m)) /\ sense (m_y m).
Theorem interpolator_accepts : forall m, (exists f, interpolator m = Ok f) <-> sense (fst (closed m)) /\ sense (m_y m).
Proof.
  intros m. unfold interpolator. destruct (closed m) as (xs, g) eqn:E. cbn [fst]. split.
  - intros (f & F). destruct (axis xs) as [px|] eqn:A; [|discriminate]. cbn [bind] in F. destruct (axis (m_y m)) as [py|] eqn:B; [|discriminate].
    assert (D : forall l p, axis l = Ok p -> sense l).
    { intros l p H. unfold axis in H. unfold sense. destruct (increasing l); [now left|]. destruct (increasing (map Z.opp l)); [now right|discriminate]. }
    split; eapply D; eassumption.
  - intros (A & B). destruct (axis_ok _ A) as (px & ->), (axis_ok _ B) as (py & ->). cbn. eauto.
Qed.
Theorem interpolator_knots : forall m f i j, well_formed m -> interpolator m = Ok f ->
  i < length (fst (closed m)) -> j < length (m_y m) ->
  exists v, f (knot (fst (closed m)) i) (knot (m_y m) j) = Some v /\ (v == entry (snd (closed m)) i j)%Q.
Proof.
  intros m f i j (_ & W1 & W2 & S1 & S2) F I J. unfold interpolator in F. destruct (closed m) as (xs, g). cbn [fst snd] in *.
  destruct (axis xs) as [px|] eqn:A; [|discriminate]. cbn [bind] in F. destruct (axis (m_y m)) as [py|] eqn:B; [|discriminate]. cbn [bind] in F.
  injection F as <-. destruct (axis_knot _ _ _ A W1 I) as (a & Ea & Ra), (axis_knot _ _ _ B W2 J) as (b & Eb & Rb). rewrite Ea, Eb.
  eexists; split; [reflexivity|]. eapply bilinear_knot; eassumption.
Qed.
Theorem interpolator_bounds : forall m f x y v lo hi, well_formed m -> interpolator m = Ok f -> f x y = Some v ->
  (forall i j, i < length (fst (closed m)) -> j < length (m_y m) -> (lo <= entry (snd (closed m)) i j <= hi)%Q) -> (lo <= v <= hi)%Q.
Proof.
  intros m f x y v lo hi (_ & W1 & W2 & S1 & S2) F E H. unfold interpolator in F. destruct (closed m) as (xs, g). cbn [fst snd] in *.
  destruct (axis xs) as [px|] eqn:A; [|discriminate]. cbn [bind] in F. destruct (axis (m_y m)) as [py|] eqn:B; [|discriminate]. cbn [bind] in F.
  injection F as <-. destruct (px x) as [a|] eqn:Ea; [|discriminate]. destruct (py y) as [b|] eqn:Eb; [|discriminate]. injection E as <-.
  destruct (axis_fraction _ _ _ _ A W1 Ea) as (La & Fa), (axis_fraction _ _ _ _ B W2 Eb) as (Lb & Fb).
  apply bilinear_bounds; [exact Fa|exact Fb|]. intros i j Hi Hj. apply H; destruct Hi, Hj; lia.
Qed.
(** NaN outside of the table only *)
Definition outside (l : list Z) (x : Q) : Prop :=
  (forall k, k < length l -> (x < knot l k)%Q) \/ (forall k, k < length l -> (knot l k < x)%Q).
Lemma axis_none : forall l p x, axis l = Ok p -> 2 <= length l -> (p x = None <-> outside l x).
Proof.
  intros l p x A L. unfold axis in A. destruct (increasing l) eqn:I.
  - injection A as <-. rewrite place_none by assumption. unfold outside. split.
    + intros [H|H]; [left|right]; intros k K.
      * eapply Qlt_le_trans; [exact H|]. apply knot_le; [exact I|lia|exact K].
      * eapply Qle_lt_trans; [|exact H]. apply knot_le; [exact I|lia|lia].
    + intros [H|H]; [left; apply H; lia|right; apply H; lia].
  - destruct (increasing (map Z.opp l)) eqn:J; [|discriminate]. injection A as <-.
    rewrite place_none by (try assumption; now rewrite map_length). rewrite map_length, !knot_opp by lia. unfold outside.
    assert (D : forall i j, i <= j -> j < length l -> (knot l j <= knot l i)%Q).
    { intros i j Hij Hj. pose proof (knot_le _ i j J Hij ltac:(now rewrite map_length)) as K. rewrite !knot_opp in K by lia. lra. }
    split.
    + intros [H|H]; [right|left]; intros k K.
      * pose proof (D 0 k ltac:(lia) K). lra.
      * pose proof (D k (length l - 1) ltac:(lia) ltac:(lia)). lra.
    + intros [H|H]; [right; specialize (H (length l - 1) ltac:(lia)); lra|left; specialize (H 0 ltac:(lia)); lra].
Qed.
Theorem interpolator_nan : forall m f x y, well_formed m -> interpolator m = Ok f ->
  (f x y = None <-> outside (fst (closed m)) x \/ outside (m_y m) y).
Proof.
  intros m f x y (_ & W1 & W2 & S1 & S2) F. unfold interpolator in F. destruct (closed m) as (xs, g). cbn [fst snd] in *.
  destruct (axis xs) as [px|] eqn:A; [|discriminate]. cbn [bind] in F. destruct (axis (m_y m)) as [py|] eqn:B; [|discriminate]. cbn [bind] in F.
  injection F as <-. rewrite <- (axis_none _ _ x A W1), <- (axis_none _ _ y B W2).
  destruct (px x), (py y); split; try discriminate; auto; intros [H|H]; discriminate.
Qed.
(** The columns at 0 and 360 degrees are the same. *)
Theorem interpolator_closed : forall m f j, well_formed m -> m_phi m = true -> nth 0 (m_x m) 1%Z = 0%Z -> length (m_gain m) = length (m_x m) ->
  interpolator m = Ok f -> j < length (m_y m) ->
  exists v w, f 0%Q (knot (m_y m) j) = Some v /\ f (inject_Z (360 * degree)) (knot (m_y m) j) = Some w /\ (v == w)%Q.
Proof.
  intros m f j W P Z0 L F J. pose proof W as (W0 & W1 & _).
  assert (C : closed m = (m_x m ++ [360 * degree]%Z, m_gain m ++ [nth 0 (m_gain m) []])) by (unfold closed; now rewrite P).
  assert (N : 0 < length (m_x m)) by exact W0.
  destruct (interpolator_knots m f 0 j W F) as (v & V & V'); [rewrite C; cbn [fst]; rewrite app_length; lia|exact J|].
  destruct (interpolator_knots m f (length (m_x m)) j W F) as (w & U & U'); [rewrite C; cbn [fst]; rewrite app_length; cbn; lia|exact J|].
  exists v, w. rewrite C in *. cbn [fst snd] in *. unfold knot at 1 in V. unfold knot at 1 in U.
  rewrite app_nth1 in V by lia. rewrite nth_indep with (d' := 1%Z) in V by lia. rewrite Z0 in V.
  rewrite app_nth2 in U by lia. rewrite Nat.sub_diag in U. cbn [nth] in U.
  split; [exact V|split; [exact U|]]. rewrite V', U'. unfold entry. rewrite app_nth1 by lia. rewrite app_nth2 by lia. now rewrite L, Nat.sub_diag.
Qed.
