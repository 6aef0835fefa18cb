(** Selection of recorded data. *)
From Coq Require Import List Arith ZArith QArith Qround Qabs Bool Lia Lqa.
From Verif Require Import Base M_Slots M_Nd P_Nd M_Rebin M_TFArray P_TFArray P_TFArray2 M_Polar P_Polar2 M_Select.
Import ListNotations.
Open Scope nat_scope.

(** ** The closest start, in whole units *)

(** Whole number of units between [s] and [x]: counted up when [s] is later than
    [x], down when it is earlier. *)
Definition whole (s x : Q) (k : Z) : Prop :=
  ((x <= s)%Q -> (inject_Z k - 1 < s - x <= inject_Z k)%Q) /\
  ((s < x)%Q -> (inject_Z k <= x - s < inject_Z k + 1)%Q).
(** [b] is the first of the closest starts. *)
Definition first_closest (starts : list Q) (x : Q) (b : nat) : Prop :=
  b < length starts /\
  forall i k k', i < length starts -> whole (nth b starts 0%Q) x k -> whole (nth i starts 0%Q) x k' ->
    (k <= k')%Z /\ (i < b -> (k < k')%Z).

Lemma whole_abs : forall s x, whole s x (Z.abs (Qceiling (s - x)%Q)).
Proof.
  intros s x. pose proof (Qle_ceiling (s - x)%Q) as U. pose proof (Qceiling_lt (s - x)%Q) as L.
  set (c := Qceiling (s - x)%Q) in *. unfold Z.sub in L. rewrite inject_Z_plus in L. change (inject_Z (Z.opp 1)) with (-1)%Q in L.
  split; intros H.
  - assert (0 <= c)%Z. { apply Z.nlt_ge. intros X. assert (c + 1 <= 0)%Z by lia.
      rewrite Zle_Qle in H0. rewrite inject_Z_plus in H0. change (inject_Z 1) with 1%Q in H0. change (inject_Z 0) with 0%Q in H0. lra. }
    rewrite Z.abs_eq by lia. lra.
  - assert (c <= 0)%Z. { apply Z.nlt_ge. intros X. assert (1 <= c)%Z by lia.
      rewrite Zle_Qle in H0. change (inject_Z 1) with 1%Q in H0. lra. }
    rewrite Z.abs_neq by lia. rewrite inject_Z_opp. lra.
Qed.
Lemma whole_unique : forall s x k k', whole s x k -> whole s x k' -> k = k'.
Proof.
  intros s x k k' [A B] [A' B']. destruct (Qlt_le_dec s x) as [H|H].
  - specialize (B H). specialize (B' H).
    assert (inject_Z k < inject_Z (k' + 1))%Q by (rewrite inject_Z_plus; change (inject_Z 1) with 1%Q; lra).
    assert (inject_Z k' < inject_Z (k + 1))%Q by (rewrite inject_Z_plus; change (inject_Z 1) with 1%Q; lra).
    rewrite <- Zlt_Qlt in *. lia.
  - specialize (A H). specialize (A' H).
    assert (inject_Z k < inject_Z (k' + 1))%Q by (rewrite inject_Z_plus; change (inject_Z 1) with 1%Q; lra).
    assert (inject_Z k' < inject_Z (k + 1))%Q by (rewrite inject_Z_plus; change (inject_Z 1) with 1%Q; lra).
    rewrite <- Zlt_Qlt in *. lia.
Qed.
Lemma whole_iff : forall s x k, whole s x k <-> k = Z.abs (Qceiling (s - x)%Q).
Proof. intros. split; [intros H; eapply whole_unique; [exact H|apply whole_abs]|intros ->; apply whole_abs]. Qed.
Lemma whole_dist : forall s x k, whole s x k ->
  (inject_Z k - 1 < Qabs (s - x) < inject_Z k + 1)%Q /\ (0 <= k)%Z.
Proof.
  intros s x k H. split.
  - destruct H as [A B]. destruct (Qlt_le_dec s x) as [H|H].
    + specialize (B H). rewrite Qabs_neg by lra. lra.
    + specialize (A H). rewrite Qabs_pos by lra. lra.
  - apply whole_iff in H. lia.
Qed.
Lemma whole_zero : forall s x, whole s x 0 <-> (x - 1 < s <= x)%Q.
Proof.
  intros s x. unfold whole. change (inject_Z 0) with 0%Q. split.
  - intros [A B]. destruct (Qlt_le_dec s x) as [H|H]; [specialize (B H)|specialize (A H)]; lra.
  - intros H. split; intros; lra.
Qed.

Lemma argmin_from_spec : forall l all i best v,
  all = firstn i all ++ l -> i <= length all -> best < i -> v = nth best all 0%Z ->
  (forall j, j < i -> (v <= nth j all 0%Z)%Z /\ (j < best -> (v < nth j all 0%Z)%Z)) ->
  let b := argmin_from i best v l in
  b < length all /\
  forall j, j < length all -> (nth b all 0%Z <= nth j all 0%Z)%Z /\ (j < b -> (nth b all 0%Z < nth j all 0%Z)%Z).
Proof.
  induction l as [|x l IH]; intros all i best v E L B V H.
  - cbn. rewrite app_nil_r in E. assert (length all = i).
    { apply (f_equal (@length _)) in E. rewrite firstn_length in E. lia. }
    split; [lia|]. intros j J. rewrite <- V. apply H. lia.
  - assert (X : nth i all 0%Z = x).
    { rewrite E, app_nth2; rewrite firstn_length_le by lia; [|lia]. now rewrite Nat.sub_diag. }
    assert (LL : i < length all).
    { apply (f_equal (@length _)) in E. rewrite app_length, firstn_length_le in E by lia. cbn in E. lia. }
    assert (E' : all = firstn (S i) all ++ l).
    { assert (PL : length (firstn i all) = i) by (apply firstn_length_le; lia).
      revert E PL. generalize (firstn i all). intros p E PL. rewrite E.
      change (x :: l) with ([x] ++ l). rewrite app_assoc. f_equal.
      rewrite firstn_app, app_length, PL. cbn [length].
      replace (S i - (i + 1)) with 0 by lia. rewrite firstn_O, app_nil_r.
      symmetry. apply firstn_all2. rewrite app_length. cbn. lia. }
    cbn [argmin_from]. destruct (x <? v)%Z eqn:C.
    + apply Z.ltb_lt in C. apply IH; auto; try lia.
      intros j J. destruct (Nat.eq_dec j i) as [->|N]; [rewrite X; lia|].
      destruct (H j ltac:(lia)). lia.
    + apply Z.ltb_ge in C. apply IH; auto; try lia.
      intros j J. destruct (Nat.eq_dec j i) as [->|N]; [rewrite X; lia|]. apply H; lia.
Qed.
Lemma argmin_spec : forall l b, argmin l = Ok b ->
  b < length l /\
  forall j, j < length l -> (nth b l 0%Z <= nth j l 0%Z)%Z /\ (j < b -> (nth b l 0%Z < nth j l 0%Z)%Z).
Proof.
  intros [|x l] b; [discriminate|]. cbn [argmin]. intros E. injection E as <-.
  apply (argmin_from_spec l (x :: l) 1 0 x); auto; cbn [length nth]; try lia.
  intros j J. assert (j = 0) by lia. subst. cbn. lia.
Qed.
Theorem closest_spec : forall starts x b, closest starts x = Ok b <-> first_closest starts x b.
Proof.
  intros starts x b. unfold closest.
  assert (N : forall i, i < length starts ->
     nth i (map (fun s => Z.abs (Qceiling (s - x)%Q)) starts) 0%Z = Z.abs (Qceiling (nth i starts 0 - x)%Q)).
  { intros i I. rewrite (nth_indep _ 0%Z (Z.abs (Qceiling (0 - x)%Q))) by (now rewrite map_length).
    now rewrite (map_nth (fun s => Z.abs (Qceiling (s - x)%Q))). }
  assert (F : forall b, argmin (map (fun s => Z.abs (Qceiling (s - x)%Q)) starts) = Ok b -> first_closest starts x b).
  { intros b' E. apply argmin_spec in E. rewrite map_length in E. destruct E as (B & H). split; [exact B|].
    intros i k k' I K K'. apply whole_iff in K, K'. specialize (H i I). rewrite !N in H by assumption. now subst. }
  split; [apply F|]. intros H.
  destruct starts as [|s r]; [destruct H; cbn in *; lia|].
  destruct (argmin _) as [b'|e] eqn:E; [|discriminate].
  specialize (F _ eq_refl). f_equal. destruct H as (B & H), F as (B' & H').
  pose proof (whole_abs (nth b (s :: r) 0%Q) x) as W. pose proof (whole_abs (nth b' (s :: r) 0%Q) x) as W'.
  destruct (lt_eq_lt_dec b b') as [[C|C]|C]; auto; exfalso.
  - destruct (H _ _ _ B' W W'). destruct (H' _ _ _ B W' W). lia.
  - destruct (H _ _ _ B' W W'). destruct (H' _ _ _ B W' W). lia.
Qed.
Theorem closest_error : forall starts x,
  (exists b, closest starts x = Ok b) \/ (starts = [] /\ closest starts x = Err EValueError).
Proof. intros [|s r] x; [right; auto|left; eexists; reflexivity]. Qed.

(** A start closer than all others by two units is chosen. *)
Theorem closest_clear : forall starts x b, b < length starts ->
  (forall i, i < length starts -> i <> b -> (Qabs (nth b starts 0 - x) + 2 <= Qabs (nth i starts 0 - x))%Q) ->
  closest starts x = Ok b.
Proof.
  intros starts x b B H. apply closest_spec. split; [exact B|]. intros i k k' I K K'.
  destruct (Nat.eq_dec i b) as [->|N]; [rewrite (whole_unique _ _ _ _ K K'); lia|].
  specialize (H i I N). apply whole_dist in K, K'.
  assert (inject_Z k < inject_Z k')%Q by lra. rewrite <- Zlt_Qlt in *. lia.
Qed.
(** The chosen start is the nearest up to two units. *)
Theorem closest_near : forall starts x b i, closest starts x = Ok b -> i < length starts ->
  (Qabs (nth b starts 0 - x) < Qabs (nth i starts 0 - x) + 2)%Q.
Proof.
  intros starts x b i E I. apply closest_spec in E. destruct E as (B & H).
  pose proof (whole_abs (nth b starts 0%Q) x) as W. pose proof (whole_abs (nth i starts 0%Q) x) as W'.
  destruct (H _ _ _ I W W') as (L & _). apply whole_dist in W, W'.
  rewrite Zle_Qle in L. lra.
Qed.
(** When a start lies within the unit before [x], the first of those is chosen. *)
Theorem closest_within : forall starts x b, b < length starts ->
  (x - 1 < nth b starts 0 <= x)%Q -> (forall i, i < b -> ~ (x - 1 < nth i starts 0 <= x)%Q) ->
  closest starts x = Ok b.
Proof.
  intros starts x b B H F. apply closest_spec. split; [exact B|]. intros i k k' I K K'.
  apply whole_zero in H. rewrite (whole_unique _ _ _ _ K H) in *. pose proof (whole_dist _ _ _ K') as (_ & P).
  split; [exact P|]. intros L. specialize (F i L).
  destruct (Z.eq_dec k' 0) as [->|]; [|lia]. apply whole_zero in K'. contradiction.
Qed.
Definition spaced_one (starts : list Q) : Prop :=
  forall i, S i < length starts -> (nth i starts 0 + 1 <= nth (S i) starts 0)%Q.
Lemma spaced_far : forall starts i j, spaced_one starts -> i < j -> j < length starts ->
  (nth i starts 0 + 1 <= nth j starts 0)%Q.
Proof.
  intros starts i j H L. induction j as [|j IH]; [lia|]. intros J.
  destruct (Nat.eq_dec i j) as [->|N]; [apply H; lia|].
  specialize (IH ltac:(lia) ltac:(lia)). specialize (H j J). lra.
Qed.
Lemma whole_before : forall s s' x k k', (s + 1 <= s')%Q -> (s' <= x)%Q -> whole s x k -> whole s' x k' -> (k' < k)%Z.
Proof.
  intros s s' x k k' D L [A B] [A' B'].
  assert (inject_Z k' < inject_Z k)%Q; [|rewrite <- Zlt_Qlt in *; lia].
  specialize (B ltac:(lra)).
  destruct (Qlt_le_dec s' x) as [H|H].
  - specialize (B' H).
    assert (inject_Z k' < inject_Z k \/ inject_Z k <= inject_Z k')%Q by (destruct (Qlt_le_dec (inject_Z k') (inject_Z k)); auto).
    destruct H0; auto. exfalso. rewrite <- Zle_Qle in H0.
    assert (inject_Z k + 0 <= inject_Z k')%Q by (rewrite Zle_Qle in H0; lra). lra.
  - specialize (A' ltac:(lra)).
    assert (E : whole s' x k') by (split; [intros; lra|intros; lra]).
    assert (whole s' x 0) by (apply whole_zero; lra). rewrite (whole_unique _ _ _ _ E H0).
    change (inject_Z 0) with 0%Q.
    assert (whole s x k) by (split; intros; lra). 
    destruct (Z_lt_le_dec 0 k) as [P|P]; [rewrite Zlt_Qlt in P; exact P|].
    rewrite Zle_Qle in P. change (inject_Z 0) with 0%Q in P. lra.
Qed.
Lemma whole_after : forall s s' x k k', (s + 1 <= s')%Q -> (x <= s)%Q -> whole s x k -> whole s' x k' -> (k < k')%Z.
Proof.
  intros s s' x k k' D L [A _] [A' _]. specialize (A L). specialize (A' ltac:(lra)).
  assert (inject_Z k < inject_Z k')%Q by lra. rewrite <- Zlt_Qlt in H. lia.
Qed.
(** Starts one unit apart or more, [x] between two of them: the choice between the
    two compares whole distances. *)
Theorem closest_between : forall starts x b k k', spaced_one starts -> S b < length starts ->
  (nth b starts 0 <= x < nth (S b) starts 0)%Q ->
  whole (nth b starts 0%Q) x k -> whole (nth (S b) starts 0%Q) x k' ->
  closest starts x = Ok (if (k <=? k')%Z then b else S b).
Proof.
  intros starts x b k k' SP B (L & U) K K'. apply closest_spec.
  assert (BE : forall i m, i < b -> whole (nth i starts 0%Q) x m -> (k < m)%Z).
  { intros i m I M. eapply whole_before; [|exact L|exact M|exact K]. apply spaced_far; auto; lia. }
  assert (AF : forall i m, S b < i -> i < length starts -> whole (nth i starts 0%Q) x m -> (k' < m)%Z).
  { intros i m I J M. eapply whole_after; [| |exact K'|exact M]; [|lra]. apply spaced_far; auto; lia. }
  destruct (k <=? k')%Z eqn:C; [apply Z.leb_le in C|apply Z.leb_gt in C]; (split; [lia|]); intros i m m' I M M';
  [rewrite (whole_unique _ _ _ _ M K) in *|rewrite (whole_unique _ _ _ _ M K') in *]; clear M m;
  destruct (lt_dec i b) as [P|P];
  try (specialize (BE i m' P M'); lia);
  destruct (lt_dec (S b) i) as [R|R];
  try (specialize (AF i m' R I M'); lia);
  (assert (E : i = b \/ i = S b) by lia; destruct E as [-> | ->];
   [rewrite (whole_unique _ _ _ _ M' K)|rewrite (whole_unique _ _ _ _ M' K')]; lia).
Qed.
Lemma closest_last : forall starts x, spaced_one starts -> starts <> [] ->
  (nth (length starts - 1) starts 0 <= x)%Q -> closest starts x = Ok (length starts - 1).
Proof.
  intros starts x SP N L. apply closest_spec. assert (0 < length starts) by (destruct starts; [congruence|cbn; lia]).
  split; [lia|]. intros i k k' I K K'. destruct (Nat.eq_dec i (length starts - 1)) as [->|D].
  - rewrite (whole_unique _ _ _ _ K K'). lia.
  - assert (k < k')%Z; [|lia]. eapply whole_before; [|exact L|exact K'|exact K]. apply spaced_far; auto; lia.
Qed.
Lemma closest_first : forall starts x, spaced_one starts -> starts <> [] ->
  (x <= nth 0 starts 0)%Q -> closest starts x = Ok 0.
Proof.
  intros starts x SP N L. apply closest_spec. assert (0 < length starts) by (destruct starts; [congruence|cbn; lia]).
  split; [lia|]. intros i k k' I K K'. destruct (Nat.eq_dec i 0) as [->|D].
  - rewrite (whole_unique _ _ _ _ K K'). lia.
  - assert (k < k')%Z; [|lia]. eapply whole_after; [|exact L|exact K|exact K']. apply spaced_far; auto; lia.
Qed.

(** ** The sample in a block *)
Definition sample_time (start dt : Q) (j : nat) : Q := (start + qn j * dt)%Q.
Theorem index_in_block_spec : forall n dt start t, 0 < n -> (0 < dt)%Q ->
  index_in_block n dt start t < n /\
  forall j, j < n ->
    (Qabs (sample_time start dt (index_in_block n dt start t) - t) <= Qabs (sample_time start dt j - t))%Q.
Proof.
  intros n dt start t N D. unfold index_in_block. set (x := ((t - start) / dt)%Q).
  assert (X : (x * dt == t - start)%Q) by (unfold x; field; lra).
  pose proof (round_even_nearest x) as R. set (r := round_even x) in *.
  assert (RB : (Qabs (x - inject_Z r) <= 1 # 2)%Q) by (destruct R as [R|[R _]]; lra).
  apply Qabs_Qle_condition in RB.
  set (c := Z.max 0 (Z.min (Z.of_nat n - 1) r)).
  assert (C : (0 <= c <= Z.of_nat n - 1)%Z) by (unfold c; lia).
  split; [lia|]. intros j J.
  assert (QN : (qn (Z.to_nat c) == inject_Z c)%Q) by (unfold qn; rewrite Z2Nat.id by lia; reflexivity).
  unfold sample_time.
  assert (S1 : forall a, (start + a * dt - t == (a - x) * dt)%Q) by (intros; rewrite Qmult_comm, <- (Qmult_comm dt); lra).
  setoid_replace (start + qn (Z.to_nat c) * dt - t)%Q with ((inject_Z c - x) * dt)%Q by (rewrite S1, QN; reflexivity).
  rewrite (S1 (qn j)). rewrite !Qabs_Qmult. apply Qmult_le_compat_r; [|apply Qabs_nonneg].
  assert (JZ : (qn j == inject_Z (Z.of_nat j))%Q) by reflexivity. rewrite JZ.
  assert (JB : (0 <= Z.of_nat j <= Z.of_nat n - 1)%Z) by lia. revert JB. generalize (Z.of_nat j). intros z JB.
  assert (K : (c = r \/ (c = 0 /\ r < 0) \/ (c = Z.of_nat n - 1 /\ c < r))%Z) by (unfold c; lia).
  destruct K as [K|[[K P]|[K P]]].
  - rewrite K. destruct (Z.eq_dec z r) as [->|NE]; [apply Qle_refl|].
    destruct (Z_lt_le_dec z r) as [O|O].
    + assert (z + 1 <= r)%Z by lia. rewrite Zle_Qle, inject_Z_plus in H. change (inject_Z 1) with 1%Q in H.
      rewrite (Qabs_neg (inject_Z z - x)) by lra. apply Qabs_Qle_condition. lra.
    + assert (r + 1 <= z)%Z by lia. rewrite Zle_Qle, inject_Z_plus in H. change (inject_Z 1) with 1%Q in H.
      rewrite (Qabs_pos (inject_Z z - x)) by lra. apply Qabs_Qle_condition. lra.
  - rewrite K. change (inject_Z 0) with 0%Q. assert (r + 1 <= 0)%Z by lia.
    rewrite Zle_Qle, inject_Z_plus in H. change (inject_Z 1) with 1%Q in H. change (inject_Z 0) with 0%Q in H.
    destruct JB as [Z0 _]. rewrite Zle_Qle in Z0. change (inject_Z 0) with 0%Q in Z0.
    rewrite !Qabs_pos by lra. lra.
  - assert (c + 1 <= r)%Z by lia. rewrite Zle_Qle, inject_Z_plus in H. change (inject_Z 1) with 1%Q in H.
    rewrite <- K in JB. destruct JB as [_ Z1]. rewrite Zle_Qle in Z1.
    rewrite !Qabs_neg by lra. lra.
Qed.
