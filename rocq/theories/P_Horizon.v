(** Positions of targets for schedules. *)
From Coq Require Import QArith Qround Qfield Reals Bool Lia Lqa Lra Psatz.
From Verif Require Import M_Horizon.
Open Scope Q_scope.

Lemma lt_bool_spec : forall a b, if lt_bool a b then a < b else b <= a.
Proof. intros a b. unfold lt_bool. destruct (Qle_bool b a) eqn:E; cbn; [now apply Qle_bool_iff|]. apply Qnot_le_lt. intro H. apply Qle_bool_iff in H. congruence. Qed.
Lemma fmod_range : forall a b, 0 < b -> 0 <= fmod a b /\ fmod a b < b.
Proof.
  intros a b B. unfold fmod. pose proof (Qfloor_le (a / b)) as L. pose proof (Qlt_floor (a / b)) as U. rewrite inject_Z_plus in U. set (z := inject_Z (Qfloor (a / b))) in *.
  assert (E : a == b * (a / b)) by (field; lra). split; [|change (inject_Z 1) with 1 in U]; nra.
Qed.
(** The mean sidereal time at a longitude, not reduced to a day *)
Definition turned (lon jd : Q) : Q := (18697374558 # 1000000000) + (2406570982441908 # 100000000000000) * (jd - 2451545) + lon.
Theorem sidereal_exact : forall lon jd, - (24) < lon -> lon < 24 ->
  (exists k : Z, sidereal lon jd == turned lon jd - 24 * inject_Z k) /\ 0 <= sidereal lon jd /\ (0 <= lon -> lon <= sidereal lon jd /\ sidereal lon jd < 24 + lon) /\ (lon <= 0 -> sidereal lon jd < 24).
Proof.
  intros lon jd L1 L2. unfold sidereal. pose proof (fmod_range ((18697374558 # 1000000000) + (2406570982441908 # 100000000000000) * (jd - 2451545)) 24 ltac:(lra)) as (G1 & G2). fold (gmst jd) in G1, G2.
  pose proof (lt_bool_spec (gmst jd + lon) 0) as H. destruct (lt_bool (gmst jd + lon) 0).
  - split; [|repeat split; intros; lra]. exists (Qfloor (((18697374558 # 1000000000) + (2406570982441908 # 100000000000000) * (jd - 2451545)) / 24) - 1)%Z.
    unfold Z.sub. rewrite inject_Z_plus, inject_Z_opp. unfold gmst, fmod, turned. change (inject_Z 1) with 1%Q. ring.
  - split; [|repeat split; intros; lra]. exists (Qfloor (((18697374558 # 1000000000) + (2406570982441908 # 100000000000000) * (jd - 2451545)) / 24)). unfold gmst, fmod, turned. ring.
Qed.
Lemma shifted_unique : forall s t (k : Z), s == t - 24 * inject_Z k -> - (24) < s - t -> s - t < 24 -> s == t.
Proof.
  intros s t k E L U. assert (B : (-1 < k < 1)%Z). { split; rewrite Zlt_Qlt; [change (inject_Z (-1)) with (-(1))%Q|change (inject_Z 1) with 1%Q]; lra. }
  assert (k = 0%Z) by lia. subst k. change (inject_Z 0) with 0 in E. lra.
Qed.
Lemma solve_turned : forall lon x, turned lon (2451545 + (x - lon - (18697374558 # 1000000000)) / (2406570982441908 # 100000000000000)) == x.
Proof. intros lon x. unfold turned. field. Qed.
Theorem sidereal_day_refuted : forall lon, 0 < lon -> lon < 24 -> exists jd, 24 <= sidereal lon jd.
Proof.
  intros lon L1 L2. exists (2451545 + (24 + lon / 2 - lon - (18697374558 # 1000000000)) / (2406570982441908 # 100000000000000)).
  pose proof (solve_turned lon (24 + lon / 2)) as T. set (jd := 2451545 + _) in *. clearbody jd.
  destruct (sidereal_exact lon jd ltac:(lra) L2) as ((k & K) & _ & R & _). destruct (R ltac:(lra)) as (R1 & R2). set (s := sidereal lon jd) in *. clearbody s.
  assert (H : lon / 2 * 2 == lon) by field. rewrite T in K. assert (s == 24 + lon / 2) by (apply (shifted_unique _ _ k K); lra). lra.
Qed.
(** Hour angles *)
Theorem hour_angle_exact : forall lst ra, 0 <= lst -> lst < 48 -> 0 <= ra -> ra < 360 ->
  (exists k : Z, hour_angle lst ra == 15 * lst - ra - 360 * inject_Z k) /\ 0 <= hour_angle lst ra /\ hour_angle lst ra <= 360 /\ (hour_angle lst ra == 360 <-> 15 * lst - ra == 360).
Proof.
  intros lst ra L1 L2 R1 R2. unfold hour_angle. pose proof (lt_bool_spec (15 * lst - ra) 0) as H1. destruct (lt_bool (15 * lst - ra) 0).
  - pose proof (lt_bool_spec 360 (15 * lst - ra + 360)) as H2. destruct (lt_bool 360 (15 * lst - ra + 360)); [exfalso; lra|]. split; [exists (-1)%Z; change (inject_Z (-1)) with (-(1))%Q; ring|]. repeat split; intros; try lra.
  - pose proof (lt_bool_spec 360 (15 * lst - ra)) as H2. destruct (lt_bool 360 (15 * lst - ra)).
    + split; [exists 1%Z; change (inject_Z 1) with 1%Q; ring|]. repeat split; intros; lra.
    + split; [exists 0%Z; change (inject_Z 0) with 0%Q; ring|]. repeat split; intros; lra.
Qed.

(** A step shorter than a sidereal day, for a fixed right ascension: the hour angle decreases exactly
    if the meridian is crossed. *)
Definition meridian (lon ra jd : Q) : Prop := exists k : Z, 15 * turned lon jd - ra == 360 * inject_Z k.
Definition angle (lon ra jd : Q) : Q := hour_angle (sidereal lon jd) ra.
Lemma angle_turns : forall lon ra jd, - (24) < lon -> lon < 24 -> 0 <= ra -> ra < 360 -> exists k : Z, angle lon ra jd == 15 * turned lon jd - ra - 360 * inject_Z k /\ 0 <= angle lon ra jd /\ angle lon ra jd <= 360.
Proof.
  intros lon ra jd L1 L2 R1 R2. destruct (sidereal_exact lon jd L1 L2) as ((k & K) & P & A & B). assert (U : sidereal lon jd < 48) by (destruct (Qlt_le_dec lon 0); [specialize (B ltac:(lra)); lra|specialize (A ltac:(lra)); lra]).
  destruct (hour_angle_exact (sidereal lon jd) ra P U R1 R2) as ((m & M) & H0 & H1 & _). exists (k + m)%Z. split; [|split; [exact H0|exact H1]]. unfold angle. rewrite M, K, inject_Z_plus. ring.
Qed.
Lemma turned_slope : forall lon j1 j2, turned lon j2 - turned lon j1 == (2406570982441908 # 100000000000000) * (j2 - j1).
Proof. intros. unfold turned. ring. Qed.
Lemma int_between : forall a b : Z, (a < b)%Z -> inject_Z a + 1 <= inject_Z b.
Proof. intros a b H. change 1 with (inject_Z 1). rewrite <- inject_Z_plus, <- Zle_Qle. lia. Qed.
Lemma fifteenth : forall h r, ~ r == 0 -> h / (15 * r) * r == h / 15.
Proof. intros h r R. field. exact R. Qed.
Lemma times_fifteen : forall h, h / 15 * 15 == h.
Proof. intro h. field. Qed.
Lemma crossing : forall (turn : Q -> Q) r ra j1 j2 h1 h2 k1 k2, 0 < r -> (forall a b, turn b - turn a == r * (b - a)) -> j1 < j2 -> r * (j2 - j1) < 24 ->
  h1 == 15 * turn j1 - ra - 360 * inject_Z k1 -> h2 == 15 * turn j2 - ra - 360 * inject_Z k2 -> 0 <= h1 -> h1 < 360 -> 0 <= h2 -> h2 < 360 ->
  (h2 < h1 <-> exists j, j1 < j /\ j <= j2 /\ exists k : Z, 15 * turn j - ra == 360 * inject_Z k).
Proof.
  intros turn r ra j1 j2 h1 h2 k1 k2 R T J S K1 K2 A1 C1 A2 C2. assert (P : 0 < r * (j2 - j1)) by nra. pose proof (T j1 j2) as T0. split.
  - intro H. assert (K : (k1 < k2)%Z) by (rewrite Zlt_Qlt; lra). apply int_between in K.
    assert (NR : ~ r == 0) by lra. pose proof (fifteenth h2 r NR) as E. pose proof (times_fifteen h2) as F. assert (G : 0 <= h2 / (15 * r)) by (apply Qle_shift_div_l; nra). set (q := h2 / (15 * r)) in *. clearbody q. set (f := h2 / 15) in *. clearbody f.
    exists (j2 - q). pose proof (T (j2 - q) j2) as TJ. setoid_replace (r * (j2 - (j2 - q))) with (q * r) in TJ by ring.
    split; [|split; [lra|exists k2; lra]]. apply Qnot_le_lt. intro X. assert (r * (j2 - j1) <= q * r) by nra. lra.
  - intros (j & X1 & X2 & k & K). pose proof (T j1 j) as T1. pose proof (T j j2) as T2. assert (Y1 : 0 < r * (j - j1)) by nra. assert (Y2 : 0 <= r * (j2 - j)) by nra.
    assert (K3 : (k1 < k)%Z) by (rewrite Zlt_Qlt; lra). assert (K4 : (k <= k2)%Z). { apply Z.lt_succ_r. rewrite Zlt_Qlt. unfold Z.succ. rewrite inject_Z_plus. change (inject_Z 1) with 1. lra. }
    assert (K5 : (k1 < k2)%Z) by lia. apply int_between in K5. lra.
Qed.
Theorem transit_found : forall lon ra j1 j2, - (24) < lon -> lon < 24 -> 0 <= ra -> ra < 360 -> j1 < j2 -> (2406570982441908 # 100000000000000) * (j2 - j1) < 24 ->
  ~ angle lon ra j1 == 360 -> ~ angle lon ra j2 == 360 ->
  (angle lon ra j2 < angle lon ra j1 <-> exists j, j1 < j /\ j <= j2 /\ meridian lon ra j).
Proof.
  intros lon ra j1 j2 L1 L2 R1 R2 J S N1 N2. destruct (angle_turns lon ra j1 L1 L2 R1 R2) as (k1 & K1 & A1 & B1). destruct (angle_turns lon ra j2 L1 L2 R1 R2) as (k2 & K2 & A2 & B2).
  assert (C1 : angle lon ra j1 < 360) by (destruct (Qle_lt_or_eq _ _ B1); [assumption|contradiction]). assert (C2 : angle lon ra j2 < 360) by (destruct (Qle_lt_or_eq _ _ B2); [assumption|contradiction]).
  exact (crossing (turned lon) (2406570982441908 # 100000000000000) ra j1 j2 _ _ k1 k2 ltac:(reflexivity) (turned_slope lon) J S K1 K2 A1 C1 A2 C2).
Qed.
