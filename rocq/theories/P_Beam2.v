(** Proofs about the directions of the analog grid (M_Beam.v). *)
From Coq Require Import ZArith Reals Bool List Arith Lia Lra Psatz.
From Verif Require Import Base M_Polar M_Analog M_Beam P_Beam.
Import ListNotations.
Open Scope R_scope.

(** ** Specification *)
(** The direction cosines of a direction: how far East, North and Up its unit vector goes
    ([enu], P_Beam.v). [d] is the step of 0.015. *)
Definition step : R := 3 / 200.
Definition azel (rotation : R) (d : dir) : vec := enu (fst (dir_azel rotation d)) (snd (dir_azel rotation d)).

(** ** Trigonometry *)
Lemma dmin_step : dmin_d = step.
Proof. unfold dmin_d, step. field. Qed.

Lemma wrap_shift x : exists k : Z, wrap x = x - 2 * PI * IZR k.
Proof. exists (Int_part (x / (2 * PI))). reflexivity. Qed.
Lemma sin_periodZ x k : sin (x + 2 * IZR k * PI) = sin x /\ cos (x + 2 * IZR k * PI) = cos x.
Proof.
  destruct (Z_le_dec 0 k) as [L|L].
  - rewrite <- (Z2Nat.id k L), <- INR_IZR_INZ. split; [apply sin_period|apply cos_period].
  - pose proof (sin_period (x + 2 * IZR k * PI) (Z.to_nat (- k))) as S. pose proof (cos_period (x + 2 * IZR k * PI) (Z.to_nat (- k))) as C.
    rewrite INR_IZR_INZ, Z2Nat.id, opp_IZR in S, C by lia.
    replace (x + 2 * IZR k * PI + 2 * - IZR k * PI) with x in S, C by ring. now rewrite S, C.
Qed.
Lemma wrap_trig x : sin (wrap x) = sin x /\ cos (wrap x) = cos x.
Proof.
  destruct (wrap_shift x) as [k ->]. replace (x - 2 * PI * IZR k) with (x + 2 * IZR (- k) * PI) by (rewrite opp_IZR; ring). apply sin_periodZ.
Qed.
Lemma wrap_range x : 0 <= wrap x < 2 * PI.
Proof.
  unfold wrap. pose proof PI_RGT_0 as P. destruct (base_Int_part (x / (2 * PI))) as [A B]. set (n := IZR (Int_part (x / (2 * PI)))) in *.
  assert (E : x = x / (2 * PI) * (2 * PI)) by (field; lra). set (y := x / (2 * PI)) in *. rewrite E. nra.
Qed.

Lemma atan_polar x : cos (atan x) * sqrt (1 + x ^ 2) = 1 /\ sin (atan x) * sqrt (1 + x ^ 2) = x.
Proof.
  assert (P : 0 < sqrt (1 + x ^ 2)) by (apply sqrt_lt_R0; nra).
  rewrite cos_atan, sin_atan. unfold Rsqr. replace (1 + x * x) with (1 + x ^ 2) by ring. split; field; lra.
Qed.
Lemma sqrt_scaled k x : 0 < k -> sqrt (k ^ 2 + x ^ 2) = k * sqrt (1 + (x / k) ^ 2).
Proof.
  intros K. replace (k ^ 2 + x ^ 2) with (k ^ 2 * (1 + (x / k) ^ 2)) by (field; lra).
  rewrite sqrt_mult by nra. rewrite sqrt_pow2 by lra. reflexivity.
Qed.
Lemma arctan2_polar y x : sqrt (x ^ 2 + y ^ 2) * cos (arctan2 y x) = x /\ sqrt (x ^ 2 + y ^ 2) * sin (arctan2 y x) = y.
Proof.
  unfold arctan2. destruct (Rlt_dec 0 x) as [P|P].
  - rewrite (sqrt_scaled x y P). destruct (atan_polar (y / x)) as [C S]. split.
    + transitivity (x * (cos (atan (y / x)) * sqrt (1 + (y / x) ^ 2))); [ring|rewrite C; ring].
    + transitivity (x * (sin (atan (y / x)) * sqrt (1 + (y / x) ^ 2))); [ring|rewrite S; field; lra].
  - destruct (Rlt_dec x 0) as [N|N].
    + replace (x ^ 2) with ((- x) ^ 2) by ring. rewrite (sqrt_scaled (- x) y) by lra.
      destruct (atan_polar (y / x)) as [C S]. replace ((y / - x) ^ 2) with ((y / x) ^ 2) by (field; lra).
      set (q := sqrt (1 + (y / x) ^ 2)) in *.
      assert (CS : cos (if Rle_dec 0 y then atan (y / x) + PI else atan (y / x) - PI) = - cos (atan (y / x)) /\
                   sin (if Rle_dec 0 y then atan (y / x) + PI else atan (y / x) - PI) = - sin (atan (y / x))).
      { destruct (Rle_dec 0 y); [split; [apply neg_cos|apply neg_sin]|].
        rewrite cos_minus, sin_minus, cos_PI, sin_PI. split; ring. }
      destruct CS as [-> ->]. split.
      * transitivity (x * (cos (atan (y / x)) * q)); [ring|rewrite C; ring].
      * transitivity (x * (sin (atan (y / x)) * q)); [ring|rewrite S; field; lra].
    + assert (x = 0) as -> by lra. replace (0 ^ 2 + y ^ 2) with (y ^ 2) by ring.
      destruct (Rlt_dec 0 y) as [Y|Y].
      * rewrite sqrt_pow2, cos_PI2, sin_PI2 by lra. split; ring.
      * destruct (Rlt_dec y 0) as [Z|Z].
        -- replace (y ^ 2) with ((- y) ^ 2) by ring. rewrite sqrt_pow2, cos_neg, sin_neg, cos_PI2, sin_PI2 by lra. split; ring.
        -- assert (y = 0) as -> by lra. replace (0 ^ 2) with 0 by ring. rewrite sqrt_0. split; ring.
Qed.

(** The elevation of a radius. *)
Lemma elevation_trig q : 0 <= q <= 1 ->
  cos (PI / 2 - 1 / 2 * acos (1 - 2 * q)) = sqrt q /\ sin (PI / 2 - 1 / 2 * acos (1 - 2 * q)) = sqrt (1 - q) /\
  0 <= PI / 2 - 1 / 2 * acos (1 - 2 * q) <= PI / 2.
Proof.
  intros Q. set (a := acos (1 - 2 * q)). pose proof (acos_bound (1 - 2 * q)) as B. fold a in B.
  assert (C : cos a = 1 - 2 * q) by (apply cos_acos; lra). pose proof PI_RGT_0 as P.
  rewrite cos_shift, sin_shift.
  assert (S2 : sin (1 / 2 * a) ^ 2 = q /\ cos (1 / 2 * a) ^ 2 = 1 - q).
  { pose proof (cos_2a_sin (1 / 2 * a)) as D. replace (2 * (1 / 2 * a)) with a in D by field. rewrite C in D.
    pose proof (sin2_cos2 (1 / 2 * a)) as T. unfold Rsqr in T. split; nra. }
  destruct S2 as [S2 C2].
  assert (0 <= sin (1 / 2 * a)) by (apply sin_ge_0; lra). assert (0 <= cos (1 / 2 * a)) by (apply cos_ge_0; lra).
  split; [|split; [|lra]].
  - rewrite <- S2. now rewrite sqrt_pow2.
  - rewrite <- C2. now rewrite sqrt_pow2.
Qed.

(** ** The directions *)
Lemma radius_legal k1 k2 : direction k1 k2 = Steps k1 k2 -> 0 <= (IZR k1 * step) ^ 2 + (IZR k2 * step) ^ 2 <= 1.
Proof.
  unfold direction. destruct (Z.leb_spec (9 * (k1 * k1 + k2 * k2)) 40000) as [L|L]; [intros _|discriminate].
  apply IZR_le in L. rewrite mult_IZR, plus_IZR, !mult_IZR in L. unfold step. split; [nra|]. simpl. nra.
Qed.

(** A pair of steps that is not too long is a direction at or above the horizon, whose
    direction cosines are the steps turned by the rotation; what is too long is the nadir. *)
Theorem grid_cosines : forall rotation k1 k2, direction k1 k2 = Steps k1 k2 ->
  vx (azel rotation (direction k1 k2)) = - step * (IZR k1 * cos rotation + IZR k2 * sin rotation) /\
  vy (azel rotation (direction k1 k2)) = - step * (IZR k2 * cos rotation - IZR k1 * sin rotation) /\
  vz (azel rotation (direction k1 k2)) = sqrt (1 - step ^ 2 * (IZR k1 ^ 2 + IZR k2 ^ 2)).
Proof.
  intros rho k1 k2 E. pose proof (radius_legal k1 k2 E) as Q. rewrite E. unfold azel, dir_azel. rewrite dmin_step. cbn [fst snd].
  set (a := IZR k1 * step) in *. set (b := IZR k2 * step) in *. destruct (elevation_trig (a ^ 2 + b ^ 2) Q) as (C & S & _).
  unfold enu. cbn [vx vy vz]. rewrite C, S. destruct (wrap_trig (PI / 2 - (arctan2 b a + PI) + rho)) as [-> ->].
  destruct (arctan2_polar b a) as [X Y]. set (t := arctan2 b a) in *.
  replace (PI / 2 - (t + PI) + rho) with (PI / 2 - (t - rho + PI)) by ring. rewrite sin_shift, cos_shift, neg_cos, neg_sin, cos_minus, sin_minus.
  split; [|split].
  - transitivity (- (sqrt (a ^ 2 + b ^ 2) * cos t * cos rho + sqrt (a ^ 2 + b ^ 2) * sin t * sin rho)); [ring|]. rewrite X, Y. unfold a, b. ring.
  - transitivity (- (sqrt (a ^ 2 + b ^ 2) * sin t * cos rho - sqrt (a ^ 2 + b ^ 2) * cos t * sin rho)); [ring|]. rewrite X, Y. unfold a, b. ring.
  - f_equal. unfold a, b. ring.
Qed.
Theorem grid_nadir : forall rotation k1 k2, direction k1 k2 = Nadir ->
  azel rotation (direction k1 k2) = mkVec 0 0 (-1) /\ snd (dir_azel rotation (direction k1 k2)) = - (PI / 2) /\
  1 < step ^ 2 * (IZR k1 ^ 2 + IZR k2 ^ 2).
Proof.
  intros rho k1 k2 E. rewrite E. unfold azel, dir_azel, enu. cbn [fst snd]. destruct (wrap_trig 0) as [-> ->].
  rewrite sin_neg, cos_neg, cos_PI2, sin_PI2, sin_0, cos_0. split; [f_equal; ring|]. split; [reflexivity|].
  unfold direction in E. destruct (Z.leb_spec (9 * (k1 * k1 + k2 * k2)) 40000) as [L|L]; [discriminate|].
  apply IZR_lt in L. rewrite mult_IZR, plus_IZR, !mult_IZR in L. unfold step. simpl. nra.
Qed.
(** Azimuth in one turn, elevation between the horizon and the zenith, lower when the
    steps are longer. *)
Theorem grid_range : forall rotation d, 0 <= fst (dir_azel rotation d) < 2 * PI.
Proof. intros rho [k1 k2|]; apply wrap_range. Qed.
Theorem grid_elevation : forall rotation k1 k2, direction k1 k2 = Steps k1 k2 ->
  0 <= snd (dir_azel rotation (direction k1 k2)) <= PI / 2.
Proof.
  intros rho k1 k2 E. pose proof (radius_legal k1 k2 E) as Q. rewrite E. unfold dir_azel. rewrite dmin_step. apply (elevation_trig _ Q).
Qed.
Theorem grid_lower : forall rotation k1 k2 l1 l2, direction k1 k2 = Steps k1 k2 -> direction l1 l2 = Steps l1 l2 ->
  (k1 * k1 + k2 * k2 < l1 * l1 + l2 * l2)%Z ->
  snd (dir_azel rotation (direction l1 l2)) < snd (dir_azel rotation (direction k1 k2)).
Proof.
  intros rho k1 k2 l1 l2 K L H. pose proof (grid_elevation rho _ _ K) as A. pose proof (grid_elevation rho _ _ L) as B.
  destruct (grid_cosines rho _ _ K) as (_ & _ & SK). destruct (grid_cosines rho _ _ L) as (_ & _ & SL).
  unfold azel, enu in SK, SL. cbn [vz] in SK, SL. apply sin_increasing_0; [lra|lra|lra|lra|]. rewrite SK, SL.
  pose proof (radius_legal _ _ K) as QK. pose proof (radius_legal _ _ L) as QL. apply IZR_lt in H. rewrite !plus_IZR, !mult_IZR in H.
  unfold step in *. apply sqrt_lt_1; simpl in *; nra.
Qed.
(** Turning the Mini-Array turns the grid by the same angle. *)
Theorem grid_rotation : forall rotation d k1 k2, d = direction k1 k2 -> d = Steps k1 k2 ->
  snd (dir_azel rotation d) = snd (dir_azel 0 d) /\
  exists k : Z, fst (dir_azel rotation d) = fst (dir_azel 0 d) + rotation + 2 * PI * IZR k.
Proof.
  intros rho d k1 k2 E D. rewrite D. cbn [dir_azel fst snd]. split; [reflexivity|].
  set (x := PI / 2 - (arctan2 (IZR k2 * dmin_d) (IZR k1 * dmin_d) + PI)).
  destruct (wrap_shift (x + rho)) as [m ->]. destruct (wrap_shift (x + 0)) as [n ->]. exists (n - m)%Z. rewrite minus_IZR. ring.
Qed.
(** Opposite steps are opposite azimuths at the same elevation. *)
Theorem grid_opposite : forall rotation k1 k2, direction k1 k2 = Steps k1 k2 ->
  let a := azel rotation (direction k1 k2) in let b := azel rotation (direction (- k1) (- k2)) in
  vx b = - vx a /\ vy b = - vy a /\ vz b = vz a.
Proof.
  intros rho k1 k2 E a b. assert (F : direction (- k1) (- k2) = Steps (- k1) (- k2)).
  { unfold direction in *. rewrite !Z.mul_opp_opp. destruct (_ <=? _)%Z; [reflexivity|discriminate]. }
  destruct (grid_cosines rho k1 k2 E) as (A & B & C). destruct (grid_cosines rho _ _ F) as (A' & B' & C').
  unfold a, b. rewrite A, B, C, A', B', C', !opp_IZR. split; [ring|]. split; [ring|]. f_equal. ring.
Qed.
(** No steps: the zenith. *)
Theorem grid_zenith : forall rotation, azel rotation (direction 0 0) = mkVec 0 0 1.
Proof.
  intros rho. destruct (grid_cosines rho 0 0 eq_refl) as (A & B & C). destruct (azel rho (direction 0 0)) as [x y z]. cbn [vx vy vz] in *.
  rewrite A, B, C. f_equal; [ring|ring|]. replace (1 - step ^ 2 * (0 ^ 2 + 0 ^ 2)) with 1 by ring. apply sqrt_1.
Qed.
(** Neighbouring cells differ by one step along each axis of the Mini-Array, whatever the
    direction: the grid is regular in direction cosines. *)
Theorem grid_regular : forall rotation k1 k2, direction k1 k2 = Steps k1 k2 -> direction (k1 + 1) k2 = Steps (k1 + 1) k2 ->
  let a := azel rotation (direction k1 k2) in let b := azel rotation (direction (k1 + 1) k2) in
  vx b - vx a = - step * cos rotation /\ vy b - vy a = step * sin rotation.
Proof.
  intros rho k1 k2 E F a b. destruct (grid_cosines rho k1 k2 E) as (A & B & _). destruct (grid_cosines rho _ _ F) as (A' & B' & _).
  unfold a, b. rewrite A, B, A', B', plus_IZR. split; ring.
Qed.
