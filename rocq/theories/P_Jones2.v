(** Proofs about Jones and Mueller matrices: the matrices (M_Jones.v). *)
From Coq Require Import Reals Bool List Arith Lia Lra Psatz.
From Verif Require Import Base M_Polar M_Beam P_Beam P_Beam2 M_Jones P_Jones.
Import ListNotations.
Open Scope list_scope.
Open Scope R_scope.

Lemma mat_eq (a b : mat) : m00 a = m00 b -> m01 a = m01 b -> m10 a = m10 b -> m11 a = m11 b -> a = b.
Proof. destruct a, b. cbn. intros -> -> -> ->. reflexivity. Qed.
(** [e v]: the component of the field [v] along the state [e]. *)
Definition along (e v : jvec) : cpx := cplus (cmult (cconj (fst e)) (fst v)) (cmult (cconj (snd e)) (snd v)).
Ltac unf := unfold adjoint, mvec, mmul, mscale, mtrans, mconj, ident, jscale, along, state, creal, cscale, cis, cplus, cmult, cconj, cneg, c1, c0, ci, re, im, mat_of, mget;
  cbn [m00 m01 m10 m11 fst snd].

(** ** Polarisers *)
Lemma elliptical_value t d : j_elliptical t d =
  let e := state t d in mkMat (cmult (fst e) (cconj (fst e))) (cmult (fst e) (cconj (snd e))) (cmult (snd e) (cconj (fst e))) (cmult (snd e) (cconj (snd e))).
Proof.
  unfold j_elliptical, state. cbv zeta. rewrite cis_neg. pose proof (sc (radians d)) as D. unf.
  set (c := cos (radians t)). set (s := sin (radians t)). set (x := cos (radians d)) in *. set (y := sin (radians d)) in *.
  apply mat_eq; cbn [m00 m01 m10 m11]; apply cpx_eq; cbn [re im fst snd]; try ring.
  transitivity (s ^ 2 * (x ^ 2 + y ^ 2)); [rewrite D; ring|ring].
Qed.
Theorem polariser_output : forall theta delta v,
  mvec (j_elliptical theta delta) v = jscale (along (state theta delta) v) (state theta delta).
Proof.
  intros t d [[a b] [e f]]. rewrite elliptical_value. cbv zeta. generalize (state t d). intros [[p q] [r s]]. unf.
  apply jv_eq; apply cpx_eq; cbn [re im fst snd]; ring.
Qed.
Lemma state_unit t d : intensity (state t d) = 1.
Proof.
  unfold intensity, power, state, creal, cscale, cis, re, im. cbn [fst snd].
  pose proof (sc (radians t)) as T. pose proof (sc (radians d)) as D. set (c := cos (radians t)) in *. set (s := sin (radians t)) in *. set (x := cos (radians d)) in *. set (y := sin (radians d)) in *.
  transitivity (c ^ 2 + s ^ 2 * (x ^ 2 + y ^ 2)); [ring|]. rewrite D, T. ring.
Qed.
Lemma along_self v : along v v = creal (intensity v).
Proof. destruct v as [[a b] [c d]]. unfold intensity, power. unf. apply cpx_eq; cbn [re im fst snd]; ring. Qed.
Theorem polariser_passes : forall theta delta, mvec (j_elliptical theta delta) (state theta delta) = state theta delta.
Proof.
  intros t d. rewrite polariser_output, along_self, state_unit. generalize (state t d). intros [[p q] [r s]]. unf. apply jv_eq; apply cpx_eq; cbn [re im fst snd]; ring.
Qed.
Theorem polariser_stops : forall theta delta v, along (state theta delta) v = c0 -> mvec (j_elliptical theta delta) v = (c0, c0).
Proof.
  intros t d v E. rewrite polariser_output, E. generalize (state t d). intros [[p q] [r s]]. unf. apply jv_eq; apply cpx_eq; cbn [re im fst snd]; ring.
Qed.
Theorem polariser_twice : forall theta delta, mmul (j_elliptical theta delta) (j_elliptical theta delta) = j_elliptical theta delta.
Proof.
  intros t d. rewrite elliptical_value. cbv zeta. pose proof (state_unit t d) as U. revert U. generalize (state t d). intros [[p q] [r s]]. unfold intensity, power. cbn [re im fst snd]. intros U. unf.
  assert (E : forall x, (p * p + q * q + (r * r + s * s)) * x = x) by (intros x; replace (p * p + q * q + (r * r + s * s)) with 1 by lra; ring).
  apply mat_eq; cbn [m00 m01 m10 m11]; apply cpx_eq; cbn [re im fst snd];
    match goal with |- _ = ?x => transitivity ((p * p + q * q + (r * r + s * s)) * x); [ring|apply E] end.
Qed.
Theorem polariser_hermitian : forall theta delta, adjoint (j_elliptical theta delta) = j_elliptical theta delta.
Proof.
  intros t d. rewrite elliptical_value. cbv zeta. generalize (state t d). intros [[p q] [r s]]. unf.
  apply mat_eq; cbn [m00 m01 m10 m11]; apply cpx_eq; cbn [re im fst snd]; ring.
Qed.
(** Malus. *)
Theorem malus : forall theta phi, intensity (mvec (s_linear j_elliptical theta) (j_linear phi)) = cos (radians (theta - phi)) ^ 2.
Proof.
  intros t p. unfold s_linear. rewrite polariser_output, linear_state.
  assert (J : forall z v, intensity (jscale z v) = power z * intensity v) by (intros z v; unfold intensity, jscale; cbn [fst snd]; rewrite !power_cmult; ring).
  rewrite J, state_unit. replace (radians (t - p)) with (radians t - radians p) by (unfold radians; field). rewrite cos_minus.
  rewrite !Rmult_1_r. unfold power. unf. rewrite radians_0, sin_0, cos_0. ring.
Qed.
(** The two polarisers at a right angle share the field. *)
Theorem polariser_pair : forall theta delta v,
  intensity (mvec (j_elliptical theta delta) v) + intensity (mvec (j_elliptical (theta + 90) delta) v) = intensity v.
Proof.
  intros t d v.
  assert (J : forall z v, intensity (jscale z v) = power z * intensity v) by (intros z w; unfold intensity, jscale; cbn [fst snd]; rewrite !power_cmult; ring).
  rewrite !polariser_output, !J, !state_unit, !Rmult_1_r. destruct v as [[a b] [e f]].
  unfold state. rewrite radians_plus, radians_90, cos_plus, sin_plus, cos_PI2, sin_PI2. unfold intensity, power. unf.
  pose proof (sc (radians t)) as T. pose proof (sc (radians d)) as D. set (c := cos (radians t)) in *. set (s := sin (radians t)) in *. set (x := cos (radians d)) in *. set (y := sin (radians d)) in *.
  transitivity ((c ^ 2 + s ^ 2) * (a ^ 2 + b ^ 2) + (c ^ 2 + s ^ 2) * (x ^ 2 + y ^ 2) * (e ^ 2 + f ^ 2)); [ring|]. rewrite D, T. ring.
Qed.

(** ** Retarders *)
(** The fast axis is slowed by half of the retardation, the other one by the opposite. *)
Theorem retarder_fast : forall theta delta, mvec (j_retarder theta delta) (j_linear theta) = jscale (cis (- radians delta / 2)) (j_linear theta).
Proof.
  intros t d. rewrite linear_state. unfold state. rewrite radians_0. unfold j_retarder. cbv zeta. generalize (cis (- radians d / 2)). intros [g h]. unf. rewrite sin_0, cos_0.
  pose proof (sc (radians t)) as T. set (c := cos (radians t)) in *. set (s := sin (radians t)) in *. set (x := cos (radians d)) in *. set (y := sin (radians d)) in *.
  apply jv_eq; apply cpx_eq; cbn [re im fst snd].
  - transitivity (g * c * (c ^ 2 + s ^ 2)); [ring|rewrite T; ring].
  - transitivity (h * c * (c ^ 2 + s ^ 2)); [ring|rewrite T; ring].
  - transitivity (g * s * (c ^ 2 + s ^ 2)); [ring|rewrite T; ring].
  - transitivity (h * s * (c ^ 2 + s ^ 2)); [ring|rewrite T; ring].
Qed.
Theorem retarder_slow : forall theta delta, mvec (j_retarder theta delta) (j_linear (theta + 90)) = jscale (cis (radians delta / 2)) (j_linear (theta + 90)).
Proof.
  intros t d. rewrite linear_state. unfold state. rewrite radians_0, radians_plus, radians_90. unfold j_retarder. cbv zeta.
  replace (cis (radians d / 2)) with (cmult (cis (- radians d / 2)) (cis (radians d))) by (rewrite <- cis_plus; f_equal; field).
  generalize (cis (- radians d / 2)). intros [g h]. unf. rewrite sin_0, cos_0, cos_plus, sin_plus, cos_PI2, sin_PI2.
  pose proof (sc (radians t)) as T. set (c := cos (radians t)) in *. set (s := sin (radians t)) in *. set (x := cos (radians d)) in *. set (y := sin (radians d)) in *.
  apply jv_eq; apply cpx_eq; cbn [re im fst snd].
  - transitivity (- s * (g * x - h * y) * (c ^ 2 + s ^ 2)); [ring|rewrite T; ring].
  - transitivity (- s * (g * y + h * x) * (c ^ 2 + s ^ 2)); [ring|rewrite T; ring].
  - transitivity (c * (g * x - h * y) * (c ^ 2 + s ^ 2)); [ring|rewrite T; ring].
  - transitivity (c * (g * y + h * x) * (c ^ 2 + s ^ 2)); [ring|rewrite T; ring].
Qed.
(** A matrix is known from two perpendicular fields. *)
Lemma mvec_basis a b t : mvec a (j_linear t) = mvec b (j_linear t) -> mvec a (j_linear (t + 90)) = mvec b (j_linear (t + 90)) -> a = b.
Proof.
  unfold j_linear. cbv zeta. rewrite radians_plus, radians_90, cos_plus, sin_plus, cos_PI2, sin_PI2.
  pose proof (sc (radians t)) as T. set (c := cos (radians t)) in *. set (s := sin (radians t)) in *.
  destruct a as [[a1 a2] [a3 a4] [a5 a6] [a7 a8]], b as [[b1 b2] [b3 b4] [b5 b6] [b7 b8]]. unf. intros H K.
  injection H as H1 H2 H3 H4. injection K as K1 K2 K3 K4.
  assert (E : forall x y x' y', x * c + y * s = x' * c + y' * s -> - x * s + y * c = - x' * s + y' * c -> x = x' /\ y = y').
  { intros x y x' y' P Q. split.
    - transitivity (c * (x * c + y * s) - s * (- x * s + y * c)); [transitivity (x * (c ^ 2 + s ^ 2)); [rewrite T; ring|ring]|]. rewrite P, Q. transitivity (x' * (c ^ 2 + s ^ 2)); [ring|rewrite T; ring].
    - transitivity (s * (x * c + y * s) + c * (- x * s + y * c)); [transitivity (y * (c ^ 2 + s ^ 2)); [rewrite T; ring|ring]|]. rewrite P, Q. transitivity (y' * (c ^ 2 + s ^ 2)); [ring|rewrite T; ring]. }
  destruct (E a1 a3 b1 b3) as [-> ->]; [lra|lra|]. destruct (E a2 a4 b2 b4) as [-> ->]; [lra|lra|].
  destruct (E a5 a7 b5 b7) as [-> ->]; [lra|lra|]. destruct (E a6 a8 b6 b8) as [-> ->]; [lra|lra|]. reflexivity.
Qed.
Lemma mvec_mmul a b v : mvec (mmul a b) v = mvec a (mvec b v).
Proof.
  destruct a as [[a1 a2] [a3 a4] [a5 a6] [a7 a8]], b as [[b1 b2] [b3 b4] [b5 b6] [b7 b8]], v as [[x y] [z w]]. unf.
  apply jv_eq; apply cpx_eq; cbn [re im fst snd]; ring.
Qed.
Lemma mvec_jscale a z v : mvec a (jscale z v) = jscale z (mvec a v).
Proof. destruct a as [[a1 a2] [a3 a4] [a5 a6] [a7 a8]], z as [g h], v as [[x y] [e w]]. unf. apply jv_eq; apply cpx_eq; cbn [re im fst snd]; ring. Qed.
Lemma jscale_jscale y z v : jscale y (jscale z v) = jscale (cmult y z) v.
Proof. destruct y as [a b], z as [g h], v as [[x t] [e w]]. unf. apply jv_eq; apply cpx_eq; cbn [re im fst snd]; ring. Qed.
Theorem retarders_add : forall theta a b, mmul (j_retarder theta a) (j_retarder theta b) = j_retarder theta (a + b).
Proof.
  intros t a b. apply (mvec_basis _ _ t); rewrite mvec_mmul; rewrite ?retarder_fast, ?retarder_slow; rewrite mvec_jscale, ?retarder_fast, ?retarder_slow, jscale_jscale, <- cis_plus; do 2 f_equal; rewrite radians_plus; field.
Qed.
Lemma mvec_ident v : mvec ident v = v.
Proof. destruct v as [[x y] [z w]]. unf. apply jv_eq; apply cpx_eq; cbn [re im fst snd]; ring. Qed.
Theorem retarder_none : forall theta, j_retarder theta 0 = ident.
Proof.
  intros t. apply (mvec_basis _ _ t); rewrite ?retarder_fast, ?retarder_slow, mvec_ident, radians_0; unfold jscale, cis, cmult, re, im; cbn [fst snd].
  all: replace (- 0 / 2) with 0 by field; replace (0 / 2) with 0 by field; rewrite cos_0, sin_0; generalize (j_linear t); generalize (j_linear (t + 90)); intros [[a b] [c d]] [[e f] [g h]]; cbn [fst snd]; apply jv_eq; apply cpx_eq; cbn [re im fst snd]; ring.
Qed.
Theorem retarder_adjoint : forall theta delta, adjoint (j_retarder theta delta) = j_retarder theta (- delta).
Proof.
  intros t d. unfold j_retarder. cbv zeta. rewrite radians_neg. replace (- - radians d / 2) with (- (- radians d / 2)) by field. rewrite !cis_neg.
  generalize (cis (- radians d / 2)) (cis (radians d)). intros [g h] [x y]. set (c := cos (radians t)) in *. set (s := sin (radians t)) in *. unf.
  apply mat_eq; cbn [m00 m01 m10 m11]; apply cpx_eq; cbn [re im fst snd]; ring.
Qed.
Theorem retarder_unitary : forall theta delta, mmul (j_retarder theta delta) (adjoint (j_retarder theta delta)) = ident /\
  mmul (adjoint (j_retarder theta delta)) (j_retarder theta delta) = ident.
Proof.
  intros t d. rewrite retarder_adjoint, !retarders_add. replace (d + - d) with 0 by ring. replace (- d + d) with 0 by ring. split; apply retarder_none.
Qed.
Lemma along_adjoint a v w : along v (mvec (adjoint a) w) = along (mvec a v) w.
Proof. destruct a as [[a1 a2] [a3 a4] [a5 a6] [a7 a8]], v as [[x y] [z t]], w as [[p q] [r s]]. unf. apply cpx_eq; cbn [re im fst snd]; ring. Qed.
Lemma intensity_adjoint a v : mmul (adjoint a) a = ident -> intensity (mvec a v) = intensity v.
Proof.
  intros H. change (re (creal (intensity (mvec a v))) = re (creal (intensity v))). f_equal. transitivity (along v (mvec (mmul (adjoint a) a) v)).
  - rewrite mvec_mmul, along_adjoint, along_self. reflexivity.
  - rewrite H, mvec_ident, along_self. reflexivity.
Qed.
Theorem retarder_lossless : forall theta delta v, intensity (mvec (j_retarder theta delta) v) = intensity v.
Proof. intros t d v. apply intensity_adjoint. apply retarder_unitary. Qed.
(** A half-wave plate mirrors a linear polarisation about its axis. *)
Theorem half_wave : forall theta phi, mvec (s_half j_retarder theta) (j_linear phi) = jscale (cneg ci) (j_linear (2 * theta - phi)).
Proof.
  intros t p. unfold s_half, j_retarder, j_linear. cbv zeta. rewrite radians_180.
  replace (radians (2 * t - p)) with (radians t + (radians t - radians p)) by (unfold radians; field).
  unfold cis. replace (- PI / 2) with (- (PI / 2)) by field. rewrite cos_neg, sin_neg, cos_PI2, sin_PI2, cos_PI, sin_PI, cos_plus, sin_plus, cos_minus, sin_minus.
  set (c := cos (radians t)). set (s := sin (radians t)). unf. apply jv_eq; apply cpx_eq; cbn [re im fst snd]; ring.
Qed.
(** A quarter-wave plate at 45 degrees of a linear polarisation makes it circular. *)
Theorem quarter_wave :
  mvec (s_quarter j_retarder 45) (horizontal j_linear) = right_circular j_circular /\
  mvec (s_quarter j_retarder (- (45))) (horizontal j_linear) = left_circular j_circular.
Proof.
  unfold s_quarter, horizontal, right_circular, left_circular. rewrite !circular_state, !linear_state. unfold j_retarder, state. cbv zeta.
  rewrite !radians_neg, radians_90, radians_45, radians_0. unfold cis.
  replace (- (PI / 2) / 2) with (- (PI / 4)) by field. rewrite !cos_neg, !sin_neg, !cos_45, !sin_45, cos_PI2, sin_PI2, cos_0, sin_0.
  pose proof d2_sq as D. unf. split; apply jv_eq; apply cpx_eq; cbn [re im fst snd].
  all: assert (H3 : d2 * d2 * d2 = / 2 * d2) by (rewrite D; ring); nra.
Qed.
(** The circular polarisers stop the circular states of the same name. *)
Theorem hands :
  mvec (s_right_circular j_elliptical) (right_circular j_circular) = (c0, c0) /\
  mvec (s_left_circular j_elliptical) (left_circular j_circular) = (c0, c0) /\
  mvec (s_right_circular j_elliptical) (left_circular j_circular) = left_circular j_circular /\
  mvec (s_left_circular j_elliptical) (right_circular j_circular) = right_circular j_circular.
Proof.
  unfold s_right_circular, s_left_circular, right_circular, left_circular. rewrite !circular_state. repeat split; try apply polariser_passes.
  all: apply polariser_stops; unfold state; rewrite radians_neg, radians_90, radians_45, cos_45, sin_45; unfold cis; rewrite ?cos_neg, ?sin_neg, cos_PI2, sin_PI2; unf; apply cpx_eq; cbn [re im fst snd]; ring.
Qed.
Lemma d2_pos : 0 < d2. Proof. unfold d2. apply Rinv_0_lt_compat. apply Rlt_sqrt2_0. Qed.
Theorem hands_refuted : ~ (mvec (s_right_circular j_elliptical) (right_circular j_circular) = right_circular j_circular).
Proof.
  destruct hands as (H & _). rewrite H. unfold right_circular. rewrite circular_state. unfold state. rewrite radians_45, cos_45. intros E.
  apply (f_equal (fun v => re (fst v))) in E. cbn in E. pose proof d2_pos. lra.
Qed.
