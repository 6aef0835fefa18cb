(** C100 to C103: Jones and Mueller matrices, Jones and Stokes vectors. *)
From Coq Require Import Reals Bool List Arith Lia Lra.
From Verif Require Import Base M_Polar M_Beam P_Beam M_Jones P_Jones P_Jones2 P_Jones3 P_Jones4.
Import ListNotations.
Open Scope list_scope.
Open Scope R_scope.

(** * C100: Jones and Stokes vectors *)
Theorem C100_stokes : forall v s, j_to_stokes v = s <-> is_stokes v s.
Proof. exact to_stokes_field. Qed.
Print Assumptions C100_stokes.
Theorem C100_pure : forall v, 0 <= sI (j_to_stokes v) /\ sI (j_to_stokes v) = intensity v /\ polarised (j_to_stokes v) = sI (j_to_stokes v).
Proof. exact to_stokes_pure. Qed.
Print Assumptions C100_pure.
Theorem C100_phase : forall z v, unit_phase z -> j_to_stokes (jscale z v) = j_to_stokes v.
Proof. exact to_stokes_phase. Qed.
Print Assumptions C100_phase.
Theorem C100_linear : forall a, j_to_stokes (j_linear a) = mkStokes 1 (cos (2 * radians a)) (sin (2 * radians a)) 0.
Proof. exact linear_stokes. Qed.
Print Assumptions C100_linear.
Theorem C100_circular : forall a, j_to_stokes (j_circular a) = mkStokes 1 0 (cos (radians a)) (sin (radians a)).
Proof. exact circular_stokes. Qed.
Print Assumptions C100_circular.
Theorem C100_named :
  j_to_stokes (horizontal j_linear) = mkStokes 1 1 0 0 /\ j_to_stokes (vertical j_linear) = mkStokes 1 (-1) 0 0 /\
  j_to_stokes (diagonal j_linear) = mkStokes 1 0 1 0 /\ j_to_stokes (anti_diagonal j_linear) = mkStokes 1 0 (-1) 0 /\
  j_to_stokes (left_circular j_circular) = mkStokes 1 0 0 1 /\ j_to_stokes (right_circular j_circular) = mkStokes 1 0 0 (-1).
Proof. exact named_states. Qed.
Print Assumptions C100_named.
Theorem C100_circular_only : forall a, (sU (j_to_stokes (j_circular a)) = 0 <-> cos (radians a) = 0) /\
  j_circular 0 = j_linear 45.
Proof. exact circular_only. Qed.
Print Assumptions C100_circular_only.
Theorem C100_stokes_named_refuted : forall a, s_lin a = Err ENotImplementedError /\ s_circ a = Err ENotImplementedError /\
  horizontal s_lin = Err ENotImplementedError /\ vertical s_lin = Err ENotImplementedError /\
  diagonal s_lin = Err ENotImplementedError /\ anti_diagonal s_lin = Err ENotImplementedError /\
  left_circular s_circ = Err ENotImplementedError /\ right_circular s_circ = Err ENotImplementedError.
Proof. exact stokes_named. Qed.
Print Assumptions C100_stokes_named_refuted.
Theorem C100_elliptical : forall psi chi, polarised (s_elliptical psi chi) = 1 /\ sI (s_elliptical psi chi) = 1.
Proof. exact elliptical_pure. Qed.
Print Assumptions C100_elliptical.
Theorem C100_unpolarised : forall s, s_to_jones s = None <-> sQ s = 0 /\ sU s = 0 /\ sV s = 0.
Proof. exact to_jones_none. Qed.
Print Assumptions C100_unpolarised.
Theorem C100_polarised_part : forall s v, s_to_jones s = Some v -> j_to_stokes v = mkStokes (polarised s) (sQ s) (sU s) (sV s).
Proof. exact to_jones_stokes. Qed.
Print Assumptions C100_polarised_part.
Theorem C100_stokes_again : forall s, polarised s = sI s -> 0 < sI s -> exists v, s_to_jones s = Some v /\ j_to_stokes v = s.
Proof. exact pure_again. Qed.
Print Assumptions C100_stokes_again.
Theorem C100_jones_again : forall v, intensity v <> 0 -> exists z, unit_phase z /\ s_to_jones (j_to_stokes v) = Some (jscale z v).
Proof. exact jones_again. Qed.
Print Assumptions C100_jones_again.

Example C100_ex : s_to_jones (mkStokes 2 1 0 0) = Some (c1, c0) /\ polarised (mkStokes 2 1 0 0) = 1 /\
  s_to_jones (mkStokes 2 (-1) 0 0) = Some (c0, c1) /\ intensity (c1, ci) <> 0 /\ unit_phase ci.
Proof.
  assert (P : forall q, q ^ 2 = 1 -> sqrt (q ^ 2 + 0 ^ 2 + 0 ^ 2) = 1). { intros q E. rewrite E. replace (1 + 0 ^ 2 + 0 ^ 2) with 1 by ring. apply sqrt_1. }
  unfold s_to_jones, polarised. cbn [sQ sU sV]. rewrite !P by ring. unfold rdiv. destruct (Req_EM_T 1 0) as [E|E]; [lra|].
  split; [|split; [reflexivity|split; [|split; [unfold intensity, power, c1, ci; cbn; lra|unfold unit_phase, power, ci; cbn; ring]]]].
  - replace ((1 + 1 / 1) / 2) with 1 by field. rewrite sqrt_1. destruct (Req_EM_T 1 0) as [F|F]; [lra|]. unfold c1, c0, creal, cscale. cbn [re im fst snd]. repeat f_equal; field.
  - replace ((1 + -1 / 1) / 2) with 0 by field. rewrite sqrt_0, sqrt_1. destruct (Req_EM_T 0 0) as [F|F]; [|now elim F]. unfold c1, c0, creal, cscale. cbn [re im fst snd]. repeat f_equal; ring.
Qed.

(** * C101: polarisers and retarders *)
Theorem C101_output : forall theta delta v,
  mvec (j_elliptical theta delta) v = jscale (along (state theta delta) v) (state theta delta).
Proof. exact polariser_output. Qed.
Print Assumptions C101_output.
Theorem C101_passes : forall theta delta, mvec (j_elliptical theta delta) (state theta delta) = state theta delta.
Proof. exact polariser_passes. Qed.
Print Assumptions C101_passes.
Theorem C101_stops : forall theta delta v, along (state theta delta) v = c0 -> mvec (j_elliptical theta delta) v = (c0, c0).
Proof. exact polariser_stops. Qed.
Print Assumptions C101_stops.
Theorem C101_twice : forall theta delta, mmul (j_elliptical theta delta) (j_elliptical theta delta) = j_elliptical theta delta.
Proof. exact polariser_twice. Qed.
Print Assumptions C101_twice.
Theorem C101_hermitian : forall theta delta, adjoint (j_elliptical theta delta) = j_elliptical theta delta.
Proof. exact polariser_hermitian. Qed.
Print Assumptions C101_hermitian.
Theorem C101_malus : forall theta phi, intensity (mvec (s_linear j_elliptical theta) (j_linear phi)) = cos (radians (theta - phi)) ^ 2.
Proof. exact malus. Qed.
Print Assumptions C101_malus.
Theorem C101_pair : forall theta delta v,
  intensity (mvec (j_elliptical theta delta) v) + intensity (mvec (j_elliptical (theta + 90) delta) v) = intensity v.
Proof. exact polariser_pair. Qed.
Print Assumptions C101_pair.
Theorem C101_fast : forall theta delta, mvec (j_retarder theta delta) (j_linear theta) = jscale (cis (- radians delta / 2)) (j_linear theta).
Proof. exact retarder_fast. Qed.
Print Assumptions C101_fast.
Theorem C101_slow : forall theta delta, mvec (j_retarder theta delta) (j_linear (theta + 90)) = jscale (cis (radians delta / 2)) (j_linear (theta + 90)).
Proof. exact retarder_slow. Qed.
Print Assumptions C101_slow.
Theorem C101_add : forall theta a b, mmul (j_retarder theta a) (j_retarder theta b) = j_retarder theta (a + b).
Proof. exact retarders_add. Qed.
Print Assumptions C101_add.
Theorem C101_none : forall theta, j_retarder theta 0 = ident.
Proof. exact retarder_none. Qed.
Print Assumptions C101_none.
Theorem C101_adjoint : forall theta delta, adjoint (j_retarder theta delta) = j_retarder theta (- delta).
Proof. exact retarder_adjoint. Qed.
Print Assumptions C101_adjoint.
Theorem C101_unitary : forall theta delta, mmul (j_retarder theta delta) (adjoint (j_retarder theta delta)) = ident /\
  mmul (adjoint (j_retarder theta delta)) (j_retarder theta delta) = ident.
Proof. exact retarder_unitary. Qed.
Print Assumptions C101_unitary.
Theorem C101_lossless : forall theta delta v, intensity (mvec (j_retarder theta delta) v) = intensity v.
Proof. exact retarder_lossless. Qed.
Print Assumptions C101_lossless.
Theorem C101_half_wave : forall theta phi, mvec (s_half j_retarder theta) (j_linear phi) = jscale (cneg ci) (j_linear (2 * theta - phi)).
Proof. exact half_wave. Qed.
Print Assumptions C101_half_wave.
Theorem C101_quarter_wave :
  mvec (s_quarter j_retarder 45) (horizontal j_linear) = right_circular j_circular /\
  mvec (s_quarter j_retarder (- (45))) (horizontal j_linear) = left_circular j_circular.
Proof. exact quarter_wave. Qed.
Print Assumptions C101_quarter_wave.
Theorem C101_hands :
  mvec (s_right_circular j_elliptical) (right_circular j_circular) = (c0, c0) /\
  mvec (s_left_circular j_elliptical) (left_circular j_circular) = (c0, c0) /\
  mvec (s_right_circular j_elliptical) (left_circular j_circular) = left_circular j_circular /\
  mvec (s_left_circular j_elliptical) (right_circular j_circular) = right_circular j_circular.
Proof. exact hands. Qed.
Print Assumptions C101_hands.
Theorem C101_hands_refuted : ~ (mvec (s_right_circular j_elliptical) (right_circular j_circular) = right_circular j_circular).
Proof. exact hands_refuted. Qed.
Print Assumptions C101_hands_refuted.

Example C101_ex : along (state 0 0) (vertical j_linear) = c0 /\
  mvec (s_linear j_elliptical 0) (vertical j_linear) = (c0, c0) /\
  intensity (mvec (s_linear j_elliptical 45) (horizontal j_linear)) = / 2.
Proof.
  assert (A : along (state 0 0) (vertical j_linear) = c0).
  { unfold vertical, j_linear, state. cbv zeta. rewrite radians_0, radians_90, cos_0, sin_0, cos_PI2, sin_PI2. unf. apply cpx_eq; cbn [re im fst snd]; ring. }
  split; [exact A|]. split; [exact (polariser_stops 0 0 _ A)|].
  unfold horizontal. rewrite malus. replace (45 - 0) with 45 by ring. rewrite radians_45, cos_45. rewrite <- d2_sq. ring.
Qed.

(** * C102: from Jones to Mueller *)
Theorem C102_inverse : forall i j, (i < 4)%nat -> (j < 4)%nat ->
  mm4 unitary_matrix unitary_matrix_inv i j = (if Nat.eqb i j then c1 else c0) /\
  mm4 unitary_matrix_inv unitary_matrix i j = (if Nat.eqb i j then c1 else c0).
Proof. exact unitary_inverse. Qed.
Print Assumptions C102_inverse.
Theorem C102_total : forall a, exists m, to_mueller a = Ok m.
Proof. exact mueller_total. Qed.
Print Assumptions C102_total.
Theorem C102_real_only : forall a : mat4,
  ((forall i j, (i < 4)%nat -> (j < 4)%nat -> im (a i j) = 0%R) -> exists m, mueller_new a = Ok m /\ forall i j, m i j = re (a i j)) /\
  (forall i j, (i < 4)%nat -> (j < 4)%nat -> im (a i j) <> 0%R -> mueller_new a = Err EValueError).
Proof. exact mueller_new_spec. Qed.
Print Assumptions C102_real_only.
Example C102_real_only_ex : mueller_new (fun i j => (0, if Nat.eqb i j then 1 else 0)) = Err EValueError.
Proof. apply (proj2 (C102_real_only _) 0%nat 0%nat); [repeat constructor|repeat constructor|cbn; lra]. Qed.
Theorem C102_stokes : forall a m v, to_mueller a = Ok m -> smul m (j_to_stokes v) = j_to_stokes (mvec a v).
Proof. exact mueller_stokes. Qed.
Print Assumptions C102_stokes.
Theorem C102_unique : forall a m m', to_mueller a = Ok m -> (forall v, smul m' (j_to_stokes v) = j_to_stokes (mvec a v)) -> same4 m' m.
Proof. exact mueller_unique. Qed.
Print Assumptions C102_unique.
Theorem C102_product : forall a b m n p, to_mueller a = Ok m -> to_mueller b = Ok n -> to_mueller (mmul a b) = Ok p -> same4 p (rmm m n).
Proof. exact mueller_product. Qed.
Print Assumptions C102_product.
Theorem C102_phase : forall z a m n, unit_phase z -> to_mueller a = Ok m -> to_mueller (mscale z a) = Ok n -> same4 n m.
Proof. exact mueller_phase. Qed.
Print Assumptions C102_phase.
Theorem C102_ident : forall m, to_mueller ident = Ok m -> same4 m (fun i j => if Nat.eqb i j then 1 else 0).
Proof. exact mueller_ident. Qed.
Print Assumptions C102_ident.
Theorem C102_axes : forall lead j, (length lead <= 2)%nat -> exists m, to_mueller_nd lead j = Ok m /\ forall p, to_mueller (j p) = Ok (m p).
Proof. exact mueller_axes. Qed.
Print Assumptions C102_axes.
Theorem C102_axes_refused : forall lead j, (2 < length lead)%nat -> to_mueller_nd lead j = Err EUnboundLocalError.
Proof. exact mueller_axes_refused. Qed.
Print Assumptions C102_axes_refused.
Theorem C102_elliptical : forall theta delta m, to_mueller (j_elliptical theta delta) = Ok m -> same4 m (m_elliptical theta delta).
Proof. exact mueller_elliptical. Qed.
Print Assumptions C102_elliptical.
Theorem C102_retarder : forall theta delta m, to_mueller (j_retarder theta delta) = Ok m -> same4 m (m_retarder theta (- delta)).
Proof. exact mueller_retarder. Qed.
Print Assumptions C102_retarder.
Theorem C102_retarder_refuted : ~ (forall theta delta m, to_mueller (j_retarder theta delta) = Ok m -> same4 m (m_retarder theta delta)).
Proof. exact retarder_sense_refuted. Qed.
Print Assumptions C102_retarder_refuted.
Theorem C102_half_wave : forall theta m, to_mueller (s_half j_retarder theta) = Ok m -> same4 m (s_half m_retarder theta).
Proof. exact half_wave_agrees. Qed.
Print Assumptions C102_half_wave.

Example C102_ex : exists m, to_mueller (s_linear j_elliptical 0) = Ok m /\ m 0%nat 0%nat = / 2 /\ m 1%nat 0%nat = / 2 /\ m 2%nat 2%nat = 0.
Proof.
  destruct (mueller_total (s_linear j_elliptical 0)) as [m E]. exists m. split; [exact E|].
  rewrite !(mueller_elliptical 0 0 m E) by lia. unfold m_elliptical, m_rows, half. cbn [nth]. rewrite radians_0, Rmult_0_r, cos_0, sin_0. repeat split; field.
Qed.

(** * C103: from Mueller to Jones, [to_hermitian] *)
Theorem C103_moduli : forall a m, to_mueller a = Ok m -> exists b, m_to_jones m = Some b /\
  power (m00 b) = power (m00 a) /\ power (m01 b) = power (m01 a) /\ power (m10 b) = power (m10 a) /\ power (m11 b) = power (m11 a).
Proof. exact to_jones_moduli. Qed.
Print Assumptions C103_moduli.
Theorem C103_again : forall a m, to_mueller a = Ok m -> m00 a <> c0 -> exists z, unit_phase z /\ m_to_jones m = Some (mscale z a) /\
  cmult z (m00 a) = creal (cabs (m00 a)).
Proof. exact to_jones_again. Qed.
Print Assumptions C103_again.
Theorem C103_mueller_again : forall a m b n, to_mueller a = Ok m -> m00 a <> c0 -> m_to_jones m = Some b -> to_mueller b = Ok n -> same4 n m.
Proof. exact mueller_again. Qed.
Print Assumptions C103_mueller_again.
Theorem C103_zero_refuted : exists a m b n, to_mueller a = Ok m /\ m_to_jones m = Some b /\ to_mueller b = Ok n /\ ~ same4 n m.
Proof. exact to_jones_zero_refuted. Qed.
Print Assumptions C103_zero_refuted.
Theorem C103_depolariser_refuted : exists b n, m_to_jones depolariser = Some b /\ to_mueller b = Ok n /\ n 0%nat 2%nat = 1 /\ depolariser 0%nat 2%nat = 0.
Proof. exact depolariser_refuted. Qed.
Print Assumptions C103_depolariser_refuted.
Theorem C103_none : forall m, m_to_jones m = None <->
  m 0%nat 0%nat + m 0%nat 1%nat + m 1%nat 0%nat + m 1%nat 1%nat < 0 \/ m 0%nat 0%nat - m 0%nat 1%nat + m 1%nat 0%nat - m 1%nat 1%nat < 0 \/
  m 0%nat 0%nat + m 0%nat 1%nat - m 1%nat 0%nat - m 1%nat 1%nat < 0 \/ m 0%nat 0%nat - m 0%nat 1%nat - m 1%nat 0%nat + m 1%nat 1%nat < 0.
Proof. exact to_jones_none_iff. Qed.
Print Assumptions C103_none.
Theorem C103_hermitian : forall m a b, (a < 4)%nat -> (b < 4)%nat -> to_hermitian m b a = cconj (to_hermitian m a b).
Proof. exact hermitian_symmetric. Qed.
Print Assumptions C103_hermitian.
Theorem C103_trace : forall m, sum4 (fun k => to_hermitian m k k) = creal (m 0%nat 0%nat).
Proof. exact hermitian_trace. Qed.
Print Assumptions C103_trace.
Theorem C103_pure : forall j m a b, to_mueller j = Ok m -> (a < 4)%nat -> (b < 4)%nat ->
  to_hermitian m a b = cscale (1 / 4) (cmult (jones_state j a) (cconj (jones_state j b))).
Proof. exact hermitian_pure. Qed.
Print Assumptions C103_pure.
Theorem C103_injective : forall m n, (forall a b, (a < 4)%nat -> (b < 4)%nat -> to_hermitian m a b = to_hermitian n a b) -> same4 m n.
Proof. exact hermitian_injective. Qed.
Print Assumptions C103_injective.

Example C103_ex : (exists m, to_mueller (mkMat ci c1 c0 c1) = Ok m) /\ m00 (mkMat ci c1 c0 c1) <> c0 /\
  m_to_jones (fun i j => match i, j with O, 1%nat => 2 | _, _ => 0 end) = None.
Proof.
  split; [apply mueller_total|]. split.
  - cbn [m00]. unfold ci, c0. intros E. apply (f_equal snd) in E. cbn in E. lra.
  - apply to_jones_none_iff. right; left. lra.
Qed.
