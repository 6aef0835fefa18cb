(** Proofs about Jones and Mueller matrices (M_Jones.v). *)
From Coq Require Import Reals Bool List Arith Lia Lra Psatz.
From Verif Require Import Base M_Polar M_Beam P_Beam P_Beam2 M_Jones.
Import ListNotations.
Open Scope list_scope.
Open Scope R_scope.

(** ** Specification *)
(** The power of a field transmitted by an ideal analyser of the state (a, b). *)
Definition analysed (a b : cpx) (v : jvec) : R := power (cplus (cmult (cconj a) (fst v)) (cmult (cconj b) (snd v))).
Definition d2 : R := / sqrt 2.
(** The Stokes parameters of a field: total power, and differences of the powers behind
    horizontal and vertical, diagonal and anti-diagonal, and the two circular analysers. *)
Definition is_stokes (v : jvec) (s : stokes) : Prop :=
  sI s = analysed c1 c0 v + analysed c0 c1 v /\
  sQ s = analysed c1 c0 v - analysed c0 c1 v /\
  sU s = analysed (d2, 0) (d2, 0) v - analysed (d2, 0) (- d2, 0) v /\
  sV s = analysed (d2, 0) (0, d2) v - analysed (d2, 0) (0, - d2) v.
Definition intensity (v : jvec) : R := power (fst v) + power (snd v).
Definition jscale (z : cpx) (v : jvec) : jvec := (cmult z (fst v), cmult z (snd v)).
Definition unit_phase (z : cpx) : Prop := power z = 1.
Definition ident : mat := mkMat c1 c0 c0 c1.
Definition adjoint (a : mat) : mat := mtrans (mconj a).
(** Product of Mueller matrices. *)
Definition rmm (a b : rmat4) : rmat4 := fun i j =>
  a i 0%nat * b 0%nat j + a i 1%nat * b 1%nat j + a i 2%nat * b 2%nat j + a i 3%nat * b 3%nat j.
Definition same4 (a b : rmat4) : Prop := forall i j, (i < 4)%nat -> (j < 4)%nat -> a i j = b i j.
Definition polarised (s : stokes) : R := sqrt (sQ s ^ 2 + sU s ^ 2 + sV s ^ 2).
(** The state of a polariser or of a pure field. *)
Definition state (theta delta : R) : jvec := (creal (cos (radians theta)), cscale (sin (radians theta)) (cis (radians delta))).

Lemma jv_eq (a b : jvec) : fst a = fst b -> snd a = snd b -> a = b.
Proof. destruct a, b. cbn. intros -> ->. reflexivity. Qed.

(** ** The Stokes parameters of a field *)
Lemma d2_sq : d2 * d2 = / 2.
Proof. unfold d2. rewrite <- Rinv_mult, sqrt_sqrt by lra. reflexivity. Qed.
Definition stokes_poly (v : jvec) : stokes :=
  let '((a, b), (c, d)) := v in
  mkStokes (a ^ 2 + b ^ 2 + (c ^ 2 + d ^ 2)) (a ^ 2 + b ^ 2 - (c ^ 2 + d ^ 2)) (2 * (a * c + b * d)) (2 * (a * d - b * c)).
Lemma stokes_ext s t : sI s = sI t -> sQ s = sQ t -> sU s = sU t -> sV s = sV t -> s = t.
Proof. destruct s, t. cbn. intros -> -> -> ->. reflexivity. Qed.
Lemma is_stokes_poly v : is_stokes v (stokes_poly v).
Proof.
  destruct v as [[a b] [c d]]. pose proof d2_sq as H. unfold is_stokes, analysed, stokes_poly, power, cplus, cmult, cconj, c1, c0, re, im. cbn [fst snd sI sQ sU sV].
  split; [ring|]. split; [ring|]. split.
  - transitivity (4 * (/ 2) * (a * c + b * d)); [field|]. rewrite <- H. ring.
  - transitivity (4 * (/ 2) * (a * d - b * c)); [field|]. rewrite <- H. ring.
Qed.
Lemma is_stokes_unique v s t : is_stokes v s -> is_stokes v t -> s = t.
Proof. intros (A & B & C & D) (A' & B' & C' & D'). apply stokes_ext; congruence. Qed.
Lemma cabs_sq z : cabs z ^ 2 = re z ^ 2 + im z ^ 2.
Proof. unfold cabs. rewrite pow2_sqrt; [reflexivity|]. nra. Qed.
Lemma to_stokes_poly v : j_to_stokes v = stokes_poly v.
Proof.
  destruct v as [[a b] [c d]]. unfold j_to_stokes, stokes_poly. cbn [fst snd]. rewrite !cabs_sq. cbn [re im fst snd].
  destruct (arctan2_polar b a) as [A B]. destruct (arctan2_polar d c) as [C D].
  unfold cangle, cabs. cbn [re im fst snd]. rewrite cos_minus, sin_minus.
  set (x := sqrt (a ^ 2 + b ^ 2)) in *. set (y := sqrt (c ^ 2 + d ^ 2)) in *. set (p := arctan2 b a) in *. set (q := arctan2 d c) in *.
  f_equal.
  - transitivity (2 * ((x * cos p) * (y * cos q) + (x * sin p) * (y * sin q))); [ring|]. now rewrite A, B, C, D.
  - transitivity (2 * ((x * cos p) * (y * sin q) - (x * sin p) * (y * cos q))); [ring|]. now rewrite A, B, C, D.
Qed.
Theorem to_stokes_field : forall v s, j_to_stokes v = s <-> is_stokes v s.
Proof.
  intros v s. rewrite to_stokes_poly. split; [intros <-; apply is_stokes_poly|]. intros H. eapply is_stokes_unique; [apply is_stokes_poly|exact H].
Qed.
Theorem to_stokes_pure : forall v, 0 <= sI (j_to_stokes v) /\ sI (j_to_stokes v) = intensity v /\ polarised (j_to_stokes v) = sI (j_to_stokes v).
Proof.
  intros v. rewrite to_stokes_poly. destruct v as [[a b] [c d]]. unfold polarised, intensity, power. cbn [stokes_poly sI sQ sU sV fst snd re im].
  split; [nra|]. split; [ring|]. rewrite <- (sqrt_pow2 (a ^ 2 + b ^ 2 + (c ^ 2 + d ^ 2))) by nra. f_equal. ring.
Qed.
Lemma power_1 z : power z = 1 -> re z * re z = 1 - im z * im z.
Proof. unfold power. intros H. lra. Qed.
Theorem to_stokes_phase : forall z v, unit_phase z -> j_to_stokes (jscale z v) = j_to_stokes v.
Proof.
  intros [x y] [[a b] [c d]] H. rewrite !to_stokes_poly. unfold unit_phase, power in H. cbn [re im fst snd] in H.
  unfold stokes_poly, jscale, cmult, re, im. cbn [fst snd]. f_equal.
  - transitivity ((x ^ 2 + y ^ 2) * (a ^ 2 + b ^ 2 + (c ^ 2 + d ^ 2))); [ring|rewrite H; ring].
  - transitivity ((x ^ 2 + y ^ 2) * (a ^ 2 + b ^ 2 - (c ^ 2 + d ^ 2))); [ring|rewrite H; ring].
  - transitivity ((x ^ 2 + y ^ 2) * (2 * (a * c + b * d))); [ring|rewrite H; ring].
  - transitivity ((x ^ 2 + y ^ 2) * (2 * (a * d - b * c))); [ring|rewrite H; ring].
Qed.

(** ** The constructors of vectors *)
Lemma radians_0 : radians 0 = 0. Proof. unfold radians. field. Qed.
Lemma radians_90 : radians 90 = PI / 2. Proof. unfold radians. field. Qed.
Lemma radians_45 : radians 45 = PI / 4. Proof. unfold radians. field. Qed.
Lemma radians_180 : radians 180 = PI. Proof. unfold radians. field. Qed.
Lemma radians_neg x : radians (- x) = - radians x. Proof. unfold radians. field. Qed.
Lemma radians_plus x y : radians (x + y) = radians x + radians y. Proof. unfold radians. field. Qed.
Lemma radians_2 x : radians (2 * x) = 2 * radians x. Proof. unfold radians. field. Qed.
Theorem linear_state : forall a, j_linear a = state a 0.
Proof.
  intros a. unfold j_linear, state. rewrite radians_0. apply jv_eq; apply cpx_eq; unfold cscale, cis, creal; cbn [re im fst snd]; rewrite ?cos_0, ?sin_0; ring.
Qed.
Lemma norm_circular a : sqrt (power (cis (radians 0)) + power (cis (radians a))) = sqrt 2.
Proof. rewrite !power_cis. now f_equal. Qed.
Lemma cos_45 : cos (PI / 4) = d2. Proof. rewrite cos_PI4. unfold d2. field. apply sqrt2_neq_0. Qed.
Lemma sin_45 : sin (PI / 4) = d2. Proof. rewrite sin_PI4. unfold d2. field. apply sqrt2_neq_0. Qed.
Theorem circular_state : forall a, j_circular a = state 45 a.
Proof.
  intros a. unfold j_circular, state. rewrite norm_circular, radians_45, cos_45, sin_45, radians_0. fold d2.
  apply jv_eq; apply cpx_eq; unfold cscale, cis, creal; cbn [re im fst snd]; rewrite ?cos_0, ?sin_0; ring.
Qed.
Lemma sc t : sin t ^ 2 = 1 - cos t ^ 2.
Proof. pose proof (sin2_cos2 t) as H. unfold Rsqr in H. lra. Qed.
Theorem state_stokes : forall theta delta, j_to_stokes (state theta delta) =
  mkStokes 1 (cos (2 * radians theta)) (sin (2 * radians theta) * cos (radians delta)) (sin (2 * radians theta) * sin (radians delta)).
Proof.
  intros t d. rewrite to_stokes_poly. unfold state, creal, cscale, cis, stokes_poly. cbn [re im fst snd].
  rewrite cos_2a, sin_2a. pose proof (sc (radians t)) as T. pose proof (sc (radians d)) as D.
  set (c := cos (radians t)) in *. set (s := sin (radians t)) in *. set (x := cos (radians d)) in *. set (y := sin (radians d)) in *.
  f_equal.
  - transitivity (c ^ 2 + s ^ 2 * (x ^ 2 + y ^ 2)); [ring|]. rewrite D, T. ring.
  - transitivity (c ^ 2 - s ^ 2 * (x ^ 2 + y ^ 2)); [ring|]. rewrite D, T. transitivity (c * c - (1 - c ^ 2)); [ring|]. rewrite <- T. ring.
  - ring.
  - ring.
Qed.
Theorem linear_stokes : forall a, j_to_stokes (j_linear a) = mkStokes 1 (cos (2 * radians a)) (sin (2 * radians a)) 0.
Proof. intros a. rewrite linear_state, state_stokes, radians_0, cos_0, sin_0. f_equal; ring. Qed.
Theorem circular_stokes : forall a, j_to_stokes (j_circular a) = mkStokes 1 0 (cos (radians a)) (sin (radians a)).
Proof.
  intros a. rewrite circular_state, state_stokes, radians_45. replace (2 * (PI / 4)) with (PI / 2) by field. rewrite cos_PI2, sin_PI2. f_equal; ring.
Qed.
(** The six named states. *)
Theorem named_states :
  j_to_stokes (horizontal j_linear) = mkStokes 1 1 0 0 /\ j_to_stokes (vertical j_linear) = mkStokes 1 (-1) 0 0 /\
  j_to_stokes (diagonal j_linear) = mkStokes 1 0 1 0 /\ j_to_stokes (anti_diagonal j_linear) = mkStokes 1 0 (-1) 0 /\
  j_to_stokes (left_circular j_circular) = mkStokes 1 0 0 1 /\ j_to_stokes (right_circular j_circular) = mkStokes 1 0 0 (-1).
Proof.
  unfold horizontal, vertical, diagonal, anti_diagonal, left_circular, right_circular. rewrite !linear_stokes, !circular_stokes, !radians_neg, radians_0, radians_90, radians_45.
  replace (2 * (PI / 2)) with PI by field. replace (2 * - (PI / 4)) with (- (PI / 2)) by field. replace (2 * (PI / 4)) with (PI / 2) by field. rewrite Rmult_0_r.
  rewrite cos_0, sin_0, cos_PI, sin_PI, !cos_neg, !sin_neg, cos_PI2, sin_PI2. repeat split; f_equal; ring.
Qed.
(** [circular(angle)] is circular at a quarter of a turn only. *)
Theorem circular_only : forall a, (sU (j_to_stokes (j_circular a)) = 0 <-> cos (radians a) = 0) /\
  j_circular 0 = j_linear 45.
Proof.
  intros a. split; [rewrite circular_stokes; cbn [sU]; tauto|]. rewrite circular_state, linear_state. reflexivity.
Qed.
(** The same constructors of [StokesVector] raise. *)
Theorem stokes_named : forall a, s_lin a = Err ENotImplementedError /\ s_circ a = Err ENotImplementedError /\
  horizontal s_lin = Err ENotImplementedError /\ vertical s_lin = Err ENotImplementedError /\
  diagonal s_lin = Err ENotImplementedError /\ anti_diagonal s_lin = Err ENotImplementedError /\
  left_circular s_circ = Err ENotImplementedError /\ right_circular s_circ = Err ENotImplementedError.
Proof. intros a. repeat split; reflexivity. Qed.
Theorem elliptical_pure : forall psi chi, polarised (s_elliptical psi chi) = 1 /\ sI (s_elliptical psi chi) = 1.
Proof.
  intros p c. split; [|reflexivity]. unfold polarised, s_elliptical. cbn [sQ sU sV]. rewrite <- sqrt_1. f_equal.
  pose proof (sc (radians (2 * p))) as P. pose proof (sc (radians (2 * c))) as C.
  set (x := cos (radians (2 * p))) in *. set (y := sin (radians (2 * p))) in *. set (z := cos (radians (2 * c))) in *. set (w := sin (radians (2 * c))) in *.
  transitivity ((x ^ 2 + y ^ 2) * z ^ 2 + w ^ 2); [ring|]. rewrite P, C. ring.
Qed.

(** ** From Stokes to Jones *)
Lemma polarised_0 s : polarised s = 0 <-> sQ s = 0 /\ sU s = 0 /\ sV s = 0.
Proof.
  unfold polarised. split.
  - intros H. apply sqrt_eq_0 in H; [|nra]. nra.
  - intros (-> & -> & ->). replace (0 ^ 2 + 0 ^ 2 + 0 ^ 2) with 0 by ring. apply sqrt_0.
Qed.
Theorem to_jones_none : forall s, s_to_jones s = None <-> sQ s = 0 /\ sU s = 0 /\ sV s = 0.
Proof.
  intros s. rewrite <- polarised_0. unfold s_to_jones. fold (polarised s). unfold rdiv. destruct (Req_EM_T (polarised s) 0) as [E|E].
  - tauto.
  - split; [discriminate|]. intros H. now elim E.
Qed.
Lemma polarised_sq s : polarised s ^ 2 = sQ s ^ 2 + sU s ^ 2 + sV s ^ 2.
Proof. unfold polarised. apply pow2_sqrt. nra. Qed.
Theorem to_jones_stokes : forall s v, s_to_jones s = Some v -> j_to_stokes v = mkStokes (polarised s) (sQ s) (sU s) (sV s).
Proof.
  intros s v. unfold s_to_jones. fold (polarised s). unfold rdiv. destruct (Req_EM_T (polarised s) 0) as [E|E]; [discriminate|].
  assert (P : 0 < polarised s). { pose proof (sqrt_pos (sQ s ^ 2 + sU s ^ 2 + sV s ^ 2)). fold (polarised s) in H. lra. }
  pose proof (polarised_sq s) as Q. set (p := polarised s) in *. clearbody p. destruct s as [I q u w]. cbn [sI sQ sU sV] in *.
  set (r := sqrt p). assert (R : r * r = p) by (apply sqrt_sqrt; lra).
  assert (B : 0 <= (1 + q / p) / 2).
  { assert (- p <= q) by nra. assert (-1 <= q / p). { apply (Rmult_le_reg_r p); [exact P|]. unfold Rdiv. rewrite Rmult_assoc, Rinv_l; lra. } lra. }
  set (a := sqrt ((1 + q / p) / 2)). assert (AA : a * a = (1 + q / p) / 2) by (apply sqrt_sqrt; exact B).
  destruct (Req_EM_T a 0) as [Z|Z]; intros H; injection H as <-; rewrite to_stokes_poly; unfold stokes_poly, creal, cscale, c1; cbn [re im fst snd].
  - assert (q = - p). { rewrite Z in AA. assert (q / p = -1) by lra. apply (f_equal (Rmult p)) in H. unfold Rdiv in H. rewrite (Rmult_comm q), <- Rmult_assoc, Rinv_r, Rmult_1_l in H by lra. lra. }
    assert (UW : u ^ 2 + w ^ 2 = 0) by nra. assert (u = 0) by nra. assert (w = 0) by nra. subst u w q. rewrite Z. f_equal; nra.
  - assert (AP : 2 * p * (a * a) = p + q) by (rewrite AA; field; lra).
    assert (UW : (u / p) ^ 2 + (w / p) ^ 2 = (2 * (a * a)) * (2 * (1 - a * a))).
    { rewrite AA. transitivity ((u ^ 2 + w ^ 2) / p ^ 2); [field; lra|]. replace (u ^ 2 + w ^ 2) with (p ^ 2 - q ^ 2) by lra. field; lra. }
    assert (N : (r * (/ (2 * a) * (u / p))) ^ 2 + (r * (/ (2 * a) * (w / p))) ^ 2 = p * (1 - a * a)).
    { transitivity ((r * r) * / (4 * (a * a)) * ((u / p) ^ 2 + (w / p) ^ 2)); [field; lra|]. rewrite UW, R. field. exact Z. }
    f_equal.
    + rewrite N. replace ((r * a) ^ 2) with ((r * r) * (a * a)) by ring. rewrite R. ring.
    + rewrite N. replace ((r * a) ^ 2) with ((r * r) * (a * a)) by ring. rewrite R. lra.
    + transitivity ((r * r) * u / p); [field; lra|]. rewrite R. field. lra.
    + transitivity ((r * r) * w / p); [field; lra|]. rewrite R. field. lra.
Qed.
Theorem pure_again : forall s, polarised s = sI s -> 0 < sI s -> exists v, s_to_jones s = Some v /\ j_to_stokes v = s.
Proof.
  intros s P I. destruct (s_to_jones s) as [v|] eqn:E.
  - exists v. split; [reflexivity|]. rewrite (to_jones_stokes _ _ E), P. now destruct s.
  - apply to_jones_none in E. apply polarised_0 in E. lra.
Qed.
Lemma same_stokes_phase v w : j_to_stokes v = j_to_stokes w -> intensity v <> 0 -> exists z, unit_phase z /\ w = jscale z v.
Proof.
  rewrite !to_stokes_poly. destruct v as [[a b] [c d]], w as [[e f] [g h]]. unfold stokes_poly, intensity, power. cbn [re im fst snd]. intros H N.
  injection H as H1 H2 H3 H4.
  assert (X : a ^ 2 + b ^ 2 = e ^ 2 + f ^ 2) by lra. assert (Y : c ^ 2 + d ^ 2 = g ^ 2 + h ^ 2) by lra.
  assert (U : a * c + b * d = e * g + f * h) by lra. assert (V : a * d - b * c = e * h - f * g) by lra.
  destruct (Req_EM_T (a ^ 2 + b ^ 2) 0) as [Z|Z].
  - assert (a = 0) by nra. assert (b = 0) by nra. assert (e = 0) by nra. assert (f = 0) by nra. subst. assert (N' : c ^ 2 + d ^ 2 <> 0) by lra.
    exists ((g * c + h * d) / (c ^ 2 + d ^ 2), (h * c - g * d) / (c ^ 2 + d ^ 2)). split.
    + unfold unit_phase, power. cbn [re im fst snd]. transitivity ((c ^ 2 + d ^ 2) * (g ^ 2 + h ^ 2) / (c ^ 2 + d ^ 2) ^ 2); [field; exact N'|]. rewrite <- Y. field. exact N'.
    + unfold jscale, cmult. cbn [re im fst snd]. apply jv_eq; apply cpx_eq; cbn [re im fst snd]; field; exact N'.
  - exists ((e * a + f * b) / (a ^ 2 + b ^ 2), (f * a - e * b) / (a ^ 2 + b ^ 2)). split.
    + unfold unit_phase, power. cbn [re im fst snd]. transitivity ((a ^ 2 + b ^ 2) * (e ^ 2 + f ^ 2) / (a ^ 2 + b ^ 2) ^ 2); [field; exact Z|]. rewrite <- X. field. exact Z.
    + unfold jscale, cmult. cbn [re im fst snd]. apply jv_eq; apply cpx_eq; cbn [re im fst snd]; [field; exact Z|field; exact Z| |].
      * apply (Rmult_eq_reg_r (a ^ 2 + b ^ 2)); [|exact Z]. transitivity (e * (a * c + b * d) - f * (a * d - b * c)); [rewrite U, V, X; ring|field; exact Z].
      * apply (Rmult_eq_reg_r (a ^ 2 + b ^ 2)); [|exact Z]. transitivity (f * (a * c + b * d) + e * (a * d - b * c)); [rewrite U, V, X; ring|field; exact Z].
Qed.
Theorem jones_again : forall v, intensity v <> 0 -> exists z, unit_phase z /\ s_to_jones (j_to_stokes v) = Some (jscale z v).
Proof.
  intros v N. destruct (to_stokes_pure v) as (A & B & C).
  destruct (pure_again (j_to_stokes v) C) as (w & E & S); [lra|].
  destruct (same_stokes_phase v w (eq_sym S) N) as (z & Z & ->). now exists z.
Qed.
