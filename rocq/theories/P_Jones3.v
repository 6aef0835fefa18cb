(** Proofs about Jones and Mueller matrices: Mueller matrices (M_Jones.v). *)
From Coq Require Import Reals Bool List Arith Lia Lra Psatz.
From Verif Require Import Base M_Polar M_Beam P_Beam P_Beam2 M_Jones P_Jones P_Jones2.
Import ListNotations.
Open Scope list_scope.
Open Scope R_scope.

Ltac four i H := destruct i as [|[|[|[|?]]]]; [| | | |exfalso; lia]; clear H.
Lemma urow (k : mat4) i j : (i < 4)%nat -> mm4 unitary_matrix k i j = match i with
  | O => cplus (k 0%nat j) (k 3%nat j) | 1%nat => cplus (k 0%nat j) (cneg (k 3%nat j))
  | 2%nat => cplus (k 1%nat j) (k 2%nat j) | _ => cmult ci (cplus (k 1%nat j) (cneg (k 2%nat j))) end.
Proof.
  intros I. unfold mm4, sum4, unitary_matrix, rows4. generalize (k 0%nat j) (k 1%nat j) (k 2%nat j) (k 3%nat j). intros [x0 y0] [x1 y1] [x2 y2] [x3 y3].
  four i I; cbn [nth]; unf; apply cpx_eq; cbn [re im fst snd]; ring.
Qed.
Lemma ucol (x : mat4) i j : (j < 4)%nat -> mm4 x unitary_matrix_inv i j = match j with
  | O => cscale half (cplus (x i 0%nat) (x i 3%nat)) | 1%nat => cscale half (cplus (x i 0%nat) (cneg (x i 3%nat)))
  | 2%nat => cscale half (cplus (x i 1%nat) (x i 2%nat)) | _ => cmult (0, half) (cplus (x i 2%nat) (cneg (x i 1%nat))) end.
Proof.
  intros J. unfold mm4, sum4, unitary_matrix_inv, rows4. generalize (x i 0%nat) (x i 1%nat) (x i 2%nat) (x i 3%nat). intros [x0 y0] [x1 y1] [x2 y2] [x3 y3].
  four j J; cbn [nth]; unf; apply cpx_eq; cbn [re im fst snd]; ring.
Qed.
Ltac unf4 := repeat rewrite ucol by (clear; lia); repeat rewrite urow by (clear; lia); unfold kron, half; cbn [Nat.div Nat.modulo Nat.divmod fst snd Nat.sub]; unf.

(** [unitary_matrix_inv] is the inverse. *)
Theorem unitary_inverse : forall i j, (i < 4)%nat -> (j < 4)%nat ->
  mm4 unitary_matrix unitary_matrix_inv i j = (if Nat.eqb i j then c1 else c0) /\
  mm4 unitary_matrix_inv unitary_matrix i j = (if Nat.eqb i j then c1 else c0).
Proof.
  intros i j I J. four i I; four j J; split; unfold mm4, sum4, unitary_matrix, unitary_matrix_inv, rows4, half; cbn [nth]; unf; apply cpx_eq; cbn [re im fst snd Nat.eqb]; field.
Qed.

(** The matrix of [to_mueller]. *)
Definition mueller_of (a : mat) : rmat4 :=
  fun i j => re (mm4 (mm4 unitary_matrix (kron a (mconj a))) unitary_matrix_inv i j).
Lemma mueller_real a i j : (i < 4)%nat -> (j < 4)%nat -> im (mm4 (mm4 unitary_matrix (kron a (mconj a))) unitary_matrix_inv i j) = 0.
Proof.
  intros I J. destruct a as [[a1 a2] [a3 a4] [a5 a6] [a7 a8]]. four i I; four j J; unf4; field.
Qed.
Lemma to_mueller_of a : to_mueller a = Ok (mueller_of a).
Proof.
  unfold to_mueller, mueller_new. replace (real4 (mm4 (mm4 unitary_matrix (kron a (mconj a))) unitary_matrix_inv)) with true; [reflexivity|].
  symmetry. unfold real4. apply forallb_forall. intros i I. apply forallb_forall. intros j J. apply in_seq in I, J.
  destruct (Req_EM_T _ 0) as [E|E]; [reflexivity|]. elim E. apply mueller_real; lia.
Qed.
Lemma mueller_acts a v : smul (mueller_of a) (j_to_stokes v) = j_to_stokes (mvec a v).
Proof.
  rewrite !to_stokes_poly. destruct a as [[a1 a2] [a3 a4] [a5 a6] [a7 a8]], v as [[x y] [z w]].
  unfold smul, mget4, mueller_of. unf4. unfold stokes_poly. cbn [sI sQ sU sV]. f_equal; field.
Qed.
Theorem mueller_total : forall a, exists m, to_mueller a = Ok m.
Proof. intros a. eexists. apply to_mueller_of. Qed.
Theorem mueller_stokes : forall a m v, to_mueller a = Ok m -> smul m (j_to_stokes v) = j_to_stokes (mvec a v).
Proof. intros a m v. rewrite to_mueller_of. intros H. injection H as <-. apply mueller_acts. Qed.
(** It is the only one that does so. *)
Lemma smul_known m m' : (forall v, smul m (j_to_stokes v) = smul m' (j_to_stokes v)) -> same4 m m'.
Proof.
  intros H i j I J. destruct named_states as (A & B & C & _ & D & _).
  pose proof (H (horizontal j_linear)) as HA. pose proof (H (vertical j_linear)) as HB. pose proof (H (diagonal j_linear)) as HC. pose proof (H (left_circular j_circular)) as HD.
  rewrite A in HA. rewrite B in HB. rewrite C in HC. rewrite D in HD. unfold smul, mget4 in *. cbn [sI sQ sU sV] in *.
  injection HA as A1 A2 A3 A4. injection HB as B1 B2 B3 B4. injection HC as C1 C2 C3 C4. injection HD as D1 D2 D3 D4.
  four i I; four j J; lra.
Qed.
Theorem mueller_unique : forall a m m', to_mueller a = Ok m -> (forall v, smul m' (j_to_stokes v) = j_to_stokes (mvec a v)) -> same4 m' m.
Proof. intros a m m' E H. apply smul_known. intros v. rewrite H. symmetry. apply (mueller_stokes _ _ _ E). Qed.
Lemma smul_rmm m n s : smul (rmm m n) s = smul m (smul n s).
Proof. unfold smul, rmm, mget4. cbn [sI sQ sU sV]. f_equal; ring. Qed.
Theorem mueller_product : forall a b m n p, to_mueller a = Ok m -> to_mueller b = Ok n -> to_mueller (mmul a b) = Ok p -> same4 p (rmm m n).
Proof.
  intros a b m n p A B P. apply smul_known. intros v. rewrite smul_rmm, (mueller_stokes _ _ _ B), (mueller_stokes _ _ _ A), (mueller_stokes _ _ _ P), mvec_mmul. reflexivity.
Qed.
Lemma mvec_mscale z a v : mvec (mscale z a) v = jscale z (mvec a v).
Proof. destruct a as [[a1 a2] [a3 a4] [a5 a6] [a7 a8]], z as [g h], v as [[x y] [e w]]. unf. apply jv_eq; apply cpx_eq; cbn [re im fst snd]; ring. Qed.
Theorem mueller_phase : forall z a m n, unit_phase z -> to_mueller a = Ok m -> to_mueller (mscale z a) = Ok n -> same4 n m.
Proof.
  intros z a m n Z A B. apply smul_known. intros v. rewrite (mueller_stokes _ _ _ B), (mueller_stokes _ _ _ A), mvec_mscale. now apply to_stokes_phase.
Qed.
Theorem mueller_ident : forall m, to_mueller ident = Ok m -> same4 m (fun i j => if Nat.eqb i j then 1 else 0).
Proof.
  intros m E. apply smul_known. intros v. rewrite (mueller_stokes _ _ _ E), mvec_ident. generalize (j_to_stokes v). intros [I Q U V]. unfold smul, mget4. cbn [Nat.eqb sI sQ sU sV]. f_equal; ring.
Qed.
Theorem mueller_axes : forall lead j, (length lead <= 2)%nat -> exists m, to_mueller_nd lead j = Ok m /\ forall p, to_mueller (j p) = Ok (m p).
Proof.
  intros lead j L. unfold to_mueller_nd. apply Nat.leb_le in L. rewrite L. eexists. split; [reflexivity|]. intros p. cbv beta. rewrite to_mueller_of. reflexivity.
Qed.
Theorem mueller_axes_refused : forall lead j, (2 < length lead)%nat -> to_mueller_nd lead j = Err EUnboundLocalError.
Proof. intros lead j L. unfold to_mueller_nd. apply Nat.leb_gt in L. now rewrite L. Qed.

(** ** The constructors of the two classes *)
Lemma smul_poly m v : smul m (j_to_stokes v) = smul m (stokes_poly v).
Proof. now rewrite to_stokes_poly. Qed.
Theorem mueller_elliptical : forall theta delta m, to_mueller (j_elliptical theta delta) = Ok m -> same4 m (m_elliptical theta delta).
Proof.
  intros t d m E. apply smul_known. intros v. rewrite (mueller_stokes _ _ _ E), polariser_output.
  assert (K : forall z w, j_to_stokes (jscale z w) = let s := j_to_stokes w in mkStokes (power z * sI s) (power z * sQ s) (power z * sU s) (power z * sV s)).
  { intros [x y] [[a b] [c e]]. rewrite !to_stokes_poly. unfold power, stokes_poly, jscale, cmult, re, im. cbn [fst snd sI sQ sU sV]. f_equal; ring. }
  rewrite K, state_stokes. cbn [sI sQ sU sV].
  assert (A : power (along (state t d) v) = half * (sI (j_to_stokes v) + cos (2 * radians t) * sQ (j_to_stokes v) + sin (2 * radians t) * cos (radians d) * sU (j_to_stokes v) + sin (2 * radians t) * sin (radians d) * sV (j_to_stokes v))).
  { rewrite to_stokes_poly. destruct v as [[a b] [c e]]. unfold state, power, half, stokes_poly. cbn [sI sQ sU sV]. rewrite cos_2a, sin_2a. pose proof (sc (radians t)) as T. pose proof (sc (radians d)) as D. unf.
    set (x := cos (radians t)) in *. set (y := sin (radians t)) in *. set (g := cos (radians d)) in *. set (h := sin (radians d)) in *.
    transitivity (x ^ 2 * (a ^ 2 + b ^ 2) + y ^ 2 * (g ^ 2 + h ^ 2) * (c ^ 2 + e ^ 2) + 2 * x * y * g * (a * c + b * e) + 2 * x * y * h * (a * e - b * c)); [ring|].
    rewrite D. transitivity (1 / 2 * ((x ^ 2 + y ^ 2) * (a ^ 2 + b ^ 2 + (c ^ 2 + e ^ 2)) + (x ^ 2 - y ^ 2) * (a ^ 2 + b ^ 2 - (c ^ 2 + e ^ 2))) + 2 * x * y * g * (a * c + b * e) + 2 * x * y * h * (a * e - b * c)); [field|].
    replace (x ^ 2 + y ^ 2) with 1 by lra. field. }
  rewrite A. generalize (j_to_stokes v). intros [I Q U V]. unfold smul, mget4, m_elliptical, m_rows. cbn [nth sI sQ sU sV]. f_equal; ring.
Qed.
(** The retarders of the two classes turn the other way. *)
Theorem mueller_retarder : forall theta delta m, to_mueller (j_retarder theta delta) = Ok m -> same4 m (m_retarder theta (- delta)).
Proof.
  intros t d m E. apply smul_known. intros v. rewrite (mueller_stokes _ _ _ E). unfold j_retarder. cbv zeta. rewrite mvec_mscale, to_stokes_phase by apply power_cis.
  rewrite !to_stokes_poly. destruct v as [[a b] [c e]]. unfold smul, mget4, m_retarder, m_rows. cbn [nth sI sQ sU sV]. rewrite radians_neg, cos_neg, sin_neg, cos_2a, sin_2a.
  pose proof (sc (radians t)) as T. pose proof (sc (radians d)) as D. unf. unfold stokes_poly. cbn [sI sQ sU sV].
  set (x := cos (radians t)) in *. set (y := sin (radians t)) in *. set (g := cos (radians d)) in *. set (h := sin (radians d)) in *.
  assert (Y2 : y * y = 1 - x * x) by lra. assert (H2 : h * h = 1 - g * g) by lra.
  clearbody x y g h. f_equal.
  - ring [Y2 H2].
  - ring [Y2 H2].
  - ring [Y2 H2].
  - ring [Y2 H2].
Qed.
Theorem retarder_sense_refuted : ~ (forall theta delta m, to_mueller (j_retarder theta delta) = Ok m -> same4 m (m_retarder theta delta)).
Proof.
  intros H. destruct (mueller_total (j_retarder 0 90)) as [m E]. pose proof (H 0 90 m E 2%nat 3%nat ltac:(lia) ltac:(lia)) as A. rewrite (mueller_retarder 0 90 m E 2%nat 3%nat) in A by lia.
  unfold m_retarder, m_rows in A. cbn [nth] in A. rewrite radians_neg, radians_0, radians_90, Rmult_0_r, cos_0, sin_neg, sin_PI2 in A. lra.
Qed.
Theorem half_wave_agrees : forall theta m, to_mueller (s_half j_retarder theta) = Ok m -> same4 m (s_half m_retarder theta).
Proof.
  intros t m E i j I J. rewrite (mueller_retarder _ _ _ E i j I J). unfold s_half, m_retarder. rewrite radians_neg, radians_180, cos_neg, sin_neg, sin_PI.
  four i I; four j J; unfold m_rows; cbn [nth]; ring.
Qed.

(** ** From Mueller to Jones *)
Lemma mueller_entries a : let m := mueller_of a in
  half * (mget4 m 0 0 + mget4 m 0 1 + mget4 m 1 0 + mget4 m 1 1) = power (m00 a) /\
  half * (mget4 m 0 0 - mget4 m 0 1 + mget4 m 1 0 - mget4 m 1 1) = power (m01 a) /\
  half * (mget4 m 0 0 + mget4 m 0 1 - mget4 m 1 0 - mget4 m 1 1) = power (m10 a) /\
  half * (mget4 m 0 0 - mget4 m 0 1 - mget4 m 1 0 + mget4 m 1 1) = power (m11 a) /\
  (mget4 m 0 2 + mget4 m 1 2 = 2 * re (cmult (m00 a) (cconj (m01 a))) /\ mget4 m 0 3 + mget4 m 1 3 = 2 * im (cmult (m00 a) (cconj (m01 a)))) /\
  (mget4 m 2 0 + mget4 m 2 1 = 2 * re (cmult (cconj (m00 a)) (m10 a)) /\ mget4 m 3 0 + mget4 m 3 1 = 2 * im (cmult (cconj (m00 a)) (m10 a))) /\
  (mget4 m 2 2 + mget4 m 3 3 = 2 * re (cmult (cconj (m00 a)) (m11 a)) /\ mget4 m 3 2 - mget4 m 2 3 = 2 * im (cmult (cconj (m00 a)) (m11 a))).
Proof.
  destruct a as [[a1 a2] [a3 a4] [a5 a6] [a7 a8]]. unfold mget4, mueller_of, power. unf4. repeat split; field.
Qed.
Lemma amplitude_power x z : half * x = power z -> amplitude x = Some (cabs z).
Proof.
  intros H. unfold amplitude. rewrite H. pose proof (power_pos z). destruct (Rle_dec 0 (power z)) as [L|L]; [|contradiction]. reflexivity.
Qed.
(** The moduli are always those of the Jones matrix. *)
Theorem to_jones_moduli : forall a m, to_mueller a = Ok m -> exists b, m_to_jones m = Some b /\
  power (m00 b) = power (m00 a) /\ power (m01 b) = power (m01 a) /\ power (m10 b) = power (m10 a) /\ power (m11 b) = power (m11 a).
Proof.
  intros a m E. rewrite to_mueller_of in E. injection E as <-. destruct (mueller_entries a) as (A & B & C & D & _).
  unfold m_to_jones. rewrite (amplitude_power _ _ A), (amplitude_power _ _ B), (amplitude_power _ _ C), (amplitude_power _ _ D). cbn [polar option_map].
  eexists. split; [reflexivity|]. cbn [m00 m01 m10 m11]. rewrite !power_cscale, !power_cis, !cabs_sq. unfold power. repeat split; ring.
Qed.
Lemma cabs_mult y z : cabs (cmult y z) = cabs y * cabs z.
Proof. unfold cabs. change (re ?x ^ 2 + im ?x ^ 2) with (power x). fold (power (cmult y z)) (power y) (power z). rewrite power_cmult, sqrt_mult by apply power_pos. reflexivity. Qed.
Lemma cabs_conj z : cabs (cconj z) = cabs z.
Proof. unfold cabs. fold (power (cconj z)) (power z). now rewrite power_conj. Qed.
Lemma polar_form x y : sqrt (x ^ 2 + y ^ 2) * cos (arctan2 (2 * y) (2 * x)) = x /\ sqrt (x ^ 2 + y ^ 2) * sin (arctan2 (2 * y) (2 * x)) = y.
Proof.
  destruct (arctan2_polar (2 * y) (2 * x)) as [A B]. replace ((2 * x) ^ 2 + (2 * y) ^ 2) with (2 ^ 2 * (x ^ 2 + y ^ 2)) in A, B by ring.
  rewrite sqrt_mult in A, B by nra. rewrite sqrt_pow2 in A, B by lra. split; lra.
Qed.
Lemma polar_cpx z : cscale (cabs z) (cis (arctan2 (2 * im z) (2 * re z))) = z.
Proof. unfold cabs. destruct (polar_form (re z) (im z)) as [A B]. apply cpx_eq; unfold cscale, cis; cbn [re im fst snd]; assumption. Qed.
(** The matrix itself, up to a phase, when its first value is not zero. *)
Theorem to_jones_again : forall a m, to_mueller a = Ok m -> m00 a <> c0 -> exists z, unit_phase z /\ m_to_jones m = Some (mscale z a) /\
  cmult z (m00 a) = creal (cabs (m00 a)).
Proof.
  intros a m E N. rewrite to_mueller_of in E. injection E as <-. destruct (mueller_entries a) as (A & B & C & D & (F & F') & (G & G') & (H & H')).
  assert (Z : cabs (m00 a) <> 0).
  { intros Z. apply N. unfold cabs in Z. apply sqrt_eq_0 in Z; [|nra]. apply cpx_eq; unfold c0; cbn [re im fst snd]; nra. }
  exists (cscale (/ cabs (m00 a)) (cconj (m00 a))). pose proof (cabs_sq (m00 a)) as S.
  assert (U : power (cscale (/ cabs (m00 a)) (cconj (m00 a))) = 1).
  { rewrite power_cscale, power_conj. unfold power. rewrite <- S. field. exact Z. }
  split; [exact U|]. split.
  - unfold m_to_jones. rewrite (amplitude_power _ _ A), (amplitude_power _ _ B), (amplitude_power _ _ C), (amplitude_power _ _ D), F, F', G, G', H, H'. cbn [polar option_map].
    f_equal. unfold mscale, mat_of, mget. f_equal.
    + rewrite <- (cabs_conj (m00 a)) at 1. unfold cis. rewrite cos_0, sin_0. rewrite cabs_conj. apply cpx_eq; unfold cscale, cmult, cconj; cbn [re im fst snd].
      * apply (Rmult_eq_reg_l (cabs (m00 a))); [|exact Z]. transitivity (cabs (m00 a) ^ 2); [ring|]. rewrite S. field. exact Z.
      * field. exact Z.
    + rewrite cis_neg. set (w := cmult (m00 a) (cconj (m01 a))).
      transitivity (cscale (/ cabs (m00 a)) (cconj (cscale (cabs w) (cis (arctan2 (2 * im w) (2 * re w)))))).
      * unfold w at 3. rewrite cabs_mult, cabs_conj. generalize (cis (arctan2 (2 * im w) (2 * re w))). intros [x y]. apply cpx_eq; unfold cscale, cconj; cbn [re im fst snd]; field; exact Z.
      * rewrite polar_cpx. unfold w. apply cpx_eq; unfold cscale, cconj, cmult; cbn [re im fst snd]; ring.
    + set (w := cmult (cconj (m00 a)) (m10 a)).
      transitivity (cscale (/ cabs (m00 a)) (cscale (cabs w) (cis (arctan2 (2 * im w) (2 * re w))))).
      * unfold w at 3. rewrite cabs_mult, cabs_conj. generalize (cis (arctan2 (2 * im w) (2 * re w))). intros [x y]. apply cpx_eq; unfold cscale, cconj; cbn [re im fst snd]; field; exact Z.
      * rewrite polar_cpx. unfold w. apply cpx_eq; unfold cscale, cconj, cmult; cbn [re im fst snd]; ring.
    + set (w := cmult (cconj (m00 a)) (m11 a)).
      transitivity (cscale (/ cabs (m00 a)) (cscale (cabs w) (cis (arctan2 (2 * im w) (2 * re w))))).
      * unfold w at 3. rewrite cabs_mult, cabs_conj. generalize (cis (arctan2 (2 * im w) (2 * re w))). intros [x y]. apply cpx_eq; unfold cscale, cconj; cbn [re im fst snd]; field; exact Z.
      * rewrite polar_cpx. unfold w. apply cpx_eq; unfold cscale, cconj, cmult; cbn [re im fst snd]; ring.
  - apply cpx_eq; unfold cscale, cmult, cconj, creal; cbn [re im fst snd].
    + apply (Rmult_eq_reg_l (cabs (m00 a))); [|exact Z]. transitivity (re (m00 a) ^ 2 + im (m00 a) ^ 2); [field; exact Z|]. rewrite <- S. ring.
    + field. exact Z.
Qed.
Theorem mueller_again : forall a m b n, to_mueller a = Ok m -> m00 a <> c0 -> m_to_jones m = Some b -> to_mueller b = Ok n -> same4 n m.
Proof.
  intros a m b n E N B F. destruct (to_jones_again a m E N) as (z & Z & H & _). rewrite H in B. injection B as <-. exact (mueller_phase z a m n Z E F).
Qed.
Definition swapped : mat := mkMat c0 c1 ci c0.
Theorem to_jones_zero_refuted : exists a m b n, to_mueller a = Ok m /\ m_to_jones m = Some b /\ to_mueller b = Ok n /\ ~ same4 n m.
Proof.
  exists swapped. destruct (mueller_total swapped) as [m E]. exists m. destruct (to_jones_moduli _ _ E) as (b & B & _). exists b. destruct (mueller_total b) as [n F]. exists n.
  split; [exact E|]. split; [exact B|]. split; [exact F|]. intros S. pose proof (S 2%nat 3%nat ltac:(lia) ltac:(lia)) as H.
  rewrite to_mueller_of in E. injection E as <-. destruct (mueller_entries swapped) as (A & A' & A'' & D & (F1 & F2) & (G & G') & (K & K')).
  assert (Eb : b = mkMat c0 c1 c1 c0).
  { unfold m_to_jones in B. rewrite (amplitude_power _ _ A), (amplitude_power _ _ A'), (amplitude_power _ _ A''), (amplitude_power _ _ D), F1, F2, G, G', K, K' in B. cbn [polar option_map] in B.
    assert (Q : arctan2 0 0 = 0). { unfold arctan2. destruct (Rlt_dec 0 0); [lra|reflexivity]. }
    unfold swapped in B. cbn [m00 m01 m10 m11] in B. unfold c0, c1, ci, cmult, cconj, re, im in B. cbn [fst snd] in B.
    repeat match type of B with context [2 * ?x] => replace (2 * x) with 0 in B by ring end. rewrite Q, Ropp_0 in B.
    unfold cabs, cis in B. cbn [re im fst snd] in B. rewrite cos_0, sin_0 in B. replace (0 ^ 2 + 0 ^ 2) with 0 in B by ring. replace (1 ^ 2 + 0 ^ 2) with 1 in B by ring. replace (0 ^ 2 + 1 ^ 2) with 1 in B by ring. rewrite sqrt_0, sqrt_1 in B.
    assert (B' : Some b = Some (mkMat c0 c1 c1 c0)); [|congruence]. rewrite <- B. f_equal. unfold cscale, c0, c1. cbn [re im fst snd]. apply mat_eq; cbn [m00 m01 m10 m11]; apply cpx_eq; cbn [re im fst snd]; ring. }
  rewrite to_mueller_of in F. injection F as <-. subst b. revert H. unfold mueller_of, swapped. unf4. intros H. lra.
Qed.
(** A depolarising matrix is not refused. *)
Definition depolariser : rmat4 := fun i j => match i, j with O, O => 1 | _, _ => 0 end.
Theorem depolariser_refuted : exists b n, m_to_jones depolariser = Some b /\ to_mueller b = Ok n /\ n 0%nat 2%nat = 1 /\ depolariser 0%nat 2%nat = 0.
Proof.
  assert (Q : arctan2 0 0 = 0). { unfold arctan2. destruct (Rlt_dec 0 0); [lra|reflexivity]. }
  assert (E : m_to_jones depolariser = Some (mkMat (creal d2) (creal d2) (creal d2) (creal d2))).
  { unfold m_to_jones, mget4, depolariser. replace (0 + 0) with 0 by ring. replace (0 - 0) with 0 by ring. rewrite Q, Ropp_0.
    assert (A : forall x, x = 1 -> amplitude x = Some d2). { intros x ->. unfold amplitude, half. destruct (Rle_dec 0 (1 / 2 * 1)) as [L|L]; [|lra]. f_equal. unfold d2. replace (1 / 2 * 1) with (/ 2) by field. now rewrite sqrt_inv. }
    rewrite !A by ring. cbn [polar option_map]. unfold cis. rewrite cos_0, sin_0. f_equal. unfold creal, cscale. cbn [re im fst snd]. apply mat_eq; cbn [m00 m01 m10 m11]; apply cpx_eq; cbn [re im fst snd]; ring. }
  exists (mkMat (creal d2) (creal d2) (creal d2) (creal d2)), (mueller_of (mkMat (creal d2) (creal d2) (creal d2) (creal d2))). split; [exact E|]. split; [apply to_mueller_of|]. split; [|reflexivity].
  unfold mueller_of. unf4. transitivity (2 * (d2 * d2)); [field|]. rewrite d2_sq. field.
Qed.
(** [None] when the matrix gives more power than it receives from some analyser. *)
Theorem to_jones_none_iff : forall m, m_to_jones m = None <->
  m 0%nat 0%nat + m 0%nat 1%nat + m 1%nat 0%nat + m 1%nat 1%nat < 0 \/ m 0%nat 0%nat - m 0%nat 1%nat + m 1%nat 0%nat - m 1%nat 1%nat < 0 \/
  m 0%nat 0%nat + m 0%nat 1%nat - m 1%nat 0%nat - m 1%nat 1%nat < 0 \/ m 0%nat 0%nat - m 0%nat 1%nat - m 1%nat 0%nat + m 1%nat 1%nat < 0.
Proof.
  intros m. unfold m_to_jones, amplitude, half, mget4.
  repeat match goal with |- context [Rle_dec 0 (1 / 2 * ?x)] => destruct (Rle_dec 0 (1 / 2 * x)) end; cbn [polar option_map]; split; intros H; try discriminate; try reflexivity; try lra.
Qed.

(** [MuellerMatrix] of complex numbers: refused if one of them is not real. *)
Theorem mueller_new_spec : forall a : mat4,
  ((forall i j, (i < 4)%nat -> (j < 4)%nat -> im (a i j) = 0%R) -> exists m, mueller_new a = Ok m /\ forall i j, m i j = re (a i j)) /\
  (forall i j, (i < 4)%nat -> (j < 4)%nat -> im (a i j) <> 0%R -> mueller_new a = Err EValueError).
Proof.
  intro a. unfold mueller_new. split.
  - intro H. replace (real4 a) with true; [eexists; split; reflexivity|]. symmetry. unfold real4.
    apply forallb_forall. intros i I. apply forallb_forall. intros j J. apply in_seq in I. apply in_seq in J.
    destruct (Req_EM_T (im (a i j)) 0) as [|N]; [reflexivity|]. exfalso. apply N, H; lia.
  - intros i j I J N. replace (real4 a) with false; [reflexivity|]. symmetry. apply Bool.not_true_is_false. intro E.
    unfold real4 in E. rewrite forallb_forall in E. specialize (E i ltac:(apply in_seq; lia)).
    rewrite forallb_forall in E. specialize (E j ltac:(apply in_seq; lia)).
    destruct (Req_EM_T (im (a i j)) 0); [contradiction|discriminate].
Qed.
