(** Proofs about the array factor and the beams (M_Beam.v). *)
From Coq Require Import ZArith Reals Bool List Arith Lia Lra Psatz Permutation.
From Verif Require Import Base M_Polar M_Beam.
Import ListNotations.
Open Scope nat_scope.
Open Scope list_scope.
Open Scope R_scope.

(** ** Specification *)
(** The unit vector (East, North, Up) of a direction; positions are (East, North, Up). *)
Definition enu (az el : R) : vec := mkVec (sin az * cos el) (cos az * cos el) (sin el).
(** The path difference of an antenna between two directions. *)
Definition path (p : vec) (az el az0 el0 : R) : R :=
  vx p * (sin az * cos el - sin az0 * cos el0) + vy p * (cos az * cos el - cos az0 * cos el0) + vz p * (sin el - sin el0).
Definition weights (ants : list antenna) : list R := map a_weight ants.
(** [Interferometer.antenna_weights] only accepts these. *)
Definition legal (ants : list antenna) : Prop := Forall (fun a => 0 <= a_weight a <= 1) ants.
Definition moved (t : vec) (a : antenna) : antenna :=
  mkAnt (mkVec (vx (a_pos a) + vx t) (vy (a_pos a) + vy t) (vz (a_pos a) + vz t)) (a_delay a) (a_weight a).
Definition delayed (d : R) (a : antenna) : antenna := mkAnt (a_pos a) (a_delay a + d) (a_weight a).
Definition scaled (k : R) (a : antenna) : antenna :=
  mkAnt (mkVec (k * vx (a_pos a)) (k * vy (a_pos a)) (k * vz (a_pos a))) (k * a_delay a) (a_weight a).

(** ** The delays *)
Lemma rot_90_value : rot_90 = mkMat3 (mkVec 0 1 0) (mkVec 1 (-0) 0) (mkVec 0 0 1).
Proof. unfold rot_90. cbv zeta. rewrite cos_PI2, sin_PI2. reflexivity. Qed.

Lemma delay_path : forall p az el az0 el0,
  geometric_delay p (ground_projection az el) (ground_projection az0 el0) = path p az el az0 el0.
Proof. intros. unfold geometric_delay. rewrite rot_90_value. unfold path, vdot, vmat, vsub, ground_projection. cbn. ring. Qed.

Lemma delay_enu : forall p az el az0 el0,
  geometric_delay p (ground_projection az el) (ground_projection az0 el0) = vdot p (vsub (enu az el) (enu az0 el0)).
Proof. intros. rewrite delay_path. unfold path, vdot, vsub, enu. cbn. ring. Qed.

Lemma delay_same p g : geometric_delay p g g = 0.
Proof. unfold geometric_delay, vdot, vsub. cbn [vx vy vz]. ring. Qed.

Lemma delay_swap p g h : geometric_delay p g h = - geometric_delay p h g.
Proof. unfold geometric_delay, vdot, vsub. cbn [vx vy vz]. ring. Qed.

(** ** Complex sums *)
Lemma cpx_eq (a b : cpx) : re a = re b -> im a = im b -> a = b.
Proof. destruct a, b. cbn. intros -> ->. reflexivity. Qed.
Ltac ceq := apply cpx_eq; unfold cplus, cmult, cconj, cscale, cis, re, im; cbn [fst snd]; ring.
Lemma cis_plus x y : cis (x + y) = cmult (cis x) (cis y).
Proof. apply cpx_eq; cbn; [apply cos_plus|rewrite sin_plus; ring]. Qed.
Lemma cis_neg x : cis (- x) = cconj (cis x).
Proof. apply cpx_eq; cbn; [apply cos_neg|apply sin_neg]. Qed.
Lemma power_cis x : power (cis x) = 1.
Proof. unfold power, cis. cbn [re im fst snd]. pose proof (sin2_cos2 x) as H. unfold Rsqr in H. nra. Qed.
Lemma power_cmult a b : power (cmult a b) = power a * power b.
Proof. unfold power, cmult. cbn [re im fst snd]. ring. Qed.
Lemma power_cscale k a : power (cscale k a) = k ^ 2 * power a.
Proof. unfold power, cscale. cbn [re im fst snd]. ring. Qed.
Lemma power_conj a : power (cconj a) = power a.
Proof. unfold power, cconj. cbn [re im fst snd]. ring. Qed.
Lemma power_pos a : 0 <= power a.
Proof. unfold power. nra. Qed.

Lemma csum_cons x l : csum (x :: l) = cplus x (csum l).
Proof. reflexivity. Qed.
Lemma csum_app l m : csum (l ++ m) = cplus (csum l) (csum m).
Proof.
  induction l as [|x l IH]; [change (csum ([] ++ m)) with (csum m); change (csum []) with (0, 0); generalize (csum m); intros; ceq|].
  change ((x :: l) ++ m) with (x :: (l ++ m)). rewrite !csum_cons, IH. ceq.
Qed.
Lemma csum_perm l m : Permutation l m -> csum l = csum m.
Proof.
  induction 1.
  - reflexivity.
  - rewrite !csum_cons. now rewrite IHPermutation.
  - rewrite !csum_cons. ceq.
  - congruence.
Qed.
Lemma csum_mult z l : csum (map (cmult z) l) = cmult z (csum l).
Proof. induction l as [|x l IH]; cbn [map]; [change (csum []) with (0, 0); ceq|]. rewrite !csum_cons, IH. ceq. Qed.
Lemma csum_conj l : csum (map cconj l) = cconj (csum l).
Proof. induction l as [|x l IH]; cbn [map]; [change (csum []) with (0, 0); ceq|]. rewrite !csum_cons, IH. ceq. Qed.

Lemma power_add a b m n : 0 <= m -> 0 <= n -> power a <= m ^ 2 -> power b <= n ^ 2 -> power (cplus a b) <= (m + n) ^ 2.
Proof.
  intros M N A B. destruct a as [a1 a2], b as [b1 b2]. unfold power, cplus in *. cbn [re im fst snd] in *.
  assert (C : a1 * b1 + a2 * b2 <= m * n).
  { destruct (Rle_dec (a1 * b1 + a2 * b2) 0) as [L|L]; [nra|]. apply Rsqr_incr_0_var; [|nra]. unfold Rsqr.
    assert ((a1 * b1 + a2 * b2) * (a1 * b1 + a2 * b2) <= (a1 ^ 2 + a2 ^ 2) * (b1 ^ 2 + b2 ^ 2)) by (pose proof (pow2_ge_0 (a1 * b2 - a2 * b1)); lra).
    assert ((a1 ^ 2 + a2 ^ 2) * (b1 ^ 2 + b2 ^ 2) <= m ^ 2 * n ^ 2).
    { pose proof (pow2_ge_0 a1). pose proof (pow2_ge_0 a2). pose proof (pow2_ge_0 b1). pose proof (pow2_ge_0 b2). apply Rmult_le_compat; [lra|lra|assumption|assumption]. }
    replace (m * n * (m * n)) with (m ^ 2 * n ^ 2) by ring.
    lra. }
  lra.
Qed.

Lemma sum_bound {A} (w : A -> R) (ph : A -> R) l :
  0 <= rsum (map (fun a => Rabs (w a)) l) /\
  power (csum (map (fun a => cscale (w a) (cis (ph a))) l)) <= rsum (map (fun a => Rabs (w a)) l) ^ 2.
Proof.
  induction l as [|x l [P B]]; cbn [map]; [cbn; unfold power; cbn; lra|].
  set (s := rsum (map (fun a => Rabs (w a)) l)) in *.
  change (rsum (Rabs (w x) :: map (fun a => Rabs (w a)) l)) with (Rabs (w x) + s).
  change (csum (cscale (w x) (cis (ph x)) :: ?r)) with (cplus (cscale (w x) (cis (ph x))) (csum r)).
  pose proof (Rabs_pos (w x)). split; [lra|]. apply power_add; [assumption|assumption| |assumption].
  rewrite power_cscale, power_cis, <- (pow2_abs (w x)). lra.
Qed.

Lemma rsum_ext {A} (f g : A -> R) l : (forall x, In x l -> f x = g x) -> rsum (map f l) = rsum (map g l).
Proof. intros H. f_equal. now apply map_ext_in. Qed.

(** ** The array factor *)
Lemma af_false ants f s p : af_power false ants f s p = Some (power (af_sum ants f s p)).
Proof. reflexivity. Qed.
Lemma inr_pos {A} (l : list A) : l <> [] -> 0 < INR (length l).
Proof. intros N. apply lt_0_INR. destruct l; [contradiction|cbn; lia]. Qed.
Lemma af_true ants f s p : ants <> [] -> af_power true ants f s p = Some (power (af_sum ants f s p) / INR (length ants) ^ 2).
Proof.
  intros N. unfold af_power, af_complex. pose proof (inr_pos ants N) as P. destruct ants as [|a ants]; [contradiction|]. cbv zeta.
  cbn [option_map]. rewrite power_cscale. f_equal. field. lra.
Qed.

(** The normalised power is the other divided by the square of the number of antennas. *)
Theorem af_normalised : forall ants f s p, ants <> [] ->
  exists q, af_power false ants f s p = Some q /\ af_power true ants f s p = Some (q / INR (length ants) ^ 2).
Proof. intros ants f s p N. exists (power (af_sum ants f s p)). split; [reflexivity|]. now apply af_true. Qed.

Theorem af_no_antenna : forall f s p, af_power true [] f s p = None /\ af_power false [] f s p = Some 0.
Proof. intros. split; [reflexivity|]. cbn. unfold power. cbn. f_equal. ring. Qed.

Lemma legal_abs ants : legal ants -> rsum (map (fun a => Rabs (a_weight a)) ants) = rsum (weights ants).
Proof.
  intros L. apply rsum_ext. intros a I. apply Rabs_pos_eq. apply (proj1 (Forall_forall _ _) L a I).
Qed.
Lemma legal_sum ants : legal ants -> 0 <= rsum (weights ants) <= INR (length ants).
Proof.
  induction 1 as [|a l H L IH]; cbn [length]; [cbn; lra|]. rewrite S_INR. change (rsum (weights (a :: l))) with (a_weight a + rsum (weights l)). lra.
Qed.

(** Never negative, never more than the square of the sum of the weights. *)
Theorem af_bounds : forall ants f s p q, legal ants -> af_power false ants f s p = Some q ->
  0 <= q <= rsum (weights ants) ^ 2.
Proof.
  intros ants f s p q L E. rewrite af_false in E. injection E as <-. split; [apply power_pos|].
  rewrite <- (legal_abs ants L). apply (sum_bound a_weight (af_phase f s p) ants).
Qed.
Theorem af_bounds_normalised : forall ants f s p q, legal ants -> af_power true ants f s p = Some q -> 0 <= q <= 1.
Proof.
  intros ants f s p q L E. assert (N : ants <> []) by (intros ->; discriminate E).
  rewrite (af_true ants f s p N) in E. injection E as <-. pose proof (inr_pos ants N) as P.
  destruct (af_bounds ants f s p _ L eq_refl) as [A B]. pose proof (legal_sum ants L) as [C D].
  assert (0 < INR (length ants) ^ 2) by nra. split.
  - apply Rmult_le_pos; [exact A|]. left. now apply Rinv_0_lt_compat.
  - apply (Rmult_le_reg_r (INR (length ants) ^ 2)); [assumption|]. unfold Rdiv. rewrite Rmult_assoc, Rinv_l by lra. nra.
Qed.

Lemma af_sum_coherent ants f s p d : (forall a, In a ants -> af_phase f s p a = d) ->
  af_sum ants f s p = cscale (rsum (weights ants)) (cis d).
Proof.
  unfold af_sum. induction ants as [|a l IH]; intros H; cbn [map]; [change (csum []) with (0, 0); change (rsum (weights [])) with 0; ceq|].
  rewrite csum_cons, IH by (intros; apply H; now right). rewrite (H a) by now left.
  change (rsum (weights (a :: l))) with (a_weight a + rsum (weights l)). ceq.
Qed.

(** In the direction of the pointing, with the same delay for all, it is the square of the
    sum of the weights; no direction gives more. *)
Theorem af_centre : forall ants f p d, (forall a, In a ants -> a_delay a = d) ->
  af_power false ants f p p = Some (rsum (weights ants) ^ 2).
Proof.
  intros ants f p d H. rewrite af_false. f_equal.
  rewrite (af_sum_coherent ants f p p (2 * PI / wavelength f * d)).
  - rewrite power_cscale, power_cis. ring.
  - intros a I. unfold af_phase. rewrite delay_same, (H a I), Rplus_0_l. reflexivity.
Qed.
Theorem af_maximum : forall normalize ants f p d s q c, legal ants -> (forall a, In a ants -> a_delay a = d) ->
  af_power normalize ants f s p = Some q -> af_power normalize ants f p p = Some c -> q <= c.
Proof.
  intros nm ants f p d s q c L H E C. pose proof (af_centre ants f p d H) as G.
  pose proof (af_bounds ants f s p (power (af_sum ants f s p)) L eq_refl) as [_ B].
  destruct nm.
  - assert (N : ants <> []) by (intros ->; discriminate E).
    rewrite (af_true ants f s p N) in E. rewrite (af_true ants f p p N) in C. rewrite af_false in G. injection G as G. rewrite G in C.
    injection E as <-. injection C as <-. apply Rmult_le_compat_r; [|assumption]. left. apply Rinv_0_lt_compat. pose proof (inr_pos ants N). nra.
  - rewrite G in C. injection C as <-. rewrite af_false in E. injection E as <-. exact B.
Qed.
(** All the weights at one, the normalised power is one there. *)
Theorem af_centre_one : forall ants f p d, ants <> [] -> (forall a, In a ants -> a_delay a = d /\ a_weight a = 1) ->
  af_power true ants f p p = Some 1.
Proof.
  intros ants f p d N H. pose proof (af_centre ants f p d (fun a I => proj1 (H a I))) as G. rewrite af_false in G. injection G as G.
  rewrite (af_true ants f p p N), G. f_equal.
  assert (E : rsum (weights ants) = INR (length ants)).
  { assert (W : forall l, (forall a, In a l -> a_weight a = 1) -> rsum (weights l) = INR (length l)).
    { induction l as [|a l IH]; intros K; [reflexivity|]. cbn [length]. rewrite S_INR.
      change (rsum (weights (a :: l))) with (a_weight a + rsum (weights l)). rewrite (K a) by now left. rewrite IH by (intros; apply K; now right). ring. }
    apply W. intros a I. apply (H a I). }
  rewrite E. field. pose proof (inr_pos ants N). lra.
Qed.

(** ** What does not change it *)
Lemma af_power_ext normalize (a b : list antenna) f f' s p s' p' : length a = length b ->
  power (af_sum a f s p) = power (af_sum b f' s' p') -> af_power normalize a f s p = af_power normalize b f' s' p'.
Proof.
  intros L H. destruct normalize; [|rewrite !af_false; now f_equal].
  destruct a as [|x a]; [destruct b; [reflexivity|discriminate]|]. destruct b as [|y b]; [discriminate|].
  rewrite !af_true by discriminate. rewrite H, L. reflexivity.
Qed.

Lemma af_sum_shift (g : antenna -> antenna) ants f s p c :
  (forall a, a_weight (g a) = a_weight a) -> (forall a, af_phase f s p (g a) = c + af_phase f s p a) ->
  af_sum (map g ants) f s p = cmult (cis c) (af_sum ants f s p).
Proof.
  intros W P. unfold af_sum. rewrite <- csum_mult, !map_map. f_equal. apply map_ext. intros a. rewrite W, P, cis_plus.
  ceq.
Qed.

Theorem af_moved : forall normalize ants f s p t,
  af_power normalize (map (moved t) ants) f s p = af_power normalize ants f s p.
Proof.
  intros. apply af_power_ext; [apply map_length|].
  rewrite (af_sum_shift (moved t) ants f s p (2 * PI / wavelength f * geometric_delay t s p)).
  - rewrite power_cmult, power_cis. ring.
  - reflexivity.
  - intros a. unfold af_phase, moved, geometric_delay, vdot, vmat. cbn [vx vy vz a_pos a_delay]. ring.
Qed.
Theorem af_delayed : forall normalize ants f s p d,
  af_power normalize (map (delayed d) ants) f s p = af_power normalize ants f s p.
Proof.
  intros. apply af_power_ext; [apply map_length|].
  rewrite (af_sum_shift (delayed d) ants f s p (2 * PI / wavelength f * d)).
  - rewrite power_cmult, power_cis. ring.
  - reflexivity.
  - intros a. unfold af_phase, delayed. cbn [a_pos a_delay]. ring.
Qed.
Theorem af_order : forall normalize a b f s p, Permutation a b ->
  af_complex normalize a f s p = af_complex normalize b f s p.
Proof.
  intros nm a b f s p P. assert (E : af_sum a f s p = af_sum b f s p) by (apply csum_perm, Permutation_map, P).
  unfold af_complex. rewrite E, (Permutation_length P). destruct nm; [|reflexivity].
  destruct a; destruct b; try reflexivity; apply Permutation_length in P; discriminate.
Qed.
Theorem af_union : forall a b f s p z w, af_complex false a f s p = Some z -> af_complex false b f s p = Some w ->
  af_complex false (a ++ b) f s p = Some (cplus z w).
Proof.
  intros a b f s p z w A B. cbn in A, B. injection A as <-. injection B as <-. cbn. f_equal. unfold af_sum. rewrite map_app. apply csum_app.
Qed.
(** The sky and the pointing exchanged, without delays. *)
Theorem af_exchanged : forall normalize ants f s p, (forall a, In a ants -> a_delay a = 0) ->
  af_power normalize ants f s p = af_power normalize ants f p s.
Proof.
  intros nm ants f s p D. apply af_power_ext; [reflexivity|].
  assert (E : af_sum ants f s p = cconj (af_sum ants f p s)).
  { unfold af_sum. rewrite <- csum_conj, map_map. f_equal. apply map_ext_in. intros a I.
    replace (af_phase f s p a) with (- af_phase f p s a).
    - rewrite cis_neg. ceq.
    - unfold af_phase. rewrite (delay_swap _ s p), (D a I). ring. }
  now rewrite E, power_conj.
Qed.
(** One antenna sees all the directions alike. *)
Theorem af_one : forall normalize a f s p, af_power normalize [a] f s p = Some (a_weight a ^ 2).
Proof.
  intros nm a f s p. assert (E : power (af_sum [a] f s p) = a_weight a ^ 2).
  { rewrite (af_sum_coherent [a] f s p (af_phase f s p a)) by (intros b [<-|[]]; reflexivity). rewrite power_cscale, power_cis. cbn. ring. }
  destruct nm; [|rewrite af_false; congruence]. rewrite af_true by discriminate. rewrite E. cbn. f_equal. field.
Qed.
(** An array k times larger at a frequency k times lower. *)
Theorem af_scaled : forall normalize ants f s p k, f <> 0 -> k <> 0 ->
  af_power normalize (map (scaled k) ants) (f / k) s p = af_power normalize ants f s p.
Proof.
  intros nm ants f s p k F K. apply af_power_ext; [apply map_length|]. f_equal. unfold af_sum. rewrite map_map. f_equal.
  apply map_ext. intros a. unfold scaled at 1. cbn [a_weight]. do 2 f_equal.
  unfold af_phase, scaled, wavelength, speed_of_light, geometric_delay, vdot, vmat. cbn [vx vy vz a_pos a_delay]. field. lra.
Qed.
(** An antenna of weight zero still counts in the normalisation. *)
Theorem af_silent : forall ants f s p a q, ants <> [] -> a_weight a = 0 ->
  af_power true ants f s p = Some q ->
  af_power true (a :: ants) f s p = Some (q * (INR (length ants) / INR (S (length ants))) ^ 2).
Proof.
  intros ants f s p a q N W E. rewrite (af_true ants f s p N) in E. injection E as <-. rewrite af_true by discriminate. f_equal.
  assert (S : af_sum (a :: ants) f s p = af_sum ants f s p).
  { unfold af_sum. cbn [map]. rewrite W, csum_cons. ceq. }
  rewrite S. cbn [length]. pose proof (inr_pos ants N). field. rewrite S_INR. split; lra.
Qed.

(** ** The beams *)
Lemma mean_bounds gains g : Forall (fun x => 0 <= x <= 1) gains -> mean_gain gains = Some g -> 0 <= g <= 1.
Proof.
  intros F E. assert (N : gains <> []) by (intros ->; discriminate E). pose proof (inr_pos gains N) as P.
  assert (B : 0 <= rsum gains <= INR (length gains)).
  { clear - F. induction F as [|x l H F IH]; cbn [length]; [cbn; lra|]. rewrite S_INR. change (rsum (x :: l)) with (x + rsum l). lra. }
  assert (K : g = rsum gains / INR (length gains)) by (destruct gains; [contradiction|unfold mean_gain in E; congruence]). subst g.
  split.
  - apply Rmult_le_pos; [apply B|]. left. now apply Rinv_0_lt_compat.
  - apply (Rmult_le_reg_r (INR (length gains))); [assumption|]. unfold Rdiv. rewrite Rmult_assoc, Rinv_l by lra. destruct B. lra.
Qed.
Theorem beam_bounds : forall ants gains f s p q, legal ants -> Forall (fun x => 0 <= x <= 1) gains ->
  beam_power true ants gains f s p = Some q -> 0 <= q <= 1.
Proof.
  intros ants gains f s p q L F E. unfold beam_power in E. destruct (af_power true ants f s p) as [a|] eqn:A; [|discriminate].
  destruct (mean_gain gains) as [g|] eqn:G; [|discriminate]. injection E as <-.
  pose proof (af_bounds_normalised _ _ _ _ _ L A). pose proof (mean_bounds _ _ F G). nra.
Qed.
(** The same gain for all the antennas is the gain of the array towards its pointing. *)
Theorem beam_centre : forall ants gains f p d g, ants <> [] -> gains <> [] ->
  (forall a, In a ants -> a_delay a = d /\ a_weight a = 1) -> (forall x, In x gains -> x = g) ->
  beam_power true ants gains f p p = Some g.
Proof.
  intros ants gains f p d g N M H G. unfold beam_power. rewrite (af_centre_one ants f p d N H).
  assert (S : rsum gains = INR (length gains) * g).
  { clear M. induction gains as [|x l IH]; [cbn; ring|]. cbn [length]. rewrite S_INR. change (rsum (x :: l)) with (x + rsum l).
    rewrite IH by (intros; apply G; now right). rewrite (G x) by now left. ring. }
  pose proof (inr_pos gains M) as P. destruct gains as [|x l]; [contradiction|]. cbn [mean_gain]. rewrite S. f_equal. field. lra.
Qed.
(** The square of the complex beam is the power beam times the mean gain once more. *)
Theorem beam_square : forall normalize ants gains f s p z g, beam_complex normalize ants gains f s p = Some z ->
  mean_gain gains = Some g ->
  exists q, beam_power normalize ants gains f s p = Some q /\ power z = q * g.
Proof.
  intros nm ants gains f s p z g E G. unfold beam_complex, beam_power, af_power in *. destruct (af_complex nm ants f s p) as [w|]; [|discriminate].
  rewrite G in *. injection E as <-. exists (power w * g). split; [reflexivity|]. rewrite power_cscale. ring.
Qed.
Definition here : antenna := mkAnt (mkVec 0 0 0) 0 1.
Theorem beam_square_refuted : exists ants gains f s p z q, legal ants /\ Forall (fun x => 0 <= x <= 1) gains /\
  beam_complex true ants gains f s p = Some z /\ beam_power true ants gains f s p = Some q /\ power z <> q.
Proof.
  set (v := mkVec 0 0 1).
  assert (C : beam_power true [here] [1 / 2] 1 v v = Some (1 / 2)).
  { apply (beam_centre [here] [1 / 2] 1 v 0); [discriminate|discriminate| |].
    - intros a [<-|[]]. split; reflexivity.
    - intros x [<-|[]]. reflexivity. }
  assert (G : mean_gain [1 / 2] = Some (1 / 2)) by (cbn; f_equal; field).
  destruct (beam_complex true [here] [1 / 2] 1 v v) as [z|] eqn:E.
  - exists [here], [1 / 2], 1, v, v, z, (1 / 2). split; [repeat constructor; cbn; lra|]. split; [repeat constructor; lra|].
    split; [exact E|]. split; [exact C|]. destruct (beam_square true [here] [1 / 2] 1 v v z (1 / 2) E G) as (q & Q & P). rewrite C in Q. injection Q as <-. lra.
  - unfold beam_complex in E. rewrite G in E. discriminate E.
Qed.

(** ** The Mini-Arrays grouped by rotation *)
Lemma insert_in x y l : In y (insert x l) <-> y = x \/ In y l.
Proof.
  induction l as [|z l IH]; cbn; [intuition|]. destruct (x <? z)%Z; [cbn; intuition|]. destruct (Z.eqb_spec x z) as [->|N]; cbn; [intuition|]. rewrite IH. intuition.
Qed.
Lemma unique_in y l : In y (unique_values l) <-> In y l.
Proof. induction l as [|x l IH]; cbn; [reflexivity|]. rewrite insert_in, IH. intuition. Qed.
Lemma first_index_spec x l : In x l -> (first_index x l < length l)%nat /\ nth (first_index x l) l 0%Z = x.
Proof.
  induction l as [|y l IH]; intros I; [contradiction|]. cbn. destruct (Z.eqb_spec x y) as [->|N]; [split; [lia|reflexivity]|].
  destruct I as [->|I]; [contradiction|]. specialize (IH I). split; [lia|apply IH].
Qed.
(** Adding one key to the list adds one to one term of a sum over the distinct keys. *)
Lemma rsum_insert (h : Z -> R) x l : ~ In x l -> rsum (map h (insert x l)) = h x + rsum (map h l).
Proof.
  induction l as [|y l IH]; intros N; [reflexivity|]. cbn [insert]. destruct (x <? y)%Z; [reflexivity|].
  destruct (Z.eqb_spec x y) as [->|K]; [exfalso; apply N; now left|]. cbn [map].
  change (rsum (h y :: map h (insert x l))) with (h y + rsum (map h (insert x l))).
  change (rsum (h y :: map h l)) with (h y + rsum (map h l)). rewrite IH by (intros I; apply N; now right). ring.
Qed.
Lemma insert_old x l : Sorted.StronglySorted Z.lt l -> In x l -> insert x l = l.
Proof.
  induction 1 as [|y l S IH F]; intros I; [contradiction|]. cbn. destruct (Z.ltb_spec x y) as [L|L].
  - destruct I as [->|I]; [lia|]. pose proof (proj1 (Forall_forall _ _) F x I) as K. cbn in K. lia.
  - destruct (Z.eqb_spec x y) as [->|N]; [reflexivity|]. destruct I as [->|I]; [contradiction|]. now rewrite IH.
Qed.
Lemma insert_sorted x l : Sorted.StronglySorted Z.lt l -> Sorted.StronglySorted Z.lt (insert x l).
Proof.
  induction 1 as [|y l S IH F]; cbn; [repeat constructor|]. destruct (Z.ltb_spec x y) as [L|L].
  - constructor; [constructor; assumption|]. constructor; [assumption|]. apply Forall_forall. intros z I. pose proof (proj1 (Forall_forall _ _) F z I) as K. cbn in K. lia.
  - destruct (Z.eqb_spec x y) as [->|N]; [constructor; assumption|]. constructor; [assumption|]. apply Forall_forall. intros z I.
    apply insert_in in I as [->|I]; [lia|]. apply (proj1 (Forall_forall _ _) F z I).
Qed.
Lemma unique_sorted l : Sorted.StronglySorted Z.lt (unique_values l).
Proof. induction l as [|x l IH]; cbn; [constructor|]. now apply insert_sorted. Qed.
Lemma sorted_nodup l : Sorted.StronglySorted Z.lt l -> NoDup l.
Proof.
  induction 1 as [|x l S IH F]; constructor; [|assumption]. intros I. pose proof (proj1 (Forall_forall _ _) F x I) as K. cbn in K. lia.
Qed.
Lemma rsum_bump (h : Z -> R) (c c' : Z -> R) x l : NoDup l -> In x l -> c' x = c x + 1 -> (forall y, y <> x -> c' y = c y) ->
  rsum (map (fun r => h r * c' r) l) = h x + rsum (map (fun r => h r * c r) l).
Proof.
  intros N I X Y. induction N as [|y l K N IH]; [contradiction|]. cbn [map].
  change (rsum (?a :: ?b)) with (a + rsum b). change (rsum (h y * c y :: ?b)) with (h y * c y + rsum b).
  destruct I as [->|I].
  - rewrite X. assert (E : rsum (map (fun r => h r * c' r) l) = rsum (map (fun r => h r * c r) l)).
    { apply rsum_ext. intros z J. rewrite Y; [reflexivity|]. intros ->. contradiction. }
    rewrite E. ring.
  - rewrite IH by assumption. rewrite (Y y) by (intros ->; contradiction). ring.
Qed.
Lemma count_cons x y l : INR (count x (y :: l)) = (if (x =? y)%Z then 1 else 0) + INR (count x l).
Proof. unfold count. cbn [filter]. destruct (x =? y)%Z; [cbn [length]; rewrite S_INR; ring|ring]. Qed.
Lemma count_out x l : ~ In x l -> count x l = 0%nat.
Proof.
  unfold count. induction l as [|y l IH]; intros N; [reflexivity|]. cbn. destruct (Z.eqb_spec x y) as [->|K]; [exfalso; apply N; now left|]. apply IH. intros I. apply N. now right.
Qed.
Lemma counted (h : Z -> R) l : rsum (map (fun r => h r * INR (count r l)) (unique_values l)) = rsum (map h l).
Proof.
  induction l as [|x l IH]; [reflexivity|]. cbn [unique_values fold_right]. fold (unique_values l).
  change (rsum (map h (x :: l))) with (h x + rsum (map h l)). rewrite <- IH.
  assert (B : forall m, NoDup m -> In x m -> rsum (map (fun r => h r * INR (count r (x :: l))) m) = h x + rsum (map (fun r => h r * INR (count r l)) m)).
  { intros m N I. apply (rsum_bump h (fun r => INR (count r l)) (fun r => INR (count r (x :: l))) x m N I).
    - rewrite count_cons, Z.eqb_refl. ring.
    - intros y Y. rewrite count_cons. destruct (Z.eqb_spec y x); [contradiction|]. ring. }
  destruct (in_dec Z.eq_dec x (unique_values l)) as [I|N].
  - rewrite (insert_old x _ (unique_sorted l) I). apply B; [apply sorted_nodup, unique_sorted|assumption].
  - rewrite B; [|apply sorted_nodup, insert_sorted, unique_sorted|apply insert_in; now left].
    rewrite rsum_insert by assumption. rewrite (count_out x l) by (intros I; apply N, unique_in, I). cbn [INR]. ring.
Qed.

(** With Mini-Arrays of the same response whenever their rotations are the same modulo 60
    degrees, the grouped gain is the mean over the Mini-Arrays. *)
Theorem grouped_mean : forall rotations gain, rotations <> [] ->
  (forall i j, (i < length rotations)%nat -> (j < length rotations)%nat ->
     (nth i rotations 0 mod 60 = nth j rotations 0 mod 60)%Z -> gain i = gain j) ->
  mean_gain (map gain (seq 0 (length rotations))) = Some (grouped_gain rotations gain).
Proof.
  intros rotations gain N H. pose proof (inr_pos rotations N) as P. unfold grouped_gain. cbv zeta. set (keys := map (fun r => (r mod 60)%Z) rotations).
  assert (LK : length keys = length rotations) by apply map_length.
  assert (D : rsum (map (fun r => INR (count r keys)) (unique_values keys)) = INR (length rotations)).
  { rewrite <- LK. transitivity (rsum (map (fun r => 1 * INR (count r keys)) (unique_values keys))); [apply rsum_ext; intros; ring|].
    rewrite (counted (fun _ => 1) keys). clear. induction keys as [|k l IH]; [reflexivity|]. cbn [length]. rewrite S_INR.
    change (rsum (map (fun _ => 1) (k :: l))) with (1 + rsum (map (fun _ => 1) l)). rewrite IH. ring. }
  rewrite D, (counted (fun r => gain (first_index r keys)) keys).
  assert (E : map (fun r => gain (first_index r keys)) keys = map gain (seq 0 (length rotations))).
  { apply (nth_ext _ _ 0 0); [rewrite !map_length, seq_length; exact LK|]. intros k K. rewrite map_length in K.
    transitivity (gain (first_index (nth k keys 0%Z) keys)).
    - rewrite (nth_indep _ 0 (gain (first_index 0%Z keys))) by (now rewrite map_length). apply (map_nth (fun r => gain (first_index r keys))).
    - rewrite (nth_indep _ 0 (gain 0%nat)) by (rewrite map_length, seq_length; lia). rewrite (map_nth gain), seq_nth by lia. cbn [plus].
      destruct (first_index_spec (nth k keys 0%Z) keys (nth_In _ _ K)) as [A B].
      assert (KN : forall i, nth i keys 0%Z = (nth i rotations 0 mod 60)%Z) by (intros i; exact (map_nth (fun r => (r mod 60)%Z) rotations 0%Z i)).
      apply H; [lia|lia|]. rewrite <- !KN. exact B. }
  rewrite E. destruct rotations as [|r rs]; [contradiction|]. cbn [length seq map mean_gain]. do 2 f_equal. rewrite map_length, seq_length. reflexivity.
Qed.

(** [normalize=False] does not reach the array factor of the whole array. *)
Theorem not_normalised : forall ants rotations gain f s p q, ants <> [] -> af_power false ants f s p = Some q ->
  nenufar_value false ants rotations gain f s p = Some (q * grouped_gain rotations (gain false) / INR (length ants) ^ 2).
Proof.
  intros ants rotations gain f s p q N E. rewrite af_false in E. injection E as <-. unfold nenufar_value. rewrite (af_true ants f s p N).
  f_equal. field. pose proof (inr_pos ants N). lra.
Qed.
Theorem not_normalised_refuted : exists ants rotations gain f s p q v, legal ants /\ length rotations = length ants /\
  af_power false ants f s p = Some q /\ nenufar_value false ants rotations gain f s p = Some v /\
  v <> q * grouped_gain rotations (gain false).
Proof.
  set (u := mkVec 0 0 1). set (gain := fun (_ : bool) (_ : nat) => 1).
  exists [here; here], [0%Z; 60%Z], gain, 1, u, u, ((1 + (1 + 0)) ^ 2).
  exists ((1 + (1 + 0)) ^ 2 * grouped_gain [0%Z; 60%Z] (gain false) / INR 2 ^ 2).
  assert (C : af_power false [here; here] 1 u u = Some ((1 + (1 + 0)) ^ 2)).
  { rewrite (af_centre [here; here] 1 u 0); [reflexivity|]. intros a [<-|[<-|[]]]; reflexivity. }
  assert (G : grouped_gain [0%Z; 60%Z] (gain false) = 1).
  { assert (M : mean_gain (map (gain false) (seq 0 2)) = Some (grouped_gain [0%Z; 60%Z] (gain false))).
    { apply (grouped_mean [0%Z; 60%Z]); [discriminate|]. intros; reflexivity. }
    cbn [seq map mean_gain] in M. injection M as M. rewrite <- M. unfold gain. cbn. field. }
  split; [repeat constructor; cbn; lra|]. split; [reflexivity|]. split; [exact C|]. split.
  - apply (not_normalised [here; here] [0%Z; 60%Z] gain 1 u u); [discriminate|exact C].
  - rewrite G. cbn. lra.
Qed.
