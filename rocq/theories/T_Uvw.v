(** C142 to C149: projected baselines, coverages, rephasing and images. *)
From Coq Require Import ZArith QArith Reals Bool List Arith Lia Lra Permutation.
From Verif Require Import Base M_Polar M_Nd M_Xst M_Beam M_Jones M_Area M_Sefd M_Uvw P_Area P_Uvw P_Uvw2 P_Uvw3 P_Uvw4 P_Uvw5 P_Uvw6 P_Uvw7.
From Verif Require P_Beam.
Import ListNotations.
Open Scope list_scope.
Open Scope R_scope.

(** ** C142: [compute_uvw] *)
Theorem C142_axes : forall h d,
  square (east h) = 1 /\ square (north h d) = 1 /\ square (towards h d) = 1 /\
  vdot (east h) (north h d) = 0 /\ vdot (east h) (towards h d) = 0 /\ vdot (north h d) (towards h d) = 0 /\
  vcross (east h) (north h d) = towards h d.
Proof. exact axes_frame. Qed.
Print Assumptions C142_axes.
Theorem C142_value : forall itrf lst zenith c l t s ra dec i j p q,
  compute_uvw itrf lst zenith c = Ok l -> nth_error lst t = Some s -> aimed zenith c t (ra, dec) ->
  nth_error itrf i = Some p -> nth_error itrf j = Some q -> (j <= i)%nat ->
  baseline_at l t i j (seen (s - ra) dec (vsub p q)).
Proof. exact uvw_value. Qed.
Print Assumptions C142_value.
Theorem C142_shape : forall itrf lst zenith c l, length zenith = length lst -> compute_uvw itrf lst zenith c = Ok l ->
  length l = length lst /\ Forall (fun row => length row = (length itrf * (length itrf + 1) / 2)%nat) l.
Proof. exact uvw_shape. Qed.
Print Assumptions C142_shape.
Theorem C142_refused : forall itrf lst zenith c e, compute_uvw itrf lst zenith c = Err e <->
  (e = EAttributeError /\ c = Some Horizontal) \/ (e = EValueError /\ exists l, c = Some (Moving l) /\ length l <> length lst).
Proof. exact uvw_refused. Qed.
Print Assumptions C142_refused.
Theorem C142_length : forall itrf lst zenith c l t i j p q x, length zenith = length lst ->
  compute_uvw itrf lst zenith c = Ok l -> (t < length lst)%nat ->
  nth_error itrf i = Some p -> nth_error itrf j = Some q -> (j <= i)%nat -> baseline_at l t i j x ->
  square x = square (vsub p q) /\ (p = q -> x = mkVec 0 0 0).
Proof. exact uvw_length. Qed.
Print Assumptions C142_length.
Theorem C142_triangle : forall itrf lst zenith c l t i j k x y z, length zenith = length lst ->
  compute_uvw itrf lst zenith c = Ok l -> (t < length lst)%nat -> (k <= j <= i)%nat -> (i < length itrf)%nat ->
  baseline_at l t i j x -> baseline_at l t j k y -> baseline_at l t i k z -> z = vadd x y.
Proof. exact uvw_triangle. Qed.
Print Assumptions C142_triangle.
Theorem C142_moved : forall v itrf lst zenith c, compute_uvw (map (vadd v) itrf) lst zenith c = compute_uvw itrf lst zenith c.
Proof. exact uvw_moved. Qed.
Print Assumptions C142_moved.
Theorem C142_repeated : forall itrf lst zenith ra dec, length zenith = length lst ->
  compute_uvw itrf lst zenith (Some (Fixed ra dec)) = compute_uvw itrf lst zenith (Some (Moving (map (fun _ => (ra, dec)) lst))) /\
  compute_uvw itrf lst zenith None = compute_uvw itrf lst zenith (Some (Moving zenith)).
Proof. exact uvw_repeated. Qed.
Print Assumptions C142_repeated.
(** Three antennas, two times. *)
Definition demo_itrf : list vec := [mkVec 0 0 0; mkVec 100 0 0; mkVec 0 50 20].
Definition demo_lst : list R := [0; 1].
Definition demo_zenith : list (R * R) := [(0, 1 / 2); (1, 1 / 2)].
Example C142_value_ex : exists l, compute_uvw demo_itrf demo_lst demo_zenith (Some (Fixed 1 (1 / 2))) = Ok l /\ length l = 2%nat /\
  baseline_at l 1 2 1 (seen (1 - 1) (1 / 2) (vsub (mkVec 0 50 20) (mkVec 100 0 0))).
Proof.
  eexists. split; [reflexivity|]. split; [reflexivity|].
  eapply (C142_value demo_itrf demo_lst demo_zenith (Some (Fixed 1 (1 / 2)))); try reflexivity; lia.
Qed.
Example C142_refused_ex : compute_uvw demo_itrf demo_lst demo_zenith (Some (Moving [(0, 0)])) = Err EValueError /\
  compute_uvw demo_itrf demo_lst demo_zenith (Some Horizontal) = Err EAttributeError.
Proof. split; reflexivity. Qed.

(** ** C143: [UV_Coverage] *)
Theorem C143_accepted : forall n uvw, (exists cov, coverage n uvw = Ok cov) <-> exists a, n = triangular a.
Proof. exact coverage_accepted. Qed.
Print Assumptions C143_accepted.
Theorem C143_refused : forall n uvw e, coverage n uvw = Err e -> e = EIndexError.
Proof. exact coverage_refused. Qed.
Print Assumptions C143_refused.
Theorem C143_size : forall a uvw cov, Forall (fun row => length row = triangular a) uvw -> coverage (triangular a) uvw = Ok cov ->
  length cov = length uvw /\ Forall (fun row => length row = (a * a)%nat) cov.
Proof. exact coverage_size. Qed.
Print Assumptions C143_size.
Theorem C143_kept : forall a uvw cov t k row old x, coverage (triangular a) uvw = Ok cov -> nth_error uvw t = Some old -> nth_error cov t = Some row ->
  nth_error old k = Some x -> nth_error row k = Some x.
Proof. exact coverage_kept. Qed.
Print Assumptions C143_kept.
Theorem C143_symmetric : forall itrf lst zenith c l cov row, compute_uvw itrf lst zenith c = Ok l ->
  coverage (triangular (length itrf)) l = Ok cov -> In row cov -> Permutation (map uv row) (map opposite (map uv row)).
Proof. exact coverage_symmetric. Qed.
Print Assumptions C143_symmetric.
Theorem C143_third_refuted : exists itrf lst zenith c l cov row x, compute_uvw itrf lst zenith c = Ok l /\
  coverage (triangular (length itrf)) l = Ok cov /\ In row cov /\ In x row /\ ~ In (vneg x) row.
Proof. exact coverage_w_refuted. Qed.
Print Assumptions C143_third_refuted.
Theorem C143_distance : forall itrf lst zenith c l t i j p q, length zenith = length lst -> compute_uvw itrf lst zenith c = Ok l ->
  nth_error itrf i = Some p -> nth_error itrf j = Some q -> (j <= i)%nat -> (t < length l)%nat ->
  forall cov, coverage (triangular (length itrf)) l = Ok cov ->
  exists row, nth_error (uv_distance cov) t = Some row /\ nth_error row (i * (i + 1) / 2 + j) = Some (sqrt (square (vsub p q))).
Proof. exact distance_value. Qed.
Print Assumptions C143_distance.
Theorem C143_distance_refuted : exists itrf lst zenith c l cov row x, compute_uvw itrf lst zenith c = Ok l /\
  coverage (triangular (length itrf)) l = Ok cov /\ In row cov /\ In x row /\ norm x = 1 /\ sqrt (vx x ^ 2 + vy x ^ 2) = 0.
Proof. exact distance_refuted. Qed.
Print Assumptions C143_distance_refuted.
Example C143_ex : exists l cov, compute_uvw demo_itrf demo_lst demo_zenith None = Ok l /\ coverage (triangular (length demo_itrf)) l = Ok cov /\
  length cov = 2%nat /\ Forall (fun row => length row = 9%nat) cov /\ coverage 5 l = Err EIndexError.
Proof.
  eexists. eexists. split; [reflexivity|]. split; [reflexivity|]. split; [reflexivity|]. split; [|reflexivity]. repeat constructor.
Qed.

(** ** C144: profiles *)
Theorem C144_points_counted : forall itrf lst zenith c l cov t row, compute_uvw itrf lst zenith c = Ok l ->
  coverage (triangular (length itrf)) l = Ok cov -> nth_error l t = Some row ->
  exists all, nth_error cov t = Some all /\
    (length (above (map uv all)) + length (filter (fun p => if Req_EM_T (snd p) 0 then true else false) (map uv row)) = triangular (length itrf))%nat.
Proof. exact points_counted. Qed.
Print Assumptions C144_points_counted.
Theorem C144_points : forall frequencies cov, upper_half (uv_points frequencies cov) =
  above (match frequencies with
         | None => flat_map (map uv) cov
         | Some fs => flat_map (fun row => flat_map (fun f => map (fun a => (vx a * (f / 299792458), vy a * (f / 299792458))) row) fs) cov
         end).
Proof. exact points_of. Qed.
Print Assumptions C144_points.
Theorem C144_azimuth_shape : forall w k cov angles density, 0 < w -> upper_integer (180 / w) k -> azimuthal_profile None w cov = Ok (angles, density) ->
  length angles = Z.to_nat k /\ length density = Z.to_nat k /\
  forall i, (i < Z.to_nat k)%nat -> nth_error angles i = Some ((INR i + 1 / 2) * w).
Proof. exact azimuth_shape. Qed.
Print Assumptions C144_azimuth_shape.
Theorem C144_azimuth_density : forall w cov angles density, 0 < w -> azimuthal_profile None w cov = Ok (angles, density) ->
  (above (flat_map (map uv) cov) <> [] -> unit_peak density /\
     exists m, In m (azimuth_counts w cov) /\ (0 < m)%nat /\ forall i c, nth_error (azimuth_counts w cov) i = Some c -> nth_error density i = Some (Some (INR c / INR m))) /\
  (above (flat_map (map uv) cov) = [] -> forall y, In y density -> y = None).
Proof. exact azimuth_density. Qed.
Print Assumptions C144_azimuth_density.
Theorem C144_azimuth_total : forall w cov, 0 < w ->
  let n := length (above (flat_map (map uv) cov)) in
  (n <= list_sum (azimuth_counts w cov) <= 2 * n)%nat /\
  ((forall p i, In p (above (flat_map (map uv) cov)) -> (0 < i)%nat -> uv_angle p <> INR i * w) -> list_sum (azimuth_counts w cov) = n).
Proof. exact azimuth_total. Qed.
Print Assumptions C144_azimuth_total.
Theorem C144_azimuth_refused : forall frequencies w cov e, 0 < w -> azimuthal_profile frequencies w cov = Err e <-> e = ETypeError /\ frequencies <> None.
Proof. exact azimuth_refused. Qed.
Print Assumptions C144_azimuth_refused.
Theorem C144_azimuth_twice_refuted : exists w cov, 0 < w /\ length (above (flat_map (map uv) cov)) = 1%nat /\ list_sum (azimuth_counts w cov) = 2%nat.
Proof. exact azimuth_twice_refuted. Qed.
Print Assumptions C144_azimuth_twice_refuted.
Theorem C144_angle : forall p, 0 < snd p -> 0 < uv_angle p < 180 /\
  fst p = uv_norm p * cos (uv_angle p * PI / 180) /\ snd p = uv_norm p * sin (uv_angle p * PI / 180).
Proof. exact (fun p H => conj (angle_range p H) (angle_value p H)). Qed.
Print Assumptions C144_angle.
Theorem C144_radial_refused : forall frequencies w cov, 0 < w ->
  let d := map (fun p => sqrt (fst p ^ 2 + snd p ^ 2)) (upper_half (uv_points frequencies cov)) in
  (forall e, radial_profile frequencies w cov = Err e -> e = EValueError) /\
  ((exists r, radial_profile frequencies w cov = Ok r) <-> exists x y, In x d /\ In y d /\ x <> y).
Proof. exact radial_refused. Qed.
Print Assumptions C144_radial_refused.
Theorem C144_radial : forall frequencies w cov, 0 < w ->
  let d := map (fun p => sqrt (fst p ^ 2 + snd p ^ 2)) (upper_half (uv_points frequencies cov)) in
  forall distances density, radial_profile frequencies w cov = Ok (distances, density) ->
  exists lo hi k bins, smallest d lo /\ largest d hi /\ upper_integer ((hi - lo) / w) k /\ bins_from lo w (Z.to_nat k) bins /\
    length distances = Z.to_nat k /\ (forall i, (i < Z.to_nat k)%nat -> nth_error distances i = Some (lo + (INR i + 1 / 2) * w)) /\
    length density = Z.to_nat k /\ unit_peak density /\
    (length d <= list_sum (map (fun b => bin_count b d) bins) <= 2 * length d)%nat /\
    exists m, 0 < m /\ forall i b x, nth_error bins i = Some b -> nth_error distances i = Some x -> nth_error density i = Some (Some (INR (bin_count b d) / x / m)).
Proof. exact radial_profile_value. Qed.
Print Assumptions C144_radial.
(** Baselines of 3 and 5 meters to the north. *)
Lemma demo_above : upper_half (uv_points None [[mkVec 0 3 1; mkVec 0 5 1; mkVec 0 (-3) 1; mkVec 0 0 0]]) = [(0, 3); (0, 5)].
Proof. cbn. destruct (Rlt_dec 0 3), (Rlt_dec 0 5), (Rlt_dec 0 (-3)), (Rlt_dec 0 0); try lra. reflexivity. Qed.
Example C144_radial_ex : exists r, radial_profile None 1 [[mkVec 0 3 1; mkVec 0 5 1; mkVec 0 (-3) 1; mkVec 0 0 0]] = Ok r.
Proof.
  apply (proj2 (C144_radial_refused None 1 [[mkVec 0 3 1; mkVec 0 5 1; mkVec 0 (-3) 1; mkVec 0 0 0]] ltac:(lra))). rewrite demo_above.
  exists 3, 5. cbn [map fst snd]. replace (0 ^ 2 + 3 ^ 2) with (3 * 3) by ring. replace (0 ^ 2 + 5 ^ 2) with (5 * 5) by ring. rewrite !sqrt_square by lra.
  split; [now left|]. split; [right; now left|lra].
Qed.
Example C144_azimuth_ex : exists angles density, azimuthal_profile None 60 [[mkVec 0 3 1; mkVec 0 5 1; mkVec 0 (-3) 1; mkVec 0 0 0]] = Ok (angles, density) /\
  length angles = 3%nat /\ unit_peak density.
Proof.
  assert (U : upper_integer (180 / 60) 3) by (unfold upper_integer; lra).
  destruct (azimuthal_profile None 60 [[mkVec 0 3 1; mkVec 0 5 1; mkVec 0 (-3) 1; mkVec 0 0 0]]) as [[angles density]|e] eqn:E.
  - exists angles, density. split; [reflexivity|]. split; [apply (C144_azimuth_shape 60 3 _ angles density ltac:(lra) U E)|].
    apply (proj1 (C144_azimuth_density 60 _ angles density ltac:(lra) E)). change (flat_map (map uv)) with (uv_points None). rewrite <- upper_above, demo_above. discriminate.
  - apply C144_azimuth_refused in E; [|lra]. destruct E as [_ E]. congruence.
Qed.

(** ** C145: [psf] *)
Theorem C145_cell : forall n l i j rx ry, (0 < n)%nat -> l <> [] -> axis (map fst l) rx -> axis (map snd l) ry ->
  exists kept, hist2d n l i j = length kept /\ (forall p, In p kept <-> In p l /\ in_part rx n i (fst p) /\ in_part ry n j (snd p)).
Proof. exact grid_cell. Qed.
Print Assumptions C145_cell.
Theorem C145_refused : forall frequencies n cov e, psf frequencies n cov = Err e <-> e = EValueError /\ n = 0%nat.
Proof. exact psf_refused. Qed.
Print Assumptions C145_refused.
Theorem C145_centre : forall frequencies n cov g, psf frequencies n cov = Ok g ->
  g (n / 2)%nat (n / 2)%nat = (INR (length (nonzero frequencies cov)), 0).
Proof. exact psf_centre. Qed.
Print Assumptions C145_centre.
Theorem C145_bound : forall frequencies n cov g a b, psf frequencies n cov = Ok g ->
  re (g a b) ^ 2 + im (g a b) ^ 2 <= INR (length (nonzero frequencies cov)) ^ 2.
Proof. exact psf_bound. Qed.
Print Assumptions C145_bound.
Theorem C145_conjugate : forall frequencies n cov g a b a' b', psf frequencies n cov = Ok g ->
  (a + a' = 2 * (n / 2))%nat -> (b + b' = 2 * (n / 2))%nat -> g a b = cconj (g a' b').
Proof. exact psf_conjugate. Qed.
Print Assumptions C145_conjugate.
Example C145_ex : exists g, psf None 4 [[mkVec 1 2 0; mkVec (-1) (-2) 0; mkVec 0 0 7]] = Ok g /\ g 2%nat 2%nat = (2, 0) /\ g 1%nat 3%nat = cconj (g 3%nat 1%nat).
Proof.
  destruct (psf None 4 [[mkVec 1 2 0; mkVec (-1) (-2) 0; mkVec 0 0 7]]) as [g|] eqn:E; [|discriminate]. exists g. split; [reflexivity|].
  split; [|apply (C145_conjugate _ _ _ _ _ _ _ _ E); reflexivity]. change 2%nat with (4 / 2)%nat at 1 2. rewrite (C145_centre _ _ _ _ E).
  unfold nonzero, not_zero. cbn. repeat (destruct (Req_EM_T _ _); try lra; cbn). reflexivity.
Qed.

(** ** C146: [rephase_visibilities] *)
Theorem C146_uvw : forall itrf lst zenith frequencies ra dec fac l, length zenith = length lst ->
  rephase_visibilities itrf lst zenith frequencies (ra, dec) None = Ok (fac, l) ->
  compute_uvw itrf lst zenith (Some (Fixed ra dec)) = Ok l.
Proof. exact rephase_uvw. Qed.
Print Assumptions C146_uvw.
Theorem C146_factors : forall itrf lst zenith frequencies ra dec fac l old t i j k f x y, length zenith = length lst ->
  rephase_visibilities itrf lst zenith frequencies (ra, dec) None = Ok (fac, l) -> compute_uvw itrf lst zenith None = Ok old ->
  nth_error frequencies k = Some f -> baseline_at old t i j x -> baseline_at l t i j y ->
  exists c, at3 fac t k (i * (i + 1) / 2 + j) c /\ turns f (vz x - vz y) c.
Proof. exact rephase_factors. Qed.
Print Assumptions C146_factors.
Theorem C146_modulus : forall origin new frequencies uvw t k b c, at3 (factors origin new frequencies uvw) t k b c ->
  re c ^ 2 + im c ^ 2 = 1.
Proof. exact rephase_modulus. Qed.
Print Assumptions C146_modulus.
Theorem C146_same : forall origin new frequencies uvw t k b c, at3 (factors origin new frequencies uvw) t k b c ->
  nth_error origin t = Some new \/ (exists row, nth_error uvw t = Some row /\ nth_error row b = Some (mkVec 0 0 0)) -> c = (1, 0).
Proof. exact rephase_same. Qed.
Print Assumptions C146_same.
Theorem C146_chain : forall origin new final frequencies uvw t k b c1 c2 c3,
  at3 (factors origin new frequencies uvw) t k b c1 ->
  at3 (factors (map (fun _ => new) origin) final frequencies (turned origin new uvw)) t k b c2 ->
  at3 (factors origin final frequencies uvw) t k b c3 ->
  c3 = cmult c1 c2 /\ turned (map (fun _ => new) origin) final (turned origin new uvw) = turned origin final uvw.
Proof. exact rephase_chain. Qed.
Print Assumptions C146_chain.
Theorem C146_length : forall origin new uvw t i j x y, baseline_at uvw t i j x -> baseline_at (turned origin new uvw) t i j y -> square y = square x.
Proof. exact turned_length. Qed.
Print Assumptions C146_length.
(** A quarter of a turn: a wavelength of four meters, a path longer by one meter. *)
Example C146_ex : at3 (factors [(0, 0)] (PI / 2, 0) [299792458 / 4] [[mkVec 1 0 0]]) 0 0 0 (0, -1).
Proof.
  eexists. eexists. split; [reflexivity|]. split; [reflexivity|]. cbn [nth_error map]. f_equal. unfold rephase_factor. rewrite wave_cis.
  unfold rephase_length, vis_matrix, mapply, vdot, vsub. cbn [row0 row1 row2 vx vy vz]. rewrite sin_0, cos_0, sin_PI2, cos_PI2.
  match goal with |- (cos ?x, sin ?x) = _ => replace x with (- (PI / 2)) by field end. rewrite cos_neg, sin_neg, cos_PI2, sin_PI2. f_equal; ring.
Qed.
Example C146_visibilities_ex : exists fac l, rephase_visibilities demo_itrf demo_lst demo_zenith [30000000; 60000000] (1, 1) None = Ok (fac, l) /\ length fac = 2%nat /\
  compute_uvw demo_itrf demo_lst demo_zenith (Some (Fixed 1 1)) = Ok l.
Proof. eexists. eexists. split; [reflexivity|]. split; [reflexivity|]. exact (C146_uvw demo_itrf demo_lst demo_zenith [30000000; 60000000] 1 1 _ _ eq_refl eq_refl). Qed.

(** ** C147: [Crosslet.rephase] *)
Theorem C147_returns : forall itrf_of lst zenith hertz,
  forall x ra dec v, rephase itrf_of lst zenith hertz x (Fixed ra dec) = Ok v ->
  exists row rest l, x_freq x = ByTime (row :: rest) /\
    rephase_visibilities (itrf_of (x_mas x)) (map lst (x_time x)) (map zenith (x_time x)) (map hertz row) (ra, dec) None = Ok (v, l).
Proof. exact rephase_returns. Qed.
Print Assumptions C147_returns.
Theorem C147_ignores : forall itrf_of lst zenith hertz,
  forall (x y : xst cpx) new, x_mas x = x_mas y -> x_time x = x_time y -> x_freq x = x_freq y ->
  rephase itrf_of lst zenith hertz x new = rephase itrf_of lst zenith hertz y new.
Proof. exact rephase_ignores. Qed.
Print Assumptions C147_ignores.
Theorem C147_refused : forall itrf_of lst zenith hertz,
  forall x new e, rephase itrf_of lst zenith hertz x new = Err e <->
  (e = EValueError /\ exists l, new = Moving l) \/ (e = EAttributeError /\ new = Horizontal) \/
  (e = EIndexError /\ (exists ra dec, new = Fixed ra dec) /\ (x_freq x = ByTime [] \/ exists row, x_freq x = Common row)).
Proof. exact rephase_refused. Qed.
Print Assumptions C147_refused.
Theorem C147_applied_refuted : exists itrf_of lst zenith hertz x ra dec v,
  rephase itrf_of lst zenith hertz x (Fixed ra dec) = Ok v /\
  exists t k b c, at3 v t k b c /\ get (x_data x) [t; k; b] = (2, 0) /\
    forall c', re c' ^ 2 + im c' ^ 2 = 1 -> c <> cmult (get (x_data x) [t; k; b]) c'.
Proof. exact rephase_refuted. Qed.
Print Assumptions C147_applied_refuted.
Example C147_ex : let x := mkXst [0%nat; 1%nat] [0%Q] (ByTime [[1%Q; 2%Q]]) (mkNd [1; 2; 3]%nat (fun _ => (5, 0))) in
  (exists v, rephase (fun _ => demo_itrf) (fun _ => 0) (fun _ => (0, 1)) (fun _ => 50000000) x (Fixed 1 0) = Ok v) /\
  rephase (fun _ => demo_itrf) (fun _ => 0) (fun _ => (0, 1)) (fun _ => 50000000) x (Moving []) = Err EValueError.
Proof. split; [eexists; reflexivity|reflexivity]. Qed.

(** ** C148: coordinates of the pixels, images *)
Theorem C148_coordinates : forall c p, vx (lmn c p) = vx (cosines c p) /\ vy (lmn c p) = vy (cosines c p) /\ vz (lmn c p) = Rabs (vz (cosines c p)).
Proof. exact lmn_value. Qed.
Print Assumptions C148_coordinates.
Theorem C148_unit : forall c p, square (lmn c p) = 1 /\ 0 <= vz (lmn c p).
Proof. exact lmn_square. Qed.
Print Assumptions C148_unit.
Theorem C148_near : forall c p, 0 <= vz (cosines c p) <-> lmn c p = cosines c p.
Proof. exact lmn_near. Qed.
Print Assumptions C148_near.
Theorem C148_centre : forall c, lmn c c = mkVec 0 0 1.
Proof. exact lmn_centre. Qed.
Print Assumptions C148_centre.
Theorem C148_far_refuted : exists c p q, lmn c p = lmn c q /\ cosines c p <> cosines c q.
Proof. exact lmn_refuted. Qed.
Print Assumptions C148_far_refuted.
Theorem C148_shape : forall itrf lst zenith noon frequencies value c pixels,
  exists l, make_image itrf lst zenith noon frequencies value c pixels = Ok l /\ length l = length pixels /\ (forall x, In x l -> x = None <-> (length itrf <= 1)%nat).
Proof. exact image_shape. Qed.
Print Assumptions C148_shape.
Theorem C148_source : forall itrf lst zenith noon frequencies value c pixels l k p, length zenith = length lst ->
  (1 < length itrf)%nat -> frequencies <> [] -> lst <> [] -> source_seen itrf lst zenith frequencies p value ->
  make_image itrf lst zenith noon frequencies value (Some c) pixels = Ok l -> nth_error pixels k = Some p ->
  p = c \/ (length lst = 1%nat /\ 0 <= vz (cosines c p)) -> nth_error l k = Some (Some 1).
Proof. exact image_source. Qed.
Print Assumptions C148_source.
Theorem C148_bound : forall itrf lst zenith noon frequencies value c pixels l k r M, 0 <= M ->
  (forall t f b v, at3 value t f b v -> re v ^ 2 + im v ^ 2 <= M ^ 2) ->
  make_image itrf lst zenith noon frequencies value c pixels = Ok l -> nth_error l k = Some (Some r) -> Rabs r <= M.
Proof. exact image_bound. Qed.
Print Assumptions C148_bound.
Theorem C148_sum : forall itrf lst zenith noon frequencies v w s c pixels k iv iw is j x y, combined k v w s ->
  make_image itrf lst zenith noon frequencies v c pixels = Ok iv -> make_image itrf lst zenith noon frequencies w c pixels = Ok iw ->
  make_image itrf lst zenith noon frequencies s c pixels = Ok is ->
  nth_error iv j = Some (Some x) -> nth_error iw j = Some (Some y) -> nth_error is j = Some (Some (x + k * y)).
Proof. exact image_sum. Qed.
Print Assumptions C148_sum.
Example C148_source_ex : exists value l, source_seen [mkVec 0 0 0; mkVec 100 0 0] [0] [(0, 1)] [50000000] (1, 1) value /\
  make_image [mkVec 0 0 0; mkVec 100 0 0] [0] [(0, 1)] (0, 1) [50000000] value (Some (1, 1)) [(1, 1); (1, 0)] = Ok l /\ nth_error l 0 = Some (Some 1).
Proof.
  set (x := vdot (vsub (mkVec 100 0 0) (mkVec 0 0 0)) (towards (0 - 1) 1) - vdot (vsub (mkVec 100 0 0) (mkVec 0 0 0)) (towards (0 - 0) 1)).
  set (v := (cos (2 * PI * (x * 50000000 / 299792458)), sin (2 * PI * (x * 50000000 / 299792458)))). exists [[[(1, 0); v; (1, 0)]]]. eexists.
  assert (S : source_seen [mkVec 0 0 0; mkVec 100 0 0] [0] [(0, 1)] [50000000] (1, 1) [[[(1, 0); v; (1, 0)]]]).
  { intros t k i j s z f a b Hs Hz Hf Ha Hb J. destruct t as [|[|]]; cbn in Hs; try discriminate. injection Hs as <-. cbn in Hz. injection Hz as <-.
    destruct k as [|[|]]; cbn in Hf; try discriminate. injection Hf as <-. destruct i as [|[|[|]]]; cbn in Ha; try discriminate; [lia|]. injection Ha as <-.
    destruct j as [|]; [|lia]. cbn in Hb. injection Hb as <-. exists v. split; [|reflexivity]. eexists. eexists. split; [reflexivity|]. split; reflexivity. }
  split; [exact S|]. split; [reflexivity|].
  eapply (C148_source [mkVec 0 0 0; mkVec 100 0 0] [0] [(0, 1)] (0, 1) [50000000] _ (1, 1) [(1, 1); (1, 0)] _ 0 (1, 1)); try reflexivity; try discriminate; [cbn; lia|exact S|now left].
Qed.

(** ** C149: [make_nearfield] *)
Theorem C149_value : forall enu frequencies vis,
  forall x y, nearfield enu frequencies vis x y =
  rmean (map (fun p => sqrt (power (cmean (map (fun k =>
      cmult (vis k p) (cis (2 * PI * (ground_path enu x y (fst p) - ground_path enu x y (snd p)) / wavelength (nth k frequencies 0)))) (seq 0 (length frequencies))))))
    (filter (fun p => negb (is_auto p)) (tril (length enu)))).
Proof. exact nearfield_value. Qed.
Print Assumptions C149_value.
Theorem C149_none : forall enu frequencies vis,
  forall x y, nearfield enu frequencies vis x y = None <-> (length enu <= 1)%nat.
Proof. exact nearfield_none. Qed.
Print Assumptions C149_none.
Theorem C149_bound : forall enu frequencies vis,
  forall M x y r, 0 <= M -> (forall k p, (snd p < fst p < length enu)%nat -> power (vis k p) <= M ^ 2) ->
  nearfield enu frequencies vis x y = Some r -> 0 <= r <= M.
Proof. exact nearfield_bound. Qed.
Print Assumptions C149_bound.
Theorem C149_emitter : forall enu frequencies vis,
  forall x y, (1 < length enu)%nat -> frequencies <> [] ->
  (forall k f i j, nth_error frequencies k = Some f -> (j < i < length enu)%nat -> turns f (ground_path enu x y j - ground_path enu x y i) (vis k (i, j))) ->
  nearfield enu frequencies vis x y = Some 1.
Proof. exact nearfield_emitter. Qed.
Print Assumptions C149_emitter.
Theorem C149_flat : forall enu f vis x y x' y', nearfield enu [f] vis x y = nearfield enu [f] vis x' y'.
Proof. exact nearfield_flat. Qed.
Print Assumptions C149_flat.
Theorem C149_source_skipped : forall enu frequencies az el x y, source_imprint enu frequencies az el x y = None <-> el * 180 / PI <= 10.
Proof. exact source_skipped. Qed.
Print Assumptions C149_source_skipped.
Theorem C149_source_bound : forall enu frequencies az el x y r, source_imprint enu frequencies az el x y = Some (Some r) -> 0 <= r <= 1.
Proof. exact source_bound. Qed.
Print Assumptions C149_source_bound.
Theorem C149_axis : forall radius n, (1 < n)%nat -> ground_axis radius n 0 = - radius /\ ground_axis radius n (n - 1) = radius /\
  forall i, (i < n)%nat -> ground_axis radius n (n - 1 - i) = - ground_axis radius n i.
Proof. exact ground_axis_ends. Qed.
Print Assumptions C149_axis.
Example C149_ex : let enu := [mkVec 0 0 0; mkVec 100 0 2; mkVec 0 50 1] in
  nearfield enu [30000000; 60000000] (fun k p => let f := nth k [30000000; 60000000] 0 in
    let x := ground_path enu 10 20 (snd p) - ground_path enu 10 20 (fst p) in
    (cos (2 * PI * (x * f / 299792458)), sin (2 * PI * (x * f / 299792458)))) 10 20 = Some 1.
Proof.
  intro enu. apply C149_emitter; [cbn; lia|discriminate|]. intros k f i j E _. unfold turns. cbv zeta. now rewrite (nth_error_nth _ _ 0 E).
Qed.
