(** Model of the baselines projected towards a direction, and of what is made of them:
    nenupy/astro/uvw.py ([compute_uvw] 48-117, [UV_Coverage] 125-410),
    nenupy/astro/sky.py [compute_lmn] (835-874), nenupy/io/xst.py [_vis_rotation_matrix]
    (69-90), [XST_Slice.rephase_visibilities] (253-326), [XST_Slice.make_image] (328-470),
    [XST_Slice.make_nearfield] (560-675) and [Crosslet.rephase] (761-839).
    Numbers are exact reals: rounding and the casts to float32 are not modelled, nor are
    dask chunks, figures, the Gaussian fit and the third value of the profiles.  Angles are
    in radians, lengths in meters, frequencies in Hz.  The sidereal times, and the
    equatorial coordinates of the zenith at each time, are given by astropy: they are
    arguments.  [Longitude] brings an hour angle between 0 and 2 pi, which its sine and
    cosine do not see: left out.  Visibilities are finite numbers. *)
From Coq Require Import ZArith QArith Reals Bool List Arith.
From Verif Require Import Base M_Polar M_Xst M_Beam M_Jones M_Area M_Sefd.
Import ListNotations.
Open Scope nat_scope.
Open Scope list_scope.

(** ** Vectors and matrices *)
Definition vneg (a : vec) : vec := mkVec (- vx a) (- vy a) (- vz a).
Definition vscale (k : R) (a : vec) : vec := mkVec (k * vx a) (k * vy a) (k * vz a).
Definition vadd (a b : vec) : vec := mkVec (vx a + vx b) (vy a + vy b) (vz a + vz b).
Definition vsum (l : list vec) : vec := fold_right vadd (mkVec 0 0 0) l.
(** A matrix times a column. *)
Definition mapply (m : mat3) (v : vec) : vec := mkVec (vdot (row0 m) v) (vdot (row1 m) v) (vdot (row2 m) v).

(** ** [compute_uvw] *)
(** A direction of the sky (right ascension, declination), one or one per time; or a
    horizontal one, that has no [dec]. *)
Inductive centre := Fixed (ra dec : R) | Moving (l : list (R * R)) | Horizontal.
(** 105-114 *)
Definition uvw_matrix (h d : R) : mat3 :=
  mkMat3 (mkVec (sin h) (cos h) 0)
         (mkVec (- sin d * cos h) (sin d * sin h) (cos d))
         (mkVec (cos d * cos h) (- cos d * sin h) (sin d)).
Definition project (h d : R) (b : vec) : vec := vneg (mapply (uvw_matrix h d) b).
(** 57-117: [itrf] are the positions, [lst] the sidereal times, [zenith] the direction of
    the zenith at each time.  A number of directions that is neither one nor that of the
    times makes the array of 107 irregular, or cannot be broadcast. *)
Definition compute_uvw (itrf : list vec) (lst : list R) (zenith : list (R * R)) (c : option centre) : res (list (list vec)) :=
  let at_time (l : list (R * R)) := map2 (fun t p => map (project (t - fst p) (snd p)) (flatten itrf)) lst l in
  match c with
  | None => Ok (at_time zenith)
  | Some (Fixed ra dec) => Ok (map (fun t => map (project (t - ra) dec) (flatten itrf)) lst)
  | Some (Moving l) => if length l =? length lst then Ok (at_time l) else Err EValueError
  | Some Horizontal => Err EAttributeError
  end.

(** ** [UV_Coverage.__init__] 127-141 *)
(** [tril_indices(n, 0)] of the number of antennas that has [n] baselines. *)
Definition n_antennas (n : nat) : nat := (Nat.sqrt (1 + 8 * n) - 1) / 2.
Definition crosses {A} (l : list A) (n : nat) : list A :=
  map fst (filter (fun p => negb (is_auto (snd p))) (combine l (tril n))).
Definition mirrored (a : vec) : vec := mkVec (vx a * -1) (vy a * -1) (vz a * 1).
(** [n] is the number of baselines, [uvw] one list of them per time. *)
Definition coverage (n : nat) (uvw : list (list vec)) : res (list (list vec)) :=
  let a := n_antennas n in
  if length (tril a) =? n then Ok (map (fun row => row ++ map mirrored (crosses row a)) uvw)
  else Err EIndexError.
(** 144-147 *)
Definition uv_distance (cov : list (list vec)) : list (list R) := map (map norm) cov.

(** ** Profiles *)
(** 195-205, 300-308: meters, or wavelengths for each frequency; all the values. *)
Definition uv_points (frequencies : option (list R)) (cov : list (list vec)) : list (R * R) :=
  match frequencies with
  | None => flat_map (map (fun a => (vx a, vy a))) cov
  | Some fs => flat_map (fun row => flat_map (fun f => map (fun a => (vx a / wavelength f, vy a / wavelength f)%R) row) fs) cov
  end.
(** 207-210, 310-313 *)
Definition upper_half (l : list (R * R)) : list (R * R) := filter (fun p => if Rlt_dec 0 (snd p) then true else false) l.
Definition uv_norm (p : R * R) : R := sqrt (fst p ^ 2 + snd p ^ 2).
(** [np.ceil] and [np.arange(a, b, s)] for a positive step. *)
Definition rceil (x : R) : Z := (- Int_part (- x))%Z.
Definition arange (a b s : R) : list R := map (fun i => (a + INR i * s)%R) (seq 0 (Z.to_nat (rceil ((b - a) / s)))).
Fixpoint pairs {A} (l : list A) : list (A * A) := match l with x :: ((y :: _) as r) => (x, y) :: pairs r | _ => [] end.
Definition inside_bin (b : R * R) (x : R) : bool :=
  if Rle_dec (fst b) x then if Rle_dec x (snd b) then true else false else false.
Definition bin_count (b : R * R) (l : list R) : nat := length (filter (inside_bin b) l).
Definition middle (b : R * R) : R := ((fst b + snd b) / 2)%R.
(** Divided by the largest; [None]: NaN or infinite. *)
Definition normalised (l : list R) : res (list (option R)) := bind (rmax l) (fun m => Ok (map (fun x => rdiv x m) l)).
(** 211-228; [step_width] is positive. *)
Definition radial_bins (width : R) (d : list R) : res (list (R * R)) :=
  bind (rmin d) (fun lo => bind (rmax d) (fun hi => Ok (pairs (arange lo (hi + width) width)))).
Definition radial_profile (frequencies : option (list R)) (width : R) (cov : list (list vec)) : res (list R * list (option R)) :=
  let d := map uv_norm (upper_half (uv_points frequencies cov)) in
  bind (radial_bins width d) (fun bins =>
  bind (normalised (map (fun b => INR (bin_count b d) / middle b)%R bins)) (fun density =>
  Ok (map middle bins, density))).
(** 300-328; [step_angle] is positive.  With a frequency the angles keep their unit, and
    comparing them to the first upper edge is refused (UnitConversionError, a TypeError). *)
Definition uv_angle (p : R * R) : R := (acos (fst p / uv_norm p) * 180 / PI)%R.
Definition azimuth_bins (width : R) : list (R * R) := pairs (arange 0 (180 + width) width).
Definition azimuthal_profile (frequencies : option (list R)) (width : R) (cov : list (list vec)) : res (list R * list (option R)) :=
  match frequencies with
  | Some _ => Err ETypeError
  | None =>
      let d := map uv_angle (upper_half (uv_points None cov)) in
      bind (normalised (map (fun b => INR (bin_count b d)) (azimuth_bins width))) (fun density =>
      Ok (map middle (azimuth_bins width), density))
  end.

(** ** [psf] 376-411 *)
Definition not_zero (p : R * R) : bool :=
  if Req_EM_T (fst p) 0 then if Req_EM_T (snd p) 0 then false else true else true.
(** [np.histogram2d(x, y, bins=n)]: the range of one axis; the bin of a value, the last
    one including its upper bound. *)
Definition hist_range (l : list R) : R * R :=
  match rmin l, rmax l with
  | Ok lo, Ok hi => if Req_EM_T lo hi then (lo - 1 / 2, hi + 1 / 2)%R else (lo, hi)
  | _, _ => (0, 1)%R
  end.
Definition edge (r : R * R) (n i : nat) : R := (fst r + INR i * ((snd r - fst r) / INR n))%R.
Definition bin_of (r : R * R) (n : nat) (x : R) : nat :=
  let k := length (filter (fun i => if Rle_dec (edge r n i) x then true else false) (seq 0 (S n))) in
  if Req_EM_T x (snd r) then k - 2 else k - 1.
Definition hist2d (n : nat) (l : list (R * R)) (i j : nat) : nat :=
  let rx := hist_range (map fst l) in
  let ry := hist_range (map snd l) in
  length (filter (fun p => (bin_of rx n (fst p) =? i) && (bin_of ry n (snd p) =? j)) l).
(** [np.fft.fft2] and [np.fft.fftshift] of an array of [n] lines and columns. *)
Definition fft2 (n : nat) (g : nat -> nat -> R) (k l : nat) : cpx :=
  csum (map (fun ij => cscale (g (fst ij) (snd ij)) (cis (- 2 * PI * (INR (fst ij * k) / INR n + INR (snd ij * l) / INR n))))
            (list_prod (seq 0 n) (seq 0 n))).
Definition shifted (n i : nat) : nat := (i + (n - n / 2)) mod n.
(** [n = 0] is a ValueError of [histogram2d]. *)
Definition psf (frequencies : option (list R)) (n : nat) (cov : list (list vec)) : res (nat -> nat -> cpx) :=
  if n =? 0 then Err EValueError
  else
    let l := filter not_zero (uv_points frequencies cov) in
    Ok (fun a b => fft2 n (fun i j => INR (hist2d n l i j)) (shifted n a) (shifted n b)).

(** ** Rephasing *)
(** xst.py 69-90 *)
Definition vis_matrix (c : R * R) : mat3 :=
  let '(ra, dec) := c in
  mkMat3 (mkVec (cos ra) (- sin ra) 0)
         (mkVec (- sin ra * sin dec) (- cos ra * sin dec) (cos dec))
         (mkVec (sin ra * cos dec) (cos ra * cos dec) (sin dec)).
(** 307-309: [total[i][j] = sum_k new[j][k] origin[i][k]]. *)
Definition total_transformation (origin new : mat3) : mat3 :=
  let row r := mkVec (vdot (row0 new) r) (vdot (row1 new) r) (vdot (row2 new) r) in
  mkMat3 (row (row0 origin)) (row (row1 origin)) (row (row2 origin)).
(** 310-314: the phase, in meters, of one baseline. *)
Definition rephase_length (origin new : mat3) (uvw : vec) : R :=
  vdot (mapply origin (vsub (row2 origin) (row2 new))) uvw.
Definition rephase_factor (origin new : mat3) (frequency : R) (uvw : vec) : cpx :=
  cis (2 * PI * rephase_length origin new uvw / wavelength frequency).
(** The factors (time, frequency, baseline) for the directions [origin] at each time. *)
Definition factors (origin : list (R * R)) (new : R * R) (frequencies : list R) (uvw : list (list vec)) : list (list (list cpx)) :=
  map2 (fun o row => map (fun f => map (rephase_factor (vis_matrix o) (vis_matrix new) f) row) frequencies) origin uvw.
Definition turned (origin : list (R * R)) (new : R * R) (uvw : list (list vec)) : list (list vec) :=
  map2 (fun o row => map (fun b => vmat b (total_transformation (vis_matrix o) (vis_matrix new))) row) origin uvw.
(** 286-326: [uvw] are those given, or those towards the zenith. *)
Definition rephase_visibilities (itrf : list vec) (lst : list R) (zenith : list (R * R)) (frequencies : list R)
    (new : R * R) (uvw : option (list (list vec))) : res (list (list (list cpx)) * list (list vec)) :=
  bind (match uvw with Some l => Ok l | None => compute_uvw itrf lst zenith None end) (fun l =>
  Ok (factors zenith new frequencies l, turned zenith new l)).
(** [Crosslet.rephase] 761-839, for the phase center of a file, the zenith: 789-798 give
    its direction at each time.  [itrf_of] are the positions of the Mini-Arrays; what is
    returned is the [value] of the [XST_Slice]. *)
Definition rephase (itrf_of : list nat -> list vec) (lst : Q -> R) (zenith : Q -> R * R) (hertz : Q -> R)
    (x : xst cpx) (new : centre) : res (list (list (list cpx))) :=
  let z := map zenith (x_time x) in
  match new with
  | Moving _ => Err EValueError                                             (* 781-782 *)
  | Horizontal => Err EAttributeError
  | Fixed ra dec =>
      bind (compute_uvw (itrf_of (x_mas x)) (map lst (x_time x)) z (Some (Moving z))) (fun l =>
      match x_freq x with
      | ByTime [] => Err EIndexError                                        (* 830 *)
      | ByTime (row :: _) => Ok (factors z (ra, dec) (map hertz row) l)
      | Common _ => Err EIndexError
      end)
  end.

(** ** [compute_lmn], sky.py 864-874.  [sqrt] of a negative number, which rounding could
    only give, is not modelled. *)
Definition lmn (centre p : R * R) : vec :=
  let '(ra0, dec0) := centre in let '(ra, dec) := p in
  let l := (cos dec * sin (ra - ra0))%R in
  let m := (sin dec * cos dec0 - cos dec * sin dec0 * cos (ra - ra0))%R in
  mkVec l m (sqrt (1 - l ^ 2 - m ^ 2)).

(** ** [make_image]: the value of a pixel *)
Definition cmean (l : list cpx) : cpx := cscale (/ INR (length l)) (csum l).
Definition vmean (l : list vec) : vec := vscale (/ INR (length l)) (vsum l).
Definition rmean (l : list R) : option R := match l with [] => None | _ => Some (rsum l / INR (length l))%R end.
Definition cell {A} (d : A) (l : list (list (list A))) (t f b : nat) : A := nth b (nth f (nth t l []) []) d.
Definition c0 : cpx := (0, 0)%R.
Definition v0 : vec := mkVec 0 0 0.
(** 411-458, for [value] and [uvw] (time, frequency, baseline) and (time, baseline);
    [factor] is that of the rephasing, or one.  [None]: NaN. *)
Definition dirty (n_ma : nat) (times : nat) (frequencies : list R) (value : list (list (list cpx)))
    (factor : option (list (list (list cpx)))) (uvw : list (list vec)) (p : vec) : option R :=
  let q := mkVec (vx p) (vy p) (vz p - 1) in
  let kept := filter (fun b => negb (is_auto (nth b (tril n_ma) (0, 0)))) (seq 0 (length (tril n_ma))) in
  let wave f b := vmean (map (fun t => vscale (/ wavelength (nth f frequencies 0%R)) (nth b (nth t uvw []) v0)) (seq 0 times)) in
  let vis f b := cmean (map (fun t => cmult (cell c0 value t f b)
                                        (match factor with Some l => cell c0 l t f b | None => (1, 0)%R end)) (seq 0 times)) in
  rmean (map (fun b => re (cmean (map (fun f => cmult (vis f b) (cis (- 2 * PI * vdot (wave f b) q))) (seq 0 (length frequencies))))) kept).
(** 384-458: the direction of the center, then the image at the pixels given, which are
    those of the field of view above the horizon.  [noon] is the zenith at mid exposure. *)
Definition make_image (itrf : list vec) (lst : list R) (zenith : list (R * R)) (noon : R * R) (frequencies : list R)
    (value : list (list (list cpx))) (center : option (R * R)) (pixels : list (R * R)) : res (list (option R)) :=
  bind (compute_uvw itrf lst zenith None) (fun uvw =>
  match center with
  | None => Ok (map (fun p => dirty (length itrf) (length lst) frequencies value None uvw (lmn noon p)) pixels)
  | Some c =>
      bind (rephase_visibilities itrf lst zenith frequencies c (Some uvw)) (fun r =>
      Ok (map (fun p => dirty (length itrf) (length lst) frequencies value (Some (fst r)) (snd r) (lmn c p)) pixels))
  end).

(** ** [make_nearfield] *)
(** 579-590: distances of the antennas to a point of the ground, one meter above the mean
    height. *)
Definition ground_point (enu : list vec) (x y : R) : vec := mkVec x y (rsum (map vz enu) / INR (length enu) + 1).
Definition ground_distance (p : vec) (a : vec) : R := norm (vsub a p).
(** 560-566 and 590-617: [vis f (i, j)] are the visibilities averaged in time. *)
Definition imprint (n_ma : nat) (frequencies : list R) (vis : nat -> nat * nat -> cpx) (distance : nat -> R) : option R :=
  rmean (map (fun p => cabs (cmean (map (fun f =>
           cmult (vis f p) (cis (2 * PI * ((distance (fst p) - distance (snd p)) / wavelength (nth f frequencies 0%R)))))
           (seq 0 (length frequencies)))))
        (filter (fun p => negb (is_auto p)) (tril n_ma))).
Definition nearfield (enu : list vec) (frequencies : list R) (vis : nat -> nat * nat -> cpx) (x y : R) : option R :=
  imprint (length enu) frequencies vis (fun i => ground_distance (ground_point enu x y) (nth i enu v0)).
(** 575-577, 592-593: the points of the image, [linspace(-radius, radius, npix)]. *)
Definition ground_axis (radius : R) (npix i : nat) : R := lin (- radius) radius npix i.
(** 643-673: the footprint of a source above 10 degrees of elevation, none otherwise. *)
Definition source_vis (enu : list vec) (frequencies : list R) (az el : R) (f : nat) (p : nat * nat) : cpx :=
  cis (2 * PI * (vdot (vsub (nth (fst p) enu v0) (nth (snd p) enu v0)) (mkVec (cos el * sin az) (cos el * cos az) (sin el))
                 / wavelength (nth f frequencies 0%R))).
Definition source_imprint (enu : list vec) (frequencies : list R) (az el : R) (x y : R) : option (option R) :=
  if Rle_dec (el * 180 / PI) 10 then None else Some (nearfield enu frequencies (source_vis enu frequencies az el) x y).
