(** Model of the array factor and of the beams of nenupy/instru/interferometer.py
    ([array_factor] 655-737, [beam] 740-814, [_geometric_delays] 1195-1229) and
    nenupy/instru/nenufar.py ([NenuFAR.beam] 1318-1363), of the directions of the analog
    grid (nenufar.py 978-1010, instrument_tools.py 460-495) and of [get_beamform]
    (nenupy/io/xst.py 942-1099).
    One value (time, frequency, polarization, direction) at a time: the arrays only repeat
    it.  Numbers are exact reals: rounding is not modelled.  Directions are at or above
    the horizon: the mask of the others (astro_tools.py 1253-1262) is not modelled.  Dask
    chunks and the copies of the arguments are not modelled. *)
From Coq Require Import ZArith Reals Bool List Arith.
From Verif Require Import Base M_Polar M_Xst M_Analog.
Import ListNotations.
Open Scope nat_scope.
Open Scope list_scope.

(** * Vectors *)
Record vec := mkVec { vx : R; vy : R; vz : R }.
Definition vsub (a b : vec) : vec := mkVec (vx a - vx b) (vy a - vy b) (vz a - vz b).
Definition vdot (a b : vec) : R := (vx a * vx b + vy a * vy b + vz a * vz b)%R.
(** A 3x3 matrix as its rows; [np.dot(a, m)] for a row vector [a]. *)
Record mat3 := mkMat3 { row0 : vec; row1 : vec; row2 : vec }.
Definition vmat (a : vec) (m : mat3) : vec :=
  mkVec (vx a * vx (row0 m) + vy a * vx (row1 m) + vz a * vx (row2 m))
        (vx a * vy (row0 m) + vy a * vy (row1 m) + vz a * vy (row2 m))
        (vx a * vz (row0 m) + vy a * vz (row1 m) + vz a * vz (row2 m)).

(** * Complex sums *)
Definition cis (x : R) : cpx := (cos x, sin x).
Definition cscale (k : R) (z : cpx) : cpx := (k * re z, k * im z)%R.
Definition rsum (l : list R) : R := fold_right Rplus 0%R l.
Definition csum (l : list cpx) : cpx := fold_right cplus (0%R, 0%R) l.

(** * [array_factor] *)
(** astro_tools.py 1232-1243: the projection of the direction (azimuth, elevation). *)
Definition ground_projection (az alt : R) : vec :=
  mkVec (cos az * cos alt) (sin az * cos alt) (sin alt).

(** An antenna: position, delay (interferometer.py 392-406) and weight (373-389). *)
Record antenna := mkAnt { a_pos : vec; a_delay : R; a_weight : R }.

(** 1216-1229 *)
Definition rot_90 : mat3 :=
  let angle := (PI / 2)%R in
  mkMat3 (mkVec (cos angle) (sin angle) 0) (mkVec (sin angle) (- cos angle) 0) (mkVec 0 0 1).
Definition geometric_delay (p : vec) (sky pointing : vec) : R :=
  vdot (vmat p rot_90) (vsub sky pointing).

(** 711-719: the phase; the wavelength is c / frequency (metres, Hz). *)
Definition wavelength (frequency : R) : R := (speed_of_light / frequency)%R.
Definition af_phase (frequency : R) (sky pointing : vec) (a : antenna) : R :=
  (2 * PI / wavelength frequency * (geometric_delay (a_pos a) sky pointing + a_delay a))%R.

(** 728-733: the sum over the antennas, divided by their number when it is normalised.
    [None]: the division by zero of an array without antenna. *)
Definition af_sum (ants : list antenna) (frequency : R) (sky pointing : vec) : cpx :=
  csum (map (fun a => cscale (a_weight a) (cis (af_phase frequency sky pointing a))) ants).
Definition af_complex (normalize : bool) (ants : list antenna) (frequency : R) (sky pointing : vec) : option cpx :=
  let s := af_sum ants frequency sky pointing in
  if normalize then
    match ants with [] => None | _ => Some (cscale (/ INR (length ants)) s) end
  else Some s.
(** 735-737 *)
Definition power (z : cpx) : R := (re z ^ 2 + im z ^ 2)%R.
Definition af_power (normalize : bool) (ants : list antenna) (frequency : R) (sky pointing : vec) : option R :=
  option_map power (af_complex normalize ants frequency sky pointing).

(** * [Interferometer.beam] *)
(** 790-801: the mean of the gains. *)
Definition mean_gain (gains : list R) : option R :=
  match gains with [] => None | _ => Some (rsum gains / INR (length gains))%R end.
(** 812: [array_factor * antenna_gain], for the power and for the complex array factor. *)
Definition beam_power (normalize : bool) (ants : list antenna) (gains : list R) (frequency : R) (sky pointing : vec) : option R :=
  match af_power normalize ants frequency sky pointing, mean_gain gains with
  | Some p, Some g => Some (p * g)%R
  | _, _ => None
  end.
Definition beam_complex (normalize : bool) (ants : list antenna) (gains : list R) (frequency : R) (sky pointing : vec) : option cpx :=
  match af_complex normalize ants frequency sky pointing, mean_gain gains with
  | Some z, Some g => Some (cscale g z)
  | _, _ => None
  end.

(** * [NenuFAR.beam] *)
(** 1334-1338: [np.unique(rotations % 60, return_counts=True, return_index=True)], the
    rotations being whole degrees: the distinct values in order, where each is first and
    how many times it is there. *)
Fixpoint insert (x : Z) (l : list Z) : list Z :=
  match l with
  | [] => [x]
  | y :: r => if (x <? y)%Z then x :: l else if (x =? y)%Z then l else y :: insert x r
  end.
Definition unique_values (l : list Z) : list Z := fold_right insert [] l.
Fixpoint first_index (x : Z) (l : list Z) : nat :=
  match l with [] => 0 | y :: r => if (x =? y)%Z then 0 else S (first_index x r) end.
Definition count (x : Z) (l : list Z) : nat := length (filter (Z.eqb x) l).
(** 1345-1357: one gain per rotation, weighted by the number of Mini-Arrays. [gain k] is
    the beam of the Mini-Array [k] in the direction of the sky. *)
Definition grouped_gain (rotations : list Z) (gain : nat -> R) : R :=
  let keys := map (fun r => r mod 60)%Z rotations in
  let rots := unique_values keys in
  (rsum (map (fun r => gain (first_index r keys) * INR (count r keys)) rots)
   / rsum (map (fun r => INR (count r keys)) rots))%R.
(** 1326-1330, 1362: the array factor is always normalised; [gain] receives [normalize]. *)
Definition nenufar_value (normalize : bool) (ants : list antenna) (rotations : list Z)
    (gain : bool -> nat -> R) (frequency : R) (sky pointing : vec) : option R :=
  match af_power true ants frequency sky pointing with
  | Some p => Some (p * grouped_gain rotations (gain normalize))%R
  | None => None
  end.

(** * Directions of the analog grid *)
(** [np.arctan2]; the zeros of the grid are positive zeros. *)
Definition arctan2 (y x : R) : R :=
  if Rlt_dec 0 x then atan (y / x)
  else if Rlt_dec x 0 then (if Rle_dec 0 y then atan (y / x) + PI else atan (y / x) - PI)%R
  else if Rlt_dec 0 y then (PI / 2)%R
  else if Rlt_dec y 0 then (- (PI / 2))%R else 0%R.
(** nenufar.py 986, instrument_tools.py 466: 0.165 / (2 * 5.5). *)
Definition dmin_d : R := (165 / 1000 / (2 * (55 / 10)))%R.
(** astropy wraps a longitude to [0, 2 pi). *)
Definition wrap (x : R) : R := (x - 2 * PI * IZR (Int_part (x / (2 * PI))))%R.
(** nenufar.py 1000-1010, instrument_tools.py 482-495: azimuth and elevation of the
    direction (M_Analog.v) of two steps. *)
Definition dir_azel (rotation : R) (d : dir) : R * R :=
  match d with
  | Steps s1 s2 =>
      let k1 := (IZR s1 * dmin_d)%R in
      let k2 := (IZR s2 * dmin_d)%R in
      let theta := (PI / 2 - 1 / 2 * acos (1 - 2 * (k1 ^ 2 + k2 ^ 2)))%R in
      let phi := (PI / 2 - (arctan2 k2 k1 + PI) + rotation)%R in
      (wrap phi, theta)
  | Nadir => (wrap 0%R, (- (PI / 2))%R)
  end.

(** * [get_beamform] *)
(** The Mini-Arrays of [NenuFAR()] are numbered from 0, [total] of them: the identifier of
    each is its place (nenufar_array.json).  1001-1005: identifiers of the Mini-Arrays
    selected, in the order of the array (interferometer.py 197-238). *)
Definition real_indices (total : nat) (sel : list nat) : list nat :=
  filter (fun k => isin k sel) (seq 0 total).
(** [m[xs, ys] = values]: the entry of [m] at (i, j), if it is assigned. *)
Fixpoint assigned (pairs : list (nat * nat)) (values : list cpx) (i j : nat) : option cpx :=
  match pairs, values with
  | (x, y) :: p, v :: w =>
      match assigned p w i j with
      | Some u => Some u
      | None => if (x =? i) && (y =? j) then Some v else None
      end
  | _, _ => None
  end.
Definition swap (p : nat * nat) : nat * nat := (snd p, fst p).
(** 1039-1050, 1060-1092: a matrix filled below its diagonal, then above it with the
    conjugates of what is below; the diagonal is assigned twice. *)
Definition hermitian (init : cpx) (m : nat) (values : list cpx) (i j : nat) : cpx :=
  let low := assigned (tril m) values in
  let at_low p := match low (fst p) (snd p) with Some v => v | None => init end in
  match assigned (map swap (tril m)) (map (fun p => cconj (at_low p)) (tril m)) i j with
  | Some v => v
  | None => at_low (i, j)
  end.
(** 1081-1087: the rotation and the phase of a pair of positions. *)
Definition bf_rotation : mat3 :=
  let rot := (- (PI / 2))%R in
  mkMat3 (mkVec (cos rot) (sin rot) 0) (mkVec (- sin rot) (cos rot) 0) (mkVec 0 0 1).
Definition bf_dphi (p1 p2 g : vec) : R := vdot (vsub (vmat p1 bf_rotation) (vmat p2 bf_rotation)) g.

(** 999-1093 for one time and one frequency: [file] are the Mini-Arrays of the file,
    [vis] the correlations of one polarization in the order of [np.tril_indices],
    [positions] those of [NenuFAR()], [cal] the calibration table at this frequency
    ([None] for "none"), [g] the projection of the pointing. *)
Definition beamform (total : nat) (positions : nat -> vec) (file sel : list nat) (vis : list cpx)
    (cal : option (nat -> cpx)) (frequency : R) (g : vec) : res R :=
  let real := real_indices total sel in
  if existsb (fun k => negb (isin k file)) real then Err EIndexError        (* 1006-1009 *)
  else
    let mas := ma_indices file real in                                      (* 1010-1012 *)
    let m := length mas in
    let mask := map (fun p => isin (fst p) mas && isin (snd p) mas) (tril (length file)) in (* 1013-1014 *)
    let c := match cal with
             | None => @repeat cpx (1%R, 0%R) m                             (* 1017-1019 *)
             | Some f => map f real                                         (* 1021-1029 *)
             end in
    let kept := map fst (filter snd (combine (combine (tril (length file)) vis) mask)) in (* 1032-1036 *)
    if negb (length c =? m) then Err EValueError        (* 1057: shapes of [mul] and of the matrix *)
    else
      let v := hermitian (0%R, 0%R) m (map snd kept) in                     (* 1039-1050 *)
      let mul i j := cmult (nth i c (0%R, 0%R)) (cconj (nth j c (0%R, 0%R))) in (* 1053-1057 *)
      let phases := map (fun q => cis (- 2 * PI / wavelength frequency *
          bf_dphi (positions (fst (fst q))) (positions (snd (fst q))) g)) kept in
      let ph := hermitian (1%R, 0%R) m phases in                            (* 1060-1092 *)
      Ok (rsum (flat_map (fun i => map (fun j => re (cmult (cmult (v i j) (mul i j)) (ph i j))) (seq 0 m)) (seq 0 m))). (* 1093 *)
