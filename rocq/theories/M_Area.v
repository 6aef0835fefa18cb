(** Model of the positions of the antennas of a Mini-Array and of the effective areas:
    nenupy/instru/nenufar.py [MiniArray.__init__] (325-340), [MiniArray.effective_area]
    (585-690) and [NenuFAR.effective_area] (1366-1433).
    Numbers are exact reals: rounding, and the cast of the positions to float32 (340), are
    not modelled.  A scalar frequency is a list of one; a frequency array of two
    dimensions or more is not modelled (the comparison of 683 then raises).  Lengths are
    in meters, frequencies in Hz, elevations in radians. *)
From Coq Require Import Reals Bool List Arith.
From Verif Require Import Base M_Polar M_Beam M_Instru.
Import ListNotations.
Open Scope nat_scope.
Open Scope list_scope.

(** ** Positions *)
(** 328-340: the positions of miniarray_antennas.json multiplied by a matrix that depends
    on the rotation of the Mini-Array. *)
Definition ma_matrix (rotation : R) : mat3 :=
  mkMat3 (mkVec (cos rotation) (- sin rotation) 0) (mkVec (- sin rotation) (- cos rotation) 0) (mkVec 0 0 1).
Definition ma_positions (rotation : R) (ants : list vec) : list vec := map (fun p => vmat p (ma_matrix rotation)) ants.

(** ** Effective area of a Mini-Array *)
(** 640-648: radius of the disk of area lambda^2 / 3. *)
Definition dipole_k : R := 3%R.
Definition ant_radius (frequency : R) : R := sqrt (wavelength frequency ^ 2 / dipole_k / PI).
(** [np.max], [min] and [max] of an array; those of an empty one raise ValueError. *)
Definition rmax (l : list R) : res R := match l with [] => Err EValueError | x :: r => Ok (fold_left Rmax r x) end.
Definition rmin (l : list R) : res R := match l with [] => Err EValueError | x :: r => Ok (fold_left Rmin r x) end.
(** [np.linspace(a, b, n)[i]] *)
Definition lin (a b : R) (n i : nat) : R := (a + INR i * ((b - a) / INR (n - 1)))%R.
(** 649-668: one axis of the grid, its bounds. *)
Definition grid_bounds (radius : R) (coords : list R) : res (R * R) :=
  bind (rmin coords) (fun lo => bind (rmax coords) (fun hi => Ok (lo - radius, hi + radius)%R)).
Definition step (n : nat) (b : R * R) : R := (lin (fst b) (snd b) n 1 - lin (fst b) (snd b) n 0)%R.
(** 670-675: distance in the plane of an antenna to a point. *)
Definition dist2d (p : vec) (x y : R) : R := sqrt ((vx p - x) ^ 2 + (vy p - y) ^ 2).
Definition in_disks (ants : list vec) (radius : R) (x y : R) : bool :=
  existsb (fun p => if Rle_dec (dist2d p x y) radius then true else false) ants.
(** 677-684: number of the points of the grid that are in a disk. *)
Definition grid_count (n : nat) (bx bY : R * R) (ants : list vec) (radius : R) : nat :=
  length (filter (fun ij => in_disks ants radius (lin (fst bx) (snd bx) n (snd ij)) (lin (fst bY) (snd bY) n (fst ij)))
                 (list_prod (seq 0 n) (seq 0 n))).
(** 650: [n = 500] *)
Definition resolution : nat := 500.
(** 585-690 *)
Definition ma_area (ants : list vec) (frequencies : list R) (elevation : R) : res (list R) :=
  bind (rmax (map ant_radius frequencies)) (fun max_radius =>
  bind (grid_bounds max_radius (map vx ants)) (fun bx =>
  bind (grid_bounds max_radius (map vy ants)) (fun bY =>
  Ok (map (fun f => (INR (grid_count resolution bx bY ants (ant_radius f)) * step resolution bx * step resolution bY * sin elevation)%R)
          frequencies)))).

(** ** Effective area of NenuFAR *)
(** 1419-1433: the active antennas are selected in the Mini-Array of index 0, of rotation
    0 (nenufar_array.json); [nenufar.size] is the number of Mini-Arrays.  [base] is the
    Mini-Array of index 0. *)
Definition nenufar_area {P G L G' L'} (base : interf vec G' L') (active : selector) (nenufar : interf P G L)
    (frequencies : list R) (elevation : R) : res (list R) :=
  bind (i_getitem base active) (fun ma =>
  bind (ma_area (i_positions ma) frequencies elevation) (fun l =>
  Ok (map (fun a => (a * INR (i_size nenufar))%R) l))).
