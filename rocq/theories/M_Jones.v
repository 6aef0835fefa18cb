(** Model of nenupy/astro/jones_mueller.py: Jones and Mueller matrices, Jones and Stokes
    vectors.
    Samples are exact reals and pairs of reals: floating point rounding is not modelled
    (so neither is the refusal of a Mueller matrix whose imaginary part is rounding noise,
    260).  A NaN anywhere in a result makes it [None].  [np.linalg.inv(unitary_matrix)] (29) is
    written out; P_Jones.v checks that it is the inverse.  The zeros given to
    [np.arctan2] are positive zeros.  The classes are numpy arrays: only their
    constructors, their methods and [np.matmul] are modelled. *)
From Coq Require Import Reals Bool List Arith.
From Verif Require Import Base M_Polar M_Beam.
Import ListNotations.
Open Scope nat_scope.
Open Scope list_scope.

(** [np.radians] *)
Definition radians (x : R) : R := (x * PI / 180)%R.
(** Constants 1, i, 0. *)
Definition c1 : cpx := (1, 0)%R.
Definition ci : cpx := (0, 1)%R.
Definition c0 : cpx := (0, 0)%R.
Definition cneg (z : cpx) : cpx := (- re z, - im z)%R.

(** * 4x4 matrices *)
Notation mat4 := (nat -> nat -> cpx).
Notation rmat4 := (nat -> nat -> R).
Definition sum4 (f : nat -> cpx) : cpx := cplus (cplus (cplus (f 0) (f 1)) (f 2)) (f 3).
(** [np.matmul] *)
Definition mm4 (a b : mat4) : mat4 := fun i j => sum4 (fun k => cmult (a i k) (b k j)).
Definition rows4 (rows : list (list cpx)) : mat4 := fun i j => nth j (nth i rows []) c0.
(** 25-27 *)
Definition pauli (k : nat) : mat :=
  match k with
  | 0 => mkMat c1 c0 c0 c1
  | 1 => mkMat c1 c0 c0 (cneg c1)
  | 2 => mkMat c0 c1 c1 c0
  | _ => mkMat c0 (cneg ci) ci c0
  end.
(** 28-29 *)
Definition unitary_matrix : mat4 := rows4
  [[c1; c0; c0; c1]; [c1; c0; c0; cneg c1]; [c0; c1; c1; c0]; [c0; ci; cneg ci; c0]].
Definition half : R := (1 / 2)%R.
Definition unitary_matrix_inv : mat4 := rows4
  [[creal half; creal half; c0; c0]; [c0; c0; creal half; (0, - half)%R];
   [c0; c0; creal half; (0, half)%R]; [creal half; creal (- half); c0; c0]].
(** [np.kron(a, b)]: 214-216 is [einsum("ij,kl->ikjl")] reshaped to 4x4. *)
Definition kron (a b : mat) : mat4 := fun i j =>
  cmult (mget a (i / 2) (j / 2)) (mget b (i mod 2) (j mod 2)).

(** * [JonesMatrix] *)
(** [np.matmul] with a vector of two values. *)
Notation jvec := (cpx * cpx)%type.
Definition mvec (a : mat) (v : jvec) : jvec :=
  (cplus (cmult (m00 a) (fst v)) (cmult (m01 a) (snd v)), cplus (cmult (m10 a) (fst v)) (cmult (m11 a) (snd v))).
(** A product of a matrix by a number. *)
Definition mscale (z : cpx) (a : mat) : mat := mat_of (fun i j => cmult z (mget a i j)).

(** 147-169 *)
Definition j_elliptical (theta delta : R) : mat :=
  let ct := cos (radians theta) in
  let st := sin (radians theta) in
  let de := radians delta in
  mkMat (creal (ct * ct)) (cscale (st * ct) (cis (- de)))
        (cscale (st * ct) (cis de)) (creal (st * st)).
(** 171-199 *)
Definition j_retarder (theta delta : R) : mat :=
  let ct := cos (radians theta) in
  let st := sin (radians theta) in
  let de := radians delta in
  let ed := cis de in
  let off := cscale (ct * st) (cplus c1 (cneg ed)) in
  mscale (cis (- de / 2))
    (mkMat (cplus (creal (ct * ct)) (cscale (st * st) ed)) off
           off (cplus (creal (st * st)) (cscale (ct * ct) ed))).
(** The shortcuts of [PolarizerMatrix] (56-108), on the class of the constructors. *)
Section Shortcuts.
  Context {T : Type} (elliptical linear_retarder : R -> R -> T).
  Definition s_right_circular : T := elliptical 45 90.
  Definition s_left_circular : T := elliptical 45 (- (90)).
  Definition s_linear (theta : R) : T := elliptical theta 0.
  Definition s_quarter (theta : R) : T := linear_retarder theta 90.
  Definition s_half (theta : R) : T := linear_retarder theta 180.
End Shortcuts.

(** * [MuellerMatrix] *)
(** 256-263: the imaginary part must be zero. *)
Definition real4 (a : mat4) : bool :=
  forallb (fun i => forallb (fun j => if Req_EM_T (im (a i j)) 0%R then true else false) (seq 0 4)) (seq 0 4).
Definition mueller_new (a : mat4) : res rmat4 :=
  if real4 a then Ok (fun i j => re (a i j)) else Err EValueError.
(** 201-222, for one matrix. *)
Definition to_mueller (j : mat) : res rmat4 :=
  mueller_new (mm4 (mm4 unitary_matrix (kron j (mconj j))) unitary_matrix_inv).
(** 203-209: arrays with up to two leading axes; [einsum_transfo] is not assigned for
    the others.  All the matrices must be real. *)
Definition to_mueller_nd (lead : list nat) (j : list nat -> mat) : res (list nat -> rmat4) :=
  if length lead <=? 2 then
    Ok (fun p => match to_mueller (j p) with Ok m => m | Err _ => fun _ _ => 0%R end)
  else Err EUnboundLocalError.

(** 265-291 *)
Definition m_rows (rows : list (list R)) : rmat4 := fun i j => nth j (nth i rows []) 0%R.
Definition m_elliptical (theta delta : R) : rmat4 :=
  let th := (2 * radians theta)%R in
  let ct := cos th in
  let st := sin th in
  let cd := cos (radians delta) in
  let sd := sin (radians delta) in
  fun i j => (half * m_rows
    [[1; ct; st * cd; st * sd];
     [ct; ct * ct; st * ct * cd; st * ct * sd];
     [st * cd; st * ct * cd; st * st * cd * cd; st * st * sd * cd];
     [st * sd; st * ct * sd; st * st * sd * cd; st * st * sd * sd]] i j)%R.
(** 293-313 *)
Definition m_retarder (theta delta : R) : rmat4 :=
  let th := (2 * radians theta)%R in
  let ct := cos th in
  let st := sin th in
  let cd := cos (radians delta) in
  let sd := sin (radians delta) in
  m_rows
    [[1; 0; 0; 0];
     [0; ct * ct + st * st * cd; (1 - cd) * st * ct; - st * sd];
     [0; (1 - cd) * st * ct; st * st + ct * ct * cd; ct * sd];
     [0; st * sd; - ct * sd; cd]]%R.

(** 315-334 *)
Definition sigma_ij (i j : nat) : mat4 :=
  mm4 (mm4 unitary_matrix (kron (pauli i) (mconj (pauli j)))) unitary_matrix_inv.
Definition to_hermitian (m : rmat4) : mat4 := fun a b =>
  cscale (1 / 4)%R (csum (flat_map (fun i => map (fun j => cscale (m i j) (sigma_ij i j a b)) (seq 0 4)) (seq 0 4))).

(** 336-413: amplitudes and angles of the four values.  [None]: the square root of a
    negative number. *)
Definition amplitude (x : R) : option R := if Rle_dec 0 (half * x)%R then Some (sqrt (half * x)) else None.
Definition polar (a : option R) (angle : R) : option cpx := option_map (fun r => cscale r (cis angle)) a.
Definition mget4 (m : rmat4) (i j : nat) : R := m i j.
Definition m_to_jones (m : rmat4) : option mat :=
  match polar (amplitude (mget4 m 0 0 + mget4 m 0 1 + mget4 m 1 0 + mget4 m 1 1)%R) 0%R,
        polar (amplitude (mget4 m 0 0 - mget4 m 0 1 + mget4 m 1 0 - mget4 m 1 1)%R) (- arctan2 (mget4 m 0 3 + mget4 m 1 3) (mget4 m 0 2 + mget4 m 1 2))%R,
        polar (amplitude (mget4 m 0 0 + mget4 m 0 1 - mget4 m 1 0 - mget4 m 1 1)%R) (arctan2 (mget4 m 3 0 + mget4 m 3 1) (mget4 m 2 0 + mget4 m 2 1))%R,
        polar (amplitude (mget4 m 0 0 - mget4 m 0 1 - mget4 m 1 0 + mget4 m 1 1)%R) (arctan2 (mget4 m 3 2 - mget4 m 2 3) (mget4 m 2 2 + mget4 m 3 3))%R with
  | Some a, Some b, Some c, Some d => Some (mkMat a b c d)
  | _, _, _, _ => None
  end.

(** * Vectors *)
Record stokes := mkStokes { sI : R; sQ : R; sU : R; sV : R }.
Definition sget (s : stokes) (i : nat) : R := match i with 0 => sI s | 1 => sQ s | 2 => sU s | _ => sV s end.
(** [np.matmul] of a Mueller matrix and a Stokes vector. *)
Definition smul (m : rmat4) (s : stokes) : stokes :=
  let row i := (mget4 m i 0 * sI s + mget4 m i 1 * sQ s + mget4 m i 2 * sU s + mget4 m i 3 * sV s)%R in
  mkStokes (row 0) (row 1) (row 2) (row 3).

(** 486-498 *)
Definition j_linear (angle_deg : R) : jvec :=
  let a := radians angle_deg in
  ((cos a * 1 + - sin a * 0, 0), (sin a * 1 + cos a * 0, 0))%R.
(** 500-506 *)
Definition j_circular (angle_deg : R) : jvec :=
  let x := cis (radians 0) in
  let y := cis (radians angle_deg) in
  let norm := sqrt (power x + power y) in
  (cscale (/ norm) x, cscale (/ norm) y).
(** [np.abs] and [np.angle] *)
Definition cabs (z : cpx) : R := sqrt (re z ^ 2 + im z ^ 2).
Definition cangle (z : cpx) : R := arctan2 (im z) (re z).
(** 508-523 *)
Definition j_to_stokes (v : jvec) : stokes :=
  let ex := cabs (fst v) in
  let ey := cabs (snd v) in
  let phi := (cangle (snd v) - cangle (fst v))%R in
  mkStokes (ex ^ 2 + ey ^ 2) (ex ^ 2 - ey ^ 2) (2 * ex * ey * cos phi) (2 * ex * ey * sin phi).

(** 541-554 *)
Definition s_elliptical (psi chi : R) : stokes :=
  let p := radians (2 * psi) in
  let c := radians (2 * chi) in
  mkStokes 1 (cos p * cos c) (sin p * cos c) (sin c).
(** 556-558: [circular] is that of [PolarVector], which raises; [linear] is not defined
    and is that of [PolarVector] too (427-437). *)
Definition s_lin (angle_deg : R) : res stokes := Err ENotImplementedError.
Definition s_circ (angle_deg : R) : res stokes := Err ENotImplementedError.
(** The shortcuts of [PolarVector] (439-467), on the class of the constructors. *)
Section VectorShortcuts.
  Context {T : Type} (linear circular : R -> T).
  Definition horizontal : T := linear 0%R.
  Definition vertical : T := linear 90%R.
  Definition diagonal : T := linear 45%R.
  Definition anti_diagonal : T := linear (- (45))%R.
  Definition left_circular : T := circular 90%R.
  Definition right_circular : T := circular (- (90))%R.
End VectorShortcuts.

(** 560-574.  [None]: 0 / 0. *)
Definition s_to_jones (s : stokes) : option jvec :=
  let polar_intensity := sqrt (sQ s ^ 2 + sU s ^ 2 + sV s ^ 2) in
  let polar_amplitude := sqrt polar_intensity in
  match rdiv (sQ s) polar_intensity, rdiv (sU s) polar_intensity, rdiv (sV s) polar_intensity with
  | Some q, Some u, Some v =>
      let a := sqrt ((1 + q) / 2) in
      let b := if Req_EM_T a 0%R then c1 else cscale (/ (2 * a)) (u, v) in
      Some (creal (polar_amplitude * a), cscale polar_amplitude b)
  | _, _, _ => None
  end.
