(** Model of the noise of an instrument: [sky_temperature] (nenupy/astro/astro_tools.py
    657-700), [instrument_temperature] (nenupy/instru/instrument_tools.py 153-203), and
    [system_temperature], [sefd], [sensitivity], [angular_resolution], [confusion_noise] and
    [Baseline] of nenupy/instru/interferometer.py (834-1190 and 117-157).
    Numbers are exact reals, in Hz, s, m2, K and Jy.  [None] is an infinity or a NaN: a
    division by zero.  Frequencies are an array of one dimension, a scalar being a list of
    one.  A source spectrum is a function of one frequency, applied to each.  Powers are
    those of positive numbers. *)
From Coq Require Import ZArith Reals Bool List Arith.
From Verif Require Import Base M_Polar M_Beam M_Xst M_Area.
Import ListNotations.
Open Scope nat_scope.
Open Scope list_scope.

(** ** Temperatures *)
Definition k_B : R := (1380649 / 10 ^ 29)%R.
Definition jy : R := (/ 10 ^ 26)%R.
(** astro_tools.py 695-700 *)
Definition sky_temperature (frequency : R) : R := (60 * Rpower (wavelength frequency) (255 / 100))%R.
(** [np.interp(x, xp, fp)] on reals, for increasing [xp] (M_Analog.v has that of
    rationals). *)
Fixpoint rinterp_from (x x0 y0 : R) (l : list (R * R)) : R :=
  match l with
  | [] => y0
  | (x1, y1) :: r => if Rle_dec x1 x then rinterp_from x x1 y1 r
                     else (y0 + (x - x0) * ((y1 - y0) / (x1 - x0)))%R
  end.
Definition rinterp (x : R) (table : list (R * R)) : res R :=
  match table with
  | [] => Err EValueError
  | (x0, y0) :: r => if Rle_dec x x0 then Ok y0 else Ok (rinterp_from x x0 y0 r)
  end.
Fixpoint each {A B} (f : A -> res B) (l : list A) : res (list B) :=
  match l with [] => Ok [] | x :: r => bind (f x) (fun y => bind (each f r) (fun ys => Ok (y :: ys))) end.
(** low_noise_amplifier.json: frequencies in MHz and gains, without filter and with that of
    25 MHz. *)
Record lna := mkLna { no_filter : list (R * R); filter_25 : list (R * R) }.
(** instrument_tools.py 191-203 *)
Definition instrument_temperature (t : lna) (lna_filter : Z) (frequencies : list R) : res (list R) :=
  bind (if (lna_filter =? 0)%Z then Ok (no_filter t) else if (lna_filter =? 3)%Z then Ok (filter_25 t) else Err EKeyError) (fun table =>
  each (fun f => bind (rinterp (f / 10 ^ 6)%R table) (fun g => Ok (sky_temperature f * g)%R)) frequencies).

(** ** [system_temperature], 890-897 *)
(** An instrument is its effective area, a function of the frequencies and the elevation,
    and the tables of its amplifiers. *)
Fixpoint map2 {A B C} (f : A -> B -> C) (l : list A) (m : list B) : list C :=
  match l, m with x :: l, y :: m => f x y :: map2 f l m | _, _ => [] end.
Notation area_fn := (list R -> R -> res (list R)).
Definition source_term (area : area_fn) (frequencies : list R) (efficiency elevation : R) (spectrum : R -> R) : res (list R) :=
  bind (area frequencies elevation) (fun a =>
  Ok (map2 (fun f a => (spectrum f * jy * a * efficiency / (2 * k_B))%R) frequencies a)).
Definition system_temperature (area : area_fn) (t : lna) (lna_filter : Z) (frequencies : list R)
    (sources : list (R -> R)) (efficiency elevation : R) : res (list R) :=
  let t_gal := map sky_temperature frequencies in
  bind (instrument_temperature t lna_filter frequencies) (fun t_inst =>
  bind (fold_left (fun acc s => bind acc (fun t_src =>
          bind (source_term area frequencies efficiency elevation s) (fun x => Ok (map2 Rplus t_src x))))
        sources (Ok (map (fun _ => 0%R) frequencies))) (fun t_src =>
  Ok (map2 Rplus (map2 Rplus t_gal t_inst) t_src))).

(** ** [sefd], 956-960: the system temperature is computed with its default efficiency and
    elevation. *)
Definition sefd (area : area_fn) (t : lna) (lna_filter : Z) (frequencies : list R) (elevation efficiency decoherence : R)
    (sources : list (R -> R)) : res (list (option R)) :=
  bind (area frequencies elevation) (fun a =>
  bind (system_temperature area t lna_filter frequencies sources 1%R (PI / 2)%R) (fun t_sys =>
  Ok (map2 (fun ts a => rdiv (decoherence * 2 * k_B * ts / jy)%R (efficiency * a)%R) t_sys a))).

(** ** [sensitivity], 1053-1075 *)
Inductive mode := Imaging | Beamforming | OtherMode.
Definition sensitivity (area : area_fn) (n_ant : nat) (t : lna) (lna_filter : Z) (frequencies : list R) (m : mode)
    (dt df elevation efficiency decoherence : R) (sources : list (R -> R)) : res (list (option R)) :=
  bind (sefd area t lna_filter frequencies elevation efficiency decoherence sources) (fun s_sys =>
  let over d := Ok (map (fun s => match s with Some s => rdiv s (sqrt d) | None => None end) s_sys) in
  match m with
  | Imaging => over (INR n_ant * (INR n_ant - 1) * 2 * dt * df)%R
  | Beamforming => over (2 * dt * df)%R
  | OtherMode => Err EValueError
  end).

(** ** [Baseline], 117-157 *)
(** 121-134: [bsl[i, j]] *)
Definition bsl (positions : list vec) (i j : nat) : vec :=
  vsub (nth j positions (mkVec 0 0 0)) (nth i positions (mkVec 0 0 0)).
Definition flatten (positions : list vec) : list vec :=
  map (fun p => bsl positions (fst p) (snd p)) (tril (length positions)).
Definition norm (a : vec) : R := sqrt (vx a ^ 2 + vy a ^ 2 + vz a ^ 2).
Definition distances (positions : list vec) : list R :=
  flat_map (fun i => map (fun j => norm (bsl positions i j)) (seq 0 (length positions))) (seq 0 (length positions)).

(** ** [angular_resolution], 1109-1119, in degrees. [positions] are those in ITRF. *)
Definition angular_resolution (positions : list vec) (frequency : R) : res (option R) :=
  if length positions =? 1 then Err EException
  else bind (rmax (distances positions)) (fun diameter =>
       Ok (option_map (fun x => x * 180 / PI)%R (rdiv (wavelength frequency) diameter))).

(** ** [confusion_noise], 1172-1190, in Jy *)
Definition confusion_noise (lofar : bool) (positions : list vec) (frequency : R) : res (option R) :=
  bind (angular_resolution positions frequency) (fun resolution =>
  Ok (option_map (fun deg =>
    if lofar then (30 * Rpower (deg * 3600) (154 / 100) * Rpower (frequency / 10 ^ 6 / 74) (- (7 / 10)) / 10 ^ 6)%R
    else (2 / 10 * Rpower (frequency / 10 ^ 9) (- (7 / 10)) * (deg * 60) ^ 2 / 10 ^ 3)%R) resolution)).
