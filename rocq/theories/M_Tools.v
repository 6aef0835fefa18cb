(** Model of nenupy/instru/instrument_tools.py: [miniarrays_rotated_like],
    [generate_nenufar_subarrays], [pointing_correction]; of nenupy/instru/nenufar.py:
    [MiniArray.attenuation_from_zenith], [_antenna_name_to_unique_index], the Mini-Arrays known;
    of nenupy/astro/beam_correction.py: [pointing_correction_factor].

    Numbers are rationals. Beams, horizontal coordinates and the tables of corrections are
    arguments. *)
From Coq Require Import ZArith QArith Qround Qabs Bool String List.
From Verif Require Import Base M_Pointing.
Import ListNotations.
Open Scope nat_scope.
Open Scope list_scope.

(** * Mini-Arrays *)
(** nenupy/instru/nenufar_array.json: identifiers and rotations, in the order of the file. The
    name of each is "MA" followed by its identifier, on three digits. *)
Definition miniarrays : list (Z * Z) :=
  [(0, 0); (1, 30); (2, 300); (3, 200); (4, 20); (5, 180); (6, 180); (7, 230); (8, 150); (9, 240); (10,
   290); (11, 310); (12, 250); (13, 40); (14, 330); (15, 280); (16, 60); (17, 110); (18, 10); (19,
   210); (20, 320); (21, 260); (22, 250); (23, 170); (24, 180); (25, 50); (26, 300); (27, 210); (28,
   320); (29, 330); (30, 60); (31, 20); (32, 290); (33, 240); (34, 230); (35, 340); (36, 170); (37,
   350); (38, 260); (39, 160); (40, 220); (41, 120); (42, 140); (43, 130); (44, 110); (45, 150); (46,
   300); (47, 190); (48, 100); (49, 340); (50, 160); (51, 240); (52, 270); (53, 340); (54, 310); (55,
   90); (56, 10); (57, 350); (58, 50); (59, 270); (60, 310); (61, 220); (62, 40); (63, 80); (64, 140);
   (65, 200); (66, 190); (67, 60); (68, 50); (69, 170); (70, 70); (71, 0); (72, 90); (73, 140); (74,
   350); (75, 120); (76, 30); (77, 190); (78, 270); (79, 40); (80, 130); (81, 150); (82, 100); (83,
   70); (84, 280); (85, 130); (86, 100); (87, 250); (88, 220); (89, 160); (90, 110); (91, 90); (92,
   80); (93, 10); (94, 20); (95, 120); (100, 270); (101, 270); (102, 270); (103, 90); (104, 90); (105,
   90)]%Z.
(** [miniarrays_rotated_like], 209-240. *)
Definition rotated_like (table : list (Z * Z)) (rotations : list Z) : res (list Z) :=
  if forallb (fun r => r mod 10 =? 0)%Z rotations
  then Ok (map fst (filter (fun m => existsb (Z.eqb (snd m mod 60)) (map (fun r => r mod 60)%Z rotations)) table))
  else Err EValueError.
(** [MiniArray.__init__], nenufar.py 304-350: an index is an integer, or something else
    ([None]), which cannot be formatted. The exceptions MiniArrayUnknownIndex and
    MiniArrayBadIndexFormat are EKeyError and EValueError here. The result is the rotation. *)
Definition mini_array (index : option Z) : res Z :=
  match index with
  | None => Err EValueError
  | Some i => match find (fun m => (fst m =? i)%Z) miniarrays with Some m => Ok (snd m) | None => Err EKeyError end
  end.
(** [NenuFAR.__init__], nenufar.py 1106-1133: the names starting with "MA1" are those of the
    identifiers from 100 to 199. *)
Definition nenufar (remote : bool) : list Z :=
  if remote then map fst miniarrays else filter (fun i => negb ((100 <=? i) && (i <? 200))%Z) (map fst miniarrays).
(** [_antenna_name_to_unique_index], nenufar.py 1015-1040, of the number of the antenna *)
Definition groups : list (list Z) := [[1; 3; 12; 19; 17; 8]; [2; 7; 16; 18; 13; 4]; [5; 6; 11; 15; 14; 9]; [10]]%Z.
Definition unique_index (antenna : option Z) : res (option Z) :=
  match antenna with
  | None => Ok None
  | Some a => match find (existsb (Z.eqb a)) groups with
              | None => Err EValueError
              | Some g => match g with [] => Err EValueError | x :: r => Ok (Some (fold_left Z.min r x)) end
              end
  end.

(** * [generate_nenufar_subarrays], 318-379: [draws] are the random values, in [0, 1[. *)
Definition edge (n i : nat) : Q := (inject_Z (Z.of_nat i) / inject_Z (Z.of_nat n))%Q.
Definition in_bin (n i : nat) (v : Q) : bool := Qle_bool (edge n i) v && negb (Qle_bool (edge n (S i)) v).
Fixpoint keep {A} (l : list A) (m : list bool) : list A :=
  match l, m with x :: l, b :: m => if b then x :: keep l m else keep l m | _, _ => [] end.
Definition subarrays (names : list Z) (n : Z) (remote : bool) (draw : nat -> Q) : res (list (list Z)) :=
  if (n <? 2)%Z then Err EValueError
  else
    let n := Z.to_nat n in
    let n_mas := if remote then 102 else 96 in
    let names := firstn n_mas names in
    let values := map draw (seq 0 n_mas) in
    if forallb (fun v => length (filter (fun i => in_bin n i v) (seq 0 n)) =? 1) values
    then if length names =? n_mas then Ok (map (fun i => keep names (map (in_bin n i) values)) (seq 0 n)) else Err EIndexError
    else Err EValueError.

(** * [pointing_correction], 569-680 *)
(** A direction: azimuth in [0, 360[ and elevation, in degrees. Scalars are told apart. *)
Record azel := mkAzel { azimuth : Q; elevation : Q }.
Inductive directions := Alone (d : azel) | Array (l : list azel).
(** A table: shifts in arcminutes, at the elevations 15 to 90 and azimuths 0 to 360, by degrees. *)
Definition table := nat -> nat -> Q.
(** [RegularGridInterpolator]: linear along both axes, from the cell of the position; the last
    one for the last value. *)
Definition cell (last : Z) (x : Q) : Z := Z.min (last - 1) (Qfloor x).
Definition interpolate (f : table) (alt az : Q) : Q :=
  let i := cell 75 (alt - 15) in let j := cell 360 az in
  let u := (alt - 15 - inject_Z i)%Q in let v := (az - inject_Z j)%Q in
  let i := Z.to_nat i in let j := Z.to_nat j in
  ((1 - u) * ((1 - v) * f i j + v * f i (S j)) + u * ((1 - v) * f (S i) j + v * f (S i) (S j)))%Q.
Definition Qltb (a b : Q) : bool := negb (Qle_bool b a).
(** [Longitude] wraps the azimuth. *)
Definition wrap360 (a : Q) : Q := (a - 360 * inject_Z (Qfloor (a / 360)))%Q.
Definition shifts (daz dalt : table) (d : azel) : Q * Q :=
  if Qltb 15 (elevation d) then (interpolate daz (elevation d) (azimuth d), interpolate dalt (elevation d) (azimuth d)) else (0, 0)%Q.
Definition corrected (daz dalt : table) (d : azel) : azel :=
  mkAzel (wrap360 (azimuth d + fst (shifts daz dalt d) / 60)) (elevation d + snd (shifts daz dalt d) / 60)%Q.
(** [Latitude] refuses what is not within 90 degrees. *)
Definition latitude_ok (d : azel) : bool := Qle_bool (elevation d) 90 && Qle_bool (-90) (elevation d).
(** [tables] gives those of the file of each year; "none" in any case and other texts do the same. A scalar cannot be indexed by the mask. *)
Definition pointing_correction (tables : string -> table * table) (altaz : bool) (c : directions) (year : string) : res directions :=
  if negb altaz then Err EValueError
  else if ((year =? "2022") || (year =? "2019"))%string then
    match c with
    | Alone _ => Err ETypeError
    | Array l => let out := map (corrected (fst (tables year)) (snd (tables year))) l in
                 if forallb latitude_ok out then Ok (Array out) else Err EValueError
    end
  else Ok c.

(** * [attenuation_from_zenith], nenufar.py 693-793 *)
(** The coordinates given: attributes [obstime] and [location] of the object, and its positions. *)
Section Attenuation.
Context {C : Type}.
Record sky_coord := mkCoord { obstime : option Q; location : option Z; positions : list C }.
(** The gain of the beam at a time, frequency, polarization and position; the zenith and the
    elevations at a time. *)
Variable gain : Q -> nat -> nat -> C -> Q.
Variable zenith : Q -> C.
Variable altitude : Q -> C -> Q.
(** [nenufar_position] *)
Variable site : Z.
(** NaN or infinite when divided by zero: [None]. *)
Definition ratio (a b : Q) : option Q := if Qeq_bool b 0 then None else Some (a / b)%Q.
(** [time.reshape((1,))] refuses several times; [SkyCoord.insert] refuses coordinates whose
    attributes are not those of the zenith. The result is indexed by frequency, polarization and
    position, for the only time. The object given is changed. *)
Definition attenuation (c : sky_coord) (times : list Q) (nf np : nat) : sky_coord * res (list (list (list (option Q)))) :=
  match times with
  | [t] =>
    let c := mkCoord (match obstime c with None => Some t | Some o => Some o end)
                     (match location c with None => Some site | Some l => Some l end) (positions c) in
    (c,
     if match obstime c, location c with Some o, Some l => Qeq_bool o t && (l =? site)%Z | _, _ => false end then
       let values f p := map (gain t f p) (zenith t :: positions c) in
       Ok (map (fun f => map (fun p =>
             map (fun x => if Qle_bool (altitude t (fst x)) 0 then None else snd x)
                 (combine (positions c) (map (fun v => ratio v (hd 0%Q (values f p))) (tl (values f p))))) (seq 0 np)) (seq 0 nf))
     else Err EValueError)
  | _ => (c, Err EValueError)
  end.
End Attenuation.

(** * [pointing_correction_factor], beam_correction.py 199-325 *)
Record arr3 := mk3 { d3 : nat * nat * nat; v3 : nat -> nat -> nat -> option Q }.
Section Factor.
Context {C H : Type}.
(** The beam of the whole array when pointed as [real_pointing], the zenith, the equatorial
    coordinates of a direction at a time, the directions really pointed (corrections then
    rotation by 0.58 degrees). *)
Variable beam : pt C H -> Q -> nat -> nat -> C -> Q.
Variable zen : Q -> C.
Variable up : H.
Variable radec : Q -> H -> C.
Variable really : H -> H.
Fixpoint steps (ts : list Q) : list Q :=
  match ts with t :: ((t' :: _) as r) => (t' - t)%Q :: steps r | [_] => [1%Q] | [] => [] end.
(** 277-296: the times are those of the digital pointing, each lasts until the next one, the last
    one for a day. *)
Definition real_pointing (times : list Q) (horizontal : list H) : res (pt C H) :=
  new_pointing (Many (map (fun x => radec (fst x) (really (snd x))) (combine times horizontal))) times (Some (steps times)) None.
(** [np.diagonal(value, axis1=0, axis2=3)] then [np.moveaxis(.., 2, 0)] *)
Definition values (p : pt C H) (ts : list Q) (cs : list C) : nat -> nat -> nat -> nat -> option Q := fun t f q c =>
  match nth_error ts t, nth_error cs c with Some t, Some c => Some (beam p t f q c) | _, _ => None end.
Definition factor (digital : pt C H) (horizontal : list H) (ts : list Q) (nf np : nat) : res arr3 :=
  bind (real_pointing (pt_times digital) horizontal) (fun real =>
  bind (all_times (at_time zen up digital) ts) (fun des =>
  bind (all_times (at_time zen up real) ts) (fun rea =>
  let desired := values real ts (map fst des) in
  let realized := values real ts (map fst rea) in
  Ok (mk3 (Nat.min (length ts) (length rea), nf, np)
        (fun t f q => match realized t f q t, desired t f q t with Some a, Some b => ratio a b | _, _ => None end))))).
End Factor.
