(** Model of the positions of targets for schedules, nenupy/schedule/targets.py 46-50, 144-234 and
    331-337. Hours and degrees are rational, angles of the trigonometric functions are real. The
    right ascension and declination at the date are given (astropy). A time is always an array
    here (150-151); its values are taken one by one. *)
From Coq Require Import QArith Qround Reals Bool.
Open Scope Q_scope.

(** ** Sidereal time and hour angle *)
(** 46-50: the longitude in hours *)
Definition nenufar_lon : Q := (21924 # 10000) / 15.
(** [a % b] *)
Definition fmod (a b : Q) : Q := a - b * inject_Z (Qfloor (a / b)).
Definition lt_bool (a b : Q) : bool := negb (Qle_bool b a).
(** 163-167 *)
Definition gmst (jd : Q) : Q := fmod ((18697374558 # 1000000000) + (2406570982441908 # 100000000000000) * (jd - 2451545)) 24.
(** 168-174 *)
Definition sidereal (lon jd : Q) : Q := let lst := gmst jd + lon in if lt_bool lst 0 then lst + 24 else lst.
(** 189-199, in degrees *)
Definition hour_angle (lst ra : Q) : Q :=
  let ha := 15 * lst - ra in
  let ha := if lt_bool ha 0 then ha + 360 else ha in
  if lt_bool 360 ha then ha - 360 else ha.

(** ** Horizontal coordinates, 205-234 *)
Open Scope R_scope.
Definition elevation (lat dec ha : R) : R := asin (sin dec * sin lat + cos dec * cos lat * cos ha).
(** NaN is [None]: a division by zero, or no cosine. *)
Definition azimuth (lat dec ha : R) : option R :=
  let el := elevation lat dec ha in
  if Req_EM_T (cos el * cos lat) 0 then None
  else
    let c := (sin dec - sin el * sin lat) / (cos el * cos lat) in
    if Rle_dec (-1) c then if Rle_dec c 1 then Some (if Rlt_dec 0 (sin ha) then - acos c + 2 * PI else acos c) else None else None.
(** 331-337 *)
Definition circumpolar (lat dec : R) : Prop := dec + lat > PI / 2.
