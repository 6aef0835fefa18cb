(** Model of nenupy/observation/obs_tools.py: the seasons and the night time of NenuFAR
    cycles ([time_to_season_mask], 336-387; [time_to_night_mask], 394-427) and the highest
    frequency at which two sources share an analog beam ([in_analog_beam_max_frequency],
    50-116); and of the same notions in nenupy/schedule/open_time.py 57-96. *)
From Coq Require Import ZArith Bool String List Reals.
From Verif Require Import Base M_Area M_Beam M_Sefd.
Import ListNotations.
Open Scope Z_scope.
Open Scope list_scope.

(** * Calendar *)
(** Times are whole microseconds from 0001-01-01T00:00 in the proleptic Gregorian calendar
    of [astropy.time.Time] and [datetime]. Simplified: days of 86400 s, no leap second. *)
Definition second : Z := 1000000.
Definition hour : Z := 3600 * second.
Definition day_length : Z := 24 * hour.
Definition leap (y : Z) : bool := (y mod 4 =? 0) && (negb (y mod 100 =? 0) || (y mod 400 =? 0)).
(** Number of the day of 1 January. *)
Definition jan1 (y : Z) : Z := 365 * (y - 1) + (y - 1) / 4 - (y - 1) / 100 + (y - 1) / 400.
(** The ISO dates that are used, [f"{year}-03-31"] and [f"{year}-09-30"], at midnight. *)
Definition summer_start (y : Z) : Z := (jan1 y + 31 + (if leap y then 29 else 28) + 30) * day_length.
Definition winter_start (y : Z) : Z := (jan1 y + 31 + (if leap y then 29 else 28) + 31 + 30 + 31 + 30 + 31 + 31 + 29) * day_length.
(** [day.yday.split(":")[0]], open_time.py 70, and [int(np.floor(time.decimalyear))],
    obs_tools.py 371: the year. *)
Definition year_of (t : Z) : Z :=
  let d := t / day_length in
  let g := d * 400 / 146097 + 1 in
  if d <? jan1 g then g - 1 else if jan1 (g + 1) <=? d then g + 1 else g.
(** [int(np.ceil(time.decimalyear))], 372: the following year except at its first instant.
    Simplified: the rounding of the decimal year, some microseconds, is not. *)
Definition year_ceil (t : Z) : Z := if t =? jan1 (year_of t) * day_length then year_of t else year_of t + 1.

(** * obs_tools.py *)
(** A [Time]: a scalar or an array of one dimension. *)
Inductive times := Scalar (t : Z) | Array (l : list Z).
Definition as_array (t : times) : list Z := match t with Scalar t => [t] | Array l => l end.
(** [while current_year <= stop_year], 374-382, [n] times. *)
Fixpoint summers (n : nat) (year : Z) (l : list Z) (mask : list bool) : list bool :=
  match n with
  | O => mask
  | S n => summers n (year + 1) l
             (map2 (fun t m => m || ((summer_start year <=? t) && (t <? winter_start year))) l mask)
  end.
(** 355-387 *)
Definition season_mask (t : times) (season : string) : res (list bool) :=
  if negb (String.eqb season "winter" || String.eqb season "summer") then Err EKeyError      (* 362-363 *)
  else let l := as_array t in                                                              (* 365-366 *)
  match l with
  | [] => Err EIndexError                                                                  (* 371 *)
  | t0 :: _ =>
    let first := year_of t0 in
    let last := year_ceil (List.last l t0) in
    let mask := summers (Z.to_nat (last - first + 1)) first l (map (fun _ => false) l) in
    if String.eqb season "summer" then Ok mask else Ok (map negb mask)                    (* 384-387 *)
  end.

(** [Angle(...).hour] of the time of day of [time.iso], 415, in milliseconds: an ISO date is
    rounded to the closest millisecond. *)
Definition iso_time (t : Z) : Z := ((t + 500) / 1000) mod (day_length / 1000).
Definition hour_ms : Z := hour / 1000.
(** 407-410: the boundaries in hours; [night_summer] and [night_winter] are 421 and 424. *)
Definition night_summer (h : Z) : bool :=
  ((0 <=? h) && (h <=? 3 * hour_ms)) || ((19 * hour_ms <=? h) && (h <=? 24 * hour_ms)).
Definition night_winter (h : Z) : bool :=
  ((0 <=? h) && (h <=? 4 * hour_ms)) || ((0 <=? h) && (h <=? 4 * hour_ms)).
(** 394-427. Of a scalar [time.iso] is a string, whose characters have no second word. *)
Definition night_mask (t : times) : res (list bool) :=
  match t with
  | Scalar _ => Err EIndexError                                                            (* 415 *)
  | Array l =>
    bind (season_mask t "summer"%string) (fun summer =>
    Ok (map2 (fun t (s : bool) => if s then night_summer (iso_time t) else night_winter (iso_time t)) l summer))
  end.

(** ** [in_analog_beam_max_frequency], 89-116 *)
(** The separations of the two sources are given: one only when both are fixed or the time
    is a scalar. [positions] are those of the antennas of a Mini-Array, 101-102. *)
Definition frequencies : list R := map (fun i => (lin 15 85 200 i * 10 ^ 6)%R) (seq 0 200).
Definition within (hwhm : option R) (separation : R) : bool :=
  match hwhm with Some h => if Rle_dec separation h then true else false | None => false end.
Fixpoint collect {A} (l : list (res A)) : res (list A) :=
  match l with [] => Ok [] | r :: l => bind r (fun a => bind (collect l) (fun t => Ok (a :: t))) end.
(** The resolutions do not fail one without the others: they are computed together, 102. *)
Definition max_frequency (positions : list vec) (separations : list R) (size : nat) : res (list R) :=
  bind (collect (map (angular_resolution positions) frequencies)) (fun fwhm =>
  let hwhm := map (option_map (fun x => x / 2)%R) fwhm in
  collect (map (fun i =>
    match nth_error separations i with
    | None => Err EIndexError                                                             (* 111 *)
    | Some s =>
      match rmax (map snd (filter (fun p => within (fst p) s) (combine hwhm frequencies))) with
      | Err EValueError => Ok 0%R                                                         (* 112-114 *)
      | r => r
      end
    end) (seq 0 size))).

(** * open_time.py *)
Inductive season := Summer | Winter.
(** [_season_from_time], 69-82 *)
Definition season_from_time (day : Z) : season :=
  let year := year_of day in
  if (summer_start year <=? day) && (day <? winter_start year) then Summer else Winter.
(** [_sort_night_time], 84-96; hours are in microseconds. *)
Definition boundaries (s : season) : (Z * Z) * (Z * Z) :=
  match s with Winter => ((0, 4 * hour), (20 * hour, 24 * hour)) | Summer => ((0, 3 * hour), (19 * hour, 24 * hour)) end.
Definition sort_night_time (start stop current_day : Z) : Z * Z :=
  let '(morning, evening) := boundaries (season_from_time current_day) in
  let day_time := stop - start in
  let morning_hours := Z.max 0 (snd morning - start) in
  let evening_hours := Z.max 0 (stop - fst evening) in
  let night_time := morning_hours + evening_hours in
  let night_time := night_time + Z.min 0 (day_time - night_time) in
  (day_time - night_time, night_time).
