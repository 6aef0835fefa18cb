(** Model of the conversion to local time, nenupy/astro/astro_tools.py 220-248 ([to_local_time]).
    Times are whole seconds, by the reading of a UTC clock. A time zone of pytz has an offset in
    winter, one in summer and the summers as pairs of UTC instants; its rules (the offset of a UTC
    instant, and [localize] of a clock reading without zone, which takes winter time for readings
    that do not exist or exist twice, [is_dst=False]) are those of the documentation of pytz.
    An unknown zone (pytz.UnknownTimeZoneError) is not modelled. *)
From Coq Require Import List ZArith Bool.
From Verif Require Import Base.
Import ListNotations.
Open Scope Z_scope.

Record zone := mkZone { z_winter : Z; z_summer : Z; z_periods : list (Z * Z) }.
(** [tz.localize(naive).utcoffset()], 239-242 *)
Definition localize_offset (z : zone) (naive : Z) : Z :=
  if existsb (fun p => (fst p + z_summer z <=? naive) && (naive <? snd p + z_winter z)) (z_periods z) then z_summer z else z_winter z.
(** A [Time], of one instant or an array *)
Inductive time := Scalar (t : Z) | Times (l : list Z).
(** 234-248 *)
Definition to_local_time (z : zone) (t : time) : time :=
  let (scalar, l) := match t with Scalar t => (true, [t]) | Times l => (false, l) end in
  let offsets := map (localize_offset z) l in
  let local := map (fun p => fst p + snd p) (combine l offsets) in
  if scalar then Scalar (hd 0 local) else Times local.
