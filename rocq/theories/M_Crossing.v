(** Model of the search of the transits, rises and sets of a target: nenupy/astro/target.py,
    [meridian_transit] (291-366), [meridian_transit_2] (369-414), [azimuth_transit]
    (416-511), [next_*] and [previous_*] (514-620, 693-800, 887-1003), [rise_time] (622-690),
    [set_time] (816-884), [_find_crossing_times] (1017-1064) and
    [_interpolate_crossing_times] (1067-1097).
    Times and durations are rationals, in seconds, without rounding.  The position of the
    target (astropy) is any function of time: hour angle, elevation or azimuth in degrees.
    [t_min] is one time (of an array the first is kept, 1025).  The loop [while] takes a
    number of iterations allowed; [None] when it has not ended. *)
From Coq Require Import ZArith QArith Qround Bool List Arith.
From Verif Require Import Base M_Analog.
Import ListNotations.
Open Scope nat_scope.
Open Scope list_scope.

Definition Qltb (a b : Q) : bool := negb (Qle_bool b a).

(** ** The conditions on two successive times *)
(** 353-357: the hour angle decreases. *)
Definition ha_drop (ha : Q -> Q) (t t' : Q) : bool := Qltb (ha t' - ha t) 0.
(** 681-683 *)
Definition rising (alt : Q -> Q) (e : Q) (t t' : Q) : bool := Qle_bool (alt t) e && Qle_bool e (alt t').
(** 875-877 *)
Definition setting (alt : Q -> Q) (e : Q) (t t' : Q) : bool := Qle_bool e (alt t) && Qle_bool (alt t') e.
(** 491: [np.angle(np.cos(az) + 1j*np.sin(az))], in degrees: between -180, excluded, and
    180. *)
Definition signed (az : Q) : Q := (az - 360 * inject_Z (Qceiling ((az - 180) / 360)))%Q.
(** 488-505 *)
Definition az_cross (circumpolar : bool) (azimuth : Q -> Q) (a : Q) (t t' : Q) : bool :=
  if circumpolar then
    let s := signed (azimuth t) in let s' := signed (azimuth t') in let a := signed a in
    (Qle_bool s a && Qle_bool a s') || (Qle_bool a s && Qle_bool s' a)
  else Qle_bool (azimuth t) a && Qle_bool a (azimuth t').

(** ** [_find_crossing_times] *)
(** 1047: [t_min[:, None] + np.arange(n_steps + 1) * dt], one row. *)
Definition samples (t dt : Q) (n : Z) : list Q := map (fun i => (t + inject_Z (Z.of_nat i) * dt)%Q) (seq 0 (Z.to_nat (n + 1))).
(** The first time of the pairs that meet the condition, in order. *)
Fixpoint starts (cross : Q -> Q -> bool) (l : list Q) : list Q :=
  match l with
  | a :: ((b :: _) as r) => if cross a b then a :: starts cross r else starts cross r
  | _ => []
  end.
(** 1042-1064 *)
Fixpoint find_loop (fuel : nat) (cross : Q -> Q -> bool) (precision : Q) (down : Z) (t_min : list Q) (duration dt : Q)
    (last : option (list Q)) : option (res (list Q)) :=
  match fuel with
  | O => None
  | S fuel =>
      if Qltb precision (dt * inject_Z down)
      then let n_steps := Qceiling (duration / dt) in
           match flat_map (fun t => starts cross (samples t dt n_steps)) t_min with
           | [] => Some (Ok [])                                            (* 1055-1057 *)
           | l => find_loop fuel cross precision down l dt (dt / inject_Z down)%Q (Some l)
           end
      else Some (match last with
                 | Some l => Ok (map (fun t => (t + dt / 2)%Q) l)          (* 1064 *)
                 | None => Err EUnboundLocalError
                 end)
  end.
(** 1030-1038 *)
Definition max_dt : Q := inject_Z (6 * 3600).
Definition down_factor (duration : Q) : Z := if Qltb max_dt (duration / 5) then Qceiling (duration / max_dt) else 5%Z.
Definition find_crossing (fuel : nat) (cross : Q -> Q -> bool) (t_min duration precision : Q) : option (res (list Q)) :=
  let down := down_factor duration in
  find_loop fuel cross precision down [t_min] duration (duration / inject_Z down)%Q None.

(** ** Next and previous *)
Definition two_days : Q := inject_Z (48 * 3600).
(** 693-760, 887-945: the first, an empty time when there is none. *)
Definition next_time (fuel : nat) (cross : Q -> Q -> bool) (time precision : Q) : option (res (option Q)) :=
  option_map (fun r => bind r (fun l => Ok (hd_error l))) (find_crossing fuel cross time two_days precision).
Definition previous_time (fuel : nat) (cross : Q -> Q -> bool) (time precision : Q) : option (res (option Q)) :=
  option_map (fun r => bind r (fun l => Ok (hd_error (rev l)))) (find_crossing fuel cross (time - two_days)%Q two_days precision).
(** 514-620: IndexError when there is none. *)
Definition or_index (r : option (res (option Q))) : option (res Q) :=
  option_map (fun r => bind r (fun o => match o with Some t => Ok t | None => Err EIndexError end)) r.
Definition next_meridian_transit (fuel : nat) (ha : Q -> Q) (time precision : Q) := or_index (next_time fuel (ha_drop ha) time precision).
Definition previous_meridian_transit (fuel : nat) (ha : Q -> Q) (time precision : Q) := or_index (previous_time fuel (ha_drop ha) time precision).

(** ** [meridian_transit_2] *)
(** 376-388 *)
Definition sampling (duration time_sampling : Q) : Q :=
  let s := if Qltb (duration / 5) time_sampling then (duration / 5)%Q else time_sampling in
  if Qltb (inject_Z (12 * 3600)) s then inject_Z (12 * 3600) else s.
Definition sample_times (t_min duration time_sampling : Q) : list Q :=
  let s := sampling duration time_sampling in
  map (fun i => (t_min + inject_Z (Z.of_nat i) * s)%Q) (seq 0 (Z.to_nat (Qfloor (duration / s)))).
(** 402-406: 360 is added after each decrease. *)
Fixpoint flattened (k : Z) (previous : Q) (l : list Q) : list Q :=
  match l with
  | [] => []
  | h :: r => let k := if Qltb (h - previous) 0 then (k + 1)%Z else k in
              (h + inject_Z k * 360)%Q :: flattened k h r
  end.
Definition flatten_ha (l : list Q) : list Q := match l with [] => [] | h :: r => (h + 0 * 360)%Q :: flattened 0 h r end.
Fixpoint interp_all (table : list (Q * Q)) (l : list Q) : res (list Q) :=
  match l with [] => Ok [] | v :: r => bind (interp v table) (fun y => bind (interp_all table r) (fun ys => Ok (y :: ys))) end.
(** 1090-1097 *)
Definition interpolate_crossing (times angle : list Q) (crossing boundary : Q) : res (list Q) :=
  match times, angle with
  | t0 :: _, a0 :: _ =>
      let n := length angle in
      let x := map (fun i => (inject_Z (Z.of_nat i) / inject_Z (Z.of_nat (n - 1)))%Q) (seq 0 n) in
      let top := fold_left (fun m y => if Qle_bool m y then y else m) angle a0 in
      let n_cycles := Qceiling (top / boundary) in
      let values := map (fun k => (inject_Z (Z.of_nat k) * boundary + crossing)%Q) (seq 1 (Z.to_nat (n_cycles - 1))) in
      let exposure := (last times t0 - t0)%Q in
      bind (interp_all (combine angle x) values) (fun ys => Ok (map (fun y => (t0 + y * exposure)%Q) ys))
  | _, _ => Err EValueError
  end.
Definition meridian_transit_2 (ha : Q -> Q) (t_min duration time_sampling : Q) : res (list Q) :=
  let times := sample_times t_min duration time_sampling in
  interpolate_crossing times (flatten_ha (map ha times)) 0 360.
