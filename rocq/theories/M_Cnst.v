(** Model of the observing constraints: nenupy/schedule/constraints.py, and of
    the score of a placed block: nenupy/schedule/schedule.py 134-149.
    Floats are exact rationals, [None] is NaN, angles are in degrees, hours in
    decimal hours, times in ticks counted from a midnight.  Positions of the
    target and of the Sun are data.  Type checks of arguments and warnings are
    not modelled. *)
From Coq Require Import List Arith ZArith QArith Bool.
From Verif Require Import Base M_Sched.
Import ListNotations.
Open Scope nat_scope.

Definition vec := list (option Q).

(** ** Helpers *)

Definition map2 {A B C} (f : A -> B -> C) (l : list A) (m : list B) : list C :=
  map (fun p => f (fst p) (snd p)) (combine l m).

Definition is_nan (x : option Q) : bool := match x with None => true | Some _ => false end.

(** [np.nanmax], [np.nanmin] ([None] if everything is NaN). *)
Definition nanbest (le : Q -> Q -> bool) (v : vec) : option Q :=
  fold_right (fun x m =>
    match x, m with
    | None, _ => m
    | Some a, None => Some a
    | Some a, Some b => if le a b then Some b else Some a
    end) None v.
Definition nanmax := nanbest Qle_bool.
Definition nanmin := nanbest (fun a b => Qle_bool b a).

Definition scale_by (f : Q -> Q) (v : vec) : vec := map (option_map f) v.

(** Division of an array by a number: zero over zero is NaN.  The infinity given
    by a positive number over zero is a NaN in the model; it only occurs for a
    night constraint whose limit is above the horizon. *)
Definition over (v : vec) (d : Q) : vec :=
  map (fun x => match x with
                | Some e => if Qeq_bool d 0 then None else Some (e / d)%Q
                | None => None
                end) v.
Definition over_itself (v : vec) : vec :=
  map (fun x => match x with
                | Some e => if Qeq_bool e 0 then None else Some (e / e)%Q
                | None => None
                end) v.

(** [np.where(score == 0, np.nan, score)] applied to a mask. *)
Definition mask_score (m : list bool) : vec := map (fun b : bool => if b then Some 1%Q else None) m.

(** [l[:-1]], [l[1:]]. *)
Definition starts_of {A} (l : list A) : list A := removelast l.
Definition stops_of {A} (l : list A) : list A := tl l.

(** ** Evaluation of each constraint *)

(** Lines 494-531, [ElevationCnst._evaluate]. *)
Definition elevation_eval (emin : Q) (scale : bool) (elevation : list Q) : vec :=
  let mid := map2 (fun a b => (a + b) / 2)%Q (stops_of elevation) (starts_of elevation) in
  let m := map (fun e => if Qle_bool e emin then None else Some e) mid in
  if forallb is_nan m then map (fun _ => None) (stops_of elevation)
  else if negb scale then over_itself m
  else match nanmax m with
       | None => m
       | Some top => over m top
       end.

(** Lines 594-610, 690-707 and 761-778: 1 on the given slots, 1/2 on their
    neighbours in a window of [nslots] slots, 0 elsewhere. *)
Definition centred (nslots size : nat) (hit : list nat) : list Q :=
  let neighbours := filter (fun z => (0 <=? z)%Z && (z <? Z.of_nat size)%Z)
    (flat_map (fun i => map (fun j => (Z.of_nat i + (Z.of_nat j - Z.of_nat (nslots / 2)))%Z)
                            (seq 0 nslots)) hit) in
  map (fun k => if existsb (Nat.eqb k) hit then 1%Q
                else if existsb (Z.eqb (Z.of_nat k)) neighbours then (1#2)%Q else 0%Q)
      (seq 0 size).

(** [np.where(mask)[0]]. *)
Definition where_true (m : list bool) : list nat :=
  filter (fun k => nth k m false) (seq 0 (length m)).

(** Lines 586-614, [MeridianTransitCnst._evaluate]: the hour angle decreases
    between a slot start and the next. *)
Definition transit_eval (nslots : nat) (ha : list Q) : vec :=
  let hit := where_true (map2 (fun a b => Qltb b a) (starts_of ha) (stops_of ha)) in
  map Some (starts_of (centred nslots (length ha) hit)).

(** [np.angle(np.cos(a) + 1j*np.sin(a))] in degrees for [0 <= a <= 360]. *)
Definition wrap180 (a : Q) : Q := if Qle_bool a 180 then a else (a - 360)%Q.

(** Lines 661-711, [AzimuthCnst._evaluate]. *)
Definition azimuth_eval (az : Q) (circumpolar : bool) (nslots : nat) (azimuths : list Q) : vec :=
  let mask :=
    if circumpolar then
      map2 (fun a b =>
              let z := wrap180 az in let s := wrap180 a in let t := wrap180 b in
              (Qle_bool s z && Qle_bool z t) || (Qle_bool z s && Qle_bool t z))
           (starts_of azimuths) (stops_of azimuths)
    else map2 (fun a b => Qle_bool a az && Qle_bool az b) (starts_of azimuths) (stops_of azimuths) in
  map Some (centred nslots (length mask) (where_true mask)).

(** [(x - 180 deg).wrap_at('360d')]. *)
Definition opposite (x : Q) : Q := if Qltb x 180 then (x + 180)%Q else (x - 180)%Q.

(** Lines 744-755: the sidereal time is reached during the slot. *)
Definition lst_crossed (lst a b : Q) : bool :=
  if Qltb b a then Qle_bool (opposite a) (opposite lst) && Qle_bool (opposite lst) (opposite b)
  else Qle_bool a lst && Qle_bool lst b.

(** Lines 739-804, [LocalSiderealTimeCnst._evaluate], strict crossing only. *)
Definition lst_eval (lst : Q) (nslots : nat) (lsts : list Q) : vec :=
  let mask := map2 (lst_crossed lst) (starts_of lsts) (stops_of lsts) in
  map Some (centred nslots (length mask) (where_true mask)).

(** Hour of the day of an instant, [day] being the number of ticks in a day. *)
Definition hour_of (day t : Z) : Q := (inject_Z (24 * (t mod day)) / inject_Z day)%Q.

(** Lines 882-889 and 961-968: selection by hour. *)
Definition hour_mask (hmin hmax h : Q) : bool :=
  if Qltb hmax hmin then negb (Qle_bool h hmin && Qle_bool hmax h)
  else Qle_bool hmin h && Qle_bool h hmax.

(** Lines 863-892, [LocalTimeCnst._evaluate]: [offset] is the offset of the
    local time at each instant. *)
Definition local_eval (hmin hmax : Q) (day : Z) (offset : Z -> Z) (time : list Z) : vec :=
  mask_score (starts_of (map (fun t => hour_mask hmin hmax (hour_of day (t + offset t))) time)).

(** Lines 951-971, [UTCHourCnst._evaluate]. *)
Definition utc_eval (hmin hmax : Q) (day : Z) (time : list Z) : vec :=
  mask_score (starts_of (map (fun t => hour_mask hmin hmax (hour_of day t)) time)).

(** Lines 1031-1048, [TimeRangeCnst._evaluate] for one or several ranges. *)
Definition range_eval (ranges : list (Z * Z)) (time : list Z) : vec :=
  mask_score (starts_of
    (map (fun t => existsb (fun r => (fst r <=? t)%Z && (t <=? snd r)%Z) ranges) time)).

(** Lines 1232-1242, [PeriodicCnst._evaluate].  The modulo of a positive or
    negative period is the one of Python and Coq. *)
Definition periodic_mask (start p tol t : Z) : bool :=
  let m := ((t - start) mod p)%Z in ((m <=? tol)%Z || (p - tol <=? m)%Z).
Definition periodic_eval (start p tol : Z) (time : list Z) : vec :=
  mask_score (starts_of (map (periodic_mask start p tol) time)).

(** Lines 1080-1097, [NightTimeCnst._evaluate].  The array of Sun elevations
    is modified in place: the first component is its new value. *)
Definition night_clip (emax : Q) (sun : vec) : vec :=
  map (fun x => match x with
                | Some e => if Qltb emax e then None else Some e
                | None => None
                end) sun.
Definition night_eval (emax : Q) (scale : bool) (sun : vec) : vec * vec :=
  let s := night_clip emax sun in
  (s,
   if forallb is_nan s then stops_of s
   else if negb scale then over_itself s
   else match nanmin s with
        | None => s
        | Some low => over s low
        end).

(** Lines 1281-1319, [SolarProximityCnst._evaluate]. *)
Definition solar_eval (closer : bool) (smin smax : option Q) (scale : bool) (sep : list Q) : vec :=
  let out e := match smin with Some m => Qle_bool e m | None => false end
            || match smax with Some m => Qltb m e | None => false end in
  let s := map (fun e => if out e then None else Some e) sep in
  let score :=
    match nanmax s with
    | None => s
    | Some top =>
        if closer then
          let inv := scale_by (fun e => top + (1#10) - e)%Q s in
          match nanmax inv with
          | None => inv
          | Some m => over inv m
          end
        else over s top
    end in
  if scale then score
  else map (fun x => match x with
                     | Some e => if Qltb 0 e then Some 1%Q else Some e
                     | None => None
                     end) score.

(** ** Constraints *)

(** The constraint classes, with their parameters. *)
Inductive ckind :=
| CElevation (emin : Q) (scale : bool)
| CTransit
| CAzimuth (az : Q)
| CSidereal (lst : Q)
| CLocalTime (hmin hmax : Q)
| CUTCHour (hmin hmax : Q)
| CTimeRange (ranges : list (Z * Z))
| CNight (emax : Q) (scale : bool)
| CPeriodic (start p tol : Z)
| CSolar (closer : bool) (smin smax : option Q) (scale : bool)
| CBase.

Record cnst := mkCnst { cn_kind : ckind; cn_weight : Q }.

(** Lines 211-228: the weight setter. *)
Definition set_weight (c : cnst) (w : Q) : cnst * option err :=
  if Qle_bool w 0 then (c, Some EValueError) else (mkCnst (cn_kind c) w, None).

(** The positions of a target over the time axis (one more value than slots,
    but for the separation to the Sun). *)
Record target := mkTarget {
  tg_elevation : list Q;
  tg_ha : list Q;
  tg_azimuth : list Q;
  tg_circumpolar : bool;
  tg_lst : list Q;
  tg_sep : list Q;
}.

(** The time axis and its local offset. *)
Record clock := mkClock { ck_time : list Z; ck_day : Z; ck_offset : Z -> Z }.

(** numpy assignment of a vector to a row of [n] values. *)
Definition fit_row (n : nat) (v : vec) : res vec :=
  if length v =? n then Ok v
  else match v with
       | [x] => Ok (repeat x n)
       | _ => Err EValueError
       end.

(** Lines 1422-1432, body of the loop: the Sun elevations after the call and
    the row, [None] if the constraint is not evaluated. *)
Definition eval_one (tg : option target) (ck : clock) (nslots : nat) (sun : vec) (c : cnst)
  : vec * res (option vec) :=
  let n := length (ck_time ck) - 1 in
  let row v := bind (fit_row n v) (fun r => Ok (Some r)) in
  let on_target (f : target -> vec) :=
    match tg with Some t => row (f t) | None => Ok None end in
  match cn_kind c with
  | CElevation emin scale => (sun, on_target (fun t => elevation_eval emin scale (tg_elevation t)))
  | CTransit => (sun, on_target (fun t => transit_eval nslots (tg_ha t)))
  | CAzimuth az => (sun, on_target (fun t => azimuth_eval az (tg_circumpolar t) nslots (tg_azimuth t)))
  | CSidereal lst => (sun, on_target (fun t => lst_eval lst nslots (tg_lst t)))
  | CLocalTime a b => (sun, row (local_eval a b (ck_day ck) (ck_offset ck) (ck_time ck)))
  | CUTCHour a b => (sun, row (utc_eval a b (ck_day ck) (ck_time ck)))
  | CTimeRange rs => (sun, row (range_eval rs (ck_time ck)))
  | CPeriodic s p tol => (sun, row (periodic_eval s p tol (ck_time ck)))
  | CNight emax scale => let r := night_eval emax scale sun in (fst r, row (snd r))
  | CSolar closer smin smax scale =>
      (sun, match tg with
            | Some t => row (solar_eval closer smin smax scale (tg_sep t))
            | None => Err EAttributeError
            end)
  | CBase => (sun, Ok None)
  end.

Fixpoint eval_rows (tg : option target) (ck : clock) (nslots : nat) (sun : vec) (cs : list cnst)
  : vec * res (list (option vec)) :=
  match cs with
  | [] => (sun, Ok [])
  | c :: t =>
      match eval_one tg ck nslots sun c with
      | (sun1, Err e) => (sun1, Err e)
      | (sun1, Ok r) =>
          let x := eval_rows tg ck nslots sun1 t in
          (fst x, bind (snd x) (fun rs => Ok (r :: rs)))
      end
  end.

(** [np.average(values, weights=ws)] at one slot. *)
Fixpoint weighted_sum (ws : list Q) (xs : vec) : option Q :=
  match ws, xs with
  | w :: ws', Some x :: xs' => option_map (fun s => w * x + s)%Q (weighted_sum ws' xs')
  | [], [] => Some 0%Q
  | _, _ => None
  end.
Definition average (ws : list Q) (xs : vec) : option Q :=
  option_map (fun s => s / qsum ws)%Q (weighted_sum ws xs).

(** [np.prod(values) == 0] at one slot. *)
Definition prod_is_zero (xs : vec) : bool :=
  negb (existsb is_nan xs) && existsb (fun x => match x with Some q => Qeq_bool q 0 | None => false end) xs.

(** Lines 1441-1447 at one slot. *)
Definition combine_slot (ws : list Q) (xs : vec) : Q :=
  if prod_is_zero xs then 0%Q
  else match average ws xs with None => 0%Q | Some q => q end.

(** The rows of the array [cnts] after line 1438: a row that is not evaluated
    is left at zero, unless none is. *)
Definition filled_rows (n : nat) (rows : list (option vec)) : list vec :=
  let blank := if forallb (fun r : option vec => match r with None => true | Some _ => false end) rows
               then 1%Q else 0%Q in
  map (fun r => match r with Some v => v | None => repeat (Some blank) n end) rows.

(** Lines 1434-1447: the combined score. *)
Definition combined (ws : list Q) (n : nat) (rows : list (option vec)) : list Q :=
  map (fun k => combine_slot ws (map (fun v => nth k v None) (filled_rows n rows))) (seq 0 n).

(** Lines 1418-1447, [Constraints.evaluate]: the Sun elevations afterwards, the
    rows kept by the constraints and the score. *)
Definition evaluate (cs : list cnst) (tg : option target) (ck : clock) (nslots : nat) (sun : vec)
  : vec * res (list (option vec) * list Q) :=
  let r := eval_rows tg ck nslots sun cs in
  (fst r,
   bind (snd r) (fun rows =>
     match cs with
     | [] => Err EZeroDivisionError
     | _ => Ok (rows, combined (map cn_weight cs) (length (ck_time ck) - 1) rows)
     end)).

(** schedule.py 1754-1761: the blocks are evaluated one after the other with
    the same array of Sun elevations.  The first exception stops the loop. *)
Fixpoint evaluate_blocks (blocks : list (list cnst * option target * nat)) (ck : clock) (sun : vec)
  : vec * res (list (list Q)) :=
  match blocks with
  | [] => (sun, Ok [])
  | (cs, tg, nslots) :: t =>
      match evaluate cs tg ck nslots sun with
      | (sun1, Err e) => (sun1, Err e)
      | (sun1, Ok (_, s)) =>
          let x := evaluate_blocks t ck sun1 in
          (fst x, bind (snd x) (fun l => Ok (s :: l)))
      end
  end.

(** ** Score of a placed block *)

(** [np.mean(np.where(score[indices] > 0, 1, 0))]. *)
Definition mean_of (l : list Q) : Q := (qsum l / inject_Z (Z.of_nat (length l)))%Q.
Definition positive (x : option Q) : bool := match x with Some q => Qltb 0 q | None => false end.

(** The [get_score] of the classes: lines 450-487, 551-579, 651-656, 729-734, 854-858,
    942-946, 1022-1026, 1067-1075, 1212-1228, 1269-1277.  A constraint that has not been evaluated
    has the integer 1 for score: indexing it is a TypeError. *)
Definition get_score (k : ckind) (score : option vec) (s n : nat) : res (option Q) :=
  let at_ v := map (fun i => nth i v None) (seq s n) in
  match k with
  | CBase => Err EAttributeError
  | _ =>
    match score with
    | None => Err ETypeError
    | Some v =>
      match k with
      | CElevation _ _ | CNight _ _ | CSolar _ _ _ _ =>
          Ok (Some (mean_of (map (fun x => if positive x then 1%Q else 0%Q) (at_ v))))
      | CTransit | CAzimuth _ | CSidereal _ =>
          Ok (Some (if existsb (fun x => match x with Some q => Qltb (7#10) q | None => false end) (at_ v)
                    then 1%Q else 0%Q))
      | _ =>
          Ok (if existsb is_nan (at_ v) then None
              else Some (mean_of (map (fun x => match x with Some q => q | None => 0%Q end) (at_ v))))
      end
    end
  end.

Fixpoint get_scores (cs : list cnst) (rows : list (option vec)) (s n : nat) : res vec :=
  match cs, rows with
  | c :: cs', r :: rows' =>
      bind (get_score (cn_kind c) r s n) (fun x =>
      bind (get_scores cs' rows' s n) (fun xs => Ok (x :: xs)))
  | _, _ => Ok []
  end.

(** schedule.py 134-149, [ScheduleBlock.score]. *)
Definition block_score (cs : list cnst) (rows : list (option vec)) (start : option nat) (n : nat) : res Q :=
  match start with
  | None => Ok 0%Q
  | Some s =>
      bind (get_scores cs rows s n) (fun xs =>
        Ok (match average (map cn_weight cs) xs with None => 0%Q | Some q => q end))
  end.

(** ** Sets of constraints *)

(** The class of a constraint, compared by name. *)
Definition same_class (a b : ckind) : bool :=
  match a, b with
  | CElevation _ _, CElevation _ _ | CTransit, CTransit | CAzimuth _, CAzimuth _
  | CSidereal _, CSidereal _ | CLocalTime _ _, CLocalTime _ _ | CUTCHour _ _, CUTCHour _ _
  | CTimeRange _, CTimeRange _ | CNight _ _, CNight _ _ | CPeriodic _ _ _, CPeriodic _ _ _
  | CSolar _ _ _ _, CSolar _ _ _ _ | CBase, CBase => true
  | _, _ => false
  end.

Definition is_elevation (c : cnst) : bool :=
  match cn_kind c with CElevation _ _ => true | _ => false end.

(** A set: its constraints and the flag [_default_el]. *)
Record cset := mkCset { cs_list : list cnst; cs_default : bool }.

Fixpoint has_twins (l : list cnst) : bool :=
  match l with
  | [] => false
  | c :: t => existsb (fun d => same_class (cn_kind c) (cn_kind d)) t || has_twins t
  end.

Definition default_el : cnst := mkCnst (CElevation 0 true) 1.

(** Lines 1332-1358, [Constraints.__init__]. *)
Definition new_cset (l : list cnst) : res cset :=
  if has_twins l then Err EValueError
  else if existsb is_elevation l then Ok (mkCset l false)
  else Ok (mkCset (l ++ [default_el]) true).

Fixpoint pop_elevation (l : list cnst) : option (list cnst) :=
  match l with
  | [] => None
  | c :: t => if is_elevation c then Some t else option_map (cons c) (pop_elevation t)
  end.

(** Lines 1359-1380, [Constraints.__add__]: the first component is the left
    operand after the call. *)
Definition cset_add (s : cset) (c : cnst) : cset * res cset :=
  let popped :=
    if is_elevation c && cs_default s then
      match pop_elevation (cs_list s) with
      | None => Err EIndexError
      | Some l => Ok (mkCset l false)
      end
    else Ok s in
  match popped with
  | Err e => (s, Err e)
  | Ok s' =>
      (s', bind (new_cset (cs_list s' ++ [c])) (fun r => Ok (mkCset (cs_list r) (cs_default s'))))
  end.
