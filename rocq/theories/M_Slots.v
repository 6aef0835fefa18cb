(** Model of the time slots of a schedule: nenupy/schedule/schedule.py,
    class [_TimeSlots] and the reservation methods of [Schedule].
    Times and durations are integers counting a fixed clock tick. *)
From Coq Require Import List Arith ZArith Bool.
From Verif Require Import Base.
Import ListNotations.
Open Scope Z_scope.

(** schedule.py 599-616, [_compute_slots_time_range]: start and stop times of
    the slots.  A null [dt] makes numpy divide by zero, [int(inf)] then raises
    OverflowError.  The TypeError checks of lines 449-453 are not modelled. *)
Definition slots_time_range (tmin tmax dt : Z) : res (list Z * list Z) :=
  if tmax <=? tmin then Err EValueError
  else if dt =? 0 then Err EOverflowError
  else
    let n := Z.to_nat ((tmax - tmin) / dt) in
    let starts := map (fun i => tmin + Z.of_nat i * dt) (seq 0 n) in
    Ok (starts, map (fun s => s + dt) starts).

(** schedule.py 443-474: the part of the state used here. *)
Record slots := mkSlots {
  sl_starts : list Z;
  sl_stops : list Z;
  sl_free : list bool;
}.

(** schedule.py 457-469: a new schedule has all its slots free. *)
Definition new_slots (tmin tmax dt : Z) : res slots :=
  bind (slots_time_range tmin tmax dt) (fun p =>
    Ok (mkSlots (fst p) (snd p) (repeat true (length (fst p))))).

(** schedule.py 543-544 and 559: one argument form of [time2idx]. *)
Definition time2idx1 (s : slots) (t : Z) : list nat :=
  filter (fun k => (nth k (sl_starts s) 0 <=? t) && (t <? nth k (sl_stops s) 0))
         (seq 0 (length (sl_starts s))).

(** schedule.py 545-559: two arguments form of [time2idx]. *)
Definition time2idx2 (s : slots) (t0 t1 : Z) : res (list nat) :=
  if t1 <? t0 then Err EValueError
  else Ok (filter (fun k => (t0 <? nth k (sl_stops s) 0) && (nth k (sl_starts s) 0 <? t1))
                  (seq 0 (length (sl_starts s)))).

(** numpy [free[indices] = v] with an array of in-range indices. *)
Definition set_indices (idx : list nat) (v : bool) (l : list bool) : list bool :=
  imap (fun k x => if existsb (Nat.eqb k) idx then v else x) l.

Definition with_free (s : slots) (f : list bool) : slots :=
  mkSlots (sl_starts s) (sl_stops s) f.

(** schedule.py 562-586, [add_booking]; the warning is not modelled.  The
    result is the state after the call and the exception raised, if any. *)
Definition add_booking (s : slots) (t0 t1 : Z) : slots * option err :=
  match time2idx2 s t0 t1 with
  | Err e => (s, Some e)
  | Ok idx => (with_free s (set_indices idx false (sl_free s)), None)
  end.

(** schedule.py 589-594, [remove_booking]. *)
Definition remove_booking (s : slots) (t0 t1 : Z) : slots * option err :=
  match time2idx2 s t0 t1 with
  | Err e => (s, Some e)
  | Ok idx => (with_free s (set_indices idx true (sl_free s)), None)
  end.

(** A user session: calls performed one after the other, exceptions being
    caught by the caller. *)
Definition add_bookings (s : slots) (l : list (Z * Z)) : slots :=
  fold_left (fun s p => fst (add_booking s (fst p) (snd p))) l s.

(** schedule.py 858-861: inserting reserved blocks stops at the first one that
    raises. *)
Fixpoint insert_reserved (s : slots) (l : list (Z * Z)) : slots * option err :=
  match l with
  | [] => (s, None)
  | p :: t =>
      match add_booking s (fst p) (snd p) with
      | (s', None) => insert_reserved s' t
      | (s', Some e) => (s', Some e)
      end
  end.

(** [zip(stop_times[:-1], start_times[1:])], schedule.py 900. *)
Definition inner_gaps (starts stops : list Z) : list (Z * Z) :=
  combine (removelast stops) (tl starts).

(** schedule.py 487-506: [time_min] and [time_max] of the schedule;
    [starts[0]] raises IndexError on an empty schedule. *)
Definition sched_min (s : slots) : res Z :=
  match sl_starts s with [] => Err EIndexError | t :: _ => Ok t end.
Definition sched_max (s : slots) : res Z :=
  match sl_stops s with [] => Err EIndexError | t :: l => Ok (last l t) end.

(** schedule.py 874-914, [set_free_slots], for one-dimensional inputs: the
    reservations it inserts, in order, up to the first exception. *)
Definition set_free_slots (s : slots) (starts stops : list Z) : slots * option err :=
  if negb (length starts =? length stops)%nat then (s, Some EValueError)
  else
    match starts, stops with
    | s0 :: _, e0 :: es =>
        match sched_min s, sched_max s with
        | Ok tmin, Ok tmax =>
            let first := if tmin <? s0 then [(tmin, s0)] else [] in
            let lst := last es e0 in
            let final := if lst <? tmax then [(lst, tmax)] else [] in
            insert_reserved s (first ++ inner_gaps starts stops ++ final)
        | Err e, _ => (s, Some e)
        | _, Err e => (s, Some e)
        end
    | _, _ => (s, Some EIndexError)
    end.

(** schedule.py 940-942: bookings that are within the schedule. *)
Definition within_schedule (tmin tmax : Z) (b : Z * Z) : bool :=
  ((tmin <=? fst b) && (snd b <=? tmax))
  || ((fst b <? tmin) && (tmin <? snd b))
  || ((fst b <? tmax) && (tmax <? snd b)).

(** schedule.py 917-971, [match_booking] once the file is read: a booking is a
    start, a stop and a key program label.  ValueError if the program has no
    entry (lines 931-934). *)
Definition match_booking (s : slots) (bookings : list (Z * Z * nat)) (kp : nat)
  : slots * option err :=
  if existsb (fun b => (snd b =? kp)%nat) bookings then
    let valid := map fst (filter (fun b => (snd b =? kp)%nat) bookings) in
    match sched_min s, sched_max s with
    | Ok tmin, Ok tmax =>
        let kept := filter (within_schedule tmin tmax) valid in
        set_free_slots s (map fst kept) (map snd kept)
    | Err e, _ => (s, Some e)
    | _, Err e => (s, Some e)
    end
  else (s, Some EValueError).

(** A user session on the slots, exceptions being caught by the caller:
    [add_booking], [remove_booking], [set_free_slots], [match_booking]. *)
Inductive slot_op :=
| OpAdd (a b : Z)
| OpRemove (a b : Z)
| OpSetFree (starts stops : list Z)
| OpMatch (bookings : list (Z * Z * nat)) (kp : nat).

Definition slot_step (s : slots) (o : slot_op) : slots :=
  fst (match o with
       | OpAdd a b => add_booking s a b
       | OpRemove a b => remove_booking s a b
       | OpSetFree l m => set_free_slots s l m
       | OpMatch l kp => match_booking s l kp
       end).

Definition slot_run (s : slots) (ops : list slot_op) : slots :=
  fold_left slot_step ops s.
