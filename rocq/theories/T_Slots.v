(** Property theorems: time slots and reservations (C01 to C05). *)
From Coq Require Import List Arith ZArith Bool.
From Verif Require Import Base M_Slots P_Slots.
Import ListNotations.
Open Scope Z_scope.

(** C01: a schedule is a grid of contiguous slots of length [dt] from [tmin],
    as many as fit before [tmax], all free. *)
Theorem C01_slots_tile : forall tmin tmax dt,
  tmin < tmax -> 0 < dt ->
  exists s n, new_slots tmin tmax dt = Ok s /\ is_grid tmin dt n s /\
    Z.of_nat n * dt <= tmax - tmin < (Z.of_nat n + 1) * dt /\
    (forall k, (S k < n)%nat -> nth k (sl_stops s) 0 = nth (S k) (sl_starts s) 0) /\
    (forall k, (k < n)%nat -> nth k (sl_stops s) 0 <= tmax) /\
    (forall k, (k < n)%nat -> free_at s k).
Proof. exact slots_tile. Qed.
Print Assumptions C01_slots_tile.

Example C01_ex : exists s, new_slots 10 47 5 = Ok s /\ is_grid 10 5 7 s /\ free_at s 6.
Proof.
  eexists; split; [reflexivity|]. split; [|reflexivity].
  repeat split; do 7 (destruct k; [reflexivity|]); exfalso; do 7 apply Nat.succ_lt_mono in H; inversion H.
Qed.

Theorem C01_slots_error : forall tmin tmax dt,
  tmax <= tmin -> new_slots tmin tmax dt = Err EValueError.
Proof. exact slots_error. Qed.
Print Assumptions C01_slots_error.

(** No session of reservations ever changes the grid. *)
Theorem C01_grid_invariant : forall tmin tmax dt s ops,
  tmin < tmax -> 0 < dt -> new_slots tmin tmax dt = Ok s ->
  exists n, Z.of_nat n * dt <= tmax - tmin < (Z.of_nat n + 1) * dt /\
            is_grid tmin dt n (slot_run s ops).
Proof. exact slot_run_grid. Qed.
Print Assumptions C01_grid_invariant.

(** C02: a time inside the schedule belongs to exactly one slot, which is the
    one returned; a time outside gives nothing; a range gives the slots it
    meets, in order; a reversed range is refused. *)
Theorem C02_time_to_slot : forall tmin dt n s t,
  0 < dt -> is_grid tmin dt n s ->
  (forall k, (k < n)%nat -> nth k (sl_starts s) 0 <= t < nth k (sl_stops s) 0 ->
     time2idx1 s t = [k]) /\
  (t < tmin \/ tmin + Z.of_nat n * dt <= t -> time2idx1 s t = []) /\
  (tmin <= t < tmin + Z.of_nat n * dt ->
     exists k, (k < n)%nat /\ nth k (sl_starts s) 0 <= t < nth k (sl_stops s) 0).
Proof. exact time2idx1_spec. Qed.
Print Assumptions C02_time_to_slot.

Theorem C02_range_to_slots : forall s a b, a <= b ->
  exists l, time2idx2 s a b = Ok l /\ Sorted.StronglySorted lt l /\
    forall k, In k l <-> (k < length (sl_starts s))%nat /\ meets s k a b.
Proof. exact time2idx2_ok. Qed.
Print Assumptions C02_range_to_slots.

Theorem C02_reversed_range : forall s a b, b < a -> time2idx2 s a b = Err EValueError.
Proof. exact time2idx2_err. Qed.
Print Assumptions C02_reversed_range.

Example C02_ex : exists s, new_slots 10 47 5 = Ok s /\
  time2idx1 s 19 = [1%nat] /\ time2idx1 s 20 = [2%nat] /\ time2idx1 s 45 = [] /\
  time2idx2 s 15 25 = Ok [1%nat; 2%nat] /\ time2idx2 s 14 26 = Ok [0%nat; 1%nat; 2%nat; 3%nat].
Proof. eexists; repeat split. Qed.

(** C03: after any list of reservations, the free slots of a fresh schedule
    are exactly those that meet no (non reversed) reserved range. *)
Theorem C03_reservations_accumulate : forall tmin tmax dt s l,
  0 < dt -> new_slots tmin tmax dt = Ok s ->
  forall k, (k < length (sl_starts s))%nat ->
   (free_at (add_bookings s l) k <->
    forall a b, In (a, b) l -> a <= b ->
      ~ (a < tmin + (Z.of_nat k + 1) * dt /\ tmin + Z.of_nat k * dt < b)).
Proof. exact reservations_accumulate. Qed.
Print Assumptions C03_reservations_accumulate.

Theorem C03_reversed_reservation : forall s a b,
  b < a -> add_booking s a b = (s, Some EValueError).
Proof. exact add_booking_err. Qed.
Print Assumptions C03_reversed_reservation.

Example C03_ex : exists s, new_slots 0 50 10 = Ok s /\
  sl_free (add_bookings s [(10, 20); (40, 35); (15, 31)]) = [true; false; false; false; true].
Proof. eexists; repeat split. Qed.

(** C04: in any sequence of reservations and releases, the last call that
    concerns a slot decides whether it is free. *)
Theorem C04_last_call_decides : forall tmin dt n s ops k,
  is_grid tmin dt n s -> (k < n)%nat -> Forall add_remove_only ops ->
  (free_at (slot_run s ops) k <->
   (free_at s k /\ forall o, In o ops -> ~ books s k o) \/
   (exists pre o post, ops = pre ++ o :: post /\ releases s k o /\
      forall o', In o' post -> ~ books s k o')).
Proof. exact last_word. Qed.
Print Assumptions C04_last_call_decides.

(** Removing a booking undoes adding it exactly when no slot of the range was
    reserved before. *)
Theorem C04_remove_undoes_add : forall tmin dt n s a b,
  is_grid tmin dt n s -> a <= b ->
  (fst (remove_booking (fst (add_booking s a b)) a b) = s <->
   forall k, (k < n)%nat -> meets s k a b -> free_at s k).
Proof. exact add_remove. Qed.
Print Assumptions C04_remove_undoes_add.

(** Hence removing one of two overlapping bookings frees slots of the other. *)
Theorem C04_remove_keeps_others_refuted : exists s a b a' b' k,
  new_slots 0 30 10 = Ok s /\ a <= b /\ a' <= b' /\ meets s k a' b' /\
  free_at (fst (remove_booking (add_bookings s [(a, b); (a', b')]) a b)) k.
Proof.
  eexists; exists 0, 20, 10, 30, 1%nat. split; [reflexivity|].
  split; [discriminate|]. split; [discriminate|]. split; [split; reflexivity|reflexivity].
Qed.
Print Assumptions C04_remove_keeps_others_refuted.

(** C05: after [set_free_slots] with chronological windows, a slot is free iff
    it was free and lies inside one of the windows. *)
Theorem C05_set_free_slots : forall tmin dt n s w l,
  0 < dt -> is_grid tmin dt n s -> (0 < n)%nat -> chrono (w :: l) ->
  let r := set_free_slots s (map fst (w :: l)) (map snd (w :: l)) in
  snd r = None /\
  forall k, (k < n)%nat ->
    (free_at (fst r) k <-> free_at s k /\ exists v, In v (w :: l) /\ inside s k v).
Proof. exact set_free_slots_spec. Qed.
Print Assumptions C05_set_free_slots.

Theorem C05_not_chronological : forall tmin dt n s starts stops i,
  is_grid tmin dt n s -> (0 < n)%nat -> length starts = length stops ->
  (S i < length starts)%nat -> nth (S i) starts 0 < nth i stops 0 ->
  snd (set_free_slots s starts stops) = Some EValueError.
Proof. exact set_free_slots_bad. Qed.
Print Assumptions C05_not_chronological.

Theorem C05_length_mismatch : forall s starts stops,
  length starts <> length stops -> set_free_slots s starts stops = (s, Some EValueError).
Proof. exact set_free_slots_len. Qed.
Print Assumptions C05_length_mismatch.

(** Same with the bookings of a key program: windows outside of the schedule
    are harmless. *)
Theorem C05_match_booking : forall tmin dt n s bookings kp,
  0 < dt -> is_grid tmin dt n s -> (0 < n)%nat ->
  chrono (of_program kp bookings) ->
  (forall w, In w (of_program kp bookings) -> fst w < snd w) ->
  (exists w, In w (of_program kp bookings) /\
     fst w < tmin + Z.of_nat n * dt /\ tmin < snd w) ->
  let r := match_booking s bookings kp in
  snd r = None /\
  forall k, (k < n)%nat ->
    (free_at (fst r) k <->
     free_at s k /\ exists v, In v (of_program kp bookings) /\ inside s k v).
Proof. exact match_booking_spec. Qed.
Print Assumptions C05_match_booking.

Theorem C05_match_booking_unknown : forall s bookings kp,
  (forall a b, ~ In (a, b, kp) bookings) -> match_booking s bookings kp = (s, Some EValueError).
Proof. exact match_booking_unknown. Qed.
Print Assumptions C05_match_booking_unknown.

Example C05_ex : exists s, new_slots 0 60 10 = Ok s /\
  chrono [(5, 30); (40, 55)] /\
  sl_free (fst (set_free_slots s [5; 40] [30; 55])) = [false; true; true; false; true; false] /\
  sl_free (fst (match_booking s [(-50, -20, 7%nat); (5, 30, 7%nat); (0, 60, 8%nat); (40, 55, 7%nat)] 7))
    = [false; true; true; false; true; false].
Proof. eexists; repeat split; discriminate. Qed.
