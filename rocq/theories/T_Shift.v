(** Property theorems: shifts of a block, slot guards, whole sessions (C19,
    C20, C62). *)
From Coq Require Import List Arith ZArith QArith Bool.
From Verif Require Import Base M_Slots M_Sched M_Genetic M_Extend M_Shift P_Booking P_Book P_Book2 P_Book3
  P_Genetic P_Genetic2 P_Genetic3 P_Extend P_Shift P_Session P_ExtEx.
Import ListNotations.
Open Scope nat_scope.

(** C19: the new start is the requested one, clipped to the schedule; the
    possible outcomes are those of [shift_outcome]. *)
Theorem C19_shift_outcomes : forall st i b s shift minimal st' e, reach3 st ->
  nth_error (sc_blocks st) i = Some b -> bk_start b = Some s ->
  shift_block st i shift minimal = (st', e) ->
  shift_outcome st i b s (Z.to_nat (nearest_fit (sc_size st) (bk_nslots b) (Z.of_nat s + shift))) minimal st' e.
Proof. exact session_shift. Qed.
Print Assumptions C19_shift_outcomes.

(** C19: when the call succeeds the schedule is consistent and nothing but the
    block and its slots changed. *)
Theorem C19_shift_success : forall st i shift minimal st', reach3 st ->
  shift_block st i shift minimal = (st', None) ->
  no_overlap (sc_blocks st') /\ placed_inside (sc_size st') (sc_blocks st') /\
  (forall j b k, nth_error (sc_blocks st') j = Some b -> covers b k -> ~ slot_free (sc_free st') k) /\
  (st' = st \/ exists b s, nth_error (sc_blocks st) i = Some b /\ bk_start b = Some s /\
     block_moved st st' i b (Z.to_nat (nearest_fit (sc_size st) (bk_nslots b) (Z.of_nat s + shift))) /\
     slots_moved st st' b (Z.to_nat (nearest_fit (sc_size st) (bk_nslots b) (Z.of_nat s + shift))) /\
     same_context st st').
Proof. exact session_shift_success. Qed.
Print Assumptions C19_shift_success.

Example C19_ex : reach3 shift_st /\
  map (fun b => (bk_start b, bk_nslots b)) (sc_blocks shift_st) = [(Some 0, 3); (Some 4, 3)] /\
  snd (shift_block shift_st 1 1 0) = None /\
  map bk_start (sc_blocks (fst (shift_block shift_st 1 1 0))) = [Some 0; Some 5] /\
  map bk_start (sc_blocks (fst (shift_block shift_st 1 100 0))) = [Some 0; Some 7].
Proof. split; [exact shift_st_reach|]. repeat split; vm_compute; reflexivity. Qed.

(** C19: a ValueError due to another block leaves the block at its new place
    on slots marked free. *)
Theorem C19_conflict_inconsistent : forall st i b s shift minimal st', reach3 st ->
  nth_error (sc_blocks st) i = Some b -> bk_start b = Some s ->
  let new := Z.to_nat (nearest_fit (sc_size st) (bk_nslots b) (Z.of_nat s + shift)) in
  shift_conflict st b new ->
  shift_block st i shift minimal = (st', Some EValueError) ->
  (exists b', nth_error (sc_blocks st') i = Some b' /\ bk_start b' = Some new) /\
  exists k b', nth_error (sc_blocks st') i = Some b' /\ covers b' k /\ slot_free (sc_free st') k.
Proof. exact session_shift_conflict. Qed.
Print Assumptions C19_conflict_inconsistent.

Theorem C19_atomic_refuted : exists st st' b c b',
  reach3 st /\ shift_block st 0 3 0 = (st', Some EValueError) /\
  sc_blocks st = [b; c] /\ sc_blocks st' = [b'; c] /\
  bk_start b = Some 0 /\ bk_start b' = Some 3 /\ ~ no_overlap [b'; c] /\
  covers b' 3 /\ slot_free (sc_free st') 3.
Proof. exact shift_raises_after_moving. Qed.
Print Assumptions C19_atomic_refuted.

(** C19: with an explicit duration, "earlier" does the same as "later" and
    never moves a block to an earlier slot. *)
Theorem C19_earlier_is_later : forall st i d minimal,
  shift_earlier st i (Some d) minimal = shift_later st i (Some d) minimal.
Proof. exact earlier_is_later. Qed.
Print Assumptions C19_earlier_is_later.

Theorem C19_earlier_moves_later : forall st i b s d minimal st' e b' s', sched_inv st -> (0 < sc_dt st)%Z ->
  nth_error (sc_blocks st) i = Some b -> bk_start b = Some s ->
  shift_earlier st i (Some d) minimal = (st', e) ->
  nth_error (sc_blocks st') i = Some b' -> bk_start b' = Some s' -> s <= s'.
Proof. exact earlier_moves_later. Qed.
Print Assumptions C19_earlier_moves_later.

Example C19_earlier_ex :
  map bk_start (sc_blocks (fst (shift_earlier shift_st 1 (Some 1%Z) 0))) = [Some 0; Some 5] /\
  map bk_start (sc_blocks (fst (shift_earlier shift_st 1 None 0))) = [Some 0; Some 3].
Proof. split; vm_compute; reflexivity. Qed.

(** C20: the guards either raise and change nothing, or act on exactly the
    requested range. *)
Theorem C20_free_slots : forall st a b st' e, sizes_ok st -> free_slots st a b = (st', e) ->
  (e = Some EIndexError /\ st' = st /\ ~ valid_range st a b) \/
  (e = Some EValueError /\ st' = st /\ valid_range st a b /\
   exists k, in_zrange a b k /\ slot_free (sc_free st) k) \/
  (e = None /\ valid_range st a b /\ same_but_free st st' /\
   length (sc_free st') = length (sc_free st) /\
   (forall k, in_zrange a b k -> ~ slot_free (sc_free st) k) /\
   (forall k, slot_free (sc_free st') k <-> in_zrange a b k \/ slot_free (sc_free st) k)).
Proof. exact free_slots_spec. Qed.
Print Assumptions C20_free_slots.

Theorem C20_freeze_slots : forall st a b st' e, sizes_ok st -> freeze_slots st a b = (st', e) ->
  (e = Some EIndexError /\ st' = st /\ ~ valid_range st a b) \/
  (e = Some EValueError /\ st' = st /\ valid_range st a b /\
   exists k, in_zrange a b k /\ ~ slot_free (sc_free st) k) \/
  (e = None /\ valid_range st a b /\ same_but_free st st' /\
   length (sc_free st') = length (sc_free st) /\
   (forall k, in_zrange a b k -> slot_free (sc_free st) k) /\
   (forall k, slot_free (sc_free st') k <-> ~ in_zrange a b k /\ slot_free (sc_free st) k)).
Proof. exact freeze_slots_spec. Qed.
Print Assumptions C20_freeze_slots.

Theorem C20_free_processing : forall st a b st' e, sizes_ok st -> free_processing st a b = (st', e) ->
  (e = Some EIndexError /\ st' = st /\ ~ valid_range st a b) \/
  (e = Some EValueError /\ st' = st /\ valid_range st a b /\
   exists k, in_zrange a b k /\ (nth k (sc_proc st) 0 < 1)%Z) \/
  (e = None /\ valid_range st a b /\ same_but_proc st st' /\
   length (sc_proc st') = length (sc_proc st) /\
   (forall k, in_zrange a b k -> (1 <= nth k (sc_proc st) 0)%Z) /\
   (forall k, in_zrange a b k -> (nth k (sc_proc st') 0 = nth k (sc_proc st) 0 - 1)%Z) /\
   (forall k, ~ in_zrange a b k -> nth k (sc_proc st') 0%Z = nth k (sc_proc st) 0%Z)).
Proof. exact free_processing_spec. Qed.
Print Assumptions C20_free_processing.

(** For a range that is not wholly before the schedule. *)
Theorem C20_freeze_processing : forall st a b st' e, sizes_ok st -> (0 < b)%Z ->
  freeze_processing st a b = (st', e) ->
  (e = Some EIndexError /\ st' = st /\ (b <= a)%Z) \/
  (e = None /\ (a < b)%Z /\ same_but_proc st st' /\
   length (sc_proc st') = length (sc_proc st) /\
   (forall k, k < sc_size st -> in_zrange a b k -> (nth k (sc_proc st') 0 = nth k (sc_proc st) 0 + 1)%Z) /\
   (forall k, ~ in_zrange a b k -> nth k (sc_proc st') 0%Z = nth k (sc_proc st) 0%Z)).
Proof. exact freeze_processing_spec. Qed.
Print Assumptions C20_freeze_processing.

Theorem C20_freeze_before_refuted : exists st st',
  reach3 st /\ freeze_processing st (-4) (-2) = (st', None) /\
  sc_size st = 10 /\ sc_proc st = repeat 0%Z 10 /\ sc_proc st' = repeat 1%Z 8 ++ repeat 0%Z 2.
Proof. exact freeze_before_schedule. Qed.
Print Assumptions C20_freeze_before_refuted.

(** C20: round trips. *)
Theorem C20_free_after_freeze : forall st a b st', sizes_ok st -> freeze_slots st a b = (st', None) ->
  free_slots st' a b = (st, None).
Proof. exact freeze_free. Qed.
Print Assumptions C20_free_after_freeze.

Theorem C20_freeze_after_free : forall st a b st', sizes_ok st -> free_slots st a b = (st', None) ->
  freeze_slots st' a b = (st, None).
Proof. exact free_freeze. Qed.
Print Assumptions C20_freeze_after_free.

Theorem C20_processing_round_trip : forall st a b st', sizes_ok st -> valid_range st a b ->
  (forall k, (0 <= nth k (sc_proc st) 0)%Z) ->
  freeze_processing st a b = (st', None) ->
  free_processing st' a b = (st, None).
Proof. exact proc_freeze_free. Qed.
Print Assumptions C20_processing_round_trip.

Example C20_ex : sizes_ok shift_st /\
  sc_free shift_st = [false; false; false; true; false; false; false; true; true; true] /\
  sc_free (fst (freeze_slots shift_st 7 9)) = [false; false; false; true; false; false; false; false; false; true] /\
  snd (freeze_slots shift_st 6 9) = Some EValueError /\ snd (freeze_slots shift_st 7 11) = Some EIndexError /\
  sc_free (fst (free_slots shift_st 4 7)) = [false; false; false; true; true; true; true; true; true; true].
Proof. repeat split; vm_compute; reflexivity. Qed.

(** C62: after any session of insertions, reservations, bookings (heuristic or
    genetic), extensions and shifts, as long as no shift raised a ValueError,
    booked blocks do not overlap, are inside the schedule, on slots that are not
    free, and blocks are numbered by position. *)
Theorem C62_session_consistent : forall st, reach3 st ->
  no_overlap (sc_blocks st) /\ placed_inside (sc_size st) (sc_blocks st) /\
  (forall i b k, nth_error (sc_blocks st) i = Some b -> covers b k -> ~ slot_free (sc_free st) k) /\
  (forall i b, nth_error (sc_blocks st) i = Some b -> bk_idx b = i).
Proof. exact session_consistent. Qed.
Print Assumptions C62_session_consistent.

Example C62_ex : exists st, reach3 st /\
  map (fun b => (bk_start b, bk_nslots b)) (sc_blocks st) = [(Some 0, 3); (Some 6, 3); (Some 3, 2)].
Proof. exact session_example. Qed.
