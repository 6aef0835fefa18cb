(** Property theorems: extension of scheduled observations (C16, C17, C61).
    [reach3] covers every session of insertions, reservations, bookings,
    genetic bookings, extensions and shifts on a new schedule. *)
From Coq Require Import List Arith ZArith QArith Bool.
From Verif Require Import Base M_Slots M_Sched M_Genetic M_Extend P_Booking P_Book P_Book2 P_Genetic P_Genetic2 P_Genetic3
  P_Extend P_Session P_ExtEx.
Import ListNotations.
Open Scope nat_scope.

(** C16: after an extension the booked blocks still do not overlap and are
    inside the schedule; each block keeps its slots, the ones it gains were
    free and belong to a window it may try, its time and duration follow, it
    is not longer than its limit; the slots gained are no longer free, and
    nothing else changes. *)
Theorem C16_extension : forall done thr md me ev st st' done', reach3 st ->
  extend done thr md me ev st = (st', done', None) ->
  no_overlap (sc_blocks st') /\ placed_inside (sc_size st') (sc_blocks st') /\
  frame st st' /\
  (forall i b0, nth_error (sc_blocks st) i = Some b0 -> exists b,
     nth_error (sc_blocks st') i = Some b /\ extended thr md me ev st i b0 b) /\
  (forall k, slot_free (sc_free st') k <->
     slot_free (sc_free st) k /\ forall b, In b (sc_blocks st') -> ~ covers b k).
Proof. exact session_extend. Qed.
Print Assumptions C16_extension.

(** C16: a window worth trying that could still be taken at the end has been
    taken: the extension stops only where the schedule is occupied. *)
Theorem C16_extension_complete : forall done thr md me ev st st' done' i b0 s0 w, reach3 st ->
  runs done md ->
  extend done thr md me ev st = (st', done', None) ->
  nth_error (sc_blocks st) i = Some b0 -> bk_start b0 = Some s0 ->
  tried thr md me ev st i w ->
  exists b, nth_error (sc_blocks st') i = Some b /\
    ((forall k, in_window (sc_size st) s0 (bk_nslots b0) w k ->
        slot_free (sc_free st') k \/ covers b k) ->
     forall k, in_window (sc_size st) s0 (bk_nslots b0) w k -> covers b k).
Proof. exact session_extend_complete. Qed.
Print Assumptions C16_extension_complete.

(** C16: the extension raises exactly when the limit of a booked block is
    smaller than the block, and then changes nothing. *)
Theorem C16_extension_errors : forall done thr md me ev st, runs done md ->
  (forall e, snd (extend done thr md me ev st) = Some e ->
     e = EIndexError /\ fst (extend done thr md me ev st) = (st, done)) /\
  (snd (extend done thr md me ev st) <> None <->
     exists i b s N, nth_error (sc_blocks st) i = Some b /\ bk_start b = Some s /\
       ext_limit md me (sc_dt st) i = Some N /\ N < bk_nslots b).
Proof. exact extend_errors. Qed.
Print Assumptions C16_extension_errors.

Theorem C16_shorter_limit_raises : exists st b,
  reach3 st /\ sc_blocks st = [b] /\ bk_start b = Some 0 /\ bk_nslots b = 2 /\
  extend false 1 (Some 1%Z) (fun _ => None) (slotwise st) st = (st, false, Some EIndexError).
Proof. exact extension_shorter_limit. Qed.
Print Assumptions C16_shorter_limit_raises.

(** C16: called again without duration, the extension does nothing. *)
Theorem C16_second_call : forall thr me ev st, extend true thr None me ev st = (st, true, None).
Proof. exact extend_again. Qed.
Print Assumptions C16_second_call.

(** C16: the extension ignores processing delays; two delayed blocks kept two
    slots apart may end up side by side. *)
Theorem C16_delays_respected_refuted : exists st st' b c b' c',
  reach3 st /\ extend false 1 (Some 5%Z) (fun _ => None) ramp st = (st', true, None) /\
  sc_blocks st = [b; c] /\ sc_blocks st' = [b'; c'] /\
  bk_ndelay b = 2 /\ bk_ndelay c = 2 /\ apart b c 2 /\ ~ apart b' c' 1.
Proof. exact extension_ignores_delays. Qed.
Print Assumptions C16_delays_respected_refuted.

Example C16_ex : reach3 ext_delay_st /\
  map (fun b => (bk_start b, bk_nslots b)) (sc_blocks ext_delay_st) = [(Some 2, 1); (Some 6, 1)] /\
  map (fun b => (bk_start b, bk_nslots b))
    (sc_blocks (fst (fst (extend false 1 (Some 5%Z) (fun _ => None) ramp ext_delay_st))))
  = [(Some 0, 4); (Some 4, 5)].
Proof. split; [exact ext_delay_reach|]. split; vm_compute; reflexivity. Qed.

(** C17: a candidate window is made, in order, of the slots of the window of
    [w] slots centred on the block that are in the schedule; it is contiguous. *)
Theorem C17_window_slots : forall size s n w k,
  In k (ext_window size s n w) <-> in_window size s n w k.
Proof. exact window_In. Qed.
Print Assumptions C17_window_slots.

Theorem C17_window_contiguous : forall size s n w, exists a m,
  ext_window size s n w = seq a m /\ a + m <= Nat.max a size /\ m <= w.
Proof. exact window_run. Qed.
Print Assumptions C17_window_contiguous.

(** C17: it contains the block, it contains the smaller windows. *)
Theorem C17_window_contains_block : forall size s n w k, s + n <= size -> n <= w ->
  s <= k < s + n -> In k (ext_window size s n w).
Proof. exact window_block. Qed.
Print Assumptions C17_window_contains_block.

Theorem C17_windows_nested : forall size s n w w' k, w <= w' ->
  In k (ext_window size s n w) -> In k (ext_window size s n w').
Proof. exact window_incl. Qed.
Print Assumptions C17_windows_nested.

(** C17: away from the ends of the schedule, the window has [w] slots and
    grows on both sides by the same number of slots, up to one. *)
Theorem C17_window_centred : forall size s n w, n <= w -> w <= s -> s + n + w <= size ->
  exists l r, ext_window size s n w = seq (s - l) (l + n + r) /\ l + n + r = w /\
    l <= r + 1 /\ r <= l + 1.
Proof. exact window_centred. Qed.
Print Assumptions C17_window_centred.

Example C17_ex : ext_window 10 4 2 5 = [3; 4; 5; 6; 7] /\ ext_window 10 4 3 4 = [3; 4; 5; 6] /\
  ext_window 10 0 2 5 = [0; 1; 2; 3] /\ ext_window 10 8 2 5 = [7; 8; 9].
Proof. repeat split. Qed.

(** C61: the windows tried are compared with the first extended window: with a
    threshold of one or more and scores that are not negative, a block is never
    extended by a single slot. *)
Theorem C61_one_slot_never_tried : forall thr md me ev st i b s, (1 <= thr)%Q ->
  nth_error (sc_blocks st) i = Some b -> bk_start b = Some s ->
  (forall w x, In x (ev i w) -> (0 <= x)%Q) ->
  ~ tried thr md me ev st i (bk_nslots b + 1).
Proof. exact first_not_tried. Qed.
Print Assumptions C61_one_slot_never_tried.

(** C61: with uniform scores the extension changes nothing. *)
Theorem C61_uniform_never_extended : forall done thr md me ev st, (1 <= thr)%Q ->
  (forall i, exists c, (0 <= c)%Q /\ forall w x, In x (ev i w) -> (x == c)%Q) ->
  snd (extend done thr md me ev st) = None ->
  extend done thr md me ev st = (st, true, None).
Proof. exact uniform_nothing. Qed.
Print Assumptions C61_uniform_never_extended.

Example C61_uniform_ex : snd (extend false 1 (Some 5%Z) (fun _ => None) (fun _ w => repeat 1%Q (length w - 1)) low_st) = None /\
  map (fun b => (bk_start b, bk_nslots b)) (sc_blocks low_st) = [(Some 4, 1)].
Proof. split; vm_compute; reflexivity. Qed.

(** C61: an extension can lower the score of a block: a block on a slot of
    score one is extended over a slot of score zero. *)
Theorem C61_score_kept_refuted : exists st st' b b' k,
  reach3 st /\ extend false 1 (Some 3%Z) (fun _ => None) (slotwise st) st = (st', true, None) /\
  sc_blocks st = [b] /\ sc_blocks st' = [b'] /\
  (forall j, covers b j -> (nth j (bk_score b) 0 == 1)%Q) /\
  covers b' k /\ (nth k (bk_score b) 0 == 0)%Q.
Proof. exact extension_lowers_score. Qed.
Print Assumptions C61_score_kept_refuted.
