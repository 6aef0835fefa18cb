(** Property theorems: times of the scheduled blocks and exported table (C23,
    C69). *)
From Coq Require Import List Arith ZArith QArith Bool Sorting.Sorted.
From Verif Require Import Base M_Slots M_Sched M_Export P_Booking P_Session P_ExtEx P_Export.
Import ListNotations.
Open Scope nat_scope.

(** C23: the table of a session is chronological without overlap, lists each
    block once, and lists exactly the booked blocks that reach the threshold,
    with their number, times and score. *)
Theorem C23_table : forall score smin st l, reach3 st -> export score (Some smin) st = Ok l ->
  (0 <= smin <= 1)%Q /\
  StronglySorted (fun x y => (ln_start x < ln_stop x <= ln_start y)%Z) l /\
  NoDup (map ln_id l) /\
  (forall n, In n (map ln_id l) <-> exists b q, nth_error (sc_blocks st) n = Some b /\ bk_start b <> None /\ score b = Ok q /\ (smin <= q)%Q) /\
  (forall x, In x l -> exists b, nth_error (sc_blocks st) (ln_id x) = Some b /\ line_for score smin b x).
Proof. exact export_ok. Qed.
Print Assumptions C23_table.

(** C23: it is returned unless the score of a booked block raises. *)
Theorem C23_defined : forall score smin st, reach3 st -> (0 <= smin <= 1)%Q ->
  (forall b, In b (sc_blocks st) -> bk_start b <> None -> exists q, score b = Ok q) ->
  exists l, export score (Some smin) st = Ok l.
Proof. exact export_defined. Qed.
Print Assumptions C23_defined.

Theorem C23_errors : forall score smin st e, reach3 st -> export score (Some smin) st = Err e ->
  (~ (0 <= smin <= 1)%Q /\ e = EValueError) \/
  ((0 <= smin <= 1)%Q /\ exists b, In b (sc_blocks st) /\ bk_start b <> None /\ score b = Err e).
Proof. exact export_error. Qed.
Print Assumptions C23_errors.

Theorem C23_arguments : forall score st q,
  export score None st = Err ETypeError /\ (~ (0 <= q <= 1)%Q -> export score (Some q) st = Err EValueError).
Proof. exact export_arguments. Qed.
Print Assumptions C23_arguments.

Example C23_ex : reach3 shift_st /\
  option_map (map ln_id) match export (fun _ => Ok 1%Q) (Some (1#2)) shift_st with Ok l => Some l | Err _ => None end = Some [0; 1].
Proof. split; [exact shift_st_reach|]. vm_compute. reflexivity. Qed.

(** C69: the times of the booked blocks are those of their slots. *)
Theorem C69_times : forall st, reach3 st -> exists t0, forall i b s, nth_error (sc_blocks st) i = Some b -> bk_start b = Some s ->
  (0 < sc_dt st)%Z /\ s + bk_nslots b <= sc_size st /\ 0 < bk_nslots b /\
  bk_time b = Some (t0 + Z.of_nat s * sc_dt st, t0 + Z.of_nat (s + bk_nslots b) * sc_dt st)%Z.
Proof. exact booked_times. Qed.
Print Assumptions C69_times.

(** C69: they cover the duration, rounded up to whole slots. *)
Theorem C69_duration : forall st i b a z, reach3 st -> nth_error (sc_blocks st) i = Some b -> bk_start b <> None ->
  bk_time b = Some (a, z) -> (bk_dur b <= z - a < bk_dur b + sc_dt st)%Z.
Proof. exact booked_duration. Qed.
Print Assumptions C69_duration.

(** C69: two observations never run at the same time. *)
Theorem C69_disjoint : forall st i j b c a z a' z', reach3 st -> i <> j ->
  nth_error (sc_blocks st) i = Some b -> nth_error (sc_blocks st) j = Some c ->
  bk_start b <> None -> bk_start c <> None -> bk_time b = Some (a, z) -> bk_time c = Some (a', z') ->
  (z <= a' \/ z' <= a)%Z.
Proof. exact booked_disjoint. Qed.
Print Assumptions C69_disjoint.

Example C69_ex : reach3 shift_st /\
  map bk_time (sc_blocks shift_st) = [Some (0, 3); Some (4, 7)]%Z /\
  map bk_start (sc_blocks shift_st) = [Some 0; Some 4].
Proof. split; [exact shift_st_reach|]. split; vm_compute; reflexivity. Qed.
