(** C92 to C95: pointings. *)
From Coq Require Import ZArith QArith Qabs Bool List Arith Lia Sorting.Sorted.
From Verif Require Import Base M_Analog P_Analog2 M_Pointing P_Pointing P_Pointing2 P_Pointing3.
Import ListNotations.
Open Scope nat_scope.
Open Scope list_scope.

(** * C92: the pointing at given times *)
Theorem C92_one_interval : forall C H (p : pt C H) t, length (pt_durs p) = 1 \/ length (pt_durs p) = length (pt_times p) ->
  exists o, shown p t o /\ forall o', shown p t o' -> o' = o.
Proof. exact shown_exists. Qed.
Print Assumptions C92_one_interval.
Theorem C92_selection : forall C H (zen : Q -> C) (up : H) p ts, sized p -> exists q l, getitem zen up p ts = Ok q /\
  pt_times q = ts /\ pt_durs q = [1%Q] /\ pt_coords q = Many (map fst l) /\
  (pt_custom p = None -> pt_custom q = None) /\ (pt_custom p <> None -> exists hs, pt_custom q = Some hs /\ map Some hs = map snd l) /\
  Forall2 (fun t x => forall o, shown p t o ->
    match o with
    | Some i => coord_at p i = Some (fst x) /\ custom_at p i = Some (snd x)
    | None => fst x = zen t /\ snd x = option_map (fun _ => up) (pt_custom p)
    end) ts l.
Proof. exact getitem_ok. Qed.
Print Assumptions C92_selection.
Theorem C92_interval : forall C H (zen : Q -> C) (up : H) p t i, sized p -> shown p t (Some i) ->
  exists c h, coord_at p i = Some c /\ custom_at p i = Some h /\ at_time zen up p t = Ok (c, h).
Proof. exact at_interval. Qed.
Print Assumptions C92_interval.
Theorem C92_zenith : forall C H (zen : Q -> C) (up : H) p t, shown p t None -> at_time zen up p t = Ok (zen t, option_map (fun _ => up) (pt_custom p)).
Proof. exact at_zenith. Qed.
Print Assumptions C92_zenith.
Theorem C92_mismatch : forall C H (zen : Q -> C) (up : H) p t i l, length (pt_durs p) = 1 \/ length (pt_durs p) = length (pt_times p) ->
  pt_coords p = Many l -> length l <> length (pt_times p) -> covers p t i -> at_time zen up p t = Err EIndexError.
Proof. exact at_mismatch. Qed.
Print Assumptions C92_mismatch.
Theorem C92_twice : forall C H (zen : Q -> C) (up : H) p ts q, sized p -> StronglySorted Qlt ts -> getitem zen up p ts = Ok q ->
  exists q', getitem zen up q ts = Ok q' /\ pt_coords q' = pt_coords q /\ pt_custom q' = pt_custom q.
Proof. exact getitem_twice. Qed.
Print Assumptions C92_twice.
Theorem C92_twice_unsorted_refuted : exists (p : pt nat nat) ts q, sized p /\ getitem (fun _ => 99) 99 p ts = Ok q /\
  exists q', getitem (fun _ => 99) 99 q ts = Ok q' /\ pt_coords q' <> pt_coords q.
Proof. exact getitem_unsorted_refuted. Qed.
Print Assumptions C92_twice_unsorted_refuted.

Definition night : pt nat nat := mkPt (Many [1; 2; 3]) [0; 100; 150]%Q [100; 60; 20]%Q (Some [11; 12; 13]).
Example C92_ex : sized night /\ shown night 155 (Some 2) /\ shown night 165 (Some 2) /\ shown night 175 None /\
  getitem (fun _ => 90) 91 night [50; 155; 175]%Q = Ok (mkPt (Many [1; 3; 90]) [50; 155; 175]%Q [1%Q] (Some [11; 13; 91])) /\
  StronglySorted Qlt [50; 155; 175]%Q.
Proof.
  split; [split; [right; reflexivity|split; [reflexivity|right; reflexivity]]|].
  assert (N : forall t j, covers night t j -> j < 3). { intros t j (s & d & A & _). change 3 with (length (pt_times night)). apply nth_error_Some. congruence. }
  split; [|split; [|split; [|split]]].
  - split; [exists 150%Q, 20%Q; repeat split; discriminate|]. intros j L Cv. apply N in Cv. lia.
  - split; [exists 150%Q, 20%Q; repeat split; discriminate|]. intros j L Cv. apply N in Cv. lia.
  - intros j Cv. pose proof (N _ _ Cv) as L. destruct Cv as (s & d & A & B & C & D). destruct j as [|[|[|j]]]; [| | |lia]; cbn in A, B; injection A as <-; injection B as <-; discriminate.
  - vm_compute. reflexivity.
  - repeat constructor.
Qed.

(** * C93: pointing files *)
Theorem C93_analog : forall C H (zen : Q -> C) (up : H) radec b lines, in_order b lines -> 2 <= length (of_beam b lines) ->
  exists p, from_file radec AltazA b lines = Ok p /\
  (forall k s h s' h' t, line_at b lines k s h -> line_at b lines (S k) s' h' -> (s <= t)%Q -> (t < s')%Q -> at_time zen up p t = Ok (radec s h, Some h)) /\
  (forall t, (forall s h, line_at b lines 0 s h -> (t < s)%Q) \/ (forall s h, line_at b lines (length (of_beam b lines) - 1) s h -> (s <= t)%Q) ->
     at_time zen up p t = Ok (zen t, Some up)).
Proof. exact altaz_a. Qed.
Print Assumptions C93_analog.
Theorem C93_analog_single : forall C H (zen : Q -> C) (up : H) radec b lines s h, of_beam b lines = [(s, h)] ->
  exists p, from_file radec AltazA b lines = Ok p /\ (forall t, (s <= t)%Q -> (t < s + 1)%Q -> at_time zen up p t = Ok (radec s h, Some h)) /\
  forall t, (t < s)%Q \/ (s + 1 <= t)%Q -> at_time zen up p t = Ok (zen t, Some up).
Proof. exact altaz_a_single. Qed.
Print Assumptions C93_analog_single.
Theorem C93_numeric : forall C H (zen : Q -> C) (up : H) radec b lines, in_order b lines -> 2 <= length (of_beam b lines) ->
  exists p, from_file radec AltazB b lines = Ok p /\
  (forall k s h s' h' t, S (S k) < length (of_beam b lines) -> line_at b lines k s h -> line_at b lines (S k) s' h' -> (s <= t)%Q -> (t < s')%Q ->
     at_time zen up p t = Ok (radec s h, Some h)) /\
  (forall s h s' h' t, line_at b lines (length (of_beam b lines) - 2) s h -> line_at b lines (length (of_beam b lines) - 1) s' h' ->
     ((s <= t)%Q -> (t < s')%Q -> (t < s + 10)%Q -> at_time zen up p t = Ok (radec s h, Some h)) /\
     ((s + 10 <= t)%Q -> (t < s')%Q -> at_time zen up p t = Ok (zen t, Some up)) /\
     ((s' <= t)%Q -> (t < s' + (s' - s))%Q -> at_time zen up p t = Ok (radec s' h', Some h')) /\
     ((s' + (s' - s) <= t)%Q -> (s + 10 <= t)%Q -> at_time zen up p t = Ok (zen t, Some up))).
Proof. exact altaz_b. Qed.
Print Assumptions C93_numeric.
Theorem C93_numeric_single : forall C H (radec : Q -> H -> C) b lines x, of_beam b lines = [x] -> from_file radec AltazB b lines = Err EIndexError.
Proof. exact altaz_b_single. Qed.
Print Assumptions C93_numeric_single.
Theorem C93_numeric_last_refuted : exists (lines : list (line nat)) p t, in_order 0 lines /\ from_file (fun _ h => h) AltazB 0 lines = Ok p /\
  (exists s s', line_at 0 lines 1 s 11 /\ line_at 0 lines 2 s' 12 /\ (s <= t)%Q /\ (t < s')%Q) /\ at_time (fun _ => 99) 99 p t = Ok (99, Some 99).
Proof. exact altaz_b_refuted. Qed.
Print Assumptions C93_numeric_last_refuted.
Theorem C93_empty : forall C H (radec : Q -> H -> C) e b lines, of_beam b lines = [] -> e <> Other -> from_file radec e b lines = Err EValueError.
Proof. exact file_empty. Qed.
Print Assumptions C93_empty.
Theorem C93_other_name : forall C H (radec : Q -> H -> C) b lines, from_file radec Other b lines = Err EUnboundLocalError.
Proof. exact file_other. Qed.
Print Assumptions C93_other_name.

Definition file : list (line nat) := [(0%Q, 0%Z, 10); (5%Q, 1%Z, 20); (60%Q, 0%Z, 11); (120%Q, 0%Z, 12)].
Example C93_ex : in_order 0 file /\ length (of_beam 0 file) = 3 /\ line_at 0 file 1 60%Q 11 /\ of_beam 1 file = [(5%Q, 20)] /\ of_beam 7 file = [] /\
  (exists p, from_file (fun _ h => h) AltazA 0 file = Ok p /\ at_time (fun _ => 99) 99 p 90%Q = Ok (11, Some 11) /\ at_time (fun _ => 99) 99 p 120%Q = Ok (99, Some 99)) /\
  (exists p, from_file (fun _ h => h) AltazB 0 file = Ok p /\ at_time (fun _ => 99) 99 p 90%Q = Ok (99, Some 99) /\ at_time (fun _ => 99) 99 p 170%Q = Ok (12, Some 12)).
Proof.
  split; [repeat constructor|]. split; [reflexivity|]. split; [reflexivity|]. split; [reflexivity|]. split; [reflexivity|].
  split; eexists; (split; [vm_compute; reflexivity|]); split; vm_compute; reflexivity.
Qed.

(** * C94: pointings of a BST file *)
Theorem C94_records : forall C (zen : Q -> C) up radec m last_time recs, StronglySorted Qlt (map fst recs) -> 2 <= length recs <= m ->
  exists p, from_bst radec m last_time recs = Ok p /\
  (forall k s h s' h' t, nth_error recs k = Some (s, h) -> nth_error recs (S k) = Some (s', h') -> (s <= t)%Q -> (t < s')%Q -> at_time zen up p t = Ok (radec s h, Some h)) /\
  (forall t, (forall s h, nth_error recs 0 = Some (s, h) -> (t < s)%Q) \/ (forall s h, nth_error recs (length recs - 1) = Some (s, h) -> (s <= t)%Q) ->
     at_time zen up p t = Ok (zen t, Some up)).
Proof. exact bst_few. Qed.
Print Assumptions C94_records.
Theorem C94_single : forall C (zen : Q -> C) up radec m last_time s h, (s < last_time)%Q ->
  exists p, from_bst radec m last_time [(s, h)] = Ok p /\
  (forall t, (s <= t)%Q -> (t < last_time)%Q -> at_time zen up p t = Ok (radec s h, Some h)) /\
  (forall t, (t < s)%Q \/ (last_time <= t)%Q -> at_time zen up p t = Ok (zen t, Some up)).
Proof. exact bst_one. Qed.
Print Assumptions C94_single.
Theorem C94_interpolated : forall C (zen : Q -> C) up radec m last_time s0 h0 recs sn hn, 2 <= m -> m < length ((s0, h0) :: recs) ->
  last ((s0, h0) :: recs) (s0, h0) = (sn, hn) -> (s0 < sn)%Q ->
  let az := map (fun r => (fst r, fst (snd r))) ((s0, h0) :: recs) in
  let el := map (fun r => (fst r, snd (snd r))) ((s0, h0) :: recs) in
  exists p, from_bst radec m last_time ((s0, h0) :: recs) = Ok p /\
  (forall i t, S i < m -> (even_time s0 sn m i <= t)%Q -> (t < even_time s0 sn m (S i))%Q -> exists a e,
     interp (even_time s0 sn m i) az = Ok a /\ interp (even_time s0 sn m i) el = Ok e /\
     at_time zen up p t = Ok (radec (even_time s0 sn m i) (a, e), Some (a, e))) /\
  (forall t, (t < s0)%Q \/ (sn <= t)%Q -> at_time zen up p t = Ok (zen t, Some up)).
Proof. exact bst_many. Qed.
Print Assumptions C94_interpolated.
Theorem C94_times : forall a b m, 2 <= m -> (even_time a b m 0 == a)%Q /\ (even_time a b m (m - 1) == b)%Q.
Proof. exact even_ends. Qed.
Print Assumptions C94_times.
Theorem C94_north_refuted : exists (recs : list (Q * (Q * Q))) p a e, StronglySorted Qlt (map fst recs) /\
  Forall (fun r => (fst (snd r) <= 5 \/ 355 <= fst (snd r))%Q) recs /\ from_bst (fun _ h => h) 3 0 recs = Ok p /\
  at_time (fun _ => (0, 90)%Q) (0, 90)%Q p (3 # 2)%Q = Ok ((a, e), Some (a, e)) /\ (a == 360 # 2)%Q.
Proof. exact bst_wrap_refuted. Qed.
Print Assumptions C94_north_refuted.

Definition bst_recs : list (Q * (Q * Q)) := [(0, (100, 20)); (10, (110, 22)); (20, (120, 24)); (30, (130, 30))]%Q.
Example C94_ex : StronglySorted Qlt (map fst bst_recs) /\ last bst_recs (0, (100, 20))%Q = (30, (130, 30))%Q /\
  (exists p, from_bst (fun _ h => h) 100 0 bst_recs = Ok p /\ at_time (fun _ => (0, 90)%Q) (0, 90)%Q p 15 = Ok ((110, 22)%Q, Some (110, 22)%Q)) /\
  (exists p a e, from_bst (fun _ h => h) 3 0 bst_recs = Ok p /\ at_time (fun _ => (0, 90)%Q) (0, 90)%Q p 20 = Ok ((a, e), Some (a, e)) /\ (a == 115)%Q /\ (e == 23)%Q).
Proof.
  split; [repeat constructor|]. split; [reflexivity|]. split.
  - eexists. split; vm_compute; reflexivity.
  - eexists. eexists. eexists. split; [vm_compute; reflexivity|]. split; [vm_compute; reflexivity|]. split; reflexivity.
Qed.

(** * C95: transits, drift scans and durations *)
Theorem C95_transit : forall C H (zen : Q -> C) (up : H) radec altaz transit others duration dt, (0 < dt)%Q -> (0 <= duration)%Q ->
  exists n p, target_transit radec altaz (transit :: others) duration dt = Ok p /\ length (pt_times p) = Z.to_nat n /\
  (0 < n)%Z /\ Z.odd n = true /\ (duration - dt < inject_Z n * dt)%Q /\ (inject_Z n * dt <= duration + dt)%Q /\
  (forall i, (0 <= i < n)%Z -> nth_error (pt_times p) (Z.to_nat i) = Some (step_time transit dt n i)) /\
  (step_time transit dt n ((n - 1) / 2) == transit)%Q /\
  (forall t, (transit - inject_Z (n - 1) / 2 * dt <= t)%Q -> (t < transit + inject_Z (n + 1) / 2 * dt)%Q ->
     exists i, (0 <= i < n)%Z /\ at_time zen up p t = Ok (radec (step_time transit dt n i) (altaz transit), Some (altaz transit)) /\
       (step_time transit dt n i <= t)%Q /\ (t < step_time transit dt n i + dt)%Q) /\
  (forall t, (t < transit - inject_Z (n - 1) / 2 * dt)%Q \/ (transit + inject_Z (n + 1) / 2 * dt <= t)%Q -> at_time zen up p t = Ok (zen t, Some up)).
Proof. exact transit_spec. Qed.
Print Assumptions C95_transit.
Theorem C95_no_transit : forall C H (radec : Q -> H -> C) altaz duration dt, target_transit radec altaz [] duration dt = Err EValueError.
Proof. exact transit_none. Qed.
Print Assumptions C95_no_transit.
Theorem C95_centre_refuted : exists p t, target_transit (fun _ (h : nat) => h) (fun _ => 5) [0%Q] 30 10 = Ok p /\
  (Qabs.Qabs t <= 15)%Q /\ at_time (fun _ => 99) 99 p t = Ok (99, Some 99).
Proof. exact transit_centre_refuted. Qed.
Print Assumptions C95_centre_refuted.
Theorem C95_driftscan : forall C H (zen : Q -> C) (up : H) radec times h dur p t x, driftscan radec times h dur = Ok p -> at_time zen up p t = Ok x ->
  (shown p t None /\ x = (zen t, Some up)) \/ (exists i s, shown p t (Some i) /\ nth_error times i = Some s /\ x = (radec s h, Some h)).
Proof. exact driftscan_fixed. Qed.
Print Assumptions C95_driftscan.
Theorem C95_default_duration : forall C H (c : coordinates C) times (custom : option (list H)) p, new_pointing c times None custom = Ok p ->
  forall t i, covers p t i <-> exists s, nth_error times i = Some s /\ (s <= t)%Q /\ (t < s + 1)%Q.
Proof. exact no_duration. Qed.
Print Assumptions C95_default_duration.
Theorem C95_durations : forall C H (c : coordinates C) times d (custom : option (list H)), length d <> 1 -> length d <> length times ->
  new_pointing c times (Some d) custom = Err EIndexError.
Proof. exact wrong_durations. Qed.
Print Assumptions C95_durations.
Theorem C95_default_duration_refuted : exists p t, driftscan (fun _ (h : nat) => h) [0; 60; 120]%Q 5 None = Ok p /\ (0 <= t)%Q /\ (t < 60)%Q /\
  at_time (fun _ => 99) 99 p t = Ok (99, Some 99).
Proof. exact no_duration_refuted. Qed.
Print Assumptions C95_default_duration_refuted.

Example C95_ex : transit_steps 40 10 = 5%Z /\ (exists p, target_transit (fun _ (h : nat) => h) (fun _ => 5) [100; 200]%Q 40 10 = Ok p /\
  at_time (fun _ => 99) 99 p 81%Q = Ok (5, Some 5) /\ at_time (fun _ => 99) 99 p 129%Q = Ok (5, Some 5) /\ at_time (fun _ => 99) 99 p 130%Q = Ok (99, Some 99)) /\
  (exists p, driftscan (fun _ (h : nat) => h) [0; 60; 120]%Q 5 (Some [60]%Q) = Ok p /\ at_time (fun _ => 99) 99 p 30%Q = Ok (5, Some 5)).
Proof. split; [reflexivity|]. split; eexists; (split; [vm_compute; reflexivity|]); repeat split; vm_compute; reflexivity. Qed.
