(** C110 to C112: the search of transits, rises and sets. *)
From Coq Require Import ZArith QArith Qround Qabs Bool List Arith Lia Lqa Sorting.Sorted.
From Verif Require Import Base M_Crossing P_Crossing P_Crossing2 P_Crossing3.
Import ListNotations.
Open Scope list_scope.
Open Scope Q_scope.

(** * C110: the search *)
Theorem C110_sound : forall cross fuel t0 d p l, of_times cross -> 0 < d -> find_crossing fuel cross t0 d p = Some (Ok l) ->
  l = [] \/ exists w h m n, parts d n /\ 0 < w /\ w <= p /\ h * (2 * inject_Z n) == w /\ l = map (fun t => t + h) m /\ successive w m /\
    forall t, In t m -> t0 <= t /\ t + w <= t0 + d /\ cross t (t + w) = true.
Proof. exact find_sound. Qed.
Print Assumptions C110_sound.
Theorem C110_complete : forall cross fuel t0 d p l n i, of_times cross -> splits cross -> 0 < d -> p < d -> parts d n -> (0 <= i < n)%Z ->
  find_crossing fuel cross t0 d p = Some (Ok l) ->
  cross (t0 + inject_Z i * (d / inject_Z n)) (t0 + (inject_Z i + 1) * (d / inject_Z n)) = true ->
  exists x, In x l /\ t0 + inject_Z i * (d / inject_Z n) < x /\ x < t0 + (inject_Z i + 1) * (d / inject_Z n).
Proof. exact find_complete. Qed.
Print Assumptions C110_complete.
Theorem C110_some : forall cross fuel t0 d p l, of_times cross -> splits cross -> 0 < d -> p < d -> cross t0 (t0 + d) = true -> find_crossing fuel cross t0 d p = Some (Ok l) -> l <> [].
Proof. exact find_some. Qed.
Print Assumptions C110_some.
Theorem C110_ends : forall cross fuel t0 d p, 0 < d -> 0 < p -> d < inject_Z (Z.of_nat fuel) * p ->
  (exists r, find_crossing fuel cross t0 d p = Some r) /\ forall fuel', (fuel <= fuel')%nat -> find_crossing fuel' cross t0 d p = find_crossing fuel cross t0 d p.
Proof. exact find_ends. Qed.
Print Assumptions C110_ends.
Theorem C110_endless : forall cross t0 d p, of_times cross -> splits cross -> 0 < d -> p <= 0 -> cross t0 (t0 + d) = true -> forall fuel, find_crossing fuel cross t0 d p = None.
Proof. exact find_endless. Qed.
Print Assumptions C110_endless.
Theorem C110_error : forall cross fuel t0 d p e, 0 < d -> (find_crossing (S fuel) cross t0 d p = Some (Err e) <-> e = EUnboundLocalError /\ d <= p).
Proof. exact find_error. Qed.
Print Assumptions C110_error.
Theorem C110_once : forall cross c t0 d p fuel l, of_times cross -> splits cross -> 0 < d -> 0 < p -> p < d -> only_at cross t0 (t0 + d) c -> cross t0 (t0 + d) = true ->
  find_crossing fuel cross t0 d p = Some (Ok l) ->
  found l c p /\ ((forall t, t0 <= t -> t < c -> cross t c = false) \/ (forall t, c < t -> t <= t0 + d -> cross c t = false) -> length l = 1%nat).
Proof. exact once. Qed.
Print Assumptions C110_once.
Theorem C110_missed_refuted : short_day 0 < 5000 /\ short_day 8640 == 10000 /\ short_day 17280 < 5000 /\
  find_crossing 20 (rising short_day 5000) 0 86400 5 = Some (Ok []) /\ find_crossing 20 (setting short_day 5000) 0 86400 5 = Some (Ok []).
Proof. exact rise_missed_refuted. Qed.
Print Assumptions C110_missed_refuted.
Theorem C110_twice_refuted : exists x y, x < y /\ find_crossing 20 (rising (fun t => t - 17280) 0) 0 86400 5 = Some (Ok [x; y]) /\
  forall t, t - 17280 == 0 <-> t == 17280.
Proof. exact rise_twice_refuted. Qed.
Print Assumptions C110_twice_refuted.

(** Two days from the time 0, one rise at the time 100000. *)
Example C110_ex : let cross := rising (fun t => t - 100000) 0 in
  of_times cross /\ splits cross /\ parts 172800 8 /\ cross (0 + inject_Z 4 * (172800 / inject_Z 8)) (0 + (inject_Z 4 + 1) * (172800 / inject_Z 8)) = true /\ cross 0 (0 + 172800) = true /\
  only_at cross 0 (0 + 172800) 100000 /\ 172800 < inject_Z (Z.of_nat 2000) * 100 /\
  exists x, find_crossing 2000 cross 0 172800 100 = Some (Ok [x]) /\ Qabs (x - 100000) < 100.
Proof.
  cbv zeta. destruct (rising_search (fun t => t - 100000) 0) as [T S]; [intros a b E; now rewrite E|]. split; [exact T|]. split; [exact S|].
  split; [right; repeat split; vm_compute; congruence|]. split; [vm_compute; reflexivity|]. split; [vm_compute; reflexivity|]. split.
  { intros t t' A B C R. apply rising_met in R. lra. } split; [vm_compute; reflexivity|]. eexists. split; vm_compute; reflexivity.
Qed.

(** * C111: rises, sets and transits *)
Theorem C111_met : forall alt ha az e t t',
  (rising alt e t t' = true <-> alt t <= e <= alt t') /\ (setting alt e t t' = true <-> alt t' <= e <= alt t) /\
  (ha_drop ha t t' = true <-> ha t' < ha t) /\ (az_cross false az e t t' = true <-> az t <= e <= az t').
Proof. exact condition_met. Qed.
Print Assumptions C111_met.
Theorem C111_circumpolar_met : forall az a t t', az_cross true az a t t' = true <-> exists s s' c, -180 < s <= 180 /\ -180 < s' <= 180 /\ -180 < c <= 180 /\
  (exists i j k, s == az t - 360 * inject_Z i /\ s' == az t' - 360 * inject_Z j /\ c == a - 360 * inject_Z k) /\ (s <= c <= s' \/ s' <= c <= s).
Proof. exact circumpolar_met. Qed.
Print Assumptions C111_circumpolar_met.
Theorem C111_rise_search : forall alt e, timely alt -> of_times (rising alt e) /\ splits (rising alt e).
Proof. exact rising_search. Qed.
Print Assumptions C111_rise_search.
Theorem C111_set_search : forall alt e, timely alt -> of_times (setting alt e) /\ splits (setting alt e).
Proof. exact setting_search. Qed.
Print Assumptions C111_set_search.
Theorem C111_transit_search : forall ha, timely ha -> of_times (ha_drop ha) /\ splits (ha_drop ha).
Proof. exact ha_search. Qed.
Print Assumptions C111_transit_search.
Theorem C111_azimuth_search : forall circumpolar az a, timely az -> of_times (az_cross circumpolar az a) /\ splits (az_cross circumpolar az a).
Proof. exact azimuth_search. Qed.
Print Assumptions C111_azimuth_search.
Theorem C111_rise_once : forall alt e c t0 d p fuel l, timely alt -> 0 < p -> p < d -> t0 < c < t0 + d ->
  (forall t, t0 <= t -> t < c -> alt t < e) -> (forall t, c < t -> t <= t0 + d -> e < alt t) ->
  find_crossing fuel (rising alt e) t0 d p = Some (Ok l) -> found l c p /\ (~ alt c == e -> length l = 1%nat).
Proof. exact rise_once. Qed.
Print Assumptions C111_rise_once.
Theorem C111_set_once : forall alt e c t0 d p fuel l, timely alt -> 0 < p -> p < d -> t0 < c < t0 + d ->
  (forall t, t0 <= t -> t < c -> e < alt t) -> (forall t, c < t -> t <= t0 + d -> alt t < e) ->
  find_crossing fuel (setting alt e) t0 d p = Some (Ok l) -> found l c p /\ (~ alt c == e -> length l = 1%nat).
Proof. exact set_once. Qed.
Print Assumptions C111_set_once.
Theorem C111_transit_once : forall ha c t0 d p fuel l, timely ha -> 0 < p -> p < d -> t0 < c -> c <= t0 + d ->
  (forall t t', t0 <= t -> t <= t' -> t' < c -> ha t <= ha t') -> (forall t t', c <= t -> t <= t' -> t' <= t0 + d -> ha t <= ha t') -> ha (t0 + d) < ha t0 ->
  find_crossing fuel (ha_drop ha) t0 d p = Some (Ok l) -> found l c p /\ length l = 1%nat.
Proof. exact transit_once. Qed.
Print Assumptions C111_transit_once.
Theorem C111_next : forall cross fuel t p r, of_times cross -> next_time fuel cross t p = Some r ->
  exists l, (r = Err EUnboundLocalError /\ 172800 <= p) \/ (find_crossing fuel cross t 172800 p = Some (Ok l) /\
    match r with Err _ => False | Ok None => l = [] | Ok (Some x) => In x l /\ forall y, In y l -> x <= y end).
Proof. exact next_first. Qed.
Print Assumptions C111_next.
Theorem C111_previous : forall cross fuel t p r, of_times cross -> previous_time fuel cross t p = Some r ->
  exists l, (r = Err EUnboundLocalError /\ 172800 <= p) \/ (find_crossing fuel cross (t - 172800) 172800 p = Some (Ok l) /\
    match r with Err _ => False | Ok None => l = [] | Ok (Some x) => In x l /\ forall y, In y l -> y <= x end).
Proof. exact previous_last. Qed.
Print Assumptions C111_previous.
Theorem C111_meridian : forall fuel ha t p, of_times (ha_drop ha) ->
  (next_time fuel (ha_drop ha) t p = Some (Ok None) <-> next_meridian_transit fuel ha t p = Some (Err EIndexError)) /\
  (forall x, next_time fuel (ha_drop ha) t p = Some (Ok (Some x)) <-> next_meridian_transit fuel ha t p = Some (Ok x)) /\
  (previous_time fuel (ha_drop ha) t p = Some (Ok None) <-> previous_meridian_transit fuel ha t p = Some (Err EIndexError)) /\
  (forall x, previous_time fuel (ha_drop ha) t p = Some (Ok (Some x)) <-> previous_meridian_transit fuel ha t p = Some (Ok x)).
Proof. exact meridian_none. Qed.
Print Assumptions C111_meridian.
Theorem C111_azimuth_refuted : (forall t, 0 <= t <= 86400 -> 170 <= southern t <= 190) /\
  exists x, find_crossing 20 (az_cross true southern 0) 0 86400 5 = Some (Ok [x]) /\ Qabs (southern x - 180) < 1.
Proof. exact azimuth_refuted. Qed.
Print Assumptions C111_azimuth_refuted.

Example C111_ex : timely (fun t => t - 40000) /\ (forall t, 0 <= t -> t < 40000 -> t - 40000 < 0) /\ (forall t, 40000 < t -> t <= 0 + 86400 -> 0 < t - 40000) /\
  (exists x, find_crossing 20 (rising (fun t => t - 40000) 0) 0 86400 5 = Some (Ok [x])) /\
  (exists x, find_crossing 20 (setting (fun t => 40000 - t) 0) 0 86400 5 = Some (Ok [x])) /\
  let ha := fun t => if Qle_bool 40000 t then (t - 40000) / 240 else 200 + t / 240 in
  timely ha /\ ha (0 + 86400) < ha 0 /\ (exists x, find_crossing 20 (ha_drop ha) 0 86400 5 = Some (Ok [x])) /\
  (exists x, next_meridian_transit 20 ha 0 5 = Some (Ok x)) /\ previous_meridian_transit 20 ha 0 5 = Some (Err EIndexError) /\
  next_time 20 (rising (fun _ => 1) 2) 0 5 = Some (Ok None).
Proof.
  split; [intros a b E; now rewrite E|]. split; [intros; lra|]. split; [intros; lra|]. split; [eexists; vm_compute; reflexivity|]. split; [eexists; vm_compute; reflexivity|]. cbv zeta.
  split. { intros a b E. rewrite (Qle_bool_eq 40000 40000 a b (Qeq_refl _) E). destruct (Qle_bool 40000 b); now rewrite E. }
  split; [vm_compute; reflexivity|]. split; [eexists; vm_compute; reflexivity|]. split; [eexists; vm_compute; reflexivity|]. split; vm_compute; reflexivity.
Qed.

(** * C112: transits by interpolation *)
Theorem C112_transits : forall ha t0 d ts r s n, 0 < d -> 0 < ts -> step_of d ts s -> 0 < r -> r * s < 360 -> turns ha t0 r ->
  inject_Z n * s <= d -> d < (inject_Z n + 1) * s ->
  exists l, meridian_transit_2 ha t0 d ts = Ok l /\ StronglySorted Qlt l /\
    (forall x, In x l -> t0 < x /\ x < t0 + (inject_Z n - 1) * s /\ ha x == 0) /\
    (forall t, t0 < t -> t < t0 + (inject_Z n - 1) * s -> ha t == 0 -> exists x, In x l /\ x == t).
Proof. exact transits_found. Qed.
Print Assumptions C112_transits.
Theorem C112_last_step_refuted : turns (sidereal 5) 0 (1 # 240) /\ sidereal 5 85200 == 0 /\ 85200 < 86400 /\ meridian_transit_2 (sidereal 5) 0 86400 1800 = Ok [].
Proof. exact last_step_refuted. Qed.
Print Assumptions C112_last_step_refuted.

Example C112_ex : step_of 172800 1800 1800 /\ turns (sidereal 5) 0 (1 # 240) /\ inject_Z 96 * 1800 <= 172800 /\ 172800 < (inject_Z 96 + 1) * 1800 /\
  exists x, meridian_transit_2 (sidereal 5) 0 172800 1800 = Ok [x] /\ x == 85200.
Proof.
  split; [repeat split; try (vm_compute; congruence); left; reflexivity|]. split; [apply sidereal_turns; lra|]. split; [vm_compute; congruence|]. split; [vm_compute; reflexivity|].
  eexists. split; vm_compute; reflexivity.
Qed.
