(** Property theorems: constraints (C27 to C30, C63 to C68). *)
From Coq Require Import List Arith ZArith QArith Bool Lia Lqa Permutation.
From Verif Require Import Base M_Sched M_Cnst P_Cnst P_Cnst2 P_Cnst3 P_Cnst4.
Import ListNotations.
Open Scope nat_scope.

(** C27: with parameters the classes accept (and a Sun limit not above the
    horizon) every combined score is between zero and one. *)
Theorem C27_scores_unit : forall tg ck ns cs sun sun' rows score, Forall valid_cnst cs -> valid_target tg ->
  evaluate cs tg ck ns sun = (sun', Ok (rows, score)) ->
  length score = length (ck_time ck) - 1 /\ forall k, (0 <= nth k score 0 <= 1)%Q.
Proof. exact evaluate_unit. Qed.
Print Assumptions C27_scores_unit.

(** C27: a slot is usable exactly if every constraint is positive there. *)
Theorem C27_usable_slots : forall tg ck ns cs sun sun' rows score k, Forall valid_cnst cs -> valid_target tg ->
  evaluate cs tg ck ns sun = (sun', Ok (rows, score)) -> k < length score ->
  ((0 < nth k score 0)%Q <-> forall j, j < length cs -> exists q, value_at rows k j = Some q /\ (0 < q)%Q).
Proof. exact evaluate_usable. Qed.
Print Assumptions C27_usable_slots.

(** C27: a constraint that is null or undefined at a slot makes its score null,
    whatever the others. *)
Theorem C27_blocking : forall cs tg ck ns sun sun' rows score k j,
  evaluate cs tg ck ns sun = (sun', Ok (rows, score)) -> k < length score -> j < length cs ->
  (value_at rows k j = None \/ exists q, value_at rows k j = Some q /\ (q == 0)%Q) ->
  nth k score 0%Q = 0%Q.
Proof. exact evaluate_blocked. Qed.
Print Assumptions C27_blocking.

(** C27: otherwise the score is the weighted mean. *)
Theorem C27_weighted_mean : forall cs tg ck ns sun sun' rows score k qs, weights_ok cs ->
  evaluate cs tg ck ns sun = (sun', Ok (rows, score)) -> k < length score ->
  values_at rows k = map Some qs -> (forall q, In q qs -> ~ (q == 0)%Q) ->
  wmean (combine (map cn_weight cs) qs) (nth k score 0%Q).
Proof. exact evaluate_mean. Qed.
Print Assumptions C27_weighted_mean.

(** C27: it lies between the individual scores; with equal bounds, it is their
    common value. *)
Theorem C27_between : forall cs tg ck ns sun sun' rows score k lo hi, weights_ok cs ->
  evaluate cs tg ck ns sun = (sun', Ok (rows, score)) -> k < length score ->
  (forall j, j < length cs -> exists q, value_at rows k j = Some q /\ ~ (q == 0)%Q /\ (lo <= q <= hi)%Q) ->
  (lo <= nth k score 0 <= hi)%Q.
Proof. exact evaluate_between. Qed.
Print Assumptions C27_between.

(** C27: the order of the constraints does not matter, neither for the score
    nor for what each constraint keeps. *)
Theorem C27_order : forall cs cs' tg ck ns sun sun' rows score, Permutation cs cs' -> unique_classes cs -> weights_ok cs ->
  evaluate cs tg ck ns sun = (sun', Ok (rows, score)) ->
  exists rows' score', evaluate cs' tg ck ns sun = (sun', Ok (rows', score')) /\
    Permutation (combine cs rows) (combine cs' rows') /\
    length score' = length score /\ forall k, (nth k score' 0 == nth k score 0)%Q.
Proof. exact set_perm. Qed.
Print Assumptions C27_order.

Example C27_ex : Forall valid_cnst demo_set /\ unique_classes demo_set /\ valid_target (Some demo_target) /\
  exists rows score, evaluate demo_set (Some demo_target) (clock0 4) 1 [] = ([], Ok (rows, score)) /\
    map Qred score = [13 # 15; 1; 0]%Q.
Proof.
  split; [apply demo_set_valid|]. split; [apply demo_set_valid|]. split; [apply demo_set_valid|].
  eexists; eexists. split; vm_compute; reflexivity.
Qed.

(** C27: a block without target is unusable as soon as it has a constraint on
    the time, for the elevation constraint that every set holds is then left at
    zero... *)
Theorem C27_no_target_blocked : forall cs ck ns sun sun' rows score c d,
  evaluate cs None ck ns sun = (sun', Ok (rows, score)) ->
  In c cs -> needs_target c -> In d cs -> on_the_clock d ->
  forall k, k < length score -> nth k score 0%Q = 0%Q.
Proof. exact no_target_blocked. Qed.
Print Assumptions C27_no_target_blocked.

(** ... and is usable everywhere if all its constraints need a target. *)
Theorem C27_nothing_evaluated : forall cs ck ns sun, cs <> [] -> weights_ok cs -> (forall c, In c cs -> needs_target c) ->
  exists rows score, evaluate cs None ck ns sun = (sun, Ok (rows, score)) /\
    length score = length (ck_time ck) - 1 /\ forall k, k < length score -> (nth k score 0 == 1)%Q.
Proof. exact nothing_evaluated. Qed.
Print Assumptions C27_nothing_evaluated.

Example C27_no_target_ex : exists s, new_cset [mkCnst (CUTCHour 0 24) 1] = Ok s /\
  map Qred match snd (evaluate (cs_list s) None (clock0 4) 1 []) with Ok x => snd x | Err _ => [] end = [0; 0; 0]%Q /\
  map Qred match snd (evaluate [default_el] None (clock0 4) 1 []) with Ok x => snd x | Err _ => [] end = [1; 1; 1]%Q.
Proof. eexists. split; [reflexivity|]. split; vm_compute; reflexivity. Qed.

(** C28: the windows of hours. *)
Theorem C28_utc_window : forall hmin hmax day time k, k < length time - 1 ->
  accepted (utc_eval hmin hmax day time) k (hour_window hmin hmax (hour_of day (nth k time 0%Z))).
Proof. exact utc_spec. Qed.
Print Assumptions C28_utc_window.

Theorem C28_local_window : forall hmin hmax day offset time k, k < length time - 1 ->
  accepted (local_eval hmin hmax day offset time) k
    (hour_window hmin hmax (hour_of day (nth k time 0%Z + offset (nth k time 0%Z)))).
Proof. exact local_spec. Qed.
Print Assumptions C28_local_window.

(** C28: the hour of an instant [x] ticks after a midnight. *)
Theorem C28_hour : forall day k x, (0 < day)%Z -> (0 <= x < day)%Z ->
  (hour_of day (k * day + x) * inject_Z day == 24 * inject_Z x)%Q.
Proof. exact hour_of_exact. Qed.
Print Assumptions C28_hour.

(** C28: a window and its swapped version share no hour and leave none out. *)
Theorem C28_swapped_window : forall a b h, ~ (a == b)%Q -> hour_mask a b h = negb (hour_mask b a h).
Proof. exact hour_mask_swap. Qed.
Print Assumptions C28_swapped_window.

Example C28_ex : utc_eval 1 2 1440 (hours 5) = [None; Some 1%Q; Some 1%Q; None] /\
  local_eval 1 2 1440 (fun _ => 60%Z) (hours 5) = [Some 1%Q; Some 1%Q; None; None] /\
  utc_eval 23 2 1440 (hours 5) = [Some 1%Q; Some 1%Q; None; None].
Proof. repeat split; vm_compute; reflexivity. Qed.

(** C28: the ends belong to a plain window, not to one over midnight. *)
Theorem C28_ends_refuted : forall a b, (a < b)%Q ->
  hour_mask a b a = true /\ hour_mask a b b = true /\ hour_mask b a b = false /\ hour_mask b a a = false.
Proof. exact hour_mask_ends. Qed.
Print Assumptions C28_ends_refuted.

(** C29: the periodic windows. *)
Theorem C29_periodic : forall start p tol time k, (0 < p)%Z -> (0 <= tol)%Z -> k < length time - 1 ->
  accepted (periodic_eval start p tol time) k
    (exists i, (Z.abs (nth k time 0 - (start + i * p)) <= tol)%Z).
Proof. exact periodic_spec. Qed.
Print Assumptions C29_periodic.

Theorem C29_translation : forall start p tol t k, (0 < p)%Z ->
  periodic_mask start p tol (t + k * p) = periodic_mask start p tol t /\
  periodic_mask (start + k * p) p tol t = periodic_mask start p tol t.
Proof. exact periodic_shift. Qed.
Print Assumptions C29_translation.

Example C29_ex : periodic_eval 131 120 10 (hours 6) = [None; None; None; None; None] /\
  periodic_eval 130 120 10 (hours 6) = [Some 1%Q; None; Some 1%Q; None; Some 1%Q] /\
  periodic_eval (-110) 120 10 (hours 6) = [Some 1%Q; None; Some 1%Q; None; Some 1%Q].
Proof. repeat split; vm_compute; reflexivity. Qed.

(** C30: an addition succeeds exactly if its class is new, or replaces the
    default elevation; otherwise ValueError, and the set is as before. *)
Theorem C30_addition : forall s c, cset_reach s ->
  ((exists s' r, cset_add s c = (s', Ok r)) <->
   (~ In (class_of c) (classes (cs_list s)) \/ (class_of c = 0 /\ cs_default s = true))) /\
  (forall s' e, cset_add s c = (s', Err e) -> e = EValueError /\ s' = s).
Proof. exact add_ok. Qed.
Print Assumptions C30_addition.

Theorem C30_result : forall s c s' r, cset_reach s -> cset_add s c = (s', Ok r) ->
  NoDup (classes (cs_list r)) /\ In 0 (classes (cs_list r)) /\ In c (cs_list r) /\
  (forall d, In d (cs_list s) -> class_of d <> class_of c -> In d (cs_list r)) /\
  (forall d, In d (cs_list r) -> d = c \/ In d (cs_list s) \/ (d = default_el /\ ~ In 0 (classes (cs_list s)))).
Proof. exact add_result. Qed.
Print Assumptions C30_result.

(** C30: a set is made exactly of constraints of different classes. *)
Theorem C30_creation : forall l, (exists s, new_cset l = Ok s) <-> NoDup (classes l).
Proof. exact new_cset_ok. Qed.
Print Assumptions C30_creation.

(** C30: at all times at most one constraint per class. *)
Theorem C30_unique : forall s, cset_reach s -> NoDup (classes (cs_list s)).
Proof. exact (fun s H => proj1 (reach_inv s H)). Qed.
Print Assumptions C30_unique.

(** C30: but adding an elevation constraint takes the default one away from the
    left operand. *)
Theorem C30_left_operand : forall s c s' r, cset_reach s -> cset_add s c = (s', r) ->
  (class_of c <> 0 \/ cs_default s = false -> s' = s) /\
  (class_of c = 0 -> cs_default s = true -> ~ In 0 (classes (cs_list s')) /\ cs_default s' = false).
Proof. exact add_left. Qed.
Print Assumptions C30_left_operand.

Theorem C30_left_operand_refuted : forall w, exists s s' r,
  new_cset [] = Ok s /\ cset_add s (mkCnst (CElevation 30 true) w) = (s', Ok r) /\
  cs_list s = [default_el] /\ cs_list s' = [] /\
  (forall tg ck ns sun, evaluate (cs_list s') tg ck ns sun = (sun, Err EZeroDivisionError)) /\
  exists s2 t, cset_add s' (mkCnst (CUTCHour 2 4) w) = (s2, Ok t) /\ cs_list t = [mkCnst (CUTCHour 2 4) w; default_el] /\
    cset_add t (mkCnst (CElevation 30 true) w) = (t, Err EValueError).
Proof. exact elevation_replaced. Qed.
Print Assumptions C30_left_operand_refuted.

Example C30_ex : exists s, cset_reach s /\ map (fun c => class_of c) (cs_list s) = [5; 0] /\ cs_default s = true /\
  (exists r, snd (cset_add s (mkCnst CTransit 1)) = Ok r /\ classes (cs_list r) = [5; 0; 1]) /\
  snd (cset_add s (mkCnst (CUTCHour 3 4) 1)) = Err EValueError.
Proof.
  exists (mkCset [mkCnst (CUTCHour 1 2) 1; default_el] true).
  split; [apply (cr_new [mkCnst (CUTCHour 1 2) 1]); reflexivity|]. split; [reflexivity|]. split; [reflexivity|].
  split; [eexists; split; reflexivity|reflexivity].
Qed.

(** C63: the elevation constraint at slot [k]. *)
Theorem C63_elevation : forall emin scale el k, (0 <= emin)%Q -> k < length el - 1 ->
  ((mid_elevation el k <= emin)%Q -> nth k (elevation_eval emin scale el) None = None) /\
  ((emin < mid_elevation el k)%Q ->
   exists q, nth k (elevation_eval emin scale el) None = Some q /\
     (scale = false -> (q == 1)%Q) /\
     (scale = true -> exists top, (q * top == mid_elevation el k)%Q /\
        (exists j, j < length el - 1 /\ (top == mid_elevation el j)%Q) /\
        (forall j, j < length el - 1 -> (mid_elevation el j <= top)%Q))).
Proof. exact elevation_spec. Qed.
Print Assumptions C63_elevation.

Theorem C63_elevation_positive : forall emin scale el k q, (0 <= emin)%Q ->
  nth k (elevation_eval emin scale el) None = Some q -> (0 < q <= 1)%Q.
Proof. exact elevation_unit. Qed.
Print Assumptions C63_elevation_positive.

Theorem C63_higher_is_better : forall emin el k j qk qj, (0 <= emin)%Q ->
  nth k (elevation_eval emin true el) None = Some qk ->
  nth j (elevation_eval emin true el) None = Some qj ->
  ((qk <= qj)%Q <-> (mid_elevation el k <= mid_elevation el j)%Q).
Proof. exact elevation_order. Qed.
Print Assumptions C63_higher_is_better.

Theorem C63_best_slot : forall emin scale el, (0 <= emin)%Q ->
  (exists k, k < length el - 1 /\ (emin < mid_elevation el k)%Q) ->
  exists k q, nth k (elevation_eval emin scale el) None = Some q /\ (q == 1)%Q.
Proof. exact elevation_best. Qed.
Print Assumptions C63_best_slot.

Example C63_ex : map (option_map Qred) (elevation_eval 10 true [20; 40; 60; 5; 5]%Q) = [Some (3 # 5); Some 1; Some (13 # 20); None]%Q.
Proof. vm_compute. reflexivity. Qed.

(** C64: the night constraint. *)
Theorem C64_night : forall emax scale sun k, (emax < 0)%Q ->
  (exists j e, nth j sun None = Some e /\ (e <= emax)%Q) ->
  let v := snd (night_eval emax scale sun) in
  length v = length sun /\
  (forall e, nth k sun None = Some e -> (emax < e)%Q -> nth k v None = None) /\
  (nth k sun None = None -> nth k v None = None) /\
  (forall e, nth k sun None = Some e -> (e <= emax)%Q ->
     exists q, nth k v None = Some q /\ (0 < q <= 1)%Q /\
       (scale = false -> (q == 1)%Q) /\
       (scale = true -> exists low, (q * low == e)%Q /\ In (Some low) sun /\
          forall x, In (Some x) sun -> (low <= x)%Q)).
Proof. exact night_spec. Qed.
Print Assumptions C64_night.

(** C64: a set that asks for a night that never comes cannot be evaluated. *)
Theorem C64_no_night_raises : forall cs tg ck ns sun c e scale, unique_classes cs -> In c cs -> cn_kind c = CNight e scale ->
  length sun = length (ck_time ck) - 1 -> length sun <> 0 -> length sun <> 2 ->
  (forall x, In (Some x) sun -> (e < x)%Q) ->
  exists err, snd (evaluate cs tg ck ns sun) = Err err.
Proof. exact night_impossible. Qed.
Print Assumptions C64_no_night_raises.

(** C64: the blocks of a schedule are evaluated with the Sun elevations left by
    the previous ones... *)
Theorem C64_sun_shared : forall blocks ck sun sun' l, evaluate_blocks blocks ck sun = (sun', Ok l) ->
  length l = length blocks /\
  forall i cs tg ns, nth_error blocks i = Some (cs, tg, ns) ->
    exists rows, evaluate cs tg ck ns (sun_after (concat (map (fun b => fst (fst b)) (firstn i blocks))) sun) =
      (sun_after (concat (map (fun b => fst (fst b)) (firstn (S i) blocks))) sun, Ok (rows, nth i l [])).
Proof. exact evaluate_blocks_spec. Qed.
Print Assumptions C64_sun_shared.

(** ... that are undefined wherever a previous limit was passed. *)
Theorem C64_sun_left : forall cs sun k,
  (nth k (sun_after cs sun) None = nth k sun None \/ nth k (sun_after cs sun) None = None) /\
  forall x, nth k sun None = Some x ->
    (nth k (sun_after cs sun) None = None <->
     exists c e scale, In c cs /\ cn_kind c = CNight e scale /\ (e < x)%Q).
Proof. exact sun_after_spec. Qed.
Print Assumptions C64_sun_left.

Theorem C64_stricter_limit_wins : forall e1 e2 scale sun,
  night_eval e2 scale (fst (night_eval e1 scale sun)) = night_eval (if Qle_bool e1 e2 then e1 else e2) scale sun.
Proof. exact night_after_night. Qed.
Print Assumptions C64_stricter_limit_wins.

(** C64: the score of a block depends on the blocks before it. *)
Theorem C64_independence_refuted :
  shown (snd (evaluate_blocks (two_nights (-5 # 1) (-15 # 1)) (clock0 5) evening)) =
    [[0; 1 # 4; 1 # 2; 1]; [0; 0; 0; 1]]%Q /\
  shown (snd (evaluate_blocks (two_nights (-15 # 1) (-5 # 1)) (clock0 5) evening)) =
    [[0; 0; 0; 1]; [0; 0; 0; 1]]%Q.
Proof. exact night_order_matters. Qed.
Print Assumptions C64_independence_refuted.

(** C65: the meridian transit of a target whose hour angle follows [full]. *)
Theorem C65_transit : forall nslots ha full step, rising 24 step ha full -> (step < 24)%Q ->
  crossing_scores (transit_eval nslots ha) (length ha - 1) nslots
    (fun k => exists m : Z, (nth k full 0 < 24 * inject_Z m)%Q /\ (24 * inject_Z m <= nth (S k) full 0)%Q).
Proof. exact transit_spec. Qed.
Print Assumptions C65_transit.

(** C65: the sidereal time, for slots of at most twelve hours. *)
Theorem C65_sidereal_time : forall lst nslots lsts full step, rising 360 step lsts full -> (step <= 180)%Q -> (0 <= lst < 360)%Q ->
  crossing_scores (lst_eval lst nslots lsts) (length lsts - 1) nslots
    (fun k => exists m : Z, (nth k full 0 <= lst + 360 * inject_Z m)%Q /\ (lst + 360 * inject_Z m <= nth (S k) full 0)%Q).
Proof. exact lst_spec. Qed.
Print Assumptions C65_sidereal_time.

Theorem C65_long_slots_refuted : exists a b A B lst, wrapped 360 a A /\ wrapped 360 b B /\ (0 <= lst < 360)%Q /\ (A <= B)%Q /\ (B - A < 360)%Q /\
  (exists m : Z, (A <= lst + 360 * inject_Z m)%Q /\ (lst + 360 * inject_Z m <= B)%Q) /\ lst_crossed lst a b = false.
Proof. exact lst_long_slots. Qed.
Print Assumptions C65_long_slots_refuted.

Example C65_ex : rising 24 1 [22; 23; 0; 1]%Q [22; 23; 24; 25]%Q /\
  transit_eval 3 [22; 23; 0; 1]%Q = [Some (1 # 2); Some 1; Some (1 # 2)]%Q /\
  lst_eval 10 2 [350; 5; 20; 35]%Q = [Some (1 # 2); Some 1; Some 0]%Q.
Proof.
  split; [|split; vm_compute; reflexivity]. split; [reflexivity|]. split.
  - intros [|[|[|[|k]]]] L; cbn; cbn in L; try lia; (split; [lra|]); [exists 0%Z|exists 0%Z|exists 1%Z|exists 1%Z]; reflexivity.
  - intros [|[|[|k]]] L; cbn; cbn in L; try lia; lra.
Qed.

(** C66: the azimuth is reached when it is between those of the two ends of a
    slot, taken in (-180, 180] for a circumpolar target. *)
Theorem C66_azimuth : forall az circumpolar nslots azs,
  crossing_scores (azimuth_eval az circumpolar nslots azs) (length azs - 1) nslots
    (fun k => if circumpolar
              then (wrap180 (nth k azs 0) <= wrap180 az <= wrap180 (nth (S k) azs 0))%Q
                \/ (wrap180 (nth (S k) azs 0) <= wrap180 az <= wrap180 (nth k azs 0))%Q
              else (nth k azs 0 <= az <= nth (S k) azs 0)%Q).
Proof. exact azimuth_spec. Qed.
Print Assumptions C66_azimuth.

Example C66_ex : azimuth_eval 115 false 1 [100; 110; 120; 130]%Q = [Some 0; Some 1; Some 0]%Q /\
  azimuth_eval 0 true 3 [340; 355; 10; 20]%Q = [Some (1 # 2); Some 1; Some (1 # 2)]%Q.
Proof. split; vm_compute; reflexivity. Qed.

(** C66: for a circumpolar target that does not pass South during a slot, this
    is passing at the requested azimuth. *)
Theorem C66_passes : forall az nslots azs full, azimuth_track azs full -> (0 <= az < 360)%Q ->
  (forall k, k < length azs - 1 -> not_south full k) ->
  crossing_scores (azimuth_eval az true nslots azs) (length azs - 1) nslots
    (fun k => exists m : Z, between (nth k full 0%Q) (az + 360 * inject_Z m)%Q (nth (S k) full 0%Q)).
Proof. exact azimuth_passes. Qed.
Print Assumptions C66_passes.

Example C66_passes_ex : azimuth_track [340; 355; 10; 20]%Q [340; 355; 370; 380]%Q /\
  forall k, k < 3 -> not_south [340; 355; 370; 380]%Q k.
Proof.
  split.
  - split; [reflexivity|]. intros [|[|[|[|k]]]] L; cbn; cbn in L; try lia; (split; [lra|]); [exists 0%Z|exists 0%Z|exists 1%Z|exists 1%Z]; reflexivity.
  - intros [|[|[|k]]] L; try lia; exists 1%Z; cbn; change (inject_Z 1) with 1%Q; lra.
Qed.

(** C66: so that a circumpolar target passing South is said to be at every azimuth. *)
Theorem C66_south_refuted : azimuth_eval 0 true 1 [179; 181]%Q = [Some 1%Q] /\ azimuth_eval 90 true 1 [179; 181]%Q = [Some 1%Q].
Proof. exact azimuth_south. Qed.
Print Assumptions C66_south_refuted.

(** C67: the score of a placed block is between zero and one... *)
Theorem C67_block_score : forall cs rows start n q, 0 < n -> weights_ok cs -> cs <> [] -> length rows = length cs ->
  (forall v, In (Some v) rows -> unit_scores v) ->
  block_score cs rows start n = Ok q -> (0 <= q <= 1)%Q.
Proof. exact block_score_unit. Qed.
Print Assumptions C67_block_score.

(** ... the scores it comes from being those of an evaluation... *)
Theorem C67_rows_unit : forall tg ck ns cs sun sun' rows, Forall valid_cnst cs -> valid_target tg ->
  eval_rows tg ck ns sun cs = (sun', Ok rows) -> forall v, In (Some v) rows -> unit_scores v.
Proof. exact unit_rows. Qed.
Print Assumptions C67_rows_unit.

Example C67_ex : exists rows score q, evaluate demo_set (Some demo_target) (clock0 4) 1 [] = ([], Ok (rows, score)) /\
  block_score demo_set rows (Some 0) 2 = Ok q /\ (q == 1)%Q.
Proof. eexists; eexists; eexists. split; [vm_compute; reflexivity|]. split; [vm_compute; reflexivity|]. reflexivity. Qed.

(** ... but it raises if a constraint was not evaluated, ... *)
Theorem C67_unevaluated_raises : forall cs rows s n, length rows = length cs ->
  (exists j, j < length cs /\ nth j rows None = None) ->
  exists e, block_score cs rows (Some s) n = Err e.
Proof. exact block_score_raises. Qed.
Print Assumptions C67_unevaluated_raises.

Theorem C67_defined : forall cs rows s n, length rows = length cs ->
  (forall c, In c cs -> cn_kind c <> CBase) ->
  ((exists q, block_score cs rows (Some s) n = Ok q) <-> forall j, j < length cs -> nth j rows None <> None).
Proof. exact block_score_defined. Qed.
Print Assumptions C67_defined.

(** ... which is the case without target. *)
Theorem C67_no_target_refuted : forall ck sun c d, needs_target (mkCnst c 1) -> on_the_clock (mkCnst d 1) ->
  exists rows score, evaluate [mkCnst c 1; mkCnst d 1] None ck 1 sun = (sun, Ok (rows, score)) /\
    block_score [mkCnst c 1; mkCnst d 1] rows (Some 0) 1 = Err ETypeError.
Proof. exact no_target_score. Qed.
Print Assumptions C67_no_target_refuted.

(** C68: time ranges, both ends included. *)
Theorem C68_time_ranges : forall ranges time k, k < length time - 1 ->
  accepted (range_eval ranges time) k
    (exists r, In r ranges /\ (fst r <= nth k time 0 <= snd r)%Z).
Proof. exact range_spec. Qed.
Print Assumptions C68_time_ranges.

Example C68_ex : range_eval [(60, 120); (240, 250)]%Z (hours 6) = [None; Some 1%Q; Some 1%Q; None; Some 1%Q].
Proof. vm_compute. reflexivity. Qed.
