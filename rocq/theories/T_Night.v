(** Properties of seasons, night time and common analog beams (C150 to C153). *)
From Coq Require Import ZArith Bool String List Lia Reals Lra.
From Verif Require Import Base M_Beam M_Area M_Sefd M_Night P_Night P_Area P_Sefd3 P_Night2 P_Area4.
Import ListNotations.
Open Scope Z_scope.
Open Scope list_scope.

(** ** C150: seasons *)
Theorem C150_dates : forall t, 0 <= t -> exists y m d, on_date y m d t /\ forall y' m' d', on_date y' m' d' t -> y' = y /\ m' = m /\ d' = d.
Proof. exact date_unique. Qed.
Print Assumptions C150_dates.
Theorem C150_season : forall t a b, ends (as_array t) a b -> all_between (as_array t) a b -> exists m, season_mask t "summer" = Ok m /\ length m = length (as_array t) /\
  forall i x y mo d, nth_error (as_array t) i = Some x -> on_date y mo d x -> (nth_error m i = Some true <-> summer_date mo d) /\ (nth_error m i = Some false <-> ~ summer_date mo d).
Proof. exact season_right. Qed.
Print Assumptions C150_season.
Theorem C150_winter : forall t m, season_mask t "summer" = Ok m -> exists w, season_mask t "winter" = Ok w /\ length w = length m /\
  forall i, nth_error w i = Some true <-> nth_error m i = Some false.
Proof. exact season_winter. Qed.
Print Assumptions C150_winter.
Theorem C150_open_time : forall t y m d, on_date y m d t -> (season_from_time t = Summer <-> summer_date m d) /\ (season_from_time t = Winter <-> ~ summer_date m d).
Proof. exact season_open_time. Qed.
Print Assumptions C150_open_time.
Theorem C150_errors : forall t s, (season_mask t s = Err EKeyError <-> s <> "summer"%string /\ s <> "winter"%string) /\
  (season_mask t s = Err EIndexError <-> (s = "summer"%string \/ s = "winter"%string) /\ t = Array []).
Proof. exact season_errors. Qed.
Print Assumptions C150_errors.
Theorem C150_order_refuted : forall t a b m i x, ends (as_array t) a b -> season_mask t "summer" = Ok m -> nth_error (as_array t) i = Some x ->
  year_of x < year_of a \/ year_of b + 1 < year_of x -> nth_error m i = Some false.
Proof. exact season_refuted. Qed.
Print Assumptions C150_order_refuted.
Lemma some_date y m d b k t : 1 <= y -> is_month y m b k -> 1 <= d <= k -> (jan1 y + b + d - 1) * 86400000000 <= t < (jan1 y + b + d) * 86400000000 -> on_date y m d t.
Proof. intros Y M D T. exists (jan1 y), b, k. split; [now apply new_year_jan1|]. split; [now apply is_month_month|]. split; [exact D|exact T]. Qed.
(** 30 September 2023 00:00, 1 July 2024 21:00, 31 December 2024 21:30, in this order; and the same times, the last one first. *)
Definition demo_a : Z := 738792 * 86400000000.
Definition demo_b : Z := 739067 * 86400000000 + 21 * 3600000000.
Definition demo_c : Z := 739250 * 86400000000 + 43 * 1800000000.
Lemma demo_dates : on_date 2023 9 30 demo_a /\ on_date 2024 7 1 demo_b /\ on_date 2024 12 31 demo_c.
Proof.
  split; [|split].
  - apply (some_date 2023 9 30 243 30); unfold is_month, feb, demo_a; cbn; lia.
  - apply (some_date 2024 7 1 182 31); unfold is_month, feb, demo_b; cbn; lia.
  - apply (some_date 2024 12 31 335 31); unfold is_month, feb, demo_c; cbn; lia.
Qed.
Example C150_ex : ends [demo_a; demo_b; demo_c] demo_a demo_c /\ all_between [demo_a; demo_b; demo_c] demo_a demo_c /\
  season_mask (Array [demo_a; demo_b; demo_c]) "summer" = Ok [false; true; false] /\ season_mask (Scalar demo_b) "winter" = Ok [false] /\
  season_mask (Array []) "summer" = Err EIndexError /\ season_mask (Scalar demo_b) "spring" = Err EKeyError /\
  season_mask (Array [demo_c; demo_a; demo_a - 91 * 86400000000; demo_a]) "summer" = Ok [false; false; false; false] /\ on_date 2023 7 1 (demo_a - 91 * 86400000000).
Proof.
  split; [split; reflexivity|]. split; [intros x [<-|[<-|[<-|[]]]]; unfold demo_a, demo_b, demo_c; lia|]. repeat (split; [reflexivity|]).
  apply (some_date 2023 7 1 181 31); unfold is_month, feb, demo_a; cbn; lia.
Qed.

(** ** C151: night time *)
Theorem C151_night : forall l a b, ends l a b -> all_between l a b -> exists m, night_mask (Array l) = Ok m /\ length m = length l /\
  forall i x y mo d h, nth_error l i = Some x -> on_date y mo d x -> clock x h -> (nth_error m i = Some true <-> night_of mo d h) /\ (nth_error m i = Some false <-> ~ night_of mo d h).
Proof. exact night_right. Qed.
Print Assumptions C151_night.
Theorem C151_winter_evening_refuted : forall l m i x y mo d h, night_mask (Array l) = Ok m -> nth_error l i = Some x -> on_date y mo d x -> ~ summer_date mo d -> clock x h -> at_hour 20 <= h ->
  nth_error m i = Some false.
Proof. exact night_refuted. Qed.
Print Assumptions C151_winter_evening_refuted.
Theorem C151_scalar_refuted : forall t, night_mask (Scalar t) = Err EIndexError /\ night_mask (Array []) = Err EIndexError.
Proof. exact night_scalar. Qed.
Print Assumptions C151_scalar_refuted.
Example C151_ex : night_mask (Array [demo_a; demo_b; demo_c]) = Ok [true; true; false] /\ clock demo_b (at_hour 21) /\ clock demo_c (at_hour 21 + 1800000) /\
  ~ summer_date 12 31 /\ at_hour 20 <= at_hour 21 + 1800000.
Proof.
  split; [reflexivity|]. split; [apply clock_iso; reflexivity|]. split; [apply clock_iso; reflexivity|]. split; [unfold summer_date; lia|unfold at_hour; lia].
Qed.

(** ** C152: hours of day and of night *)
Theorem C152_hours : forall start stop day, 0 <= start <= stop -> stop <= 24 * 3600000000 -> exists d n, sort_night_time start stop day = (d, n) /\
  n = overlap start stop 0 (morning_end (season_from_time day)) + overlap start stop (evening_start (season_from_time day)) (24 * 3600000000) /\
  d = overlap start stop (morning_end (season_from_time day)) (evening_start (season_from_time day)).
Proof. exact sort_night_right. Qed.
Print Assumptions C152_hours.
Theorem C152_total : forall start stop day, fst (sort_night_time start stop day) + snd (sort_night_time start stop day) = stop - start.
Proof. exact sort_night_total. Qed.
Print Assumptions C152_total.
Theorem C152_reversed_refuted : forall start stop day, stop < start -> sort_night_time start stop day = (0, stop - start).
Proof. exact sort_night_reversed. Qed.
Print Assumptions C152_reversed_refuted.
Example C152_ex : sort_night_time (2 * 3600000000) (21 * 3600000000) demo_b = (16 * 3600000000, 3 * 3600000000) /\ sort_night_time (2 * 3600000000) (21 * 3600000000) demo_c = (16 * 3600000000, 3 * 3600000000) /\
  sort_night_time (20 * 3600000000) (22 * 3600000000) demo_b = (0, 2 * 3600000000) /\ sort_night_time (22 * 3600000000) (4 * 3600000000) demo_b = (0, - 18 * 3600000000).
Proof. repeat split. Qed.

(** ** C153: highest frequency in a common analog beam *)
Open Scope R_scope.
Theorem C153_best : forall l d seps, (2 <= length l)%nat -> longest l d -> d <> 0 -> exists fs, max_frequency l seps (length seps) = Ok fs /\ length fs = length seps /\
  forall i s, nth_error seps i = Some s -> exists m, nth_error fs i = Some m /\ is_best d s m.
Proof. exact max_frequency_right. Qed.
Print Assumptions C153_best.
Theorem C153_below : forall d s m k, 0 < d -> is_best d s m -> (k < 200)%nat -> (shared d s (grid_frequency k) <-> grid_frequency k <= m).
Proof. exact best_below. Qed.
Print Assumptions C153_below.
Theorem C153_closer : forall d s s' m m', 0 < d -> s <= s' -> is_best d s m -> is_best d s' m' -> m' <= m.
Proof. exact best_closer. Qed.
Print Assumptions C153_closer.
Theorem C153_fixed_refuted : forall l d seps n, (2 <= length l)%nat -> longest l d -> d <> 0 -> (length seps < n)%nat -> max_frequency l seps n = Err EIndexError.
Proof. exact max_frequency_refuted. Qed.
Print Assumptions C153_fixed_refuted.
Example C153_ex : let l := [mkVec 0 0 0; mkVec 25 0 0] in longest l 25 /\ exists m, max_frequency l [0] 1 = Ok [m] /\ m = 85000000.
Proof.
  intro l. assert (L : longest l 25).
  { split.
    - exists (mkVec 0 0 0), (mkVec 25 0 0). split; [now left|]. split; [right; now left|]. split; [lra|]. unfold sq_dist. cbn. ring.
    - intros e (p & q & P & Q & K & E). unfold l in P, Q. unfold sq_dist in E. destruct P as [<-|[<-|[]]], Q as [<-|[<-|[]]]; cbn in E; nra. }
  split; [exact L|]. destruct (C153_best l 25 [0] ltac:(cbn; lia) L ltac:(lra)) as (fs & E & N & B). destruct (B 0%nat 0 eq_refl) as (m & I & M).
  exists m. destruct fs as [|f [|]]; try discriminate. cbn in I. injection I as <-. split; [exact E|].
  assert (S : shared 25 0 (grid_frequency 199)).
  { unfold shared, half_width. assert (P := PI_RGT_0). assert (G := grid_pos 199). apply Rlt_le. unfold Rdiv. repeat apply Rmult_lt_0_compat; try lra; apply Rinv_0_lt_compat; lra. }
  assert (G : grid_frequency 199 = 85000000) by (unfold grid_frequency; rewrite INR_IZR_INZ; change (IZR (Z.of_nat 199)) with 199; lra).
  apply (C153_below 25 0 f 199 ltac:(lra) M ltac:(lia)) in S. destruct M as [[-> X]|(k & K & -> & _ & X)]; [rewrite G in S; lra|].
  destruct (Nat.eq_dec k 199) as [->|Z]; [exact G|]. assert (H := grid_mono k 199 ltac:(lia)). lra.
Qed.
