(** Lemmas on night time and on the highest common frequency (M_Night). *)
From Coq Require Import ZArith Bool String List Lia Reals Lra.
From Verif Require Import Base M_Beam M_Area M_Sefd M_Night P_Night P_Area P_Sefd3.
From Verif Require M_Polar.
Import ListNotations.
Open Scope Z_scope.
Open Scope list_scope.

(** * Specification *)
(** The clock shows [h] milliseconds at the time [t], to the closest one. *)
Definition clock (t h : Z) : Prop := exists n, 0 <= h < 86400000 /\ 1000 * (86400000 * n + h) - 500 <= t < 1000 * (86400000 * n + h) + 500.
Definition at_hour (n : Z) : Z := n * 3600000.
(** Length common to two intervals. *)
Definition overlap (a b c d : Z) : Z := Z.max 0 (Z.min b d - Z.max a c).

(** * Night *)
Lemma clock_iso t h : clock t h <-> iso_time t = h.
Proof.
  unfold clock, iso_time. change (day_length / 1000) with 86400000. assert (A := Z.div_mod (t + 500) 1000 ltac:(lia)). assert (B := Z.mod_pos_bound (t + 500) 1000 ltac:(lia)).
  set (r := (t + 500) / 1000) in *. assert (C := Z.div_mod r 86400000 ltac:(lia)). assert (D := Z.mod_pos_bound r 86400000 ltac:(lia)). split.
  - intros (n & H & T). assert (E : r = 86400000 * n + h) by lia. assert (F : n = r / 86400000) by (apply (Z.div_unique r 86400000 n h); lia). lia.
  - intros <-. exists (r / 86400000). lia.
Qed.
Lemma nth_map2 {A B C} (f : A -> B -> C) : forall l m i x y, nth_error l i = Some x -> nth_error m i = Some y -> nth_error (map2 f l m) i = Some (f x y).
Proof. induction l as [|a l IH]; intros [|b m] [|i] x y; cbn; try discriminate; [intros [= ->] [= ->]; reflexivity|apply IH]. Qed.
Definition night_of (mo d h : Z) : Prop := summer_date mo d /\ (h <= at_hour 3 \/ at_hour 19 <= h) \/ ~ summer_date mo d /\ h <= at_hour 4.
Theorem night_right : forall l a b, ends l a b -> all_between l a b -> exists m, night_mask (Array l) = Ok m /\ length m = length l /\
  forall i x y mo d h, nth_error l i = Some x -> on_date y mo d x -> clock x h -> (nth_error m i = Some true <-> night_of mo d h) /\ (nth_error m i = Some false <-> ~ night_of mo d h).
Proof.
  intros l a b E H. destruct (season_right (Array l) a b E H) as (s & S & L & K). cbn [as_array] in *. unfold night_mask. rewrite S. cbn [bind]. eexists. split; [reflexivity|].
  split; [apply map2_length; auto|]. intros i x y mo d h N D C. destruct (nth_error s i) as [v|] eqn:V.
  2: { apply nth_error_None in V. assert (i < length l)%nat by (apply nth_error_Some; congruence). lia. }
  rewrite (nth_map2 _ _ _ _ _ _ N V). destruct (K i x y mo d N D) as [K1 K2]. rewrite V in K1, K2. apply some_iff.
  apply clock_iso in C. rewrite C. assert (Hh : 0 <= h < 86400000) by (subst h; apply Z.mod_pos_bound; reflexivity).
  unfold night_of, night_summer, night_winter, at_hour. change hour_ms with 3600000. destruct v.
  - assert (Y : summer_date mo d) by (apply K1; reflexivity). rewrite orb_true_iff, !andb_true_iff, !Z.leb_le. intuition lia.
  - assert (Y : ~ summer_date mo d) by (apply K2; reflexivity). rewrite orb_true_iff, !andb_true_iff, !Z.leb_le. intuition lia.
Qed.
(** The evenings of winter are documented as night (407-408) and never are. *)
Theorem night_refuted : forall l m i x y mo d h, night_mask (Array l) = Ok m -> nth_error l i = Some x -> on_date y mo d x -> ~ summer_date mo d -> clock x h -> at_hour 20 <= h ->
  nth_error m i = Some false.
Proof.
  intros l m i x y mo d h M N D W C H. unfold night_mask in M. destruct (season_mask (Array l) "summer") as [s|] eqn:S; [|discriminate]. cbn [bind] in M. injection M as <-.
  assert (E : exists a b, ends l a b).
  { destruct l as [|a l]; [destruct i; discriminate|]. destruct (rev (a :: l)) as [|b r] eqn:R; [apply (f_equal (@length Z)) in R; rewrite rev_length in R; discriminate|]. exists a, b. split; [reflexivity|]. rewrite R. reflexivity. }
  destruct E as (a & b & E). rewrite (summer_mask (Array l) a b E) in S. injection S as <-. cbn [as_array].
  assert (I := summer_date_iff _ _ _ _ D). assert (F : summer x = false) by (destruct (summer x); [elim W; apply I; reflexivity|reflexivity]).
  erewrite nth_map2; [|exact N|rewrite nth_error_map, N; reflexivity]. cbn beta. rewrite F, andb_false_r. apply clock_iso in C. rewrite C. f_equal. unfold night_winter, at_hour in *. change hour_ms with 3600000.
  destruct (Z.leb_spec h (4 * 3600000)); [lia|]. now rewrite andb_false_r.
Qed.
Theorem night_scalar : forall t, night_mask (Scalar t) = Err EIndexError /\ night_mask (Array []) = Err EIndexError.
Proof. intros. split; reflexivity. Qed.

(** * Day and night hours of a booking *)
Definition morning_end (s : season) : Z := match s with Summer => 3 * 3600000000 | Winter => 4 * 3600000000 end.
Definition evening_start (s : season) : Z := match s with Summer => 19 * 3600000000 | Winter => 20 * 3600000000 end.
Lemma boundaries_eq s : boundaries s = ((0, morning_end s), (evening_start s, 24 * 3600000000)).
Proof. destruct s; reflexivity. Qed.
Theorem sort_night_right : forall start stop day, 0 <= start <= stop -> stop <= 24 * 3600000000 -> exists d n, sort_night_time start stop day = (d, n) /\
  n = overlap start stop 0 (morning_end (season_from_time day)) + overlap start stop (evening_start (season_from_time day)) (24 * 3600000000) /\
  d = overlap start stop (morning_end (season_from_time day)) (evening_start (season_from_time day)).
Proof.
  intros start stop day A B. unfold sort_night_time. rewrite boundaries_eq. cbv zeta. cbn [fst snd]. eexists. eexists. split; [reflexivity|]. unfold overlap.
  assert (M : morning_end (season_from_time day) < evening_start (season_from_time day)) by (destruct (season_from_time day); reflexivity).
  assert (P : 0 < morning_end (season_from_time day)) by (destruct (season_from_time day); reflexivity).
  assert (Q : evening_start (season_from_time day) < 24 * 3600000000) by (destruct (season_from_time day); reflexivity). lia.
Qed.
Theorem sort_night_total : forall start stop day, fst (sort_night_time start stop day) + snd (sort_night_time start stop day) = stop - start.
Proof. intros. unfold sort_night_time. rewrite boundaries_eq. cbv zeta. cbn [fst snd]. lia. Qed.
(** A booking that ends before it starts counts as a negative night. *)
Theorem sort_night_reversed : forall start stop day, stop < start -> sort_night_time start stop day = (0, stop - start).
Proof. intros. unfold sort_night_time. rewrite boundaries_eq. cbv zeta. cbn [fst snd]. f_equal; lia. Qed.

(** * Highest common frequency *)
Open Scope R_scope.
(** Frequency [k] of the grid, in Hz. *)
Definition grid_frequency (k : nat) : R := (15 + INR k * 70 / 199) * 1000000.
(** Half the resolution, in degrees, of an array with the longest baseline [d]. *)
Definition half_width (d f : R) : R := 299792458 / f / d * 180 / PI / 2.
Definition shared (d s f : R) : Prop := s <= half_width d f.
Lemma frequencies_eq : frequencies = map grid_frequency (seq 0 200).
Proof.
  unfold frequencies. apply map_ext. intro k. unfold lin, grid_frequency. change (200 - 1)%nat with 199%nat. replace (INR 199) with 199 by (rewrite INR_IZR_INZ; reflexivity). field.
Qed.
Lemma collect_ok {A B} (f : A -> res B) (g : A -> B) : forall l, (forall x, In x l -> f x = Ok (g x)) -> collect (map f l) = Ok (map g l).
Proof. induction l as [|x l IH]; intro H; cbn [map collect]; [reflexivity|]. rewrite (H x) by now left. cbn [bind]. rewrite IH by (intros; apply H; now right). reflexivity. Qed.
Lemma collect_err {A B} (f : A -> res B) (g : A -> B) e : forall l k x, (forall i y, (i < k)%nat -> nth_error l i = Some y -> f y = Ok (g y)) -> nth_error l k = Some x -> f x = Err e -> collect (map f l) = Err e.
Proof.
  induction l as [|y l IH]; intros [|k] x H N E; try discriminate; cbn [map collect] in *.
  - injection N as ->. rewrite E. reflexivity.
  - rewrite (H 0%nat y) by (auto; lia). cbn [bind]. rewrite (IH k x); auto. intros i z I. apply (H (S i)). lia.
Qed.
(** The choice for one separation. *)
Definition best (d s : R) : res R :=
  match rmax (map snd (filter (fun p => within (fst p) s) (combine (map (fun f => Some (half_width d f)) frequencies) frequencies))) with
  | Err EValueError => Ok 0
  | r => r
  end.
Lemma combine_map {A B} (f : A -> B) : forall l, combine (map f l) l = map (fun x => (f x, x)) l.
Proof. induction l as [|x l IH]; cbn; congruence. Qed.
Lemma filter_map_comm {A B} (f : A -> B) p : forall l, filter p (map f l) = map f (filter (fun x => p (f x)) l).
Proof. induction l as [|x l IH]; [reflexivity|]. cbn [map filter]. destruct (p (f x)); cbn [map]; congruence. Qed.
Lemma best_eq d s : best d s = match rmax (filter (fun f => within (Some (half_width d f)) s) frequencies) with Err EValueError => Ok 0 | r => r end.
Proof. unfold best. rewrite combine_map, filter_map_comm, map_map. cbn [fst snd]. now rewrite map_id. Qed.
Lemma in_frequencies f : In f frequencies <-> exists k, (k < 200)%nat /\ f = grid_frequency k.
Proof.
  rewrite frequencies_eq, in_map_iff. split.
  - intros (k & <- & I). apply in_seq in I. exists k. split; [lia|reflexivity].
  - intros (k & K & ->). exists k. split; [reflexivity|]. apply in_seq. lia.
Qed.
Lemma within_iff d s f : within (Some (half_width d f)) s = true <-> shared d s f.
Proof. unfold within, shared. destruct (Rle_dec s (half_width d f)); split; congruence || tauto. Qed.
Definition is_best (d s m : R) : Prop :=
  (m = 0 /\ forall k, (k < 200)%nat -> ~ shared d s (grid_frequency k)) \/
  (exists k, (k < 200)%nat /\ m = grid_frequency k /\ shared d s m /\ forall k', (k < k' < 200)%nat -> ~ shared d s (grid_frequency k')).
Lemma grid_mono k k' : (k < k')%nat -> grid_frequency k < grid_frequency k'.
Proof. intro H. apply lt_INR in H. unfold grid_frequency. lra. Qed.
Lemma grid_pos k : 0 < grid_frequency k.
Proof. unfold grid_frequency. assert (H := pos_INR k). lra. Qed.
Lemma best_spec d s : exists m, best d s = Ok m /\ is_best d s m.
Proof.
  rewrite best_eq. set (l := filter _ _). destruct l as [|f0 l0] eqn:E.
  - exists 0. split; [reflexivity|]. left. split; [reflexivity|]. intros k K X. assert (I : In (grid_frequency k) l).
    { apply filter_In. split; [apply in_frequencies; eauto|now apply within_iff]. } rewrite E in I. destruct I.
  - rewrite <- E. destruct (rmax_spec l) as (m & R & M); [rewrite E; discriminate|]. rewrite R. exists m. split; [reflexivity|]. right. destruct M as [I M].
    apply filter_In in I. destruct I as [I W]. apply in_frequencies in I. destruct I as (k & K & ->). exists k. split; [exact K|]. split; [reflexivity|]. split; [now apply within_iff|].
    intros k' K' X. assert (I : In (grid_frequency k') l). { apply filter_In. split; [apply in_frequencies; exists k'; split; [lia|reflexivity]|now apply within_iff]. }
    apply M in I. assert (G := grid_mono k k'). assert (grid_frequency k < grid_frequency k') by (apply G; lia). lra.
Qed.
Lemma resolutions l d : (2 <= length l)%nat -> longest l d -> d <> 0 ->
  collect (map (angular_resolution l) frequencies) = Ok (map (fun f => Some (299792458 / f / d * 180 / PI)) frequencies).
Proof.
  intros L D Z. apply collect_ok. intros f I. rewrite (resolution_eq l d f); [|lia|exact D]. unfold M_Polar.rdiv. destruct (Req_EM_T d 0) as [X|X]; [contradiction|]. reflexivity.
Qed.
Lemma max_frequency_eq l d seps n : (2 <= length l)%nat -> longest l d -> d <> 0 ->
  max_frequency l seps n = collect (map (fun i => match nth_error seps i with None => Err EIndexError | Some s => best d s end) (seq 0 n)).
Proof.
  intros L D Z. unfold max_frequency. rewrite (resolutions l d L D Z). cbn [bind]. cbv zeta. rewrite map_map. cbn [option_map]. unfold best, half_width. reflexivity.
Qed.
Theorem max_frequency_right : forall l d seps, (2 <= length l)%nat -> longest l d -> d <> 0 -> exists fs, max_frequency l seps (length seps) = Ok fs /\ length fs = length seps /\
  forall i s, nth_error seps i = Some s -> exists m, nth_error fs i = Some m /\ is_best d s m.
Proof.
  intros l d seps L D Z. rewrite (max_frequency_eq l d seps _ L D Z).
  assert (G : exists g, forall s, best d s = Ok (g s)).
  { exists (fun s => match best d s with Ok m => m | Err _ => 0 end). intro s. destruct (best_spec d s) as (m & -> & _). reflexivity. }
  destruct G as [g G]. exists (map (fun i => g (nth i seps 0)) (seq 0 (length seps))). split; [|split].
  - apply collect_ok. intros i I. apply in_seq in I. destruct (nth_error seps i) as [s|] eqn:N; [|apply nth_error_None in N; lia]. rewrite (nth_error_nth _ _ 0 N). apply G.
  - now rewrite map_length, seq_length.
  - intros i s N. assert (I : (i < length seps)%nat) by (apply nth_error_Some; congruence). exists (g s). split.
    + rewrite nth_error_map, (nth_error_nth' _ 0%nat) by (rewrite seq_length; exact I). rewrite seq_nth by exact I. cbn [option_map plus]. now rewrite (nth_error_nth _ _ 0 N).
    + destruct (best_spec d s) as (m & E & B). rewrite G in E. injection E as ->. exact B.
Qed.
(** One separation, as between two fixed sources, and several times. *)
Theorem max_frequency_refuted : forall l d seps n, (2 <= length l)%nat -> longest l d -> d <> 0 -> (length seps < n)%nat -> max_frequency l seps n = Err EIndexError.
Proof.
  intros l d seps n L D Z N. rewrite (max_frequency_eq l d seps _ L D Z).
  apply (collect_err _ (fun i => match best d (nth i seps 0) with Ok m => m | Err _ => 0 end) _ _ (length seps) (length seps)).
  - intros i y I S. assert (y = i). { rewrite (nth_error_nth' _ 0%nat) in S by (rewrite seq_length; lia). rewrite seq_nth in S by lia. cbn in S. congruence. } subst y.
    destruct (nth_error seps i) as [s|] eqn:E; [|apply nth_error_None in E; lia]. rewrite (nth_error_nth _ _ 0 E). destruct (best_spec d s) as (m & -> & _). reflexivity.
  - rewrite (nth_error_nth' _ 0%nat) by (rewrite seq_length; lia). rewrite seq_nth by lia. reflexivity.
  - assert (E : nth_error seps (length seps) = None) by (apply nth_error_None; lia). rewrite E. reflexivity.
Qed.
(** Lower frequencies share it as well, and closer sources share it up to higher ones. *)
Lemma half_width_mono d f g : 0 < d -> 0 < f -> f <= g -> half_width d g <= half_width d f.
Proof.
  intros D F G. unfold half_width. assert (P := PI_RGT_0). assert (A : 299792458 / g <= 299792458 / f).
  { apply Rmult_le_compat_l; [lra|]. apply Rinv_le_contravar; assumption. }
  unfold Rdiv in *. apply Rmult_le_compat_r; [lra|]. apply Rmult_le_compat_r; [left; now apply Rinv_0_lt_compat|]. apply Rmult_le_compat_r; [lra|].
  apply Rmult_le_compat_r; [left; now apply Rinv_0_lt_compat|]. exact A.
Qed.
Theorem best_below : forall d s m k, 0 < d -> is_best d s m -> (k < 200)%nat -> (shared d s (grid_frequency k) <-> grid_frequency k <= m).
Proof.
  intros d s m k D B K. assert (GP := grid_pos k). destruct B as [[-> B]|(j & J & -> & S & B)].
  - split; intro X; [elim (B k K X)|lra].
  - split; intro X.
    + destruct (Nat.lt_ge_cases j k) as [L|L]; [elim (B k); auto|]. destruct (Nat.eq_dec k j) as [->|N]; [lra|]. assert (G := grid_mono k j). assert (grid_frequency k < grid_frequency j) by (apply G; lia). lra.
    + unfold shared in *. eapply Rle_trans; [exact S|]. apply half_width_mono; auto.
Qed.
Theorem best_closer : forall d s s' m m', 0 < d -> s <= s' -> is_best d s m -> is_best d s' m' -> m' <= m.
Proof.
  intros d s s' m m' D S B B'. destruct B' as [[-> _]|(j & J & -> & X & _)].
  - destruct B as [[-> _]|(k & _ & -> & _)]; [lra|]. left. apply grid_pos.
  - apply (best_below d s m j D B J). unfold shared in *. lra.
Qed.
