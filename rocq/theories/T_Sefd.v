(** C106 to C109: temperatures, equivalent flux density, sensitivity, resolution. *)
From Coq Require Import ZArith Reals Bool List Arith Lia Lra Permutation.
From Verif Require Import Base M_Polar M_Beam M_Xst P_Xst M_Instru M_Area P_Area P_Area2 P_Area3 P_Area4 M_Sefd P_Sefd P_Sefd2 P_Sefd3.
Import ListNotations.
Open Scope list_scope.
Open Scope R_scope.

(** * C106: temperatures *)
Theorem C106_reference : sky_temperature 299792458 = 60.
Proof. exact sky_reference. Qed.
Print Assumptions C106_reference.
Theorem C106_power : forall f k, 0 < f -> 0 < k -> 0 < sky_temperature f /\ sky_temperature (k * f) = Rpower k (- (255 / 100)) * sky_temperature f.
Proof. exact sky_power. Qed.
Print Assumptions C106_power.
Theorem C106_decreasing : forall f g, 0 < f -> f < g -> sky_temperature g < sky_temperature f.
Proof. exact sky_decreasing. Qed.
Print Assumptions C106_decreasing.
Theorem C106_instrument : forall t z fs l table, table_of t z table -> increasing table -> instrument_temperature t z fs = Ok l ->
  length l = length fs /\
  forall i f, nth_error fs i = Some f -> exists g, on_line table (f / 10 ^ 6) g /\ nth_error l i = Some (sky_temperature f * g).
Proof. exact inst_value. Qed.
Print Assumptions C106_instrument.
Theorem C106_defined : forall t z fs, fs <> [] -> ((exists l, instrument_temperature t z fs = Ok l) <-> exists table, table_of t z table /\ table <> []).
Proof. exact inst_defined. Qed.
Print Assumptions C106_defined.
Theorem C106_unknown_filter : forall t z fs, z <> 0%Z -> z <> 3%Z -> instrument_temperature t z fs = Err EKeyError.
Proof. exact inst_unknown. Qed.
Print Assumptions C106_unknown_filter.
Theorem C106_bounds : forall t z fs l table lo hi i f x, table_of t z table -> increasing table -> (forall p, In p table -> lo <= snd p <= hi) ->
  instrument_temperature t z fs = Ok l -> nth_error fs i = Some f -> nth_error l i = Some x ->
  lo * sky_temperature f <= x <= hi * sky_temperature f.
Proof. exact inst_bounds. Qed.
Print Assumptions C106_bounds.
Theorem C106_system : forall area t z fs sources eff el inst a, sized area -> instrument_temperature t z fs = Ok inst -> length inst = length fs ->
  area fs el = Ok a \/ sources = [] ->
  exists l, system_temperature area t z fs sources eff el = Ok l /\ length l = length fs /\
  forall i f ti b, nth_error fs i = Some f -> nth_error inst i = Some ti -> nth_error a i = Some b \/ sources = [] ->
    nth_error l i = Some (sky_temperature f + ti + flux sources f * / 10 ^ 26 * b * eff / (2 * (1380649 / 10 ^ 29))).
Proof. exact sys_value. Qed.
Print Assumptions C106_system.
Theorem C106_error : forall area t z fs sources eff el e,
  (instrument_temperature t z fs = Err e -> system_temperature area t z fs sources eff el = Err e) /\
  (forall inst, instrument_temperature t z fs = Ok inst -> area fs el = Err e -> sources <> [] -> system_temperature area t z fs sources eff el = Err e).
Proof. exact sys_error. Qed.
Print Assumptions C106_error.
Theorem C106_order : forall area t z fs s s' eff el, sized area -> Permutation s s' ->
  system_temperature area t z fs s eff el = system_temperature area t z fs s' eff el.
Proof. exact sys_order. Qed.
Print Assumptions C106_order.
Theorem C106_sources : forall area t z fs s s' eff el l0 ls ls' l i x0 x x', sized area ->
  system_temperature area t z fs [] eff el = Ok l0 -> system_temperature area t z fs s eff el = Ok ls ->
  system_temperature area t z fs s' eff el = Ok ls' -> system_temperature area t z fs (s ++ s') eff el = Ok l ->
  nth_error l0 i = Some x0 -> nth_error ls i = Some x -> nth_error ls' i = Some x' ->
  nth_error l i = Some (x0 + (x - x0) + (x' - x0)).
Proof. exact sys_sources. Qed.
Print Assumptions C106_sources.

Example C106_ex : let t := mkLna [(10, 2); (20, 4)] [] in
  increasing (no_filter t) /\ table_of t 0 (no_filter t) /\ on_line (no_filter t) 15 3 /\ sized (ma_area [mkVec 0 0 0]) /\
  (exists l, instrument_temperature t 0 [15 * 10 ^ 6; 30 * 10 ^ 6] = Ok l) /\ instrument_temperature t 2 [15 * 10 ^ 6] = Err EKeyError /\
  exists l, system_temperature (ma_area [mkVec 0 0 0]) t 0 [15 * 10 ^ 6] [fun _ => 1; fun f => f] 1 (PI / 2) = Ok l.
Proof.
  cbv zeta. cbn [no_filter].
  assert (I : exists l, instrument_temperature (mkLna [(10, 2); (20, 4)] []) 0 [15 * 10 ^ 6; 30 * 10 ^ 6] = Ok l).
  { apply inst_defined; [discriminate|]. exists [(10, 2); (20, 4)]. split; [now left|discriminate]. }
  assert (Z : sized (ma_area [mkVec 0 0 0])) by (apply plane_sized; [apply mini_array_plane|apply mini_array_steady]).
  split. { intros x0 y0 x1 y1 ([|a1 [|a2 [|a3 a]]] & b & E); try discriminate. injection E; intros; subst; lra. }
  split; [now left|]. split. { right; left. exists 10, 2, 20, 4. split; [now exists [], []|]. split; lra. }
  split; [exact Z|]. split; [exact I|]. split; [now apply inst_unknown|].
  assert (J : exists l, instrument_temperature (mkLna [(10, 2); (20, 4)] []) 0 [15 * 10 ^ 6] = Ok l).
  { apply inst_defined; [discriminate|]. exists [(10, 2); (20, 4)]. split; [now left|discriminate]. }
  destruct J as [inst J]. destruct (proj2 (area_defined [mkVec 0 0 0] [15 * 10 ^ 6] (PI / 2))) as [a A]; [split; discriminate|].
  destruct (sys_value (ma_area [mkVec 0 0 0]) _ _ _ [fun _ => 1; fun f => f] 1 (PI / 2) inst a Z J (inst_length _ _ _ _ J) (or_introl A)) as (l & E & _). eauto.
Qed.

(** * C107: equivalent flux density *)
Theorem C107_mini_array : forall ants, horizontal_plane (ma_area ants).
Proof. exact mini_array_plane. Qed.
Print Assumptions C107_mini_array.
Theorem C107_nenufar : forall P G L G' L' (base : interf vec G' L') active (a : interf P G L), horizontal_plane (nenufar_area base active a).
Proof. exact nenufar_plane. Qed.
Print Assumptions C107_nenufar.
Theorem C107_mini_array_steady : forall ants, steady (ma_area ants).
Proof. exact mini_array_steady. Qed.
Print Assumptions C107_mini_array_steady.
Theorem C107_nenufar_steady : forall P G L G' L' (base : interf vec G' L') active (a : interf P G L), steady (nenufar_area base active a).
Proof. exact nenufar_steady. Qed.
Print Assumptions C107_nenufar_steady.
Theorem C107_value : forall area t z fs el eff deco sources inst a, horizontal_plane area ->
  instrument_temperature t z fs = Ok inst -> area fs (PI / 2) = Ok a ->
  exists l, sefd area t z fs el eff deco sources = Ok l /\ length l = length fs /\
  forall i f ti b, nth_error fs i = Some f -> nth_error inst i = Some ti -> nth_error a i = Some b ->
  exists r, nth_error l i = Some r /\
    quotient (deco * (2 * (1380649 / 10 ^ 29) * (sky_temperature f + ti) * 10 ^ 26 + flux sources f * b)) (eff * (b * sin el)) r.
Proof. exact sefd_value. Qed.
Print Assumptions C107_value.
Theorem C107_error : forall area t z fs el eff deco sources e,
  area fs el = Err e \/ (instrument_temperature t z fs = Err e /\ exists a, area fs el = Ok a) -> sefd area t z fs el eff deco sources = Err e.
Proof. exact sefd_error. Qed.
Print Assumptions C107_error.
Theorem C107_sources : forall area t z fs el eff deco sources l0 l i f v0, horizontal_plane area -> steady area ->
  sefd area t z fs el eff deco [] = Ok l0 -> sefd area t z fs el eff deco sources = Ok l ->
  nth_error fs i = Some f -> nth_error l0 i = Some (Some v0) ->
  exists v, nth_error l i = Some (Some v) /\ (v - v0) * (eff * sin el) = deco * flux sources f.
Proof. exact sefd_sources. Qed.
Print Assumptions C107_sources.
Theorem C107_scales : forall area t z fs el eff deco el' eff' deco' sources l l' i v v', horizontal_plane area -> steady area ->
  sefd area t z fs el eff deco sources = Ok l -> sefd area t z fs el' eff' deco' sources = Ok l' ->
  nth_error l i = Some (Some v) -> nth_error l' i = Some (Some v') ->
  v * (eff * sin el) * deco' = v' * (eff' * sin el') * deco.
Proof. exact sefd_scales. Qed.
Print Assumptions C107_scales.
Theorem C107_nan : forall area t z fs el eff deco sources l i a b, horizontal_plane area -> area fs (PI / 2) = Ok a ->
  sefd area t z fs el eff deco sources = Ok l -> nth_error a i = Some b ->
  exists v, nth_error l i = Some v /\ (v = None <-> eff = 0 \/ sin el = 0 \/ b = 0).
Proof. exact sefd_nan. Qed.
Print Assumptions C107_nan.
Theorem C107_number : forall P G L G' L' (base : interf vec G' L') active (a b : interf P G L) t z fs el eff deco la lb i va vb,
  sefd (nenufar_area base active a) t z fs el eff deco [] = Ok la -> sefd (nenufar_area base active b) t z fs el eff deco [] = Ok lb ->
  nth_error la i = Some (Some va) -> nth_error lb i = Some (Some vb) -> va * INR (i_size a) = vb * INR (i_size b).
Proof. exact sefd_number. Qed.
Print Assumptions C107_number.
Theorem C107_source_refuted : exists f v0 v, 0 < f /\
  sefd (ma_area [mkVec 0 0 0]) flat_lna 0 [f] (PI / 6) 1 1 [] = Ok [Some v0] /\
  sefd (ma_area [mkVec 0 0 0]) flat_lna 0 [f] (PI / 6) 1 1 [fun _ => 1] = Ok [Some v] /\ v - v0 = 2.
Proof. exact sefd_source_refuted. Qed.
Print Assumptions C107_source_refuted.

Example C107_ex : exists a inst, ma_area [mkVec 0 0 0; mkVec 5 5 0] [50; 60] (PI / 2) = Ok a /\ instrument_temperature flat_lna 0 [50; 60] = Ok inst /\
  sefd (ma_area []) flat_lna 0 [50] 1 1 1 [] = Err EValueError.
Proof.
  destruct (proj2 (area_defined [mkVec 0 0 0; mkVec 5 5 0] [50; 60] (PI / 2))) as [a A]; [split; discriminate|].
  destruct (proj2 (inst_defined flat_lna 0 [50; 60] ltac:(discriminate))) as [inst I]; [exists [(0, 1)]; split; [now left|discriminate]|].
  exists a, inst. split; [exact A|]. split; [exact I|]. apply sefd_error. left. apply area_error. now left.
Qed.

(** * C108: sensitivity *)
Theorem C108_value : forall area n t z fs m dt df el eff deco sources s, 0 < dt -> 0 < df -> sefd area t z fs el eff deco sources = Ok s ->
  (m = OtherMode -> sensitivity area n t z fs m dt df el eff deco sources = Err EValueError) /\
  (m <> OtherMode -> exists l, sensitivity area n t z fs m dt df el eff deco sources = Ok l /\ length l = length s /\
    forall i v, nth_error s i = Some v -> exists r, nth_error l i = Some r /\
      match v with
      | None => r = None
      | Some v => match m with
                  | Beamforming => exists x, r = Some x /\ x ^ 2 * (2 * dt * df) = v ^ 2 /\ 0 <= x * v
                  | _ => if (n <=? 1)%nat then r = None else exists x, r = Some x /\ x ^ 2 * (INR n * (INR n - 1) * (2 * dt * df)) = v ^ 2 /\ 0 <= x * v
                  end
      end).
Proof. exact sens_value. Qed.
Print Assumptions C108_value.
Theorem C108_error : forall area n t z fs m dt df el eff deco sources e, sefd area t z fs el eff deco sources = Err e ->
  sensitivity area n t z fs m dt df el eff deco sources = Err e.
Proof. exact sens_error. Qed.
Print Assumptions C108_error.
Theorem C108_time : forall area n t z fs m dt df dt' df' el eff deco sources l l' i v v', 0 < dt -> 0 < df -> 0 < dt' -> 0 < df' ->
  sensitivity area n t z fs m dt df el eff deco sources = Ok l -> sensitivity area n t z fs m dt' df' el eff deco sources = Ok l' ->
  nth_error l i = Some (Some v) -> nth_error l' i = Some (Some v') -> v ^ 2 * (dt * df) = v' ^ 2 * (dt' * df').
Proof. exact sens_time. Qed.
Print Assumptions C108_time.
Theorem C108_modes : forall area n t z fs dt df el eff deco sources l l' i v v', 0 < dt -> 0 < df ->
  sensitivity area n t z fs Imaging dt df el eff deco sources = Ok l -> sensitivity area n t z fs Beamforming dt df el eff deco sources = Ok l' ->
  nth_error l i = Some (Some v) -> nth_error l' i = Some (Some v') ->
  v * sqrt (INR n * (INR n - 1)) = v' /\ ((2 <= n)%nat -> v' ^ 2 >= 2 * v ^ 2).
Proof. exact sens_modes. Qed.
Print Assumptions C108_modes.
Theorem C108_nenufar : forall P G L G' L' (base : interf vec G' L') active (a one : interf P G L) t z fs dt df el eff deco li lb s i vi vb v,
  0 < dt -> 0 < df -> i_size one = 1%nat ->
  sensitivity (nenufar_area base active a) (i_size a) t z fs Imaging dt df el eff deco [] = Ok li ->
  sensitivity (nenufar_area base active a) (i_size a) t z fs Beamforming dt df el eff deco [] = Ok lb ->
  sefd (nenufar_area base active one) t z fs el eff deco [] = Ok s ->
  nth_error li i = Some (Some vi) -> nth_error lb i = Some (Some vb) -> nth_error s i = Some (Some v) ->
  vb * sqrt (2 * dt * df) * INR (i_size a) = v /\
  vi * sqrt (INR (i_size a) * (INR (i_size a) - 1) * (2 * dt * df)) * INR (i_size a) = v.
Proof. exact nenufar_noise. Qed.
Print Assumptions C108_nenufar.

Example C108_ex : exists v l, sefd (ma_area [mkVec 0 0 0]) flat_lna 0 [speed_of_light] (PI / 6) 1 1 [] = Ok [Some v] /\
  sensitivity (ma_area [mkVec 0 0 0]) 1 flat_lna 0 [speed_of_light] Beamforming 1 (1 / 2) (PI / 6) 1 1 [] = Ok l /\
  nth_error l 0 = Some (Some v).
Proof.
  assert (S : exists f v0 v, f = speed_of_light /\ sefd (ma_area [mkVec 0 0 0]) flat_lna 0 [f] (PI / 6) 1 1 [] = Ok [Some v0] /\ v = v0).
  { set (f := speed_of_light). assert (F : 0 < f) by (unfold f, speed_of_light; lra). destruct (flat_inst f) as [x I]. assert (P := PI_RGT_0).
    assert (A := area_one (mkVec 0 0 0) f (PI / 2) F). rewrite sin_PI2 in A. set (b := 195496 * 4 / 499 ^ 2 / PI * (wavelength f ^ 2 / 3) * 1) in A.
    assert (B : 0 < b). { unfold b. rewrite Rmult_1_r. apply Rmult_lt_0_compat; [apply Rdiv_lt_0_compat; lra|]. apply Rdiv_lt_0_compat; [apply pow_lt; unfold wavelength; apply Rdiv_lt_0_compat; exact F|lra]. }
    destruct (sefd_value _ flat_lna 0%Z [f] (PI / 6) 1 1 [] [x] [b] (mini_array_plane _) I A) as (l & E & L & V). destruct (V 0%nat f x b eq_refl eq_refl eq_refl) as (r & R1 & R2).
    destruct l as [|u [|w l]]; try discriminate. cbn in R1. injection R1 as ->. destruct R2 as [[D _]|[_ (v & -> & _)]]; [|exists f, v, v; auto].
    rewrite sin_PI6 in D. nra. }
  destruct S as (f & v & _ & -> & E & _). exists v. eexists. split; [exact E|]. unfold sensitivity. rewrite E. cbn [bind]. split; [reflexivity|]. cbn [map nth_error].
  replace (2 * 1 * (1 / 2)) with 1 by field. rewrite sqrt_1. unfold rdiv. destruct (Req_EM_T 1 0); [lra|]. do 2 f_equal. field.
Qed.

(** * C109: baselines, resolution, confusion *)
Theorem C109_baseline : forall l i j p q, nth_error l i = Some p -> nth_error l j = Some q -> vadd p (bsl l i j) = q.
Proof. exact bsl_value. Qed.
Print Assumptions C109_baseline.
Theorem C109_closure : forall l i j k, vadd (bsl l i j) (bsl l j k) = bsl l i k /\ vadd (bsl l i j) (bsl l j i) = mkVec 0 0 0.
Proof. exact bsl_closure. Qed.
Print Assumptions C109_closure.
Theorem C109_flatten : forall l i j p q, nth_error l i = Some p -> nth_error l j = Some q -> (j <= i)%nat ->
  exists b, nth_error (flatten l) (i * (i + 1) / 2 + j) = Some b /\ vadd p b = q.
Proof. exact flatten_value. Qed.
Print Assumptions C109_flatten.
Theorem C109_flatten_length : forall l, length (flatten l) = (length l * (length l + 1) / 2)%nat.
Proof. exact flatten_length. Qed.
Print Assumptions C109_flatten_length.
Theorem C109_resolution : forall l f, (2 <= length l)%nat ->
  exists d r, longest l d /\ angular_resolution l f = Ok r /\ quotient (299792458 / f * 180) (d * PI) r.
Proof. exact resolution_value. Qed.
Print Assumptions C109_resolution.
Theorem C109_alone : forall p f, angular_resolution [p] f = Err EException /\ angular_resolution [] f = Err EValueError.
Proof. exact resolution_alone. Qed.
Print Assumptions C109_alone.
Theorem C109_nan : forall l f, (2 <= length l)%nat ->
  (angular_resolution l f = Ok None <-> forall p q, In p l -> In q l -> p = q).
Proof. exact resolution_nan. Qed.
Print Assumptions C109_nan.
Theorem C109_rigid : forall l l' f, length l = length l' ->
  (forall i j p q p' q', nth_error l i = Some p -> nth_error l j = Some q -> nth_error l' i = Some p' -> nth_error l' j = Some q' -> sq_dist p q = sq_dist p' q') ->
  angular_resolution l f = angular_resolution l' f.
Proof. exact resolution_rigid. Qed.
Print Assumptions C109_rigid.
Theorem C109_set : forall l l' f, (length l = 1%nat <-> length l' = 1%nat) -> (forall p, In p l <-> In p l') -> angular_resolution l f = angular_resolution l' f.
Proof. exact resolution_set. Qed.
Print Assumptions C109_set.
Theorem C109_more : forall l l' f r r', 0 < f -> incl l l' -> angular_resolution l f = Ok (Some r) -> angular_resolution l' f = Ok r' -> exists x, r' = Some x /\ 0 < x <= r.
Proof. exact resolution_more. Qed.
Print Assumptions C109_more.
Theorem C109_frequency : forall l f k r, 0 < f -> 0 < k -> angular_resolution l f = Ok (Some r) ->
  0 < r /\ angular_resolution l (k * f) = Ok (Some (r / k)).
Proof. exact resolution_frequency. Qed.
Print Assumptions C109_frequency.
Theorem C109_confusion : forall l f, 0 < f ->
  (forall e, angular_resolution l f = Err e -> forall b, confusion_noise b l f = Err e) /\
  (angular_resolution l f = Ok None -> forall b, confusion_noise b l f = Ok None) /\
  (forall r, angular_resolution l f = Ok (Some r) -> exists x y, confusion_noise false l f = Ok (Some x) /\ confusion_noise true l f = Ok (Some y) /\
    0 < x /\ 0 < y /\ ln (x / (r * 60) ^ 2 * 5000) = - 7 / 10 * ln (f / 10 ^ 9) /\ ln (y * 10 ^ 6 / 30) = 154 / 100 * ln (r * 3600) - 7 / 10 * ln (f / (74 * 10 ^ 6))).
Proof. exact confusion_value. Qed.
Print Assumptions C109_confusion.
Theorem C109_confusion_frequency : forall l f k x y, 0 < f -> 0 < k -> confusion_noise false l f = Ok (Some x) -> confusion_noise true l f = Ok (Some y) ->
  confusion_noise false l (k * f) = Ok (Some (x * Rpower k (- (27 / 10)))) /\ confusion_noise true l (k * f) = Ok (Some (y * Rpower k (- (224 / 100)))).
Proof. exact confusion_frequency. Qed.
Print Assumptions C109_confusion_frequency.

Example C109_ex : let l := [mkVec 0 0 0; mkVec 3 4 0; mkVec 1 0 0] in
  longest l 5 /\ angular_resolution l 299792458 = Ok (Some (1 / 5 * 180 / PI)) /\ (exists x, confusion_noise false l 299792458 = Ok (Some x)) /\
  nth_error (flatten l) 4 = Some (mkVec 2 4 0).
Proof.
  cbv zeta. assert (L : longest [mkVec 0 0 0; mkVec 3 4 0; mkVec 1 0 0] 5).
  { split; [exists (mkVec 0 0 0), (mkVec 3 4 0); cbn; split; [auto|split; [auto|split; [lra|unfold sq_dist; cbn; ring]]]|].
    intros e (p & q & P & Q & E0 & E). assert (X : sq_dist p q <= 25).
    { cbn in P, Q. decompose [or] P; decompose [or] Q; try contradiction; subst; unfold sq_dist; cbn; lra. }
    assert (e ^ 2 <= 25) by lra. nra. }
  assert (R : angular_resolution [mkVec 0 0 0; mkVec 3 4 0; mkVec 1 0 0] 299792458 = Ok (Some (1 / 5 * 180 / PI))).
  { rewrite (resolution_eq _ 5); [|discriminate|exact L]. unfold rdiv. destruct (Req_EM_T 5 0); [lra|]. cbn [option_map]. unfold wavelength, speed_of_light. replace (299792458 / 299792458) with 1 by field. reflexivity. }
  split; [exact L|]. split; [exact R|]. split.
  - destruct (confusion_value [mkVec 0 0 0; mkVec 3 4 0; mkVec 1 0 0] 299792458) as (_ & _ & C); [lra|]. destruct (C _ R) as (x & y & X & _). eauto.
  - cbn. unfold bsl. cbn. f_equal. apply vec_eq; cbn; ring.
Qed.
