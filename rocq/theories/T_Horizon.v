(** Properties of the positions of targets for schedules (C232 to C235). *)
From Coq Require Import QArith Qround Lqa Reals Lra Bool.
From Verif Require Import M_Horizon P_Horizon P_Horizon2.
Open Scope Q_scope.

(** ** C232: sidereal time *)
Theorem C232_sidereal : forall lon jd, - (24) < lon -> lon < 24 ->
  (exists k : Z, sidereal lon jd == turned lon jd - 24 * inject_Z k) /\ 0 <= sidereal lon jd /\ (0 <= lon -> lon <= sidereal lon jd /\ sidereal lon jd < 24 + lon) /\ (lon <= 0 -> sidereal lon jd < 24).
Proof. exact sidereal_exact. Qed.
Print Assumptions C232_sidereal.
Theorem C232_day_refuted : forall lon, 0 < lon -> lon < 24 -> exists jd, 24 <= sidereal lon jd.
Proof. exact sidereal_day_refuted. Qed.
Print Assumptions C232_day_refuted.
Example C232_ex : - (24) < nenufar_lon /\ 0 < nenufar_lon /\ nenufar_lon < 24 /\ 0 < sidereal nenufar_lon 2459000 /\ sidereal nenufar_lon 2459000 < 24.
Proof. repeat split; vm_compute; reflexivity. Qed.

(** ** C233: hour angle and transits *)
Theorem C233_hour_angle : forall lst ra, 0 <= lst -> lst < 48 -> 0 <= ra -> ra < 360 ->
  (exists k : Z, hour_angle lst ra == 15 * lst - ra - 360 * inject_Z k) /\ 0 <= hour_angle lst ra /\ hour_angle lst ra <= 360 /\ (hour_angle lst ra == 360 <-> 15 * lst - ra == 360).
Proof. exact hour_angle_exact. Qed.
Print Assumptions C233_hour_angle.
Theorem C233_transit : forall lon ra j1 j2, - (24) < lon -> lon < 24 -> 0 <= ra -> ra < 360 -> j1 < j2 -> (2406570982441908 # 100000000000000) * (j2 - j1) < 24 ->
  ~ angle lon ra j1 == 360 -> ~ angle lon ra j2 == 360 ->
  (angle lon ra j2 < angle lon ra j1 <-> exists j, j1 < j /\ j <= j2 /\ meridian lon ra j).
Proof. exact transit_found. Qed.
Print Assumptions C233_transit.
Example C233_ex : hour_angle 3 40 == 5 /\ hour_angle 1 40 == 335 /\ hour_angle (241 # 10) 0 == (3 # 2) /\ hour_angle 24 0 == 360
  /\ angle nenufar_lon (835 # 10) (24590001 # 10) < angle nenufar_lon (835 # 10) 2459000.
Proof. repeat split; vm_compute; reflexivity. Qed.

(** ** C234: horizontal coordinates *)
Open Scope R_scope.
Theorem C234_direction : forall lat dec ha, - (PI / 2) < lat < PI / 2 -> - (PI / 2) <= dec <= PI / 2 ->
  let el := elevation lat dec ha in
  - (PI / 2) <= el <= PI / 2 /\ sin el = up lat dec ha /\
  match azimuth lat dec ha with
  | Some az => 0 <= az <= 2 * PI /\ cos el * cos az = north lat dec ha /\ cos el * sin az = east dec ha
  | None => north lat dec ha = 0 /\ east dec ha = 0
  end.
Proof. exact direction. Qed.
Print Assumptions C234_direction.
(** A source of the equator at the meridian is in the south. *)
Example C234_ex : exists az, azimuth (PI / 4) 0 0 = Some az /\ cos az < 0 /\ sin az = 0.
Proof.
  pose proof PI_RGT_0 as P. destruct (C234_direction (PI / 4) 0 0 ltac:(lra) ltac:(lra)) as (_ & _ & H). destruct (culmination (PI / 4) 0 0 ltac:(lra) ltac:(lra)) as (_ & _ & E). rewrite (Rabs_right (PI / 4 - 0)) in E by lra.
  pose proof (sin_gt_0 (PI / 4) ltac:(lra) ltac:(lra)) as S. pose proof (cos_gt_0 (PI / 2 - (PI / 4 - 0)) ltac:(lra) ltac:(lra)) as C. unfold north, east in H. rewrite sin_0, cos_0 in H.
  destruct (azimuth (PI / 4) 0 0) as [az|]; [|lra]. exists az. split; [reflexivity|]. rewrite E in H. destruct H as (_ & N & W). split; [|apply (Rmult_eq_reg_l (cos (PI / 2 - (PI / 4 - 0)))); lra].
  destruct (Rlt_or_le (cos az) 0) as [X|X]; [exact X|]. pose proof (Rmult_le_pos _ _ (Rlt_le _ _ C) X). lra.
Qed.

(** ** C235: culmination, circumpolar targets, direction of motion *)
Theorem C235_culmination : forall lat dec ha, - (PI / 2) <= lat <= PI / 2 -> - (PI / 2) <= dec <= PI / 2 ->
  elevation lat dec ha <= elevation lat dec 0 /\ elevation lat dec PI <= elevation lat dec ha /\ elevation lat dec 0 = PI / 2 - Rabs (lat - dec).
Proof. exact culmination. Qed.
Print Assumptions C235_culmination.
Theorem C235_circumpolar : forall lat dec, 0 < lat < PI / 2 -> - (PI / 2) <= dec <= PI / 2 -> dec + lat <> PI / 2 ->
  (circumpolar lat dec <-> forall ha, 0 < elevation lat dec ha).
Proof. exact circumpolar_exact. Qed.
Print Assumptions C235_circumpolar.
Theorem C235_eastward : forall lat dec m h a1 a2, 0 < lat < PI / 2 -> - (PI / 2) < dec -> dec < lat -> 0 < h -> h < PI -> sin dec * cos lat < cos dec * sin lat * cos h -> - sin dec * cos lat < cos dec * sin lat * cos h ->
  azimuth lat dec (m - h) = Some a1 -> azimuth lat dec (m + h) = Some a2 -> 0 < sin (a2 - a1).
Proof. exact eastward. Qed.
Print Assumptions C235_eastward.
Example C235_ex : circumpolar (PI / 4) (PI / 3) /\ ~ circumpolar (PI / 4) 0 /\ 0 < elevation (PI / 4) (PI / 3) 2
  /\ sin 0 * cos (PI / 4) < cos 0 * sin (PI / 4) * cos (PI / 3) /\ - sin 0 * cos (PI / 4) < cos 0 * sin (PI / 4) * cos (PI / 3).
Proof.
  pose proof PI_RGT_0 as P. assert (C : circumpolar (PI / 4) (PI / 3)) by (unfold circumpolar; lra). split; [exact C|]. split; [unfold circumpolar; lra|]. split.
  - apply (C235_circumpolar (PI / 4) (PI / 3)); [lra|lra| |exact C]. apply Rgt_not_eq. lra.
  - pose proof (sin_gt_0 (PI / 4) ltac:(lra) ltac:(lra)) as S. pose proof (cos_gt_0 (PI / 3) ltac:(lra) ltac:(lra)) as D. rewrite sin_0, cos_0. pose proof (Rmult_lt_0_compat _ _ S D). split; lra.
Qed.
