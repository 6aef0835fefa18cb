(** Positions of targets for schedules: horizontal coordinates. *)
From Coq Require Import Reals Lra Psatz.
From Verif Require Import M_Horizon.
Open Scope R_scope.

(** The direction of a target in the local frame: north, east and up *)
Definition north (lat dec ha : R) : R := sin dec * cos lat - cos dec * sin lat * cos ha.
Definition east (dec ha : R) : R := - (cos dec * sin ha).
Definition up (lat dec ha : R) : R := sin dec * sin lat + cos dec * cos lat * cos ha.
Lemma sc : forall x, sin x * sin x + cos x * cos x = 1.
Proof. intro x. pose proof (sin2_cos2 x) as H. unfold Rsqr in H. exact H. Qed.
Lemma sum_zero : forall a b, a * a + b * b = 0 -> a = 0 /\ b = 0.
Proof. intros a b H. pose proof (Rle_0_sqr a) as A. pose proof (Rle_0_sqr b) as B. unfold Rsqr in A, B. split; apply Rsqr_0_uniq; unfold Rsqr; lra. Qed.
Lemma square_le : forall a b, 0 <= b -> a * a <= b * b -> - b <= a <= b.
Proof. intros a b B H. split; nra. Qed.
Lemma unit_length : forall lat dec ha, north lat dec ha * north lat dec ha + east dec ha * east dec ha + up lat dec ha * up lat dec ha = 1.
Proof.
  intros. unfold north, east, up. pose proof (sc lat) as L. pose proof (sc dec) as D. pose proof (sc ha) as H.
  replace ((sin dec * cos lat - cos dec * sin lat * cos ha) * (sin dec * cos lat - cos dec * sin lat * cos ha) + - (cos dec * sin ha) * - (cos dec * sin ha) + (sin dec * sin lat + cos dec * cos lat * cos ha) * (sin dec * sin lat + cos dec * cos lat * cos ha))
    with ((sin lat * sin lat + cos lat * cos lat) * (sin dec * sin dec + cos dec * cos dec * (cos ha * cos ha)) + cos dec * cos dec * (sin ha * sin ha)) by ring.
  rewrite L. replace (1 * (sin dec * sin dec + cos dec * cos dec * (cos ha * cos ha)) + cos dec * cos dec * (sin ha * sin ha)) with (sin dec * sin dec + cos dec * cos dec * (sin ha * sin ha + cos ha * cos ha)) by ring. rewrite H. lra.
Qed.
Lemma up_range : forall lat dec ha, -1 <= up lat dec ha <= 1.
Proof. intros. pose proof (unit_length lat dec ha). split; nra. Qed.
Lemma sin_el : forall lat dec ha, sin (elevation lat dec ha) = up lat dec ha.
Proof. intros. unfold elevation. apply sin_asin. exact (up_range lat dec ha). Qed.
Lemma el_range : forall lat dec ha, - (PI / 2) <= elevation lat dec ha <= PI / 2.
Proof. intros. unfold elevation. pose proof (asin_bound (sin dec * sin lat + cos dec * cos lat * cos ha)). lra. Qed.
Lemma cos_el_pos : forall lat dec ha, 0 <= cos (elevation lat dec ha).
Proof. intros. apply cos_ge_0; apply (el_range lat dec ha). Qed.
Lemma cos_el2 : forall lat dec ha, cos (elevation lat dec ha) * cos (elevation lat dec ha) = north lat dec ha * north lat dec ha + east dec ha * east dec ha.
Proof. intros. pose proof (sc (elevation lat dec ha)) as H. rewrite sin_el in H. pose proof (unit_length lat dec ha). lra. Qed.
Lemma cosine : forall lat dec ha, sin dec - sin (elevation lat dec ha) * sin lat = cos lat * north lat dec ha.
Proof. intros. rewrite sin_el. unfold up, north. pose proof (sc lat) as L. replace (sin dec - (sin dec * sin lat + cos dec * cos lat * cos ha) * sin lat) with (sin dec * (1 - sin lat * sin lat) - cos dec * cos lat * sin lat * cos ha) by ring. replace (1 - sin lat * sin lat) with (cos lat * cos lat) by lra. ring. Qed.

Theorem direction : forall lat dec ha, - (PI / 2) < lat < PI / 2 -> - (PI / 2) <= dec <= PI / 2 ->
  let el := elevation lat dec ha in
  - (PI / 2) <= el <= PI / 2 /\ sin el = up lat dec ha /\
  match azimuth lat dec ha with
  | Some az => 0 <= az <= 2 * PI /\ cos el * cos az = north lat dec ha /\ cos el * sin az = east dec ha
  | None => north lat dec ha = 0 /\ east dec ha = 0
  end.
Proof.
  intros lat dec ha L D el. split; [apply el_range|]. split; [apply sin_el|]. unfold azimuth. fold el. pose proof (cos_gt_0 lat ltac:(lra) ltac:(lra)) as CL. pose proof (cos_ge_0 dec ltac:(lra) ltac:(lra)) as CD.
  pose proof (cos_el2 lat dec ha) as C2. pose proof (cos_el_pos lat dec ha) as CP. pose proof (cosine lat dec ha) as CO. fold el in C2, CP, CO.
  destruct (Req_EM_T (cos el * cos lat) 0) as [Z|Z].
  - assert (E : cos el = 0) by (destruct (Rmult_integral _ _ Z); [assumption|lra]). rewrite E in C2. apply sum_zero. lra.
  - assert (P : 0 < cos el) by (destruct CP as [CP|CP]; [exact CP|exfalso; apply Z; rewrite <- CP; ring]).
    assert (Q : (sin dec - sin el * sin lat) / (cos el * cos lat) = north lat dec ha / cos el) by (rewrite CO; field; split; apply Rgt_not_eq; assumption). rewrite Q. clear Q CO. set (c := north lat dec ha / cos el).
    assert (N : cos el * c = north lat dec ha) by (unfold c; field; apply Rgt_not_eq; assumption). clearbody c. rewrite <- N in C2.
    assert (B : -1 <= c <= 1). { apply square_le; [lra|]. assert (cos el * cos el * (c * c) <= cos el * cos el * 1) by nra. assert (0 < cos el * cos el) by nra. nra. }
    destruct (Rle_dec (-1) c) as [_|X]; [|exfalso; apply X; tauto]. destruct (Rle_dec c 1) as [_|X]; [|exfalso; apply X; tauto]. pose proof (acos_bound c) as AB. pose proof (cos_acos c B) as CA.
    assert (SP : 0 <= sin (acos c)) by (apply sin_ge_0; lra). assert (S2 : (cos el * sin (acos c)) * (cos el * sin (acos c)) = east dec ha * east dec ha).
    { pose proof (sc (acos c)) as H. rewrite CA in H. replace (cos el * sin (acos c) * (cos el * sin (acos c))) with (cos el * cos el * (sin (acos c) * sin (acos c))) by ring. replace (sin (acos c) * sin (acos c)) with (1 - c * c) by lra. nra. }
    assert (T0 : 0 <= cos el * sin (acos c)) by nra. destruct (Rlt_dec 0 (sin ha)) as [G|G].
    + split; [lra|]. replace (- acos c + 2 * PI) with (- acos c + 2 * INR 1 * PI) by (cbn; ring). rewrite cos_period, sin_period, cos_neg, sin_neg, CA. split; [exact N|]. assert (E : east dec ha <= 0) by (unfold east; nra). nra.
    + split; [lra|]. rewrite CA. split; [exact N|]. assert (E : 0 <= east dec ha) by (unfold east; nra). nra.
Qed.
(** A target is highest at the meridian, and there it is as far from the zenith as its declination
    from the latitude. *)
Theorem culmination : forall lat dec ha, - (PI / 2) <= lat <= PI / 2 -> - (PI / 2) <= dec <= PI / 2 ->
  elevation lat dec ha <= elevation lat dec 0 /\ elevation lat dec PI <= elevation lat dec ha /\ elevation lat dec 0 = PI / 2 - Rabs (lat - dec).
Proof.
  intros lat dec ha L D. pose proof (cos_ge_0 lat ltac:(lra) ltac:(lra)) as CL. pose proof (cos_ge_0 dec ltac:(lra) ltac:(lra)) as CD. pose proof (COS_bound ha) as CH. assert (P : 0 <= cos dec * cos lat) by nra.
  assert (Mono : forall h k, up lat dec h <= up lat dec k -> elevation lat dec h <= elevation lat dec k).
  { intros h k H. pose proof (el_range lat dec h) as R1. pose proof (el_range lat dec k) as R2. destruct (Rle_or_lt (elevation lat dec h) (elevation lat dec k)) as [X|X]; [exact X|]. exfalso.
    pose proof (sin_increasing_1 (elevation lat dec k) (elevation lat dec h) ltac:(lra) ltac:(lra) ltac:(lra) ltac:(lra) X) as Y. rewrite !sin_el in Y. lra. }
  split; [apply Mono; unfold up; rewrite cos_0; nra|]. split; [apply Mono; unfold up; rewrite cos_PI; nra|].
  assert (E : sin dec * sin lat + cos dec * cos lat * cos 0 = sin (PI / 2 - Rabs (lat - dec))).
  { rewrite cos_0. rewrite sin_shift. replace (cos (Rabs (lat - dec))) with (cos (lat - dec)) by (unfold Rabs; destruct (Rcase_abs (lat - dec)); [rewrite <- cos_neg; reflexivity|reflexivity]). rewrite cos_minus. ring. }
  unfold elevation. rewrite E. apply asin_sin. unfold Rabs. destruct (Rcase_abs (lat - dec)); lra.
Qed.
Theorem circumpolar_exact : forall lat dec, 0 < lat < PI / 2 -> - (PI / 2) <= dec <= PI / 2 -> dec + lat <> PI / 2 ->
  (circumpolar lat dec <-> forall ha, 0 < elevation lat dec ha).
Proof.
  intros lat dec L D N. unfold circumpolar.
  assert (Low : sin (elevation lat dec PI) = - cos (dec + lat)) by (rewrite sin_el; unfold up; rewrite cos_PI, cos_plus; ring).
  pose proof (el_range lat dec PI) as R. split.
  - intros C ha. destruct (culmination lat dec ha ltac:(lra) D) as (_ & M & _). assert (0 < elevation lat dec PI); [|lra].
    assert (S : 0 < sin (elevation lat dec PI)) by (rewrite Low; pose proof (cos_lt_0 (dec + lat) ltac:(lra) ltac:(lra)); lra).
    destruct (Rlt_or_le 0 (elevation lat dec PI)) as [X|X]; [exact X|]. exfalso. pose proof (sin_ge_0 (- elevation lat dec PI) ltac:(lra) ltac:(pose proof PI_RGT_0; lra)) as Y. rewrite sin_neg in Y. lra.
  - intros H. specialize (H PI). destruct (Rlt_or_le (PI / 2) (dec + lat)) as [X|X]; [exact X|]. exfalso.
    assert (S : 0 < sin (elevation lat dec PI)) by (apply sin_gt_0; [exact H|pose proof PI_RGT_0; lra]). rewrite Low in S. pose proof (cos_ge_0 (dec + lat) ltac:(lra) ltac:(lra)). lra.
Qed.
(** The azimuth turns eastwards if the target culminates south of the zenith, for short steps. *)
Theorem eastward : forall lat dec m h a1 a2, 0 < lat < PI / 2 -> - (PI / 2) < dec -> dec < lat -> 0 < h -> h < PI -> sin dec * cos lat < cos dec * sin lat * cos h -> - sin dec * cos lat < cos dec * sin lat * cos h ->
  azimuth lat dec (m - h) = Some a1 -> azimuth lat dec (m + h) = Some a2 -> 0 < sin (a2 - a1).
Proof.
  intros lat dec m h a1 a2 L D1 D2 H1 H2 T T' A1 A2. assert (DD : - (PI / 2) <= dec <= PI / 2) by lra.
  destruct (direction lat dec (m - h) ltac:(lra) DD) as (_ & _ & X1). destruct (direction lat dec (m + h) ltac:(lra) DD) as (_ & _ & X2). rewrite A1 in X1. rewrite A2 in X2. destruct X1 as (_ & N1 & E1), X2 as (_ & N2 & E2).
  set (c1 := cos (elevation lat dec (m - h))) in *. set (c2 := cos (elevation lat dec (m + h))) in *. assert (P1 : 0 <= c1) by apply cos_el_pos. assert (P2 : 0 <= c2) by apply cos_el_pos.
  pose proof (cos_gt_0 lat ltac:(lra) ltac:(lra)) as CL. pose proof (sin_gt_0 lat ltac:(lra) ltac:(pose proof PI_RGT_0; lra)) as SL. pose proof (cos_gt_0 dec ltac:(lra) ltac:(lra)) as CD. pose proof (sin_gt_0 h H1 H2) as SH. pose proof (COS_bound m) as CM.
  assert (K : c1 * c2 * sin (a2 - a1) = 2 * cos dec * sin h * (cos dec * sin lat * cos h - sin dec * cos lat * cos m)).
  { rewrite sin_minus. replace (c1 * c2 * (sin a2 * cos a1 - cos a2 * sin a1)) with ((c1 * cos a1) * (c2 * sin a2) - (c2 * cos a2) * (c1 * sin a1)) by ring. rewrite N1, N2, E1, E2. unfold north, east. rewrite (cos_minus m h), (cos_plus m h), (sin_minus m h), (sin_plus m h).
    pose proof (sc m) as SM. replace (cos dec * sin lat * cos h) with (cos dec * sin lat * cos h * (sin m * sin m + cos m * cos m)) by (rewrite SM; ring). ring. }
  assert (Q : 0 < cos dec * sin lat * cos h - sin dec * cos lat * cos m).
  { replace (- sin dec * cos lat) with (- (sin dec * cos lat)) in T' by ring. set (a := sin dec * cos lat) in *. destruct (Rle_or_lt 0 a); nra. }
  assert (0 < c1 * c2 * sin (a2 - a1)) by (rewrite K; apply Rmult_lt_0_compat; [nra|exact Q]).
  destruct (Rlt_or_le 0 (sin (a2 - a1))) as [Y|Y]; [exact Y|]. exfalso. assert (0 <= c1 * c2) by nra. nra.
Qed.
