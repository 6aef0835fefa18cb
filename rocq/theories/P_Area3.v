(** Areas of one antenna, of several frequencies, of NenuFAR; positions of the antennas. *)
From Coq Require Import ZArith Reals Lra Bool List Arith Lia Permutation Psatz Machin AltSeries Ratan.
From Verif Require Import Base M_Polar M_Beam M_Instru M_Area P_Area P_Area2.
Import ListNotations.
Open Scope R_scope.
Local Opaque grid_count resolution.

(** ** One antenna *)
Definition inside (ij : Z * Z) : bool := ((499 - 2 * fst ij) ^ 2 + (499 - 2 * snd ij) ^ 2 <=? 499 ^ 2)%Z.
Fixpoint zrange (a : Z) (n : nat) : list Z := match n with O => [] | S n => a :: zrange (a + 1)%Z n end.
Definition inside_count : Z := fold_left (fun c i => fold_left (fun c j => if inside (i, j) then (c + 1)%Z else c) (zrange 0 500) c) (zrange 0 500) 0%Z.
Lemma inside_value : inside_count = 195496%Z.
Proof. vm_compute. reflexivity. Qed.
Lemma zrange_seq : forall n a, zrange (Z.of_nat a) n = map Z.of_nat (seq a n).
Proof. induction n as [|n IH]; intro a; [reflexivity|]. cbn [zrange seq map]. rewrite <- IH. do 2 f_equal. lia. Qed.
Lemma fold_count {A} (f : A -> bool) : forall l c, fold_left (fun c j => if f j then (c + 1)%Z else c) l c = (c + Z.of_nat (length (filter f l)))%Z.
Proof. induction l as [|x l IH]; intro c; cbn [fold_left filter]; [symmetry; apply Z.add_0_r|]. rewrite IH. destruct (f x); cbn [length]; lia. Qed.
Lemma length_filter_prod {A B} (f : A * B -> bool) l m : Z.of_nat (length (filter f (list_prod l m))) =
  fold_left (fun c i => (c + Z.of_nat (length (filter (fun j => f (i, j)) m)))%Z) l 0%Z.
Proof.
  assert (E : forall k c, fold_left (fun c i => (c + Z.of_nat (length (filter (fun j => f (i, j)) m)))%Z) k c = (c + Z.of_nat (length (filter f (list_prod k m))))%Z).
  { induction k as [|x l' IH]; intro c; cbn [fold_left list_prod]; [symmetry; apply Z.add_0_r|]. rewrite IH, filter_app, app_length.
    replace (length (filter f (map (fun y => (x, y)) m))) with (length (filter (fun j => f (x, j)) m)); [lia|].
    clear. induction m as [|y m IH]; [reflexivity|]. cbn [map filter]. destruct (f (x, y)); cbn [length]; congruence. }
  rewrite E. lia.
Qed.
Lemma inside_lists l m : fold_left (fun c i => fold_left (fun c j => if inside (i, j) then (c + 1)%Z else c) (map Z.of_nat m) c) (map Z.of_nat l) 0%Z =
  Z.of_nat (length (filter (fun ij => inside (Z.of_nat (fst ij), Z.of_nat (snd ij))) (list_prod l m))).
Proof.
  rewrite length_filter_prod. generalize 0%Z. induction l as [|i l IH]; intro c; [reflexivity|]. cbn [map fold_left fst snd]. rewrite fold_count, IH. f_equal. f_equal. f_equal.
  clear. induction m as [|j m IH]; [reflexivity|]. cbn [map filter]. destruct (inside (Z.of_nat i, Z.of_nat j)); cbn [length]; congruence.
Qed.
Lemma inside_length : Z.of_nat (length (filter (fun ij => inside (Z.of_nat (fst ij), Z.of_nat (snd ij))) (list_prod (seq 0 500) (seq 0 500)))) = 195496%Z.
Proof. rewrite <- inside_value, <- inside_lists. unfold inside_count. change 0%Z with (Z.of_nat 0). now rewrite zrange_seq. Qed.
Lemma disk_inside p r : 0 < r -> forall ij, in_disks [p] r (lin (vx p - r) (vx p + r) 500 (snd ij)) (lin (vy p - r) (vy p + r) 500 (fst ij)) = inside (Z.of_nat (fst ij), Z.of_nat (snd ij)).
Proof.
  intros Hr [i j]. cbn [fst snd]. apply bool_iff. rewrite in_disks_spec by lra. unfold inside. cbn [fst snd]. rewrite Z.leb_le.
  rewrite !lin_node by lia. unfold near, node. replace (INR 500 - 1) with 499 by (rewrite INR_IZR_INZ; cbn; lra).
  assert (E : (vx p - (vx p - r + INR j * (vx p + r - (vx p - r)) / 499)) ^ 2 + (vy p - (vy p - r + INR i * (vy p + r - (vy p - r)) / 499)) ^ 2
    = r ^ 2 * (IZR ((499 - 2 * Z.of_nat i) ^ 2 + (499 - 2 * Z.of_nat j) ^ 2) / 499 ^ 2)).
  { rewrite plus_IZR, !(Z.pow_2_r), !mult_IZR, !minus_IZR, !mult_IZR, <- !INR_IZR_INZ. field. }
  assert (R2 : 0 < r ^ 2) by (apply pow_lt, Hr). split.
  - intros (q & [<-|[]] & H). rewrite E in H. apply le_IZR. assert (IZR ((499 - 2 * Z.of_nat i) ^ 2 + (499 - 2 * Z.of_nat j) ^ 2) / 499 ^ 2 <= 1) by (apply (Rmult_le_reg_l (r ^ 2)); lra).
    change (IZR (499 ^ 2)) with 249001. lra.
  - intro H. exists p. split; [left; reflexivity|]. rewrite E. apply IZR_le in H. change (IZR (499 ^ 2)) with 249001 in H. rewrite <- (Rmult_1_r (r ^ 2)) at 2. apply Rmult_le_compat_l; lra.
Qed.
Lemma count_inside n p r : n = 500%nat -> 0 < r -> grid_count n (vx p - r, vx p + r) (vy p - r, vy p + r) [p] r =
  length (filter (fun ij => inside (Z.of_nat (fst ij), Z.of_nat (snd ij))) (list_prod (seq 0 n) (seq 0 n))).
Proof.
  intros E Hr. Local Transparent grid_count. unfold grid_count. Local Opaque grid_count. f_equal. apply filter_ext. intro ij. rewrite E. apply disk_inside, Hr.
Qed.
Lemma count_length n : n = 500%nat -> Z.of_nat (length (filter (fun ij => inside (Z.of_nat (fst ij), Z.of_nat (snd ij))) (list_prod (seq 0 n) (seq 0 n)))) = 195496%Z.
Proof. intros ->. exact inside_length. Qed.
Lemma one_count n p r : n = 500%nat -> 0 < r -> INR (grid_count n (vx p - r, vx p + r) (vy p - r, vy p + r) [p] r) = 195496.
Proof.
  intros E Hr. rewrite count_inside by assumption. rewrite INR_IZR_INZ. now rewrite count_length.
Qed.
Lemma resolution_eq : resolution = 500%nat. Proof. Local Transparent resolution. reflexivity. Local Opaque resolution. Qed.
Lemma one_frame p r : frame [p] r (vx p - r) (vx p + r) (vy p - r) (vy p + r).
Proof.
  unfold frame. cbn [map]. replace (vx p - r + r) with (vx p) by ring. replace (vx p + r - r) with (vx p) by ring. replace (vy p - r + r) with (vy p) by ring. replace (vy p + r - r) with (vy p) by ring.
  repeat split; cbn; auto; intros x [<-|[]]; lra.
Qed.
Lemma one_largest x : largest [x] x.
Proof. split; [left; reflexivity|]. intros y [<-|[]]. lra. Qed.
Lemma radius_lt f : 0 < f -> 0 < ant_radius f.
Proof.
  intro F. unfold ant_radius. apply sqrt_lt_R0. apply Rdiv_lt_0_compat; [apply Rdiv_lt_0_compat|apply PI_RGT_0]; [|unfold dipole_k; lra].
  apply pow_lt. unfold wavelength. apply Rdiv_lt_0_compat; [unfold speed_of_light; lra|exact F].
Qed.
Lemma radius_sq f : ant_radius f ^ 2 = wavelength f ^ 2 / 3 / PI.
Proof.
  unfold ant_radius, dipole_k. rewrite <- Rsqr_pow2, Rsqr_sqrt; [reflexivity|].
  apply Rle_mult_inv_pos; [apply Rle_mult_inv_pos; [apply pow2_ge_0|lra]|apply PI_RGT_0].
Qed.
(** The disk has [195496] points of the grid. *)
Theorem area_one : forall p f el, 0 < f ->
  ma_area [p] [f] el = Ok [195496 * 4 / 499 ^ 2 / PI * (wavelength f ^ 2 / 3) * sin el].
Proof.
  intros p f el F. rewrite (area_eq [p] [f] el _ _ _ _ _ (one_largest _) (one_frame p _)). cbn [map]. rewrite one_count by (apply resolution_eq || apply radius_lt, F). rewrite resolution_500. do 2 f_equal.
  replace (195496 * ((vx p + ant_radius f - (vx p - ant_radius f)) / (500 - 1)) * ((vy p + ant_radius f - (vy p - ant_radius f)) / (500 - 1)) * sin el)
    with (195496 * 4 / 499 ^ 2 * ant_radius f ^ 2 * sin el) by field.
  rewrite radius_sq. field. apply PI_neq0.
Qed.
Lemma pi_bounds : 314 / 100 < PI < 31416 / 10000.
Proof.
  pose proof (PI_2_3_7_ineq 3) as [A B]. 
  change (2*3)%nat with 6%nat in *. unfold tg_alt, PI_2_3_7_tg, Ratan_seq, sum_f_R0 in A, B. cbn [Nat.mul Nat.add pow] in A, B. repeat rewrite INR_IZR_INZ in A. repeat rewrite INR_IZR_INZ in B. cbn [Z.of_nat Pos.of_succ_nat Pos.succ] in A, B.
  split; lra.
Qed.
(** Within 0.1 percent of a third of the squared wavelength. *)
Theorem area_one_accuracy : forall p f el a, 0 < f -> 0 <= sin el -> ma_area [p] [f] el = Ok [a] ->
  999 / 1000 * (wavelength f ^ 2 / 3 * sin el) <= a <= 1001 / 1000 * (wavelength f ^ 2 / 3 * sin el).
Proof.
  intros p f el a F S E. rewrite area_one in E by exact F. apply f_equal with (f := fun r => match r with Ok (x :: _) => x | _ => 0 end) in E. cbv beta iota in E. subst a. pose proof pi_bounds as [P Q].
  set (t := wavelength f ^ 2 / 3 * sin el). assert (T : 0 <= t) by (apply Rmult_le_pos; [apply Rle_mult_inv_pos; [apply pow2_ge_0|lra]|exact S]).
  assert (H : 999 / 1000 <= 195496 * 4 / 499 ^ 2 / PI <= 1001 / 1000).
  { split; [apply (Rmult_le_reg_r PI); [lra|]|apply (Rmult_le_reg_r PI); [lra|]]; replace (195496 * 4 / 499 ^ 2 / PI * PI) with (195496 * 4 / 499 ^ 2) by (field; lra); lra. }
  assert (E : 195496 * 4 / 499 ^ 2 / PI * (wavelength f ^ 2 / 3) * sin el = 195496 * 4 / 499 ^ 2 / PI * t) by (unfold t; ring). rewrite E.
  split; (apply Rmult_le_compat_r; [exact T|lra]).
Qed.

(** ** Several frequencies *)
(** The value at the lowest frequency does not depend on the others. *)
Theorem area_lowest : forall ants fs el l i f a, ma_area ants fs el = Ok l ->
  nth_error fs i = Some f -> nth_error l i = Some a -> 0 < f -> (forall g, In g fs -> f <= g) ->
  ma_area ants [f] el = Ok [a].
Proof.
  intros ants fs el l i f a E Hf Ha P L. destruct (proj1 (area_defined ants fs el)) as [A F]; [eauto|].
  assert (Hh : largest (map ant_radius fs) (ant_radius f)).
  { split; [apply in_map, (nth_error_In _ _ Hf)|]. intros x I. apply in_map_iff in I. destruct I as (g & <- & I). apply radius_mono; auto. }
  destruct (frame_exists ants (ant_radius f) A) as (x0 & x1 & y0 & y1 & Fr).
  rewrite (area_eq _ _ _ _ _ _ _ _ Hh Fr) in E. apply f_equal with (f := fun r => match r with Ok x => x | Err _ => [] end) in E. cbv beta iota in E. subst l.
  rewrite nth_error_map, Hf in Ha. injection Ha as <-. now rewrite (area_eq _ [f] _ _ _ _ _ _ (one_largest _) Fr).
Qed.
(** That at another one does: with a frequency 500 times lower in the same call, the grid
    is too coarse and the area of an antenna is zero. *)
Theorem area_lost : forall p f g el, 0 < g -> 500 * g <= f ->
  exists b, ma_area [p] [g; f] el = Ok [b; 0].
Proof.
  intros p f g el G L.
  assert (Hh : largest (map ant_radius [g; f]) (ant_radius g)).
  { split; [left; reflexivity|]. intros x [<-|[<-|[]]]; [lra|]. apply radius_mono; lra. }
  rewrite (area_eq [p] [g; f] el _ _ _ _ _ Hh (one_frame p _)). cbn [map]. eexists. do 2 f_equal.
  replace (grid_count resolution (vx p - ant_radius g, vx p + ant_radius g) (vy p - ant_radius g, vy p + ant_radius g) [p] (ant_radius f)) with 0%nat; [cbn [INR]; f_equal; ring|].
  destruct (count_spec 500 (vx p - ant_radius g, vx p + ant_radius g) (vy p - ant_radius g, vy p + ant_radius g) [p] (ant_radius f) (radius_pos f)) as (l & _ & E & H).
  rewrite resolution_eq, <- E. destruct l as [|[i j] l]; [reflexivity|]. exfalso.
  destruct (proj1 (H i j) (or_introl eq_refl)) as (_ & _ & (q & [<-|[]] & N)). cbn [fst snd] in N. unfold node in N.
  replace (INR 500 - 1) with 499 in N by (rewrite INR_IZR_INZ; cbn; lra).
  assert (R : ant_radius f <= ant_radius g / 500).
  { replace (ant_radius g / 500) with (/ 500 * ant_radius g) by field. rewrite <- radius_scale by lra. apply radius_mono; lra. }
  pose proof (radius_pos f) as P0. pose proof (radius_lt g G) as P1.
  assert (Nsq : ant_radius f ^ 2 <= (ant_radius g / 500) ^ 2) by (apply pow_incr; lra).
  replace (vx p - (vx p - ant_radius g + INR j * (vx p + ant_radius g - (vx p - ant_radius g)) / 499)) with (ant_radius g / 499 * IZR (499 - 2 * Z.of_nat j)) in N
    by (rewrite minus_IZR, mult_IZR, <- INR_IZR_INZ; field).
  replace (vy p - (vy p - ant_radius g + INR i * (vy p + ant_radius g - (vy p - ant_radius g)) / 499)) with (ant_radius g / 499 * IZR (499 - 2 * Z.of_nat i)) in N
    by (rewrite minus_IZR, mult_IZR, <- INR_IZR_INZ; field).
  assert (O : 1 <= IZR (499 - 2 * Z.of_nat j) ^ 2).
  { replace (IZR (499 - 2 * Z.of_nat j) ^ 2) with (IZR ((499 - 2 * Z.of_nat j) * (499 - 2 * Z.of_nat j))) by (rewrite mult_IZR; ring). apply IZR_le.
    assert (499 - 2 * Z.of_nat j <> 0)%Z by lia. nia. }
  pose proof (pow2_ge_0 (ant_radius g / 499 * IZR (499 - 2 * Z.of_nat i))) as Z2.
  replace ((ant_radius g / 499 * IZR (499 - 2 * Z.of_nat j)) ^ 2) with (ant_radius g ^ 2 / 249001 * IZR (499 - 2 * Z.of_nat j) ^ 2) in N by field.
  assert (G2 : 0 < ant_radius g ^ 2) by (apply pow_lt, P1).
  assert (ant_radius g ^ 2 / 249001 * 1 <= ant_radius g ^ 2 / 249001 * IZR (499 - 2 * Z.of_nat j) ^ 2) by (apply Rmult_le_compat_l; lra).
  replace ((ant_radius g / 500) ^ 2) with (ant_radius g ^ 2 / 250000) in Nsq by field. lra.
Qed.
Theorem area_call_refuted : exists p f g el a, ma_area [p] [f] el = Ok [a] /\ ma_area [p] [g; f] el <> Ok [a; a] /\ (forall b, ma_area [p] [g; f] el <> Ok [b; a]).
Proof.
  exists (mkVec 0 0 0), 50000, 100, (PI / 2), (195496 * 4 / 499 ^ 2 / PI * (wavelength 50000 ^ 2 / 3) * sin (PI / 2)).
  assert (A : ma_area [mkVec 0 0 0] [50000] (PI / 2) = Ok [195496 * 4 / 499 ^ 2 / PI * (wavelength 50000 ^ 2 / 3) * sin (PI / 2)]) by (apply area_one; lra).
  destruct (area_lost (mkVec 0 0 0) 50000 100 (PI / 2)) as (b & E); [lra|lra|].
  assert (P : 0 < 195496 * 4 / 499 ^ 2 / PI * (wavelength 50000 ^ 2 / 3) * sin (PI / 2)).
  { rewrite sin_PI2. pose proof PI_RGT_0. assert (0 < / PI) by (apply Rinv_0_lt_compat; assumption). assert (0 < wavelength 50000 ^ 2 / 3) by (apply Rdiv_lt_0_compat; [apply pow_lt; unfold wavelength, speed_of_light; lra|lra]).
    rewrite Rmult_1_r. apply Rmult_lt_0_compat; [|assumption]. unfold Rdiv. apply Rmult_lt_0_compat; [|assumption]. lra. }
  split; [exact A|]. rewrite E. split; [|intro c]; intro Q; apply f_equal with (f := fun r => match r with Ok [_; x] => x | _ => 0 end) in Q; cbv beta iota in Q; lra.
Qed.

(** ** More antennas *)
(** Antennas added inside the rectangle of the others do not decrease the area. *)
Theorem area_more : forall ants more fs el l l' i a b, 0 <= sin el ->
  (forall q, In q more -> exists p p' s s', In p ants /\ In p' ants /\ In s ants /\ In s' ants /\ vx p <= vx q <= vx p' /\ vy s <= vy q <= vy s') ->
  ma_area ants fs el = Ok l -> ma_area (ants ++ more) fs el = Ok l' ->
  nth_error l i = Some a -> nth_error l' i = Some b -> a <= b.
Proof.
  intros ants more fs el l l' i a b S M E E' Ha Hb. destruct (proj1 (area_defined ants fs el)) as [A F]; [eauto|].
  destruct (radius_largest fs F) as (h & Ih & Hh). destruct (frame_exists ants (ant_radius h) A) as (x0 & x1 & y0 & y1 & Fr).
  assert (Fr' : frame (ants ++ more) (ant_radius h) x0 x1 y0 y1).
  { destruct Fr as ((a1 & a2) & (b1 & b2) & (c1 & c2) & (d1 & d2)). unfold frame. rewrite !map_app. repeat split; try (apply in_or_app; left; assumption).
    - intros x I. apply in_app_or in I. destruct I as [I|I]; [auto|]. apply in_map_iff in I. destruct I as (q & <- & I). destruct (M q I) as (p & p' & s & s' & P & P' & Q & Q' & X & Y). pose proof (a2 _ (in_map vx _ _ P)). lra.
    - intros x I. apply in_app_or in I. destruct I as [I|I]; [auto|]. apply in_map_iff in I. destruct I as (q & <- & I). destruct (M q I) as (p & p' & s & s' & P & P' & Q & Q' & X & Y). pose proof (b2 _ (in_map vx _ _ P')). lra.
    - intros x I. apply in_app_or in I. destruct I as [I|I]; [auto|]. apply in_map_iff in I. destruct I as (q & <- & I). destruct (M q I) as (p & p' & s & s' & P & P' & Q & Q' & X & Y). pose proof (c2 _ (in_map vy _ _ Q)). lra.
    - intros x I. apply in_app_or in I. destruct I as [I|I]; [auto|]. apply in_map_iff in I. destruct I as (q & <- & I). destruct (M q I) as (p & p' & s & s' & P & P' & Q & Q' & X & Y). pose proof (d2 _ (in_map vy _ _ Q')). lra. }
  rewrite (area_eq _ _ _ _ _ _ _ _ Hh Fr) in E. rewrite (area_eq _ _ _ _ _ _ _ _ Hh Fr') in E'.
  apply f_equal with (f := fun r => match r with Ok x => x | Err _ => [] end) in E. cbv beta iota in E. subst l.
  apply f_equal with (f := fun r => match r with Ok x => x | Err _ => [] end) in E'. cbv beta iota in E'. subst l'.
  rewrite nth_error_map in Ha, Hb. destruct (nth_error fs i) as [f|]; [|discriminate]. cbn [option_map] in Ha, Hb. injection Ha as <-. injection Hb as <-.
  pose proof (radius_pos h) as Rp. destruct Fr as ((a1 & a2) & (b1 & b2) & (c1 & c2) & (d1 & d2)). pose proof (b2 _ a1). pose proof (d2 _ c1). pose proof resolution_pos.
  apply Rmult_le_compat_r; [assumption|]. apply Rmult_le_compat_r; [apply Rle_mult_inv_pos; lra|]. apply Rmult_le_compat_r; [apply Rle_mult_inv_pos; lra|].
  apply le_INR, in_disks_le; [reflexivity|]. intros u v. cbn [fst snd]. rewrite !in_disks_spec by apply radius_pos. intros (p & I & N). exists p. split; [apply in_or_app; left; exact I|exact N].
Qed.
