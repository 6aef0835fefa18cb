(** Laws of effective areas. *)
From Coq Require Import Reals Lra Bool List Arith Lia Permutation Psatz.
From Verif Require Import Base M_Polar M_Beam M_Instru M_Area P_Area.
Import ListNotations.
Open Scope R_scope.

(** [l'] is [l] multiplied by [k]. *)
Definition times (k : R) (r r' : res (list R)) : Prop :=
  match r, r' with Ok l, Ok l' => l' = map (Rmult k) l | Err e, Err e' => e = e' | _, _ => False end.
Definition moved (u v w : R) (p : vec) : vec := mkVec (vx p + u) (vy p + v) (vz p + w).
Definition spread (k : R) (p : vec) : vec := mkVec (k * vx p) (k * vy p) (k * vz p).

Lemma count_eq n bx bY bx' bY' ants ants' r r' :
  (forall i j, in_disks ants r (lin (fst bx) (snd bx) n j) (lin (fst bY) (snd bY) n i) = in_disks ants' r' (lin (fst bx') (snd bx') n j) (lin (fst bY') (snd bY') n i)) ->
  grid_count n bx bY ants r = grid_count n bx' bY' ants' r'.
Proof. intro H. unfold grid_count. f_equal. apply filter_ext. intros [i j]. apply H. Qed.
Lemma bool_iff (a b : bool) : (a = true <-> b = true) -> a = b.
Proof. destruct a, b; intros [H K]; auto; [symmetry; apply H; reflexivity]. Qed.
Lemma in_disks_le n n' bx bY bx' bY' ants ants' r r' : n = n' ->
  (forall i j, in_disks ants r (lin (fst bx) (snd bx) n j) (lin (fst bY) (snd bY) n i) = true -> in_disks ants' r' (lin (fst bx') (snd bx') n j) (lin (fst bY') (snd bY') n i) = true) ->
  (grid_count n bx bY ants r <= grid_count n' bx' bY' ants' r')%nat.
Proof.
  intros <- H. unfold grid_count. apply NoDup_incl_length; [apply NoDup_filter, NoDup_list_prod; apply seq_NoDup|]. intros [i j] I. apply filter_In in I. apply filter_In. split; [apply I|]. apply H, I.
Qed.
Lemma resolution_500 : INR resolution = 500.
Proof. unfold resolution. now rewrite INR_IZR_INZ. Qed.
Lemma resolution_pos : 0 < INR resolution - 1.
Proof. rewrite resolution_500. lra. Qed.
Local Opaque grid_count resolution.
Lemma lin_affine k t a b n i : lin (k * a + t) (k * b + t) n i = k * lin a b n i + t.
Proof. unfold lin, Rdiv. ring. Qed.
Lemma largest_affine k t l m : 0 < k -> largest l m -> largest (map (fun x => k * x + t) l) (k * m + t).
Proof.
  intros K [A B]. split; [apply (in_map (fun x => k * x + t)), A|]. intros y I. apply in_map_iff in I. destruct I as (x & <- & I). apply B in I. apply Rplus_le_compat_r, Rmult_le_compat_l; lra.
Qed.
Lemma smallest_affine k t l m : 0 < k -> smallest l m -> smallest (map (fun x => k * x + t) l) (k * m + t).
Proof.
  intros K [A B]. split; [apply (in_map (fun x => k * x + t)), A|]. intros y I. apply in_map_iff in I. destruct I as (x & <- & I). apply B in I. apply Rplus_le_compat_r, Rmult_le_compat_l; lra.
Qed.
Lemma largest_set l l' m : (forall x, In x l <-> In x l') -> largest l m -> largest l' m.
Proof. intros E [A B]. split; [apply E, A|]. intros x I. apply B, E, I. Qed.
Lemma smallest_set l l' m : (forall x, In x l <-> In x l') -> smallest l m -> smallest l' m.
Proof. intros E [A B]. split; [apply E, A|]. intros x I. apply B, E, I. Qed.

(** Moving the whole array changes nothing, vertically or horizontally. *)
Lemma frame_affine ants ants' k u v rm x0 x1 y0 y1 : 0 < k -> frame ants rm x0 x1 y0 y1 ->
  map vx ants' = map (fun x => k * x + u) (map vx ants) -> map vy ants' = map (fun x => k * x + v) (map vy ants) ->
  frame ants' (k * rm) (k * x0 + u) (k * x1 + u) (k * y0 + v) (k * y1 + v).
Proof.
  intros K (A & B & C & D) Ex Ey. unfold frame. rewrite Ex, Ey.
  replace (k * x0 + u + k * rm) with (k * (x0 + rm) + u) by ring. replace (k * x1 + u - k * rm) with (k * (x1 - rm) + u) by ring.
  replace (k * y0 + v + k * rm) with (k * (y0 + rm) + v) by ring. replace (k * y1 + v - k * rm) with (k * (y1 - rm) + v) by ring.
  split; [|split; [|split]]; (apply smallest_affine || apply largest_affine); assumption.
Qed.
Lemma near_affine k u v (g : vec -> vec) ants r x y : 0 < k -> (forall p, vx (g p) = k * vx p + u /\ vy (g p) = k * vy p + v) ->
  near (map g ants) (k * r) (k * x + u) (k * y + v) <-> near ants r x y.
Proof.
  intros K G. unfold near. assert (E : forall p, (vx (g p) - (k * x + u)) ^ 2 + (vy (g p) - (k * y + v)) ^ 2 = k ^ 2 * ((vx p - x) ^ 2 + (vy p - y) ^ 2)).
  { intro p. destruct (G p) as [-> ->]. ring. }
  assert (K2 : 0 < k ^ 2) by (apply pow_lt, K). split.
  - intros (q & I & H). apply in_map_iff in I. destruct I as (p & <- & I). exists p. split; [exact I|]. rewrite E in H. replace ((k * r) ^ 2) with (k ^ 2 * r ^ 2) in H by ring.
    apply Rmult_le_reg_l in H; assumption.
  - intros (p & I & H). exists (g p). split; [apply in_map, I|]. rewrite E. replace ((k * r) ^ 2) with (k ^ 2 * r ^ 2) by ring. apply Rmult_le_compat_l; lra.
Qed.
Lemma area_affine ants fs fs' el k u v g : 0 < k -> (forall p, vx (g p) = k * vx p + u /\ vy (g p) = k * vy p + v) ->
  length fs = length fs' -> map ant_radius fs' = map (Rmult k) (map ant_radius fs) ->
  times (k ^ 2) (ma_area ants fs el) (ma_area (map g ants) fs' el).
Proof.
  intros K G L Hr. destruct fs as [|f0 fs]; [destruct fs'; [reflexivity|discriminate]|].
  destruct ants as [|p0 ants]; [rewrite (area_error [] (f0 :: fs)), (area_error (map g []) fs') by auto; reflexivity|].
  destruct (radius_largest (f0 :: fs)) as (h & Ih & Hh); [discriminate|].
  destruct (frame_exists (p0 :: ants) (ant_radius h)) as (x0 & x1 & y0 & y1 & F); [discriminate|].
  set (A := p0 :: ants) in *. set (FS := f0 :: fs) in *.
  assert (F' : frame (map g A) (k * ant_radius h) (k * x0 + u) (k * x1 + u) (k * y0 + v) (k * y1 + v)).
  { apply (frame_affine A); [assumption|exact F| |]; rewrite !map_map; apply map_ext; intro p; apply G. }
  assert (H' : largest (map ant_radius fs') (k * ant_radius h)).
  { rewrite Hr. destruct Hh as [P Q]. split; [apply in_map, P|]. intros y I. apply in_map_iff in I. destruct I as (x & <- & I). apply Rmult_le_compat_l; [lra|apply Q, I]. }
  rewrite (area_eq _ _ _ _ _ _ _ _ Hh F), (area_eq _ _ _ _ _ _ _ _ H' F'). unfold times. rewrite map_map. apply list_ext_error. intro i. rewrite !nth_error_map.
  assert (Hi : option_map ant_radius (nth_error fs' i) = option_map (fun f => k * ant_radius f) (nth_error FS i)).
  { rewrite <- !nth_error_map, Hr, map_map. reflexivity. }
  destruct (nth_error fs' i) as [f'|] eqn:E', (nth_error FS i) as [f|] eqn:E; try discriminate; [|reflexivity]. cbn [option_map] in *. injection Hi as Hi. f_equal. rewrite Hi.
  rewrite (count_eq resolution (k * x0 + u, k * x1 + u) (k * y0 + v, k * y1 + v) (x0, x1) (y0, y1) (map g A) A (k * ant_radius f) (ant_radius f)).
  - unfold Rdiv. ring.
  - intros a b. cbn [fst snd]. rewrite !lin_affine. apply bool_iff. rewrite !in_disks_spec; [apply near_affine; assumption|apply radius_pos|].
    apply Rmult_le_pos; [lra|apply radius_pos].
Qed.
Lemma times_1 r r' : times 1 r r' -> r' = r.
Proof.
  unfold times. destruct r as [l|e], r' as [l'|e']; try tauto; [|congruence]. intros ->. f_equal. rewrite <- (map_id l) at 2. apply map_ext. intro. ring.
Qed.
Theorem area_moved : forall ants fs el u v w, ma_area (map (moved u v w) ants) fs el = ma_area ants fs el.
Proof.
  intros. apply times_1. replace 1 with (1 ^ 2) by ring. apply (area_affine _ _ _ _ 1 u v); [lra| |reflexivity|].
  - intro p. cbn. lra.
  - rewrite <- (map_id (map ant_radius fs)) at 1. apply map_ext. intro. ring.
Qed.
Lemma radius_scale k f : 0 < k -> 0 < f -> ant_radius (f / k) = k * ant_radius f.
Proof.
  intros K F. unfold ant_radius. replace (wavelength (f / k) ^ 2 / dipole_k / PI) with (k ^ 2 * (wavelength f ^ 2 / dipole_k / PI)).
  - rewrite sqrt_mult_alt by (apply pow2_ge_0). rewrite sqrt_pow2 by lra. reflexivity.
  - unfold wavelength, dipole_k. field. repeat split; (apply PI_neq0 || lra).
Qed.
(** An array [k] times larger at frequencies [k] times lower. *)
Theorem area_scaled : forall ants fs el k, 0 < k -> positive fs ->
  times (k ^ 2) (ma_area ants fs el) (ma_area (map (spread k) ants) (map (fun f => f / k) fs) el).
Proof.
  intros ants fs el k K P. apply (area_affine _ _ _ _ k 0 0); [assumption| |now rewrite map_length|].
  - intro p. cbn. lra.
  - rewrite !map_map. apply map_ext_in. intros f I. apply radius_scale; [assumption|apply P, I].
Qed.
(** Only the places of the antennas seen from above matter, not their order or number. *)
Definition above (p : vec) : R * R := (vx p, vy p).
Theorem area_set : forall ants ants' fs el, (forall q, In q (map above ants) <-> In q (map above ants')) ->
  ma_area ants fs el = ma_area ants' fs el.
Proof.
  intros ants ants' fs el E.
  destruct fs as [|f0 fs]; [reflexivity|]. destruct ants as [|p0 ants].
  { destruct ants' as [|p ?]; [reflexivity|]. exfalso. apply (proj2 (E (above p))). left; reflexivity. }
  destruct (radius_largest (f0 :: fs)) as (h & Ih & Hh); [discriminate|].
  destruct (frame_exists (p0 :: ants) (ant_radius h)) as (x0 & x1 & y0 & y1 & F); [discriminate|].
  set (A := p0 :: ants) in *. set (FS := f0 :: fs) in *.
  assert (Sx : forall x, In x (map vx A) <-> In x (map vx ants')).
  { intro x. assert (G : forall l, In x (map vx l) <-> exists y, In (x, y) (map above l)).
    { intro l. rewrite in_map_iff. split; [intros (p & <- & I); exists (vy p); apply (in_map above), I|]. intros (y & I). apply in_map_iff in I. destruct I as (p & Q & I). exists p. injection Q as <- <-. auto. }
    rewrite !G. split; intros (y & I); exists y; apply E, I. }
  assert (Sy : forall x, In x (map vy A) <-> In x (map vy ants')).
  { intro x. assert (G : forall l, In x (map vy l) <-> exists y, In (y, x) (map above l)).
    { intro l. rewrite in_map_iff. split; [intros (p & <- & I); exists (vx p); apply (in_map above), I|]. intros (y & I). apply in_map_iff in I. destruct I as (p & Q & I). exists p. injection Q as <- <-. auto. }
    rewrite !G. split; intros (y & I); exists y; apply E, I. }
  assert (F' : frame ants' (ant_radius h) x0 x1 y0 y1).
  { destruct F as (a & b & c & d). split; [|split; [|split]]; (eapply smallest_set || eapply largest_set); eassumption. }
  rewrite (area_eq _ _ _ _ _ _ _ _ Hh F), (area_eq _ _ _ _ _ _ _ _ Hh F'). f_equal. apply map_ext. intro f. do 4 f_equal. apply count_eq. intros i j. apply bool_iff.
  rewrite !in_disks_spec by apply radius_pos. unfold near.
  assert (G : forall l x y r, (exists p, In p l /\ (vx p - x) ^ 2 + (vy p - y) ^ 2 <= r) <-> (exists q, In q (map above l) /\ (fst q - x) ^ 2 + (snd q - y) ^ 2 <= r)).
  { intros l x y r. split; [intros (p & I & H); exists (above p); split; [apply in_map, I|exact H]|]. intros (q & I & H). apply in_map_iff in I. destruct I as (p & <- & I). exists p. auto. }
  rewrite !G. split; intros (q & I & H); exists q; split; try assumption; apply E, I.
Qed.

(** Proportional to the sine of the elevation. *)
Theorem area_elevation : forall ants fs el l, ma_area ants fs (PI / 2) = Ok l ->
  ma_area ants fs el = Ok (map (fun a => a * sin el) l) /\ forall a, In a l -> 0 <= a.
Proof.
  intros ants fs el l E. destruct (proj1 (area_defined ants fs (PI / 2))) as [A F]; [eauto|].
  destruct (radius_largest fs F) as (h & Ih & Hh). destruct (frame_exists ants (ant_radius h) A) as (x0 & x1 & y0 & y1 & Fr).
  rewrite (area_eq _ _ _ _ _ _ _ _ Hh Fr) in E. apply f_equal with (f := fun r => match r with Ok x => x | Err _ => [] end) in E. cbv beta iota in E. subst l.
  rewrite (area_eq _ _ _ _ _ _ _ _ Hh Fr), map_map. split.
  - f_equal. apply map_ext. intro f. rewrite sin_PI2. ring.
  - intros a I. apply in_map_iff in I. destruct I as (f & <- & I). rewrite sin_PI2, Rmult_1_r. pose proof (radius_pos h) as Rp.
    destruct Fr as ((a1 & a2) & (b1 & b2) & (c1 & c2) & (d1 & d2)). pose proof (b2 _ a1). pose proof (d2 _ c1).
    pose proof resolution_pos.
    apply Rmult_le_pos; [apply Rmult_le_pos; [apply pos_INR|]|]; apply Rle_mult_inv_pos; lra.
Qed.
(** No larger than the rectangle that holds the disks, but for the edges. *)
Theorem area_bound : forall ants fs l rm x0 x1 y0 y1 a, ma_area ants fs (PI / 2) = Ok l ->
  largest (map ant_radius fs) rm -> frame ants rm x0 x1 y0 y1 -> In a l ->
  0 <= a <= (500 / 499) ^ 2 * ((x1 - x0) * (y1 - y0)).
Proof.
  intros ants fs l rm x0 x1 y0 y1 a E H F I. split; [apply (proj2 (area_elevation ants fs 0 l E)), I|].
  rewrite (area_eq _ _ _ _ _ _ _ _ H F) in E. apply f_equal with (f := fun r => match r with Ok x => x | Err _ => [] end) in E. cbv beta iota in E. subst l.
  apply in_map_iff in I. destruct I as (f & <- & I). rewrite sin_PI2, Rmult_1_r.
  assert (Rp : 0 <= rm). { destruct H as [J _]. apply in_map_iff in J. destruct J as (g & <- & _). apply radius_pos. }
  destruct F as ((a1 & a2) & (b1 & b2) & (c1 & c2) & (d1 & d2)). pose proof (b2 _ a1). pose proof (d2 _ c1).
  pose proof (nodes_bound _ _ _ _ _ _ _ _ (count_spec resolution (x0, x1) (y0, y1) ants (ant_radius f) (radius_pos f))) as B.
  apply le_INR in B. rewrite mult_INR in B. rewrite resolution_500 in *.
  replace ((500 / 499) ^ 2 * ((x1 - x0) * (y1 - y0))) with (500 * 500 * ((x1 - x0) / (500 - 1)) * ((y1 - y0) / (500 - 1))) by field.
  assert (0 <= (x1 - x0) / (500 - 1)) by (apply Rle_mult_inv_pos; lra). assert (0 <= (y1 - y0) / (500 - 1)) by (apply Rle_mult_inv_pos; lra).
  apply Rmult_le_compat_r; [assumption|]. apply Rmult_le_compat_r; assumption.
Qed.
Lemma radius_mono f g : 0 < f -> f <= g -> ant_radius g <= ant_radius f.
Proof.
  intros F L. unfold ant_radius. apply sqrt_le_1_alt. unfold Rdiv. apply Rmult_le_compat_r; [left; apply Rinv_0_lt_compat, PI_RGT_0|].
  apply Rmult_le_compat_r; [left; apply Rinv_0_lt_compat; unfold dipole_k; lra|]. apply pow_incr. unfold wavelength, Rdiv.
  assert (C : 0 < speed_of_light) by (unfold speed_of_light; lra). split.
  - apply Rmult_le_pos; [lra|]. left. apply Rinv_0_lt_compat. lra.
  - apply Rmult_le_compat_l; [lra|]. apply Rinv_le_contravar; assumption.
Qed.
(** Within one call, no larger at a higher frequency. *)
Theorem area_decreasing : forall ants fs el l i j f g a b, 0 <= sin el -> ma_area ants fs el = Ok l ->
  nth_error fs i = Some f -> nth_error fs j = Some g -> nth_error l i = Some a -> nth_error l j = Some b ->
  0 < f -> f <= g -> b <= a.
Proof.
  intros ants fs el l i j f g a b S E Hf Hg Ha Hb P L. destruct (proj1 (area_defined ants fs el)) as [A F]; [eauto|].
  destruct (radius_largest fs F) as (h & Ih & Hh). destruct (frame_exists ants (ant_radius h) A) as (x0 & x1 & y0 & y1 & Fr).
  rewrite (area_eq _ _ _ _ _ _ _ _ Hh Fr) in E. apply f_equal with (f := fun r => match r with Ok x => x | Err _ => [] end) in E. cbv beta iota in E. subst l.
  rewrite nth_error_map, Hf in Ha. rewrite nth_error_map, Hg in Hb. injection Ha as <-. injection Hb as <-.
  pose proof (radius_pos h) as Rp. destruct Fr as ((a1 & a2) & (b1 & b2) & (c1 & c2) & (d1 & d2)). pose proof (b2 _ a1). pose proof (d2 _ c1).
  pose proof resolution_pos.
  apply Rmult_le_compat_r; [assumption|]. apply Rmult_le_compat_r; [apply Rle_mult_inv_pos; lra|]. apply Rmult_le_compat_r; [apply Rle_mult_inv_pos; lra|].
  apply le_INR, in_disks_le; [reflexivity|]. intros u v. cbn [fst snd]. rewrite !in_disks_spec by apply radius_pos. intros (p & I & N). exists p. split; [exact I|].
  eapply Rle_trans; [exact N|]. apply pow_incr. split; [apply radius_pos|apply radius_mono; assumption].
Qed.
