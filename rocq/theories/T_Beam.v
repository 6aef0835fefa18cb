(** C96 to C99: array factor, beams, analog grid and beamforming. *)
From Coq Require Import ZArith Reals Bool List Arith Lia Lra Permutation.
From Verif Require Import Base M_Polar M_Xst M_Analog M_Beam P_Beam P_Beam2 P_Beam3.
Import ListNotations.
Open Scope list_scope.
Open Scope R_scope.

(** * C96: the array factor *)
Theorem C96_delay : forall p az el az0 el0,
  geometric_delay p (ground_projection az el) (ground_projection az0 el0) = vdot p (vsub (enu az el) (enu az0 el0)).
Proof. exact delay_enu. Qed.
Print Assumptions C96_delay.
Theorem C96_normalised : forall ants f s p, ants <> [] ->
  exists q, af_power false ants f s p = Some q /\ af_power true ants f s p = Some (q / INR (length ants) ^ 2).
Proof. exact af_normalised. Qed.
Print Assumptions C96_normalised.
Theorem C96_no_antenna : forall f s p, af_power true [] f s p = None /\ af_power false [] f s p = Some 0.
Proof. exact af_no_antenna. Qed.
Print Assumptions C96_no_antenna.
Theorem C96_bounds : forall ants f s p q, legal ants -> af_power false ants f s p = Some q ->
  0 <= q <= rsum (weights ants) ^ 2.
Proof. exact af_bounds. Qed.
Print Assumptions C96_bounds.
Theorem C96_bounds_normalised : forall ants f s p q, legal ants -> af_power true ants f s p = Some q -> 0 <= q <= 1.
Proof. exact af_bounds_normalised. Qed.
Print Assumptions C96_bounds_normalised.
Theorem C96_centre : forall ants f p d, (forall a, In a ants -> a_delay a = d) ->
  af_power false ants f p p = Some (rsum (weights ants) ^ 2).
Proof. exact af_centre. Qed.
Print Assumptions C96_centre.
Theorem C96_centre_one : forall ants f p d, ants <> [] -> (forall a, In a ants -> a_delay a = d /\ a_weight a = 1) ->
  af_power true ants f p p = Some 1.
Proof. exact af_centre_one. Qed.
Print Assumptions C96_centre_one.
Theorem C96_maximum : forall normalize ants f p d s q c, legal ants -> (forall a, In a ants -> a_delay a = d) ->
  af_power normalize ants f s p = Some q -> af_power normalize ants f p p = Some c -> q <= c.
Proof. exact af_maximum. Qed.
Print Assumptions C96_maximum.
Theorem C96_moved : forall normalize ants f s p t,
  af_power normalize (map (moved t) ants) f s p = af_power normalize ants f s p.
Proof. exact af_moved. Qed.
Print Assumptions C96_moved.
Theorem C96_delayed : forall normalize ants f s p d,
  af_power normalize (map (delayed d) ants) f s p = af_power normalize ants f s p.
Proof. exact af_delayed. Qed.
Print Assumptions C96_delayed.
Theorem C96_order : forall normalize a b f s p, Permutation a b ->
  af_complex normalize a f s p = af_complex normalize b f s p.
Proof. exact af_order. Qed.
Print Assumptions C96_order.
Theorem C96_union : forall a b f s p z w, af_complex false a f s p = Some z -> af_complex false b f s p = Some w ->
  af_complex false (a ++ b) f s p = Some (cplus z w).
Proof. exact af_union. Qed.
Print Assumptions C96_union.
Theorem C96_exchanged : forall normalize ants f s p, (forall a, In a ants -> a_delay a = 0) ->
  af_power normalize ants f s p = af_power normalize ants f p s.
Proof. exact af_exchanged. Qed.
Print Assumptions C96_exchanged.
Theorem C96_one : forall normalize a f s p, af_power normalize [a] f s p = Some (a_weight a ^ 2).
Proof. exact af_one. Qed.
Print Assumptions C96_one.
Theorem C96_scaled : forall normalize ants f s p k, f <> 0 -> k <> 0 ->
  af_power normalize (map (scaled k) ants) (f / k) s p = af_power normalize ants f s p.
Proof. exact af_scaled. Qed.
Print Assumptions C96_scaled.
Theorem C96_silent : forall ants f s p a q, ants <> [] -> a_weight a = 0 ->
  af_power true ants f s p = Some q ->
  af_power true (a :: ants) f s p = Some (q * (INR (length ants) / INR (S (length ants))) ^ 2).
Proof. exact af_silent. Qed.
Print Assumptions C96_silent.

(** Two antennas half a wavelength apart, East to West: nothing from the East when they
    point to the zenith. *)
Definition pair_ew : list antenna := [mkAnt (mkVec 0 0 0) 0 1; mkAnt (mkVec (speed_of_light / 2) 0 0) 0 1].
Example C96_ex : legal pair_ew /\ (forall a, In a pair_ew -> a_delay a = 0 /\ a_weight a = 1) /\
  af_power true pair_ew 1 (ground_projection 0 (PI / 2)) (ground_projection 0 (PI / 2)) = Some 1 /\
  af_power true pair_ew 1 (ground_projection (PI / 2) 0) (ground_projection 0 (PI / 2)) = Some 0.
Proof.
  assert (H : forall a, In a pair_ew -> a_delay a = 0 /\ a_weight a = 1) by (intros a [<-|[<-|[]]]; split; reflexivity).
  split; [repeat constructor; cbn; lra|]. split; [exact H|]. split; [apply (af_centre_one pair_ew 1 _ 0); [discriminate|exact H]|].
  rewrite af_true by discriminate. f_equal. unfold af_sum, pair_ew, af_phase. cbn [map a_pos a_delay a_weight length]. rewrite !delay_path. unfold path. cbn [vx vy vz].
  unfold wavelength, speed_of_light. rewrite sin_PI2, cos_PI2, sin_0, cos_0.
  match goal with |- power (csum [cscale 1 (cis ?x); cscale 1 (cis ?y)]) / _ = 0 => replace x with 0 by field; replace y with PI by field end.
  unfold cis, power, csum, cscale, cplus, re, im. cbn [fold_right fst snd]. rewrite cos_0, sin_0, cos_PI, sin_PI. cbn. field.
Qed.

(** * C97: the beams *)
Theorem C97_bounds : forall ants gains f s p q, legal ants -> Forall (fun x => 0 <= x <= 1) gains ->
  beam_power true ants gains f s p = Some q -> 0 <= q <= 1.
Proof. exact beam_bounds. Qed.
Print Assumptions C97_bounds.
Theorem C97_centre : forall ants gains f p d g, ants <> [] -> gains <> [] ->
  (forall a, In a ants -> a_delay a = d /\ a_weight a = 1) -> (forall x, In x gains -> x = g) ->
  beam_power true ants gains f p p = Some g.
Proof. exact beam_centre. Qed.
Print Assumptions C97_centre.
Theorem C97_square : forall normalize ants gains f s p z g, beam_complex normalize ants gains f s p = Some z ->
  mean_gain gains = Some g ->
  exists q, beam_power normalize ants gains f s p = Some q /\ power z = q * g.
Proof. exact beam_square. Qed.
Print Assumptions C97_square.
Theorem C97_square_refuted : exists ants gains f s p z q, legal ants /\ Forall (fun x => 0 <= x <= 1) gains /\
  beam_complex true ants gains f s p = Some z /\ beam_power true ants gains f s p = Some q /\ power z <> q.
Proof. exact beam_square_refuted. Qed.
Print Assumptions C97_square_refuted.
Theorem C97_grouped : forall rotations gain, rotations <> [] ->
  (forall i j, (i < length rotations)%nat -> (j < length rotations)%nat ->
     (nth i rotations 0 mod 60 = nth j rotations 0 mod 60)%Z -> gain i = gain j) ->
  mean_gain (map gain (seq 0 (length rotations))) = Some (grouped_gain rotations gain).
Proof. exact grouped_mean. Qed.
Print Assumptions C97_grouped.
Theorem C97_not_normalised : forall ants rotations gain f s p q, ants <> [] -> af_power false ants f s p = Some q ->
  nenufar_value false ants rotations gain f s p = Some (q * grouped_gain rotations (gain false) / INR (length ants) ^ 2).
Proof. exact not_normalised. Qed.
Print Assumptions C97_not_normalised.
Theorem C97_not_normalised_refuted : exists ants rotations gain f s p q v, legal ants /\ length rotations = length ants /\
  af_power false ants f s p = Some q /\ nenufar_value false ants rotations gain f s p = Some v /\
  v <> q * grouped_gain rotations (gain false).
Proof. exact not_normalised_refuted. Qed.
Print Assumptions C97_not_normalised_refuted.

Definition rots : list Z := [10; 70; 30; 250; 30]%Z.
Example C97_ex : unique_values (map (fun r => r mod 60)%Z rots) = [10; 30]%Z /\ count 10 (map (fun r => r mod 60)%Z rots) = 3%nat /\
  (forall i j, (i < length rots)%nat -> (j < length rots)%nat -> (nth i rots 0 mod 60 = nth j rots 0 mod 60)%Z ->
     IZR (nth i rots 0 mod 60)%Z = IZR (nth j rots 0 mod 60)%Z) /\
  grouped_gain rots (fun k => IZR (nth k rots 0 mod 60)%Z) = 18.
Proof.
  split; [reflexivity|]. split; [reflexivity|]. split; [intros i j _ _ ->; reflexivity|].
  unfold grouped_gain, rsum. cbn. lra.
Qed.

(** * C98: directions of the analog grid *)
Theorem C98_cosines : forall rotation k1 k2, direction k1 k2 = Steps k1 k2 ->
  vx (azel rotation (direction k1 k2)) = - step * (IZR k1 * cos rotation + IZR k2 * sin rotation) /\
  vy (azel rotation (direction k1 k2)) = - step * (IZR k2 * cos rotation - IZR k1 * sin rotation) /\
  vz (azel rotation (direction k1 k2)) = sqrt (1 - step ^ 2 * (IZR k1 ^ 2 + IZR k2 ^ 2)).
Proof. exact grid_cosines. Qed.
Print Assumptions C98_cosines.
Theorem C98_nadir : forall rotation k1 k2, direction k1 k2 = Nadir ->
  azel rotation (direction k1 k2) = mkVec 0 0 (-1) /\ snd (dir_azel rotation (direction k1 k2)) = - (PI / 2) /\
  1 < step ^ 2 * (IZR k1 ^ 2 + IZR k2 ^ 2).
Proof. exact grid_nadir. Qed.
Print Assumptions C98_nadir.
Theorem C98_azimuth : forall rotation d, 0 <= fst (dir_azel rotation d) < 2 * PI.
Proof. exact grid_range. Qed.
Print Assumptions C98_azimuth.
Theorem C98_elevation : forall rotation k1 k2, direction k1 k2 = Steps k1 k2 ->
  0 <= snd (dir_azel rotation (direction k1 k2)) <= PI / 2.
Proof. exact grid_elevation. Qed.
Print Assumptions C98_elevation.
Theorem C98_lower : forall rotation k1 k2 l1 l2, direction k1 k2 = Steps k1 k2 -> direction l1 l2 = Steps l1 l2 ->
  (k1 * k1 + k2 * k2 < l1 * l1 + l2 * l2)%Z ->
  snd (dir_azel rotation (direction l1 l2)) < snd (dir_azel rotation (direction k1 k2)).
Proof. exact grid_lower. Qed.
Print Assumptions C98_lower.
Theorem C98_rotation : forall rotation d k1 k2, d = direction k1 k2 -> d = Steps k1 k2 ->
  snd (dir_azel rotation d) = snd (dir_azel 0 d) /\
  exists k : Z, fst (dir_azel rotation d) = fst (dir_azel 0 d) + rotation + 2 * PI * IZR k.
Proof. exact grid_rotation. Qed.
Print Assumptions C98_rotation.
Theorem C98_opposite : forall rotation k1 k2, direction k1 k2 = Steps k1 k2 ->
  let a := azel rotation (direction k1 k2) in let b := azel rotation (direction (- k1) (- k2)) in
  vx b = - vx a /\ vy b = - vy a /\ vz b = vz a.
Proof. exact grid_opposite. Qed.
Print Assumptions C98_opposite.
Theorem C98_zenith : forall rotation, azel rotation (direction 0 0) = mkVec 0 0 1.
Proof. exact grid_zenith. Qed.
Print Assumptions C98_zenith.
Theorem C98_regular : forall rotation k1 k2, direction k1 k2 = Steps k1 k2 -> direction (k1 + 1) k2 = Steps (k1 + 1) k2 ->
  let a := azel rotation (direction k1 k2) in let b := azel rotation (direction (k1 + 1) k2) in
  vx b - vx a = - step * cos rotation /\ vy b - vy a = step * sin rotation.
Proof. exact grid_regular. Qed.
Print Assumptions C98_regular.

Example C98_ex : grid 63 127 = Steps 63 0 /\ direction 63 0 = Steps 63 0 /\ direction 62 0 = Steps 62 0 /\ grid 0 0 = Nadir /\
  vx (azel 0 (grid 63 127)) = - (189 / 200) /\ vy (azel 0 (grid 63 127)) = 0.
Proof.
  split; [reflexivity|]. split; [reflexivity|]. split; [reflexivity|]. split; [reflexivity|].
  destruct (grid_cosines 0 63 0 eq_refl) as (A & B & _). change (grid 63 127) with (direction 63 0). rewrite A, B, sin_0, cos_0. unfold step. lra.
Qed.

(** * C99: beamforming of the cross-correlations *)
Theorem C99_signal : forall total positions file sel samples cal f g, NoDup file ->
  (forall k, In k sel -> (k < total)%nat -> In k file) ->
  let ids := real_indices total sel in let places := ma_indices file ids in
  length ids = length places /\
  beamform total positions file sel (correlations samples (length file)) (Some cal) f g =
  Ok (rsum (map (fun e => power (csum (map (fun p => cmult (cmult (cal (fst p)) (steering f g (positions (snd p)))) (e (snd p)))
       (combine ids places)))) samples)).
Proof. exact beamform_signal. Qed.
Print Assumptions C99_signal.
Theorem C99_whole : forall total n positions sel samples cal f g, (n <= total)%nat -> (forall k, In k sel -> (k < n)%nat) ->
  beamform total positions (seq 0 n) sel (correlations samples n) (Some cal) f g =
  Ok (rsum (map (steered (real_indices n sel) (fun a => cmult (cal a) (steering f g (positions a)))) samples)).
Proof. exact beamform_whole. Qed.
Print Assumptions C99_whole.
Theorem C99_positive : forall total positions file sel samples cal f g v,
  beamform total positions file sel (correlations samples (length file)) cal f g = Ok v -> 0 <= v.
Proof. exact beamform_positive. Qed.
Print Assumptions C99_positive.
Theorem C99_none : forall total positions file sel samples f g, NoDup file ->
  (forall k, In k sel -> (k < total)%nat -> In k file) ->
  beamform total positions file sel (correlations samples (length file)) None f g =
  beamform total positions file sel (correlations samples (length file)) (Some (fun _ => (1, 0))) f g.
Proof. exact beamform_none. Qed.
Print Assumptions C99_none.
Theorem C99_missing : forall total positions file sel vis cal f g k, In k sel -> (k < total)%nat -> ~ In k file ->
  beamform total positions file sel vis cal f g = Err EIndexError.
Proof. exact beamform_missing. Qed.
Print Assumptions C99_missing.
Theorem C99_accepted : forall total positions file sel vis cal f g, NoDup file ->
  (forall k, In k sel -> (k < total)%nat -> In k file) ->
  exists v, beamform total positions file sel vis cal f g = Ok v.
Proof. exact beamform_accepted. Qed.
Print Assumptions C99_accepted.
Theorem C99_coherent : forall total n positions sel amplitudes f g, (n <= total)%nat -> (forall k, In k sel -> (k < n)%nat) ->
  beamform total positions (seq 0 n) sel
    (correlations (map (fun s a => cmult s (cconj (steering f g (positions a)))) amplitudes) n) None f g =
  Ok (INR (length (real_indices n sel)) ^ 2 * rsum (map power amplitudes)).
Proof. exact beamform_coherent. Qed.
Print Assumptions C99_coherent.
Theorem C99_at_most : forall total n positions sel samples q f g v, (n <= total)%nat -> (forall k, In k sel -> (k < n)%nat) ->
  0 <= q -> (forall e a, In e samples -> In a sel -> power (e a) <= q ^ 2) ->
  beamform total positions (seq 0 n) sel (correlations samples n) None f g = Ok v ->
  v <= INR (length (real_indices n sel)) ^ 2 * (q ^ 2 * INR (length samples)).
Proof. exact beamform_at_most. Qed.
Print Assumptions C99_at_most.
Theorem C99_mirror : forall p q az el,
  bf_dphi p q (ground_projection az el) = vdot (vsub p q) (enu (- az) el).
Proof. exact beamform_mirror. Qed.
Print Assumptions C99_mirror.
Theorem C99_mirror_refuted : exists p q az el, 0 <= el <= PI / 2 /\
  bf_dphi p q (ground_projection az el) <> vdot (vsub p q) (enu az el) /\
  geometric_delay p (ground_projection az el) (ground_projection 0 (PI / 2)) - geometric_delay q (ground_projection az el) (ground_projection 0 (PI / 2))
    = vdot (vsub p q) (vsub (enu az el) (enu 0 (PI / 2))).
Proof. exact beamform_mirror_refuted. Qed.
Print Assumptions C99_mirror_refuted.
Theorem C99_places_refuted : exists total positions file sel samples f g v, NoDup file /\
  (forall k, In k sel -> (k < total)%nat /\ In k file) /\
  beamform total positions file sel (correlations samples (length file)) None f g = Ok v /\
  v <> rsum (map (fun e => steered (seq 0 (length file)) (fun i => steering f g (positions (nth i file 0%nat))) e) samples) /\
  sel = file.
Proof. exact beamform_places_refuted. Qed.
Print Assumptions C99_places_refuted.

Definition flat (a : nat) : vec := mkVec (INR a) 0 0.
Example C99_ex : real_indices 4 [2; 0]%nat = [0; 2]%nat /\ ma_indices [0; 1; 2]%nat [0; 2]%nat = [0; 2]%nat /\
  (forall k, In k [2; 0]%nat -> (k < 3)%nat) /\
  beamform 4 flat (seq 0 3) [2; 0]%nat (correlations [fun a => (INR a + 1, 0)] 3) None 1 (mkVec 0 0 1) = Ok 16 /\
  beamform 4 flat (seq 0 3) [3; 0]%nat (correlations [fun a => (INR a + 1, 0)] 3) None 1 (mkVec 0 0 1) = Err EIndexError.
Proof.
  split; [reflexivity|]. split; [reflexivity|]. split; [intros k [<-|[<-|[]]]; lia|]. split.
  - etransitivity; [apply (beamform_none 4 flat (seq 0 3) [2; 0]%nat [fun a => (INR a + 1, 0)] 1 (mkVec 0 0 1) (seq_NoDup 3 0)); intros k [<-|[<-|[]]] _; cbn; lia|].
    etransitivity; [apply (beamform_whole 4 3 flat [2; 0]%nat [fun a => (INR a + 1, 0)] (fun _ => (1, 0)) 1 (mkVec 0 0 1)); [lia|intros k [<-|[<-|[]]]; lia]|].
    f_equal. change (real_indices 3 [2; 0]%nat) with [0; 2]%nat. unfold steered. cbn [map].
    assert (S : forall a, steering 1 (mkVec 0 0 1) (flat a) = (1, 0)).
    { intros a. unfold steering, vdot, vmat, flat, bf_rotation. cbn [vx vy vz row0 row1 row2].
      match goal with |- cis ?x = _ => replace x with 0 by ring end. unfold cis. now rewrite cos_0, sin_0. }
    rewrite !S. unfold power, rsum, csum, cplus, cmult, re, im. cbn [fold_right fst snd INR]. ring.
  - apply (beamform_missing 4 flat (seq 0 3) [3; 0]%nat _ None 1 _ 3); [now left|lia|]. intros I. apply in_seq in I. lia.
Qed.
