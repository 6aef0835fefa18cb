(** Baselines, resolution, confusion; consequences for NenuFAR. *)
From Coq Require Import ZArith Reals Bool List Arith Lia Lra Permutation.
From Verif Require Import Base M_Polar M_Beam M_Xst P_Xst M_Instru M_Area P_Area P_Area2 P_Area3 P_Area4 M_Sefd P_Sefd P_Sefd2.
Import ListNotations.
Open Scope list_scope.
Open Scope R_scope.
Local Opaque grid_count resolution.

(** ** Baselines *)
Definition vadd (a b : vec) : vec := mkVec (vx a + vx b) (vy a + vy b) (vz a + vz b).
Lemma vec_eq a b : vx a = vx b -> vy a = vy b -> vz a = vz b -> a = b.
Proof. destruct a, b. cbn. congruence. Qed.
Theorem bsl_value : forall l i j p q, nth_error l i = Some p -> nth_error l j = Some q -> vadd p (bsl l i j) = q.
Proof. intros l i j p q P Q. unfold bsl. rewrite (nth_error_nth _ _ _ P), (nth_error_nth _ _ _ Q). apply vec_eq; cbn; ring. Qed.
Theorem bsl_closure : forall l i j k, vadd (bsl l i j) (bsl l j k) = bsl l i k /\ vadd (bsl l i j) (bsl l j i) = mkVec 0 0 0.
Proof. intros. split; apply vec_eq; cbn; ring. Qed.
Theorem flatten_value : forall l i j p q, nth_error l i = Some p -> nth_error l j = Some q -> (j <= i)%nat ->
  exists b, nth_error (flatten l) (i * (i + 1) / 2 + j) = Some b /\ vadd p b = q.
Proof.
  intros l i j p q P Q H. assert (I := nth_some _ _ _ P). exists (bsl l i j). split; [|now apply bsl_value].
  assert (T := tril_nth (length l) i j (0, 0)%nat H I). assert (B := vis_no_bound (length l) i j H I). unfold flatten.
  rewrite (map_nth_error (fun p => bsl l (fst p) (snd p)) _ _ (d := (i, j))); [reflexivity|].
  rewrite <- T. now apply nth_error_nth'.
Qed.
Theorem flatten_length : forall l, length (flatten l) = (length l * (length l + 1) / 2)%nat.
Proof. intros. unfold flatten. now rewrite map_length, tril_length. Qed.

(** ** Resolution *)
(** The baselines of an array, by its positions. *)
Definition apart (l : list vec) (d : R) : Prop := exists p q, In p l /\ In q l /\ 0 <= d /\ d ^ 2 = sq_dist p q.
Definition longest (l : list vec) (d : R) : Prop := apart l d /\ forall e, apart l e -> e <= d.
Lemma norm_bsl p q : 0 <= norm (vsub q p) /\ norm (vsub q p) ^ 2 = sq_dist p q.
Proof.
  unfold norm. split; [apply sqrt_pos|]. rewrite pow2_sqrt; [unfold sq_dist, vsub; cbn [vx vy vz]; ring|].
  assert (A := pow2_ge_0 (vx (vsub q p))). assert (B := pow2_ge_0 (vy (vsub q p))). assert (C := pow2_ge_0 (vz (vsub q p))). lra.
Qed.
Lemma in_distances l d : In d (distances l) <-> apart l d.
Proof.
  unfold distances. rewrite in_flat_map. split.
  - intros (i & I & H). apply in_map_iff in H. destruct H as (j & <- & J). apply in_seq in I, J. unfold bsl.
    exists (nth i l (mkVec 0 0 0)), (nth j l (mkVec 0 0 0)). split; [apply nth_In; lia|]. split; [apply nth_In; lia|]. apply norm_bsl.
  - intros (p & q & P & Q & D & E). apply (In_nth _ _ (mkVec 0 0 0)) in P, Q. destruct P as (i & I & P). destruct Q as (j & J & Q).
    exists i. split; [apply in_seq; lia|]. apply in_map_iff. exists j. split; [|apply in_seq; lia]. unfold bsl. rewrite P, Q. destruct (norm_bsl p q) as [N M].
    apply Rsqr_inj; [exact N|exact D|]. unfold Rsqr. replace (norm (vsub q p) * norm (vsub q p)) with (norm (vsub q p) ^ 2) by ring. rewrite M, <- E. ring.
Qed.
Lemma longest_largest l d : longest l d <-> largest (distances l) d.
Proof.
  unfold longest, largest. rewrite in_distances. split; intros [A B]; (split; [exact A|]); intros e E; apply B; [now apply in_distances in E|now apply in_distances].
Qed.
Lemma distances_some l : l <> [] -> distances l <> [].
Proof.
  intros N E. destruct l as [|p l]; [now elim N|]. assert (H : In 0 (distances (p :: l))); [|rewrite E in H; destruct H].
  apply in_distances. exists p, p. split; [now left|]. split; [now left|]. split; [lra|]. unfold sq_dist. ring.
Qed.
(** Same result for the same longest baseline. *)
Lemma resolution_eq l d f : length l <> 1%nat -> longest l d ->
  angular_resolution l f = Ok (option_map (fun x => x * 180 / PI) (rdiv (wavelength f) d)).
Proof.
  intros N D. unfold angular_resolution. destruct (Nat.eqb_spec (length l) 1) as [E|E]; [congruence|]. apply longest_largest in D. rewrite (rmax_of _ _ D). reflexivity.
Qed.
Lemma longest_exists l : l <> [] -> exists d, longest l d.
Proof. intro N. destruct (rmax_spec (distances l) (distances_some l N)) as (m & _ & H). exists m. now apply longest_largest. Qed.
Lemma longest_unique l d e : longest l d -> longest l e -> d = e.
Proof. intros [A B] [C D]. apply Rle_antisym; auto. Qed.
Theorem resolution_value : forall l f, (2 <= length l)%nat ->
  exists d r, longest l d /\ angular_resolution l f = Ok r /\ quotient (299792458 / f * 180) (d * PI) r.
Proof.
  intros l f H. destruct (longest_exists l) as [d D]; [intros ->; cbn in H; lia|]. exists d. eexists. split; [exact D|]. split; [apply resolution_eq; [lia|exact D]|].
  assert (P := PI_RGT_0). unfold rdiv, wavelength, speed_of_light. destruct (Req_EM_T d 0) as [->|E].
  - left. split; [ring|reflexivity].
  - right. split; [intro X; apply Rmult_integral in X; lra|]. eexists. split; [reflexivity|]. set (w := 299792458 / f). field. lra.
Qed.
Theorem resolution_alone : forall p f, angular_resolution [p] f = Err EException /\ angular_resolution [] f = Err EValueError.
Proof. intros. split; reflexivity. Qed.
Theorem resolution_nan : forall l f, (2 <= length l)%nat ->
  (angular_resolution l f = Ok None <-> forall p q, In p l -> In q l -> p = q).
Proof.
  intros l f H. destruct (longest_exists l) as [d D]; [intros ->; cbn in H; lia|]. rewrite (resolution_eq l d f); [|lia|exact D]. split.
  - intros E p q P Q. unfold rdiv in E. destruct (Req_EM_T d 0) as [Z|Z]; [|discriminate]. destruct D as [_ D]. destruct (norm_bsl p q) as [N M].
    specialize (D (norm (vsub q p))). assert (A : apart l (norm (vsub q p))) by (exists p, q; auto). apply D in A. subst d. assert (X : norm (vsub q p) = 0) by lra.
    rewrite X in M. unfold sq_dist in M. assert (A1 := pow2_ge_0 (vx p - vx q)). assert (A2 := pow2_ge_0 (vy p - vy q)). assert (A3 := pow2_ge_0 (vz p - vz q)).
    assert (S : forall u v, (u - v) ^ 2 = 0 -> u = v). { intros u v S. assert (T : (u - v) * (u - v) = 0) by lra. apply Rmult_integral in T. lra. }
    apply vec_eq; apply S; lra.
  - intro E. destruct D as [(p & q & P & Q & D0 & D1) _]. rewrite (E p q P Q) in D1. assert (d = 0). { replace (sq_dist q q) with 0 in D1 by (unfold sq_dist; ring). assert (T : d * d = 0) by lra. apply Rmult_integral in T. lra. }
    subst d. unfold rdiv. destruct (Req_EM_T 0 0); [reflexivity|congruence].
Qed.
(** Only the set of the lengths matters: any displacement, rotation, mirror or order. *)
Theorem resolution_rigid : forall l l' f, length l = length l' ->
  (forall i j p q p' q', nth_error l i = Some p -> nth_error l j = Some q -> nth_error l' i = Some p' -> nth_error l' j = Some q' -> sq_dist p q = sq_dist p' q') ->
  angular_resolution l f = angular_resolution l' f.
Proof.
  intros l l' f L H. destruct l as [|p0 l0]; [destruct l'; [reflexivity|discriminate]|]. set (l := p0 :: l0) in *.
  destruct (Nat.eq_dec (length l) 1) as [E|E]. { unfold angular_resolution. rewrite <- L, E. reflexivity. }
  destruct (longest_exists l) as [d D]; [discriminate|]. rewrite (resolution_eq l d f E D). rewrite (resolution_eq l' d f); [reflexivity|congruence|].
  assert (A : forall e, apart l e <-> apart l' e).
  { intro e. split; intros (p & q & P & Q & K & K'); apply In_nth_error in P, Q; destruct P as [i P]; destruct Q as [j Q]; assert (I := nth_some _ _ _ P); assert (J := nth_some _ _ _ Q).
    - destruct (nth_lt l' i) as [p' P']; [lia|]. destruct (nth_lt l' j) as [q' Q']; [lia|]. exists p', q'. split; [eapply nth_error_In; eauto|]. split; [eapply nth_error_In; eauto|]. split; [exact K|]. rewrite K'. eauto.
    - destruct (nth_lt l i) as [p' P']; [lia|]. destruct (nth_lt l j) as [q' Q']; [lia|]. exists p', q'. split; [eapply nth_error_In; eauto|]. split; [eapply nth_error_In; eauto|]. split; [exact K|]. rewrite K'. symmetry. eauto. }
  destruct D as [D1 D2]. split; [now apply A|]. intros e X. apply D2. now apply A.
Qed.
Theorem resolution_set : forall l l' f, (length l = 1%nat <-> length l' = 1%nat) -> (forall p, In p l <-> In p l') -> angular_resolution l f = angular_resolution l' f.
Proof.
  intros l l' f L H. destruct (Nat.eq_dec (length l) 1) as [E|E]. { unfold angular_resolution. rewrite E. apply L in E. rewrite E. reflexivity. }
  destruct l as [|p0 l0]. { destruct l' as [|p l']; [reflexivity|]. destruct (proj2 (H p) (or_introl eq_refl)). }
  destruct (longest_exists (p0 :: l0)) as [d D]; [discriminate|]. rewrite (resolution_eq _ d f E D). rewrite (resolution_eq l' d f); [reflexivity|tauto|].
  assert (A : forall e, apart (p0 :: l0) e <-> apart l' e) by (intro e; split; intros (p & q & P & Q & K); exists p, q; (split; [now apply H|split; [now apply H|exact K]])).
  destruct D as [D1 D2]. split; [now apply A|]. intros e X. apply D2. now apply A.
Qed.
(** Antennas added never make it coarser. *)
Theorem resolution_more : forall l l' f r r', 0 < f -> incl l l' -> angular_resolution l f = Ok (Some r) -> angular_resolution l' f = Ok r' -> exists x, r' = Some x /\ 0 < x <= r.
Proof.
  intros l l' f r r' F I E E'.
  assert (N : length l <> 1%nat) by (intro N; unfold angular_resolution in E; rewrite N in E; discriminate).
  assert (N' : length l' <> 1%nat) by (intro N'; unfold angular_resolution in E'; rewrite N' in E'; discriminate).
  destruct l as [|p l]; [discriminate|]. destruct (longest_exists (p :: l)) as [d D]; [discriminate|].
  destruct (longest_exists l') as [d' D']; [intros ->; exact (I p (or_introl eq_refl))|].
  rewrite (resolution_eq _ d f N D) in E. rewrite (resolution_eq _ d' f N' D') in E'. injection E' as <-.
  assert (X : d <= d'). { destruct D as [(u & v & U & V & K) _]. destruct D' as [_ D']. apply D'. exists u, v. auto. }
  assert (D0 : 0 <= d) by (destruct D as [(u & v & U & V & K & _) _]; exact K).
  unfold rdiv in *. destruct (Req_EM_T d 0) as [Z|Z]; [discriminate|]. cbn [option_map] in E. injection E as <-. destruct (Req_EM_T d' 0); [lra|]. eexists. split; [reflexivity|].
  assert (W : 0 < wavelength f) by (unfold wavelength, speed_of_light; apply Rdiv_lt_0_compat; lra). assert (P := PI_RGT_0). split.
  - apply Rdiv_lt_0_compat; [|exact P]. apply Rmult_lt_0_compat; [|lra]. apply Rdiv_lt_0_compat; lra.
  - unfold Rdiv. apply Rmult_le_compat_r; [apply Rlt_le, Rinv_0_lt_compat; exact P|]. apply Rmult_le_compat_r; [lra|]. apply Rmult_le_compat_l; [lra|]. apply Rinv_le_contravar; lra.
Qed.
Theorem resolution_frequency : forall l f k r, 0 < f -> 0 < k -> angular_resolution l f = Ok (Some r) ->
  0 < r /\ angular_resolution l (k * f) = Ok (Some (r / k)).
Proof.
  intros l f k r F K E. assert (N : length l <> 1%nat) by (intro N; unfold angular_resolution in E; rewrite N in E; discriminate).
  split. { destruct (resolution_more l l f r (Some r) F (incl_refl l) E E) as (x & X & Y). injection X as <-. lra. }
  destruct l as [|p l]; [discriminate|]. destruct (longest_exists (p :: l)) as [d D]; [discriminate|].
  rewrite (resolution_eq _ d f N D) in E. rewrite (resolution_eq _ d (k * f) N D). unfold rdiv in *. destruct (Req_EM_T d 0) as [Z|Z]; [discriminate|]. cbn [option_map] in *. injection E as <-. do 2 f_equal.
  unfold wavelength. field. repeat split; (apply PI_neq0 || lra).
Qed.

(** ** Confusion *)
Theorem confusion_value : forall l f, 0 < f ->
  (forall e, angular_resolution l f = Err e -> forall b, confusion_noise b l f = Err e) /\
  (angular_resolution l f = Ok None -> forall b, confusion_noise b l f = Ok None) /\
  (forall r, angular_resolution l f = Ok (Some r) -> exists x y, confusion_noise false l f = Ok (Some x) /\ confusion_noise true l f = Ok (Some y) /\
    0 < x /\ 0 < y /\ ln (x / (r * 60) ^ 2 * 5000) = - 7 / 10 * ln (f / 10 ^ 9) /\ ln (y * 10 ^ 6 / 30) = 154 / 100 * ln (r * 3600) - 7 / 10 * ln (f / (74 * 10 ^ 6))).
Proof.
  intros l f F. split; [|split].
  - intros e E b. unfold confusion_noise. rewrite E. reflexivity.
  - intros E b. unfold confusion_noise. rewrite E. reflexivity.
  - intros r E. destruct (resolution_frequency l f 1 r F Rlt_0_1 E) as [R0 _]. eexists. eexists. unfold confusion_noise. rewrite E. cbn [bind option_map].
    assert (E1 : forall x y, 0 < Rpower x y) by (intros; apply exp_pos). assert (R2 : 0 < (r * 60) ^ 2) by (apply pow_lt; lra).
    split; [reflexivity|]. split; [reflexivity|]. split; [|split; [|split]].
    + assert (H := E1 (f / 10 ^ 9) (- (7 / 10))). apply Rdiv_lt_0_compat; [|apply pow_lt; lra]. apply Rmult_lt_0_compat; [|exact R2]. apply Rmult_lt_0_compat; [lra|exact H].
    + apply Rdiv_lt_0_compat; [|apply pow_lt; lra]. apply Rmult_lt_0_compat; [|apply E1]. apply Rmult_lt_0_compat; [lra|apply E1].
    + replace (2 / 10 * Rpower (f / 10 ^ 9) (- (7 / 10)) * (r * 60) ^ 2 / 10 ^ 3 / (r * 60) ^ 2 * 5000) with (Rpower (f / 10 ^ 9) (- (7 / 10))) by (field; lra).
      unfold Rpower. rewrite ln_exp. lra.
    + replace (30 * Rpower (r * 3600) (154 / 100) * Rpower (f / 10 ^ 6 / 74) (- (7 / 10)) / 10 ^ 6 * 10 ^ 6 / 30) with (Rpower (r * 3600) (154 / 100) * Rpower (f / 10 ^ 6 / 74) (- (7 / 10))) by field.
      rewrite ln_mult by apply E1. unfold Rpower. rewrite !ln_exp. replace (f / 10 ^ 6 / 74) with (f / (74 * 10 ^ 6)) by field. lra.
Qed.
Lemma Rpower_pos x y : 0 < Rpower x y. Proof. apply exp_pos. Qed.
Lemma Rpower_mult_distr' x y z : 0 < x -> 0 < y -> Rpower (x * y) z = Rpower x z * Rpower y z.
Proof. intros X Y. unfold Rpower. rewrite ln_mult by assumption. rewrite <- exp_plus. f_equal. ring. Qed.
Theorem confusion_frequency : forall l f k x y, 0 < f -> 0 < k -> confusion_noise false l f = Ok (Some x) -> confusion_noise true l f = Ok (Some y) ->
  confusion_noise false l (k * f) = Ok (Some (x * Rpower k (- (27 / 10)))) /\ confusion_noise true l (k * f) = Ok (Some (y * Rpower k (- (224 / 100)))).
Proof.
  intros l f k x y F K X Y. unfold confusion_noise in *. destruct (angular_resolution l f) as [[r|]|] eqn:E; try discriminate. cbn [bind option_map] in *.
  apply f_equal with (f := fun r => match r with Ok (Some x) => x | _ => 0 end) in X, Y. cbv beta iota in X, Y. subst x y. destruct (resolution_frequency l f k r F K E) as [R0 E']. rewrite E'. cbn [bind option_map].
  assert (KK : Rpower k (- (27 / 10)) = Rpower k (- (7 / 10)) * (/ k) ^ 2).
  { replace (- (27 / 10)) with (- (7 / 10) + - (2)) by lra. rewrite Rpower_plus. f_equal. rewrite Rpower_Ropp. replace 2 with (INR 2) by (cbn; lra). rewrite Rpower_pow by exact K. rewrite <- pow_inv. reflexivity. }
  assert (KL : Rpower k (- (224 / 100)) = Rpower k (- (7 / 10)) * Rpower (/ k) (154 / 100)).
  { replace (- (224 / 100)) with (- (7 / 10) + - (154 / 100)) by lra. rewrite Rpower_plus. f_equal. unfold Rpower. rewrite ln_Rinv by exact K. f_equal. ring. }
  split; do 2 f_equal.
  - replace (k * f / 10 ^ 9) with (k * (f / 10 ^ 9)) by field. rewrite (Rpower_mult_distr' k (f / 10 ^ 9)); [|exact K|apply Rdiv_lt_0_compat; [exact F|apply pow_lt; lra]]. rewrite KK. generalize (Rpower k (- (7 / 10))) (Rpower (f / 10 ^ 9) (- (7 / 10))). intros u w. unfold Rdiv. ring.
  - replace (k * f / 10 ^ 6 / 74) with (k * (f / 10 ^ 6 / 74)) by field. rewrite (Rpower_mult_distr' k (f / 10 ^ 6 / 74)); [|exact K|apply Rdiv_lt_0_compat; [|lra]; apply Rdiv_lt_0_compat; [exact F|apply pow_lt; lra]].
    replace (r / k * 3600) with (/ k * (r * 3600)) by (field; lra). rewrite (Rpower_mult_distr' (/ k) (r * 3600)); [|now apply Rinv_0_lt_compat|lra]. rewrite KL. unfold Rdiv. ring.
Qed.

(** ** The noise of NenuFAR *)
(** The density is already that of the whole array: the number of Mini-Arrays counts once
    more in imaging. *)
Theorem nenufar_noise : forall P G L G' L' (base : interf vec G' L') active (a one : interf P G L) t z fs dt df el eff deco li lb s i vi vb v,
  0 < dt -> 0 < df -> i_size one = 1%nat ->
  sensitivity (nenufar_area base active a) (i_size a) t z fs Imaging dt df el eff deco [] = Ok li ->
  sensitivity (nenufar_area base active a) (i_size a) t z fs Beamforming dt df el eff deco [] = Ok lb ->
  sefd (nenufar_area base active one) t z fs el eff deco [] = Ok s ->
  nth_error li i = Some (Some vi) -> nth_error lb i = Some (Some vb) -> nth_error s i = Some (Some v) ->
  vb * sqrt (2 * dt * df) * INR (i_size a) = v /\
  vi * sqrt (INR (i_size a) * (INR (i_size a) - 1) * (2 * dt * df)) * INR (i_size a) = v.
Proof.
  intros P G L G' L' base active a one t z fs dt df el eff deco li lb s i vi vb v Hdt Hdf One Ei Eb E Ni Nb N.
  destruct (sens_at _ _ _ _ _ _ _ _ _ _ _ _ _ _ _ Ei Ni) as (sa & x & S & X & Q). destruct (sens_at _ _ _ _ _ _ _ _ _ _ _ _ _ _ _ Eb Nb) as (sb & y & S' & Y & Q').
  rewrite S in S'. injection S' as <-. rewrite X in Y. injection Y as <-.
  assert (R := sefd_number P G L G' L' base active a one t z fs el eff deco sa s i x v S E X N). rewrite One in R. cbn in R.
  destruct Q as [(_ & Z & V)|(? & _)]; [|discriminate]. destruct Q' as [(? & _)|(_ & Z' & V')]; [discriminate|]. split.
  - rewrite V'. replace (x / sqrt (2 * dt * df) * sqrt (2 * dt * df)) with x by (field; exact Z'). lra.
  - replace (INR (i_size a) * (INR (i_size a) - 1) * (2 * dt * df)) with (INR (i_size a) * (INR (i_size a) - 1) * 2 * dt * df) by ring. rewrite V.
    replace (x / sqrt (INR (i_size a) * (INR (i_size a) - 1) * 2 * dt * df) * sqrt (INR (i_size a) * (INR (i_size a) - 1) * 2 * dt * df)) with x by (field; exact Z). lra.
Qed.
(** A source of 1 Jy does not add 1 Jy at 30 degrees. *)
Definition flat_lna : lna := mkLna [(0, 1)] [(0, 1)].
Lemma flat_inst f : exists x, instrument_temperature flat_lna 0 [f] = Ok [x].
Proof. unfold instrument_temperature, flat_lna, rinterp. cbn. destruct (Rle_dec _ 0); eexists; reflexivity. Qed.
Theorem sefd_source_refuted : exists f v0 v, 0 < f /\
  sefd (ma_area [mkVec 0 0 0]) flat_lna 0 [f] (PI / 6) 1 1 [] = Ok [Some v0] /\
  sefd (ma_area [mkVec 0 0 0]) flat_lna 0 [f] (PI / 6) 1 1 [fun _ => 1] = Ok [Some v] /\ v - v0 = 2.
Proof.
  set (area := ma_area [mkVec 0 0 0]). set (f := speed_of_light). assert (F : 0 < f) by (unfold f, speed_of_light; lra).
  assert (A : exists b, area [f] (PI / 2) = Ok [b] /\ b <> 0).
  { eexists. split; [apply area_one; exact F|]. rewrite sin_PI2. assert (W : 0 < wavelength f) by (unfold wavelength; apply Rdiv_lt_0_compat; [exact F|exact F]). assert (P := PI_RGT_0).
    apply Rgt_not_eq. rewrite Rmult_1_r. apply Rmult_lt_0_compat; [apply Rdiv_lt_0_compat; lra|]. apply Rdiv_lt_0_compat; [apply pow_lt; exact W|lra]. }
  destruct A as (b & A & B). destruct (flat_inst f) as [x I]. assert (Hp := mini_array_plane [mkVec 0 0 0]). assert (Hs := mini_array_steady [mkVec 0 0 0]).
  assert (V : forall ss, exists v, sefd area flat_lna 0 [f] (PI / 6) 1 1 ss = Ok [Some v]).
  { intro ss. destruct (sefd_value area flat_lna 0%Z [f] (PI / 6) 1 1 ss [x] [b] Hp I A) as (l & E & L & V). destruct (V 0%nat f x b eq_refl eq_refl eq_refl) as (r & R1 & R2).
    destruct l as [|u [|w l]]; try discriminate. cbn in R1. injection R1 as ->. destruct R2 as [[D _]|[_ (v & -> & _)]]; [|eauto].
    rewrite sin_PI6 in D. apply Rmult_integral in D. destruct D as [D|D]; [lra|]. apply Rmult_integral in D. lra. }
  destruct (V []) as [v0 V0]. destruct (V [fun _ => 1]) as [v V1]. exists f, v0, v. split; [exact F|]. split; [exact V0|]. split; [exact V1|].
  destruct (sefd_sources area flat_lna 0%Z [f] (PI / 6) 1 1 [fun _ => 1] [Some v0] [Some v] 0%nat f v0 Hp Hs V0 V1 eq_refl eq_refl) as (v' & E & K). cbn in E. injection E as <-.
  rewrite sin_PI6 in K. cbn in K. lra.
Qed.
