(** Sums of images; images of the ground. *)
From Coq Require Import ZArith QArith Reals Bool List Arith Lia Lra.
From Verif Require Import Base M_Polar M_Xst M_Beam M_Jones M_Area M_Sefd M_Uvw P_Uvw P_Uvw2 P_Uvw6.
From Verif Require P_Xst P_Beam.
Import ListNotations.
Open Scope list_scope.
Open Scope R_scope.

(** ** The image of a sum is the sum of the images *)
Lemma rsum_add {A} (f g h : A -> R) k l : (forall x, h x = f x + k * g x) -> rsum (map h l) = rsum (map f l) + k * rsum (map g l).
Proof. intro H. induction l as [|x l IH]; cbn [map]; [cbn; lra|]. rewrite !rsum_cons, IH, H. lra. Qed.
Lemma csum_add {A} (f g h : A -> cpx) k l : (forall x, h x = cplus (f x) (cscale k (g x))) -> csum (map h l) = cplus (csum (map f l)) (cscale k (csum (map g l))).
Proof.
  intro H. induction l as [|x l IH]; cbn [map]; [unfold cplus, cscale; cbn; f_equal; ring|]. rewrite !P_Beam.csum_cons, IH, H.
  apply P_Beam.cpx_eq; unfold cplus, cscale, re, im; cbn [fst snd]; ring.
Qed.
Lemma cmean_add {A} (f g h : A -> cpx) k l : (forall x, h x = cplus (f x) (cscale k (g x))) -> cmean (map h l) = cplus (cmean (map f l)) (cscale k (cmean (map g l))).
Proof.
  intro H. unfold cmean. rewrite !map_length, (csum_add f g h k l H). apply P_Beam.cpx_eq; unfold cplus, cscale, re, im; cbn [fst snd]; ring.
Qed.
Lemma cmult_add a b k c : cmult (cplus a (cscale k b)) c = cplus (cmult a c) (cscale k (cmult b c)).
Proof. apply P_Beam.cpx_eq; unfold cplus, cscale, cmult, re, im; cbn [fst snd]; ring. Qed.
Definition combined (k : R) (v w s : list (list (list cpx))) : Prop :=
  forall t f b, cell c0 s t f b = cplus (cell c0 v t f b) (cscale k (cell c0 w t f b)).
Lemma dirty_add n times frequencies v w s factor uvw p k x y : combined k v w s ->
  dirty n times frequencies v factor uvw p = Some x -> dirty n times frequencies w factor uvw p = Some y ->
  dirty n times frequencies s factor uvw p = Some (x + k * y).
Proof.
  intros H X Y. unfold dirty in *. cbv zeta in *.
  match goal with |- rmean (map ?f _) = _ => set (hs := f) end.
  match type of X with rmean (map ?f ?l) = _ => set (hv := f) in *; set (kept := l) in * end.
  match type of Y with rmean (map ?f _) = _ => set (hw := f) in * end.
  assert (E : forall b, hs b = hv b + k * hw b).
  { intro b. unfold hs, hv, hw. erewrite cmean_add with (k := k).
    2:{ intro f. erewrite cmean_add with (k := k); [apply cmult_add|]. intro t. rewrite (H t f b). apply cmult_add. }
    unfold cplus, cscale, re. cbn [fst snd]. reflexivity. }
  apply rmean_spec in X, Y. destruct X as [N ->], Y as [_ ->]. destruct kept as [|b0 r]; [now cbn in N|]. cbn [rmean map]. f_equal.
  change (hs b0 :: map hs r) with (map hs (b0 :: r)). change (hw b0 :: map hw r) with (map hw (b0 :: r)). change (hv b0 :: map hv r) with (map hv (b0 :: r)).
  rewrite (rsum_add hv hw hs k _ E), !map_length. field. pose proof (P_Beam.inr_pos (b0 :: r)). assert (b0 :: r <> []) by discriminate. specialize (H0 H1). lra.
Qed.
Theorem image_sum : forall itrf lst zenith noon frequencies v w s c pixels k iv iw is j x y, combined k v w s ->
  make_image itrf lst zenith noon frequencies v c pixels = Ok iv -> make_image itrf lst zenith noon frequencies w c pixels = Ok iw ->
  make_image itrf lst zenith noon frequencies s c pixels = Ok is ->
  nth_error iv j = Some (Some x) -> nth_error iw j = Some (Some y) -> nth_error is j = Some (Some (x + k * y)).
Proof.
  intros itrf lst zenith noon frequencies v w s c pixels k iv iw is j x y H V W S X Y. unfold make_image in *.
  destruct (compute_uvw itrf lst zenith None) as [uvw|]; [|discriminate]. cbn [bind] in *. destruct c as [c|].
  - destruct (rephase_visibilities _ _ _ _ _ _) as [[fac new]|]; [|discriminate]. cbn [bind fst snd] in *. injection V as <-. injection W as <-. injection S as <-.
    apply nth_map_inv in X, Y. destruct X as (p & P & X), Y as (p' & P' & Y). rewrite P in P'. injection P' as <-. rewrite (map_nth_error _ _ _ P). f_equal.
    eapply dirty_add; [exact H|now symmetry|now symmetry].
  - injection V as <-. injection W as <-. injection S as <-.
    apply nth_map_inv in X, Y. destruct X as (p & P & X), Y as (p' & P' & Y). rewrite P in P'. injection P' as <-. rewrite (map_nth_error _ _ _ P). f_equal.
    eapply dirty_add; [exact H|now symmetry|now symmetry].
Qed.

(** ** Images of the ground *)
Lemma cabs_power z : cabs z = sqrt (power z).
Proof. reflexivity. Qed.
Lemma cabs_bound z M : 0 <= M -> power z <= M ^ 2 -> 0 <= cabs z <= M.
Proof.
  intros P H. rewrite cabs_power. split; [apply sqrt_pos|]. rewrite <- (sqrt_pow2 M P). apply sqrt_le_1; [apply P_Beam.power_pos|apply pow2_ge_0|exact H].
Qed.
Lemma cabs_cis x : cabs (cis x) = 1.
Proof. rewrite cabs_power, P_Beam.power_cis. apply sqrt_1. Qed.
Section Ground.
Variables (enu : list vec) (frequencies : list R) (vis : nat -> nat * nat -> cpx).
Definition ground_path (x y : R) (i : nat) : R :=
  let a := nth i enu (mkVec 0 0 0) in
  sqrt ((vx a - x) ^ 2 + (vy a - y) ^ 2 + (vz a - (rsum (map vz enu) / INR (length enu) + 1)) ^ 2).
Theorem nearfield_value : forall x y, nearfield enu frequencies vis x y =
  rmean (map (fun p => sqrt (power (cmean (map (fun k =>
      cmult (vis k p) (cis (2 * PI * (ground_path x y (fst p) - ground_path x y (snd p)) / wavelength (nth k frequencies 0)))) (seq 0 (length frequencies))))))
    (filter (fun p => negb (is_auto p)) (tril (length enu)))).
Proof.
  intros x y. unfold nearfield, imprint. f_equal. apply map_ext. intro p. rewrite cabs_power. do 3 f_equal. apply map_ext. intro k. do 2 f_equal.
  unfold ground_distance, norm, ground_path, ground_point, vsub, v0. cbn [vx vy vz]. unfold Rdiv. ring.
Qed.
Theorem nearfield_none : forall x y, nearfield enu frequencies vis x y = None <-> (length enu <= 1)%nat.
Proof.
  intros x y. unfold nearfield, imprint. match goal with |- context [rmean (map ?f ?l)] => set (g := f); set (k := l) end. split.
  - intro E. destruct (le_lt_dec (length enu) 1) as [L|L]; [exact L|]. exfalso. assert (K : In (1, 0)%nat k) by (apply (proj2 (cross_pairs _ _)); cbn; lia).
    destruct k as [|b r]; [destruct K|]. discriminate.
  - intro L. destruct k as [|b r] eqn:E; [reflexivity|]. exfalso. assert (K : In b k) by (rewrite E; now left). apply (proj1 (cross_pairs _ _)) in K. lia.
Qed.
Lemma imprint_bound M d r : 0 <= M -> (forall k p, (snd p < fst p < length enu)%nat -> power (vis k p) <= M ^ 2) ->
  imprint (length enu) frequencies vis d = Some r -> 0 <= r <= M.
Proof.
  intros P V E. assert (B : forall z, In z (map (fun p => cabs (cmean (map (fun f =>
           cmult (vis f p) (cis (2 * PI * ((d (fst p) - d (snd p)) / wavelength (nth f frequencies 0%R))))) (seq 0 (length frequencies)))))
        (filter (fun p => negb (is_auto p)) (tril (length enu)))) -> 0 <= z <= M).
  { intros z Z. apply in_map_iff in Z. destruct Z as (p & <- & Hp). apply cross_pairs in Hp. apply cabs_bound; [exact P|]. apply cmean_bound; [exact P|].
    intros z Z. apply in_map_iff in Z. destruct Z as (f & <- & _). rewrite P_Beam.power_cmult, P_Beam.power_cis, Rmult_1_r. now apply V. }
  unfold imprint in E. split.
  - destruct (rmean_spec _ _ E) as [N ->]. apply Rmult_le_pos; [|apply Rlt_le, Rinv_0_lt_compat, P_Beam.inr_pos, N].
    revert B. match goal with |- context [rsum ?l] => generalize l end. clear. induction l as [|z l IH]; intro B; [cbn; lra|]. rewrite rsum_cons.
    specialize (B z (or_introl eq_refl)) as Bz. assert (IHl := IH (fun y Y => B y (or_intror Y))). lra.
  - apply Rle_trans with (Rabs r); [apply Rle_abs|]. eapply rmean_bound; [|exact E]. intros z Z. specialize (B z Z). rewrite Rabs_pos_eq; lra.
Qed.
Theorem nearfield_bound : forall M x y r, 0 <= M -> (forall k p, (snd p < fst p < length enu)%nat -> power (vis k p) <= M ^ 2) ->
  nearfield enu frequencies vis x y = Some r -> 0 <= r <= M.
Proof. intros M x y r P V E. eapply imprint_bound; eassumption. Qed.
(** One where the visibilities are those of an emitter at this place of the ground. *)
Theorem nearfield_emitter : forall x y, (1 < length enu)%nat -> frequencies <> [] ->
  (forall k f i j, nth_error frequencies k = Some f -> (j < i < length enu)%nat -> turns f (ground_path x y j - ground_path x y i) (vis k (i, j))) ->
  nearfield enu frequencies vis x y = Some 1.
Proof.
  intros x y N F H. rewrite nearfield_value. apply rmean_const.
  - intro E. apply map_eq_nil in E. assert (K : In (1, 0)%nat []) by (rewrite <- E; apply (proj2 (cross_pairs _ _)); cbn; lia). destruct K.
  - intros z Z. apply in_map_iff in Z. destruct Z as ([i j] & <- & Hp). apply cross_pairs in Hp. cbn [fst snd] in *. rewrite (cmean_const _ (1, 0)).
    + unfold power, re, im. cbn. replace (1 * (1 * 1) + 0 * (0 * 1)) with 1 by ring. apply sqrt_1.
    + destruct frequencies; [congruence|discriminate].
    + intros z Z. apply in_map_iff in Z. destruct Z as (k & <- & K). apply in_seq in K. destruct (nth_error frequencies k) as [f|] eqn:E; [|apply nth_error_None in E; lia].
      rewrite (nth_error_nth _ _ 0 E), (turns_cis _ _ _ (H k f i j E Hp)), <- P_Beam.cis_plus, <- cis_0. f_equal. unfold Rdiv. ring.
Qed.
End Ground.
(** With one frequency the image is the same everywhere. *)
Theorem nearfield_flat : forall enu f vis x y x' y', nearfield enu [f] vis x y = nearfield enu [f] vis x' y'.
Proof.
  intros enu f vis x y x' y'. rewrite !nearfield_value. f_equal. apply map_ext. intro p. f_equal. cbn [length seq map].
  assert (G : forall a b, power (cmean [cmult a (cis b)]) = power a).
  { intros a b. rewrite (cmean_const _ (cmult a (cis b))); [now rewrite P_Beam.power_cmult, P_Beam.power_cis, Rmult_1_r|discriminate|intros z [<-|[]]; reflexivity]. }
  now rewrite !G.
Qed.
(** The footprints of the sources. *)
Theorem source_skipped : forall enu frequencies az el x y, source_imprint enu frequencies az el x y = None <-> el * 180 / PI <= 10.
Proof. intros. unfold source_imprint. destruct (Rle_dec _ _); split; intro H; [assumption|reflexivity|discriminate|contradiction]. Qed.
Theorem source_bound : forall enu frequencies az el x y r, source_imprint enu frequencies az el x y = Some (Some r) -> 0 <= r <= 1.
Proof.
  intros enu frequencies az el x y r. unfold source_imprint. destruct (Rle_dec _ _); [discriminate|]. intros [= E]. refine (nearfield_bound enu frequencies _ 1 x y r ltac:(lra) _ E).
  intros k p _. unfold source_vis. rewrite P_Beam.power_cis. lra.
Qed.
Theorem ground_axis_ends : forall radius n, (1 < n)%nat -> ground_axis radius n 0 = - radius /\ ground_axis radius n (n - 1) = radius /\
  forall i, (i < n)%nat -> ground_axis radius n (n - 1 - i) = - ground_axis radius n i.
Proof.
  intros radius n N. unfold ground_axis, lin. assert (P : 0 < INR (n - 1)) by (apply lt_0_INR; lia). split; [cbn; ring|]. split; [field; lra|].
  intros i I. rewrite (minus_INR (n - 1) i) by lia. field. lra.
Qed.
