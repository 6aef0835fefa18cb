(** Images of the sky and of the ground. *)
From Coq Require Import ZArith QArith Reals Bool List Arith Lia Lra.
From Verif Require Import Base M_Polar M_Xst M_Beam M_Jones M_Area M_Sefd P_Sefd M_Uvw P_Uvw P_Uvw2.
From Verif Require P_Xst P_Beam P_Sefd3.
Import ListNotations.
Open Scope list_scope.
Open Scope R_scope.

(** ** Means *)
Lemma rsum_cons x l : rsum (x :: l) = x + rsum l.
Proof. reflexivity. Qed.
Lemma rmean_spec l r : rmean l = Some r -> l <> [] /\ r = rsum l / INR (length l).
Proof. unfold rmean. destruct l; [discriminate|]. intros [= <-]. split; [discriminate|reflexivity]. Qed.
Lemma rmean_bound l r M : (forall x, In x l -> Rabs x <= M) -> rmean l = Some r -> Rabs r <= M.
Proof.
  intros H E. destruct (rmean_spec _ _ E) as [N ->]. pose proof (P_Beam.inr_pos l N) as P.
  assert (S : Rabs (rsum l) <= INR (length l) * M).
  { clear - H. induction l as [|x l IH]; [cbn; rewrite Rabs_R0; lra|]. rewrite rsum_cons. cbn [length]. rewrite S_INR.
    eapply Rle_trans; [apply Rabs_triang|]. specialize (H x (or_introl eq_refl)) as Hx. assert (IHl := IH (fun y Y => H y (or_intror Y))). lra. }
  unfold Rdiv. rewrite Rabs_mult, (Rabs_pos_eq (/ _)) by (apply Rlt_le, Rinv_0_lt_compat, P). apply Rmult_le_reg_r with (INR (length l)); [exact P|].
  rewrite Rmult_assoc, Rinv_l by lra. lra.
Qed.
Lemma rmean_const l k : l <> [] -> (forall x, In x l -> x = k) -> rmean l = Some k.
Proof.
  intros N H. unfold rmean. destruct l as [|x0 l0]; [congruence|]. set (l := x0 :: l0) in *. f_equal. pose proof (P_Beam.inr_pos l N) as P.
  assert (S : rsum l = INR (length l) * k).
  { clear - H. induction l as [|x l IH]; [cbn; lra|]. rewrite rsum_cons. cbn [length]. rewrite S_INR, (H x (or_introl eq_refl)), (IH (fun y Y => H y (or_intror Y))). lra. }
  rewrite S. field. lra.
Qed.
Lemma csum_bound l M : 0 <= M -> (forall x, In x l -> power x <= M ^ 2) -> power (csum l) <= (INR (length l) * M) ^ 2.
Proof.
  intros P. induction l as [|x l IH]; intro H; [cbn; unfold power; cbn; nra|]. rewrite P_Beam.csum_cons. cbn [length]. rewrite S_INR.
  replace ((INR (length l) + 1) * M) with (M + INR (length l) * M) by ring. apply P_Beam.power_add; [exact P|apply Rmult_le_pos; [apply pos_INR|exact P]|apply H; now left|].
  apply IH. intros y Y. apply H. now right.
Qed.
Lemma cmean_bound l M : 0 <= M -> (forall x, In x l -> power x <= M ^ 2) -> power (cmean l) <= M ^ 2.
Proof.
  intros P H. unfold cmean. rewrite P_Beam.power_cscale. destruct l as [|x l]; [cbn; unfold power; cbn; nra|]. pose proof (csum_bound (x :: l) M P H) as B.
  set (n := INR (length (x :: l))) in *. assert (N : 0 < n) by (apply P_Beam.inr_pos; discriminate).
  apply Rle_trans with ((/ n) ^ 2 * (n * M) ^ 2); [apply Rmult_le_compat_l; [apply pow2_ge_0|exact B]|]. right. field. lra.
Qed.
Lemma cmean_const l k : l <> [] -> (forall x, In x l -> x = k) -> cmean l = k.
Proof.
  intros N H. unfold cmean. pose proof (P_Beam.inr_pos l N) as P. assert (S : csum l = cscale (INR (length l)) k).
  { clear - H. induction l as [|x l IH]; [unfold cscale; cbn; f_equal; ring|]. rewrite P_Beam.csum_cons. cbn [length]. rewrite S_INR, (H x (or_introl eq_refl)), (IH (fun y Y => H y (or_intror Y))).
    apply P_Beam.cpx_eq; unfold cplus, cscale, re, im; cbn [fst snd]; ring. }
  rewrite S. apply P_Beam.cpx_eq; unfold cscale, re, im; cbn [fst snd]; field; lra.
Qed.
Lemma vmean_one v : vmean [v] = v.
Proof. unfold vmean, vsum. cbn [fold_right length INR]. vec; field. Qed.
Lemma power_re a M : 0 <= M -> power a <= M ^ 2 -> Rabs (re a) <= M.
Proof. intros P H. unfold power in H. apply Rabs_le. split; nra. Qed.

(** ** The pixels *)
Lemma cross_pairs n p : In p (filter (fun p => negb (is_auto p)) (tril n)) <-> (snd p < fst p < n)%nat.
Proof.
  destruct p as [i j]. rewrite filter_In, P_Xst.tril_In. unfold is_auto. cbn [fst snd]. rewrite negb_true_iff, Nat.eqb_neq. lia.
Qed.
Lemma kept_spec n b : In b (filter (fun b => negb (is_auto (nth b (tril n) (0%nat, 0%nat)))) (seq 0 (length (tril n)))) <->
  exists i j, (j < i < n)%nat /\ b = (i * (i + 1) / 2 + j)%nat.
Proof.
  rewrite filter_In, in_seq. split.
  - intros [B A]. destruct (nth b (tril n) (0%nat, 0%nat)) as [i j] eqn:E. assert (I : In (i, j) (tril n)) by (rewrite <- E; apply nth_In; lia).
    apply P_Xst.tril_In in I. unfold is_auto in A. cbn [fst snd] in A. rewrite negb_true_iff, Nat.eqb_neq in A. exists i, j. split; [lia|].
    destruct (P_Xst.tril_nth_inv n b (0%nat, 0%nat) ltac:(lia)) as (i' & j' & H). rewrite E in H. unfold P_Xst.vis_no in H. intuition congruence.
  - intros (i & j & H & ->). split; [split; [lia|]; rewrite Nat.add_0_l; apply P_Xst.vis_no_bound; lia|].
    change (i * (i + 1) / 2 + j)%nat with (P_Xst.vis_no i j). rewrite P_Xst.tril_nth by lia. unfold is_auto. cbn [fst snd]. rewrite negb_true_iff, Nat.eqb_neq. lia.
Qed.
Lemma cell_at {A} (d : A) l t f b x : at3 l t f b x -> cell d l t f b = x.
Proof.
  intros (plane & row & P & R & X). unfold cell. rewrite (nth_error_nth _ _ _ P), (nth_error_nth _ _ _ R). exact (nth_error_nth _ _ _ X).
Qed.
Lemma cell_or {A} (d : A) l t f b : at3 l t f b (cell d l t f b) \/ cell d l t f b = d.
Proof.
  unfold cell, at3. destruct (nth_error l t) as [plane|] eqn:P; [|right; apply nth_error_None in P; rewrite (nth_overflow l) by exact P; destruct f, b; reflexivity].
  rewrite (nth_error_nth _ _ _ P). destruct (nth_error plane f) as [row|] eqn:R; [|right; apply nth_error_None in R; rewrite (nth_overflow plane) by exact R; destruct b; reflexivity].
  rewrite (nth_error_nth _ _ _ R). destruct (nth_error row b) as [x|] eqn:X; [|right; apply nth_error_None in X; now rewrite nth_overflow].
  left. exists plane, row. rewrite (nth_error_nth _ _ _ X). auto.
Qed.

Section Pixel.
Variables (n times : nat) (frequencies : list R) (value : list (list (list cpx))) (factor : option (list (list (list cpx)))) (uvw : list (list vec)).
Lemma dirty_none p : dirty n times frequencies value factor uvw p = None <-> (n <= 1)%nat.
Proof.
  unfold dirty. match goal with |- context [rmean (map ?f ?l)] => set (g := f); set (k := l) end. split.
  - intro E. destruct (le_lt_dec n 1) as [L|L]; [exact L|]. exfalso. assert (K : In 1%nat k) by (apply (proj2 (kept_spec n 1)); exists 1%nat, 0%nat; split; [lia|reflexivity]).
    destruct k as [|b r]; [destruct K|]. discriminate.
  - intro L. destruct k as [|b r] eqn:E; [reflexivity|]. exfalso. assert (K : In b k) by (rewrite E; now left). apply (proj1 (kept_spec n b)) in K. destruct K as (i & j & H & _). lia.
Qed.
Lemma dirty_bound p r M : 0 <= M -> (forall t f b, power (cell c0 value t f b) <= M ^ 2) ->
  (forall l t f b, factor = Some l -> power (cell c0 l t f b) <= 1) -> dirty n times frequencies value factor uvw p = Some r -> Rabs r <= M.
Proof.
  intros P V F. unfold dirty. apply rmean_bound. intros x X. apply in_map_iff in X. destruct X as (b & <- & _). apply power_re; [exact P|]. apply cmean_bound; [exact P|].
  intros z Z. apply in_map_iff in Z. destruct Z as (f & <- & _). rewrite P_Beam.power_cmult, P_Beam.power_cis, Rmult_1_r. apply cmean_bound; [exact P|].
  intros z Z. apply in_map_iff in Z. destruct Z as (t & <- & _). rewrite P_Beam.power_cmult. specialize (V t f b).
  assert (Q : 0 <= power (match factor with Some l => cell c0 l t f b | None => (1, 0) end) <= 1).
  { split; [apply P_Beam.power_pos|]. destruct factor as [l|]; [now apply F|]. unfold power, re, im. cbn. lra. }
  pose proof (P_Beam.power_pos (cell c0 value t f b)). nra.
Qed.
Lemma dirty_one p : (1 < n)%nat -> frequencies <> [] ->
  (forall k f i j, nth_error frequencies k = Some f -> (j < i < n)%nat ->
     cmult (cmean (map (fun t => cmult (cell c0 value t k (i * (i + 1) / 2 + j)) (match factor with Some l => cell c0 l t k (i * (i + 1) / 2 + j) | None => (1, 0) end)) (seq 0 times)))
           (cis (- 2 * PI * vdot (vmean (map (fun t => vscale (/ wavelength f) (nth (i * (i + 1) / 2 + j) (nth t uvw []) v0)) (seq 0 times))) (mkVec (vx p) (vy p) (vz p - 1)))) = (1, 0)) ->
  dirty n times frequencies value factor uvw p = Some 1.
Proof.
  intros N F H. unfold dirty. apply rmean_const.
  - intro E. apply map_eq_nil in E. assert (K : In 1%nat []) by (rewrite <- E; apply (proj2 (kept_spec n 1)); exists 1%nat, 0%nat; split; [lia|reflexivity]). destruct K.
  - intros x X. apply in_map_iff in X. destruct X as (b & <- & B). apply kept_spec in B. destruct B as (i & j & I & ->).
    rewrite (cmean_const _ (1, 0)); [reflexivity|destruct frequencies; [congruence|discriminate]|]. intros z Z. apply in_map_iff in Z. destruct Z as (k & <- & K). apply in_seq in K.
    destruct (nth_error frequencies k) as [f|] eqn:E; [|apply nth_error_None in E; lia]. rewrite (nth_error_nth _ _ 0 E). now apply H.
Qed.
End Pixel.

(** ** A source *)
(** The visibilities, phased at the zenith, of a source of flux one at [p]. *)
Definition source_seen (itrf : list vec) (lst : list R) (zenith : list (R * R)) (frequencies : list R) (p : R * R) (value : list (list (list cpx))) : Prop :=
  forall t k i j s z f a b, nth_error lst t = Some s -> nth_error zenith t = Some z -> nth_error frequencies k = Some f ->
    nth_error itrf i = Some a -> nth_error itrf j = Some b -> (j < i)%nat ->
    exists c, at3 value t k (i * (i + 1) / 2 + j) c /\
      turns f (vdot (vsub a b) (towards (s - fst p) (snd p)) - vdot (vsub a b) (towards (s - fst z) (snd z))) c.
Lemma turns_cis f x c : turns f x c -> c = cis (2 * PI * x / wavelength f).
Proof. intros ->. now rewrite wave_cis. Qed.
Lemma seen_cosines s c p : seen (s - fst c) (snd c) (towards (s - fst p) (snd p)) = cosines c p.
Proof.
  destruct c as [ra0 dec0], p as [ra dec]. rewrite cosines_value. cbn [fst snd]. unfold seen, east, north, towards.
  pose proof (trig s) as S. assert (S' : cos s * cos s = 1 - sin s * sin s) by lra. vec; rewrite !sin_minus, !cos_minus; ring [S'].
Qed.
Lemma seen_dot h d a b : vdot (seen h d a) (seen h d b) = vdot a b.
Proof.
  pose proof (trig h) as H. pose proof (trig d) as D. unfold seen, vdot, east, north, towards. cbn [vx vy vz].
  assert (H' : cos h * cos h = 1 - sin h * sin h) by lra. assert (D' : cos d * cos d = 1 - sin d * sin d) by lra. ring [H' D'].
Qed.
Lemma seen_path s c p b : vdot b (towards (s - fst p) (snd p)) - vz (seen (s - fst c) (snd c) b) =
  vdot (seen (s - fst c) (snd c) b) (mkVec (vx (cosines c p)) (vy (cosines c p)) (vz (cosines c p) - 1)).
Proof. rewrite <- (seen_dot (s - fst c) (snd c) b (towards _ _)), seen_cosines. unfold vdot. cbn [vx vy vz]. ring. Qed.
Lemma uvw_at itrf lst zenith c l t s ra dec i j p q : length zenith = length lst -> compute_uvw itrf lst zenith c = Ok l ->
  nth_error lst t = Some s -> aimed zenith c t (ra, dec) -> nth_error itrf i = Some p -> nth_error itrf j = Some q -> (j <= i)%nat ->
  baseline_at l t i j (seen (s - ra) dec (vsub p q)).
Proof. intros. eapply uvw_value; eassumption. Qed.
Lemma nth_at (uvw : list (list vec)) t i j x : baseline_at uvw t i j x -> nth (i * (i + 1) / 2 + j) (nth t uvw []) v0 = x.
Proof. intros (row & R & X). rewrite (nth_error_nth _ _ _ R). exact (nth_error_nth _ _ _ X). Qed.

Lemma centre_pos c : 0 <= vz (cosines c c).
Proof. destruct c as [ra dec]. rewrite cosines_value. cbn [vz]. replace (ra - ra) with 0 by ring. rewrite cos_0. pose proof (trig dec). lra. Qed.

(** At the pixel of a source the image is one: with one time, everywhere in the half of
    the sky around the center; at the center itself, whatever the times. *)
Theorem image_source : forall itrf lst zenith noon frequencies value c pixels l k p, length zenith = length lst ->
  (1 < length itrf)%nat -> frequencies <> [] -> lst <> [] -> source_seen itrf lst zenith frequencies p value ->
  make_image itrf lst zenith noon frequencies value (Some c) pixels = Ok l -> nth_error pixels k = Some p ->
  p = c \/ (length lst = 1%nat /\ 0 <= vz (cosines c p)) -> nth_error l k = Some (Some 1).
Proof.
  intros itrf lst zenith noon frequencies value c pixels l k p Z N F L V E K C. destruct c as [ra dec]. set (c := (ra, dec)) in *.
  unfold make_image in E. destruct (compute_uvw itrf lst zenith None) as [uvw|] eqn:U; [|discriminate]. cbn [bind] in E.
  destruct (rephase_visibilities itrf lst zenith frequencies c (Some uvw)) as [[fac new]|] eqn:R; [|discriminate]. cbn [bind fst snd] in E. injection E as <-.
  rewrite (map_nth_error _ _ _ K). f_equal. change (dirty (length itrf) (length lst) frequencies value (Some fac) new (lmn c p) = Some 1).
  assert (R' : rephase_visibilities itrf lst zenith frequencies c None = Ok (fac, new)) by (unfold rephase_visibilities in *; rewrite U; exact R).
  assert (NEW : compute_uvw itrf lst zenith (Some (Fixed ra dec)) = Ok new) by (eapply rephase_uvw; [exact Z|exact R']).
  assert (HQ : lmn c p = cosines c p) by (apply lmn_near; destruct C as [->|[_ C]]; [apply centre_pos|exact C]).
  apply dirty_one; [exact N|exact F|]. intros m f i j Hf [J I]. rewrite HQ.
  destruct (nth_error itrf i) as [a|] eqn:Ea; [|apply nth_error_None in Ea; lia]. destruct (nth_error itrf j) as [b|] eqn:Eb; [|apply nth_error_None in Eb; lia].
  assert (T : forall t s, nth_error lst t = Some s ->
    cmult (cell c0 value t m (i * (i + 1) / 2 + j)) (cell c0 fac t m (i * (i + 1) / 2 + j)) =
      cis (2 * PI * vdot (seen (s - ra) dec (vsub a b)) (mkVec (vx (cosines c p)) (vy (cosines c p)) (vz (cosines c p) - 1)) / wavelength f) /\
    nth (i * (i + 1) / 2 + j) (nth t new []) v0 = seen (s - ra) dec (vsub a b)).
  { intros t s Hs. destruct (nth_error zenith t) as [[zr zd]|] eqn:Hz; [|apply nth_error_None in Hz; assert (t < length lst)%nat by (apply nth_error_Some; congruence); lia].
    destruct (V t m i j s (zr, zd) f a b Hs Hz Hf Ea Eb ltac:(lia)) as (v & Av & Tv). rewrite (cell_at c0 _ _ _ _ _ Av).
    assert (Bold : baseline_at uvw t i j (seen (s - zr) zd (vsub a b))) by (exact (uvw_at itrf lst zenith None uvw t s zr zd i j a b Z U Hs Hz Ea Eb ltac:(lia))).
    assert (Bnew : baseline_at new t i j (seen (s - ra) dec (vsub a b))) by (exact (uvw_at itrf lst zenith _ new t s ra dec i j a b Z NEW Hs eq_refl Ea Eb ltac:(lia))).
    destruct (rephase_factors _ _ _ _ _ _ _ _ _ _ _ _ _ _ _ _ Z R' U Hf Bold Bnew) as (g & Ag & Tg). rewrite (cell_at c0 _ _ _ _ _ Ag).
    split; [|now apply nth_at]. rewrite (turns_cis _ _ _ Tv), (turns_cis _ _ _ Tg), <- P_Beam.cis_plus. f_equal.
    pose proof (seen_path s c p (vsub a b)) as SP. change (fst c) with ra in SP. change (snd c) with dec in SP. rewrite <- SP. cbn [fst snd]. unfold seen at 1. cbn [vz]. unfold Rdiv. ring. }
  destruct C as [->|[L1 C]].
  - assert (Zq : forall v, vdot v (mkVec (vx (cosines c c)) (vy (cosines c c)) (vz (cosines c c) - 1)) = 0).
    { intro v. rewrite <- (proj1 (lmn_near c c)); [rewrite lmn_centre; unfold vdot; cbn; ring|]. apply centre_pos. }
    rewrite (cmean_const _ (1, 0)).
    + rewrite Zq. replace (- 2 * PI * 0) with 0 by ring. rewrite cis_0. unfold cmult, re, im. cbn. f_equal; ring.
    + destruct lst; [congruence|]. discriminate.
    + intros z Hz. apply in_map_iff in Hz. destruct Hz as (t & <- & Ht). apply in_seq in Ht. destruct (nth_error lst t) as [s|] eqn:Hs; [|apply nth_error_None in Hs; lia].
      destruct (T t s Hs) as [-> _]. rewrite Zq. replace (2 * PI * 0 / wavelength f) with 0 by (unfold Rdiv; ring). apply cis_0.
  - rewrite L1. cbn [seq map]. destruct (nth_error lst 0) as [s|] eqn:Hs; [|apply nth_error_None in Hs; lia]. destruct (T 0%nat s Hs) as [T1 T2].
    rewrite T2, vmean_one. rewrite (cmean_const _ (cmult (cell c0 value 0 m (i * (i + 1) / 2 + j)) (cell c0 fac 0 m (i * (i + 1) / 2 + j)))); [|discriminate|intros z [<-|[]]; reflexivity].
    rewrite T1, <- P_Beam.cis_plus, <- cis_0. f_equal. unfold vdot, vscale, Rdiv. cbn [vx vy vz]. ring.
Qed.
(** No more than the largest visibility. *)
Theorem image_bound : forall itrf lst zenith noon frequencies value c pixels l k r M, 0 <= M ->
  (forall t f b v, at3 value t f b v -> re v ^ 2 + im v ^ 2 <= M ^ 2) ->
  make_image itrf lst zenith noon frequencies value c pixels = Ok l -> nth_error l k = Some (Some r) -> Rabs r <= M.
Proof.
  intros itrf lst zenith noon frequencies value c pixels l k r M P V E K.
  assert (V' : forall t f b, power (cell c0 value t f b) <= M ^ 2).
  { intros t f b. destruct (cell_or c0 value t f b) as [A| ->]; [apply (V _ _ _ _ A)|unfold power, c0; cbn; nra]. }
  unfold make_image in E. destruct (compute_uvw itrf lst zenith None) as [uvw|] eqn:U; [|discriminate]. cbn [bind] in E. destruct c as [c|].
  - cbn [rephase_visibilities bind fst snd] in E. injection E as <-. apply nth_map_inv in K. destruct K as (p & _ & D). symmetry in D. apply (dirty_bound _ _ _ _ _ _ _ _ M P V') in D; [exact D|].
    intros fac t f b Q. injection Q as <-. destruct (cell_or c0 (factors zenith c frequencies uvw) t f b) as [A| ->]; [apply rephase_modulus in A; unfold power; lra|unfold power, c0; cbn; lra].
  - injection E as <-. apply nth_map_inv in K. destruct K as (p & _ & D). symmetry in D. apply (dirty_bound _ _ _ _ _ _ _ _ M P V') in D; [exact D|discriminate].
Qed.
Theorem image_shape : forall itrf lst zenith noon frequencies value c pixels,
  exists l, make_image itrf lst zenith noon frequencies value c pixels = Ok l /\ length l = length pixels /\ (forall x, In x l -> x = None <-> (length itrf <= 1)%nat).
Proof.
  intros itrf lst zenith noon frequencies value c pixels. unfold make_image. cbn [compute_uvw bind]. destruct c as [c|]; cbn [rephase_visibilities bind]; eexists; (split; [reflexivity|]);
    (split; [apply map_length|]); intros x X; apply in_map_iff in X; destruct X as (p & <- & _); apply dirty_none.
Qed.
