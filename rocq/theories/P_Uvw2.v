(** Rephasing of visibilities, image coordinates. *)
From Coq Require Import ZArith QArith Reals Bool List Arith Lia Lra.
From Verif Require Import Base M_Polar M_Nd M_Xst M_Beam M_Area M_Sefd P_Sefd M_Uvw P_Uvw.
From Verif Require P_Xst P_Beam P_Sefd3.
Import ListNotations.
Open Scope list_scope.
Open Scope R_scope.

(** ** Specification *)
(** The value at (time, frequency, baseline). *)
Definition at3 {A} (l : list (list (list A))) (t f b : nat) (x : A) : Prop :=
  exists plane row, nth_error l t = Some plane /\ nth_error plane f = Some row /\ nth_error row b = Some x.
(** [c] turns by [x] wavelengths of the frequency [f]: light crosses [x] meters. *)
Definition turns (f x : R) (c : cpx) : Prop := c = (cos (2 * PI * (x * f / 299792458)), sin (2 * PI * (x * f / 299792458))).

Lemma map2_ext {A B C} (f g : A -> B -> C) : forall l m,
  (forall i a b, nth_error l i = Some a -> nth_error m i = Some b -> f a b = g a b) -> map2 f l m = map2 g l m.
Proof.
  induction l as [|x l IH]; intros [|y m] H; try reflexivity. cbn. rewrite (H 0%nat x y eq_refl eq_refl). f_equal. apply IH.
  intros i a b. exact (H (S i) a b).
Qed.
Lemma nth_map_inv {A B} (f : A -> B) l i y : nth_error (map f l) i = Some y -> exists x, nth_error l i = Some x /\ y = f x.
Proof.
  intro H. destruct (nth_error l i) as [x|] eqn:E.
  - exists x. split; [reflexivity|]. rewrite (map_nth_error f _ _ E) in H. congruence.
  - apply nth_error_None in E. rewrite (proj2 (nth_error_None _ _)) in H; [discriminate|now rewrite map_length].
Qed.
Lemma wave_cis x f : cis (2 * PI * x / wavelength f) = (cos (2 * PI * (x * f / 299792458)), sin (2 * PI * (x * f / 299792458))).
Proof.
  unfold cis, wavelength, speed_of_light. destruct (Req_dec f 0) as [->|N].
  - unfold Rdiv. rewrite Rinv_0, !Rmult_0_r, Rinv_0, !Rmult_0_r, !Rmult_0_l, !Rmult_0_r. reflexivity.
  - replace (2 * PI * x / (299792458 / f)) with (2 * PI * (x * f / 299792458)) by (field; lra). reflexivity.
Qed.

Lemma turned_at zenith new uvw t i j x o : nth_error zenith t = Some o -> baseline_at uvw t i j x ->
  baseline_at (turned zenith new uvw) t i j (turn o new x).
Proof.
  intros O (row & R & X). exists (map (turn o new) row). split.
  - exact (map2_nth (fun o row => map (fun b => vmat b (total_transformation (vis_matrix o) (vis_matrix new))) row) zenith uvw t o row O R).
  - now apply map_nth_error.
Qed.
(** The rotated coordinates are those of the new direction. *)
Theorem rephase_uvw : forall itrf lst zenith frequencies ra dec fac l, length zenith = length lst ->
  rephase_visibilities itrf lst zenith frequencies (ra, dec) None = Ok (fac, l) ->
  compute_uvw itrf lst zenith (Some (Fixed ra dec)) = Ok l.
Proof.
  intros itrf lst zenith frequencies ra dec fac l Z E. cbn in E. injection E as _ <-. cbn. f_equal. unfold turned.
  revert zenith Z. induction lst as [|s lst IH]; intros [|o zenith] Z; try discriminate; [reflexivity|]. cbn. f_equal; [|apply IH; now injection Z].
  rewrite map_map. apply map_ext_in. intros b B. unfold flatten in B. apply in_map_iff in B. destruct B as ([i j] & <- & _). unfold bsl. cbn [fst snd].
  rewrite !project_seen. rewrite <- (turn_seen s o (ra, dec)). reflexivity.
Qed.
(** The factors: the difference of the third coordinates. *)
Theorem rephase_factors : forall itrf lst zenith frequencies ra dec fac l old t i j k f x y, length zenith = length lst ->
  rephase_visibilities itrf lst zenith frequencies (ra, dec) None = Ok (fac, l) -> compute_uvw itrf lst zenith None = Ok old ->
  nth_error frequencies k = Some f -> baseline_at old t i j x -> baseline_at l t i j y ->
  exists c, at3 fac t k (i * (i + 1) / 2 + j) c /\ turns f (vz x - vz y) c.
Proof.
  intros itrf lst zenith frequencies ra dec fac l old t i j k f x y Z E O F X Y.
  unfold rephase_visibilities in E. rewrite O in E. cbn [bind] in E. injection E as <- <-.
  destruct X as (row & R & X). assert (T : exists o, nth_error zenith t = Some o).
  { cbn in O. injection O as <-. apply map2_inv in R. destruct R as (a & b & _ & B & _). now exists b. }
  destruct T as [o T]. destruct (turned_at zenith (ra, dec) old t i j x o T) as (row' & R' & Y'); [now exists row|].
  destruct Y as (row2 & R2 & Y). rewrite R' in R2. injection R2 as <-. rewrite Y' in Y. injection Y as <-.
  exists (rephase_factor (vis_matrix o) (vis_matrix (ra, dec)) f x). split.
  - eexists. eexists. split; [exact (map2_nth (fun o row => map (fun f => map (rephase_factor (vis_matrix o) (vis_matrix (ra, dec)) f) row) frequencies) zenith old t o row T R)|].
    split; [exact (map_nth_error (fun f => map (rephase_factor (vis_matrix o) (vis_matrix (ra, dec)) f) row) _ _ F)|]. now apply map_nth_error.
  - unfold turns, rephase_factor. rewrite rephase_third. apply wave_cis.
Qed.
Lemma factors_inv origin new frequencies uvw t k b c : at3 (factors origin new frequencies uvw) t k b c ->
  exists o row f x, nth_error origin t = Some o /\ nth_error uvw t = Some row /\ nth_error frequencies k = Some f /\ nth_error row b = Some x /\
    c = rephase_factor (vis_matrix o) (vis_matrix new) f x.
Proof.
  intros (plane & row & P & Q & B). apply map2_inv in P. destruct P as (o & r & O & R & ->). apply nth_map_inv in Q. destruct Q as (f & F & ->).
  apply nth_map_inv in B. destruct B as (x & X & ->). now exists o, r, f, x.
Qed.
Lemma factor_cis o n f x : rephase_factor (vis_matrix o) (vis_matrix n) f x = cis (2 * PI * (vz x - vz (turn o n x)) / wavelength f).
Proof. unfold rephase_factor. now rewrite rephase_third. Qed.
Lemma cis_0 : cis 0 = (1, 0).
Proof. unfold cis. now rewrite cos_0, sin_0. Qed.
Theorem rephase_modulus : forall origin new frequencies uvw t k b c, at3 (factors origin new frequencies uvw) t k b c ->
  re c ^ 2 + im c ^ 2 = 1.
Proof.
  intros origin new frequencies uvw t k b c H. apply factors_inv in H. destruct H as (o & row & f & x & _ & _ & _ & _ & ->).
  unfold rephase_factor. pose proof (P_Beam.power_cis (2 * PI * rephase_length (vis_matrix o) (vis_matrix new) x / wavelength f)) as P. unfold power in P. exact P.
Qed.
(** Nothing changes towards the same direction, nor for a baseline of no length. *)
Theorem rephase_same : forall origin new frequencies uvw t k b c, at3 (factors origin new frequencies uvw) t k b c ->
  nth_error origin t = Some new \/ (exists row, nth_error uvw t = Some row /\ nth_error row b = Some (mkVec 0 0 0)) -> c = (1, 0).
Proof.
  intros origin new frequencies uvw t k b c H A. apply factors_inv in H. destruct H as (o & row & f & x & O & R & F & X & ->). rewrite factor_cis.
  assert (Z : vz x - vz (turn o new x) = 0).
  { destruct A as [A|(r & A & B)].
    - rewrite O in A. injection A as ->. rewrite turn_same. ring.
    - rewrite R in A. injection A as <-. rewrite X in B. injection B as ->. unfold turn, vmat. cbn [vx vy vz]. ring. }
  rewrite Z. rewrite <- cis_0. f_equal. unfold Rdiv. ring.
Qed.
(** Going to [new] and from there to [last] is going to [last]. *)
Theorem rephase_chain : forall origin new final frequencies uvw t k b c1 c2 c3,
  at3 (factors origin new frequencies uvw) t k b c1 ->
  at3 (factors (map (fun _ => new) origin) final frequencies (turned origin new uvw)) t k b c2 ->
  at3 (factors origin final frequencies uvw) t k b c3 ->
  c3 = cmult c1 c2 /\ turned (map (fun _ => new) origin) final (turned origin new uvw) = turned origin final uvw.
Proof.
  intros origin new final frequencies uvw t k b c1 c2 c3 H1 H2 H3. split.
  - apply factors_inv in H1, H2, H3. destruct H1 as (o & row & f & x & O & R & F & X & ->).
    destruct H2 as (o2 & row2 & f2 & x2 & O2 & R2 & F2 & X2 & ->). destruct H3 as (o3 & row3 & f3 & x3 & O3 & R3 & F3 & X3 & ->).
    rewrite O in O3. injection O3 as <-. rewrite R in R3. injection R3 as <-. rewrite F in F2, F3. injection F2 as <-. injection F3 as <-. rewrite X in X3. injection X3 as <-.
    rewrite (map_nth_error _ _ _ O) in O2. injection O2 as <-. apply map2_inv in R2. destruct R2 as (o' & r' & O' & R' & ->). rewrite O in O'. injection O' as <-.
    rewrite R in R'. injection R' as <-. rewrite (map_nth_error _ _ _ X) in X2. injection X2 as <-. rewrite !factor_cis, <- P_Beam.cis_plus. f_equal.
    change (vmat x (total_transformation (vis_matrix o) (vis_matrix new))) with (turn o new x). rewrite turn_turn. unfold Rdiv. ring.
  - clear. revert uvw. induction origin as [|o origin IH]; intros [|row uvw]; try reflexivity. cbn. f_equal; [|apply IH].
    rewrite map_map. apply map_ext. intro v. exact (turn_turn o new final v).
Qed.
Theorem turned_length : forall origin new uvw t i j x y, baseline_at uvw t i j x -> baseline_at (turned origin new uvw) t i j y -> square y = square x.
Proof.
  intros origin new uvw t i j x y (row & R & X) (row' & R' & Y). apply map2_inv in R'. destruct R' as (o & r & O & R2 & ->). rewrite R in R2. injection R2 as <-.
  rewrite (map_nth_error _ _ _ X) in Y. injection Y as <-. apply turn_square.
Qed.

(** ** [rephase] of a file *)
Section Rephase.
Variables (itrf_of : list nat -> list vec) (lst : Q -> R) (zenith : Q -> R * R) (hertz : Q -> R).
(** What is returned does not depend on the visibilities. *)
Theorem rephase_ignores : forall (x y : xst cpx) new, x_mas x = x_mas y -> x_time x = x_time y -> x_freq x = x_freq y ->
  rephase itrf_of lst zenith hertz x new = rephase itrf_of lst zenith hertz y new.
Proof. intros x y new A B C. unfold rephase. now rewrite A, B, C. Qed.
Theorem rephase_returns : forall x ra dec v, rephase itrf_of lst zenith hertz x (Fixed ra dec) = Ok v ->
  exists row rest l, x_freq x = ByTime (row :: rest) /\
    rephase_visibilities (itrf_of (x_mas x)) (map lst (x_time x)) (map zenith (x_time x)) (map hertz row) (ra, dec) None = Ok (v, l).
Proof.
  intros x ra dec v E. unfold rephase, compute_uvw in E. rewrite !map_length, Nat.eqb_refl in E. cbn [bind] in E.
  destruct (x_freq x) as [[|row rest]|row]; try discriminate. injection E as <-. exists row, rest. eexists. split; [reflexivity|]. reflexivity.
Qed.
Theorem rephase_refused : forall x new e, rephase itrf_of lst zenith hertz x new = Err e <->
  (e = EValueError /\ exists l, new = Moving l) \/ (e = EAttributeError /\ new = Horizontal) \/
  (e = EIndexError /\ (exists ra dec, new = Fixed ra dec) /\ (x_freq x = ByTime [] \/ exists row, x_freq x = Common row)).
Proof.
  intros x new e. unfold rephase, compute_uvw. rewrite !map_length, Nat.eqb_refl. destruct new as [ra dec|l|]; cbn [bind].
  - destruct (x_freq x) as [[|row rest]|row].
    + split; [intros [= <-]|].
      * right. right. split; [reflexivity|]. split; [now exists ra, dec|now left].
      * intros [(_ & l & X)|[[_ X]|(-> & _)]]; [discriminate|discriminate|reflexivity].
    + split; [discriminate|]. intros [(_ & l & X)|[[_ X]|(-> & _ & [X|(r & X)])]]; discriminate.
    + split; [intros [= <-]|].
      * right. right. split; [reflexivity|]. split; [now exists ra, dec|]. right. now exists row.
      * intros [(_ & l & X)|[[_ X]|(-> & _)]]; [discriminate|discriminate|reflexivity].
  - split; [intros [= <-]; left; split; [reflexivity|now exists l]|]. intros [(-> & _)|[[_ X]|(_ & (ra & dec & X) & _)]]; [reflexivity|discriminate|discriminate].
  - split; [intros [= <-]; right; now left|]. intros [(_ & l & X)|[[-> _]|(_ & (ra & dec & X) & _)]]; [discriminate|reflexivity|discriminate].
Qed.
End Rephase.
(** The visibilities times the factors are not what is returned. *)
Theorem rephase_refuted : exists itrf_of lst zenith hertz x ra dec v,
  rephase itrf_of lst zenith hertz x (Fixed ra dec) = Ok v /\
  exists t k b c, at3 v t k b c /\ get (x_data x) [t; k; b] = (2, 0) /\
    forall c', re c' ^ 2 + im c' ^ 2 = 1 -> c <> cmult (get (x_data x) [t; k; b]) c'.
Proof.
  exists (fun _ => [mkVec 0 0 0; mkVec 100 0 0]), (fun _ => 0), (fun _ => (0, 0)), (fun _ => 50000000).
  exists (mkXst [0%nat; 1%nat] [0%Q] (ByTime [[1%Q]]) (mkNd [1; 1; 3]%nat (fun _ => (2, 0)))), 1, 0. eexists. split; [reflexivity|].
  exists 0%nat, 0%nat, 0%nat. eexists. split; [|split; [reflexivity|]].
  - eexists. eexists. split; [reflexivity|]. split; reflexivity.
  - cbn [x_data get]. intros c' M E. set (c := rephase_factor _ _ _ _) in E. assert (P : re c ^ 2 + im c ^ 2 = 1).
    { unfold c, rephase_factor. match goal with |- context [cis ?x] => pose proof (P_Beam.power_cis x) as P end. unfold power in P. exact P. }
    rewrite E in P. unfold cmult in P. cbn [re im fst snd] in P. unfold re, im in *. lra.
Qed.

(** ** Image coordinates *)
(** The direction of a point of the sky, seen from a direction. *)
Definition cosines (centre p : R * R) : vec :=
  seen (0 - fst centre) (snd centre) (towards (0 - fst p) (snd p)).
Lemma cosines_value ra0 dec0 ra dec : cosines (ra0, dec0) (ra, dec) =
  mkVec (cos dec * sin (ra - ra0)) (sin dec * cos dec0 - cos dec * sin dec0 * cos (ra - ra0)) (sin dec * sin dec0 + cos dec * cos dec0 * cos (ra - ra0)).
Proof.
  unfold cosines, seen, east, north, towards. cbn [fst snd]. vec; rewrite ?sin_minus, ?cos_minus, ?sin_0, ?cos_0; ring.
Qed.
Lemma cosines_square c p : square (cosines c p) = 1.
Proof. unfold cosines. rewrite seen_square. apply axes_frame. Qed.
Theorem lmn_value : forall c p, vx (lmn c p) = vx (cosines c p) /\ vy (lmn c p) = vy (cosines c p) /\ vz (lmn c p) = Rabs (vz (cosines c p)).
Proof.
  intros [ra0 dec0] [ra dec]. pose proof (cosines_square (ra0, dec0) (ra, dec)) as S. rewrite cosines_value in *. unfold square in S. cbn [vx vy vz] in *.
  unfold lmn. cbn [vx vy vz]. split; [reflexivity|]. split; [reflexivity|]. rewrite <- sqrt_Rsqr_abs. f_equal. unfold Rsqr. lra.
Qed.
Theorem lmn_square : forall c p, square (lmn c p) = 1 /\ 0 <= vz (lmn c p).
Proof.
  intros c p. destruct (lmn_value c p) as (A & B & C). unfold square. rewrite A, B, C, pow2_abs. split; [apply (cosines_square c p)|apply Rabs_pos].
Qed.
(** Right at less than 90 degrees of the center. *)
Theorem lmn_near : forall c p, 0 <= vz (cosines c p) <-> lmn c p = cosines c p.
Proof.
  intros c p. destruct (lmn_value c p) as (A & B & C). split.
  - intro H. apply vec_ext; [exact A|exact B|]. rewrite C. now apply Rabs_pos_eq.
  - intro E. rewrite <- E. apply lmn_square.
Qed.
Theorem lmn_centre : forall c, lmn c c = mkVec 0 0 1.
Proof.
  intros [ra dec]. assert (E : cosines (ra, dec) (ra, dec) = mkVec 0 0 1).
  { rewrite cosines_value. replace (ra - ra) with 0 by ring. rewrite sin_0, cos_0. pose proof (trig dec) as T. apply vec_ext; cbn [vx vy vz]; lra. }
  rewrite <- E. apply lmn_near. rewrite E. cbn. lra.
Qed.
(** Beyond, two directions have the same coordinates. *)
Theorem lmn_refuted : exists c p q, lmn c p = lmn c q /\ cosines c p <> cosines c q.
Proof.
  exists (0, 0), (0, 0), (PI, 0). assert (A : lmn (0, 0) (0, 0) = mkVec 0 0 1) by apply lmn_centre.
  assert (E : cosines (0, 0) (PI, 0) = mkVec 0 0 (-1)).
  { rewrite cosines_value. replace (PI - 0) with PI by ring. rewrite sin_PI, cos_PI, sin_0, cos_0. apply vec_ext; cbn [vx vy vz]; ring. }
  split.
  - rewrite A. destruct (lmn_value (0, 0) (PI, 0)) as (X & Y & Z). rewrite E in X, Y, Z. cbn [vx vy vz] in X, Y, Z. symmetry. apply vec_ext; [exact X|exact Y|].
    rewrite Z. cbn [vz]. rewrite Rabs_left; lra.
  - rewrite E. rewrite (proj1 (lmn_near (0, 0) (0, 0))) in A; [rewrite A; intro X; apply (f_equal vz) in X; cbn in X; lra|].
    rewrite cosines_value. cbn [vz]. replace (0 - 0) with 0 by ring. rewrite sin_0, cos_0. lra.
Qed.
