(** Projected baselines and rephasing. *)
From Coq Require Import ZArith QArith Reals Bool List Arith Lia Lra.
From Verif Require Import Base M_Polar M_Xst M_Beam M_Area M_Sefd P_Sefd M_Uvw.
From Verif Require P_Xst P_Beam P_Sefd3.
Import ListNotations.
Open Scope list_scope.
Open Scope R_scope.

(** ** Specification *)
(** The axes of the plane of the sky and the direction itself, at hour angle [h] and
    declination [d]: x to the meridian, y to the east, z to the pole. *)
Definition east (h : R) : vec := mkVec (sin h) (cos h) 0.
Definition north (h d : R) : vec := mkVec (- sin d * cos h) (sin d * sin h) (cos d).
Definition towards (h d : R) : vec := mkVec (cos d * cos h) (- (cos d * sin h)) (sin d).
Definition vcross (a b : vec) : vec :=
  mkVec (vy a * vz b - vz a * vy b) (vz a * vx b - vx a * vz b) (vx a * vy b - vy a * vx b).
(** The vector [b] seen from the direction. *)
Definition seen (h d : R) (b : vec) : vec := mkVec (vdot b (east h)) (vdot b (north h d)) (vdot b (towards h d)).
Definition square (a : vec) : R := vx a ^ 2 + vy a ^ 2 + vz a ^ 2.
(** The direction aimed at, at the time number [t]. *)
Definition aimed (zenith : list (R * R)) (c : option centre) (t : nat) (p : R * R) : Prop :=
  match c with
  | None => nth_error zenith t = Some p
  | Some (Fixed ra dec) => p = (ra, dec)
  | Some (Moving l) => nth_error l t = Some p
  | Some Horizontal => False
  end.
(** The value of the pair of antennas [i], [j] at the time [t]. *)
Definition baseline_at (l : list (list vec)) (t i j : nat) (x : vec) : Prop :=
  exists row, nth_error l t = Some row /\ nth_error row (i * (i + 1) / 2 + j) = Some x.

Lemma trig x : sin x * sin x + cos x * cos x = 1.
Proof. pose proof (sin2_cos2 x) as H. unfold Rsqr in H. exact H. Qed.
Lemma vec_ext a b : vx a = vx b -> vy a = vy b -> vz a = vz b -> a = b.
Proof. destruct a, b. cbn. congruence. Qed.
Ltac vec := apply vec_ext; cbn [vx vy vz vsub vadd vneg vscale row0 row1 row2]; unfold vdot; cbn [vx vy vz vsub vadd vneg vscale row0 row1 row2].

Theorem axes_frame : forall h d,
  square (east h) = 1 /\ square (north h d) = 1 /\ square (towards h d) = 1 /\
  vdot (east h) (north h d) = 0 /\ vdot (east h) (towards h d) = 0 /\ vdot (north h d) (towards h d) = 0 /\
  vcross (east h) (north h d) = towards h d.
Proof.
  intros h d. pose proof (trig h) as H. pose proof (trig d) as D. unfold square, vdot, vcross, east, north, towards; cbn [vx vy vz].
  assert (H' : cos h * cos h = 1 - sin h * sin h) by lra. assert (D' : cos d * cos d = 1 - sin d * sin d) by lra.
  repeat split; try (apply vec_ext; cbn [vx vy vz]); ring [H' D'].
Qed.
Lemma project_seen h d p q : project h d (vsub q p) = seen h d (vsub p q).
Proof. unfold project, mapply, uvw_matrix, seen, east, north, towards. vec; ring. Qed.
Lemma seen_square h d b : square (seen h d b) = square b.
Proof.
  pose proof (trig h) as H. pose proof (trig d) as D. unfold square, seen, vdot, east, north, towards. cbn [vx vy vz].
  assert (H' : cos h * cos h = 1 - sin h * sin h) by lra. assert (D' : cos d * cos d = 1 - sin d * sin d) by lra.
  ring [H' D'].
Qed.

Lemma flatten_at itrf i j p q : nth_error itrf i = Some p -> nth_error itrf j = Some q -> (j <= i)%nat ->
  nth_error (flatten itrf) (i * (i + 1) / 2 + j) = Some (vsub q p).
Proof.
  intros P Q H. destruct (P_Sefd3.flatten_value itrf i j p q P Q H) as (b & B & E). rewrite B. f_equal.
  apply (f_equal (fun v => (vx v, vy v, vz v))) in E. cbn in E. injection E as X Y Z. vec; lra.
Qed.

(** Every value is the difference of the two positions, seen from the direction aimed at. *)
Theorem uvw_value : forall itrf lst zenith c l t s ra dec i j p q,
  compute_uvw itrf lst zenith c = Ok l -> nth_error lst t = Some s -> aimed zenith c t (ra, dec) ->
  nth_error itrf i = Some p -> nth_error itrf j = Some q -> (j <= i)%nat ->
  baseline_at l t i j (seen (s - ra) dec (vsub p q)).
Proof.
  intros itrf lst zenith c l t s ra dec i j p q E S A P Q H.
  assert (F : nth_error (map (project (s - ra) dec) (flatten itrf)) (i * (i + 1) / 2 + j) = Some (seen (s - ra) dec (vsub p q)))
    by (rewrite <- project_seen; apply map_nth_error; now apply flatten_at).
  exists (map (project (s - ra) dec) (flatten itrf)). split; [|exact F].
  destruct c as [[ra' dec'|dl|]|]; cbn in E.
  - injection E as <-. cbn in A. injection A as -> ->. exact (map_nth_error (fun t => map (project (t - ra') dec') (flatten itrf)) _ _ S).
  - destruct (length dl =? length lst)%nat; [|discriminate]. injection E as <-. cbn in A.
    exact (map2_nth (fun t p => map (project (t - fst p) (snd p)) (flatten itrf)) lst dl t s (ra, dec) S A).
  - discriminate.
  - injection E as <-. cbn in A. exact (map2_nth (fun t p => map (project (t - fst p) (snd p)) (flatten itrf)) lst zenith t s (ra, dec) S A).
Qed.
Theorem uvw_shape : forall itrf lst zenith c l, length zenith = length lst -> compute_uvw itrf lst zenith c = Ok l ->
  length l = length lst /\ Forall (fun row => length row = (length itrf * (length itrf + 1) / 2)%nat) l.
Proof.
  intros itrf lst zenith c l Z E.
  assert (G : forall m, length m = length lst ->
    length (map2 (fun t p => map (project (t - fst p) (snd p)) (flatten itrf)) lst m) = length lst /\
    Forall (fun row => length row = (length itrf * (length itrf + 1) / 2)%nat) (map2 (fun t p => map (project (t - fst p) (snd p)) (flatten itrf)) lst m)).
  { intros m M. split; [apply map2_length; congruence|]. apply Forall_forall. intros r R. apply In_nth_error in R. destruct R as [k R].
    apply map2_inv in R. destruct R as (a & b & _ & _ & ->). now rewrite map_length, P_Sefd3.flatten_length. }
  destruct c as [[ra' dec'|dl|]|]; cbn in E.
  - injection E as <-. split; [apply map_length|]. apply Forall_forall. intros r R. apply in_map_iff in R. destruct R as (s & <- & _).
    now rewrite map_length, P_Sefd3.flatten_length.
  - destruct (Nat.eqb_spec (length dl) (length lst)) as [X|X]; [|discriminate]. injection E as <-. now apply G.
  - discriminate.
  - injection E as <-. now apply G.
Qed.
Theorem uvw_refused : forall itrf lst zenith c e, compute_uvw itrf lst zenith c = Err e <->
  (e = EAttributeError /\ c = Some Horizontal) \/ (e = EValueError /\ exists l, c = Some (Moving l) /\ length l <> length lst).
Proof.
  intros. destruct c as [[ra dec|l|]|]; cbn.
  - split; [discriminate|]. intros [[_ X]|(_ & m & X & _)]; discriminate.
  - destruct (Nat.eqb_spec (length l) (length lst)) as [E|E].
    + split; [discriminate|]. intros [[_ X]|(_ & m & X & N)]; [discriminate|]. injection X as <-. contradiction.
    + split; [intros [= <-]; right; split; [reflexivity|now exists l]|]. intros [[_ X]|(-> & _)]; [discriminate|reflexivity].
  - split; [intros [= <-]; now left|]. intros [[-> _]|(_ & m & X & _)]; [reflexivity|discriminate].
  - split; [discriminate|]. intros [[_ X]|(_ & m & X & _)]; discriminate.
Qed.

(** The length of a baseline, its third coordinate, the sums along a triangle and the
    position of the array. *)
Theorem uvw_length : forall itrf lst zenith c l t i j p q x, length zenith = length lst ->
  compute_uvw itrf lst zenith c = Ok l -> (t < length lst)%nat ->
  nth_error itrf i = Some p -> nth_error itrf j = Some q -> (j <= i)%nat -> baseline_at l t i j x ->
  square x = square (vsub p q) /\ (p = q -> x = mkVec 0 0 0).
Proof.
  intros itrf lst zenith c l t i j p q x Z E T P Q H (row & R & X).
  destruct (nth_error lst t) as [s|] eqn:S; [|apply nth_error_None in S; lia].
  assert (A : exists ra dec, aimed zenith c t (ra, dec)).
  { destruct c as [[ra dec|m|]|]; cbn in E |- *; [now exists ra, dec| |discriminate|].
    - destruct (Nat.eqb_spec (length m) (length lst)) as [N|N]; [|discriminate].
      destruct (nth_error m t) as [[ra dec]|] eqn:M; [now exists ra, dec|]. apply nth_error_None in M. lia.
    - destruct (nth_error zenith t) as [[ra dec]|] eqn:M; [now exists ra, dec|]. apply nth_error_None in M. lia. }
  destruct A as (ra & dec & A). destruct (uvw_value _ _ _ _ _ _ _ _ _ _ _ _ _ E S A P Q H) as (row' & R' & X').
  rewrite R in R'. injection R' as <-. rewrite X in X'. injection X' as ->. split; [apply seen_square|].
  intros ->. unfold seen. vec; ring.
Qed.
Theorem uvw_triangle : forall itrf lst zenith c l t i j k x y z, length zenith = length lst ->
  compute_uvw itrf lst zenith c = Ok l -> (t < length lst)%nat -> (k <= j <= i)%nat -> (i < length itrf)%nat ->
  baseline_at l t i j x -> baseline_at l t j k y -> baseline_at l t i k z -> z = vadd x y.
Proof.
  intros itrf lst zenith c l t i j k x y z Z E T [K J] I (r & R & X) (r1 & R1 & Y) (r2 & R2 & W).
  rewrite R in R1, R2. injection R1 as <-. injection R2 as <-.
  destruct (nth_error lst t) as [s|] eqn:S; [|apply nth_error_None in S; lia].
  destruct (nth_error itrf i) as [p|] eqn:P; [|apply nth_error_None in P; lia].
  destruct (nth_error itrf j) as [q|] eqn:Q; [|apply nth_error_None in Q; lia].
  destruct (nth_error itrf k) as [o|] eqn:O; [|apply nth_error_None in O; lia].
  assert (A : exists ra dec, aimed zenith c t (ra, dec)).
  { destruct c as [[ra dec|m|]|]; cbn in E |- *; [now exists ra, dec| |discriminate|].
    - destruct (Nat.eqb_spec (length m) (length lst)) as [N|N]; [|discriminate].
      destruct (nth_error m t) as [[ra dec]|] eqn:M; [now exists ra, dec|]. apply nth_error_None in M. lia.
    - destruct (nth_error zenith t) as [[ra dec]|] eqn:M; [now exists ra, dec|]. apply nth_error_None in M. lia. }
  destruct A as (ra & dec & A).
  destruct (uvw_value _ _ _ _ _ _ _ _ _ _ _ _ _ E S A P Q J) as (a & Ra & Xa). rewrite R in Ra. injection Ra as <-. rewrite X in Xa. injection Xa as ->.
  destruct (uvw_value _ _ _ _ _ _ _ _ _ _ _ _ _ E S A Q O K) as (a & Ra & Xa). rewrite R in Ra. injection Ra as <-. rewrite Y in Xa. injection Xa as ->.
  destruct (uvw_value _ _ _ _ _ _ _ _ _ _ _ _ _ E S A P O (Nat.le_trans _ _ _ K J)) as (a & Ra & Xa). rewrite R in Ra. injection Ra as <-. rewrite W in Xa. injection Xa as ->.
  unfold seen. vec; ring.
Qed.
Lemma bsl_moved v l i j : (i < length l)%nat -> (j < length l)%nat -> bsl (map (vadd v) l) i j = bsl l i j.
Proof.
  intros I J. unfold bsl. rewrite (nth_indep (map (vadd v) l) _ (vadd v (mkVec 0 0 0))) by now rewrite map_length.
  rewrite (nth_indep (map (vadd v) l) (mkVec 0 0 0) (vadd v (mkVec 0 0 0))) by now rewrite map_length. rewrite !map_nth. vec; ring.
Qed.
Theorem uvw_moved : forall v itrf lst zenith c, compute_uvw (map (vadd v) itrf) lst zenith c = compute_uvw itrf lst zenith c.
Proof.
  intros. assert (F : flatten (map (vadd v) itrf) = flatten itrf).
  { unfold flatten. rewrite map_length. apply map_ext_in. intros [i j] H. apply P_Xst.tril_In in H. cbn [fst snd]. apply bsl_moved; lia. }
  unfold compute_uvw. now rewrite F.
Qed.
(** One direction is that direction repeated; no direction is the zenith of each time. *)
Theorem uvw_repeated : forall itrf lst zenith ra dec, length zenith = length lst ->
  compute_uvw itrf lst zenith (Some (Fixed ra dec)) = compute_uvw itrf lst zenith (Some (Moving (map (fun _ => (ra, dec)) lst))) /\
  compute_uvw itrf lst zenith None = compute_uvw itrf lst zenith (Some (Moving zenith)).
Proof.
  intros itrf lst zenith ra dec Z. cbn. rewrite map_length, Z, !Nat.eqb_refl. split; [|reflexivity]. f_equal.
  clear Z. induction lst as [|s lst IH]; [reflexivity|]. cbn. now rewrite IH.
Qed.

(** ** Rephasing *)
(** The rotation of a frame: scalar products are kept. *)
Lemma vis_orthonormal c : let m := vis_matrix c in
  vdot (row0 m) (row0 m) = 1 /\ vdot (row1 m) (row1 m) = 1 /\ vdot (row2 m) (row2 m) = 1 /\
  vdot (row0 m) (row1 m) = 0 /\ vdot (row0 m) (row2 m) = 0 /\ vdot (row1 m) (row2 m) = 0.
Proof.
  destruct c as [ra dec]. unfold vis_matrix, vdot. cbn [row0 row1 row2 vx vy vz].
  pose proof (trig ra) as H. pose proof (trig dec) as D.
  assert (H' : cos ra * cos ra = 1 - sin ra * sin ra) by lra. assert (D' : cos dec * cos dec = 1 - sin dec * sin dec) by lra.
  repeat split; ring [H' D'].
Qed.
(** The columns too. *)
Lemma vis_columns c v : vmat (mapply (vis_matrix c) v) (vis_matrix c) = v.
Proof.
  destruct c as [ra dec]. unfold vmat, mapply, vis_matrix. cbn [row0 row1 row2 vx vy vz].
  pose proof (trig ra) as H. pose proof (trig dec) as D.
  assert (H' : cos ra * cos ra = 1 - sin ra * sin ra) by lra. assert (D' : cos dec * cos dec = 1 - sin dec * sin dec) by lra.
  vec; ring [H' D'].
Qed.
Lemma vis_rows c v : mapply (vis_matrix c) (vmat v (vis_matrix c)) = v.
Proof.
  destruct c as [ra dec]. unfold vmat, mapply, vis_matrix. cbn [row0 row1 row2 vx vy vz].
  pose proof (trig ra) as H. pose proof (trig dec) as D.
  assert (H' : cos ra * cos ra = 1 - sin ra * sin ra) by lra. assert (D' : cos dec * cos dec = 1 - sin dec * sin dec) by lra.
  vec; ring [H' D'].
Qed.
Lemma total_value o n v : vmat v (total_transformation o n) = mapply n (vmat v o).
Proof. unfold total_transformation, vmat, mapply. cbn [row0 row1 row2 vx vy vz]. vec; ring. Qed.
Lemma dot_apply m a b : vdot (mapply m a) b = vdot a (vmat b m).
Proof. unfold mapply, vmat, vdot. cbn [vx vy vz]. ring. Qed.
Lemma vmat_square c v : square (vmat v (vis_matrix c)) = square v.
Proof.
  assert (E : forall a, square a = vdot a a) by (intro a; unfold square, vdot; ring).
  rewrite !E. rewrite <- (dot_apply (vis_matrix c)). now rewrite vis_rows.
Qed.
Lemma mapply_square c v : square (mapply (vis_matrix c) v) = square v.
Proof. rewrite <- (vmat_square c). now rewrite vis_columns. Qed.
Definition turn (o n : R * R) (v : vec) : vec := vmat v (total_transformation (vis_matrix o) (vis_matrix n)).
Lemma turn_square o n v : square (turn o n v) = square v.
Proof. unfold turn. rewrite total_value, mapply_square. apply vmat_square. Qed.
(** The phase, in meters, is the change of the third coordinate. *)
Lemma rephase_third o n v : rephase_length (vis_matrix o) (vis_matrix n) v = vz v - vz (turn o n v).
Proof.
  unfold rephase_length. rewrite dot_apply. unfold turn. rewrite total_value. set (x := vmat v (vis_matrix o)).
  assert (E : vz v = vdot (row2 (vis_matrix o)) x).
  { pose proof (f_equal vz (vis_rows o v)) as F. fold x in F. unfold mapply in F. cbn [vz] in F. now rewrite F. }
  rewrite E. unfold mapply, vdot, vsub. cbn [vx vy vz]. ring.
Qed.
Lemma turn_turn o n m v : turn n m (turn o n v) = turn o m v.
Proof. unfold turn. rewrite !total_value. now rewrite vis_columns. Qed.
Lemma turn_same o v : turn o o v = v.
Proof. unfold turn. rewrite total_value. apply vis_rows. Qed.
(** The frame of a direction is the one of [compute_uvw], seen from fixed axes. *)
Lemma turn_seen s o n b : turn o n (seen (s - fst o) (snd o) b) = seen (s - fst n) (snd n) b.
Proof.
  assert (F : forall c, seen (s - fst c) (snd c) b =
    mapply (vis_matrix c) (mkVec (sin s * vx b + cos s * vy b) (cos s * vx b - sin s * vy b) (vz b))).
  { intros [ra dec]. unfold seen, mapply, vis_matrix, east, north, towards. cbn [fst snd row0 row1 row2]. vec; rewrite ?sin_minus, ?cos_minus; ring. }
  rewrite !F. unfold turn. now rewrite total_value, vis_columns.
Qed.
