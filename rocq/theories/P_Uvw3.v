(** Coverage of the (u, v) plane and its profiles. *)
From Coq Require Import ZArith QArith Reals Bool List Arith Lia Lra Permutation.
From Verif Require Import Base M_Polar M_Xst M_Beam M_Area M_Sefd P_Sefd M_Uvw P_Uvw P_Area.
From Verif Require P_Xst P_Beam P_Sefd3.
Import ListNotations.
Open Scope list_scope.
Open Scope R_scope.

(** ** Specification *)
Definition triangular (a : nat) : nat := (a * (a + 1) / 2)%nat.
Definition uv (a : vec) : R * R := (vx a, vy a).
Definition opposite (p : R * R) : R * R := (- fst p, - snd p).
(** The points of the plane that have a part above the axis u. *)
Definition above (l : list (R * R)) : list (R * R) := filter (fun p => if Rlt_dec 0 (snd p) then true else false) l.

(** ** Coverage *)
Lemma double_tri a : (2 * triangular a = a * (a + 1))%nat.
Proof. apply P_Xst.tri_double. Qed.
Lemma n_antennas_tri a : n_antennas (triangular a) = a.
Proof.
  unfold n_antennas. replace (1 + 8 * triangular a)%nat with ((2 * a + 1) * (2 * a + 1))%nat by (pose proof (double_tri a); nia).
  rewrite Nat.sqrt_square. replace (2 * a + 1 - 1)%nat with (a * 2)%nat by lia. apply Nat.div_mul. lia.
Qed.
Theorem coverage_accepted : forall n uvw, (exists cov, coverage n uvw = Ok cov) <-> exists a, n = triangular a.
Proof.
  intros n uvw. unfold coverage. rewrite P_Xst.tril_length. split.
  - intros [cov E]. destruct (Nat.eqb_spec (n_antennas n * (n_antennas n + 1) / 2) n) as [<-|]; [|discriminate]. now eexists.
  - intros [a ->]. rewrite n_antennas_tri. unfold triangular. rewrite Nat.eqb_refl. now eexists.
Qed.
Theorem coverage_refused : forall n uvw e, coverage n uvw = Err e -> e = EIndexError.
Proof. intros n uvw e. unfold coverage. destruct (_ =? _)%nat; congruence. Qed.

Lemma coverage_row a uvw cov t row : coverage (triangular a) uvw = Ok cov -> nth_error cov t = Some row ->
  exists old, nth_error uvw t = Some old /\ row = old ++ map mirrored (crosses old a).
Proof.
  unfold coverage. rewrite n_antennas_tri, P_Xst.tril_length. fold (triangular a). rewrite Nat.eqb_refl. intros [= <-] H.
  destruct (nth_error uvw t) as [old|] eqn:E; [|apply nth_error_None in E; rewrite (proj2 (nth_error_None _ _)) in H; [discriminate|now rewrite map_length]].
  rewrite (map_nth_error _ _ _ E) in H. injection H as <-. now exists old.
Qed.
Lemma autos_filter a : length (filter is_auto (tril a)) = a.
Proof.
  induction a as [|a IH]; [reflexivity|]. rewrite P_Xst.tril_S, filter_app, app_length, IH.
  replace (seq 0 (S a)) with (seq 0 a ++ [a]) by (rewrite seq_S; reflexivity). rewrite map_app, filter_app, app_length. cbn [map filter].
  unfold is_auto at 2. cbn [fst snd]. rewrite Nat.eqb_refl. cbn [length].
  assert (Z : filter is_auto (map (fun j => (a, j)) (seq 0 a)) = []); [|rewrite Z; cbn; lia].
  assert (G : forall l, (forall j, In j l -> j < a)%nat -> filter is_auto (map (fun j => (a, j)) l) = []).
  { induction l as [|j l IHl]; intro G; [reflexivity|]. cbn. unfold is_auto at 1. cbn [fst snd]. rewrite (proj2 (Nat.eqb_neq _ _)); [|specialize (G j (or_introl eq_refl)); lia].
    apply IHl. intros k K. apply G. now right. }
  apply G. intros j J. apply in_seq in J. lia.
Qed.
Lemma filter_split {A} (f : A -> bool) l : (length (filter f l) + length (filter (fun x => negb (f x)) l) = length l)%nat.
Proof. induction l as [|x l IH]; [reflexivity|]. cbn. destruct (f x); cbn; lia. Qed.
Lemma filter_snd {A B} (f : B -> bool) : forall (l : list A) (m : list B), length l = length m ->
  length (filter (fun p => f (snd p)) (combine l m)) = length (filter f m).
Proof. induction l as [|x l IH]; intros [|y m] H; try discriminate; [reflexivity|]. cbn. destruct (f y); cbn; rewrite IH; auto. Qed.
Lemma crosses_length {A} (row : list A) a : length row = triangular a -> (length (crosses row a) + a = triangular a)%nat.
Proof.
  intro H. unfold crosses. rewrite map_length, (filter_snd (fun p => negb (is_auto p))); [|rewrite P_Xst.tril_length; exact H].
  pose proof (filter_split is_auto (tril a)) as S. rewrite autos_filter, P_Xst.tril_length in S. unfold triangular. lia.
Qed.
(** For [a] antennas, [a] squared points per time. *)
Theorem coverage_size : forall a uvw cov, Forall (fun row => length row = triangular a) uvw -> coverage (triangular a) uvw = Ok cov ->
  length cov = length uvw /\ Forall (fun row => length row = (a * a)%nat) cov.
Proof.
  intros a uvw cov F E. split.
  - unfold coverage in E. destruct (_ =? _)%nat; [|discriminate]. injection E as <-. apply map_length.
  - apply Forall_forall. intros row R. apply In_nth_error in R. destruct R as [t R]. destruct (coverage_row _ _ _ _ _ E R) as (old & O & ->).
    rewrite Forall_forall in F. specialize (F old (nth_error_In _ _ O)). rewrite app_length, map_length. pose proof (crosses_length old a F). pose proof (double_tri a). nia.
Qed.
(** The baselines are kept in their order, first. *)
Theorem coverage_kept : forall a uvw cov t k row old x, coverage (triangular a) uvw = Ok cov -> nth_error uvw t = Some old -> nth_error cov t = Some row ->
  nth_error old k = Some x -> nth_error row k = Some x.
Proof.
  intros a uvw cov t k row old x E O R X. destruct (coverage_row _ _ _ _ _ E R) as (old' & O' & ->). rewrite O in O'. injection O' as <-.
  rewrite nth_error_app1; [exact X|]. apply nth_error_Some. now rewrite X.
Qed.

Lemma filter_perm {A} (f : A -> bool) l : Permutation l (filter (fun x => negb (f x)) l ++ filter f l).
Proof.
  induction l as [|x l IH]; [constructor|]. cbn. destruct (f x); cbn.
  - eapply perm_trans; [apply perm_skip, IH|]. apply Permutation_middle.
  - now apply perm_skip.
Qed.
Lemma fst_combine {A B} : forall (l : list A) (m : list B), length l = length m -> map fst (combine l m) = l.
Proof. induction l as [|x l IH]; intros [|y m] H; try discriminate; [reflexivity|]. cbn. now rewrite IH by (now injection H). Qed.
Definition autos {A} (l : list A) (n : nat) : list A := map fst (filter (fun p => is_auto (snd p)) (combine l (tril n))).
Lemma row_perm {A} (row : list A) a : length row = triangular a -> Permutation row (crosses row a ++ autos row a).
Proof.
  intro H. unfold crosses, autos. rewrite <- map_app.
  replace row with (map fst (combine row (tril a))) at 1 by (apply fst_combine; rewrite P_Xst.tril_length; exact H).
  apply Permutation_map. apply (filter_perm (fun p => is_auto (snd p))).
Qed.
Lemma combine_nth {A B} : forall (l : list A) (m : list B) x y, In (x, y) (combine l m) -> exists k, nth_error l k = Some x /\ nth_error m k = Some y.
Proof.
  induction l as [|a l IH]; intros [|b m] x y H; try (now destruct H). destruct H as [[= <- <-]|H]; [now exists 0%nat|].
  destruct (IH m x y H) as (k & K). now exists (S k).
Qed.
Lemma bsl_self l i : bsl l i i = mkVec 0 0 0.
Proof. unfold bsl, vsub. f_equal; ring. Qed.
Lemma project_zero h d : project h d (mkVec 0 0 0) = mkVec 0 0 0.
Proof. unfold project, mapply, uvw_matrix. vec; ring. Qed.
Lemma uvw_row itrf lst zenith c l t row : compute_uvw itrf lst zenith c = Ok l -> nth_error l t = Some row ->
  exists h d, row = map (project h d) (flatten itrf).
Proof.
  assert (G : forall z, nth_error (map2 (fun t p => map (project (t - fst p) (snd p)) (flatten itrf)) lst z) t = Some row -> exists h d, row = map (project h d) (flatten itrf)).
  { intros z H. apply map2_inv in H. destruct H as (s & p & _ & _ & ->). now eexists; eexists. }
  unfold compute_uvw. destruct c as [[ra dec|m|]|].
  - intros [= <-] H. destruct (nth_error lst t) as [s|] eqn:E; [rewrite (map_nth_error _ _ _ E) in H; injection H as <-; now eexists; eexists|].
    apply nth_error_None in E. rewrite (proj2 (nth_error_None _ _)) in H; [discriminate|now rewrite map_length].
  - destruct (_ =? _)%nat; [|discriminate]. intros [= <-] H. eapply G, H.
  - discriminate.
  - intros [= <-] H. eapply G, H.
Qed.
Lemma row_length itrf h d : length (map (project h d) (flatten itrf)) = triangular (length itrf).
Proof. unfold flatten. now rewrite !map_length, P_Xst.tril_length. Qed.
Lemma row_autos itrf h d x : In x (autos (map (project h d) (flatten itrf)) (length itrf)) -> x = mkVec 0 0 0.
Proof.
  intro H. apply in_map_iff in H. destruct H as ([y [i j]] & <- & H). apply filter_In in H. destruct H as [H A]. cbn [fst snd] in *.
  unfold is_auto in A. apply Nat.eqb_eq in A. cbn [fst snd] in A. subst j. apply combine_nth in H. destruct H as (k & X & T).
  unfold flatten in X. rewrite map_map in X. rewrite (map_nth_error _ _ _ T) in X. cbn [fst snd] in X. rewrite bsl_self, project_zero in X. congruence.
Qed.
(** As many times each point as its opposite. *)
Theorem coverage_symmetric : forall itrf lst zenith c l cov row, compute_uvw itrf lst zenith c = Ok l ->
  coverage (triangular (length itrf)) l = Ok cov -> In row cov -> Permutation (map uv row) (map opposite (map uv row)).
Proof.
  intros itrf lst zenith c l cov row E C R. apply In_nth_error in R. destruct R as [t R]. destruct (coverage_row _ _ _ _ _ C R) as (old & O & ->).
  destruct (uvw_row _ _ _ _ _ _ _ E O) as (h & d & ->). set (old := map (project h d) (flatten itrf)) in *. set (a := length itrf) in *.
  assert (P : Permutation old (crosses old a ++ autos old a)) by (apply row_perm, row_length).
  assert (A : map opposite (map uv (autos old a)) = map uv (autos old a)).
  { rewrite map_map. apply map_ext_in. intros x X. apply row_autos in X. subst x. unfold opposite, uv. cbn. f_equal; ring. }
  assert (M : map uv (map mirrored (crosses old a)) = map opposite (map uv (crosses old a))).
  { rewrite !map_map. apply map_ext. intro x. unfold opposite, uv, mirrored. cbn. f_equal; ring. }
  assert (D : map opposite (map opposite (map uv (crosses old a))) = map uv (crosses old a)).
  { rewrite !map_map. apply map_ext. intro x. unfold opposite, uv. cbn. f_equal; ring. }
  rewrite !map_app, M, D.
  assert (P1 : Permutation (map uv old) (map uv (crosses old a) ++ map uv (autos old a))) by (rewrite <- map_app; apply Permutation_map, P).
  assert (P2 : Permutation (map opposite (map uv old)) (map opposite (map uv (crosses old a)) ++ map uv (autos old a)))
    by (rewrite <- A, <- map_app; apply Permutation_map, P1).
  eapply perm_trans; [apply Permutation_app_tail, P1|]. eapply perm_trans; [|apply Permutation_app_tail, Permutation_sym, P2].
  rewrite <- !app_assoc. eapply perm_trans; [apply Permutation_app_comm|]. rewrite <- app_assoc.
  eapply perm_trans; [apply Permutation_app_comm|]. rewrite <- app_assoc. apply Permutation_app_head. apply Permutation_app_comm.
Qed.
(** But [w] is not changed of sign: the opposite of a baseline may be missing. *)
Theorem coverage_w_refuted : exists itrf lst zenith c l cov row x, compute_uvw itrf lst zenith c = Ok l /\
  coverage (triangular (length itrf)) l = Ok cov /\ In row cov /\ In x row /\ ~ In (vneg x) row.
Proof.
  exists [mkVec 0 0 0; mkVec 1 0 0], [0], [(0, 0)], (Some (Fixed 0 0)). eexists. eexists. eexists. exists (mkVec 0 0 1). split; [reflexivity|].
  split; [reflexivity|]. split; [left; reflexivity|].
  cbn [flatten tril flat_map seq map app length bsl nth fst snd crosses combine filter is_auto Nat.eqb negb mirrored].
  assert (V : project (0 - 0) 0 (vsub (mkVec 0 0 0) (mkVec 1 0 0)) = mkVec 0 0 1).
  { unfold project, mapply, uvw_matrix, vsub. replace (0 - 0) with 0 by ring. rewrite sin_0, cos_0. vec; ring. }
  assert (Z : forall v, project (0 - 0) 0 (vsub v v) = mkVec 0 0 0).
  { intro v. unfold project, mapply, uvw_matrix, vsub. vec; ring. }
  unfold bsl. cbn [nth]. rewrite !Z, V. split; [right; left; reflexivity|].
  intro H. cbn in H. repeat (destruct H as [H|H]; [apply (f_equal vz) in H; cbn in H; lra|]). exact H.
Qed.
(** [uv_distance]: the whole length of the baseline. *)
Theorem distance_value : forall itrf lst zenith c l t i j p q, length zenith = length lst -> compute_uvw itrf lst zenith c = Ok l ->
  nth_error itrf i = Some p -> nth_error itrf j = Some q -> (j <= i)%nat -> (t < length l)%nat ->
  forall cov, coverage (triangular (length itrf)) l = Ok cov ->
  exists row, nth_error (uv_distance cov) t = Some row /\ nth_error row (i * (i + 1) / 2 + j) = Some (sqrt (square (vsub p q))).
Proof.
  intros itrf lst zenith c l t i j p q Z E P Q H T cov C. unfold uv_distance.
  destruct (nth_error l t) as [old|] eqn:O; [|apply nth_error_None in O; lia].
  assert (TC : exists row, nth_error cov t = Some row).
  { destruct (nth_error cov t) eqn:X; [now eexists|]. apply nth_error_None in X. unfold coverage in C. destruct (_ =? _)%nat; [|discriminate]. injection C as <-.
    rewrite map_length in X. lia. }
  destruct TC as [row R]. exists (map norm row). split; [now apply map_nth_error|]. destruct (uvw_row _ _ _ _ _ _ _ E O) as (h & d & ->).
  assert (X : nth_error (map (project h d) (flatten itrf)) (i * (i + 1) / 2 + j) = Some (seen h d (vsub p q))).
  { rewrite (map_nth_error _ _ _ (flatten_at itrf i j p q P Q H)). f_equal. rewrite <- (project_seen h d p q). reflexivity. }
  pose proof (coverage_kept _ _ _ _ _ _ _ _ C O R X) as K. rewrite (map_nth_error _ _ _ K). f_equal. unfold norm. f_equal.
  rewrite <- (seen_square h d (vsub p q)). reflexivity.
Qed.
Theorem distance_refuted : exists itrf lst zenith c l cov row x, compute_uvw itrf lst zenith c = Ok l /\
  coverage (triangular (length itrf)) l = Ok cov /\ In row cov /\ In x row /\ norm x = 1 /\ sqrt (vx x ^ 2 + vy x ^ 2) = 0.
Proof.
  exists [mkVec 0 0 0; mkVec 1 0 0], [0], [(0, 0)], (Some (Fixed 0 0)). eexists. eexists. eexists. exists (mkVec 0 0 1). split; [reflexivity|].
  split; [reflexivity|]. split; [left; reflexivity|].
  assert (V : project (0 - 0) 0 (vsub (mkVec 0 0 0) (mkVec 1 0 0)) = mkVec 0 0 1).
  { unfold project, mapply, uvw_matrix, vsub. replace (0 - 0) with 0 by ring. rewrite sin_0, cos_0. vec; ring. }
  split.
  - cbn [flatten tril flat_map seq map app length nth fst snd]. unfold bsl. cbn [nth]. rewrite V. right. left. reflexivity.
  - cbn [vx vy]. split; [unfold norm; cbn [vx vy vz]; replace (_ + _ + _) with (1 * 1) by ring; apply sqrt_square; lra|].
    replace (0 ^ 2 + 0 ^ 2) with 0 by ring. apply sqrt_0.
Qed.

(** ** The points of the profiles *)
Lemma upper_above l : upper_half l = above l.
Proof. reflexivity. Qed.
Lemma above_perm l m : Permutation l m -> Permutation (above l) (above m).
Proof.
  induction 1; cbn; try constructor; try (repeat destruct (Rlt_dec _ _); auto using perm_skip, perm_swap, Permutation_refl). eapply perm_trans; eassumption.
Qed.
Lemma above_app l m : above (l ++ m) = above l ++ above m.
Proof. apply filter_app. Qed.
Lemma above_none l : Forall (fun p => snd p = 0) l -> above l = [].
Proof. induction 1 as [|p l H _ IH]; [reflexivity|]. cbn. destruct (Rlt_dec 0 (snd p)); [lra|exact IH]. Qed.
Lemma above_zero l : (length (above l) + length (above (map opposite l)) + length (filter (fun p => if Req_EM_T (snd p) 0 then true else false) l) = length l)%nat.
Proof.
  unfold above. induction l as [|p l IH]; [reflexivity|]. cbn [map filter opposite snd].
  destruct (Rlt_dec 0 (snd p)) as [A|A], (Rlt_dec 0 (- snd p)) as [B|B], (Req_EM_T (snd p) 0) as [C|C]; cbn [length]; try (exfalso; lra); try lia.
Qed.
(** Each pair of antennas is counted once, unless its [v] is zero. *)
Theorem points_counted : forall itrf lst zenith c l cov t row, compute_uvw itrf lst zenith c = Ok l ->
  coverage (triangular (length itrf)) l = Ok cov -> nth_error l t = Some row ->
  exists all, nth_error cov t = Some all /\
    (length (above (map uv all)) + length (filter (fun p => if Req_EM_T (snd p) 0 then true else false) (map uv row)) = triangular (length itrf))%nat.
Proof.
  intros itrf lst zenith c l cov t row E C R.
  assert (TC : exists all, nth_error cov t = Some all).
  { destruct (nth_error cov t) eqn:X; [now eexists|]. apply nth_error_None in X. unfold coverage in C. destruct (_ =? _)%nat; [|discriminate]. injection C as <-.
    rewrite map_length in X. assert (t < length l)%nat by (apply nth_error_Some; congruence). lia. }
  destruct TC as [all A]. exists all. split; [exact A|]. destruct (coverage_row _ _ _ _ _ C A) as (old & O & ->). rewrite R in O. injection O as <-.
  destruct (uvw_row _ _ _ _ _ _ _ E R) as (h & d & ->). set (row := map (project h d) (flatten itrf)) in *. set (a := length itrf) in *.
  assert (P : Permutation row (crosses row a ++ autos row a)) by (apply row_perm, row_length).
  assert (M : map uv (map mirrored (crosses row a)) = map opposite (map uv (crosses row a))).
  { rewrite !map_map. apply map_ext. intro x. unfold opposite, uv, mirrored. cbn. f_equal; ring. }
  assert (N : map uv row = map uv row) by reflexivity.
  rewrite map_app, M, above_app, app_length.
  assert (O : length (above (map opposite (map uv (crosses row a)))) = length (above (map opposite (map uv row)))).
  { assert (X : Permutation (map opposite (map uv row)) (map opposite (map uv (crosses row a)) ++ map opposite (map uv (autos row a)))).
    { rewrite <- !map_app. now apply Permutation_map, Permutation_map. }
    rewrite (Permutation_length (above_perm _ _ X)), above_app, app_length. rewrite (above_none (map opposite (map uv (autos row a)))); [cbn; lia|].
    apply Forall_forall. intros p Hp. rewrite map_map in Hp. apply in_map_iff in Hp. destruct Hp as (x & <- & Hx). apply row_autos in Hx. subst x. cbn. ring. }
  rewrite O, above_zero. rewrite map_length. unfold row. apply row_length.
Qed.
Theorem points_of : forall frequencies cov, upper_half (uv_points frequencies cov) =
  above (match frequencies with
         | None => flat_map (map uv) cov
         | Some fs => flat_map (fun row => flat_map (fun f => map (fun a => (vx a * (f / 299792458), vy a * (f / 299792458))) row) fs) cov
         end).
Proof.
  intros [fs|] cov; [|reflexivity]. rewrite upper_above. f_equal. unfold uv_points. apply flat_map_ext. intro row. apply flat_map_ext. intro f.
  apply map_ext. intro a. unfold wavelength, speed_of_light. destruct (Req_dec f 0) as [->|N]; [unfold Rdiv; rewrite Rinv_0, Rmult_0_r, Rinv_0; f_equal; ring|].
  f_equal; field; lra.
Qed.
