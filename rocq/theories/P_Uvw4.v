(** Profiles and point spread function of a coverage. *)
From Coq Require Import ZArith QArith Reals Bool List Arith Lia Lra.
From Verif Require Import Base M_Polar M_Xst M_Beam M_Area M_Sefd M_Uvw P_Area P_Uvw3.
From Verif Require P_Beam.
Import ListNotations.
Open Scope list_scope.
Open Scope R_scope.

(** ** Bins *)
(** The bins start at [a], have the width [s], and there are [m] of them. *)
Definition bins_from (a s : R) (m : nat) (l : list (R * R)) : Prop :=
  length l = m /\ forall i, (i < m)%nat -> nth_error l i = Some (a + INR i * s, a + INR (S i) * s).
(** The smallest integer that is not less. *)
Definition upper_integer (x : R) (k : Z) : Prop := IZR k - 1 < x <= IZR k.

Lemma rceil_spec x : upper_integer x (rceil x).
Proof. unfold upper_integer, rceil. rewrite opp_IZR. destruct (base_Int_part (- x)). lra. Qed.
Lemma upper_unique x k k' : upper_integer x k -> upper_integer x k' -> k = k'.
Proof. intros [A B] [C D]. assert (IZR k < IZR k' + 1) by lra. assert (IZR k' < IZR k + 1) by lra. rewrite <- plus_IZR in *. apply lt_IZR in H, H0. lia. Qed.
Lemma pairs_seq (e : nat -> R) : forall n k, pairs (map e (seq k n)) = map (fun i => (e i, e (S i))) (seq k (n - 1)).
Proof.
  induction n as [|n IH]; intro k; [reflexivity|]. destruct n as [|n]; [reflexivity|].
  change (seq k (S (S n))) with (k :: seq (S k) (S n)). replace (S (S n) - 1)%nat with (S (S n - 1)) by lia. cbn [seq map]. rewrite <- IH. reflexivity.
Qed.
Lemma nth_seq k n i : (i < n)%nat -> nth_error (seq k n) i = Some (k + i)%nat.
Proof. revert k i. induction n as [|n IH]; intros k [|i] H; try lia; cbn; [f_equal; lia|]. rewrite IH by lia. f_equal. lia. Qed.
Lemma arange_bins a b s k : upper_integer ((b - a) / s) k -> bins_from a s (Z.to_nat k - 1) (pairs (arange a b s)).
Proof.
  intro U. unfold arange. rewrite (upper_unique _ _ _ (rceil_spec _) U). rewrite (pairs_seq (fun i => a + INR i * s)). split; [now rewrite map_length, seq_length|].
  intros i H. erewrite map_nth_error; [|apply nth_seq, H]. reflexivity.
Qed.
Lemma bins_in a s m l b : bins_from a s m l -> In b l -> exists i, (i < m)%nat /\ b = (a + INR i * s, a + INR (S i) * s).
Proof.
  intros [L N] B. apply In_nth_error in B. destruct B as [i B]. assert (H : (i < m)%nat) by (rewrite <- L; apply nth_error_Some; congruence).
  exists i. split; [exact H|]. rewrite N in B by exact H. congruence.
Qed.
Lemma inside_spec b x : inside_bin b x = true <-> fst b <= x <= snd b.
Proof. unfold inside_bin. destruct (Rle_dec (fst b) x), (Rle_dec x (snd b)); split; intros; try lra; try discriminate; auto. Qed.

Definition run (a s : R) (k m : nat) : list (R * R) := map (fun i => (a + INR i * s, a + INR (S i) * s)) (seq k m).
(** In how many bins. *)
Definition times_in (l : list (R * R)) (x : R) : nat := length (filter (fun b => inside_bin b x) l).
Lemma bins_unfold a s m l : bins_from a s m l -> l = run a s 0 m.
Proof.
  intros [L N]. unfold run. apply nth_ext with (d := (0, 0)) (d' := (0, 0)); [now rewrite map_length, seq_length|].
  intros i H. rewrite L in H. rewrite (nth_error_nth _ _ (0, 0) (N i H)). symmetry. apply nth_error_nth. erewrite map_nth_error; [|apply nth_seq, H]. reflexivity.
Qed.
Lemma times_none a s x : 0 < s -> forall m k, x < a + INR k * s -> times_in (run a s k m) x = 0%nat.
Proof.
  intro P. induction m as [|m IH]; intros k H; [reflexivity|]. unfold run. cbn [seq map]. unfold times_in. cbn [filter]. destruct (inside_bin _ x) eqn:E.
  - apply inside_spec in E. cbn [fst snd] in E. lra.
  - apply (IH (S k)). rewrite S_INR. lra.
Qed.
Lemma times_edge a s x : 0 < s -> forall m k, x = a + INR k * s -> times_in (run a s k m) x = Nat.min m 1.
Proof.
  intros P [|m] k H; [reflexivity|]. unfold run. cbn [seq map]. unfold times_in. cbn [filter]. rewrite (proj2 (inside_spec _ _)); [|cbn [fst snd]; rewrite S_INR; lra]. cbn [length].
  pose proof (times_none a s x P m (S k)) as T. unfold times_in, run in T. rewrite T; [cbn; lia|]. rewrite S_INR. lra.
Qed.
Lemma times_covered a s x : 0 < s -> forall m k, a + INR k * s <= x <= a + INR (k + m) * s -> (0 < m)%nat ->
  (1 <= times_in (run a s k m) x <= 2)%nat /\
  ((forall i, (k < i)%nat -> x <> a + INR i * s) -> times_in (run a s k m) x = 1%nat) /\
  (forall i, (k < i < k + m)%nat -> x = a + INR i * s -> times_in (run a s k m) x = 2%nat).
Proof.
  intro P. induction m as [|m IH]; intros k [H1 H2] M; [lia|]. unfold run. cbn [seq map]. unfold times_in. cbn [filter].
  destruct (Rle_dec x (a + INR (S k) * s)) as [Le|Gt].
  - rewrite (proj2 (inside_spec _ _)); [|cbn [fst snd]; lra]. cbn [length]. destruct (Req_dec x (a + INR (S k) * s)) as [E|NE].
    + pose proof (times_edge a s x P m (S k) E) as T. unfold times_in, run in T. rewrite T. split; [lia|]. split; [intro N; exfalso; apply (N (S k)); [lia|exact E]|].
      intros i I X. rewrite E in X. assert (INR i = INR (S k)) by nra. apply INR_eq in H. lia.
    + pose proof (times_none a s x P m (S k) ltac:(lra)) as T. unfold times_in, run in T. rewrite T. split; [lia|]. split; [reflexivity|].
      intros i I X. assert (INR i < INR (S k)) by nra. apply INR_lt in H. lia.
  - destruct (inside_bin (a + INR k * s, a + INR (S k) * s) x) eqn:E; [apply inside_spec in E; cbn [fst snd] in E; lra|].
    assert (M' : (0 < m)%nat). { destruct m; [|lia]. replace (k + 1)%nat with (S k) in H2 by lia. lra. }
    destruct (IH (S k)) as (A & B & C); [replace (S k + m)%nat with (k + S m)%nat by lia; lra|exact M'|]. unfold times_in, run in A, B, C. split; [exact A|]. split.
    + intro N. apply B. intros i I. apply N. lia.
    + intros i I X. apply (C i); [|exact X]. split; [|lia]. assert (INR (S k) < INR i) by nra. apply INR_lt in H. lia.
Qed.
Lemma sum_cons x l : list_sum (x :: l) = (x + list_sum l)%nat.
Proof. reflexivity. Qed.
Lemma count_cons b x d : bin_count b (x :: d) = ((if inside_bin b x then 1 else 0) + bin_count b d)%nat.
Proof. unfold bin_count. cbn. now destruct (inside_bin b x). Qed.
Lemma times_cons b l x : times_in (b :: l) x = ((if inside_bin b x then 1 else 0) + times_in l x)%nat.
Proof. unfold times_in. cbn. now destruct (inside_bin b x). Qed.
Lemma count_exchange (d : list R) : forall l, list_sum (map (fun b => bin_count b d) l) = list_sum (map (times_in l) d).
Proof.
  induction d as [|x d IH]; intro l.
  - induction l as [|b l I]; [reflexivity|]. cbn [map]. rewrite sum_cons, I. reflexivity.
  - cbn [map]. rewrite sum_cons, <- IH. clear IH. induction l as [|b l I]; [reflexivity|]. cbn [map]. rewrite !sum_cons, I, count_cons, times_cons. lia.
Qed.
Lemma list_sum_bounds {A} (f : A -> nat) l : (forall x, In x l -> (1 <= f x <= 2)%nat) -> (length l <= list_sum (map f l) <= 2 * length l)%nat.
Proof.
  induction l as [|x l IH]; intro H; [cbn; lia|]. cbn [map length]. rewrite sum_cons.
  specialize (H x (or_introl eq_refl)) as Hx. assert (IHl := IH (fun y Y => H y (or_intror Y))). lia.
Qed.
Lemma list_sum_ones {A} (f : A -> nat) l : (forall x, In x l -> f x = 1%nat) -> list_sum (map f l) = length l.
Proof.
  induction l as [|x l IH]; intro H; [reflexivity|]. cbn [map length]. rewrite sum_cons, (H x (or_introl eq_refl)), (IH (fun y Y => H y (or_intror Y))). reflexivity.
Qed.
(** The counts: once each value, or twice when it is the edge of two bins. *)
Lemma counts_total a s m l d : 0 < s -> (0 < m)%nat -> bins_from a s m l -> (forall x, In x d -> a <= x <= a + INR m * s) ->
  (length d <= list_sum (map (fun b => bin_count b d) l) <= 2 * length d)%nat /\
  ((forall x i, In x d -> (0 < i)%nat -> x <> a + INR i * s) -> list_sum (map (fun b => bin_count b d) l) = length d).
Proof.
  intros P M B D. rewrite count_exchange. rewrite (bins_unfold _ _ _ _ B). split.
  - apply list_sum_bounds. intros x X. apply (times_covered a s x P m 0); [|exact M]. cbn [INR Nat.add]. specialize (D x X). lra.
  - intro N. apply list_sum_ones. intros x X. apply (times_covered a s x P m 0); [|exact M|]; [cbn [INR Nat.add]; specialize (D x X); lra|]. intros i I. now apply N.
Qed.

(** ** Normalisation *)
Lemma normalised_spec l r : normalised l = Ok r -> exists m, largest l m /\ length r = length l /\
  forall i x, nth_error l i = Some x -> nth_error r i = Some (rdiv x m).
Proof.
  intro E. assert (NE : l <> []) by (intros ->; discriminate). destruct (rmax_spec l NE) as (m & Em & H). unfold normalised in E. rewrite Em in E. cbn [bind] in E.
  injection E as <-. exists m. split; [exact H|]. split; [apply map_length|]. intros i x X. exact (map_nth_error (fun x => rdiv x m) _ _ X).
Qed.
(** Between zero and one, one being reached. *)
Definition unit_peak (l : list (option R)) : Prop := (forall y, In y l -> exists v, y = Some v /\ 0 <= v <= 1) /\ In (Some 1) l.
Lemma normalised_peak l r : (forall x, In x l -> 0 <= x) -> (exists x, In x l /\ 0 < x) -> normalised l = Ok r -> unit_peak r.
Proof.
  intros P (z & Z & Hz) E. destruct (normalised_spec _ _ E) as (m & [Hm Le] & L & N). assert (M : 0 < m) by (specialize (Le z Z); lra). split.
  - intros y Y. apply In_nth_error in Y. destruct Y as [i Y]. assert (I : (i < length l)%nat) by (rewrite <- L; apply nth_error_Some; congruence).
    destruct (nth_error l i) as [x|] eqn:X; [|apply nth_error_None in X; lia]. rewrite (N i x X) in Y. injection Y as <-. unfold rdiv. destruct (Req_EM_T m 0); [lra|].
    apply nth_error_In in X. exists (x / m). split; [reflexivity|]. specialize (P x X). specialize (Le x X). split; [apply Rmult_le_pos; [lra|apply Rlt_le, Rinv_0_lt_compat, M]|].
    apply Rmult_le_reg_r with m; [exact M|]. unfold Rdiv. rewrite Rmult_assoc, Rinv_l by lra. lra.
  - apply In_nth_error in Hm. destruct Hm as [i Hm]. specialize (N i m Hm). apply nth_error_In in N. unfold rdiv in N. destruct (Req_EM_T m 0); [lra|].
    replace (m / m) with 1 in N by (field; lra). exact N.
Qed.

(** ** Azimuthal profile *)
Lemma angle_range p : 0 < snd p -> 0 < uv_angle p < 180.
Proof.
  intro V. unfold uv_angle, uv_norm. destruct p as [a b]. cbn [fst snd] in *. set (n := sqrt (a ^ 2 + b ^ 2)).
  assert (N : 0 < n) by (apply sqrt_lt_R0; nra). assert (N2 : n * n = a ^ 2 + b ^ 2) by (apply sqrt_sqrt; nra).
  assert (X : -1 < a / n < 1).
  { split; apply Rmult_lt_reg_r with n; try exact N; unfold Rdiv; rewrite Rmult_assoc, Rinv_l by lra; rewrite Rmult_1_r.
    - destruct (Rle_lt_dec 0 a); nra.
    - destruct (Rle_lt_dec a 0); nra. }
  pose proof PI_RGT_0 as Pi. pose proof (acos_bound_lt _ X) as B. split.
  - apply Rmult_lt_0_compat; [|now apply Rinv_0_lt_compat]. nra.
  - apply Rmult_lt_reg_r with PI; [exact Pi|]. unfold Rdiv. rewrite Rmult_assoc, Rinv_l by lra. lra.
Qed.
(** The angle of the point, from the axis u. *)
Lemma angle_value p : 0 < snd p ->
  fst p = uv_norm p * cos (uv_angle p * PI / 180) /\ snd p = uv_norm p * sin (uv_angle p * PI / 180).
Proof.
  intro V. unfold uv_angle. pose proof PI_RGT_0 as Pi. replace (acos (fst p / uv_norm p) * 180 / PI * PI / 180) with (acos (fst p / uv_norm p)) by (field; lra).
  unfold uv_norm. destruct p as [a b]. cbn [fst snd] in *. set (n := sqrt (a ^ 2 + b ^ 2)).
  assert (N : 0 < n) by (apply sqrt_lt_R0; nra). assert (N2 : n * n = a ^ 2 + b ^ 2) by (apply sqrt_sqrt; nra).
  assert (X : -1 <= a / n <= 1).
  { split; apply Rmult_le_reg_r with n; try exact N; unfold Rdiv; rewrite Rmult_assoc, Rinv_l by lra; rewrite Rmult_1_r.
    - destruct (Rle_lt_dec 0 a); nra.
    - destruct (Rle_lt_dec a 0); nra. }
  rewrite cos_acos, sin_acos by exact X. split; [field; lra|].
  replace (1 - (a / n)²) with ((b / n) * (b / n)).
  - rewrite sqrt_square; [field; lra|]. apply Rlt_le, Rmult_lt_0_compat; [exact V|now apply Rinv_0_lt_compat].
  - unfold Rsqr. replace (b / n * (b / n)) with (b ^ 2 / (n * n)) by (field; lra). replace (b ^ 2) with (n * n - a ^ 2) by lra. field. lra.
Qed.
Lemma azimuth_bins_from w k : 0 < w -> upper_integer (180 / w) k -> (0 < Z.to_nat k)%nat /\ bins_from 0 w (Z.to_nat k) (azimuth_bins w) /\ 180 <= INR (Z.to_nat k) * w.
Proof.
  intros W [A B]. assert (Q : 0 < 180 / w) by (apply Rmult_lt_0_compat; [lra|now apply Rinv_0_lt_compat]).
  assert (K : (0 < k)%Z) by (apply lt_IZR; lra). assert (U : upper_integer ((180 + w - 0) / w) (k + 1)).
  { unfold upper_integer. rewrite plus_IZR. replace ((180 + w - 0) / w) with (180 / w + 1) by (field; lra). lra. }
  split; [lia|]. split.
  - replace (Z.to_nat k) with (Z.to_nat (k + 1) - 1)%nat by lia. now apply arange_bins.
  - rewrite INR_IZR_INZ, Z2Nat.id by lia. apply Rmult_le_reg_r with (/ w); [now apply Rinv_0_lt_compat|]. rewrite Rmult_assoc, Rinv_r, Rmult_1_r by lra. exact B.
Qed.
Theorem azimuth_shape : forall w k cov angles density, 0 < w -> upper_integer (180 / w) k -> azimuthal_profile None w cov = Ok (angles, density) ->
  length angles = Z.to_nat k /\ length density = Z.to_nat k /\
  forall i, (i < Z.to_nat k)%nat -> nth_error angles i = Some ((INR i + 1 / 2) * w).
Proof.
  intros w k cov angles density W U E. destruct (azimuth_bins_from w k W U) as (K & [L N] & _). unfold azimuthal_profile in E. cbv zeta in E. destruct (normalised _) as [r|] eqn:Er; [|discriminate]. cbn [bind] in E.
  injection E as <- <-. rewrite map_length. split; [exact L|]. split.
  - destruct (normalised_spec _ _ Er) as (m & _ & Lr & _). rewrite Lr, map_length. exact L.
  - intros i I. erewrite map_nth_error; [|apply N, I]. f_equal. unfold middle. cbn [fst snd]. rewrite S_INR. field.
Qed.
(** The counts of the bins, before they are divided by the largest. *)
Definition azimuth_counts (w : R) (cov : list (list vec)) : list nat :=
  map (fun b => bin_count b (map uv_angle (above (flat_map (map uv) cov)))) (azimuth_bins w).
Theorem azimuth_density : forall w cov angles density, 0 < w -> azimuthal_profile None w cov = Ok (angles, density) ->
  (above (flat_map (map uv) cov) <> [] -> unit_peak density /\
     exists m, In m (azimuth_counts w cov) /\ (0 < m)%nat /\ forall i c, nth_error (azimuth_counts w cov) i = Some c -> nth_error density i = Some (Some (INR c / INR m))) /\
  (above (flat_map (map uv) cov) = [] -> forall y, In y density -> y = None).
Proof.
  intros w cov angles density W E. destruct (rceil_spec (180 / w)) as [U1 U2]. destruct (azimuth_bins_from w _ W (conj U1 U2)) as (K & B & T).
  unfold azimuthal_profile in E. cbv zeta in E. rewrite upper_above in E. change (uv_points None cov) with (flat_map (map uv) cov) in E. set (pts := above (flat_map (map uv) cov)) in *. set (d := map uv_angle pts) in *.
  destruct (normalised _) as [r|] eqn:Er; [|discriminate]. injection E as <- <-.
  assert (MM : map (fun b => INR (bin_count b d)) (azimuth_bins w) = map INR (azimuth_counts w cov)) by (unfold azimuth_counts; rewrite map_map; reflexivity).
  rewrite MM in Er. split.
  - intro NE.
    assert (S : (length d <= list_sum (azimuth_counts w cov))%nat).
    { refine (proj1 (proj1 (counts_total 0 w _ _ d W K B _))). intros x X. apply in_map_iff in X. destruct X as (p & <- & Hp). apply filter_In in Hp.
      destruct Hp as [_ Hp]. destruct (Rlt_dec 0 (snd p)) as [V|]; [|discriminate]. pose proof (angle_range p V). lra. }
    assert (LD : (0 < length d)%nat) by (unfold d; rewrite map_length; destruct pts; [congruence|cbn; lia]).
    assert (EX : exists c, In c (azimuth_counts w cov) /\ (0 < c)%nat).
    { clear - S LD. induction (azimuth_counts w cov) as [|c l IH]; [cbn in S; lia|]. destruct c as [|c]; [|exists (Datatypes.S c); split; [now left|lia]].
      destruct (IH S) as (c & C & P). exists c. split; [now right|exact P]. }
    split.
    + apply (normalised_peak (map INR (azimuth_counts w cov))); [|destruct EX as (c & C & P); exists (INR c); split; [now apply in_map|now apply lt_0_INR]|exact Er].
      intros x X. apply in_map_iff in X. destruct X as (c & <- & _). apply pos_INR.
    + destruct (normalised_spec _ _ Er) as (m & [Hm Le] & Lr & N). apply in_map_iff in Hm. destruct Hm as (m' & <- & Hm). exists m'. split; [exact Hm|].
      assert (P : (0 < m')%nat). { destruct EX as (c & C & P). specialize (Le (INR c) (in_map INR _ _ C)). apply INR_le in Le. lia. }
      split; [exact P|]. intros i c Hc. rewrite (N i (INR c)); [|now apply map_nth_error]. unfold rdiv. destruct (Req_EM_T (INR m') 0) as [Z|]; [|reflexivity].
      apply lt_0_INR in P. lra.
  - intros Z y Y. assert (D0 : d = []) by (unfold d; now rewrite Z). destruct (normalised_spec _ _ Er) as (m & [Hm Le] & Lr & N). apply In_nth_error in Y. destruct Y as [i Y].
    assert (I : (i < length (map INR (azimuth_counts w cov)))%nat) by (rewrite <- Lr; apply nth_error_Some; congruence).
    assert (ZC : forall x, In x (map INR (azimuth_counts w cov)) -> x = 0).
    { intros x X. apply in_map_iff in X. destruct X as (c & <- & C). unfold azimuth_counts in C. fold pts in C. fold d in C. rewrite D0 in C. apply in_map_iff in C. destruct C as (b & <- & _). reflexivity. }
    destruct (nth_error (map INR (azimuth_counts w cov)) i) as [x|] eqn:X; [|apply nth_error_None in X; lia]. rewrite (N i x X) in Y. injection Y as <-. unfold rdiv.
    rewrite (ZC m Hm). destruct (Req_EM_T 0 0); [reflexivity|congruence].
Qed.
Theorem azimuth_total : forall w cov, 0 < w ->
  let n := length (above (flat_map (map uv) cov)) in
  (n <= list_sum (azimuth_counts w cov) <= 2 * n)%nat /\
  ((forall p i, In p (above (flat_map (map uv) cov)) -> (0 < i)%nat -> uv_angle p <> INR i * w) -> list_sum (azimuth_counts w cov) = n).
Proof.
  intros w cov W n. destruct (rceil_spec (180 / w)) as [U1 U2]. destruct (azimuth_bins_from w _ W (conj U1 U2)) as (K & B & T).
  set (pts := above (flat_map (map uv) cov)) in *. set (d := map uv_angle pts) in *.
  assert (D : forall x, In x d -> 0 <= x <= 0 + INR (Z.to_nat (rceil (180 / w))) * w).
  { intros x X. apply in_map_iff in X. destruct X as (p & <- & Hp). apply filter_In in Hp.
    destruct Hp as [_ Hp]. destruct (Rlt_dec 0 (snd p)) as [V|]; [|discriminate]. pose proof (angle_range p V). lra. }
  destruct (counts_total 0 w _ _ d W K B D) as [C1 C2]. assert (L : length d = n) by (unfold d, n; apply map_length). rewrite L in *. split; [exact C1|].
  intro H. apply C2. intros x i X I. apply in_map_iff in X. destruct X as (p & <- & Hp). rewrite Rplus_0_l. now apply H.
Qed.
Theorem azimuth_refused : forall frequencies w cov e, 0 < w -> azimuthal_profile frequencies w cov = Err e <-> e = ETypeError /\ frequencies <> None.
Proof.
  intros [fs|] w cov e W; cbn.
  - split; [intros [= <-]; split; [reflexivity|discriminate]|intros [-> _]; reflexivity].
  - split; [|intros [_ X]; congruence]. destruct (rceil_spec (180 / w)) as [U1 U2]. destruct (azimuth_bins_from w _ W (conj U1 U2)) as (K & [L _] & T).
    destruct (azimuth_bins w) as [|b bins]; [cbn in L; lia|]. discriminate.
Qed.
(** A point on the edge of two bins is counted in both. *)
Theorem azimuth_twice_refuted : exists w cov, 0 < w /\ length (above (flat_map (map uv) cov)) = 1%nat /\ list_sum (azimuth_counts w cov) = 2%nat.
Proof.
  exists 90, [[mkVec 0 1 0]]. split; [lra|]. assert (A : above (flat_map (map uv) [[mkVec 0 1 0]]) = [(0, 1)]).
  { cbn. destruct (Rlt_dec 0 1); [reflexivity|lra]. }
  rewrite A. split; [reflexivity|]. unfold azimuth_counts. rewrite A. cbn [map].
  assert (G : uv_angle (0, 1) = 90).
  { unfold uv_angle. cbn [fst]. replace (0 / uv_norm (0, 1)) with 0 by (unfold Rdiv; ring). rewrite acos_0. field. pose proof PI_RGT_0. lra. }
  rewrite G. assert (U : upper_integer (180 / 90) 2) by (unfold upper_integer; lra). destruct (azimuth_bins_from 90 2 ltac:(lra) U) as (_ & B & _).
  rewrite count_exchange. rewrite (bins_unfold _ _ _ _ B). cbn [map]. rewrite sum_cons. cbn [list_sum fold_right]. rewrite Nat.add_0_r.
  apply (times_covered 0 90 90 ltac:(lra) 2 0) with (i := 1%nat); [cbn; lra|lia|cbn; lia|cbn; lra].
Qed.

(** ** Radial profile *)
Section Radial.
Variables (frequencies : option (list R)) (w : R) (cov : list (list vec)).
Hypothesis W : 0 < w.
Let d := map (fun p => sqrt (fst p ^ 2 + snd p ^ 2)) (upper_half (uv_points frequencies cov)).
Lemma radial_positive x : In x d -> 0 < x.
Proof.
  intro X. apply in_map_iff in X. destruct X as (p & <- & Hp). apply filter_In in Hp. destruct Hp as [_ Hp]. destruct (Rlt_dec 0 (snd p)); [|discriminate]. apply sqrt_lt_R0. nra.
Qed.
Lemma radial_bins_from lo hi k : smallest d lo -> largest d hi -> upper_integer ((hi - lo) / w) k ->
  exists bins, radial_bins w d = Ok bins /\ bins_from lo w (Z.to_nat k) bins /\ (0 <= k)%Z /\ hi <= lo + IZR k * w.
Proof.
  intros S L [A B]. unfold radial_bins. rewrite (rmin_of _ _ S), (rmax_of _ _ L). cbn [bind]. eexists. split; [reflexivity|].
  assert (LE : lo <= hi) by (apply S, L). assert (Q : 0 <= (hi - lo) / w) by (apply Rmult_le_pos; [lra|now apply Rlt_le, Rinv_0_lt_compat]).
  assert (K : (0 <= k)%Z). { assert (IZR (-1) < IZR k) by lra. apply lt_IZR in H. lia. }
  split; [|split; [exact K|]].
  - replace (Z.to_nat k) with (Z.to_nat (k + 1) - 1)%nat by lia. apply arange_bins. unfold upper_integer. rewrite plus_IZR. replace ((hi + w - lo) / w) with ((hi - lo) / w + 1) by (field; lra). lra.
  - apply Rmult_le_compat_r with (r := w) in B; [|lra]. unfold Rdiv in B. rewrite Rmult_assoc, Rinv_l, Rmult_1_r in B by lra. lra.
Qed.
(** Refused without points, or when all are at the same distance. *)
Theorem radial_refused : (forall e, radial_profile frequencies w cov = Err e -> e = EValueError) /\
  ((exists r, radial_profile frequencies w cov = Ok r) <-> exists x y, In x d /\ In y d /\ x <> y).
Proof.
  unfold radial_profile. change (map uv_norm (upper_half (uv_points frequencies cov))) with d.
  destruct (list_eq_dec Req_EM_T d []) as [E|NE].
  - rewrite E. cbn. split; [intros e [= <-]; reflexivity|]. split; [intros [r X]; discriminate|intros (x & y & [] & _)].
  - destruct (rmin_spec d NE) as (lo & Elo & S), (rmax_spec d NE) as (hi & Ehi & L). destruct (rceil_spec ((hi - lo) / w)) as [U1 U2].
    destruct (radial_bins_from lo hi _ S L (conj U1 U2)) as (bins & Eb & [Lb _] & K & H). rewrite Eb. cbn [bind]. unfold normalised.
    destruct bins as [|b bins].
    + cbn. split; [intros e [= <-]; reflexivity|]. split; [intros [r X]; discriminate|]. intros (x & y & X & Y & N). exfalso.
      assert (Z0 : rceil ((hi - lo) / w) = 0%Z) by (cbn in Lb; lia). rewrite Z0 in H. apply N. destruct S as [_ S], L as [_ L]. pose proof (S x X). pose proof (S y Y).
      pose proof (L x X). pose proof (L y Y). lra.
    + cbn. split; [discriminate|]. split; [|intros _; now eexists]. intros _. exists lo, hi. split; [apply S|]. split; [apply L|]. intros ->.
      assert (Z0 : upper_integer ((hi - hi) / w) 0) by (unfold upper_integer; replace ((hi - hi) / w) with 0 by (unfold Rdiv; ring); lra).
      rewrite (upper_unique _ _ _ (conj U1 U2) Z0) in Lb. cbn in Lb. discriminate.
Qed.
Theorem radial_profile_value : forall distances density, radial_profile frequencies w cov = Ok (distances, density) ->
  exists lo hi k bins, smallest d lo /\ largest d hi /\ upper_integer ((hi - lo) / w) k /\ bins_from lo w (Z.to_nat k) bins /\
    length distances = Z.to_nat k /\ (forall i, (i < Z.to_nat k)%nat -> nth_error distances i = Some (lo + (INR i + 1 / 2) * w)) /\
    length density = Z.to_nat k /\ unit_peak density /\
    (length d <= list_sum (map (fun b => bin_count b d) bins) <= 2 * length d)%nat /\
    exists m, 0 < m /\ forall i b x, nth_error bins i = Some b -> nth_error distances i = Some x -> nth_error density i = Some (Some (INR (bin_count b d) / x / m)).
Proof.
  unfold radial_profile. change (map uv_norm (upper_half (uv_points frequencies cov))) with d. intros distances density E.
  destruct (list_eq_dec Req_EM_T d []) as [E0|NE]; [rewrite E0 in E; discriminate|].
  destruct (rmin_spec d NE) as (lo & Elo & S), (rmax_spec d NE) as (hi & Ehi & L). destruct (rceil_spec ((hi - lo) / w)) as [U1 U2]. set (k := rceil ((hi - lo) / w)) in *.
  destruct (radial_bins_from lo hi k S L (conj U1 U2)) as (bins & Eb & B & K & H). rewrite Eb in E. cbn [bind] in E. destruct (normalised _) as [r|] eqn:Er; [|discriminate].
  injection E as <- <-. exists lo, hi, k, bins. assert (Lo : 0 < lo) by (apply radial_positive, S). split; [exact S|]. split; [exact L|]. split; [exact (conj U1 U2)|]. split; [exact B|].
  assert (KP : (0 < Z.to_nat k)%nat). { destruct bins as [|b0 bins]; [discriminate|]. destruct B as [B _]. cbn in B. lia. }
  split; [rewrite map_length; apply B|]. split.
  { intros i I. erewrite map_nth_error; [|apply B, I]. f_equal. unfold middle. cbn [fst snd]. rewrite S_INR. field. }
  assert (CT : (length d <= list_sum (map (fun b => bin_count b d) bins) <= 2 * length d)%nat).
  { refine (proj1 (counts_total lo w _ _ d W KP B _)). intros x X. split; [apply S, X|]. eapply Rle_trans; [apply L, X|]. rewrite INR_IZR_INZ, Z2Nat.id by exact K. exact H. }
  assert (MP : forall b, In b bins -> 0 < middle b).
  { intros b Hb. destruct (bins_in _ _ _ _ _ B Hb) as (i & I & ->). unfold middle. cbn [fst snd]. pose proof (pos_INR i). pose proof (pos_INR (Datatypes.S i)). nra. }
  assert (NP : forall x, In x (map (fun b => INR (bin_count b d) / middle b) bins) -> 0 <= x).
  { intros x X. apply in_map_iff in X. destruct X as (b & <- & Hb). apply Rmult_le_pos; [apply pos_INR|]. apply Rlt_le, Rinv_0_lt_compat, MP, Hb. }
  assert (EX : exists x, In x (map (fun b => INR (bin_count b d) / middle b) bins) /\ 0 < x).
  { assert (LD : (0 < length d)%nat) by (destruct d; [congruence|cbn; lia]). assert (S' : (0 < list_sum (map (fun b => bin_count b d) bins))%nat) by lia. clear - S' MP.
    induction bins as [|b l IH]; [cbn in S'; lia|]. cbn [map] in S'. rewrite sum_cons in S'.
    destruct (bin_count b d) as [|c] eqn:C.
    - destruct (IH (fun b' H => MP b' (or_intror H)) S') as (x & X & P). exists x. split; [now right|exact P].
    - exists (INR (bin_count b d) / middle b). split; [now left|]. apply Rmult_lt_0_compat; [apply lt_0_INR; lia|]. apply Rinv_0_lt_compat, MP. now left. }
  destruct (normalised_spec _ _ Er) as (m & [Hm Le] & Lr & N). split; [rewrite Lr, map_length; apply B|]. split; [exact (normalised_peak _ _ NP EX Er)|]. split; [exact CT|].
  exists m. assert (M : 0 < m) by (destruct EX as (x & X & P); specialize (Le x X); lra). split; [exact M|]. intros i b x Hb X.
  rewrite (map_nth_error _ _ _ Hb) in X. injection X as <-. rewrite (N i (INR (bin_count b d) / middle b)); [|exact (map_nth_error (fun b => INR (bin_count b d) / middle b) _ _ Hb)].
  unfold rdiv. destruct (Req_EM_T m 0); [lra|reflexivity].
Qed.
End Radial.
