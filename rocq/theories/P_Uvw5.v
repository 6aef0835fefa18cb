(** Point spread function of a coverage. *)
From Coq Require Import ZArith QArith Reals Bool List Arith Lia Lra.
From Verif Require Import Base M_Polar M_Xst M_Beam M_Area M_Sefd M_Uvw P_Area P_Uvw3.
From Verif Require P_Beam.
Import ListNotations.
Open Scope list_scope.
Open Scope R_scope.

(** ** Specification *)
(** The range of an axis: its extreme values, widened by one half on each side if equal. *)
Definition axis (l : list R) (r : R * R) : Prop :=
  exists lo hi, smallest l lo /\ largest l hi /\ ((lo < hi /\ r = (lo, hi)) \/ (lo = hi /\ r = (lo - 1 / 2, hi + 1 / 2))).
(** [x] is in the [k]-th of [n] equal parts of the range; the last one is closed. *)
Definition in_part (r : R * R) (n k : nat) (x : R) : Prop :=
  (k < n)%nat /\ fst r + INR k * (snd r - fst r) / INR n <= x /\
  (x < fst r + INR (S k) * (snd r - fst r) / INR n \/ (S k = n /\ x = snd r)).
Definition nonzero (frequencies : option (list R)) (cov : list (list vec)) : list (R * R) := filter not_zero (uv_points frequencies cov).

Lemma hist_range_axis l : l <> [] -> axis l (hist_range l).
Proof.
  intro N. destruct (rmin_spec l N) as (lo & El & S), (rmax_spec l N) as (hi & Eh & L). exists lo, hi. split; [exact S|]. split; [exact L|].
  unfold hist_range. rewrite El, Eh. assert (LE : lo <= hi) by (apply S, L). destruct (Req_EM_T lo hi) as [E|E]; [right|left]; (split; [|reflexivity]); [exact E|lra].
Qed.
Lemma axis_range l r x : axis l r -> In x l -> fst r < snd r /\ fst r <= x <= snd r.
Proof. intros (lo & hi & [_ S] & [_ L] & [[H ->]|[-> ->]]) X; cbn [fst snd]; specialize (S x X); specialize (L x X); lra. Qed.

Lemma count_below (f : nat -> bool) m : (forall i, f (S i) = true -> f i = true) ->
  forall i, (i < m)%nat -> (i < length (filter f (seq 0 m)))%nat <-> f i = true.
Proof.
  intro D. assert (D' : forall j i, (i <= j)%nat -> f j = true -> f i = true).
  { induction j as [|j IH]; intros i H F; [replace i with 0%nat by lia; exact F|]. destruct (Nat.eq_dec i (S j)) as [->|N]; [exact F|]. apply IH; [lia|now apply D]. }
  assert (FL : forall m, (length (filter f (seq 0 m)) <= m)%nat).
  { intro k. rewrite <- (seq_length k 0) at 2. generalize (seq 0 k). induction l as [|x l IH]; [cbn; lia|]. cbn. destruct (f x); cbn; lia. }
  induction m as [|m IH]; intros i H; [lia|]. rewrite seq_S, filter_app, app_length. cbn [Nat.add filter]. destruct (f m) eqn:E.
  - assert (A : length (filter f (seq 0 m)) = m).
    { destruct m as [|m']; [reflexivity|]. assert (F : f m' = true) by now apply D. pose proof (proj2 (IH m' ltac:(lia)) F). specialize (FL (S m')). lia. }
    rewrite A. cbn [length]. split; [intros _; apply (D' m); [lia|exact E]|lia].
  - cbn [length]. rewrite Nat.add_0_r. destruct (Nat.eq_dec i m) as [->|N]; [|apply IH; lia]. split; [specialize (FL m); lia|congruence].
Qed.
Lemma bin_of_part r n x : (0 < n)%nat -> fst r < snd r -> fst r <= x <= snd r -> in_part r n (bin_of r n x) x.
Proof.
  intros P L X. pose proof (lt_0_INR n P) as Pn. set (st := (snd r - fst r) / INR n). assert (St : 0 < st) by (apply Rmult_lt_0_compat; [lra|now apply Rinv_0_lt_compat]).
  assert (Full : INR n * st = snd r - fst r) by (unfold st; field; lra).
  set (f := fun i => if Rle_dec (edge r n i) x then true else false). set (c := length (filter f (seq 0 (S n)))).
  assert (F : forall i, f i = true <-> fst r + INR i * st <= x) by (intro i; unfold f, edge; fold st; destruct (Rle_dec _ _); split; intro; try lra; try discriminate; auto).
  assert (D : forall i, f (S i) = true -> f i = true) by (intros i H; apply F in H; apply F; rewrite S_INR in H; lra).
  pose proof (count_below f (S n) D) as C. fold c in C.
  assert (C0 : (0 < c)%nat) by (apply (C 0%nat); [lia|apply F; cbn; lra]).
  assert (CL : (c <= S n)%nat). { unfold c. rewrite <- (seq_length (S n) 0) at 2. generalize (seq 0 (S n)). induction l as [|y l IH]; [cbn; lia|]. cbn. destruct (f y); cbn; lia. }
  unfold in_part. assert (Fold : forall i, fst r + INR i * (snd r - fst r) / INR n = fst r + INR i * st) by (intro; unfold st; field; lra).
  unfold bin_of. fold f c. destruct (Req_EM_T x (snd r)) as [E|E].
  - assert (Fn : f n = true) by (apply F; rewrite Full; lra). apply (C n) in Fn; [|lia]. replace c with (S n) by lia. replace (S n - 2)%nat with (n - 1)%nat by lia.
    rewrite !Fold. split; [lia|]. split; [|right; split; [lia|exact E]]. rewrite E. apply Rle_trans with (fst r + INR n * st); [|rewrite Full; lra].
    apply Rplus_le_compat_l, Rmult_le_compat_r; [lra|]. apply le_INR. lia.
  - assert (NF : ~ (n < c)%nat) by (intro H; apply (C n) in H; [|lia]; apply F in H; rewrite Full in H; lra). rewrite !Fold. split; [lia|]. split.
    + apply F. apply C; lia.
    + left. destruct (Rlt_le_dec x (fst r + INR (S (c - 1)) * st)) as [H|H]; [exact H|]. exfalso. apply F in H. apply C in H; lia.
Qed.
Lemma part_unique r n k k' x : fst r < snd r -> in_part r n k x -> in_part r n k' x -> k = k'.
Proof.
  intros L (K & A & B) (K' & A' & B'). assert (P : 0 < INR n) by (apply lt_0_INR; lia). set (st := (snd r - fst r) / INR n).
  assert (St : 0 < st) by (apply Rmult_lt_0_compat; [lra|now apply Rinv_0_lt_compat]). assert (Full : INR n * st = snd r - fst r) by (unfold st; field; lra).
  assert (Fold : forall i, fst r + INR i * (snd r - fst r) / INR n = fst r + INR i * st) by (intro; unfold st; field; lra). rewrite !Fold in *.
  assert (G : forall i j, (i < n)%nat -> (j < n)%nat -> fst r + INR i * st <= x -> (x < fst r + INR (S j) * st \/ (S j = n /\ x = snd r)) -> (i <= j)%nat).
  { intros i j I J X [Y|[Y _]]; [|lia]. assert (INR i < INR (S j)) by nra. apply INR_lt in H. lia. }
  apply Nat.le_antisymm; [apply (G k k')|apply (G k' k)]; auto.
Qed.
(** A cell counts the points that are in it. *)
Theorem grid_cell : forall n l i j rx ry, (0 < n)%nat -> l <> [] -> axis (map fst l) rx -> axis (map snd l) ry ->
  exists kept, hist2d n l i j = length kept /\ (forall p, In p kept <-> In p l /\ in_part rx n i (fst p) /\ in_part ry n j (snd p)).
Proof.
  intros n l i j rx ry P N X Y. assert (U : forall m r r', axis m r -> axis m r' -> r = r').
  { intros m r r' (lo & hi & S & L & H) (lo' & hi' & S' & L' & H'). assert (lo = lo') by (apply Rle_antisym; [apply S, S'|apply S', S]). assert (hi = hi') by (apply Rle_antisym; [apply L', L|apply L, L']).
    subst. destruct H as [[A ->]|[A ->]], H' as [[A' ->]|[A' ->]]; try lra; reflexivity. }
  assert (Nx : map fst l <> []) by (destruct l; [congruence|discriminate]). assert (Ny : map snd l <> []) by (destruct l; [congruence|discriminate]).
  unfold hist2d. cbv zeta. rewrite (U _ _ _ (hist_range_axis _ Nx) X), (U _ _ _ (hist_range_axis _ Ny) Y). eexists. split; [reflexivity|].
  intro p. rewrite filter_In, andb_true_iff, !Nat.eqb_eq. split.
  - intros (I & <- & <-). destruct (axis_range _ _ (fst p) X (in_map fst _ _ I)) as [A B], (axis_range _ _ (snd p) Y (in_map snd _ _ I)) as [C D].
    split; [exact I|]. split; now apply bin_of_part.
  - intros (I & A & B). destruct (axis_range _ _ (fst p) X (in_map fst _ _ I)) as [Lx Rx], (axis_range _ _ (snd p) Y (in_map snd _ _ I)) as [Ly Ry].
    split; [exact I|]. split; [apply (part_unique rx n _ _ (fst p) Lx)|apply (part_unique ry n _ _ (snd p) Ly)]; auto; now apply bin_of_part.
Qed.

Lemma rsum_cons x l : rsum (x :: l) = x + rsum l.
Proof. reflexivity. Qed.
Lemma rsum_zero {A} (f : A -> R) l : (forall x, In x l -> f x = 0) -> rsum (map f l) = 0.
Proof. induction l as [|x l IH]; intro H; [reflexivity|]. cbn [map]. rewrite rsum_cons, (H x (or_introl eq_refl)). rewrite IH; [lra|]. intros y Y. apply H. now right. Qed.
Lemma rsum_one {A} (eqb : A -> A -> bool) (c : A) (l : list A) : (forall x y, eqb x y = true <-> x = y) -> NoDup l -> In c l ->
  rsum (map (fun x => if eqb c x then 1 else 0) l) = 1.
Proof.
  intros E. induction 1 as [|x l N ND IH]; intro H; [destruct H|]. cbn [map]. rewrite rsum_cons. destruct (eqb c x) eqn:Ex.
  - apply E in Ex. subst x. rewrite rsum_zero; [lra|]. intros y Y. destruct (eqb c y) eqn:Ey; [|reflexivity]. apply E in Ey. congruence.
  - destruct H as [->|H]; [rewrite (proj2 (E c c) eq_refl) in Ex; discriminate|]. rewrite (IH H). lra.
Qed.
Lemma rsum_add {A} (f g : A -> R) l : rsum (map (fun x => f x + g x) l) = rsum (map f l) + rsum (map g l).
Proof. induction l as [|x l IH]; cbn [map]; [cbn; lra|]. rewrite !rsum_cons, IH. lra. Qed.
Lemma nodup_prod {A B} (l : list A) (m : list B) : NoDup l -> NoDup m -> NoDup (list_prod l m).
Proof.
  induction 1 as [|x l N ND IH]; intro M; [constructor|]. cbn. assert (G : forall l1 l2 : list (A * B), NoDup l1 -> NoDup l2 -> (forall p, In p l1 -> ~ In p l2) -> NoDup (l1 ++ l2)).
  { induction 1 as [|p l1 NP ND1 IH1]; intros N2 D; [exact N2|]. cbn. constructor; [|apply IH1; [exact N2|]; intros q Q; apply D; now right].
    rewrite in_app_iff. intros [Q|Q]; [auto|]. apply (D p (or_introl eq_refl) Q). }
  apply G; [|now apply IH|].
  - clear - M. induction M as [|y m N ND I]; [constructor|]. cbn. constructor; [|exact I]. rewrite in_map_iff. intros (z & [= ->] & Z). auto.
  - intros p P Q. apply in_map_iff in P. destruct P as (y & <- & _). apply in_prod_iff in Q. destruct Q as [Q _]. auto.
Qed.
Definition eqb2 (a b : nat * nat) : bool := (fst a =? fst b)%nat && (snd a =? snd b)%nat.
Lemma eqb2_eq a b : eqb2 a b = true <-> a = b.
Proof. unfold eqb2. rewrite andb_true_iff, !Nat.eqb_eq. destruct a, b. cbn. split; [intros [-> ->]; reflexivity|now intros [= -> ->]]. Qed.
Lemma cells_total (c : R * R -> nat * nat) grid l : NoDup grid -> (forall p, In p l -> In (c p) grid) ->
  rsum (map (fun ij => INR (length (filter (fun p => eqb2 (c p) ij) l))) grid) = INR (length l).
Proof.
  intros ND. induction l as [|p l IH]; intro H.
  - cbn. apply rsum_zero. reflexivity.
  - transitivity (rsum (map (fun ij => (if eqb2 (c p) ij then 1 else 0) + INR (length (filter (fun p => eqb2 (c p) ij) l))) grid)).
    + apply P_Beam.rsum_ext. intros ij _. cbn [filter]. destruct (eqb2 (c p) ij); cbn [length]; [rewrite S_INR|]; lra.
    + rewrite rsum_add, (rsum_one eqb2 (c p) grid eqb2_eq ND), IH; [cbn [length]; rewrite S_INR; lra| |apply H; now left]. intros q Q. apply H. now right.
Qed.
Lemma hist_total n l : (0 < n)%nat ->
  rsum (map (fun ij => INR (hist2d n l (fst ij) (snd ij))) (list_prod (seq 0 n) (seq 0 n))) = INR (length l).
Proof.
  intro P. destruct l as [|p0 l0]; [cbn; apply rsum_zero; reflexivity|]. set (l := p0 :: l0).
  assert (Nx : map fst l <> []) by discriminate. assert (Ny : map snd l <> []) by discriminate.
  rewrite <- (cells_total (fun p => (bin_of (hist_range (map fst l)) n (fst p), bin_of (hist_range (map snd l)) n (snd p))) (list_prod (seq 0 n) (seq 0 n)) l).
  - apply P_Beam.rsum_ext. intros [i j] _. reflexivity.
  - apply nodup_prod; apply seq_NoDup.
  - intros p I. apply in_prod_iff. destruct (axis_range _ _ (fst p) (hist_range_axis _ Nx) (in_map fst _ _ I)) as [A B], (axis_range _ _ (snd p) (hist_range_axis _ Ny) (in_map snd _ _ I)) as [C D].
    destruct (bin_of_part _ n _ P A B) as (K & _), (bin_of_part _ n _ P C D) as (K' & _). rewrite !in_seq. split; lia.
Qed.

(** ** The transform *)
Lemma csum_scaled {A} (f : A -> R) l : csum (map (fun x => cscale (f x) (1, 0)) l) = (rsum (map f l), 0).
Proof. induction l as [|x l IH]; [reflexivity|]. cbn [map]. rewrite P_Beam.csum_cons, IH, rsum_cons. unfold cplus, cscale, re, im. cbn [fst snd]. f_equal; ring. Qed.
Lemma shifted_centre n : (0 < n)%nat -> shifted n (n / 2) = 0%nat.
Proof.
  intro P. unfold shifted. pose proof (Nat.div_lt n 2). replace (n / 2 + (n - n / 2))%nat with n; [apply Nat.mod_same; lia|].
  pose proof (Nat.div_le_upper_bound n 2 n). lia.
Qed.
Theorem psf_refused : forall frequencies n cov e, psf frequencies n cov = Err e <-> e = EValueError /\ n = 0%nat.
Proof.
  intros frequencies n cov e. unfold psf. destruct (Nat.eqb_spec n 0) as [->|N].
  - split; [intros [= <-]; auto|intros [-> _]; reflexivity].
  - split; [discriminate|intros [_ ->]; congruence].
Qed.
(** At the center, the number of points. *)
Theorem psf_centre : forall frequencies n cov g, psf frequencies n cov = Ok g ->
  g (n / 2)%nat (n / 2)%nat = (INR (length (nonzero frequencies cov)), 0).
Proof.
  intros frequencies n cov g. unfold psf. destruct (Nat.eqb_spec n 0) as [->|N]; [discriminate|]. intros [= <-]. rewrite shifted_centre by lia. unfold fft2.
  rewrite <- (hist_total n (nonzero frequencies cov)) by lia. rewrite <- csum_scaled. f_equal. apply map_ext. intros [i j]. cbn [fst snd].
  rewrite !Nat.mul_0_r. cbn [INR]. replace (- 2 * PI * (0 / INR n + 0 / INR n)) with 0 by (unfold Rdiv; ring). unfold cis. now rewrite cos_0, sin_0.
Qed.
(** Nowhere more. *)
Theorem psf_bound : forall frequencies n cov g a b, psf frequencies n cov = Ok g ->
  re (g a b) ^ 2 + im (g a b) ^ 2 <= INR (length (nonzero frequencies cov)) ^ 2.
Proof.
  intros frequencies n cov g a b. unfold psf. destruct (Nat.eqb_spec n 0) as [->|N]; [discriminate|]. intros [= <-]. rewrite <- (hist_total n (nonzero frequencies cov)) by lia.
  unfold fft2. set (ph := fun ij : nat * nat => - 2 * PI * (INR (fst ij * shifted n a) / INR n + INR (snd ij * shifted n b) / INR n)).
  pose proof (P_Beam.sum_bound (fun ij => INR (hist2d n (nonzero frequencies cov) (fst ij) (snd ij))) ph (list_prod (seq 0 n) (seq 0 n))) as [_ S]. unfold power in S.
  eapply Rle_trans; [exact S|]. right. f_equal. apply P_Beam.rsum_ext. intros ij _. apply Rabs_pos_eq, pos_INR.
Qed.
Lemma cis_turns x k : cis (x + 2 * INR k * PI) = cis x.
Proof. unfold cis. now rewrite cos_period, sin_period. Qed.
Lemma turn_opposite n k k' i : (0 < n)%nat -> (Nat.divide n (k + k'))%nat -> exists m, 2 * PI * (INR (i * k) / INR n) = - (2 * PI * (INR (i * k') / INR n)) + 2 * INR m * PI.
Proof.
  intros P [q Q]. exists (i * q)%nat. pose proof (lt_0_INR n P) as Pn. rewrite !mult_INR. assert (E : INR k + INR k' = INR q * INR n) by (rewrite <- plus_INR, <- mult_INR; now rewrite Q).
  replace (INR k) with (INR q * INR n - INR k') by lra. field. lra.
Qed.
Lemma fft_conj n g k l k' l' : (0 < n)%nat -> Nat.divide n (k + k') -> Nat.divide n (l + l') -> fft2 n g k l = cconj (fft2 n g k' l').
Proof.
  intros P K L. unfold fft2. rewrite <- P_Beam.csum_conj, map_map. f_equal. apply map_ext. intros [i j]. cbn [fst snd].
  destruct (turn_opposite n k' k i P) as (m & M); [now rewrite Nat.add_comm|]. destruct (turn_opposite n l' l j P) as (q & Q); [now rewrite Nat.add_comm|].
  replace (cconj (cscale (g i j) (cis (- 2 * PI * (INR (i * k') / INR n + INR (j * l') / INR n))))) with (cscale (g i j) (cis (2 * PI * (INR (i * k') / INR n + INR (j * l') / INR n)))).
  - f_equal. rewrite <- (cis_turns _ (m + q)). f_equal. rewrite Rmult_plus_distr_l. replace (2 * PI * (INR (i * k') / INR n + INR (j * l') / INR n)) with (2 * PI * (INR (i * k') / INR n) + 2 * PI * (INR (j * l') / INR n)) by ring.
    rewrite M, Q, plus_INR. ring.
  - replace (- 2 * PI * (INR (i * k') / INR n + INR (j * l') / INR n)) with (- (2 * PI * (INR (i * k') / INR n + INR (j * l') / INR n))) by ring. rewrite P_Beam.cis_neg.
    unfold cconj, cscale, cis. cbn. f_equal; ring.
Qed.
(** The points opposite with respect to the center are conjugate. *)
Theorem psf_conjugate : forall frequencies n cov g a b a' b', psf frequencies n cov = Ok g ->
  (a + a' = 2 * (n / 2))%nat -> (b + b' = 2 * (n / 2))%nat -> g a b = cconj (g a' b').
Proof.
  intros frequencies n cov g a b a' b'. unfold psf. destruct (Nat.eqb_spec n 0) as [->|N]; [discriminate|]. intros [= <-] A B.
  assert (G : forall x y, (x + y = 2 * (n / 2))%nat -> Nat.divide n (shifted n x + shifted n y)).
  { intros x y H. unfold shifted. apply Nat.mod_divide; [lia|]. rewrite <- Nat.add_mod by lia. apply Nat.mod_divide; [lia|]. exists 2%nat.
    pose proof (Nat.div_le_upper_bound n 2 n). lia. }
  apply fft_conj; [lia|apply G, A|apply G, B].
Qed.
