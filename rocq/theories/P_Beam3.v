(** Proofs about [get_beamform] (M_Beam.v). *)
From Coq Require Import ZArith Reals Bool List Arith Lia Lra Psatz Permutation Sorting.Sorted.
From Verif Require Import Base M_Polar M_Xst P_Xst M_Beam P_Beam.
Import ListNotations.
Open Scope list_scope.
Open Scope R_scope.

(** ** Specification *)
(** A signal gives one sample per Mini-Array of the file, by its place there; the file
    keeps the correlations of a series of signals. *)
Definition correlation (samples : list (nat -> cpx)) (p : nat * nat) : cpx :=
  csum (map (fun e => cmult (e (fst p)) (cconj (e (snd p)))) samples).
Definition correlations (samples : list (nat -> cpx)) (n : nat) : list cpx := map (correlation samples) (tril n).
(** The power of the weighted sum of the signals of some Mini-Arrays. *)
Definition steered (members : list nat) (factor : nat -> cpx) (e : nat -> cpx) : R :=
  power (csum (map (fun a => cmult (factor a) (e a)) members)).
(** Phase which brings back a wave of the direction [g] on a position. *)
Definition steering (frequency : R) (g p : vec) : cpx :=
  cis (- 2 * PI / wavelength frequency * vdot (vmat p bf_rotation) g).

(** ** Sums over a square *)
Definition square (m : nat) (F : nat -> nat -> R) : R := rsum (flat_map (fun i => map (F i) (seq 0 m)) (seq 0 m)).
Lemma rsum_cons x l : rsum (x :: l) = x + rsum l.
Proof. reflexivity. Qed.
Lemma rsum_app l m : rsum (l ++ m) = rsum l + rsum m.
Proof. induction l as [|x l IH]; [change (rsum ([] ++ m)) with (rsum m); change (rsum []) with 0; ring|]. change ((x :: l) ++ m) with (x :: (l ++ m)). rewrite !rsum_cons, IH. ring. Qed.
Lemma square_ext m F G : (forall i j, (i < m)%nat -> (j < m)%nat -> F i j = G i j) -> square m F = square m G.
Proof.
  intros H. unfold square. f_equal. assert (K : forall l, (forall i, In i l -> (i < m)%nat) -> flat_map (fun i => map (F i) (seq 0 m)) l = flat_map (fun i => map (G i) (seq 0 m)) l).
  { induction l as [|i l IH]; intros L; [reflexivity|]. cbn [flat_map]. rewrite IH by (intros; apply L; now right). f_equal.
    apply map_ext_in. intros j J. apply in_seq in J. apply H; [apply L; now left|lia]. }
  apply K. intros i I. apply in_seq in I. lia.
Qed.
Lemma rsum_plus {A} (f g : A -> R) l : rsum (map (fun x => f x + g x) l) = rsum (map f l) + rsum (map g l).
Proof. induction l as [|x l IH]; cbn [map]; [change (rsum []) with 0; ring|]. rewrite !rsum_cons, IH. ring. Qed.
Lemma square_plus m F G : square m (fun i j => F i j + G i j) = square m F + square m G.
Proof.
  unfold square. generalize (seq 0 m) at 2 4 6. induction l as [|i l IH]; cbn [flat_map]; [change (rsum []) with 0; ring|].
  rewrite !rsum_app, IH, rsum_plus. ring.
Qed.
Lemma square_zero m : square m (fun _ _ => 0) = 0.
Proof.
  unfold square. generalize (seq 0 m) at 2. induction l as [|i l IH]; cbn [flat_map]; [reflexivity|]. rewrite rsum_app, IH.
  generalize (seq 0 m). induction l0 as [|j l0 IH0]; cbn [map]; [change (rsum []) with 0; ring|]. rewrite rsum_cons. lra.
Qed.
Lemma row_product a (z : nat -> cpx) l : rsum (map (fun j => re (cmult a (cconj (z j)))) l) = re (cmult a (cconj (csum (map z l)))).
Proof.
  induction l as [|j l IH]; cbn [map]; [change (csum []) with (0, 0); unfold cmult, cconj, re, im; cbn [fst snd]; rewrite ?Ropp_0; change (rsum []) with 0; ring|].
  rewrite rsum_cons, csum_cons, IH. unfold cplus, cmult, cconj, re, im; cbn [fst snd]; ring.
Qed.
Lemma square_power m (z : nat -> cpx) : square m (fun i j => re (cmult (z i) (cconj (z j)))) = power (csum (map z (seq 0 m))).
Proof.
  unfold square. assert (K : forall l, rsum (flat_map (fun i => map (fun j => re (cmult (z i) (cconj (z j)))) (seq 0 m)) l) =
    re (cmult (csum (map z l)) (cconj (csum (map z (seq 0 m)))))).
  { induction l as [|i l IH]; cbn [flat_map map]; [change (csum []) with (0, 0); unfold cmult, cconj, re, im; cbn [fst snd]; rewrite ?Ropp_0; change (rsum []) with 0; ring|].
    rewrite rsum_app, IH, row_product, csum_cons. unfold cplus, cmult, cconj, re, im; cbn [fst snd]; ring. }
  rewrite K. unfold power, cmult, cconj, re, im; cbn [fst snd]; ring.
Qed.

(** ** Indices *)
Lemma isin_in x l : isin x l = true <-> In x l.
Proof.
  unfold isin. rewrite existsb_exists. split; [intros (y & I & E); apply Nat.eqb_eq in E; now subst|]. intros I. exists x. split; [assumption|apply Nat.eqb_refl].
Qed.
Lemma tril_in n i j : In (i, j) (tril n) <-> (j <= i < n)%nat.
Proof.
  unfold tril. rewrite in_flat_map. split.
  - intros (k & K & I). apply in_seq in K. apply in_map_iff in I as (l & E & L). injection E as <- <-. apply in_seq in L. lia.
  - intros L. exists i. split; [apply in_seq; lia|]. apply in_map_iff. exists j. split; [reflexivity|apply in_seq; lia].
Qed.
Lemma filter_map_comm {A B} (p : B -> bool) (f : A -> B) l : filter p (map f l) = map f (filter (fun x => p (f x)) l).
Proof. induction l as [|x l IH]; cbn; [reflexivity|]. destruct (p (f x)); cbn; now rewrite IH. Qed.
Lemma filter_all {A} (p : A -> bool) l : (forall x, In x l -> p x = true) -> filter p l = l.
Proof. induction l as [|x l IH]; intros H; cbn; [reflexivity|]. rewrite H by now left. now rewrite IH by (intros; apply H; now right). Qed.
Lemma filter_none {A} (p : A -> bool) l : (forall x, In x l -> p x = false) -> filter p l = [].
Proof. induction l as [|x l IH]; intros H; cbn; [reflexivity|]. rewrite H by now left. apply IH. intros; apply H; now right. Qed.

(** The pairs kept by the mask are the lower triangle of the Mini-Arrays kept. *)
Lemma tril_filter (k : nat -> bool) n :
  filter (fun p => k (fst p) && k (snd p)) (tril n) =
  map (fun p => (nth (fst p) (filter k (seq 0 n)) 0%nat, nth (snd p) (filter k (seq 0 n)) 0%nat)) (tril (length (filter k (seq 0 n)))).
Proof.
  induction n as [|n IH]; [reflexivity|]. rewrite tril_S, filter_app, IH, filter_map_comm. cbn [fst snd].
  assert (ROW : filter (fun x => k n && k x) (seq 0 (S n)) = if k n then filter k (seq 0 (S n)) else []).
  { destruct (k n); [now apply filter_ext|now apply filter_none]. }
  rewrite ROW. clear ROW IH.
  assert (SQ : filter k (seq 0 (S n)) = filter k (seq 0 n) ++ (if k n then [n] else [])) by (rewrite seq_S, filter_app; reflexivity).
  rewrite SQ. clear SQ. set (l := filter k (seq 0 n)). destruct (k n).
  - replace (length (l ++ [n])) with (S (length l)) by (rewrite app_length; cbn; lia). rewrite (tril_S (length l)), (map_app _ (tril (length l))). f_equal.
    + apply map_ext_in. intros [i j] I. apply tril_in in I. cbn [fst snd]. rewrite !app_nth1 by lia. reflexivity.
    + rewrite map_map. cbn [fst snd]. rewrite (app_nth2 l [n]), Nat.sub_diag by lia. cbn [nth].
      transitivity (map (fun j => (n, j)) (map (fun j => nth j (l ++ [n]) 0%nat) (seq 0 (S (length l))))); [f_equal|apply map_map].
      apply (nth_ext _ _ 0%nat 0%nat); [rewrite map_length, seq_length, app_length; cbn; lia|].
      intros x X. rewrite app_length in X. cbn [length] in X.
      rewrite (nth_indep (map _ _) _ ((fun j => nth j (l ++ [n]) 0) 0)%nat) by (rewrite map_length, seq_length; lia).
      rewrite (map_nth (fun j => nth j (l ++ [n]) 0%nat)), seq_nth by lia. reflexivity.
  - cbn [map]. now rewrite !app_nil_r.
Qed.

(** ** The matrices *)
Lemma assigned_map pairs (f : nat * nat -> cpx) i j :
  assigned pairs (map f pairs) i j = if existsb (fun p => (fst p =? i)%nat && (snd p =? j)%nat) pairs then Some (f (i, j)) else None.
Proof.
  induction pairs as [|[x y] l IH]; [reflexivity|]. cbn [map assigned existsb fst snd]. rewrite IH.
  destruct (existsb _ l); [rewrite orb_true_r; reflexivity|]. rewrite orb_false_r.
  destruct (Nat.eqb_spec x i) as [->|]; [|reflexivity]. destruct (Nat.eqb_spec y j) as [->|]; reflexivity.
Qed.
Lemma exists_pair l i j : existsb (fun p : nat * nat => (fst p =? i)%nat && (snd p =? j)%nat) l = true <-> In (i, j) l.
Proof.
  rewrite existsb_exists. split.
  - intros ([x y] & I & E). cbn in E. apply andb_true_iff in E as [A B]. apply Nat.eqb_eq in A, B. now subst.
  - intros I. exists (i, j). cbn. rewrite !Nat.eqb_refl. split; [assumption|reflexivity].
Qed.
Lemma hermitian_value init m (f : nat * nat -> cpx) i j : (i < m)%nat -> (j < m)%nat ->
  hermitian init m (map f (tril m)) i j = if (j <? i)%nat then f (i, j) else cconj (f (j, i)).
Proof.
  intros I J. unfold hermitian. cbv zeta.
  set (at_low := fun p : nat * nat => match assigned (tril m) (map f (tril m)) (fst p) (snd p) with Some v => v | None => init end).
  assert (LOW : forall a b, (b <= a < m)%nat -> at_low (a, b) = f (a, b)).
  { intros a b L. unfold at_low. cbn [fst snd]. rewrite assigned_map, (proj2 (exists_pair (tril m) a b)) by now apply tril_in. reflexivity. }
  change (match assigned (map swap (tril m)) (map (fun p => cconj (at_low p)) (tril m)) i j with Some v => v | None => at_low (i, j) end =
    if (j <? i)%nat then f (i, j) else cconj (f (j, i))).
  replace (map (fun p => cconj (at_low p)) (tril m)) with (map (fun p => cconj (at_low (swap p))) (map swap (tril m)))
    by (rewrite map_map; apply map_ext; intros [x y]; reflexivity).
  rewrite (assigned_map (map swap (tril m)) (fun p => cconj (at_low (swap p))) i j). destruct (existsb _ (map swap (tril m))) eqn:E.
  - apply exists_pair in E. apply in_map_iff in E as ([x y] & X & T). cbn in X. injection X as -> ->. apply tril_in in T.
    destruct (Nat.ltb_spec j i); [lia|]. change (cconj (at_low (j, i)) = cconj (f (j, i))). now rewrite LOW by lia.
  - destruct (Nat.ltb_spec j i) as [L|L]; [change (at_low (i, j) = f (i, j)); apply LOW; lia|]. exfalso.
    assert (In (i, j) (map swap (tril m))). { apply in_map_iff. exists (j, i). split; [reflexivity|apply tril_in; lia]. }
    apply exists_pair in H. congruence.
Qed.

(** ** The selection *)
Lemma real_in total sel k : In k (real_indices total sel) <-> In k sel /\ (k < total)%nat.
Proof. unfold real_indices. rewrite filter_In, isin_in, in_seq. intuition lia. Qed.
Lemma real_nodup total sel : NoDup (real_indices total sel).
Proof. apply NoDup_filter, seq_NoDup. Qed.
Lemma real_sorted total sel : StronglySorted lt (real_indices total sel).
Proof. apply StronglySorted_filter, StronglySorted_seq. Qed.
Lemma places_in file sel k : In k (ma_indices file sel) <-> (k < length file)%nat /\ In (nth k file 0%nat) sel.
Proof. unfold ma_indices. rewrite filter_In, isin_in, in_seq. intuition lia. Qed.
Lemma places_nodup file sel : NoDup (ma_indices file sel).
Proof. apply NoDup_filter, seq_NoDup. Qed.
Lemma nodup_map_in {A B} (f : A -> B) l : NoDup l -> (forall x y, In x l -> In y l -> f x = f y -> x = y) -> NoDup (map f l).
Proof.
  induction 1 as [|x l N D IH]; intros H; cbn; constructor.
  - intros I. apply in_map_iff in I as (y & E & Y). apply N. rewrite (H x y); [assumption|now left|now right|congruence].
  - apply IH. intros a b Ia Ib. apply H; now right.
Qed.
Lemma ids_perm file sel : NoDup file -> NoDup sel -> (forall k, In k sel -> In k file) ->
  Permutation (map (fun k => nth k file 0%nat) (ma_indices file sel)) sel.
Proof.
  intros F S H. apply NoDup_Permutation; [|assumption|].
  - apply nodup_map_in; [apply places_nodup|]. intros x y X Y E. apply places_in in X, Y. apply (proj1 (NoDup_nth file 0%nat) F); tauto.
  - intros k. rewrite in_map_iff. split.
    + intros (x & <- & X). now apply places_in in X.
    + intros K. destruct (In_nth file k 0%nat (H k K)) as (x & L & E). exists x. split; [assumption|]. apply places_in. rewrite E. now split.
Qed.
Lemma places_length file sel : NoDup file -> NoDup sel -> (forall k, In k sel -> In k file) -> length (ma_indices file sel) = length sel.
Proof. intros F S H. rewrite <- (Permutation_length (ids_perm file sel F S H)). now rewrite map_length. Qed.

(** ** The beamformer *)
Lemma beamform_general total positions file sel samples cal f g c :
  (forall k, In k (real_indices total sel) -> In k file) ->
  c = match cal with None => @repeat cpx (1, 0) (length (ma_indices file (real_indices total sel))) | Some t => map t (real_indices total sel) end ->
  length c = length (ma_indices file (real_indices total sel)) ->
  beamform total positions file sel (correlations samples (length file)) cal f g =
  Ok (rsum (map (fun e => power (csum (map (fun i => cmult (cmult (nth i c (0, 0)) (steering f g (positions (nth i (ma_indices file (real_indices total sel)) 0%nat))))
       (e (nth i (ma_indices file (real_indices total sel)) 0%nat))) (seq 0 (length c))))) samples)).
Proof.
  intros H EC L. unfold beamform. cbv zeta. rewrite <- EC. set (real := real_indices total sel) in *.
  destruct (existsb (fun k => negb (isin k file)) real) eqn:X.
  { apply existsb_exists in X as (k & K & Y). apply H, isin_in in K. rewrite K in Y. discriminate. }
  set (mas := ma_indices file real) in *. rewrite L, Nat.eqb_refl. cbn [negb]. f_equal.
  set (m := length mas) in *.
  assert (KEPT : map fst (filter snd (combine (combine (tril (length file)) (correlations samples (length file)))
       (map (fun p => isin (fst p) mas && isin (snd p) mas) (tril (length file))))) =
     map (fun q => ((nth (fst q) mas 0%nat, nth (snd q) mas 0%nat), correlation samples (nth (fst q) mas 0%nat, nth (snd q) mas 0%nat))) (tril m)).
  { assert (G : forall l, map fst (filter snd (combine (combine l (map (correlation samples) l)) (map (fun p : nat * nat => isin (fst p) mas && isin (snd p) mas) l))) =
      map (fun p => (p, correlation samples p)) (filter (fun p => isin (fst p) mas && isin (snd p) mas) l)).
    { induction l as [|p l IH]; [reflexivity|]. cbn [map combine filter snd]. destruct (isin (fst p) mas && isin (snd p) mas); cbn [map fst]; now rewrite IH. }
    unfold correlations. rewrite G.
    assert (MS : mas = filter (fun k => isin k mas) (seq 0 (length file))).
    { unfold mas at 1, ma_indices. apply filter_ext_in. intros k K. apply in_seq in K. apply eq_true_iff_eq. rewrite !isin_in. unfold mas. rewrite places_in. intuition lia. }
    rewrite (tril_filter (fun k => isin k mas) (length file)), <- MS, map_map. reflexivity. }
  rewrite KEPT, !map_map. cbn [fst snd].
  set (s := fun i => nth i mas 0%nat). set (d := fun i => steering f g (positions (s i))).
  set (z := fun (e : nat -> cpx) i => cmult (cmult (nth i c (0, 0)) (d i)) (e (s i))).
  assert (PH : forall p : nat * nat, cis (- 2 * PI / wavelength f * bf_dphi (positions (s (fst p))) (positions (s (snd p))) g) = cmult (d (fst p)) (cconj (d (snd p)))).
  { intros p. unfold d, steering. rewrite <- cis_neg, <- cis_plus. f_equal. unfold bf_dphi, vdot, vsub. cbn [vx vy vz]. ring. }
  transitivity (square m (fun i j => re (cmult (cmult (correlation samples (s i, s j)) (cmult (nth i c (0, 0)) (cconj (nth j c (0, 0))))) (cmult (d i) (cconj (d j)))))).
  - apply square_ext. intros i j I J. f_equal. f_equal; [f_equal|].
    + etransitivity; [exact (hermitian_value (0, 0) m (fun q => correlation samples (s (fst q), s (snd q))) i j I J)|]. cbn [fst snd].
      destruct (j <? i)%nat; [reflexivity|]. unfold correlation. rewrite <- csum_conj, map_map. f_equal. apply map_ext. intros e. cbn [fst snd]. ceq.
    + etransitivity; [exact (hermitian_value (1, 0) m (fun q => cis (- 2 * PI / wavelength f * bf_dphi (positions (s (fst q))) (positions (s (snd q))) g)) i j I J)|].
      cbv beta. rewrite !PH. cbn [fst snd]. destruct (j <? i)%nat; [reflexivity|]. ceq.
  - clear KEPT. induction samples as [|e l IH].
    + cbn [map]. change (rsum []) with 0. rewrite <- (square_zero m). apply square_ext. intros i j _ _. unfold correlation. cbn [map].
      change (csum []) with (0, 0). unfold cmult, re, im; cbn [fst snd]; ring.
    + cbn [map]. rewrite rsum_cons, <- IH. clear IH.
      change (fun i => cmult (cmult (nth i c (0, 0)) (steering f g (positions (nth i mas 0%nat)))) (e (nth i mas 0%nat))) with (z e).
      rewrite <- (square_power m (z e)), <- square_plus. apply square_ext. intros i j _ _. unfold correlation. cbn [map]. rewrite csum_cons. cbn [fst snd].
      unfold z, cmult, cplus, cconj, re, im; cbn [fst snd]; ring.
Qed.

(** ** Theorems *)
(** A selection of Mini-Arrays of a file without repetition: the power of the sum, over
    the places selected, of the calibrated and steered signals. The calibration of the
    i-th place is that of the i-th identifier, the position that of the place. *)
Theorem beamform_signal : forall total positions file sel samples cal f g, NoDup file ->
  (forall k, In k sel -> (k < total)%nat -> In k file) ->
  let ids := real_indices total sel in let places := ma_indices file ids in
  length ids = length places /\
  beamform total positions file sel (correlations samples (length file)) (Some cal) f g =
  Ok (rsum (map (fun e => power (csum (map (fun p => cmult (cmult (cal (fst p)) (steering f g (positions (snd p)))) (e (snd p)))
       (combine ids places)))) samples)).
Proof.
  intros total positions file sel samples cal f g F H ids places.
  assert (IN : forall k, In k ids -> In k file) by (intros k K; apply real_in in K; apply H; tauto).
  pose proof (places_length file ids F (real_nodup total sel) IN) as L. fold places in L. split; [now symmetry|].
  rewrite (beamform_general total positions file sel samples (Some cal) f g (map cal ids)); [|assumption|reflexivity|rewrite map_length; now symmetry].
  do 2 f_equal. apply map_ext. intros e. do 2 f_equal. fold ids. fold places. rewrite map_length.
  apply (nth_ext _ _ (0, 0) (0, 0)); [rewrite !map_length, combine_length, seq_length; lia|]. intros i I. rewrite map_length, seq_length in I.
  set (F1 := fun i => cmult (cmult (nth i (map cal ids) (0, 0)) (steering f g (positions (nth i places 0%nat)))) (e (nth i places 0%nat))).
  set (F2 := fun p : nat * nat => cmult (cmult (cal (fst p)) (steering f g (positions (snd p)))) (e (snd p))).
  rewrite (nth_indep (map F1 _) _ (F1 0%nat)) by (rewrite map_length, seq_length; lia). rewrite (map_nth F1), seq_nth by lia.
  rewrite (nth_indep (map F2 _) _ (F2 (0, 0)%nat)) by (rewrite map_length, combine_length; lia). rewrite (map_nth F2), combine_nth by now symmetry.
  unfold F1, F2. cbn [fst snd plus]. rewrite (nth_indep (map cal ids) _ (cal 0%nat)) by (rewrite map_length; lia). now rewrite (map_nth cal).
Qed.
(** In a file of the first Mini-Arrays in order, identifiers are places. *)
Lemma places_seq n sel : (forall k, In k sel -> (k < n)%nat) -> StronglySorted lt sel -> ma_indices (seq 0 n) sel = sel.
Proof.
  intros H S. apply sorted_ext; [apply ma_indices_sorted|assumption|]. intros k. rewrite places_in, seq_length. split.
  - intros [L I]. rewrite seq_nth in I by assumption. exact I.
  - intros I. pose proof (H k I). rewrite seq_nth by assumption. now split.
Qed.
Lemma combine_self {A} (l : list A) : combine l l = map (fun x => (x, x)) l.
Proof. induction l as [|x l IH]; cbn; [reflexivity|]. now rewrite IH. Qed.
Theorem beamform_whole : forall total n positions sel samples cal f g, (n <= total)%nat -> (forall k, In k sel -> (k < n)%nat) ->
  beamform total positions (seq 0 n) sel (correlations samples n) (Some cal) f g =
  Ok (rsum (map (steered (real_indices n sel) (fun a => cmult (cal a) (steering f g (positions a)))) samples)).
Proof.
  intros total n positions sel samples cal f g N H.
  assert (R : real_indices total sel = real_indices n sel).
  { apply sorted_ext; [apply real_sorted|apply real_sorted|]. intros k. rewrite !real_in. split; intros [I L]; split; try assumption; [now apply H|lia]. }
  destruct (beamform_signal total positions (seq 0 n) sel samples cal f g) as [_ E]; [apply seq_NoDup|intros k K _; apply in_seq; pose proof (H k K); lia|].
  rewrite seq_length, R, (places_seq n (real_indices n sel)) in E; [|intros k K; now apply real_in in K|apply real_sorted].
  rewrite E. do 2 f_equal. apply map_ext. intros e. unfold steered. rewrite combine_self, map_map. reflexivity.
Qed.
(** Never negative. *)
Lemma rsum_pos {A} (h : A -> R) l : (forall x, 0 <= h x) -> 0 <= rsum (map h l).
Proof. intros H. induction l as [|x l IH]; cbn [map]; [change (rsum []) with 0; lra|]. rewrite rsum_cons. pose proof (H x). lra. Qed.
Theorem beamform_positive : forall total positions file sel samples cal f g v,
  beamform total positions file sel (correlations samples (length file)) cal f g = Ok v -> 0 <= v.
Proof.
  intros total positions file sel samples cal f g v E.
  set (ids := real_indices total sel). set (places := ma_indices file ids).
  set (c := match cal with None => @repeat cpx (1, 0) (length places) | Some t => map t ids end).
  destruct (existsb (fun k => negb (isin k file)) ids) eqn:X.
  - unfold beamform in E. cbv zeta in E. fold ids in E. rewrite X in E. discriminate.
  - destruct (Nat.eqb_spec (length c) (length places)) as [L|L].
    + rewrite (beamform_general total positions file sel samples cal f g c) in E; [|intros k K|reflexivity|exact L].
      * injection E as <-. apply rsum_pos. intros e. apply power_pos.
      * destruct (isin k file) eqn:Y; [now apply isin_in|]. exfalso.
        assert (existsb (fun k => negb (isin k file)) ids = true) by (apply existsb_exists; exists k; rewrite Y; now split). congruence.
    + exfalso. unfold beamform in E. cbv zeta in E. fold ids in E. rewrite X in E. fold places in E. fold c in E.
      destruct (Nat.eqb_spec (length c) (length places)); [contradiction|]. discriminate E.
Qed.
(** No calibration is a calibration of ones. *)
Theorem beamform_none : forall total positions file sel samples f g, NoDup file ->
  (forall k, In k sel -> (k < total)%nat -> In k file) ->
  beamform total positions file sel (correlations samples (length file)) None f g =
  beamform total positions file sel (correlations samples (length file)) (Some (fun _ => (1, 0))) f g.
Proof.
  intros total positions file sel samples f g F H.
  assert (IN : forall k, In k (real_indices total sel) -> In k file) by (intros k K; apply real_in in K; apply H; tauto).
  pose proof (places_length file _ F (real_nodup total sel) IN) as L.
  assert (E : map (fun _ : nat => ((1, 0) : cpx)) (real_indices total sel) = @repeat cpx (1, 0) (length (ma_indices file (real_indices total sel)))).
  { rewrite L. generalize (real_indices total sel). induction l as [|x l IH]; cbn; [reflexivity|]. now rewrite IH. }
  rewrite (beamform_general total positions file sel samples None f g (@repeat cpx (1, 0) (length (ma_indices file (real_indices total sel)))));
    [|exact IN|reflexivity|apply repeat_length].
  rewrite (beamform_general total positions file sel samples (Some (fun _ => (1, 0))) f g (@repeat cpx (1, 0) (length (ma_indices file (real_indices total sel)))));
    [reflexivity|exact IN|now symmetry|apply repeat_length].
Qed.
(** A Mini-Array which the file does not have is an error, and the only one. *)
Theorem beamform_missing : forall total positions file sel vis cal f g k, In k sel -> (k < total)%nat -> ~ In k file ->
  beamform total positions file sel vis cal f g = Err EIndexError.
Proof.
  intros total positions file sel vis cal f g k K T N. unfold beamform. cbv zeta.
  assert (X : existsb (fun k => negb (isin k file)) (real_indices total sel) = true).
  { apply existsb_exists. exists k. split; [apply real_in; now split|]. destruct (isin k file) eqn:I; [apply isin_in in I; contradiction|reflexivity]. }
  now rewrite X.
Qed.
Theorem beamform_accepted : forall total positions file sel vis cal f g, NoDup file ->
  (forall k, In k sel -> (k < total)%nat -> In k file) ->
  exists v, beamform total positions file sel vis cal f g = Ok v.
Proof.
  intros total positions file sel vis cal f g F H.
  assert (IN : forall k, In k (real_indices total sel) -> In k file) by (intros k K; apply real_in in K; apply H; tauto).
  pose proof (places_length file _ F (real_nodup total sel) IN) as L. unfold beamform. cbv zeta.
  destruct (existsb (fun k => negb (isin k file)) (real_indices total sel)) eqn:X.
  - exfalso. apply existsb_exists in X as (k & K & Y). apply IN, isin_in in K. rewrite K in Y. discriminate.
  - destruct (Nat.eqb_spec (length match cal with None => @repeat cpx (1, 0) (length (ma_indices file (real_indices total sel))) | Some t => map t (real_indices total sel) end)
      (length (ma_indices file (real_indices total sel)))) as [E|E]; [eexists; reflexivity|].
    exfalso. apply E. destruct cal; [now rewrite map_length|apply repeat_length].
Qed.
(** A wave of the direction of the pointing adds up: the square of the number of
    Mini-Arrays times its power. *)
Theorem beamform_coherent : forall total n positions sel amplitudes f g, (n <= total)%nat -> (forall k, In k sel -> (k < n)%nat) ->
  beamform total positions (seq 0 n) sel
    (correlations (map (fun s a => cmult s (cconj (steering f g (positions a)))) amplitudes) n) None f g =
  Ok (INR (length (real_indices n sel)) ^ 2 * rsum (map power amplitudes)).
Proof.
  intros total n positions sel amplitudes f g N H.
  pose proof (beamform_none total positions (seq 0 n) sel (map (fun s a => cmult s (cconj (steering f g (positions a)))) amplitudes) f g (seq_NoDup n 0)) as B.
  rewrite seq_length in B. rewrite B by (intros k K _; apply in_seq; pose proof (H k K); lia). clear B.
  rewrite (beamform_whole total n positions sel _ (fun _ => (1, 0)) f g N H). f_equal. rewrite map_map.
  induction amplitudes as [|s l IH]; cbn [map]; [change (rsum []) with 0; ring|]. rewrite !rsum_cons, IH.
  assert (E : steered (real_indices n sel) (fun a => cmult (1, 0) (steering f g (positions a))) (fun a => cmult s (cconj (steering f g (positions a)))) =
    INR (length (real_indices n sel)) ^ 2 * power s).
  { unfold steered. replace (csum _) with (cscale (INR (length (real_indices n sel))) s); [apply power_cscale|].
    generalize (real_indices n sel). induction l0 as [|a l0 IH0]; [cbn [length map INR]; change (csum []) with (0, 0); ceq|].
    cbn [map]. rewrite csum_cons, <- IH0. cbn [length]. rewrite S_INR.
    set (t := - 2 * PI / wavelength f * vdot (vmat (positions a) bf_rotation) g). change (steering f g (positions a)) with (cis t).
    pose proof (sin2_cos2 t) as T. unfold Rsqr in T.
    apply cpx_eq; unfold cplus, cmult, cconj, cscale, cis, re, im; cbn [fst snd].
    - replace ((INR (length l0) + 1) * fst s) with ((INR (length l0) + (sin t * sin t + cos t * cos t)) * fst s) by (rewrite T; ring). ring.
    - replace ((INR (length l0) + 1) * snd s) with ((INR (length l0) + (sin t * sin t + cos t * cos t)) * snd s) by (rewrite T; ring). ring. }
  rewrite E. ring.
Qed.
(** No signals of at most that power on each Mini-Array give more. *)
Theorem beamform_at_most : forall total n positions sel samples q f g v, (n <= total)%nat -> (forall k, In k sel -> (k < n)%nat) ->
  0 <= q -> (forall e a, In e samples -> In a sel -> power (e a) <= q ^ 2) ->
  beamform total positions (seq 0 n) sel (correlations samples n) None f g = Ok v ->
  v <= INR (length (real_indices n sel)) ^ 2 * (q ^ 2 * INR (length samples)).
Proof.
  intros total n positions sel samples q f g v N H Q P E.
  pose proof (beamform_none total positions (seq 0 n) sel samples f g (seq_NoDup n 0)) as B.
  rewrite seq_length in B. rewrite B in E by (intros k K _; apply in_seq; pose proof (H k K); lia). clear B.
  pose proof (beamform_whole total n positions sel samples (fun _ => (1, 0)) f g N H) as W.
  assert (V : Ok v = Ok (rsum (map (steered (real_indices n sel) (fun a => cmult (1, 0) (steering f g (positions a)))) samples))) by (rewrite <- E; exact W).
  injection V as ->. clear W E.
  assert (I : forall a, In a (real_indices n sel) -> In a sel) by (intros a A; now apply real_in in A).
  induction samples as [|e l IH]; cbn [map length]; [change (rsum []) with 0; cbn [INR]; lra|]. rewrite rsum_cons, (S_INR (length l)).
  specialize (IH (fun e a Ie Ia => P e a (or_intror Ie) Ia)).
  assert (S : steered (real_indices n sel) (fun a => cmult (1, 0) (steering f g (positions a))) e <= (INR (length (real_indices n sel)) * q) ^ 2).
  { unfold steered. revert I. generalize (real_indices n sel). induction l0 as [|a l0 IH0]; intros I.
    - cbn [map length INR]. change (csum []) with (0, 0). unfold power. cbn [re im fst snd]. nra.
    - cbn [map length]. rewrite csum_cons, S_INR. replace ((INR (length l0) + 1) * q) with (q + INR (length l0) * q) by ring.
      pose proof (pos_INR (length l0)). apply power_add; [assumption|nra| |apply IH0; intros; apply I; now right].
      rewrite !power_cmult. unfold steering. rewrite power_cis. pose proof (P e a (or_introl eq_refl) (I a (or_introl eq_refl))) as K.
      replace (power (1, 0)) with 1 by (unfold power; cbn [re im fst snd]; ring). lra. }
  lra.
Qed.
(** The sign of East is not that of the array factor: the direction is mirrored. *)
Theorem beamform_mirror : forall p q az el,
  bf_dphi p q (ground_projection az el) = vdot (vsub p q) (enu (- az) el).
Proof.
  intros. unfold bf_dphi, bf_rotation. cbv zeta. rewrite cos_neg, sin_neg, cos_PI2, sin_PI2. unfold vdot, vsub, vmat, ground_projection, enu.
  cbn [vx vy vz row0 row1 row2]. rewrite sin_neg, cos_neg. ring.
Qed.
Theorem beamform_mirror_refuted : exists p q az el, 0 <= el <= PI / 2 /\
  bf_dphi p q (ground_projection az el) <> vdot (vsub p q) (enu az el) /\
  geometric_delay p (ground_projection az el) (ground_projection 0 (PI / 2)) - geometric_delay q (ground_projection az el) (ground_projection 0 (PI / 2))
    = vdot (vsub p q) (vsub (enu az el) (enu 0 (PI / 2))).
Proof.
  exists (mkVec 1 0 0), (mkVec 0 0 0), (PI / 2), 0. pose proof PI_RGT_0. split; [lra|]. split.
  - rewrite beamform_mirror. unfold vdot, vsub, enu. cbn [vx vy vz]. rewrite sin_neg, cos_neg, sin_PI2, cos_PI2, sin_0, cos_0. lra.
  - rewrite !delay_enu. unfold vdot, vsub, enu. cbn [vx vy vz]. ring.
Qed.
(** A file without the first Mini-Arrays: the positions are those of other Mini-Arrays. *)
Definition at_height (a : nat) : vec := mkVec 0 0 (if (a =? 1)%nat then speed_of_light / 2 else 0).
Theorem beamform_places_refuted : exists total positions file sel samples f g v, NoDup file /\
  (forall k, In k sel -> (k < total)%nat /\ In k file) /\
  beamform total positions file sel (correlations samples (length file)) None f g = Ok v /\
  v <> rsum (map (fun e => steered (seq 0 (length file)) (fun i => steering f g (positions (nth i file 0%nat))) e) samples) /\
  sel = file.
Proof.
  set (one := fun _ : nat => ((1, 0) : cpx)). set (up := mkVec 0 0 1).
  assert (N : NoDup [0%nat; 2%nat]) by (repeat constructor; cbn; lia).
  assert (H : forall k, In k [0%nat; 2%nat] -> (k < 3)%nat -> In k [0%nat; 2%nat]) by (intros; assumption).
  assert (S0 : forall p, vz p = 0 -> vx p = 0 -> vy p = 0 -> steering 1 up p = (1, 0)).
  { intros p A B C. unfold steering, up, vdot, vmat. cbn [vx vy vz]. rewrite A, B, C.
    match goal with |- cis ?x = _ => replace x with 0 by ring end. unfold cis. now rewrite cos_0, sin_0. }
  assert (S1 : steering 1 up (at_height 1) = (-1, 0)).
  { unfold steering, up, vdot, vmat, at_height, bf_rotation, wavelength, speed_of_light. cbn [vx vy vz row0 row1 row2 Nat.eqb].
    match goal with |- cis ?x = _ => replace x with (- PI) by field end. unfold cis. now rewrite cos_neg, sin_neg, cos_PI, sin_PI, Ropp_0. }
  exists 3%nat, at_height, [0%nat; 2%nat], [0%nat; 2%nat], [one], 1, up, 0. split; [exact N|]. split; [intros k [<-|[<-|[]]]; cbn; lia|].
  split; [|split; [|reflexivity]].
  - rewrite (beamform_none 3 at_height [0%nat; 2%nat] [0%nat; 2%nat] [one] 1 up N H).
    destruct (beamform_signal 3 at_height [0%nat; 2%nat] [0%nat; 2%nat] [one] (fun _ => (1, 0)) 1 up N H) as [_ E]. etransitivity; [exact E|]. f_equal.
    change (real_indices 3 [0%nat; 2%nat]) with [0%nat; 2%nat]. change (ma_indices [0%nat; 2%nat] [0%nat; 2%nat]) with [0%nat; 1%nat].
    cbn [combine map fst snd]. rewrite S1, (S0 (at_height 0)) by reflexivity. unfold one, power, rsum, csum, cplus, cmult, re, im. cbn [fold_right fst snd]. ring.
  - cbn [map length seq]. unfold steered. cbn [map nth]. rewrite (S0 (at_height 0)), (S0 (at_height 2)) by reflexivity.
    unfold one, power, rsum, csum, cplus, cmult, re, im. cbn [fold_right fst snd]. lra.
Qed.
