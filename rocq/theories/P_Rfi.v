(** Specification and lemmas for the mitigation of interferences. *)
From Coq Require Import QArith Qabs ZArith Bool List Lia Lqa.
From Verif Require Import Base M_Rebin P_Rebin M_Rfi.
Import ListNotations.
Open Scope nat_scope.
Open Scope list_scope.

(** ** Medians of moduli *)
Lemma known_fin : forall l, M_Rfi.known (map modulus l) = map Fin (M_Rebin.known (map (option_map Qabs) l)).
Proof. induction l as [|[q|] l IH]; cbn; [reflexivity| |exact IH]. f_equal. exact IH. Qed.
Lemma insert_fin : forall x l, insert (Fin x) (map Fin l) = map Fin (insert_q x l).
Proof. induction l as [|y l IH]; cbn; [reflexivity|]. destruct (Qle_bool x y); [reflexivity|]. cbn. f_equal. exact IH. Qed.
Lemma sorted_fin : forall l, sorted (map Fin l) = map Fin (sort_q l).
Proof. induction l as [|x l IH]; [reflexivity|]. cbn [map sorted fold_right sort_q]. fold (sorted (map Fin l)). rewrite IH. apply insert_fin. Qed.
Lemma median_fin : forall l, M_Rfi.nanmedian (map modulus l) = match M_Rebin.nanmedian (map (option_map Qabs) l) with Some q => Fin q | None => Nan end.
Proof.
  intro l. unfold M_Rfi.nanmedian, M_Rebin.nanmedian. rewrite known_fin, sorted_fin. set (k := sort_q _). destruct k as [|x k]; [reflexivity|]. cbn [map].
  change (Fin x :: map Fin k) with (map Fin (x :: k)). rewrite map_length.
  assert (N : forall i, i < length (x :: k) -> nth i (map Fin (x :: k)) Nan = Fin (nth i (x :: k) 0%Q)).
  { intros i I. rewrite nth_indep with (d' := Fin 0) by (rewrite map_length; assumption). apply map_nth. }
  rewrite !N. { reflexivity. }
  - apply Nat.div_lt_upper_bound; cbn [length]; lia.
  - apply Nat.div_lt_upper_bound; cbn [length]; lia.
Qed.
Lemma level_median : forall nx d o p, exists v, level nx d o p = match v with Some q => Fin q | None => Nan end /\
  median_of (map (fun x => option_map Qabs (d o x p)) (seq 0 nx)) v.
Proof.
  intros. exists (M_Rebin.nanmedian (map (fun x => option_map Qabs (d o x p)) (seq 0 nx))). split; [|apply nanmedian_spec].
  unfold level. rewrite <- (map_map (fun x => d o x p) modulus), median_fin, map_map. reflexivity.
Qed.
Lemma median_level : forall nx d o p q, median_of (map (fun x => option_map Qabs (d o x p)) (seq 0 nx)) (Some q) -> exists q', level nx d o p = Fin q' /\ (q' == q)%Q.
Proof.
  intros nx d o p q M. destruct (level_median nx d o p) as (v & E & W). pose proof (median_unique _ _ _ W M) as U.
  destruct v as [q'|]; [|destruct U]. exists q'. split; assumption.
Qed.

(** ** Numbers in a ratio *)
Definition rel (r : Q) (a b : num) : Prop :=
  match a, b with Nan, Nan => True | Inf, Inf => True | Fin x, Fin y => (y == r * x)%Q | _, _ => False end.
Lemma qle_iff : forall a b c d, ((a <= b)%Q <-> (c <= d)%Q) -> Qle_bool a b = Qle_bool c d.
Proof.
  intros a b c d H. destruct (Qle_bool a b) eqn:E, (Qle_bool c d) eqn:F; try reflexivity.
  - apply Qle_bool_iff in E. apply H in E. apply Qle_bool_iff in E. congruence.
  - apply Qle_bool_iff in F. apply H in F. apply Qle_bool_iff in F. congruence.
Qed.
Lemma qle_scale : forall r x y x' y', (0 < r)%Q -> (x' == r * x)%Q -> (y' == r * y)%Q -> Qle_bool x y = Qle_bool x' y'.
Proof. intros r x y x' y' R X Y. apply qle_iff. rewrite X, Y. split; intro H; [|apply (Qmult_le_l x y r R); assumption]. apply Qmult_le_l; assumption. Qed.
Lemma rel_le : forall r a a' b b', (0 < r)%Q -> rel r a a' -> rel r b b' -> num_le a b = num_le a' b'.
Proof. intros r [|x|] [|x'|] [|y|] [|y'|] R A B; cbn in *; try contradiction; try reflexivity. apply (qle_scale r); assumption. Qed.
Lemma rel_insert : forall r x x' l l', (0 < r)%Q -> rel r x x' -> Forall2 (rel r) l l' -> Forall2 (rel r) (insert x l) (insert x' l').
Proof.
  intros r x x' l l' R X F. induction F as [|y y' l l' Y F IH]; cbn; [constructor; [assumption|constructor]|].
  rewrite (rel_le r x x' y y') by assumption. destruct (num_le x' y'); repeat (constructor; try assumption).
Qed.
Lemma rel_sorted : forall r l l', (0 < r)%Q -> Forall2 (rel r) l l' -> Forall2 (rel r) (sorted l) (sorted l').
Proof. intros r l l' R F. induction F; cbn; [constructor|]. apply rel_insert; assumption. Qed.
Lemma rel_known : forall r l l', Forall2 (rel r) l l' -> Forall2 (rel r) (M_Rfi.known l) (M_Rfi.known l').
Proof. intros r l l' F. induction F as [|[|x|] [|y|] l l' A F IH]; cbn in *; try contradiction; try assumption; constructor; assumption. Qed.
Lemma rel_nth : forall r l l' i, Forall2 (rel r) l l' -> rel r (nth i l Nan) (nth i l' Nan).
Proof. intros r l l' i F. revert i. induction F; intros [|i]; cbn; auto. Qed.
Lemma rel_length : forall r l l', Forall2 (rel r) l l' -> length l = length l'.
Proof. intros r l l' F. induction F; cbn; congruence. Qed.
Lemma rel_mid : forall r a a' b b', rel r a a' -> rel r b b' -> rel r (mid a b) (mid a' b').
Proof. intros r [|x|] [|x'|] [|y|] [|y'|] A B; cbn in *; try contradiction; try exact I. rewrite A, B. field. Qed.
Lemma rel_median : forall r l l', (0 < r)%Q -> Forall2 (rel r) l l' -> rel r (M_Rfi.nanmedian l) (M_Rfi.nanmedian l').
Proof.
  intros r l l' R F. unfold M_Rfi.nanmedian. pose proof (rel_sorted r _ _ R (rel_known r l l' F)) as G.
  pose proof (rel_length r _ _ G) as L. destruct (sorted (M_Rfi.known l)) as [|a k] eqn:E, (sorted (M_Rfi.known l')) as [|a' k'] eqn:E'; try discriminate L; [exact I|].
  rewrite L. apply rel_mid; apply rel_nth; assumption.
Qed.

(** Classes: unknown, null, positive *)
Definition cls (a : num) : nat := match a with Nan => 0 | Fin q => if Qle_bool q 0 then 1 else 2 | Inf => 3 end.
Definition fine (a : num) : Prop := match a with Nan => True | Fin q => (0 <= q)%Q | Inf => False end.
Lemma rel_cls : forall r a b, (0 < r)%Q -> rel r a b -> cls a = cls b.
Proof. intros r [|x|] [|y|] R A; cbn in *; try contradiction; try reflexivity. rewrite (qle_scale r x 0 y 0 R A); [reflexivity|]. rewrite Qmult_0_r. reflexivity. Qed.
Lemma qle_false : forall x y, Qle_bool x y = false -> (y < x)%Q.
Proof. intros x y H. apply Qnot_le_lt. intro L. apply Qle_bool_iff in L. congruence. Qed.
Lemma max_fine : forall a b, fine a -> fine b -> fine (num_max a b) /\ cls (num_max a b) = Nat.max (cls a) (cls b).
Proof.
  intros [|x|] [|y|] A B; cbn [fine] in A, B; try contradiction; cbn [num_max num_le].
  - split; [exact I|reflexivity].
  - split; [exact B|]. cbn. destruct (Qle_bool y 0); reflexivity.
  - split; [exact A|]. cbn. destruct (Qle_bool x 0); reflexivity.
  - destruct (Qle_bool x y) eqn:E.
    + split; [exact B|]. apply Qle_bool_iff in E. cbn. destruct (Qle_bool x 0) eqn:X, (Qle_bool y 0) eqn:Y; try reflexivity.
      apply Qle_bool_iff in Y. apply qle_false in X. lra.
    + split; [exact A|]. apply qle_false in E. cbn. destruct (Qle_bool x 0) eqn:X, (Qle_bool y 0) eqn:Y; try reflexivity.
      apply Qle_bool_iff in X. apply qle_false in Y. lra.
Qed.
Lemma nanmax_fine : forall l, Forall fine l -> fine (nanmax l) /\ cls (nanmax l) = fold_right Nat.max 0 (map cls l).
Proof.
  intros l F. induction F as [|a l A F [IH IC]]; cbn; [split; [exact I|reflexivity]|]. fold (nanmax l). destruct (max_fine a (nanmax l) A IH) as [U V].
  split; [exact U|]. rewrite V, IC. reflexivity.
Qed.
Lemma median_fine : forall l v, median_of (map (option_map Qabs) l) v -> fine (match v with Some q => Fin q | None => Nan end).
Proof.
  intros l v M. rewrite <- (map_id l) in M. pose proof (median_fin l) as E. pose proof (nanmedian_spec (map (option_map Qabs) l)) as S1.
  rewrite map_id in M. pose proof (median_unique _ _ _ S1 M) as U. destruct v as [q|]; [|exact I]. cbn.
  destruct (M_Rebin.nanmedian (map (option_map Qabs) l)) as [q'|] eqn:Q; [|destruct U].
  unfold M_Rebin.nanmedian in Q. destruct (sort_q (M_Rebin.known (map (option_map Qabs) l))) as [|a k] eqn:K; [discriminate|]. injection Q as Q.
  assert (P : forall y, In y (a :: k) -> (0 <= y)%Q).
  { intros y Y. rewrite <- K in Y. pose proof (sort_q_perm (M_Rebin.known (map (option_map Qabs) l))) as PP. apply (Permutation.Permutation_in _ (Permutation.Permutation_sym PP)) in Y || apply (Permutation.Permutation_in _ PP) in Y.
    clear -Y. induction l as [|[z|] l IH]; cbn in Y; [contradiction| |apply IH; assumption]. destruct Y as [<-|Y]; [apply Qabs_nonneg|apply IH; assumption]. }
  assert (N : forall i, (0 <= nth i (a :: k) 0)%Q).
  { intro i. destruct (Nat.lt_ge_cases i (length (a :: k))) as [L|L]; [apply P, nth_In; assumption|]. rewrite nth_overflow by assumption. lra. }
  cbn in U. assert (0 <= q')%Q. { rewrite <- Q. apply Qle_shift_div_l; [reflexivity|]. apply Qle_trans with (0 + 0)%Q; [lra|]. apply Qplus_le_compat; [apply (N ((length (a :: k) - 1) / 2))|apply (N (length (a :: k) / 2))]. }
  rewrite <- U. assumption.
Qed.
Lemma level_fine : forall nx d o p, fine (level nx d o p).
Proof.
  intros. destruct (level_median nx d o p) as (v & E & M). rewrite E. rewrite <- (map_map (fun x => d o x p) (option_map Qabs)) in M. apply (median_fine _ _ M).
Qed.

(** ** Gains of the averaged axis *)
Section Gain.
Variable fit : Z -> list (nat * Q) -> nat -> Q.
Variable std : list Q -> Q.
(** A fit of logarithms with a constant term, and a standard deviation, follow the unit. *)
Definition fit_scales : Prop := forall degree l l' r x, (0 < r)%Q -> Forall2 (fun a b => fst a = fst b /\ (snd b == r * snd a)%Q) l l' -> (fit degree l' x == r * fit degree l x)%Q.
Definition std_scales : Prop := forall l l' r, (0 < r)%Q -> Forall2 (fun a b => (b == r * a)%Q) l l' -> (std l' == r * std l)%Q.
Hypothesis FS : fit_scales.
Hypothesis SS : std_scales.
Variables (no nx np : nat) (d : nat -> nat -> nat -> option Q) (k : nat -> nat -> Q).
Hypothesis KZ : forall o p, ~ (k o p == 0)%Q.
Definition gained (o x p : nat) : option Q := option_map (Qmult (k o p)) (d o x p).

Lemma kpos : forall o p, (0 < Qabs (k o p))%Q.
Proof. intros o p. pose proof (Qabs_nonneg (k o p)). destruct (Qlt_le_dec 0 (Qabs (k o p))); [assumption|]. exfalso. apply (KZ o p). apply Qabs_case with (x := k o p) (P := fun a => (a <= 0)%Q -> (k o p == 0)%Q) in q; [assumption| |]; intros; lra. Qed.
Lemma modulus_gained : forall o x p, rel (Qabs (k o p)) (modulus (d o x p)) (modulus (gained o x p)).
Proof. intros. unfold gained. destruct (d o x p) as [q|]; cbn; [|exact I]. apply Qabs_Qmult. Qed.
Lemma level_gained : forall o p, rel (Qabs (k o p)) (level nx d o p) (level nx gained o p).
Proof. intros. unfold level. apply rel_median; [apply kpos|]. induction (seq 0 nx); cbn; constructor; [apply modulus_gained|assumption]. Qed.
Lemma levels_fine : forall e, Forall fine (flat_map (fun o => map (level nx e o) (seq 0 np)) (seq 0 no)).
Proof. intro e. apply Forall_forall. intros a I. apply in_flat_map in I. destruct I as (o & _ & I). apply in_map_iff in I. destruct I as (p & <- & _). apply level_fine. Qed.
Lemma largest_cls : cls (largest no nx np d) = cls (largest no nx np gained).
Proof.
  unfold largest. rewrite (proj2 (nanmax_fine _ (levels_fine d))), (proj2 (nanmax_fine _ (levels_fine gained))). f_equal.
  induction (seq 0 no) as [|o l IH]; [reflexivity|]. cbn [flat_map]. rewrite !map_app. f_equal; [|exact IH]. rewrite !map_map. apply map_ext. intro p. apply (rel_cls (Qabs (k o p))); [apply kpos|apply level_gained].
Qed.
Lemma max_above : forall l a, Forall fine l -> In a l -> fine a -> match a, nanmax l with Fin x, Fin m => (x <= m)%Q | Nan, _ => True | _, _ => False end.
Proof.
  intros l a F. induction F as [|b l B F IH]; intros I A; [contradiction|]. cbn. fold (nanmax l). destruct (nanmax_fine l F) as [NF _].
  destruct I as [<-|I].
  - destruct b as [|x|], (nanmax l) as [|m|]; cbn in *; try contradiction; try exact Logic.I; [lra|]. destruct (Qle_bool x m) eqn:E; [apply Qle_bool_iff; exact E|lra].
  - specialize (IH I A). destruct a as [|y|]; [exact Logic.I| |contradiction]. destruct (nanmax l) as [|m|]; try contradiction.
    destruct b as [|x|]; cbn in *; try contradiction; [assumption|]. destruct (Qle_bool x m) eqn:E; [assumption|]. apply qle_false in E. lra.
Qed.
Lemma flat_nan : forall e o x p, o < no -> p < np -> cls (largest no nx np e) <= 1 -> flattened no nx np e o x p = Nan.
Proof.
  intros e o x p O P C. unfold flattened. pose proof (level_fine nx e o p) as LF.
  assert (I : In (level nx e o p) (flat_map (fun o => map (level nx e o) (seq 0 np)) (seq 0 no))).
  { apply in_flat_map. exists o. split; [apply in_seq; lia|]. apply in_map_iff. exists p. split; [reflexivity|apply in_seq; lia]. }
  pose proof (max_above _ _ (levels_fine e) I LF) as M. fold (largest no nx np e) in M.
  assert (N : num_div (level nx e o p) (largest no nx np e) = Nan).
  { destruct (level nx e o p) as [|q|]; [destruct (largest no nx np e); reflexivity| |contradiction].
    destruct (largest no nx np e) as [|m|]; [reflexivity| |cbn in C; lia]. cbn in C, LF, M. cbn [num_div]. destruct (Qle_bool m 0) eqn:E; [|lia]. apply Qle_bool_iff in E.
    assert (Q0 : (q == 0)%Q) by lra. assert (M0 : (m == 0)%Q) by lra. apply Qeq_bool_iff in Q0, M0. rewrite M0, Q0. reflexivity. }
  rewrite N. destruct (modulus (e o x p)); reflexivity.
Qed.
Lemma flat_rel : forall M M', largest no nx np d = Fin M -> largest no nx np gained = Fin M' -> (0 < M)%Q -> (0 < M')%Q ->
  forall o x p, rel (M' / M) (flattened no nx np d o x p) (flattened no nx np gained o x p).
Proof.
  intros M M' E E' P P' o x p. unfold flattened. rewrite E, E'. pose proof (modulus_gained o x p) as A. pose proof (level_gained o p) as B. pose proof (kpos o p) as K.
  destruct (level nx d o p) as [|l|], (level nx gained o p) as [|l'|]; cbn in B; try contradiction.
  - destruct (modulus (d o x p)), (modulus (gained o x p)); cbn in A; try contradiction; exact I.
  - cbn [num_div]. assert (M0 : Qeq_bool M 0 = false) by (destruct (Qeq_bool M 0) eqn:Z; [apply Qeq_bool_iff in Z; lra|reflexivity]).
    assert (M0' : Qeq_bool M' 0 = false) by (destruct (Qeq_bool M' 0) eqn:Z; [apply Qeq_bool_iff in Z; lra|reflexivity]). rewrite M0, M0'.
    destruct (modulus (d o x p)) as [|y|] eqn:Y, (modulus (gained o x p)) as [|y'|] eqn:Y'; cbn in A; try contradiction; try exact I.
    cbn [num_div]. set (kk := Qabs (k o p)) in *.
    assert (Z1 : Qeq_bool (l / M) 0 = Qeq_bool (l' / M') 0).
    { destruct (Qeq_bool (l / M) 0) eqn:U, (Qeq_bool (l' / M') 0) eqn:V; try reflexivity; exfalso.
      - apply Qeq_bool_iff in U. apply Qeq_bool_neq in V. apply V. assert (L0 : (l == 0)%Q) by (setoid_replace l with (l / M * M)%Q by (field; lra); rewrite U; ring). rewrite B, L0. field. lra.
      - apply Qeq_bool_iff in V. apply Qeq_bool_neq in U. apply U. assert (L0 : (l' == 0)%Q) by (setoid_replace l' with (l' / M' * M')%Q by (field; lra); rewrite V; ring).
        assert (L1 : (l == 0)%Q) by (setoid_replace l with (kk * l / kk)%Q by (field; lra); rewrite <- B, L0; field; lra). rewrite L1. field. lra. }
    assert (Z2 : Qeq_bool y 0 = Qeq_bool y' 0).
    { destruct (Qeq_bool y 0) eqn:U, (Qeq_bool y' 0) eqn:V; try reflexivity; exfalso.
      - apply Qeq_bool_iff in U. apply Qeq_bool_neq in V. apply V. rewrite A, U. ring.
      - apply Qeq_bool_iff in V. apply Qeq_bool_neq in U. apply U. setoid_replace y with (kk * y / kk)%Q by (field; lra). rewrite <- A, V. field. lra. }
    rewrite <- Z1, <- Z2. destruct (Qeq_bool (l / M) 0) eqn:U; [destruct (Qeq_bool y 0); exact I|]. cbn [rel].
    apply Qeq_bool_neq in U. assert (L0 : ~ (l == 0)%Q) by (intro Q; apply U; rewrite Q; field; lra). rewrite A, B. field. repeat split; lra.
  - destruct (modulus (d o x p)), (modulus (gained o x p)); cbn in A; try contradiction; try exact I. cbn. ring.
Qed.
Lemma positive_rel : forall r a b, (0 < r)%Q -> rel r a b -> positive a = positive b.
Proof. intros r [|x|] [|y|] R A; cbn in *; try contradiction; try reflexivity. rewrite (qle_scale r x 0 y 0 R A); [reflexivity|]. rewrite Qmult_0_r. reflexivity. Qed.
Lemma forallb_ext : forall {A} (f g : A -> bool) l, (forall a, In a l -> f a = g a) -> forallb f l = forallb g l.
Proof. induction l as [|a l IH]; intro H; cbn; [reflexivity|]. rewrite H by (left; reflexivity). f_equal. apply IH. intros; apply H; right; assumption. Qed.
Lemma not_nan_false : forall e, np <> 0 -> cls (largest no nx np e) <= 1 -> forall x, not_nan no nx np e x = false.
Proof.
  intros e P C x. unfold not_nan. destruct np as [|n] eqn:E; [contradiction|]. cbn [seq forallb]. rewrite <- E in *.
  assert (N : profile no nx np e x 0 = Nan).
  { unfold profile. replace (map (fun o => flattened no nx np e o x 0) (seq 0 no)) with (map (fun _ : nat => Nan) (seq 0 no)).
    - unfold M_Rfi.nanmedian. assert (K : forall l : list nat, M_Rfi.known (map (fun _ => Nan) l) = []) by (induction l; [reflexivity|assumption]). rewrite K. reflexivity.
    - apply map_ext_in. intros o O. apply in_seq in O. symmetry. apply flat_nan; lia. }
  rewrite N. reflexivity.
Qed.

(** The same samples become NaN, or the same error is raised. *)
Lemma along_gained : forall sigma degree,
  match along fit std no nx np d sigma degree, along fit std no nx np gained sigma degree with
  | Ok v, Ok w => forall o x p, (v o x p = None <-> w o x p = None)
  | Err e, Err e' => e = e'
  | _, _ => False
  end.
Proof.
  intros sigma degree. unfold along. destruct (no * np =? 0) eqn:NP; [reflexivity|]. apply Nat.eqb_neq in NP. destruct (degree <? 0)%Z; [reflexivity|].
  assert (NN : np <> 0) by nia. pose proof largest_cls as C.
  destruct (Nat.le_gt_cases (cls (largest no nx np d)) 1) as [S1|S1].
  - assert (A : forall e, cls (largest no nx np e) <= 1 -> forallb (fun x => negb (not_nan no nx np e x)) (seq 0 nx) = true) by (intros e H; apply forallb_forall; intros x _; rewrite not_nan_false by assumption; reflexivity).
    rewrite (A d S1), (A gained) by lia. reflexivity.
  - pose proof (proj1 (nanmax_fine _ (levels_fine d))) as F1. fold (largest no nx np d) in F1. pose proof (proj1 (nanmax_fine _ (levels_fine gained))) as F2. fold (largest no nx np gained) in F2.
    destruct (largest no nx np d) as [|M|] eqn:E; [cbn in S1; lia| |contradiction]. destruct (largest no nx np gained) as [|M'|] eqn:E'; [cbn in C, S1; rewrite C in S1; lia| |contradiction].
    assert (P : (0 < M)%Q) by (cbn in S1; destruct (Qle_bool M 0) eqn:Z; [lia|apply qle_false; exact Z]).
    assert (P' : (0 < M')%Q) by (rewrite C in S1; cbn in S1; destruct (Qle_bool M' 0) eqn:Z; [lia|apply qle_false; exact Z]).
    set (r := (M' / M)%Q). assert (R : (0 < r)%Q) by (apply Qlt_shift_div_l; [assumption|lra]).
    assert (FR : forall o x p, rel r (flattened no nx np d o x p) (flattened no nx np gained o x p)) by (apply flat_rel; assumption).
    assert (PR : forall x p, rel r (profile no nx np d x p) (profile no nx np gained x p)).
    { intros x p. unfold profile. apply rel_median; [assumption|]. induction (seq 0 no); cbn; constructor; [apply FR|assumption]. }
    assert (NNE : forall x, not_nan no nx np d x = not_nan no nx np gained x) by (intro x; apply forallb_ext; intros p _; apply (positive_rel r); [assumption|apply PR]).
    assert (PT : forall p, Forall2 (fun a b => fst a = fst b /\ (snd b == r * snd a)%Q) (points no nx np d p) (points no nx np gained p)).
    { intro p. unfold points. induction (seq 0 nx) as [|x l IH]; cbn [flat_map]; [constructor|]. apply Forall2_app; [|exact IH]. rewrite NNE. destruct (not_nan no nx np gained x); [|constructor].
      pose proof (PR x p) as Q. destruct (profile no nx np d x p), (profile no nx np gained x p); cbn in Q; try contradiction; try constructor; [split; [reflexivity|exact Q]|constructor]. }
    assert (SM : forall x p, (smooth fit no nx np gained degree x p == r * smooth fit no nx np d degree x p)%Q) by (intros; apply FS; [assumption|apply PT]).
    assert (SP : (spread fit std no nx np gained degree == r * spread fit std no nx np d degree)%Q).
    { apply SS; [assumption|]. induction (seq 0 nx) as [|x l IH]; cbn [flat_map]; [constructor|]. apply Forall2_app; [|exact IH]. clear IH. induction (seq 0 np); cbn; constructor; [apply SM|assumption]. }
    assert (CL : forall o x p, clipped fit std no nx np d sigma degree o x p = clipped fit std no nx np gained sigma degree o x p).
    { intros o x p. unfold clipped. pose proof (FR o x p) as Q. destruct (flattened no nx np d o x p), (flattened no nx np gained o x p); cbn in Q; try contradiction; try reflexivity.
      cbn [above]. f_equal. apply (qle_scale r); [assumption|assumption|]. rewrite SM, SP. ring. }
    rewrite (forallb_ext (fun x => negb (not_nan no nx np d x)) (fun x => negb (not_nan no nx np gained x))) by (intros x _; rewrite NNE; reflexivity).
    destruct (forallb (fun x => negb (not_nan no nx np gained x)) (seq 0 nx)); [reflexivity|].
    intros o x p. rewrite CL. destruct (clipped fit std no nx np gained sigma degree o x p); [tauto|]. unfold gained. destruct (d o x p); cbn; split; congruence.
Qed.
End Gain.
