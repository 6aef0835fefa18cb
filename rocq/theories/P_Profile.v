(** Profiles and backgrounds *)
From Coq Require Import List Arith ZArith QArith Bool Lia Lqa.
From Verif Require Import Base M_Rebin P_Rebin P_Dynproc2 M_Profile.
Import ListNotations.
Open Scope nat_scope.

(** ** Specification *)
Definition column (s : spectrum) (f p : nat) : list sample := map (fun t => x_data s t f p) (seq 0 (length (x_time s))).
Definition row (s : spectrum) (t p : nat) : list sample := map (fun f => x_data s t f p) (seq 0 (length (x_freq s))).
Definition same (u v : sample) : Prop := match u, v with Some a, Some b => (a == b)%Q | None, None => True | _, _ => False end.

Theorem spectrum_profile : forall s, match median_f s with
  | Ok r => x_freq r = x_freq s /\ x_pol r = x_pol s /\ (exists m, x_time r = [m] /\ (2 * m == hd 0 (x_time s) + last (x_time s) 0)%Q) /\ forall f p, median_of (column s f p) (x_data r 0 f p)
  | Err e => e = EIndexError /\ x_time s = []
  end.
Proof.
  intro s. unfold median_f. destruct (x_time s) as [|t0 l] eqn:E; [now split|]. cbn [x_freq x_pol x_time x_data hd]. split; [reflexivity|]. split; [reflexivity|]. split; [eexists; split; [reflexivity|]; field|]. intros f p. unfold med_spec, column. apply nanmedian_spec.
Qed.
Theorem time_profile : forall s, match median_t s with
  | Some r => x_time r = x_time s /\ x_pol r = x_pol s /\ (exists m, x_freq r = [m] /\ mean_of (map Some (x_freq s)) (Some m)) /\ forall t p, median_of (row s t p) (x_data r t 0 p)
  | None => x_freq s = []
  end.
Proof.
  intro s. unfold median_t. pose proof (nanmean_spec (map Some (x_freq s))) as M. destruct (nanmean (map Some (x_freq s))) as [m|].
  - cbn [x_freq x_pol x_time x_data]. split; [reflexivity|]. split; [reflexivity|]. split; [now exists m|]. intros t p. unfold med_prof, row. apply nanmedian_spec.
  - destruct (x_freq s) as [|q l]; [reflexivity|]. cbn in M. specialize (M (Some q) (or_introl eq_refl)). discriminate.
Qed.

(** ** Background of each channel *)
Lemma same_refl : forall u, same u u.
Proof. intros [u|]; cbn; [reflexivity|exact I]. Qed.
Lemma median_same : forall l u, median_of l u -> same (nanmedian l) u.
Proof. intros l u H. exact (median_unique l _ _ (nanmedian_spec l) H). Qed.
Lemma same_median : forall l l', Forall2 same l l' -> same (nanmedian l) (nanmedian l').
Proof. intros l l' F. pose proof (median_ext l l' _ F (nanmedian_spec l)) as H. pose proof (median_unique l' _ _ H (nanmedian_spec l')). exact H0. Qed.
Lemma median_repeat : forall v n, 0 < n -> same (nanmedian (map (fun _ => v) (seq 0 n))) v.
Proof.
  intros v n N. pose proof (nanmedian_spec (map (fun _ => v) (seq 0 n))) as H. assert (A : forall x, In x (map (fun _ : nat => v) (seq 0 n)) -> x = v) by (intros x I; apply in_map_iff in I as (i & E & _); congruence).
  destruct (nanmedian (map (fun _ => v) (seq 0 n))) as [q|]; cbn [median_of] in H.
  - destruct H as (a & b & (Ia & _) & (Ib & _) & E). pose proof (A _ Ia) as X. pose proof (A _ Ib) as Y. subst v. injection Y as ->. cbn. lra.
  - destruct n; [lia|]. rewrite (H v); [exact I|]. now left.
Qed.
Theorem fbackground_spec : forall s t f p, median_of (column s f p) (x_data (fbackground s) t f p).
Proof. intros s t f p. cbn. unfold med_spec. apply nanmedian_spec. Qed.
Theorem fbackground_twice : forall s t f p, x_time s <> [] -> same (x_data (fbackground (fbackground s)) t f p) (x_data (fbackground s) t f p).
Proof.
  intros s t f p T. cbn. unfold med_spec at 1. cbn. apply median_repeat. destruct (x_time s); [contradiction|cbn; lia].
Qed.
Theorem fbackground_flat : forall s f p q, median_of (column s f p) (Some q) -> (0 < q)%Q -> median_of (column (divide s (fbackground s)) f p) (Some 1%Q).
Proof.
  intros s f p q M Q0. pose proof (median_same _ _ M) as N. unfold column in *. cbn [divide x_time x_data fbackground]. unfold med_spec. set (v := nanmedian (map (fun t => x_data s t f p) (seq 0 (length (x_time s))))) in *.
  destruct v as [w|]; [|contradiction]. cbn in N. assert (W : (0 < w)%Q) by lra.
  assert (I : (0 < / w)%Q) by (apply Qinv_lt_0_compat; exact W).
  pose proof (median_scaled (/ w) _ _ I M) as S. rewrite map_map in S.
  assert (One : (q * / w == 1)%Q) by (rewrite <- N; field; lra).
  assert (E : median_of (map (fun x => sdiv (x_data s x f p) (Some w)) (seq 0 (length (x_time s)))) (Some (q * / w)%Q)).
  { eapply median_ext; [|exact S]. clear -W. generalize (seq 0 (length (x_time s))). intro l. induction l as [|t l IH]; cbn [map]; [constructor|]. constructor; [|exact IH]. destruct (x_data s t f p) as [d|]; [|exact Logic.I]. cbn. assert (Z : Qeq_bool w 0 = false) by (apply not_true_iff_false; intro X; apply Qeq_bool_iff in X; lra). rewrite Z. reflexivity. }
  cbn [median_of] in *. destruct E as (a & b & A & B & E). exists a, b. split; [exact A|]. split; [exact B|]. lra.
Qed.
Theorem fbackground_scaled : forall s c t f p, (0 < c)%Q -> same (x_data (fbackground (mkSp (x_time s) (x_freq s) (x_pol s) (fun t f p => scaled c (x_data s t f p)))) t f p) (scaled c (x_data (fbackground s) t f p)).
Proof.
  intros s c t f p C. cbn. unfold med_spec. cbn [x_time x_data]. apply median_same. rewrite <- (map_map (fun t => x_data s t f p) (scaled c)). apply median_scaled; [exact C|apply nanmedian_spec].
Qed.

(** ** Background of separable spectra *)
(** Samples that are a level, times a profile, times a spectrum *)
Record separable (s : spectrum) (a g h : nat -> Q) : Prop := {
  sep_data : forall t f p, t < length (x_time s) -> f < length (x_freq s) -> p < x_pol s -> exists d, x_data s t f p = Some d /\ (d == a p * (g t * h f))%Q;
  sep_a : forall p, p < x_pol s -> (0 < a p)%Q;
  sep_g : forall t, t < length (x_time s) -> (0 < g t)%Q;
  sep_h : forall f, f < length (x_freq s) -> (0 < h f)%Q;
  sep_t : 0 < length (x_time s); sep_f : 0 < length (x_freq s); sep_p : 0 < x_pol s }.
Definition line (n : nat) (g : nat -> Q) : list sample := map (fun i => Some (g i)) (seq 0 n).
Definition highest (n : nat) (g : nat -> Q) (m : Q) : Prop := (exists i, i < n /\ g i = m) /\ forall i, i < n -> (g i <= m)%Q.
Lemma median_pos : forall n g m, (forall i, i < n -> (0 < g i)%Q) -> median_of (line n g) (Some m) -> (0 < m)%Q.
Proof.
  intros n g m P (a & b & (A & _) & (B & _) & E). assert (X : forall c, In (Some c) (line n g) -> (0 < c)%Q).
  { intros c I. apply in_map_iff in I as (i & J & K). injection J as <-. apply P. apply in_seq in K. lia. }
  pose proof (X a A). pose proof (X b B). lra.
Qed.
Lemma median_line : forall n g c m (u : nat -> sample), (0 < c)%Q -> median_of (line n g) (Some m) -> (forall i, i < n -> exists d, u i = Some d /\ (d == g i * c)%Q) ->
  exists v, nanmedian (map u (seq 0 n)) = Some v /\ (v == m * c)%Q.
Proof.
  intros n g c m u C M U. pose proof (median_scaled c _ _ C M) as S. unfold line in S. rewrite map_map in S. cbn [scaled] in S.
  assert (E : median_of (map u (seq 0 n)) (Some (m * c)%Q)).
  { eapply median_ext; [|exact S]. assert (K : forall l, (forall i, In i l -> i < n) -> Forall2 (fun x y => match x, y with Some a, Some b => (a == b)%Q | None, None => True | _, _ => False end) (map (fun x => Some (g x * c)%Q) l) (map u l)).
    { induction l as [|i l IH]; intro L; cbn [map]; [constructor|]. constructor; [|apply IH; intros; apply L; now right]. destruct (U i) as (d & -> & D); [apply L; now left|]. now symmetry. }
    apply K. intros i I. apply in_seq in I. lia. }
  pose proof (median_same _ _ E) as Z. destruct (nanmedian (map u (seq 0 n))) as [v|]; [|contradiction]. exists v. now split.
Qed.
Lemma max_fold : forall r x, let m := fold_left (fun m y => if Qle_bool y m then m else y) r x in In m (x :: r) /\ forall y, In y (x :: r) -> (y <= m)%Q.
Proof.
  induction r as [|y r IH]; intro x; cbn [fold_left]; [split; [now left|]; intros z [<-|[]]; apply Qle_refl|]. destruct (Qle_bool y x) eqn:L.
  - apply Qle_bool_iff in L. destruct (IH x) as (I & M). split; [destruct I as [I|I]; [now left|right; now right]|]. intros z [<-|[<-|Z]]; [apply M; now left| |apply M; now right]. apply Qle_trans with x; [exact L|apply M; now left].
  - destruct (IH y) as (I & M). split; [now right|]. intros z [<-|Z]; [|now apply M]. apply Qle_trans with y; [|apply M; now left]. apply Qlt_le_weak, Qnot_le_lt. intro X. apply Qle_bool_iff in X. congruence.
Qed.
Lemma nanmax_spec : forall l v, In (Some v) l -> exists m, nanmax l = Some m /\ In (Some m) l /\ forall y, In (Some y) l -> (y <= m)%Q.
Proof.
  intros l v V. unfold nanmax. apply known_In in V. destruct (known l) as [|x r] eqn:K; [contradiction|]. eexists. split; [reflexivity|]. destruct (max_fold r x) as (I & M). rewrite <- K in *. split; [now apply known_In|]. intros y Y. apply M. now apply known_In.
Qed.
Theorem background_separable : forall s a g h mg mh amax gmax, separable s a g h -> median_of (line (length (x_time s)) g) (Some mg) -> median_of (line (length (x_freq s)) h) (Some mh) ->
  highest (x_pol s) a amax -> highest (length (x_time s)) g gmax ->
  exists b, background s = Some b /\ x_time b = x_time s /\ x_freq b = x_freq s /\ x_pol b = x_pol s /\
    forall t f p, t < length (x_time s) -> f < length (x_freq s) -> p < x_pol s ->
    exists q, x_data (divide s b) t f p = Some q /\ (q * (a p * mg) == amax * gmax)%Q.
Proof.
  intros s a g h mg mh amax gmax S MG MH ((pm & Pm & EA) & AM) ((tm & Tm & EG) & GM).
  pose proof (median_pos _ _ _ (sep_g _ _ _ _ S) MG) as MG0. pose proof (median_pos _ _ _ (sep_h _ _ _ _ S) MH) as MH0.
  assert (SP : forall f p, f < length (x_freq s) -> p < x_pol s -> exists v, med_spec s f p = Some v /\ (v == mg * (a p * h f))%Q).
  { intros f p F P. apply (median_line _ g (a p * h f) mg); [apply Qmult_lt_0_compat; [now apply (sep_a _ _ _ _ S)|now apply (sep_h _ _ _ _ S)]|exact MG|]. intros t T. destruct (sep_data _ _ _ _ S t f p T F P) as (d & D & E). exists d. split; [exact D|]. rewrite E. ring. }
  assert (PR : forall t p, t < length (x_time s) -> p < x_pol s -> exists v, med_prof s t p = Some v /\ (v == mh * (a p * g t))%Q).
  { intros t p T P. apply (median_line _ h (a p * g t) mh); [apply Qmult_lt_0_compat; [now apply (sep_a _ _ _ _ S)|now apply (sep_g _ _ _ _ S)]|exact MH|]. intros f F. destruct (sep_data _ _ _ _ S t f p T F P) as (d & D & E). exists d. split; [exact D|]. rewrite E. ring. }
  unfold background. replace (existsb _ _) with false; cycle 1.
  { symmetry. apply not_true_iff_false. rewrite existsb_exists. intros (t & T & X). apply in_seq in T. destruct (sep_data _ _ _ _ S t 0 0) as (d & D & _); [lia|apply (sep_f _ _ _ _ S)|apply (sep_p _ _ _ _ S)|]. rewrite D in X. discriminate. }
  eexists. split; [reflexivity|]. split; [reflexivity|]. split; [reflexivity|]. split; [reflexivity|].
  set (L := flat_map _ _). destruct (PR tm pm Tm Pm) as (v & V & VE).
  assert (IN : forall t p, t < length (x_time s) -> p < x_pol s -> In (med_prof s t p) L).
  { intros t p T P. unfold L. apply in_flat_map. exists t. split; [apply in_seq; lia|]. apply in_map_iff. exists p. split; [reflexivity|apply in_seq; lia]. }
  destruct (nanmax_spec L v) as (m & Em & Im & Mm); [rewrite <- V; now apply IN|].
  assert (A0 : (0 < amax)%Q) by (rewrite <- EA; now apply (sep_a _ _ _ _ S)). assert (G0 : (0 < gmax)%Q) by (rewrite <- EG; now apply (sep_g _ _ _ _ S)).
  assert (TOP : (m == mh * (amax * gmax))%Q).
  { apply Qle_antisym.
    - unfold L in Im. apply in_flat_map in Im as (t & T & Im). apply in_map_iff in Im as (p & E & P). apply in_seq in T, P. destruct (PR t p ltac:(lia) ltac:(lia)) as (w & W & WE). rewrite W in E. injection E as <-. rewrite WE.
      apply Qmult_le_l; [exact MH0|]. apply Qle_trans with (amax * g t)%Q; [apply Qmult_le_compat_r; [apply AM; lia|apply Qlt_le_weak, (sep_g _ _ _ _ S); lia]|]. apply Qmult_le_l; [exact A0|]. apply GM. lia.
    - rewrite <- EA, <- EG, <- VE. apply Mm. rewrite <- V. now apply IN. }
  intros t f p T F P. cbn [divide x_data]. rewrite Em. destruct (SP f p F P) as (sp & -> & SPE). destruct (PR t p T P) as (pr & -> & PRE). destruct (sep_data _ _ _ _ S t f p T F P) as (d & -> & DE).
  pose proof (sep_a _ _ _ _ S p P) as A1. pose proof (sep_g _ _ _ _ S t T) as G1. pose proof (sep_h _ _ _ _ S f F) as H1.
  assert (M0 : ~ (m == 0)%Q) by (rewrite TOP; intro X; assert (Y : (0 < mh * (amax * gmax))%Q) by (repeat apply Qmult_lt_0_compat; assumption); lra).
  cbn [sdiv]. destruct (Qeq_bool m 0) eqn:Z; [apply Qeq_bool_iff in Z; contradiction|]. cbn [smul sdiv].
  assert (B : (sp * (pr / m) == mg * (a p * h f) * ((mh * (a p * g t)) / (mh * (amax * gmax))))%Q) by (rewrite SPE, PRE, TOP; reflexivity).
  assert (NB : ~ (sp * (pr / m) == 0)%Q).
  { rewrite B. intro X. assert (Y : (0 < mg * (a p * h f) * ((mh * (a p * g t)) / (mh * (amax * gmax))))%Q); [|lra]. repeat apply Qmult_lt_0_compat; try assumption. apply Qinv_lt_0_compat. repeat apply Qmult_lt_0_compat; assumption. }
  destruct (Qeq_bool (sp * (pr / m)) 0) eqn:Y; [apply Qeq_bool_iff in Y; contradiction|]. eexists. split; [reflexivity|]. rewrite B, DE. field. repeat split; intro X; lra.
Qed.
Theorem background_level_refuted : forall s a g h mg mh amax gmax b, separable s a g h -> median_of (line (length (x_time s)) g) (Some mg) -> median_of (line (length (x_freq s)) h) (Some mh) ->
  highest (x_pol s) a amax -> highest (length (x_time s)) g gmax -> background s = Some b ->
  forall t f p p' q q', t < length (x_time s) -> f < length (x_freq s) -> p < x_pol s -> p' < x_pol s -> (a p < a p')%Q ->
  x_data (divide s b) t f p = Some q -> x_data (divide s b) t f p' = Some q' -> (q' < q)%Q.
Proof.
  intros s a g h mg mh amax gmax b S MG MH AM GM B t f p p' q q' T F P P' L Q1 Q2.
  pose proof (median_pos _ _ _ (sep_g _ _ _ _ S) MG) as MG0.
  destruct (background_separable s a g h mg mh amax gmax S MG MH AM GM) as (b' & B' & _ & _ & _ & R). rewrite B in B'. injection B' as <-.
  destruct (R t f p T F P) as (x & X & EX). destruct (R t f p' T F P') as (y & Y & EY). rewrite X in Q1. rewrite Y in Q2. injection Q1 as <-. injection Q2 as <-.
  destruct AM as ((pm & Pm & EA) & _). destruct GM as ((tm & Tm & EG) & _). assert (A0 : (0 < amax * gmax)%Q) by (apply Qmult_lt_0_compat; [rewrite <- EA; now apply (sep_a _ _ _ _ S)|rewrite <- EG; now apply (sep_g _ _ _ _ S)]).
  pose proof (sep_a _ _ _ _ S p P) as Ap. assert (C : (0 < a p * mg)%Q) by now apply Qmult_lt_0_compat. assert (C' : (a p * mg < a p' * mg)%Q) by now apply Qmult_lt_r.
  apply Qnot_le_lt. intro Z. assert (Y0 : (0 < y)%Q) by (apply Qnot_le_lt; intro W; assert (V : (y * (a p' * mg) <= 0)%Q) by (setoid_replace 0%Q with (0 * (a p' * mg))%Q by ring; apply Qmult_le_compat_r; [exact W|lra]); lra).
  assert (U : (x * (a p * mg) <= y * (a p * mg))%Q) by (apply Qmult_le_compat_r; [exact Z|lra]). assert (V : (y * (a p * mg) < y * (a p' * mg))%Q) by now apply Qmult_lt_l. lra.
Qed.
(** The formula is that of data without NaN in the first channel and polarization *)
Theorem background_plain : forall s, (exists b, background s = Some b) <-> forall t, t < length (x_time s) -> x_data s t 0 0 <> None.
Proof.
  intro s. unfold background. destruct (existsb _ _) eqn:E; split.
  - intros [b B]. discriminate.
  - intro H. apply existsb_exists in E as (t & I & N). apply in_seq in I. specialize (H t ltac:(lia)). destruct (x_data s t 0 0); [discriminate|contradiction].
  - intros _ t T N. apply Bool.not_true_iff_false in E. apply E. apply existsb_exists. exists t. split; [apply in_seq; lia|]. now rewrite N.
  - intros _. eexists. reflexivity.
Qed.
