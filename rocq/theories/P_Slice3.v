(** Arithmetic, flattening and cleaning of sub-sets of statistics data. *)
From Coq Require Import String List Arith ZArith QArith Qround Bool Lia Lqa Sorted.
From Verif Require Import Base M_Nd M_Rebin M_TFArray M_Polar P_Nd P_Rebin P_Polar2 P_Dynproc2 M_Slice P_Slice.
Import ListNotations.
Open Scope nat_scope.
Open Scope list_scope.

(** * Arithmetic *)
(** Same number, or both NaN. *)
Definition same (x y : sample) : Prop := match x, y with Some a, Some b => (a == b)%Q | None, None => True | _, _ => False end.
Definition shaped (s : st) : Prop := full s \/ light_curve s \/ spectrum s.
Definition same_axes (a b : st) : Prop := same_axis (s_time a) (s_time b) /\ same_axis (s_freq a) (s_freq b).
(** The longer of the two lists of pointings, the first one when they are as long. *)
Definition kept_pointings (l m r : list Q) : Prop := (length m <= length l /\ r = l) \/ (length l < length m /\ r = m).

Lemma join_self : forall s, join_rev s s = Some s.
Proof. induction s as [|x s IH]; [reflexivity|]. cbn [join_rev]. rewrite IH, Nat.eqb_refl. reflexivity. Qed.
Lemma index_self : forall s idx, inside s idx -> at_index s idx = idx.
Proof.
  intros s idx H. unfold at_index. rewrite (inside_length _ _ H), Nat.sub_diag. cbn [skipn].
  induction H as [|i n idx s L F IH]; [reflexivity|]. cbn [combine map fst snd]. f_equal; [|exact IH].
  destruct (Nat.eqb_spec n 1); lia.
Qed.
Lemma elementwise_same : forall f a b, sh a = sh b -> exists r, elementwise f a b = Ok r /\ sh r = sh a /\
  forall idx, inside (sh a) idx -> get r idx = f (get a idx) (get b idx).
Proof.
  intros f a b E. unfold elementwise. rewrite <- E, join_self. eexists. split; [reflexivity|]. cbn [sh get]. split; [apply rev_involutive|].
  intros idx I. now rewrite index_self.
Qed.
Lemma axes_test : forall l m, length l = length m ->
  forallb (fun p => Qeq_bool (fst p) (snd p)) (combine l m) = true <-> same_axis l m.
Proof. exact forallb_pairs. Qed.
Lemma longer_spec : forall l m, kept_pointings l m (longer l m).
Proof. intros l m. unfold kept_pointings, longer. destruct (Nat.ltb_spec (length l) (length m)); auto. Qed.
Theorem slice_spec : forall f a b, sh (s_val a) = sh (s_val b) -> same_axes a b ->
  exists r, with_slice f a b = Ok r /\ s_time r = s_time a /\ s_freq r = s_freq a /\ sh (s_val r) = sh (s_val a) /\
    (forall idx, inside (sh (s_val a)) idx -> get (s_val r) idx = f (get (s_val a) idx) (get (s_val b) idx)) /\
    kept_pointings (s_ana a) (s_ana b) (s_ana r) /\ kept_pointings (s_dig a) (s_dig b) (s_dig r).
Proof.
  intros f a b E (T & F). unfold with_slice. pose proof (Forall2_length T) as LT. pose proof (Forall2_length F) as LF.
  rewrite LT, LF, !Nat.eqb_refl. cbn [andb negb]. apply axes_test in T; [|exact LT]. apply axes_test in F; [|exact LF]. rewrite T, F. cbn [andb negb].
  destruct (elementwise_same f (s_val a) (s_val b) E) as (v & V & SV & G). rewrite V. cbn [bind]. eexists. split; [reflexivity|].
  cbn [s_time s_freq s_val s_ana s_dig]. do 3 (split; [auto|]). split; [exact G|]. split; apply longer_spec.
Qed.
Theorem slice_refused : forall f a b, ~ same_axes a b -> with_slice f a b = Err EInconsistentShape.
Proof.
  intros f a b N. unfold with_slice. destruct (Nat.eqb_spec (length (s_freq a)) (length (s_freq b))) as [LF|LF]; [|reflexivity].
  destruct (Nat.eqb_spec (length (s_time a)) (length (s_time b))) as [LT|LT]; [|reflexivity]. cbn [andb negb].
  destruct (forallb _ (combine (s_freq a) _)) eqn:F; [|reflexivity]. destruct (forallb _ (combine (s_time a) _)) eqn:T; [|reflexivity].
  exfalso. apply N. split; now apply axes_test.
Qed.
(** Undoing an operation. *)
Theorem add_then_subtract : forall a b, sh (s_val a) = sh (s_val b) -> same_axes a b ->
  exists s r, with_slice (sop Qplus) a b = Ok s /\ with_slice (sop Qminus) s b = Ok r /\ s_time r = s_time a /\ s_freq r = s_freq a /\
    forall idx, inside (sh (s_val a)) idx -> get (s_val b) idx <> None -> same (get (s_val r) idx) (get (s_val a) idx).
Proof.
  intros a b E X. destruct (slice_spec (sop Qplus) a b E X) as (s & S1 & T1 & F1 & H1 & G1 & _).
  destruct (slice_spec (sop Qminus) s b ltac:(congruence) ltac:(unfold same_axes in *; rewrite T1, F1; exact X)) as (r & R & T2 & F2 & H2 & G2 & _).
  exists s, r. do 2 (split; [assumption|]). do 2 (split; [congruence|]). intros idx I K. rewrite G2 by (rewrite H1; exact I). rewrite G1 by exact I.
  destruct (get (s_val b) idx) as [y|]; [|congruence]. destruct (get (s_val a) idx) as [x|]; cbn [sop same]; [ring|exact Logic.I].
Qed.
Theorem multiply_then_divide : forall a b, sh (s_val a) = sh (s_val b) -> same_axes a b ->
  exists s r, with_slice (sop Qmult) a b = Ok s /\ with_slice sdiv s b = Ok r /\ s_time r = s_time a /\ s_freq r = s_freq a /\
    forall idx y, inside (sh (s_val a)) idx -> get (s_val b) idx = Some y -> ~ (y == 0)%Q -> same (get (s_val r) idx) (get (s_val a) idx).
Proof.
  intros a b E X. destruct (slice_spec (sop Qmult) a b E X) as (s & S1 & T1 & F1 & H1 & G1 & _).
  destruct (slice_spec sdiv s b ltac:(congruence) ltac:(unfold same_axes in *; rewrite T1, F1; exact X)) as (r & R & T2 & F2 & H2 & G2 & _).
  exists s, r. do 2 (split; [assumption|]). do 2 (split; [congruence|]). intros idx y I K Y. rewrite G2 by (rewrite H1; exact I). rewrite G1 by exact I.
  rewrite K. destruct (get (s_val a) idx) as [x|]; cbn [sop sdiv same]; [|exact Logic.I].
  destruct (Qeq_bool y 0) eqn:Z; [apply Qeq_bool_eq in Z; contradiction|]. cbn [same]; field. exact Y.
Qed.
(** With a number, and with one value by frequency or by time. *)
Theorem number_spec : forall f a x, exists r, with_array f a (number x) = Ok r /\ s_time r = s_time a /\ s_freq r = s_freq a /\
  sh (s_val r) = sh (s_val a) /\ s_ana r = s_ana a /\ s_dig r = s_dig a /\
  forall idx, inside (sh (s_val a)) idx -> get (s_val r) idx = f (get (s_val a) idx) x.
Proof.
  intros f a x. unfold with_array, elementwise, number. cbn [sh rev get]. replace (join_rev (rev (sh (s_val a))) []) with (Some (rev (sh (s_val a)))) by (destruct (rev (sh (s_val a))); reflexivity).
  cbn [bind]. eexists. split; [reflexivity|]. cbn [s_time s_freq s_val s_ana s_dig sh get]. rewrite rev_involutive. do 5 (split; [reflexivity|]).
  intros idx I. now rewrite index_self.
Qed.
Lemma join_row : forall m n, join_rev [m; n] [m; 1] = Some [m; n].
Proof. intros m n. cbn [join_rev]. change (1 =? 1) with true. cbv iota. destruct (Nat.eqb_spec n 1) as [->|_]; cbv iota; rewrite (Nat.eqb_refl m); reflexivity. Qed.
Lemma join_column : forall m n, join_rev [m; n] [1; n] = Some [m; n].
Proof. intros m n. cbn [join_rev]. rewrite (Nat.eqb_refl n). destruct (Nat.eqb_spec m 1) as [->|_]; reflexivity. Qed.
Lemma by_frequency : forall f a b, full a -> sh b = [1; length (s_freq a)] -> exists r, with_array f a b = Ok r /\ full r /\ s_time r = s_time a /\ s_freq r = s_freq a /\
  s_ana r = s_ana a /\ s_dig r = s_dig a /\ s_pol r = s_pol a /\
  forall i j, i < length (s_time a) -> j < length (s_freq a) -> get (s_val r) [i; j] = f (get (s_val a) [i; j]) (get b [0; j]).
Proof.
  intros f a b F B. unfold with_array, elementwise. unfold full in F. rewrite F, B. cbn [rev app]. rewrite join_row. cbn [bind rev app]. eexists. split; [reflexivity|]. unfold full. cbn [s_time s_freq s_val s_ana s_dig s_pol sh get].
  do 6 (split; [reflexivity|]). intros i j I J. rewrite index_self by (repeat constructor; assumption).
  unfold at_index. cbn [length Nat.sub skipn combine map fst snd]. change (1 =? 1) with true. cbv iota.
  replace (if length (s_freq a) =? 1 then 0 else j) with j; [reflexivity|]. destruct (Nat.eqb_spec (length (s_freq a)) 1); lia.
Qed.
Lemma by_time : forall f a b, full a -> sh b = [length (s_time a); 1] -> exists r, with_array f a b = Ok r /\ full r /\ s_time r = s_time a /\ s_freq r = s_freq a /\
  s_ana r = s_ana a /\ s_dig r = s_dig a /\ s_pol r = s_pol a /\
  forall i j, i < length (s_time a) -> j < length (s_freq a) -> get (s_val r) [i; j] = f (get (s_val a) [i; j]) (get b [i; 0]).
Proof.
  intros f a b F B. unfold with_array, elementwise. unfold full in F. rewrite F, B. cbn [rev app]. rewrite join_column.
  set (nf := length (s_freq a)) in *. set (nt := length (s_time a)) in *.
  cbn [bind rev app]. eexists. split; [reflexivity|]. unfold full. cbn [s_time s_freq s_val s_ana s_dig s_pol sh get].
  do 6 (split; [reflexivity|]). intros i j I J. rewrite index_self by (repeat constructor; assumption).
  unfold at_index. cbn [length Nat.sub skipn combine map fst snd]. change (1 =? 1) with true. cbv iota.
  replace (if nt =? 1 then 0 else i) with i; [reflexivity|]. destruct (Nat.eqb_spec nt 1); lia.
Qed.
(** One value by frequency, without the axis of time. *)
Theorem row_spec : forall f a b, full a -> sh b = [length (s_freq a)] -> exists r, with_array f a b = Ok r /\ full r /\ s_time r = s_time a /\ s_freq r = s_freq a /\
  forall i j, i < length (s_time a) -> j < length (s_freq a) -> get (s_val r) [i; j] = f (get (s_val a) [i; j]) (get b [j]).
Proof.
  intros f a b F B. unfold with_array, elementwise. unfold full in F. rewrite F, B. cbn [rev app join_rev]. rewrite Nat.eqb_refl.
  cbn [bind rev app]. eexists. split; [reflexivity|]. unfold full. cbn [s_time s_freq s_val sh get]. do 3 (split; [reflexivity|]).
  intros i j I J. rewrite index_self by (repeat constructor; assumption).
  unfold at_index. cbn [length Nat.sub skipn combine map fst snd].
  replace (if length (s_freq a) =? 1 then 0 else j) with j; [reflexivity|]. destruct (Nat.eqb_spec (length (s_freq a)) 1); lia.
Qed.
(** One value by time, given without an axis of frequency, is refused or taken for frequencies. *)
Theorem times_refused : forall f a b, full a -> sh b = [length (s_time a)] -> length (s_time a) <> length (s_freq a) ->
  length (s_time a) <> 1 -> length (s_freq a) <> 1 -> with_array f a b = Err EValueError.
Proof.
  intros f a b F B N NT NF. unfold with_array, elementwise. unfold full in F. rewrite F, B. cbn [rev app join_rev].
  destruct (Nat.eqb_spec (length (s_freq a)) (length (s_time a))); [congruence|]. destruct (Nat.eqb_spec (length (s_freq a)) 1); [congruence|].
  destruct (Nat.eqb_spec (length (s_time a)) 1); [congruence|]. reflexivity.
Qed.
(** A column and a light curve give a square array. *)
Theorem column_grows : forall f a b, light_curve a -> sh b = [length (s_time a); 1] -> length (s_time a) <> 1 -> exists r, with_array f a b = Ok r /\
  sh (s_val r) = [length (s_time a); length (s_time a)] /\ ~ shaped r.
Proof.
  intros f a b (E & F) B N. unfold with_array, elementwise. rewrite E, B. cbn [rev app join_rev].
  destruct (Nat.eqb_spec (length (s_time a)) 1); [congruence|]. change (1 =? 1) with true. cbv iota. cbn [bind rev app]. eexists. split; [reflexivity|].
  cbn [s_val sh s_time s_freq]. split; [reflexivity|]. unfold shaped, full, light_curve, spectrum. cbn [s_val sh s_time s_freq]. rewrite F.
  intros [X|[(X & _)|(X & _)]]; try discriminate. injection X as X. lia.
Qed.

(** * Flattening *)
Definition channel (s : st) (j : nat) : list sample := map (fun i => get (s_val s) [i; j]) (seq 0 (length (s_time s))).
Definition instant (s : st) (i : nat) : list sample := map (fun j => get (s_val s) [i; j]) (seq 0 (length (s_freq s))).
Theorem flat_frequency : forall a, full a -> exists r level, flatten_frequency a = Ok r /\ full r /\ s_time r = s_time a /\ s_freq r = s_freq a /\
  (forall j, j < length (s_freq a) -> median_of (channel a j) (level j)) /\
  forall i j, i < length (s_time a) -> j < length (s_freq a) -> get (s_val r) [i; j] = sdiv (get (s_val a) [i; j]) (level j).
Proof.
  intros a F. unfold flatten_frequency. pose proof F as F'. unfold full in F'. rewrite F'.
  destruct (by_frequency sdiv a (mkNd [1; length (s_freq a)] (fun idx => get (reduce nanmedian 0 (s_val a)) [nth 1 idx 0])) F eq_refl) as (r & R & FR & T & Q & _ & _ & _ & G).
  exists r, (fun j => nanmedian (channel a j)). split; [exact R|]. do 3 (split; [assumption|]). split; [intros; apply nanmedian_spec|].
  intros i j I J. rewrite G by assumption. cbn [get nth]. unfold reduce. cbn [get]. rewrite F'. reflexivity.
Qed.
Theorem flat_time : forall a, full a -> exists r level, flatten_time a = Ok r /\ full r /\ s_time r = s_time a /\ s_freq r = s_freq a /\
  (forall i, i < length (s_time a) -> median_of (instant a i) (level i)) /\
  forall i j, i < length (s_time a) -> j < length (s_freq a) -> get (s_val r) [i; j] = sdiv (get (s_val a) [i; j]) (level i).
Proof.
  intros a F. unfold flatten_time. pose proof F as F'. unfold full in F'. rewrite F'.
  destruct (by_time sdiv a (mkNd [length (s_time a); 1] (fun idx => get (reduce nanmedian 1 (s_val a)) [nth 0 idx 0])) F eq_refl) as (r & R & FR & T & Q & _ & _ & _ & G).
  exists r, (fun i => nanmedian (instant a i)). split; [exact R|]. do 3 (split; [assumption|]). split; [intros; apply nanmedian_spec|].
  intros i j I J. rewrite G by assumption. cbn [get nth]. unfold reduce. cbn [get]. rewrite F'. reflexivity.
Qed.
Lemma scaled_median : forall (f g : nat -> sample) n q, (0 < q)%Q -> median_of (map f (seq 0 n)) (Some q) ->
  (forall i, i < n -> g i = sdiv (f i) (Some q)) -> median_of (map g (seq 0 n)) (Some 1%Q).
Proof.
  intros f g n q P M G.
  assert (C : (0 < 1 / q)%Q) by (apply Qlt_shift_div_l; lra).
  apply (median_scaled (1 / q) _ _ C) in M. cbn [scaled] in M.
  assert (X : median_of (map (scaled (1 / q)) (map f (seq 0 n))) (Some 1%Q)).
  { destruct M as (a & b & A & B & EE). exists a, b. split; [exact A|]. split; [exact B|]. rewrite <- EE. field. lra. }
  apply (median_ext _ _ _) with (2 := X). rewrite map_map.
  assert (FA : forall l, (forall t, In t l -> t < n) -> Forall2 (fun x y => match x, y with Some a, Some b => (a == b)%Q | None, None => True | _, _ => False end)
     (map (fun t => scaled (1 / q) (f t)) l) (map g l)).
  { induction l as [|t l IH]; intros L; cbn [map]; constructor.
    - rewrite (G t) by (apply L; now left). destruct (f t) as [v|]; cbn [scaled sdiv]; [|exact I].
      destruct (Qeq_bool q 0) eqn:Z; [apply Qeq_bool_eq in Z; lra|]. field. lra.
    - apply IH. intros. apply L. now right. }
  apply FA. intros t I. apply in_seq in I. lia.
Qed.
(** Every channel (every time) has a median of one afterwards. *)
Theorem flat_frequency_one : forall a r j q, full a -> flatten_frequency a = Ok r -> j < length (s_freq a) ->
  median_of (channel a j) (Some q) -> (0 < q)%Q -> median_of (channel r j) (Some 1%Q).
Proof.
  intros a r j q F R J M P. destruct (flat_frequency a F) as (r' & level & R' & _ & T & _ & L & G). rewrite R in R'. injection R' as <-.
  pose proof (median_unique _ _ _ (L j J) M) as U. destruct (level j) as [q'|] eqn:E; [|destruct U]. pose proof (L j J) as M'. rewrite E in M'.
  unfold channel in *. rewrite T. apply (scaled_median (fun i => get (s_val a) [i; j]) _ _ q'); [lra|exact M'|]. intros i I. rewrite G by assumption. now rewrite E.
Qed.
Theorem flat_time_one : forall a r i q, full a -> flatten_time a = Ok r -> i < length (s_time a) ->
  median_of (instant a i) (Some q) -> (0 < q)%Q -> median_of (instant r i) (Some 1%Q).
Proof.
  intros a r i q F R J M P. destruct (flat_time a F) as (r' & level & R' & _ & _ & T & L & G). rewrite R in R'. injection R' as <-.
  pose proof (median_unique _ _ _ (L i J) M) as U. destruct (level i) as [q'|] eqn:E; [|destruct U]. pose proof (L i J) as M'. rewrite E in M'.
  unfold instant in *. rewrite T. apply (scaled_median (fun j => get (s_val a) [i; j]) _ _ q'); [lra|exact M'|]. intros j K. rewrite G by assumption. now rewrite E.
Qed.
(** Flattening twice is flattening once. *)
Theorem flat_frequency_twice : forall a r r', full a -> flatten_frequency a = Ok r -> flatten_frequency r = Ok r' ->
  forall i j q, i < length (s_time a) -> j < length (s_freq a) -> median_of (channel a j) (Some q) -> (0 < q)%Q ->
    same (get (s_val r') [i; j]) (get (s_val r) [i; j]).
Proof.
  intros a r r' F R R' i j q I J M P. pose proof (flat_frequency_one a r j q F R J M P) as O.
  destruct (flat_frequency a F) as (r0 & l0 & R0 & F0 & T0 & Q0 & _). rewrite R in R0. injection R0 as <-.
  destruct (flat_frequency r F0) as (r1 & l1 & R1 & F1 & T1 & Q1 & L1 & G1). rewrite R' in R1. injection R1 as <-.
  rewrite G1 by (rewrite ?T0, ?Q0; assumption). pose proof (median_unique _ _ _ (L1 j ltac:(now rewrite Q0)) O) as U. destruct (l1 j) as [q'|]; [|destruct U].
  destruct (get (s_val r) [i; j]) as [x|]; cbn [sdiv same]; [|exact Logic.I]. destruct (Qeq_bool q' 0) eqn:Z; [apply Qeq_bool_eq in Z; lra|]. cbn [same]. rewrite U. field.
Qed.
Theorem flat_single_axis : forall a, light_curve a \/ spectrum a -> flatten_frequency a = Err EIndexError /\ flatten_time a = Err EValueError.
Proof. intros a [(E & _)|(E & _)]; unfold flatten_frequency, flatten_time; rewrite E; now split. Qed.

(** * Interferences *)
Section Rfi.
Variable std : nd sample -> sample.
(** A value above a level by [k] deviations, or exactly there. *)
Definition stands_out (x level dev : sample) (k : Q) : Prop :=
  match x, level, dev with Some v, Some l, Some s => (l + s * k <= v)%Q | _, _, _ => False end.
Lemma reaches_spec : forall x l s k, reaches x (sop Qplus l (sop Qmult s (Some k))) = true <-> stands_out x l s k.
Proof. intros [x|] [l|] [s|] k; cbn [reaches sop stands_out]; try (split; [discriminate|contradiction]). apply Qle_bool_iff. Qed.
Theorem clean_spec : forall tk fk a, full a -> exists r flevel tlevel, clean_rfi std tk fk a = Ok r /\ full r /\ s_time r = s_time a /\ s_freq r = s_freq a /\
  (forall j, j < length (s_freq a) -> median_of (channel a j) (flevel j)) /\ (forall i, i < length (s_time a) -> median_of (instant a i) (tlevel i)) /\
  forall i j, let x := get (s_val a) [i; j] in let out := stands_out x (flevel j) (std (s_val a)) fk \/ stands_out x (tlevel i) (std (s_val a)) tk in
    (out -> get (s_val r) [i; j] = None) /\ (~ out -> get (s_val r) [i; j] = x).
Proof.
  intros tk fk a F. unfold clean_rfi. pose proof F as F'. unfold full in F'. rewrite F'. eexists. exists (fun j => nanmedian (channel a j)), (fun i => nanmedian (instant a i)).
  split; [reflexivity|]. unfold full. cbn [s_time s_freq s_val sh get]. do 3 (split; [reflexivity|]). do 2 (split; [intros; apply nanmedian_spec|]).
  intros i j. cbn [nth]. unfold reduce. cbn [get]. rewrite F'. cbn [nth firstn skipn app].
  fold (channel a j). fold (instant a i).
  set (x := get (s_val a) [i; j]). cbv zeta. rewrite <- !reaches_spec.
  destruct (reaches x (sop Qplus (nanmedian (channel a j)) _)) eqn:E1.
  - cbn [reaches]. split; [reflexivity|]. intros H. exfalso. apply H. now left.
  - destruct (reaches x (sop Qplus (nanmedian (instant a i)) _)) eqn:E2; split; intros H; try reflexivity.
    + exfalso. apply H. now right.
    + destruct H; discriminate.
Qed.
(** Raising the limits keeps more. *)
Theorem clean_monotone : forall tk fk tk' fk' a r r' s, full a -> std (s_val a) = Some s -> (0 <= s)%Q -> (tk <= tk')%Q -> (fk <= fk')%Q ->
  clean_rfi std tk fk a = Ok r -> clean_rfi std tk' fk' a = Ok r' ->
  forall i j v, get (s_val r) [i; j] = Some v -> get (s_val r') [i; j] = Some v.
Proof.
  intros tk fk tk' fk' a r r' s F S0 S1 T1 T2 R R' i j v V.
  destruct (clean_spec tk fk a F) as (r0 & fl & tl & E & _ & _ & _ & _ & _ & G). rewrite R in E. injection E as <-.
  destruct (clean_spec tk' fk' a F) as (r1 & fl' & tl' & E & _ & _ & _ & _ & _ & G'). rewrite R' in E. injection E as <-.
  unfold clean_rfi in R, R'. rewrite F in R, R'. injection R as <-. injection R' as <-. cbn [s_val get nth] in *. rewrite S0 in *.
  clear G G' fl tl fl' tl'. unfold reduce in *. cbn [get] in *. rewrite F in *. cbn [nth firstn skipn app] in *. fold (channel a j) in *. fold (instant a i) in *.
  set (x := get (s_val a) [i; j]) in *.
  assert (MON : forall l k k', (k <= k')%Q -> reaches x (sop Qplus l (sop Qmult (Some s) (Some k))) = false -> reaches x (sop Qplus l (sop Qmult (Some s) (Some k'))) = false).
  { intros l k k' K H. apply not_true_iff_false. intros C. apply reaches_spec in C. apply not_true_iff_false in H. apply H. apply reaches_spec.
    destruct x as [x0|], l as [l0|]; cbn [stands_out] in *; try contradiction. nra. }
  destruct (reaches x (sop Qplus (nanmedian (channel a j)) (sop Qmult (Some s) (Some fk)))) eqn:E1; [discriminate|].
  rewrite (MON _ _ _ T2 E1). destruct (reaches x (sop Qplus (nanmedian (instant a i)) (sop Qmult (Some s) (Some tk)))) eqn:E2; [discriminate|].
  rewrite (MON _ _ _ T1 E2). exact V.
Qed.
(** Data without any fluctuation are removed entirely. *)
Lemma median_constant : forall l c q, (forall x, In x l -> x = Some c) -> median_of l (Some q) -> (q == c)%Q.
Proof.
  intros l c q H (a & b & (A & _) & (B & _) & E). apply H in A. apply H in B. injection A as ->. injection B as ->. lra.
Qed.
Theorem clean_constant : forall tk fk a c s, full a -> (forall i j, get (s_val a) [i; j] = Some c) -> std (s_val a) = Some s -> (s == 0)%Q ->
  exists r, clean_rfi std tk fk a = Ok r /\ forall i j, i < length (s_time a) -> j < length (s_freq a) -> get (s_val r) [i; j] = None.
Proof.
  intros tk fk a c s F C S0 S1. destruct (clean_spec tk fk a F) as (r & fl & tl & R & _ & _ & _ & M & _ & G). exists r. split; [exact R|].
  intros i j I J. apply G. left. rewrite C, S0. pose proof (M j J) as MJ. destruct (fl j) as [q|].
  - cbn [stands_out]. rewrite (median_constant _ c q) by (exact MJ || (intros x X; apply in_map_iff in X; destruct X as (t & <- & _); apply C)). rewrite S1. lra.
  - exfalso. assert (X : Some c = None); [|discriminate]. apply MJ. apply in_map_iff. exists i. split; [apply C|apply in_seq; lia].
Qed.
Theorem clean_single_axis : forall tk fk a, light_curve a \/ spectrum a -> clean_rfi std tk fk a = Err EValueError.
Proof. intros tk fk a [(E & _)|(E & _)]; unfold clean_rfi; now rewrite E. Qed.
End Rfi.
