(** Joining sub-sets of statistics data, and taking a part of them. *)
From Coq Require Import String List Arith ZArith QArith Bool Lia Lqa.
From Verif Require Import Base M_Nd M_Rebin P_Nd P_SData M_Slice.
Import ListNotations.
Open Scope nat_scope.
Open Scope list_scope.

(** * Specification *)
(** One value by time and frequency. *)
Definition full (s : st) : Prop := sh (s_val s) = [length (s_time s); length (s_freq s)].
(** The results of [get] for one frequency, and for one time: a single axis. *)
Definition light_curve (s : st) : Prop := sh (s_val s) = [length (s_time s)] /\ length (s_freq s) = 1.
Definition spectrum (s : st) : Prop := sh (s_val s) = [length (s_freq s)] /\ length (s_time s) = 1.
Definition same_axis (l m : list Q) : Prop := Forall2 Qeq l m.
(** [r] is made of [x], then [y], along the frequencies. *)
Definition freq_joined (x y r : st) : Prop :=
  full r /\ s_freq r = s_freq x ++ s_freq y /\
  forall i j, i < length (s_time r) ->
    (j < length (s_freq x) -> get (s_val r) [i; j] = get (s_val x) [i; j]) /\
    (j < length (s_freq y) -> get (s_val r) [i; length (s_freq x) + j] = get (s_val y) [i; j]).
(** The same data: same axes, same values. *)
Definition same_data (r r' : st) : Prop :=
  s_time r = s_time r' /\ s_freq r = s_freq r' /\ sh (s_val r) = sh (s_val r') /\
  forall idx, inside (sh (s_val r)) idx -> get (s_val r) idx = get (s_val r') idx.

(** * Lemmas *)
Lemma Forall2_length : forall A B (R : A -> B -> Prop) l m, Forall2 R l m -> length l = length m.
Proof. intros A B R l m H. induction H; cbn [length]; congruence. Qed.
Arguments Forall2_length {A B R l m} _.
Lemma forallb_pairs : forall l m, length l = length m ->
  (forallb (fun p => Qeq_bool (fst p) (snd p)) (combine l m) = true <-> same_axis l m).
Proof.
  induction l as [|x l IH]; intros [|y m] L; cbn [combine forallb length fst snd] in *; try lia.
  - split; [constructor|reflexivity].
  - rewrite andb_true_iff, IH by lia. rewrite Qeq_bool_iff. split.
    + intros (A & B). now constructor.
    + intros H. inversion H; subst. now split.
Qed.
Lemma max_fold : forall r x y, (y < fold_left (fun m z => if Qle_bool m z then z else m) r x)%Q <-> (y < x)%Q \/ exists z, In z r /\ (y < z)%Q.
Proof.
  induction r as [|w r IH]; intros x y; cbn [fold_left].
  - split; [now left|]. intros [H|(z & [] & _)]; exact H.
  - rewrite IH. destruct (Qle_bool x w) eqn:E.
    + apply Qle_bool_iff in E. split.
      * intros [H|(z & I & H)]; right; [exists w|exists z]; (split; [now (left + right)|exact H]).
      * intros [H|(z & [<-|I] & H)]; [left; lra|left; exact H|right; now exists z].
    + assert (w < x)%Q. { apply Qnot_le_lt. intros A. apply Qle_bool_iff in A. congruence. }
      split.
      * intros [K|(z & I & K)]; [now left|right; exists z; split; [now right|exact K]].
      * intros [K|(z & [<-|I] & K)]; [now left|left; lra|right; now exists z].
Qed.
Lemma max_in : forall l m, q_max l = Ok m -> In m l /\ forall x, In x l -> (x <= m)%Q.
Proof.
  intros [|x r] m E; [discriminate|]. injection E as <-. split.
  - revert x. induction r as [|y r IH]; intros x; cbn [fold_left]; [now left|].
    destruct (Qle_bool x y); [right; apply IH|]. destruct (IH x) as [E|I]; [left; exact E|right; now right].
  - intros z I. apply Qnot_lt_le. intros H.
    assert (~ (fold_left (fun m z => if Qle_bool m z then z else m) r x < fold_left (fun m z => if Qle_bool m z then z else m) r x)%Q) as N by lra.
    apply N. apply max_fold. destruct I as [<-|I]; [now left|right; now exists z].
Qed.
Lemma min_fold : forall r x y, (fold_left (fun m z => if Qle_bool z m then z else m) r x < y)%Q <-> (x < y)%Q \/ exists z, In z r /\ (z < y)%Q.
Proof.
  induction r as [|w r IH]; intros x y; cbn [fold_left].
  - split; [now left|]. intros [H|(z & [] & _)]; exact H.
  - rewrite IH. destruct (Qle_bool w x) eqn:E.
    + apply Qle_bool_iff in E. split.
      * intros [H|(z & I & H)]; right; [exists w|exists z]; (split; [now (left + right)|exact H]).
      * intros [H|(z & [<-|I] & H)]; [left; lra|left; exact H|right; now exists z].
    + assert (x < w)%Q. { apply Qnot_le_lt. intros A. apply Qle_bool_iff in A. congruence. }
      split.
      * intros [K|(z & I & K)]; [now left|right; exists z; split; [now right|exact K]].
      * intros [K|(z & [<-|I] & K)]; [now left|left; lra|right; now exists z].
Qed.
Lemma min_in : forall l m, q_min l = Ok m -> In m l /\ forall x, In x l -> (m <= x)%Q.
Proof.
  intros [|x r] m E; [discriminate|]. injection E as <-. split.
  - revert x. induction r as [|y r IH]; intros x; cbn [fold_left]; [now left|].
    destruct (Qle_bool y x); [right; apply IH|]. destruct (IH x) as [E|I]; [left; exact E|right; now right].
  - intros z I. apply Qnot_lt_le. intros H.
    assert (~ (fold_left (fun m z => if Qle_bool z m then z else m) r x < fold_left (fun m z => if Qle_bool z m then z else m) r x)%Q) as N by lra.
    apply N. apply min_fold. destruct I as [<-|I]; [now left|right; now exists z].
Qed.
Lemma max_some : forall l, l <> [] -> exists m, q_max l = Ok m.
Proof. intros [|x r] H; [congruence|]. now eexists. Qed.
Lemma min_some : forall l, l <> [] -> exists m, q_min l = Ok m.
Proof. intros [|x r] H; [congruence|]. now eexists. Qed.
(** The test which chooses the order. *)
Lemma order_test : forall l m top low, q_max l = Ok top -> q_min m = Ok low ->
  negb (Qle_bool low top) = true <-> below l m.
Proof.
  intros l m top low T L. apply max_in in T. apply min_in in L. destruct T as (T1 & T2), L as (L1 & L2).
  rewrite negb_true_iff. split.
  - intros H x y X Y. assert (~ (low <= top)%Q) as N by (intros A; apply Qle_bool_iff in A; congruence).
    pose proof (T2 x X). pose proof (L2 y Y). lra.
  - intros B. apply not_true_iff_false. rewrite Qle_bool_iff. pose proof (B _ _ T1 L1). lra.
Qed.
Lemma all_equal_same : forall l m, same_axis l m -> all_equal l m = Ok true.
Proof.
  intros l m H. assert (L : length l = length m) by (now apply (Forall2_length H)).
  unfold all_equal. rewrite L, Nat.eqb_refl. f_equal. now apply forallb_pairs.
Qed.
Lemma all_equal_cases : forall l m, length l = length m ->
  (same_axis l m /\ all_equal l m = Ok true) \/ (~ same_axis l m /\ all_equal l m = Ok false).
Proof.
  intros l m L. unfold all_equal. rewrite L, Nat.eqb_refl. destruct (forallb _ _) eqn:E.
  - left. split; [|reflexivity]. now apply forallb_pairs.
  - right. split; [|reflexivity]. intros H. apply forallb_pairs in H; congruence.
Qed.
Lemma all_equal_err : forall l m e, all_equal l m = Err e -> e = EValueError.
Proof. intros l m e. unfold all_equal. destruct (_ =? _); [discriminate|]. destruct l as [|a [|b l]], m as [|c [|d m]]; congruence. Qed.
Lemma hstack2 : forall a b n m1 m2, sh a = [n; m1] -> sh b = [n; m2] ->
  exists v, hstack a b = Ok v /\ sh v = [n; m1 + m2] /\
    (forall i j, j < m1 -> get v [i; j] = get a [i; j]) /\ (forall i j, get v [i; m1 + j] = get b [i; j]).
Proof.
  intros a b n m1 m2 A B. unfold hstack. rewrite A, B, Nat.eqb_refl. cbn [andb]. destruct (list_eq_dec _ _ _) as [_|N]; [|congruence].
  eexists. split; [reflexivity|]. cbn [sh get]. split; [reflexivity|]. split.
  - intros i j J. destruct (Nat.ltb_spec j m1); [reflexivity|lia].
  - intros i j. destruct (Nat.ltb_spec (m1 + j) m1); [lia|]. now replace (m1 + j - m1) with j by lia.
Qed.
Lemma hstack_rows : forall a b n1 n2 m1 m2, sh a = [n1; m1] -> sh b = [n2; m2] -> n1 <> n2 -> hstack a b = Err EValueError.
Proof. intros a b n1 n2 m1 m2 A B N. unfold hstack. rewrite A, B. destruct (Nat.eqb_spec n1 n2); [congruence|]. reflexivity. Qed.
Lemma hstack1 : forall a b n m, sh a = [n] -> sh b = [m] ->
  exists v, hstack a b = Ok v /\ sh v = [n + m] /\
    (forall i, i < n -> get v [i] = get a [i]) /\ (forall i, get v [n + i] = get b [i]).
Proof.
  intros a b n m A B. unfold hstack. rewrite A, B. eexists. split; [reflexivity|]. cbn [sh get hd]. split; [reflexivity|]. split.
  - intros i I. destruct (Nat.ltb_spec i n); [reflexivity|lia].
  - intros i. destruct (Nat.ltb_spec (n + i) n); [lia|]. now replace (n + i - n) with i by lia.
Qed.

(** * Joining in frequency *)
Theorem and_spec : forall a b, full a -> full b -> same_axis (s_time a) (s_time b) -> s_freq a <> [] -> s_freq b <> [] ->
  exists r, st_and a b = Ok r /\ s_time r = s_time a /\ s_ana r = s_ana a /\ s_dig r = s_dig a /\ s_pol r = s_pol a /\
    (below (s_freq a) (s_freq b) -> freq_joined a b r) /\ (~ below (s_freq a) (s_freq b) -> freq_joined b a r).
Proof.
  intros a b A B T NA NB. unfold st_and. rewrite (all_equal_same _ _ T). cbn [bind negb].
  destruct (max_some _ NA) as (top & ET), (min_some _ NB) as (low & EL). rewrite ET, EL. cbn [bind].
  pose proof (order_test _ _ _ _ ET EL) as O. pose proof (Forall2_length T) as L. unfold full in A, B.
  destruct (negb (Qle_bool low top)) eqn:E.
  - destruct (hstack2 (s_val a) (s_val b) (length (s_time a)) (length (s_freq a)) (length (s_freq b)) A ltac:(now rewrite B, L)) as (v & V & SV & G1 & G2).
    rewrite V. cbn [bind]. eexists. split; [reflexivity|]. cbn [s_time s_ana s_dig s_pol s_freq s_val]. do 4 (split; [reflexivity|]). split.
    + intros _. unfold freq_joined, full. cbn [s_time s_freq s_val]. rewrite app_length. split; [exact SV|]. split; [reflexivity|]. intros i j _. split; auto.
    + intros H. exfalso. apply H. now apply O.
  - destruct (hstack2 (s_val b) (s_val a) (length (s_time a)) (length (s_freq b)) (length (s_freq a)) ltac:(now rewrite B, L) A) as (v & V & SV & G1 & G2).
    rewrite V. cbn [bind]. eexists. split; [reflexivity|]. cbn [s_time s_ana s_dig s_pol s_freq s_val]. do 4 (split; [reflexivity|]). split.
    + intros H. apply O in H. discriminate.
    + intros _. unfold freq_joined, full. cbn [s_time s_freq s_val]. rewrite app_length. split; [exact SV|]. split; [reflexivity|]. intros i j _. split; auto.
Qed.
Theorem and_refused : forall a b, full a -> full b ->
  ~ (same_axis (s_time a) (s_time b) /\ s_freq a <> [] /\ s_freq b <> []) -> st_and a b = Err EValueError.
Proof.
  intros a b A B N. unfold st_and. destruct (all_equal (s_time a) (s_time b)) as [same|e] eqn:E; [|cbn [bind]; f_equal; now apply all_equal_err in E].
  cbn [bind]. destruct same; [|reflexivity]. cbn [negb].
  destruct (s_freq a) as [|fa ra] eqn:FA; [reflexivity|]. destruct (q_max (fa :: ra)) as [top|] eqn:ET; [|discriminate]. cbn [bind].
  destruct (s_freq b) as [|fb rb] eqn:FB; [reflexivity|]. destruct (q_min (fb :: rb)) as [low|] eqn:EL; [|discriminate]. cbn [bind].
  assert (L : length (s_time a) <> length (s_time b)).
  { intros L. destruct (all_equal_cases _ _ L) as [(S0 & _)|(_ & X)]; [|congruence]. apply N. split; [exact S0|]. split; congruence. }
  unfold full in A, B. destruct (negb (Qle_bool low top)).
  - now rewrite (hstack_rows _ _ _ _ _ _ A B L).
  - now rewrite (hstack_rows _ _ _ _ _ _ B A ltac:(congruence)).
Qed.
(** Joined bands are in order when they do not overlap. *)
Theorem and_increasing : forall a b r, full a -> full b -> increasing (s_freq a) -> increasing (s_freq b) ->
  below (s_freq a) (s_freq b) \/ below (s_freq b) (s_freq a) -> st_and a b = Ok r -> full r /\ increasing (s_freq r).
Proof.
  intros a b r A B IA IB D R.
  assert (NN : same_axis (s_time a) (s_time b) /\ s_freq a <> [] /\ s_freq b <> []).
  { destruct (s_freq a) eqn:FA; [unfold st_and in R; rewrite FA in R; destruct (all_equal _ _) as [[]|]; discriminate|].
    destruct (s_freq b) eqn:FB; [unfold st_and in R; rewrite FA, FB in R; destruct (all_equal _ _) as [[]|]; discriminate|].
    split; [|split; congruence]. destruct (Nat.eq_dec (length (s_time a)) (length (s_time b))) as [L|L].
    - destruct (all_equal_cases _ _ L) as [(X & _)|(_ & X)]; [exact X|]. unfold st_and in R. rewrite X in R. discriminate.
    - rewrite and_refused in R; [discriminate|exact A|exact B|]. intros (X & _). apply L. exact (Forall2_length X). }
  destruct NN as (T & NA & NB). destruct (and_spec a b A B T NA NB) as (r' & R' & _ & _ & _ & _ & H1 & H2).
  rewrite R in R'. injection R' as <-.
  destruct D as [D|D].
  - destruct (H1 D) as (F & E & _). split; [exact F|]. rewrite E. now apply increasing_app.
  - destruct H2 as (F & E & _).
    + intros C. destruct (s_freq a) as [|x l]; [congruence|]. destruct (s_freq b) as [|y m]; [congruence|].
      pose proof (C x y (or_introl eq_refl) (or_introl eq_refl)). pose proof (D y x (or_introl eq_refl) (or_introl eq_refl)). lra.
    + split; [exact F|]. rewrite E. now apply increasing_app.
Qed.
Lemma joined_same : forall x y r r', freq_joined x y r -> freq_joined x y r' -> s_time r = s_time r' -> same_data r r'.
Proof.
  intros x y r r' (F & E & G) (F' & E' & G') T. split; [exact T|]. split; [congruence|]. unfold full in F, F'.
  split; [rewrite F, F', T, E, E'; reflexivity|]. intros idx I. rewrite F in I. inversion I as [|i n l s Hi I1]; subst.
  inversion I1 as [|j m l' s' Hj I2]; subst. inversion I2; subst. rewrite E, app_length in Hj.
  destruct (G i j Hi) as (P & _). destruct (G' i j ltac:(congruence)) as (P' & _).
  destruct (lt_dec j (length (s_freq x))) as [J|J]; [now rewrite P, P'|].
  destruct (G i (j - length (s_freq x)) Hi) as (_ & Q). destruct (G' i (j - length (s_freq x)) ltac:(congruence)) as (_ & Q').
  replace (length (s_freq x) + (j - length (s_freq x))) with j in Q, Q' by lia. now rewrite Q, Q' by lia.
Qed.
Lemma not_both : forall l m, l <> [] -> m <> [] -> below l m -> ~ below m l.
Proof.
  intros [|x l] [|y m] A B C D; try congruence.
  pose proof (C x y (or_introl eq_refl) (or_introl eq_refl)). pose proof (D y x (or_introl eq_refl) (or_introl eq_refl)). lra.
Qed.
(** The order of the operands does not matter for separate bands. *)
Theorem and_commutes : forall a b, full a -> full b -> s_time a = s_time b -> s_freq a <> [] -> s_freq b <> [] ->
  below (s_freq a) (s_freq b) \/ below (s_freq b) (s_freq a) ->
  exists r r', st_and a b = Ok r /\ st_and b a = Ok r' /\ same_data r r'.
Proof.
  assert (RF : forall l, same_axis l l). { induction l; constructor; [reflexivity|assumption]. }
  intros a b A B T NA NB D.
  destruct (and_spec a b A B ltac:(rewrite T; apply RF) NA NB) as (r & R & TR & _ & _ & _ & H1 & H2).
  destruct (and_spec b a B A ltac:(rewrite T; apply RF) NB NA) as (r' & R' & TR' & _ & _ & _ & H1' & H2').
  exists r, r'. split; [exact R|]. split; [exact R'|]. destruct D as [D|D].
  - apply (joined_same a b); [auto|apply H2'; now apply not_both|congruence].
  - apply (joined_same b a); [apply H2; now apply not_both|auto|congruence].
Qed.
(** Three bands in order. *)
Theorem and_associates : forall a b c, full a -> full b -> full c -> s_time a = s_time b -> s_time b = s_time c ->
  s_freq a <> [] -> s_freq b <> [] -> s_freq c <> [] -> below (s_freq a) (s_freq b) -> below (s_freq b) (s_freq c) ->
  exists ab bc r r', st_and a b = Ok ab /\ st_and b c = Ok bc /\ st_and ab c = Ok r /\ st_and a bc = Ok r' /\ same_data r r'.
Proof.
  assert (RF : forall l, same_axis l l). { induction l; constructor; [reflexivity|assumption]. }
  intros a b c A B C T1 T2 NA NB NC AB BC.
  assert (AC : below (s_freq a) (s_freq c)).
  { intros x y X Y. destruct (s_freq b) as [|z l]; [congruence|]. pose proof (AB x z X (or_introl eq_refl)). pose proof (BC z y (or_introl eq_refl) Y). lra. }
  destruct (and_spec a b A B ltac:(rewrite T1; apply RF) NA NB) as (ab & E1 & U1 & _ & _ & _ & J1 & _). specialize (J1 AB).
  destruct (and_spec b c B C ltac:(rewrite T2; apply RF) NB NC) as (bc & E2 & U2 & _ & _ & _ & J2 & _). specialize (J2 BC).
  destruct J1 as (F1 & Q1 & G1), J2 as (F2 & Q2 & G2).
  destruct (and_spec ab c F1 C ltac:(rewrite U1, T1, T2; apply RF) ltac:(rewrite Q1; destruct (s_freq a); discriminate || congruence) NC) as (r & E3 & U3 & _ & _ & _ & J3 & _).
  destruct J3 as (F3 & Q3 & G3).
  { rewrite Q1. intros x y X Y. apply in_app_or in X. destruct X as [X|X]; auto. }
  destruct (and_spec a bc A F2 ltac:(rewrite U2, T1; apply RF) NA ltac:(rewrite Q2; destruct (s_freq b); discriminate || congruence)) as (r' & E4 & U4 & _ & _ & _ & J4 & _).
  destruct J4 as (F4 & Q4 & G4).
  { rewrite Q2. intros x y X Y. apply in_app_or in Y. destruct Y as [Y|Y]; auto. }
  exists ab, bc, r, r'. do 4 (split; [assumption|]).
  split; [congruence|]. split; [rewrite Q3, Q4, Q1, Q2; now rewrite app_assoc|].
  unfold full in F3, F4. split; [rewrite F3, F4, U3, U4, U1, Q3, Q4, Q1, Q2; now rewrite app_assoc|].
  intros idx I. rewrite F3 in I. inversion I as [|i n l s Hi I1]; subst. inversion I1 as [|j m l' s' Hj I2]; subst. inversion I2; subst.
  rewrite Q3, Q1, !app_length in Hj. rewrite U3, U1 in Hi.
  rewrite Q1, app_length in G3.
  set (na := length (s_freq a)) in *. set (nb := length (s_freq b)) in *.
  destruct (lt_dec j na) as [J|J].
  - destruct (G3 i j ltac:(congruence)) as (P & _). rewrite P by lia. destruct (G1 i j ltac:(congruence)) as (P1 & _). rewrite P1 by exact J.
    destruct (G4 i j ltac:(congruence)) as (P4 & _). now rewrite P4.
  - destruct (lt_dec j (na + nb)) as [K|K].
    + destruct (G3 i j ltac:(congruence)) as (P & _). rewrite P by lia. destruct (G1 i (j - na) ltac:(congruence)) as (_ & P1).
      destruct (G4 i (j - na) ltac:(congruence)) as (_ & P4). replace (na + (j - na)) with j in P1, P4 by lia. rewrite P1 by (unfold nb in *; lia).
      rewrite P4 by (rewrite Q2, app_length; fold nb; lia). destruct (G2 i (j - na) ltac:(congruence)) as (P2 & _). symmetry. apply P2. fold nb. lia.
    + destruct (G3 i (j - na - nb) ltac:(congruence)) as (_ & P). replace (na + nb + (j - na - nb)) with j in P by lia. rewrite P by lia.
      destruct (G4 i (j - na) ltac:(congruence)) as (_ & P4). replace (na + (j - na)) with j in P4 by lia.
      rewrite P4 by (rewrite Q2, app_length; fold nb; lia). destruct (G2 i (j - na - nb) ltac:(congruence)) as (_ & P2). fold nb in P2.
      replace (nb + (j - na - nb)) with (j - na) in P2 by lia. symmetry. apply P2. lia.
Qed.
(** Two light curves: the values follow each other, instead of facing each other. *)
Theorem and_light_curves : forall a b, light_curve a -> light_curve b -> same_axis (s_time a) (s_time b) ->
  exists r, st_and a b = Ok r /\ length (s_time r) = length (s_time a) /\ length (s_freq r) = 2 /\
    sh (s_val r) = [2 * length (s_time a)].
Proof.
  intros a b (A & FA) (B & FB) T. unfold st_and. rewrite (all_equal_same _ _ T). cbn [bind negb]. pose proof (Forall2_length T) as L.
  destruct (max_some (s_freq a) ltac:(destruct (s_freq a); discriminate)) as (top & ET).
  destruct (min_some (s_freq b) ltac:(destruct (s_freq b); discriminate)) as (low & EL). rewrite ET, EL. cbn [bind].
  destruct (negb (Qle_bool low top)).
  - destruct (hstack1 (s_val a) (s_val b) _ _ A B) as (v & V & SV & _). rewrite V. cbn [bind]. eexists. split; [reflexivity|].
    cbn [s_time s_freq s_val]. rewrite app_length, FA, FB. do 2 (split; [reflexivity|]). rewrite SV. f_equal. lia.
  - destruct (hstack1 (s_val b) (s_val a) _ _ B A) as (v & V & SV & _). rewrite V. cbn [bind]. eexists. split; [reflexivity|].
    cbn [s_time s_freq s_val]. rewrite app_length, FA, FB. do 2 (split; [reflexivity|]). rewrite SV. f_equal. lia.
Qed.
(** Two spectra are well joined. *)
Theorem and_spectra : forall a b, spectrum a -> spectrum b -> same_axis (s_time a) (s_time b) -> s_freq a <> [] -> s_freq b <> [] ->
  below (s_freq a) (s_freq b) ->
  exists r, st_and a b = Ok r /\ spectrum r /\ s_freq r = s_freq a ++ s_freq b /\
    (forall j, j < length (s_freq a) -> get (s_val r) [j] = get (s_val a) [j]) /\
    (forall j, j < length (s_freq b) -> get (s_val r) [length (s_freq a) + j] = get (s_val b) [j]).
Proof.
  intros a b (A & TA) (B & TB) T NA NB D. unfold st_and. rewrite (all_equal_same _ _ T). cbn [bind negb].
  destruct (max_some _ NA) as (top & ET), (min_some _ NB) as (low & EL). rewrite ET, EL. cbn [bind].
  apply (order_test _ _ _ _ ET EL) in D. rewrite D.
  destruct (hstack1 (s_val a) (s_val b) _ _ A B) as (v & V & SV & G1 & G2). rewrite V. cbn [bind]. eexists. split; [reflexivity|].
  unfold spectrum. cbn [s_time s_freq s_val]. rewrite app_length. auto 6.
Qed.

(** * Joining in time *)
(** [r] is made of [x], then [y], along the time. *)
Definition time_joined (x y r : st) : Prop :=
  s_time r = s_time x ++ s_time y /\ s_ana r = s_ana x ++ s_ana y /\ s_dig r = s_dig x ++ s_dig y /\
  (forall i, i < length (s_time x) -> get (s_val r) [i] = get (s_val x) [i]) /\
  (forall i, i < length (s_time y) -> get (s_val r) [length (s_time x) + i] = get (s_val y) [i]).
Theorem or_light_curves : forall a b, light_curve a -> light_curve b -> same_axis (s_freq a) (s_freq b) ->
  s_time a <> [] -> s_time b <> [] ->
  exists r, st_or a b = Ok r /\ light_curve r /\ s_freq r = s_freq a /\ s_pol r = s_pol a /\
    (below (s_time a) (s_time b) -> time_joined a b r) /\ (~ below (s_time a) (s_time b) -> time_joined b a r).
Proof.
  intros a b (A & FA) (B & FB) F NA NB. unfold st_or. rewrite (all_equal_same _ _ F). cbn [bind negb].
  destruct (max_some _ NA) as (top & ET), (min_some _ NB) as (low & EL). rewrite ET, EL. cbn [bind].
  pose proof (order_test _ _ _ _ ET EL) as O. destruct (negb (Qle_bool low top)).
  - destruct (hstack1 (s_val a) (s_val b) _ _ A B) as (v & V & SV & G1 & G2). rewrite V. cbn [bind]. eexists. split; [reflexivity|].
    unfold light_curve, time_joined. cbn [s_time s_freq s_val s_pol s_ana s_dig]. rewrite app_length. split; [auto|]. do 2 (split; [reflexivity|]). split; [auto 6|].
    intros N. exfalso. apply N, O. reflexivity.
  - destruct (hstack1 (s_val b) (s_val a) _ _ B A) as (v & V & SV & G1 & G2). rewrite V. cbn [bind]. eexists. split; [reflexivity|].
    unfold light_curve, time_joined. cbn [s_time s_freq s_val s_pol s_ana s_dig]. rewrite app_length. split; [auto|]. do 2 (split; [reflexivity|]). split; [|auto 6].
    intros N. apply O in N. discriminate.
Qed.
Theorem or_refused : forall a b, length (s_freq a) = length (s_freq b) -> ~ same_axis (s_freq a) (s_freq b) -> st_or a b = Err EValueError.
Proof. intros a b L N. unfold st_or. destruct (all_equal_cases _ _ L) as [(X & _)|(_ & E)]; [contradiction|]. now rewrite E. Qed.
(** Dynamic spectra cannot be joined in time: an error, or values which do not match the axes. *)
Theorem or_full_refused : forall a b, full a -> full b -> length (s_time a) <> length (s_time b) -> s_time a <> [] -> s_time b <> [] ->
  st_or a b = Err EValueError.
Proof.
  intros a b A B N NA NB. unfold st_or. destruct (all_equal (s_freq a) (s_freq b)) as [same|e] eqn:E; [|cbn [bind]; f_equal; now apply all_equal_err in E].
  cbn [bind]. destruct same; [|reflexivity]. cbn [negb].
  destruct (max_some _ NA) as (top & ET), (min_some _ NB) as (low & EL). rewrite ET, EL. cbn [bind].
  unfold full in A, B. destruct (negb (Qle_bool low top)).
  - now rewrite (hstack_rows _ _ _ _ _ _ A B N).
  - now rewrite (hstack_rows _ _ _ _ _ _ B A ltac:(congruence)).
Qed.
Theorem or_full : forall a b r, full a -> full b -> st_or a b = Ok r ->
  length (s_time a) = length (s_time b) /\ length (s_time r) = 2 * length (s_time a) /\ s_freq r = s_freq a /\
  sh (s_val r) = [length (s_time a); length (s_freq a) + length (s_freq b)].
Proof.
  intros a b r A B R. unfold st_or in R.
  destruct (all_equal (s_freq a) (s_freq b)) as [[|]|] eqn:E; try discriminate. cbn [bind negb] in R.
  destruct (q_max (s_time a)) as [top|]; [|discriminate]. cbn [bind] in R. destruct (q_min (s_time b)) as [low|]; [|discriminate]. cbn [bind] in R.
  unfold full in A, B.
  destruct (Nat.eq_dec (length (s_time a)) (length (s_time b))) as [L|L].
  - destruct (negb (Qle_bool low top)).
    + destruct (hstack2 (s_val a) (s_val b) _ _ (length (s_freq b)) A ltac:(now rewrite B, L)) as (v & V & SV & _). rewrite V in R. cbn [bind] in R.
      injection R as <-. cbn [s_time s_freq s_val]. rewrite app_length. split; [exact L|]. split; [lia|]. now split.
    + destruct (hstack2 (s_val b) (s_val a) (length (s_time a)) _ (length (s_freq a)) ltac:(now rewrite B, L) A) as (v & V & SV & _). rewrite V in R. cbn [bind] in R.
      injection R as <-. cbn [s_time s_freq s_val]. rewrite app_length. split; [exact L|]. split; [lia|]. split; [reflexivity|]. rewrite SV. f_equal. f_equal. lia.
  - exfalso. destruct (negb (Qle_bool low top)).
    + rewrite (hstack_rows _ _ _ _ _ _ A B L) in R. discriminate.
    + rewrite (hstack_rows _ _ _ _ _ _ B A ltac:(congruence)) in R. discriminate.
Qed.
Theorem or_full_unusable : forall a b r, full a -> full b -> s_freq b <> [] -> st_or a b = Ok r -> ~ full r.
Proof.
  intros a b r A B NG R F. destruct (or_full a b r A B R) as (_ & T & Q & S0). unfold full in F. rewrite S0, Q in F. injection F as F1 F2.
  destruct (s_freq b); [congruence|]. cbn [length] in F2. lia.
Qed.
Theorem or_spectra : forall a b, spectrum a -> spectrum b -> same_axis (s_freq a) (s_freq b) ->
  exists r, st_or a b = Ok r /\ length (s_time r) = 2 /\ s_freq r = s_freq a /\ sh (s_val r) = [2 * length (s_freq a)].
Proof.
  intros a b (A & TA) (B & TB) F. unfold st_or. rewrite (all_equal_same _ _ F). cbn [bind negb]. pose proof (Forall2_length F) as L.
  destruct (max_some (s_time a) ltac:(destruct (s_time a); discriminate)) as (top & ET).
  destruct (min_some (s_time b) ltac:(destruct (s_time b); discriminate)) as (low & EL). rewrite ET, EL. cbn [bind].
  destruct (negb (Qle_bool low top)).
  - destruct (hstack1 (s_val a) (s_val b) _ _ A B) as (v & V & SV & _). rewrite V. cbn [bind]. eexists. split; [reflexivity|].
    cbn [s_time s_freq s_val]. rewrite app_length, TA, TB. do 2 (split; [reflexivity|]). rewrite SV. f_equal. lia.
  - destruct (hstack1 (s_val b) (s_val a) _ _ B A) as (v & V & SV & _). rewrite V. cbn [bind]. eexists. split; [reflexivity|].
    cbn [s_time s_freq s_val]. rewrite app_length, TA, TB. do 2 (split; [reflexivity|]). rewrite SV. f_equal. lia.
Qed.
