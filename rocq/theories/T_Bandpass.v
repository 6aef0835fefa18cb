(** Properties of the theoretical response of sub-bands and of its correction (C166 to C168). *)
From Coq Require Import Reals ZArith Bool List Lia Lra.
From Verif Require Import Base M_Bandpass P_Bandpass P_Bandpass2.
Import ListNotations.
Open Scope list_scope.

(** ** C166: theoretical response *)
Theorem C166_refused : forall h n, (48 <= length h)%nat -> ((exists bp, get_bandpass h n = Ok bp) <-> (16 <= n /\ Z.Even n)%Z) /\ (forall e, get_bandpass h n = Err e -> e = EValueError).
Proof. exact bandpass_refused. Qed.
Print Assumptions C166_refused.
Theorem C166_response : forall h n bp, (48 <= length h)%nat -> get_bandpass h n = Ok bp ->
  length bp = Z.to_nat n /\ forall c, (c < Z.to_nat n)%nat -> correction (seen h (width h n) ((INR c / IZR n - 1 / 2) * width h n)) (nth c bp None).
Proof. exact bandpass_right. Qed.
Print Assumptions C166_response.
Theorem C166_width : forall h n, (0 < length h)%nat -> (16 <= n)%Z ->
  (16 / INR (length h) <= width h n)%R /\ (width h n = (16 / INR (length h))%R <-> (16 | n)%Z).
Proof. exact width_right. Qed.
Print Assumptions C166_width.
Theorem C166_symmetric : forall h n bp c, (48 <= length h)%nat -> get_bandpass h n = Ok bp -> (0 < c < Z.to_nat n)%nat ->
  nth c bp None = nth (Z.to_nat n - c) bp None.
Proof. exact bandpass_symmetric. Qed.
Print Assumptions C166_symmetric.
Theorem C166_finer : forall h n k bp bp' c, (48 <= length h)%nat -> (16 | n)%Z -> (1 <= k)%nat -> get_bandpass h n = Ok bp ->
  get_bandpass h (Z.of_nat k * n) = Ok bp' -> (c < Z.to_nat n)%nat -> nth (k * c) bp' None = nth c bp None.
Proof. exact bandpass_finer. Qed.
Print Assumptions C166_finer.
Theorem C166_channels_refuted : exists h bp bp' c, (48 <= length h)%nat /\ (c < 24)%nat /\ get_bandpass h 24 = Ok bp /\ get_bandpass h (2 * 24) = Ok bp' /\ nth (2 * c) bp' None <> nth c bp None.
Proof. exact channels_refuted. Qed.
Print Assumptions C166_channels_refuted.
(** Two equal taps and sub-bands of a third of the sampling: 2^50 / 6 at the centre. *)
Example C166_ex : (48 <= length two_taps)%nat /\ (exists bp, get_bandpass two_taps 16 = Ok bp) /\ get_bandpass two_taps 14 = Err EValueError /\ get_bandpass two_taps 17 = Err EValueError /\
  width two_taps 16 = (1 / 3)%R /\ seen two_taps (1 / 3) 0 = 6%R /\ (16 | 32)%Z.
Proof.
  split; [rewrite two_taps_length; lia|]. split; [|split; [reflexivity|split; [reflexivity|]]].
  - apply (proj1 (C166_refused two_taps 16 ltac:(rewrite two_taps_length; lia))). split; [lia|]. exists 8%Z. reflexivity.
  - split; [unfold width; rewrite two_taps_length; change (16 / 16)%Z with 1%Z; rewrite INR_IZR_INZ; change (Z.of_nat 48) with 48%Z; lra|]. split; [|exists 2%Z; reflexivity].
    unfold seen. rewrite !two_taps_tone. replace (2 * PI * 0)%R with 0%R by ring. rewrite cos_0.
    replace (2 * PI * (0 - 1 / 3))%R with (- (2 * (PI / 3)))%R by field. replace (2 * PI * (0 + 1 / 3))%R with (2 * (PI / 3))%R by field.
    rewrite cos_neg, cos_2PI3. lra.
Qed.

(** ** C167: correction of the data *)
Theorem C167_accepts : forall h nf data n lna fr, (48 <= length h)%nat ->
  ((exists d, correct_bandpass h nf data n lna fr = Ok d) <->
   (16 <= n)%Z /\ Z.Even n /\ (n | Z.of_nat nf)%Z /\ (forall l, lna = Some l -> (0 <= l <= 3)%Z /\ exists x, fr = Some x /\ length x = nf)) /\
  (forall e, correct_bandpass h nf data n lna fr = Err e -> e = EValueError \/ e = EAttributeError /\ lna <> None /\ fr = None).
Proof. exact correct_accepts. Qed.
Print Assumptions C167_accepts.
Theorem C167_values : forall h nf data n fr d, (48 <= length h)%nat -> shaped nf data -> correct_bandpass h nf data n None fr = Ok d ->
  exists bp, get_bandpass h n = Ok bp /\ length d = length data /\ shaped nf d /\
    forall t f g, (t < length data)%nat -> (f < nf)%nat -> nth (f mod Z.to_nat n) bp None = Some g ->
      sample d t f = map (option_map (fun x => x * g)%R) (sample data t f).
Proof. exact correct_right. Qed.
Print Assumptions C167_values.
Theorem C167_filtered : forall h nf data n lna fr d, (48 <= length h)%nat -> shaped nf data -> correct_bandpass h nf data n (Some lna) (Some fr) = Ok d ->
  exists bp, get_bandpass h n = Ok bp /\ length d = length data /\ shaped nf d /\
    forall t f g, (t < length data)%nat -> (f < nf)%nat -> nth (f mod Z.to_nat n) bp None = Some g -> exists slope yint,
      coefficients (nth (f - f mod Z.to_nat n) fr 0%R) lna = Ok (slope, yint) /\
      ((slope / g + yint <> 0)%R -> sample d t f = map (option_map (fun x => x / (slope / g + yint))%R) (sample data t f)).
Proof. exact filtered_right. Qed.
Print Assumptions C167_filtered.
Theorem C167_flat : forall h nf data n fr d a t f, (48 <= length h)%nat -> shaped nf data -> correct_bandpass h nf data n None fr = Ok d ->
  (t < length data)%nat -> (f < nf)%nat ->
  let s := seen h (width h n) ((INR (f mod Z.to_nat n) / IZR n - 1 / 2) * width h n) in
  s <> 0%R -> sample data t f = [Some (a * s)%R] -> sample d t f = [Some (a * 2 ^ 50)%R].
Proof. exact correct_flat. Qed.
Print Assumptions C167_flat.
Theorem C167_twice_refuted : forall h nf data n fr d d' bp t f g, (48 <= length h)%nat -> shaped nf data -> correct_bandpass h nf data n None fr = Ok d ->
  correct_bandpass h nf (caller_after true data (Ok d)) n None fr = Ok d' -> get_bandpass h n = Ok bp -> (t < length data)%nat -> (f < nf)%nat ->
  nth (f mod Z.to_nat n) bp None = Some g -> sample d' t f = map (option_map (fun x => x * g * g)%R) (sample data t f).
Proof. exact twice_right. Qed.
Print Assumptions C167_twice_refuted.
Definition demo : list (list cell) := [repeat [Some 1%R; None] 32].
Example C167_ex : shaped 32 demo /\ (exists d, correct_bandpass two_taps 32 demo 16 None None = Ok d) /\ (exists d, correct_bandpass two_taps 32 demo 16 (Some 2%Z) (Some (repeat 40%R 32)) = Ok d) /\
  (exists e, correct_bandpass two_taps 32 demo 16 (Some 2%Z) None = Err e) /\ seen two_taps (1 / 3) 0 <> 0%R.
Proof.
  assert (K : (48 <= length two_taps)%nat) by (rewrite two_taps_length; lia).
  assert (EV : Z.Even 16) by (exists 8%Z; reflexivity). assert (D : (16 | Z.of_nat 32)%Z) by (exists 2%Z; reflexivity).
  split; [intros row [<-|[]]; apply repeat_length|]. split; [|split; [|split]].
  - apply (proj1 (C167_accepts two_taps 32 demo 16 None None K)). split; [lia|]. split; [assumption|]. split; [assumption|]. discriminate.
  - apply (proj1 (C167_accepts two_taps 32 demo 16 (Some 2%Z) (Some (repeat 40%R 32)) K)). split; [lia|]. split; [assumption|]. split; [assumption|].
    intros l E. injection E as <-. split; [lia|]. eexists. split; [reflexivity|]. apply repeat_length.
  - destruct (correct_bandpass two_taps 32 demo 16 (Some 2%Z) None) as [d|e] eqn:E; [|exists e; reflexivity].
    destruct (proj1 (proj1 (C167_accepts two_taps 32 demo 16 (Some 2%Z) None K)) (ex_intro _ d E)) as (_ & _ & _ & F). destruct (F 2%Z eq_refl) as (_ & x & Q & _). discriminate Q.
  - destruct C166_ex as (_ & _ & _ & _ & _ & E & _). rewrite E. lra.
Qed.

(** ** C168: coefficients of the filters *)
Theorem C168_filters : forall x f, ((exists c, coefficients x f = Ok c) <-> (0 <= f <= 3)%Z) /\ (forall e, coefficients x f = Err e -> e = EValueError).
Proof. exact filters_right. Qed.
Print Assumptions C168_filters.
Theorem C168_low : forall x y f c d, low x -> low y -> coefficients x f = Ok c -> coefficients y f = Ok d ->
  ((f <= 1)%Z -> c = d) /\ ((2 <= f)%Z -> (x < y)%R -> (fst c < fst d /\ snd d < snd c)%R).
Proof. exact coefficients_low. Qed.
Print Assumptions C168_low.
Theorem C168_high : forall x y f c d, ~ low x -> (x < y)%R -> coefficients x f = Ok c -> coefficients y f = Ok d -> (fst d < fst c /\ snd c < snd d)%R.
Proof. exact coefficients_high. Qed.
Print Assumptions C168_high.
Theorem C168_negative_refuted : forall x c, (98 <= x)%R -> coefficients x 0 = Ok c -> (fst c < 0)%R.
Proof. exact slope_negative. Qed.
Print Assumptions C168_negative_refuted.
Example C168_ex : low 20 /\ low 30 /\ ~ low 60 /\ (exists c, coefficients 20 2 = Ok c) /\ (exists c, coefficients 60 2 = Ok c) /\ coefficients 60 4 = Err EValueError /\ coefficients 60 (-1) = Err EValueError.
Proof. unfold low. repeat split; try lra; eexists; reflexivity. Qed.
