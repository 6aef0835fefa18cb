(** Specification and proofs: correction of the polarisation in dynamic spectra. *)
From Coq Require Import List Arith ZArith QArith Qround Qabs Reals Lra Psatz Bool Lia.
From Verif Require Import Base M_Nd P_Nd M_TFArray P_TFArray M_Polar P_Polar P_Polar2 M_Dream P_Dream P_Dream2.
Import ListNotations.
Open Scope nat_scope.

Section Lane.
Variables (time frequency : list Q) (data : nd mat) (dt : Q) (n g : nat).
Variables (jt jf : list Q) (J : nat -> nat -> mat).
Notation T := (length time).
Notation F := (length frequency).
Notation sb := (F / n).
Notation blocks := (T / g).
Notation freq_of := (fun s => nth (s * n) frequency 0%Q).
Notation time_of := (fun b => nth (b * g) time 0%Q).
Notation run := (lane_correction (Some (jt, jf, J)) dt data time frequency n).
Hypothesis Sh : sh data = [T; F].
Hypothesis T0 : 0 < T.
Hypothesis F0 : 0 < F.
Hypothesis N0 : 0 < n.
Hypothesis FN : F mod n = 0.
Hypothesis G0 : 0 < g.
Hypothesis Two : 1 < length jt.
(** Number of samples between two solutions. *)
Hypothesis Ng : nearest ((nth 1 jt 0%Q - nth 0 jt 0%Q) / dt)%Q (Z.of_nat g).

Lemma lane_singular : forall i s, i < length jt -> s < length jf -> ~ invertible (J i s) -> run = Err EException.
Proof.
  intros i s Hi Hs I. unfold lane_correction. rewrite Sh.
  rewrite (singular_some J 0 _ 0 _ i s Hi Hs I). reflexivity.
Qed.
Hypothesis I : forall i s, i < length jt -> s < length jf -> invertible (J i s).

Lemma lane_start : run =
  (let remaining := T mod g in
   let main := T - remaining in
   let cut := if remaining =? 0 then 0 else main in
   bind (reshape [remaining; sb; n] (mkNd [T - cut; F] (fun idx => get data ((hd 0 idx + cut) :: tl idx)))) (fun dl =>
   bind (reshape [main / g; g; sb; n] (take_axis 0 cut data)) (fun d =>
   if F <? n then Err EIndexError
   else
   bind (window_start jf (nth 0 frequency 0%Q)) (fun f0 =>
   bind (window_stop jf (nth ((sb - 1) * n) frequency 0%Q)) (fun f1 =>
   if main / g =? 0 then Err EIndexError
   else
   bind (window_start jt (nth 0 time 0%Q)) (fun t0 =>
   bind (window_stop jt (nth ((main / g - 1) * g) time 0%Q)) (fun t1 =>
   let ht := span (length jt) t0 (t1 + 1) in
   let hf := span (length jf) f0 (f1 + 1) in
   if negb (fits ht (main / g) && fits hf sb) then Err EValueError
   else
   bind (reshape [main; F] (mkNd (sh d) (fun idx =>
      jones_apply (minv (J (t0 + spread ht (nth 0 idx 0)) (f0 + spread hf (nth 2 idx 0)))) (get d idx)))) (fun head =>
   bind (reshape [remaining; F] (mkNd (sh dl) (fun idx =>
      jones_apply (minv (J (length jt - 1) (f0 + spread hf (nth 1 idx 0)))) (get dl idx)))) (fun tail =>
   Ok (mkNd [T; F] (fun idx =>
     if hd 0 idx <? main then get head idx
     else get tail ((hd 0 idx - main) :: tl idx)))))))))))).
Proof.
  unfold lane_correction. rewrite Sh. rewrite singular_none by (intros; now apply I).
  assert (E := nearest_nat _ _ Ng). clear I. destruct jt as [|j0 [|j1 jr]]; [cbn in Two; lia|cbn in Two; lia|].
  cbn [nth] in E. rewrite E.
  replace (g =? 0) with false by (symmetry; apply Nat.eqb_neq; lia).
  replace (n =? 0) with false by (symmetry; apply Nat.eqb_neq; lia). reflexivity.
Qed.
Lemma Fe : F = sb * n.
Proof. assert (D := Nat.div_mod F n ltac:(lia)). lia. Qed.
Lemma sbp : 0 < sb.
Proof. assert (D := Fe). destruct (Nat.eq_dec sb 0) as [E|]; [rewrite E in D; lia|]. lia. Qed.
Lemma Fn : (F <? n) = false.
Proof. apply Nat.ltb_ge. assert (D := Fe). assert (S := sbp). nia. Qed.

(** A number of samples that is a multiple of the group is refused. *)
Theorem lane_multiple : T mod g = 0 -> run = Err EValueError.
Proof.
  intro M. rewrite lane_start. cbv zeta. rewrite M. cbn [Nat.eqb]. unfold reshape. cbn [sh].
  rewrite size2. unfold size; cbn [fold_right]. rewrite !Nat.mul_0_l.
  destruct (Nat.eqb_spec ((T - 0) * F) 0); [nia|]. destruct (Nat.eqb_spec 0 ((T - 0) * F)); [nia|]. reflexivity.
Qed.
(** Less than a group. *)
Lemma main_of : T - T mod g = blocks * g /\ (T - T mod g) / g = blocks.
Proof.
  assert (D := Nat.div_mod T g ltac:(lia)). assert (E : T - T mod g = blocks * g) by lia. split; [exact E|].
  rewrite E. apply Nat.div_mul. lia.
Qed.
Lemma lane_parts : T mod g <> 0 -> exists dl d,
  reshape [T mod g; sb; n] (mkNd [T mod g; F] (fun idx => get data ((hd 0 idx + blocks * g) :: tl idx))) = Ok dl /\
  reshape [blocks; g; sb; n] (take_axis 0 (blocks * g) data) = Ok d /\
  sh dl = [T mod g; sb; n] /\ sh d = [blocks; g; sb; n] /\
  (forall t f, t < T mod g -> f < F -> get dl [t; f / n; f mod n] = get data [t + blocks * g; f]) /\
  (forall t f, t < blocks * g -> f < F -> get d [t / g; t mod g; f / n; f mod n] = get data [t; f]).
Proof.
  intro M. assert (Sh' : sh data = [T; sb * n]) by (rewrite Sh; now rewrite <- Fe).
  assert (D := Nat.div_mod T g ltac:(lia)).
  destruct (rest_spec data sb n N0 (T mod g) (blocks * g)) as (dl & E1 & S1 & G1).
  destruct (cut_spec data T sb n Sh' N0 blocks g ltac:(nia) G0) as (d & E2 & S2 & G2).
  exists dl, d. rewrite <- Fe in *. tauto.
Qed.
Lemma lane_middle : T mod g <> 0 -> exists dl d,
  sh dl = [T mod g; sb; n] /\ sh d = [blocks; g; sb; n] /\
  (forall t f, t < T mod g -> f < F -> get dl [t; f / n; f mod n] = get data [t + blocks * g; f]) /\
  (forall t f, t < blocks * g -> f < F -> get d [t / g; t mod g; f / n; f mod n] = get data [t; f]) /\
  run =
   bind (window_start jf (nth 0 frequency 0%Q)) (fun f0 =>
   bind (window_stop jf (nth ((sb - 1) * n) frequency 0%Q)) (fun f1 =>
   if blocks =? 0 then Err EIndexError
   else
   bind (window_start jt (nth 0 time 0%Q)) (fun t0 =>
   bind (window_stop jt (nth ((blocks - 1) * g) time 0%Q)) (fun t1 =>
   let ht := span (length jt) t0 (t1 + 1) in
   let hf := span (length jf) f0 (f1 + 1) in
   if negb (fits ht blocks && fits hf sb) then Err EValueError
   else
   bind (reshape [blocks * g; F] (mkNd (sh d) (fun idx =>
      jones_apply (minv (J (t0 + spread ht (nth 0 idx 0)) (f0 + spread hf (nth 2 idx 0)))) (get d idx)))) (fun head =>
   bind (reshape [T mod g; F] (mkNd (sh dl) (fun idx =>
      jones_apply (minv (J (length jt - 1) (f0 + spread hf (nth 1 idx 0)))) (get dl idx)))) (fun tail =>
   Ok (mkNd [T; F] (fun idx =>
     if hd 0 idx <? blocks * g then get head idx
     else get tail ((hd 0 idx - blocks * g) :: tl idx))))))))).
Proof.
  intro M. destruct (lane_parts M) as (dl & d & E1 & E2 & S1 & S2 & G1 & G2). exists dl, d.
  split; [exact S1|]. split; [exact S2|]. split; [exact G1|]. split; [exact G2|].
  rewrite lane_start. cbv zeta. destruct main_of as [M1 M2]. apply Nat.eqb_neq in M. rewrite M, M2, M1.
  assert (D := Nat.div_mod T g ltac:(lia)). replace (T - blocks * g) with (T mod g) by lia. rewrite E1. cbn [bind].
  rewrite E2. cbn [bind]. rewrite Fn. reflexivity.
Qed.
Theorem lane_short : T < g -> (exists f0 f1, window_start jf (freq_of 0) = Ok f0 /\ window_stop jf (freq_of (sb - 1)) = Ok f1) ->
  run = Err EIndexError.
Proof.
  intros L (f0 & f1 & W0 & W1). destruct lane_middle as (dl & d & _ & _ & _ & _ & E).
  - rewrite Nat.mod_small by exact L. lia.
  - rewrite E. cbv beta in W0. rewrite Nat.mul_0_l in W0. rewrite W0. cbn [bind]. rewrite W1. cbn [bind].
    rewrite Nat.div_small by exact L. reflexivity.
Qed.

Variables (k q : nat).
Hypothesis Af : ascending jf.
Hypothesis Lf : located jf freq_of sb k.
Hypothesis Kf : 1 < k + sb.
Hypothesis At : ascending jt.
Theorem lane_spec : T mod g <> 0 -> 0 < blocks -> located jt time_of blocks q -> 1 < q + blocks ->
  exists r, run = Ok r /\ sh r = [T; F] /\
    forall t f, t < T -> f < F ->
      jones_apply (J (if t / g <? blocks then q + t / g else length jt - 1) (k + f / n)) (get r [t; f]) = get data [t; f].
Proof.
  intros M B Lt Kt. destruct (lane_middle M) as (dl & d & S1 & S2 & G1 & G2 & E).
  destruct (window_spec jf freq_of sb k Af Lf sbp Kf) as (W0 & e & W1 & Sp).
  destruct (window_spec jt time_of blocks q At Lt B Kt) as (V0 & e' & V1 & Sq).
  cbv beta in W0, V0. rewrite Nat.mul_0_l in W0, V0. rewrite W0, W1 in E. cbn [bind] in E. rewrite V0, V1 in E. cbn [bind] in E.
  replace (blocks =? 0) with false in E by (symmetry; apply Nat.eqb_neq; lia).
  cbv zeta in E. rewrite Sp, Sq, !fits_same in E. cbn [negb andb] in E.
  destruct (head_spec sb n N0 (fun a b => minv (J (q + spread blocks a) (k + spread sb b))) d blocks g G0 S2) as (h & Eh & _ & Gh).
  destruct (tail_spec sb n N0 (fun b => minv (J (length jt - 1) (k + spread sb b))) dl (T mod g) S1) as (r & Er & _ & Gr).
  cbv beta in Eh, Er. rewrite <- Fe in *. rewrite Eh, Er in E. cbn [bind] in E. eexists. split; [exact E|]. split; [reflexivity|].
  assert (D := Nat.div_mod T g ltac:(lia)). assert (Lq := Lt (blocks - 1) ltac:(lia)). destruct Lq as (Lq & _).
  assert (Lk := Lf (sb - 1) ltac:(assert (P := sbp); lia)). destruct Lk as (Lk & _).
  intros t f Ht Hf. cbn [get hd tl].
  assert (Fs : f / n < sb) by (apply Nat.div_lt_upper_bound; [lia|]; rewrite Nat.mul_comm, <- Fe; exact Hf).
  destruct (Nat.ltb_spec (t / g) blocks) as [Bt|Bt].
  - assert (C : t < blocks * g).
    { assert (D1 := Nat.div_mod t g ltac:(lia)). assert (U1 := Nat.mod_upper_bound t g ltac:(lia)). nia. }
    replace (t <? blocks * g) with true by (symmetry; now apply Nat.ltb_lt).
    rewrite Gh, G2 by assumption. rewrite !spread_in by assumption. apply corrected, I; lia.
  - assert (C : blocks * g <= t).
    { assert (D1 := Nat.div_mod t g ltac:(lia)). nia. }
    replace (t <? blocks * g) with false by (symmetry; now apply Nat.ltb_ge).
    rewrite Gr, G1 by (try assumption; lia). rewrite !spread_in by assumption.
    replace (t - blocks * g + blocks * g) with t by lia. apply corrected, I; lia.
Qed.
(** One solution after the complete groups: everything is recovered. *)
Theorem lane_recovers : forall E : nat -> nat -> mat, T mod g <> 0 -> 0 < blocks -> located jt time_of blocks q -> 1 < q + blocks ->
  length jt = q + blocks + 1 ->
  (forall t f, t < T -> f < F -> get data [t; f] = jones_apply (J (q + t / g) (k + f / n)) (E t f)) ->
  exists r, run = Ok r /\ sh r = [T; F] /\ forall t f, t < T -> f < F -> get r [t; f] = E t f.
Proof.
  intros E M B Lt Kt Lj D. destruct (lane_spec M B Lt Kt) as (r & Er & Sr & R). exists r. split; [exact Er|]. split; [exact Sr|].
  intros t f Ht Hf. specialize (R t f Ht Hf). rewrite (D t f Ht Hf) in R.
  assert (Lk := Lf (sb - 1) ltac:(assert (P := sbp); lia)). destruct Lk as (Lk & _).
  assert (Fs : f / n < sb) by (apply Nat.div_lt_upper_bound; [lia|]; rewrite Nat.mul_comm, <- Fe; exact Hf).
  assert (Le : t / g <= blocks) by (apply Nat.div_le_mono; lia).
  assert (Q : (if t / g <? blocks then q + t / g else length jt - 1) = q + t / g).
  { destruct (Nat.ltb_spec (t / g) blocks); lia. }
  rewrite Q in R. apply (only_one (J (q + t / g) (k + f / n))); [|exact R]. apply I; lia.
Qed.
(** A selection of one complete group at the first solution is refused. *)
Theorem lane_first : T mod g <> 0 -> blocks = 1 -> first_from jt (nth 0 time 0%Q) 0 -> run = Err EValueError.
Proof.
  intros M B Ft. destruct (lane_middle M) as (dl & d & _ & _ & _ & _ & E).
  destruct (window_spec jf freq_of sb k Af Lf sbp Kf) as (W0 & e & W1 & Sp).
  destruct (window_first jt _ At Ft) as (V0 & V1).
  cbv beta in W0. rewrite Nat.mul_0_l in W0. rewrite W0, W1 in E. cbn [bind] in E. rewrite B in E. cbn [Nat.eqb Nat.sub Nat.mul] in E.
  rewrite V0, V1 in E. cbn [bind] in E. cbv zeta in E.
  assert (Sq : span (length jt) 0 (length jt + 1) = length jt) by (unfold span; lia). rewrite Sq in E.
  unfold fits at 1 in E. destruct (Nat.eqb_spec (length jt) 1); [lia|]. exact E.
Qed.
End Lane.

Theorem lane_none : forall dt data time frequency n, lane_correction None dt data time frequency n = Ok data.
Proof. reflexivity. Qed.

(** ** The transposed matrices of the lanes *)
Lemma transposed_real : forall j e, mconj j = j -> mtrans (jones_apply j e) = jones_apply j (mtrans e).
Proof.
  intros j e H. unfold jones_apply. assert (A : forall a b, mtrans (mmul a b) = mmul (mtrans b) (mtrans a)).
  { intros a b. mats. opened. f_equal; apply cpx_eq; cbn [fst snd]; ring. }
  rewrite !A. assert (B : mtrans (mconj (mtrans j)) = j).
  { transitivity (mconj j); [|exact H]. mats. opened. reflexivity. }
  rewrite B. assert (C : mconj (mtrans j) = mtrans j).
  { rewrite <- H at 2. mats. opened. reflexivity. }
  rewrite C. now rewrite mmul_assoc.
Qed.
(** Through matrices of real numbers the transposed of what was received is recovered. *)
Theorem lane_real : forall j e r, invertible j -> mconj j = j -> jones_apply j r = mtrans (jones_apply j e) -> r = mtrans e.
Proof. intros j e r I H E. rewrite transposed_real in E by exact H. now apply (only_one j). Qed.
Definition quarter : mat := mkMat (1, 0)%R (0, 0)%R (0, 0)%R (0, 1)%R.
Definition mixed : mat := mkMat (1, 0)%R (1, 0)%R (1, 0)%R (1, 0)%R.
Lemma jones_quarter : forall a b c d : cpx,
  jones_apply quarter (mkMat a b c d) = mkMat a (im b, - re b)%R (- im c, re c)%R d.
Proof.
  intros. unfold jones_apply. assert (E : mmul (mkMat a b c d) (mconj (mtrans quarter)) = mkMat a (im b, - re b)%R c (im d, - re d)%R).
  { mats. unfold quarter. opened. f_equal; apply cpx_eq; cbn [fst snd]; ring. }
  rewrite E. mats. unfold quarter. opened. f_equal; apply cpx_eq; cbn [fst snd]; ring.
Qed.
Theorem lane_complex : invertible quarter /\
  exists r, jones_apply quarter r = mtrans (jones_apply quarter mixed) /\ r <> mtrans mixed.
Proof.
  assert (I : invertible quarter).
  { exists (mkMat (1, 0)%R (0, 0)%R (0, 0)%R (0, -1)%R). unfold quarter. opened. split; f_equal; apply cpx_eq; cbn [fst snd]; ring. }
  split; [exact I|]. exists (mkMat (1, 0)%R (-1, 0)%R (-1, 0)%R (1, 0)%R). split.
  - unfold mixed. rewrite !jones_quarter. unfold mtrans, mat_of, mget, re, im. cbn [m00 m01 m10 m11 fst snd].
    f_equal; apply cpx_eq; cbn [fst snd]; ring.
  - intro H. apply (f_equal (fun m => fst (m01 m))) in H. unfold mixed, mtrans, mat_of, mget in H. cbn [fst m01 m10] in H. lra.
Qed.

(** ** The setting *)
Section Setting.
Variable K : Type.
Variable dream : K -> bool -> Q -> Q -> Q -> res solutions.
Notation set_ := (dream_set K dream).
Theorem setting_spec : forall s d c p tmin tmax dt,
  let step := (inject_Z (Qfloor (d / dt)) * dt)%Q in
  ((step <= 1)%Q -> set_ s (Some (d, c, p)) tmin tmax dt = (mkDream (Some (d, c, p)) (ds_values s), Err EValueError)) /\
  ((1 < step)%Q -> forall v, dream c p tmin step (tmax - tmin)%Q = Ok v ->
     set_ s (Some (d, c, p)) tmin tmax dt = (mkDream (Some (d, c, p)) (Some v), Ok tt)) /\
  ((1 < step)%Q -> forall e, dream c p tmin step (tmax - tmin)%Q = Err e ->
     set_ s (Some (d, c, p)) tmin tmax dt = (mkDream (Some (d, c, p)) (ds_values s), Err e)) /\
  set_ s None tmin tmax dt = (mkDream (ds_inputs s) None, Ok tt).
Proof.
  intros s d c p tmin tmax dt step. unfold dream_set, compute_jones. fold step.
  split; [intro H; rewrite qle_true by exact H; reflexivity|].
  split; [intros H v E; rewrite qle_false by exact H; rewrite E; reflexivity|].
  split; [intros H v E; rewrite qle_false by exact H; rewrite E; reflexivity|reflexivity].
Qed.
(** Any history of assignments. *)
Definition assigned (l : list (option (inputs K) * (Q * Q * Q))) : dream_state K :=
  fold_left (fun s a => fst (set_ s (fst a) (fst (fst (snd a))) (snd (fst (snd a))) (snd (snd a)))) l (dream_init K).
(** The inputs shown are the last ones given, those of [(None, None, None)] left out. *)
Definition last_given (l : list (option (inputs K) * (Q * Q * Q))) : option (inputs K) :=
  fold_left (fun r a => match fst a with Some i => Some i | None => r end) l None.
Theorem setting_shown : forall l,
  dream_get K (assigned l) = match last_given l with Some i => Ok i | None => Err EAttributeError end.
Proof.
  intro l. assert (H : ds_inputs (assigned l) = last_given l).
  { unfold assigned, last_given. change (@None (inputs K)) with (ds_inputs (dream_init K)). generalize (dream_init K).
    induction l as [|[a [[x y] z]] l IH]; intro s; [reflexivity|]. cbn [fold_left fst snd]. rewrite IH. f_equal.
    unfold dream_set. destruct a as [[[d c] p]|]; [|reflexivity].
    destruct (compute_jones _ _ _ _); reflexivity. }
  unfold dream_get. now rewrite H.
Qed.
(** Reset: nothing is corrected afterwards although the inputs are still shown. *)
Theorem setting_reset : forall l t0 t1 dt d data time frequency n,
  let s := fst (set_ (assigned l) None t0 t1 dt) in
  lane_correction (ds_values s) d data time frequency n = Ok data /\ dream_get K s = dream_get K (assigned l).
Proof. intros. split; reflexivity. Qed.
(** The solutions are those of the last assignment that succeeded. *)
Theorem setting_values : forall s new t0 t1 dt, snd (set_ s new t0 t1 dt) <> Ok tt ->
  ds_values (fst (set_ s new t0 t1 dt)) = ds_values s /\ ds_inputs (fst (set_ s new t0 t1 dt)) = new.
Proof.
  intros s new t0 t1 dt H. unfold dream_set in *. destruct new as [[[d c] p]|]; [|cbn in H; congruence].
  destruct (compute_jones _ _ _ _); [cbn in H; congruence|]. split; reflexivity.
Qed.
End Setting.
