(** C133 and C134: correction of the polarisation with the solutions of DreamBeam. *)
From Coq Require Import List Arith ZArith QArith Qround Qabs Reals Lra Bool Lia.
From Verif Require Import Base M_Nd M_Polar P_Polar2 M_Dream P_Dream P_Dream2 P_Dream3.
Import ListNotations.
Open Scope nat_scope.

(** * C133: tf_utils *)
Theorem C133_singular : forall a, singular a = false <-> invertible a.
Proof. exact singular_spec. Qed.
Print Assumptions C133_singular.
Theorem C133_unique : forall a d e, invertible a -> jones_apply a d = jones_apply a e -> d = e.
Proof. exact only_one. Qed.
Print Assumptions C133_unique.
Theorem C133_refuses : forall dream time frequency data dt step n d0 d1, sh data = [d0; d1] ->
  (length time <> d0 -> apply_dreambeam dream time frequency data dt step n = Err EValueError) /\
  (length time = d0 -> length frequency <> d1 -> apply_dreambeam dream time frequency data dt step n = Err EValueError) /\
  (length time = d0 -> length frequency = d1 -> n = 0 -> apply_dreambeam dream time frequency data dt step n = Err EZeroDivisionError) /\
  (length time = d0 -> length frequency = d1 -> n <> 0 -> length frequency mod n <> 0 ->
     apply_dreambeam dream time frequency data dt step n = Err EValueError) /\
  (length time = d0 -> length frequency = d1 -> n <> 0 -> length frequency mod n = 0 -> nearest (step / dt) 0 ->
     apply_dreambeam dream time frequency data dt step n = Err EZeroDivisionError).
Proof. exact apply_refuses. Qed.
Print Assumptions C133_refuses.
Section Apply.
Variable dream : Q -> Q -> Q -> res solutions.
Variables (time frequency : list Q) (data : nd mat) (dt step : Q) (n g : nat).
Hypothesis Sh : sh data = [length time; length frequency].
Hypothesis T0 : 0 < length time.
Hypothesis F0 : 0 < length frequency.
Hypothesis N0 : 0 < n.
Hypothesis FN : length frequency mod n = 0.
Hypothesis G0 : 0 < g.
Hypothesis Ng : nearest (step / dt) (Z.of_nat g).
Notation T := (length time).
Notation F := (length frequency).
Notation sb := (F / n).
Notation tstep := (inject_Z (Z.of_nat (group_of T g)) * dt)%Q.
Notation duration := (last time 0%Q - nth 0 time 0%Q)%Q.
Notation start_of := (fun s => nth (s * n) frequency 0%Q).

Theorem C133_short_step : (tstep <= 1)%Q -> apply_dreambeam dream time frequency data dt step n = Err EValueError.
Proof. exact (apply_short_step dream time frequency data dt step n g Sh T0 F0 N0 FN G0 Ng). Qed.
Variables (jt jf : list Q) (J : nat -> nat -> mat).
Hypothesis St : (1 < tstep)%Q.
Hypothesis Dr : dream (nth 0 time 0%Q) tstep duration = Ok (jt, jf, J).

Notation groups := (if T <? g then 1 else T / g).
Notation app := (apply_dreambeam dream time frequency data dt step n).
Hypothesis Tb : 0 < length jt /\ (nth 0 time 0 <= nth 0 jt 0)%Q.
Theorem C133_solved : forall k, ascending jf -> located jf start_of sb k -> 1 < k + sb -> groups <= length jt ->
  (forall i s, i < length jt -> s < sb -> invertible (J i (k + s))) ->
  exists r, app = Ok r /\ sh r = [T; F] /\
    forall t f, t < T -> f < F ->
      jones_apply (J (in_time T g (length jt) t) (k + f / n)) (get r [t; f]) = get data [t; f].
Proof. exact (apply_spec dream time frequency data dt step n g Sh T0 F0 N0 FN G0 Ng jt jf J St Dr Tb). Qed.
Theorem C133_recovers : forall k (E : nat -> nat -> mat), ascending jf -> located jf start_of sb k -> 1 < k + sb ->
  length jt = (T - 1) / g + 1 -> (forall i s, i < length jt -> s < sb -> invertible (J i (k + s))) ->
  (forall t f, t < T -> f < F -> get data [t; f] = jones_apply (J (t / g) (k + f / n)) (E t f)) ->
  exists r, app = Ok r /\ sh r = [T; F] /\ forall t f, t < T -> f < F -> get r [t; f] = E t f.
Proof. exact (apply_recovers dream time frequency data dt step n g Sh T0 F0 N0 FN G0 Ng jt jf J St Dr Tb). Qed.
Theorem C133_refused_singular : forall k i s, ascending jf -> located jf start_of sb k -> 1 < k + sb -> groups <= length jt ->
  i < groups -> s < sb -> ~ invertible (J i (k + s)) -> app = Err EException.
Proof. exact (apply_singular dream time frequency data dt step n g Sh T0 F0 N0 FN G0 Ng jt jf J St Dr Tb). Qed.
Theorem C133_end_singular : forall k s, ascending jf -> located jf start_of sb k -> 1 < k + sb -> groups < length jt ->
  (forall i s, i < groups -> s < sb -> invertible (J i (k + s))) ->
  s < sb -> ~ invertible (J (length jt - 1) (k + s)) ->
  exists r, app = Ok r /\ sh r = [T; F] /\
    forall t f, t < T -> f < F -> if t / g <? groups then
        jones_apply (J (t / g) (k + f / n)) (get r [t; f]) = get data [t; f] else get r [t; f] = get data [t; f].
Proof. exact (apply_singular_end dream time frequency data dt step n g Sh T0 F0 N0 FN G0 Ng jt jf J St Dr Tb). Qed.
Theorem C133_first_refused : ascending jf -> first_from jf (start_of 0) 0 -> sb = 1 -> 1 < length jf -> groups <= length jt ->
  (forall i s, i < groups -> s < length jf -> invertible (J i s)) -> app = Err EValueError.
Proof. exact (apply_first dream time frequency data dt step n g Sh T0 F0 N0 FN G0 Ng jt jf J St Dr Tb). Qed.
Theorem C133_beyond : 0 < length jf -> (forall i, i < length jf -> (nth i jf 0 < start_of 0%nat)%Q /\ (nth i jf 0 < start_of (sb - 1)%nat)%Q) ->
  length jf = sb -> groups <= length jt -> (forall i s, i < length jt -> s < sb -> invertible (J i s)) ->
  exists r, app = Ok r /\ sh r = [T; F] /\
    forall t f, t < T -> f < F -> jones_apply (J (in_time T g (length jt) t) (f / n)) (get r [t; f]) = get data [t; f].
Proof. exact (apply_beyond dream time frequency data dt step n g Sh T0 F0 N0 FN G0 Ng jt jf J St Dr Tb). Qed.
Theorem C133_few : forall k, ascending jf -> located jf start_of sb k -> 1 < k + sb -> 1 < length jt < groups ->
  (forall i s, i < length jt -> s < sb -> invertible (J i (k + s))) -> app = Err EValueError.
Proof. exact (apply_few dream time frequency data dt step n g Sh T0 F0 N0 FN G0 Ng jt jf J St Dr Tb). Qed.
Theorem C133_single : forall k, ascending jf -> located jf start_of sb k -> 1 < k + sb -> length jt = 1 ->
  (forall s, s < sb -> invertible (J 0 (k + s))) ->
  exists r, app = Ok r /\ sh r = [T; F] /\
    forall t f, t < T -> f < F -> jones_apply (J 0 (k + f / n)) (get r [t; f]) = get data [t; f].
Proof. exact (apply_single dream time frequency data dt step n g Sh T0 F0 N0 FN G0 Ng jt jf J St Dr Tb). Qed.
End Apply.
Print Assumptions C133_short_step.
Print Assumptions C133_solved.
Print Assumptions C133_recovers.
Print Assumptions C133_refused_singular.
Print Assumptions C133_end_singular.
Print Assumptions C133_first_refused.
Print Assumptions C133_beyond.
Print Assumptions C133_few.
Print Assumptions C133_single.

(** Five samples, groups of two, two sub-bands of two channels. *)
Definition demo_time : list Q := [0; 1; 2; 3; 4]%Q.
Definition demo_freq : list Q := [15; 16; 25; 26]%Q.
Definition demo_jones (i s : nat) : mat := mkMat (creal 1) (creal (INR (i + 2 * s))) (creal 0) (creal 1).
Definition demo_sky (t f : nat) : mat := mkMat (creal (INR t)) (INR f, INR t) (INR f, - INR t)%R (creal 1).
Definition demo_seen (k : nat) : nd mat :=
  mkNd [5; 4] (fun idx => jones_apply (demo_jones (nth 0 idx 0 / 2) (k + nth 1 idx 0 / 2)) (demo_sky (nth 0 idx 0) (nth 1 idx 0))).
Lemma demo_invertible : forall i s, invertible (demo_jones i s).
Proof.
  intros i s. exists (mkMat (creal 1) (creal (- INR (i + 2 * s))) (creal 0) (creal 1)). unfold demo_jones. set (x := INR (i + 2 * s)). clearbody x.
  unfold mmul, mat_of, mget, cplus, cmult, creal, re, im, id2. cbn [m00 m01 m10 m11 fst snd].
  split; f_equal; apply cpx_eq; cbn [fst snd]; ring.
Qed.
Lemma zero_not_invertible : ~ invertible zero_mat.
Proof.
  intros (b & E & _). apply (f_equal (fun m => fst (m00 m))) in E. revert E.
  unfold zero_mat, mmul, mat_of, mget, cplus, cmult, re, im, id2. cbn [m00 m01 m10 m11 fst snd]. lra.
Qed.
Ltac num := match goal with
  | |- @eq nat _ _ => reflexivity | |- (_ < _)%nat => vm_compute; lia | |- (_ <= _)%nat => vm_compute; lia
  | |- (_ < _ < _)%nat => vm_compute; lia | |- not (@eq nat _ _) => vm_compute; discriminate end.
Lemma demo_ascending : ascending [10; 20; 30]%Q /\ ascending [0; 2; 4]%Q.
Proof.
  split; intros i j H L; cbn [length] in L; destruct i as [|[|[|i]]]; destruct j as [|[|[|j]]]; try lia; vm_compute; reflexivity.
Qed.
Lemma demo_located : located [10; 20; 30]%Q (fun s => nth (s * 2) demo_freq 0%Q) 2 1.
Proof.
  intros s H. destruct s as [|[|s]]; [| |lia]; (split; [cbn; lia|]; split; [vm_compute; congruence|]);
    intros j J; destruct j as [|[|[|j]]]; try lia; vm_compute; reflexivity.
Qed.
Example C133_recovers_ex : exists r, apply_dreambeam (fun _ _ _ => Ok ([0; 2; 4], [10; 20; 30], demo_jones)%Q) demo_time demo_freq (demo_seen 1) 1 (19 # 10) 2 = Ok r /\
  sh r = [5; 4] /\ forall t f, t < 5 -> f < 4 -> get r [t; f] = demo_sky t f.
Proof.
  apply (C133_recovers (fun _ _ _ => Ok ([0; 2; 4], [10; 20; 30], demo_jones)%Q) demo_time demo_freq (demo_seen 1) 1 (19 # 10) 2 2 eq_refl ltac:(vm_compute; lia) ltac:(vm_compute; lia) ltac:(lia) eq_refl ltac:(lia)
    ltac:(left; vm_compute; reflexivity) [0; 2; 4]%Q [10; 20; 30]%Q demo_jones ltac:(vm_compute; reflexivity) eq_refl
    ltac:(split; [vm_compute; lia|vm_compute; congruence]) 1 demo_sky (proj1 demo_ascending) demo_located ltac:(vm_compute; lia) eq_refl
    (fun i s _ _ => demo_invertible i (1 + s))).
  reflexivity.
Qed.
(** The solution of the incomplete group is singular: its samples come out as they were. *)
Definition demo_broken (b i s : nat) : mat := if i =? b then zero_mat else demo_jones i s.
Lemma demo_broken_inv : forall b i s, i <> b -> invertible (demo_broken b i s).
Proof. intros b i s H. unfold demo_broken. apply Nat.eqb_neq in H. rewrite H. apply demo_invertible. Qed.
Example C133_end_ex : exists r, apply_dreambeam (fun _ _ _ => Ok ([0; 2; 4], [10; 20; 30], demo_broken 2)%Q) demo_time demo_freq (demo_seen 1) 1 (19 # 10) 2 = Ok r /\
  forall f, f < 4 -> get r [4; f] = get (demo_seen 1) [4; f].
Proof.
  assert (E : exists r, apply_dreambeam (fun _ _ _ => Ok ([0; 2; 4], [10; 20; 30], demo_broken 2)%Q) demo_time demo_freq (demo_seen 1) 1 (19 # 10) 2 = Ok r /\
    sh r = [5; 4] /\ forall t f, t < 5 -> f < 4 -> if t / 2 <? 2 then
      jones_apply (demo_broken 2 (t / 2) (1 + f / 2)) (get r [t; f]) = get (demo_seen 1) [t; f] else get r [t; f] = get (demo_seen 1) [t; f]).
  { apply (C133_end_singular (fun _ _ _ => Ok ([0; 2; 4], [10; 20; 30], demo_broken 2)%Q) demo_time demo_freq (demo_seen 1) 1 (19 # 10) 2 2 eq_refl ltac:(vm_compute; lia) ltac:(vm_compute; lia) ltac:(lia) eq_refl ltac:(lia)
    ltac:(left; vm_compute; reflexivity) [0; 2; 4]%Q [10; 20; 30]%Q (demo_broken 2) ltac:(vm_compute; reflexivity) eq_refl
    ltac:(split; [vm_compute; lia|vm_compute; congruence]) 1 0 (proj1 demo_ascending) demo_located ltac:(vm_compute; lia) ltac:(vm_compute; lia)).
    - intros i s H _. apply demo_broken_inv. cbn in H. lia.
    - cbn. lia.
    - exact zero_not_invertible. }
  destruct E as (r & E & _ & R). exists r. split; [exact E|]. intros f H. exact (R 4 f ltac:(lia) H).
Qed.
Example C133_singular_ex : apply_dreambeam (fun _ _ _ => Ok ([0; 2; 4], [10; 20; 30], demo_broken 1)%Q) demo_time demo_freq (demo_seen 1) 1 (19 # 10) 2 = Err EException.
Proof.
  apply (C133_refused_singular (fun _ _ _ => Ok ([0; 2; 4], [10; 20; 30], demo_broken 1)%Q) demo_time demo_freq (demo_seen 1) 1 (19 # 10) 2 2 eq_refl ltac:(vm_compute; lia) ltac:(vm_compute; lia) ltac:(lia) eq_refl ltac:(lia)
    ltac:(left; vm_compute; reflexivity) [0; 2; 4]%Q [10; 20; 30]%Q (demo_broken 1) ltac:(vm_compute; reflexivity) eq_refl
    ltac:(split; [vm_compute; lia|vm_compute; congruence]) 1 1 0 (proj1 demo_ascending) demo_located); try num.
  exact zero_not_invertible.
Qed.
(** The second sub-band of the solutions' grid alone is corrected, the first one alone is not. *)
Example C133_first_ex : apply_dreambeam (fun _ _ _ => Ok ([0; 2; 4], [15; 25], demo_jones)%Q) demo_time [15; 16]%Q (mkNd [5; 2] (fun _ => id2)) 1 (19 # 10) 2 = Err EValueError.
Proof.
  apply (C133_first_refused (fun _ _ _ => Ok ([0; 2; 4], [15; 25], demo_jones)%Q) demo_time [15; 16]%Q (mkNd [5; 2] (fun _ => id2)) 1 (19 # 10) 2 2 eq_refl ltac:(vm_compute; lia) ltac:(vm_compute; lia) ltac:(lia) eq_refl ltac:(lia)
    ltac:(left; vm_compute; reflexivity) [0; 2; 4]%Q [15; 25]%Q demo_jones ltac:(vm_compute; reflexivity) eq_refl
    ltac:(split; [vm_compute; lia|vm_compute; congruence])); try num.
  - intros i j H L; cbn [length] in L; destruct i as [|[|i]]; destruct j as [|[|j]]; try lia; vm_compute; reflexivity.
  - split; [cbn; lia|]. split; [vm_compute; congruence|lia].
  - intros. apply demo_invertible.
Qed.
(** Data above every frequency of the solutions should not be corrected with them. *)
Theorem C133_beyond_refuted : exists dream jt jf J time frequency data dt step n r,
  (forall a b c, dream a b c = Ok (jt, jf, J)) /\ (forall f g, In f frequency -> In g jf -> (2 * g < f)%Q) /\
  apply_dreambeam dream time frequency data dt step n = Ok r.
Proof.
  destruct (C133_beyond (fun _ _ _ => Ok ([0; 2; 4], [5; 7], demo_jones)%Q) demo_time demo_freq (demo_seen 0) 1 (19 # 10) 2 2 eq_refl ltac:(vm_compute; lia) ltac:(vm_compute; lia) ltac:(lia) eq_refl ltac:(lia)
    ltac:(left; vm_compute; reflexivity) [0; 2; 4]%Q [5; 7]%Q demo_jones ltac:(vm_compute; reflexivity) eq_refl
    ltac:(split; [vm_compute; lia|vm_compute; congruence])) as (r & E & _); try num.
  - intros i H. cbn in H. destruct i as [|[|i]]; [| |lia]; split; vm_compute; reflexivity.
  - intros. apply demo_invertible.
  - do 11 eexists. split; [intros; reflexivity|]. split; [|exact E].
    intros f g [<-|[<-|[<-|[<-|[]]]]] [<-|[<-|[]]]; vm_compute; reflexivity.
Qed.
Print Assumptions C133_beyond_refuted.
Example C133_few_ex : apply_dreambeam (fun _ _ _ => Ok ([0; 2], [10; 20; 30], demo_jones)%Q) [0; 1; 2; 3; 4; 5; 6]%Q demo_freq (mkNd [7; 4] (fun _ => id2)) 1 2 2 = Err EValueError.
Proof.
  apply (C133_few (fun _ _ _ => Ok ([0; 2], [10; 20; 30], demo_jones)%Q) [0; 1; 2; 3; 4; 5; 6]%Q demo_freq (mkNd [7; 4] (fun _ => id2)) 1 2 2 2 eq_refl ltac:(vm_compute; lia) ltac:(vm_compute; lia) ltac:(lia) eq_refl ltac:(lia)
    ltac:(left; vm_compute; reflexivity) [0; 2]%Q [10; 20; 30]%Q demo_jones ltac:(vm_compute; reflexivity) eq_refl
    ltac:(split; [vm_compute; lia|vm_compute; congruence]) 1 (proj1 demo_ascending) demo_located); try num.
  intros. apply demo_invertible.
Qed.
Example C133_single_ex : exists r, apply_dreambeam (fun _ _ _ => Ok ([0], [10; 20; 30], demo_jones)%Q) [0; 1; 2; 3; 4; 5; 6]%Q demo_freq (mkNd [7; 4] (fun _ => id2)) 1 2 2 = Ok r /\ sh r = [7; 4] /\
  forall t f, t < 7 -> f < 4 -> jones_apply (demo_jones 0 (1 + f / 2)) (get r [t; f]) = id2.
Proof.
  apply (C133_single (fun _ _ _ => Ok ([0], [10; 20; 30], demo_jones)%Q) [0; 1; 2; 3; 4; 5; 6]%Q demo_freq (mkNd [7; 4] (fun _ => id2)) 1 2 2 2 eq_refl ltac:(vm_compute; lia) ltac:(vm_compute; lia) ltac:(lia) eq_refl ltac:(lia)
    ltac:(left; vm_compute; reflexivity) [0]%Q [10; 20; 30]%Q demo_jones ltac:(vm_compute; reflexivity) eq_refl
    ltac:(split; [vm_compute; lia|vm_compute; congruence]) 1 (proj1 demo_ascending) demo_located); try num.
  intros. apply demo_invertible.
Qed.
Example C133_short_ex : apply_dreambeam (fun _ _ _ => Err EException) demo_time demo_freq (demo_seen 1) (1 # 2) 1 2 = Err EValueError.
Proof.
  apply (C133_short_step _ demo_time demo_freq (demo_seen 1) (1 # 2) 1 2 2 eq_refl); try num.
  - left; vm_compute; reflexivity.
  - vm_compute. congruence.
Qed.

(** * C134: dynamic spectra *)
Section Lane.
Variables (time frequency : list Q) (data : nd mat) (dt : Q) (n g : nat).
Variables (jt jf : list Q) (J : nat -> nat -> mat).
Notation T := (length time).
Notation F := (length frequency).
Notation sb := (F / n).
Notation blocks := (T / g).
Notation freq_of := (fun s => nth (s * n) frequency 0%Q).
Notation time_of := (fun b => nth (b * g) time 0%Q).
Notation run := (lane_correction (Some (jt, jf, J)) dt data time frequency n).
Hypothesis Sh : sh data = [T; F].
Hypothesis T0 : 0 < T.
Hypothesis F0 : 0 < F.
Hypothesis N0 : 0 < n.
Hypothesis FN : F mod n = 0.
Hypothesis G0 : 0 < g.
Hypothesis Two : 1 < length jt.
(** Number of samples between two solutions. *)
Hypothesis Ng : nearest ((nth 1 jt 0%Q - nth 0 jt 0%Q) / dt)%Q (Z.of_nat g).

Theorem C134_singular : forall i s, i < length jt -> s < length jf -> ~ invertible (J i s) -> run = Err EException.
Proof. exact (lane_singular time frequency data dt n jt jf J Sh). Qed.
Hypothesis I : forall i s, i < length jt -> s < length jf -> invertible (J i s).

Theorem C134_multiple_refused : T mod g = 0 -> run = Err EValueError.
Proof. exact (lane_multiple time frequency data dt n g jt jf J Sh T0 F0 N0 FN G0 Two Ng I). Qed.
Theorem C134_short_refused : T < g -> (exists f0 f1, window_start jf (freq_of 0) = Ok f0 /\ window_stop jf (freq_of (sb - 1)) = Ok f1) ->
  run = Err EIndexError.
Proof. exact (lane_short time frequency data dt n g jt jf J Sh T0 F0 N0 FN G0 Two Ng I). Qed.
Variables (k q : nat).
Hypothesis Af : ascending jf.
Hypothesis Lf : located jf freq_of sb k.
Hypothesis Kf : 1 < k + sb.
Hypothesis At : ascending jt.
Theorem C134_solved : T mod g <> 0 -> 0 < blocks -> located jt time_of blocks q -> 1 < q + blocks ->
  exists r, run = Ok r /\ sh r = [T; F] /\
    forall t f, t < T -> f < F ->
      jones_apply (J (if t / g <? blocks then q + t / g else length jt - 1) (k + f / n)) (get r [t; f]) = get data [t; f].
Proof. exact (lane_spec time frequency data dt n g jt jf J Sh T0 F0 N0 FN G0 Two Ng I k q Af Lf Kf At). Qed.
Theorem C134_recovers : forall E : nat -> nat -> mat, T mod g <> 0 -> 0 < blocks -> located jt time_of blocks q -> 1 < q + blocks ->
  length jt = q + blocks + 1 ->
  (forall t f, t < T -> f < F -> get data [t; f] = jones_apply (J (q + t / g) (k + f / n)) (E t f)) ->
  exists r, run = Ok r /\ sh r = [T; F] /\ forall t f, t < T -> f < F -> get r [t; f] = E t f.
Proof. exact (lane_recovers time frequency data dt n g jt jf J Sh T0 F0 N0 FN G0 Two Ng I k q Af Lf Kf At). Qed.
Theorem C134_first_refused : T mod g <> 0 -> blocks = 1 -> first_from jt (nth 0 time 0%Q) 0 -> run = Err EValueError.
Proof. exact (lane_first time frequency data dt n g jt jf J Sh T0 F0 N0 FN G0 Two Ng I k Af Lf Kf At). Qed.
End Lane.
Print Assumptions C134_singular.
Print Assumptions C134_multiple_refused.
Print Assumptions C134_short_refused.
Print Assumptions C134_solved.
Print Assumptions C134_recovers.
Print Assumptions C134_first_refused.

Example C134_recovers_ex : exists r, lane_correction (Some ([0; 2; 4], [10; 20; 30], demo_jones)%Q) 1 (demo_seen 1) demo_time demo_freq 2 = Ok r /\
  sh r = [5; 4] /\ forall t f, t < 5 -> f < 4 -> get r [t; f] = demo_sky t f.
Proof.
  apply (C134_recovers demo_time demo_freq (demo_seen 1) 1 2 2 [0; 2; 4]%Q [10; 20; 30]%Q demo_jones eq_refl ltac:(vm_compute; lia) ltac:(vm_compute; lia) ltac:(lia) eq_refl ltac:(lia)
    ltac:(vm_compute; lia) ltac:(left; vm_compute; reflexivity) (fun i s _ _ => demo_invertible i s) 1 0 (proj1 demo_ascending) demo_located ltac:(vm_compute; lia) (proj2 demo_ascending));
    try num.
  - intros s H. cbn in H. destruct s as [|[|s]]; [| |lia]; (split; [cbn; lia|]; split; [vm_compute; congruence|]);
      intros j J; destruct j as [|[|[|j]]]; try lia; vm_compute; reflexivity.
  - reflexivity.
Qed.
(** One sample less, two complete groups: refused. *)
Theorem C134_complete_refuted : exists sol dt data time frequency n, lane_correction sol dt data time frequency n = Err EValueError /\
  sh data = [length time; length frequency] /\ length time = 4 /\ (exists jf J, sol = Some ([0; 2; 4]%Q, jf, J) /\ forall i s, invertible (J i s)) /\ time = [0; 1; 2; 3]%Q.
Proof.
  exists (Some ([0; 2; 4], [10; 20; 30], demo_jones)%Q), 1%Q, (mkNd [4; 4] (fun _ => id2)), [0; 1; 2; 3]%Q, demo_freq, 2.
  split; [|split; [reflexivity|split; [reflexivity|split; [do 2 eexists; split; [reflexivity|exact demo_invertible]|reflexivity]]]].
  apply (C134_multiple_refused [0; 1; 2; 3]%Q demo_freq (mkNd [4; 4] (fun _ => id2)) 1 2 2 [0; 2; 4]%Q [10; 20; 30]%Q demo_jones eq_refl ltac:(vm_compute; lia) ltac:(vm_compute; lia) ltac:(lia) eq_refl ltac:(lia)
    ltac:(vm_compute; lia) ltac:(left; vm_compute; reflexivity) (fun i s _ _ => demo_invertible i s)). reflexivity.
Qed.
Print Assumptions C134_complete_refuted.
Example C134_first_ex : lane_correction (Some ([0; 2; 4], [10; 20; 30], demo_jones)%Q) 1 (mkNd [3; 4] (fun _ => id2)) [0; 1; 2]%Q demo_freq 2 = Err EValueError.
Proof.
  apply (C134_first_refused [0; 1; 2]%Q demo_freq (mkNd [3; 4] (fun _ => id2)) 1 2 2 [0; 2; 4]%Q [10; 20; 30]%Q demo_jones eq_refl ltac:(vm_compute; lia) ltac:(vm_compute; lia) ltac:(lia) eq_refl ltac:(lia)
    ltac:(vm_compute; lia) ltac:(left; vm_compute; reflexivity) (fun i s _ _ => demo_invertible i s) 1 (proj1 demo_ascending) demo_located ltac:(vm_compute; lia) (proj2 demo_ascending));
    try num.
  split; [cbn; lia|]. split; [vm_compute; congruence|lia].
Qed.
Theorem C134_none : forall dt data time frequency n, lane_correction None dt data time frequency n = Ok data.
Proof. exact lane_none. Qed.
Print Assumptions C134_none.
Theorem C134_real : forall j e r, invertible j -> mconj j = j -> jones_apply j r = mtrans (jones_apply j e) -> r = mtrans e.
Proof. exact lane_real. Qed.
Print Assumptions C134_real.
Theorem C134_complex_refuted : invertible quarter /\
  exists r, jones_apply quarter r = mtrans (jones_apply quarter mixed) /\ r <> mtrans mixed.
Proof. exact lane_complex. Qed.
Print Assumptions C134_complex_refuted.
Section Setting.
Variable K : Type.
Variable dream : K -> bool -> Q -> Q -> Q -> res solutions.
Notation set_ := (dream_set K dream).
Theorem C134_setting : forall s d c p tmin tmax dt,
  let step := (inject_Z (Qfloor (d / dt)) * dt)%Q in
  ((step <= 1)%Q -> set_ s (Some (d, c, p)) tmin tmax dt = (mkDream (Some (d, c, p)) (ds_values s), Err EValueError)) /\
  ((1 < step)%Q -> forall v, dream c p tmin step (tmax - tmin)%Q = Ok v ->
     set_ s (Some (d, c, p)) tmin tmax dt = (mkDream (Some (d, c, p)) (Some v), Ok tt)) /\
  ((1 < step)%Q -> forall e, dream c p tmin step (tmax - tmin)%Q = Err e ->
     set_ s (Some (d, c, p)) tmin tmax dt = (mkDream (Some (d, c, p)) (ds_values s), Err e)) /\
  set_ s None tmin tmax dt = (mkDream (ds_inputs s) None, Ok tt).
Proof. exact (setting_spec K dream). Qed.
Notation assigned := (P_Dream3.assigned K dream).
Notation last_given := (P_Dream3.last_given K).
Theorem C134_shown : forall l,
  dream_get K (assigned l) = match last_given l with Some i => Ok i | None => Err EAttributeError end.
Proof. exact (setting_shown K dream). Qed.
Theorem C134_reset : forall l t0 t1 dt d data time frequency n,
  let s := fst (set_ (assigned l) None t0 t1 dt) in
  lane_correction (ds_values s) d data time frequency n = Ok data /\ dream_get K s = dream_get K (assigned l).
Proof. exact (setting_reset K dream). Qed.
Theorem C134_failed : forall s new t0 t1 dt, snd (set_ s new t0 t1 dt) <> Ok tt ->
  ds_values (fst (set_ s new t0 t1 dt)) = ds_values s /\ ds_inputs (fst (set_ s new t0 t1 dt)) = new.
Proof. exact (setting_values K dream). Qed.
End Setting.
Print Assumptions C134_setting.
Print Assumptions C134_shown.
Print Assumptions C134_reset.
Print Assumptions C134_failed.

(** Set, then refused for a step too short: the inputs shown are those refused, the solutions the former ones. *)
Example C134_setting_ex : let dream := fun (_ : nat) (_ : bool) (_ _ _ : Q) => Ok ([0; 2; 4], [10; 20; 30], demo_jones)%Q in
  let s := assigned nat dream [(Some (5%Q, 7, true), (0, 10, 2)%Q); (Some (1%Q, 8, true), (0, 10, 2)%Q)] in
  dream_get nat s = Ok (1%Q, 8, true) /\ ds_values s = Some ([0; 2; 4], [10; 20; 30], demo_jones)%Q /\
  dream_get nat (dream_init nat) = Err EAttributeError.
Proof. repeat split. Qed.
