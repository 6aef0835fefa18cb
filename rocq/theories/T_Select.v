(** Selection of recorded data, missing blocks, bounds of a file. *)
From Coq Require Import List Arith ZArith QArith Qround Qabs Bool Lia Lqa.
From Verif Require Import Base M_Slots M_Nd P_Nd M_Rebin M_TFArray P_TFArray P_TFArray2 M_Polar P_Polar2 M_Select P_Select P_Select2 P_Select3.
Import ListNotations.
Open Scope nat_scope.

(** ** C45: selection *)
Theorem C45_consistent : forall A (f : file A) tmin tmax fmin fmax beam i0 i1,
  well_formed f -> sample_of f tmin i0 -> sample_of f tmax i1 -> i0 <> i1 -> In beam (f_beams f) ->
  exists fr t d, select_raw_data f tmin tmax fmin fmax beam = Ok (Some (fr, t, d)) /\
    selected f tmin tmax fmin fmax beam fr t d.
Proof. exact select_some. Qed.
Print Assumptions C45_consistent.
Theorem C45_sample : forall A (f : file A) t, well_formed f -> exists i, sample_of f t i /\
  i < length (f_starts f) * f_nt f /\ (forall i', sample_of f t i' -> i' = i).
Proof. exact sample_of_total. Qed.
Print Assumptions C45_sample.
Theorem C45_nearest_in_block : forall A (f : file A) t i, well_formed f -> (0 < f_dt f)%Q -> sample_of f t i ->
  exists b j, i = b * f_nt f + j /\ b < length (f_starts f) /\ j < f_nt f /\ first_closest (f_starts f) t b /\
  forall j', j' < f_nt f ->
    (Qabs (sample_time (nth b (f_starts f) 0) (f_dt f) j - t) <=
     Qabs (sample_time (nth b (f_starts f) 0) (f_dt f) j' - t))%Q.
Proof. exact sample_of_nearest. Qed.
Print Assumptions C45_nearest_in_block.
Theorem C45_increasing : forall A (f : file A) tmin tmax fmin fmax beam fr t d,
  well_formed f -> (0 < f_dt f)%Q -> spaced (f_starts f) ((qn (f_nt f) - 1) * f_dt f)%Q ->
  selected f tmin tmax fmin fmax beam fr t d -> forall k, S k < length t -> (nth k t 0 < nth (S k) t 0)%Q.
Proof. exact selected_increasing. Qed.
Print Assumptions C45_increasing.
Theorem C45_same_sample : forall A (f : file A) tmin tmax fmin fmax beam i,
  well_formed f -> sample_of f tmin i -> sample_of f tmax i ->
  let last_block := i / f_nt f = length (f_starts f) - 1 /\ 0 < i < length (f_starts f) * f_nt f - 1 /\
                    (nth (length (f_starts f) - 1) (f_starts f) 0 <= tmin)%Q in
  (last_block -> select_raw_data f tmin tmax fmin fmax beam = Err EIndexError) /\
  (~ last_block -> select_raw_data f tmin tmax fmin fmax beam = Ok None).
Proof. exact select_same. Qed.
Print Assumptions C45_same_sample.
Theorem C45_unknown_beam : forall A (f : file A) tmin tmax fmin fmax beam i0 i1,
  well_formed f -> sample_of f tmin i0 -> sample_of f tmax i1 -> i0 <> i1 -> ~ In beam (f_beams f) ->
  select_raw_data f tmin tmax fmin fmax beam = Err EKeyError.
Proof. exact select_key_error. Qed.
Print Assumptions C45_unknown_beam.

(** How the block of a time and the sub-band of a frequency are chosen. *)
Theorem C45_closest : forall starts x b, closest starts x = Ok b <-> first_closest starts x b.
Proof. exact closest_spec. Qed.
Print Assumptions C45_closest.
Theorem C45_closest_near : forall starts x b i, closest starts x = Ok b -> i < length starts ->
  (Qabs (nth b starts 0 - x) < Qabs (nth i starts 0 - x) + 2)%Q.
Proof. exact closest_near. Qed.
Print Assumptions C45_closest_near.
Theorem C45_closest_clear : forall starts x b, b < length starts ->
  (forall i, i < length starts -> i <> b -> (Qabs (nth b starts 0 - x) + 2 <= Qabs (nth i starts 0 - x))%Q) ->
  closest starts x = Ok b.
Proof. exact closest_clear. Qed.
Print Assumptions C45_closest_clear.
Theorem C45_closest_between : forall starts x b k k', spaced_one starts -> S b < length starts ->
  (nth b starts 0 <= x < nth (S b) starts 0)%Q ->
  whole (nth b starts 0%Q) x k -> whole (nth (S b) starts 0%Q) x k' ->
  closest starts x = Ok (if (k <=? k')%Z then b else S b).
Proof. exact closest_between. Qed.
Print Assumptions C45_closest_between.
Theorem C45_closest_first : forall starts x, spaced_one starts -> starts <> [] ->
  (x <= nth 0 starts 0)%Q -> closest starts x = Ok 0.
Proof. exact closest_first. Qed.
Print Assumptions C45_closest_first.
Theorem C45_closest_last : forall starts x, spaced_one starts -> starts <> [] ->
  (nth (length starts - 1) starts 0 <= x)%Q -> closest starts x = Ok (length starts - 1).
Proof. exact closest_last. Qed.
Print Assumptions C45_closest_last.
Theorem C45_closest_subsecond : forall starts x b, b < length starts ->
  (x - 1 < nth b starts 0 <= x)%Q -> (forall i, i < b -> ~ (x - 1 < nth i starts 0 <= x)%Q) ->
  closest starts x = Ok b.
Proof. exact closest_within. Qed.
Print Assumptions C45_closest_subsecond.

(** Three blocks of ten samples, two sub-bands of two channels in beam 0 and one in
    beam 1; the value of a sample is its position. *)
Definition file_ex (starts : list Q) (n : nat) (dt : Q) : file nat :=
  mkFile nat starts dt 4 n 2 [100; 108; 116]%Q [0; 0; 1]%Z
    (mkNd [length starts * n; 6] (fun idx => nth 0 idx 0 * 100 + nth 1 idx 0)).
Lemma file_ex_wf : forall starts n dt, 0 < n -> starts <> [] -> well_formed (file_ex starts n dt).
Proof. intros starts n dt N S0. split; [exact N|]. split; [cbn; lia|]. split; [exact S0|]. split; [reflexivity|]. now exists []. Qed.
Definition view (r : res (option (list Q * list Q * nd nat))) :=
  match r with
  | Ok (Some (fr, t, d)) =>
      Ok (Some (map Qred fr, map Qred t, sh d, map (fun k => map (fun c => get d [k; c]) (seq 0 (nth 1 (sh d) 0))) (seq 0 (nth 0 (sh d) 0))))
  | Ok None => Ok None
  | Err e => Err e
  end.
Example C45_ex :
  well_formed (file_ex [0; 10; 20]%Q 10 1) /\ spaced_one [0; 10; 20]%Q /\
  view (select_raw_data (file_ex [0; 10; 20]%Q 10 1) 9 12 107 109 0) =
    Ok (Some ([104; 108]%Q, [10; 11; 12]%Q, [3; 2], [[1002; 1003]; [1102; 1103]; [1202; 1203]])) /\
  view (select_raw_data (file_ex [0; 10; 20]%Q 10 1) 2 4 99 117 1) =
    Ok (Some ([112; 116]%Q, [2; 3; 4]%Q, [3; 2], [[204; 205]; [304; 305]; [404; 405]])) /\
  view (select_raw_data (file_ex [0; 10; 20]%Q 10 1) 2 4 99 117 7) = Err EKeyError /\
  view (select_raw_data (file_ex [0; 10; 20]%Q 10 1) 3 3 99 117 0) = Ok None.
Proof.
  split; [apply file_ex_wf; [lia|discriminate]|].
  split; [intros [|[|i]] I; cbn in *; [lra|lra|lia]|]. repeat split; vm_compute; reflexivity.
Qed.

(** A requested range whose samples are not all returned: those of a block whose
    start is further than the next one. *)
Theorem C45_lost_refuted : exists (f : file nat) tmin tmax fr t d s c,
  well_formed f /\ spaced_one (f_starts f) /\
  select_raw_data f tmin tmax 100 116 0 = Ok (Some (fr, t, d)) /\
  s < length (f_starts f) /\ c < f_nt f /\
  (tmin <= sample_time (nth s (f_starts f) 0) (f_dt f) c <= tmax)%Q /\
  forall k, k < length t -> ~ (nth k t 0 == sample_time (nth s (f_starts f) 0) (f_dt f) c)%Q.
Proof.
  exists (file_ex [0; 10; 20]%Q 10 1), 7%Q, 13%Q. do 3 eexists. exists 0, 8.
  split; [apply file_ex_wf; [lia|discriminate]|].
  split; [intros [|[|i]] I; cbn in *; [lra|lra|lia]|].
  split; [vm_compute; reflexivity|]. split; [vm_compute; lia|]. split; [vm_compute; lia|].
  split; [split; vm_compute; discriminate|].
  intros k K. cbn in K. destruct k as [|[|[|[|k]]]]; [vm_compute; discriminate..|lia].
Qed.
Print Assumptions C45_lost_refuted.
(** Blocks shorter than a second: the end of the range is lost. *)
Theorem C45_subsecond_lost_refuted : exists (f : file nat) tmin tmax fr t d s c,
  well_formed f /\ adjacent (f_starts f) (qn (f_nt f) * f_dt f) /\
  select_raw_data f tmin tmax 100 116 0 = Ok (Some (fr, t, d)) /\
  s < length (f_starts f) /\ c < f_nt f /\
  (tmin <= sample_time (nth s (f_starts f) 0) (f_dt f) c <= tmax)%Q /\
  forall k, k < length t -> ~ (nth k t 0 == sample_time (nth s (f_starts f) 0) (f_dt f) c)%Q.
Proof.
  exists (file_ex [0; 8 # 10; 16 # 10]%Q 4 (2 # 10)), 0%Q, (9 # 10)%Q. do 3 eexists. exists 1, 0.
  split; [apply file_ex_wf; [lia|discriminate]|].
  split; [intros [|[|i]] I; cbn in *; [reflexivity|reflexivity|lia]|].
  split; [vm_compute; reflexivity|]. split; [vm_compute; lia|]. split; [vm_compute; lia|].
  split; [split; vm_compute; discriminate|].
  intros k K. cbn in K. destruct k as [|[|[|[|k]]]]; [vm_compute; discriminate..|lia].
Qed.
Print Assumptions C45_subsecond_lost_refuted.
(** A sample after the requested range is returned. *)
Theorem C45_extra_refuted : exists (f : file nat) tmin tmax fr t d k,
  well_formed f /\ spaced_one (f_starts f) /\
  select_raw_data f tmin tmax 100 116 0 = Ok (Some (fr, t, d)) /\ k < length t /\ (tmax + f_dt f < nth k t 0)%Q.
Proof.
  exists (file_ex [0; 10; 20]%Q 10 1), 2%Q, 7%Q. do 3 eexists. exists 8.
  split; [apply file_ex_wf; [lia|discriminate]|].
  split; [intros [|[|i]] I; cbn in *; [lra|lra|lia]|].
  split; [vm_compute; reflexivity|]. split; [vm_compute; lia|]. vm_compute; reflexivity.
Qed.
Print Assumptions C45_extra_refuted.
(** One sample requested in the last block: an error and not an empty result. *)
Theorem C45_one_sample_refuted : exists (f : file nat) t,
  well_formed f /\ select_raw_data f t t 100 116 0 = Err EIndexError /\
  exists s c, s < length (f_starts f) /\ c < f_nt f /\ (t == sample_time (nth s (f_starts f) 0) (f_dt f) c)%Q.
Proof.
  exists (file_ex [0; 10; 20]%Q 10 1), 23%Q.
  split; [apply file_ex_wf; [lia|discriminate]|]. split; [vm_compute; reflexivity|].
  exists 2, 3. split; [vm_compute; lia|]. split; [vm_compute; lia|]. vm_compute; reflexivity.
Qed.
Print Assumptions C45_one_sample_refuted.

(** ** C80: missing blocks *)
Theorem C80_mask : forall l, length (bad_mask l) = length l /\
  forall i, i < length l -> (nth i (bad_mask l) false = true <-> bad_at l i).
Proof. exact bad_mask_spec. Qed.
Print Assumptions C80_mask.
Theorem C80_total : forall width l,
  ((exists i, good_at l i) -> exists ts, reconstruct_time width l = Ok ts /\ length ts = length l) /\
  ((forall i, i < length l -> bad_at l i) -> reconstruct_time width l = Err EValueError).
Proof. exact reconstruct_total. Qed.
Print Assumptions C80_total.
Theorem C80_between : forall width l ts a b ra rb, reconstruct_time width l = Ok ts ->
  a < b -> good_at l a -> good_at l b -> (forall i, a < i < b -> bad_at l i) ->
  recorded width l a ra -> recorded width l b rb ->
  forall i, a <= i <= b -> (nth i ts 0 == ra + (rb - ra) * (qn i - qn a) / (qn b - qn a))%Q.
Proof. exact reconstruct_between. Qed.
Print Assumptions C80_between.
Theorem C80_ends : forall width l ts g rg, reconstruct_time width l = Ok ts -> good_at l g -> recorded width l g rg ->
  ((forall i, i < g -> bad_at l i) -> forall i, i <= g -> (nth i ts 0 == rg)%Q) /\
  ((forall i, g < i < length l -> bad_at l i) -> forall i, g <= i < length l -> (nth i ts 0 == rg)%Q).
Proof. exact reconstruct_ends. Qed.
Print Assumptions C80_ends.
Theorem C80_increasing : forall width l ts g g', reconstruct_time width l = Ok ts ->
  good_at l g -> good_at l g' ->
  (forall i j ti tj, i < j -> good_at l i -> good_at l j -> recorded width l i ti -> recorded width l j tj -> (ti < tj)%Q) ->
  forall i, g <= i -> S i <= g' -> (nth i ts 0 < nth (S i) ts 0)%Q.
Proof. exact reconstruct_increasing. Qed.
Print Assumptions C80_increasing.
Theorem C80_regular : forall width l ts g g' t0 p, reconstruct_time width l = Ok ts ->
  good_at l g -> good_at l g' ->
  (forall i t, good_at l i -> recorded width l i t -> (t == t0 + qn i * p)%Q) ->
  forall i, g <= i <= g' -> (nth i ts 0 == t0 + qn i * p)%Q.
Proof. exact reconstruct_regular. Qed.
Print Assumptions C80_regular.
Theorem C80_never_flagged : forall A (nan : A) mask data,
  sh (flag_bad nan mask data) = sh data /\ forall idx, get (flag_bad nan mask data) idx = get data idx.
Proof. exact flag_nothing. Qed.
Print Assumptions C80_never_flagged.
Definition blocks_ex : list block :=
  [mkBlock 100 0 3 0; mkBlock 0 1 3 0; mkBlock 104 0 3 0; mkBlock 106 9 3 2; mkBlock 107 11 (-3) 2; mkBlock 0 12 3 0].
Example C80_ex : map (fun b => negb b) (bad_mask blocks_ex) = [true; false; false; true; false; false] /\
  match reconstruct_time 2 blocks_ex with
  | Ok ts => map Qred ts = [100; 307 # 3; 314 # 3; 107; 107; 107]%Q
  | Err _ => False
  end.
Proof. split; vm_compute; reflexivity. Qed.
(** Blocks missing at the end of a file all get the same time. *)
Theorem C80_ends_refuted : exists l ts i, reconstruct_time 2 l = Ok ts /\ S i < length ts /\
  (nth i ts 0 == nth (S i) ts 0)%Q /\ bad_at l i /\ bad_at l (S i).
Proof.
  exists blocks_ex. eexists. exists 4. split; [vm_compute; reflexivity|]. split; [vm_compute; lia|].
  split; [vm_compute; reflexivity|].
  split; (eexists; split; [reflexivity|]; cbn; auto); [right; right; reflexivity|left; reflexivity].
Qed.
Print Assumptions C80_ends_refuted.

(** ** C81: bounds *)
Theorem C81_times : forall A (f : file A), well_formed f -> (0 < f_dt f)%Q -> nondecreasing (f_starts f) ->
  exists a b, time_min f = Ok a /\ time_max f = Ok b /\
    (a == sample_time (nth 0 (f_starts f) 0) (f_dt f) 0)%Q /\
    (b - f_dt f == sample_time (nth (length (f_starts f) - 1) (f_starts f) 0) (f_dt f) (f_nt f - 1))%Q /\
    forall s c, s < length (f_starts f) -> c < f_nt f ->
      (a <= sample_time (nth s (f_starts f) 0) (f_dt f) c)%Q /\ (sample_time (nth s (f_starts f) 0) (f_dt f) c <= b - f_dt f)%Q.
Proof. exact time_bounds. Qed.
Print Assumptions C81_times.
Theorem C81_frequencies : forall A (f : file A) width, well_formed f -> (0 < f_df f)%Q -> f_beams f <> [] ->
  ordered_bands (f_beams f) (f_subbands f) -> (qn (f_nc f) * f_df f == width)%Q ->
  exists a b, frequency_min f = Ok a /\ frequency_max width f = Ok b /\
    (exists s, s < length (f_beams f) /\ (channel_frequency f s 0 == a - width / 2)%Q) /\
    (exists s, s < length (f_beams f) /\ (channel_frequency f s (f_nc f - 1) == b - width / 2 - f_df f)%Q) /\
    forall s c, s < length (f_beams f) -> c < f_nc f ->
      (a - width / 2 <= channel_frequency f s c)%Q /\ (channel_frequency f s c <= b - width / 2 - f_df f)%Q.
Proof. exact frequency_bounds. Qed.
Print Assumptions C81_frequencies.
Example C81_ex :
  well_formed (file_ex [0; 10; 20]%Q 10 1) /\ nondecreasing [0; 10; 20]%Q /\ ordered_bands [0; 0; 1]%Z [100; 108; 116]%Q /\
  (qn 2 * 4 == 8)%Q /\
  frequency_min (file_ex [0; 10; 20]%Q 10 1) = Ok 100%Q /\ frequency_max 8 (file_ex [0; 10; 20]%Q 10 1) = Ok 124%Q /\
  time_min (file_ex [0; 10; 20]%Q 10 1) = Ok 0%Q /\ time_max (file_ex [0; 10; 20]%Q 10 1) = Ok 30%Q.
Proof.
  split; [apply file_ex_wf; [lia|discriminate]|].
  split; [intros [|[|[|i]]] [|[|[|j]]] I J; cbn in *; try lia; lra|].
  split.
  { intros i j b I X Y. assert (J : j < 3) by (apply (nth_error_Some [0; 0; 1]%Z); congruence).
    destruct i as [|[|[|i]]], j as [|[|[|j]]]; cbn; try lia; try lra; cbn in X, Y; congruence. }
  split; [reflexivity|]. repeat split; vm_compute; reflexivity.
Qed.
(** The documentation gives the first and the last channel. *)
Theorem C81_channels_refuted : exists (f : file nat) width a b,
  well_formed f /\ (qn (f_nc f) * f_df f == width)%Q /\ frequency_min f = Ok a /\ frequency_max width f = Ok b /\
  (exists s c, s < length (f_beams f) /\ c < f_nc f /\ (channel_frequency f s c < a)%Q) /\
  (forall s c, s < length (f_beams f) -> c < f_nc f -> (channel_frequency f s c + f_df f < b)%Q).
Proof.
  exists (file_ex [0; 10; 20]%Q 10 1), 8%Q, 100%Q, 124%Q.
  split; [apply file_ex_wf; [lia|discriminate]|]. split; [reflexivity|]. split; [vm_compute; reflexivity|].
  split; [vm_compute; reflexivity|]. split.
  - exists 0, 0. split; [vm_compute; lia|]. split; [vm_compute; lia|]. vm_compute; reflexivity.
  - intros [|[|[|s]]] [|[|c]] S0 C; cbn in S0, C; try lia; vm_compute; reflexivity.
Qed.
Print Assumptions C81_channels_refuted.
