(** C33, C34: rebinning. *)
From Coq Require Import List Arith ZArith QArith Qround.
From Verif Require Import Base M_Slots M_Nd P_Nd M_Rebin P_Rebin P_Rebin2 P_Rebin3.
Import ListNotations.
Open Scope nat_scope.

(** [rebin_along_dimension]: bins of equal size, disjoint and consecutive, each
    being the mean of its valid samples, for the axis and every line of data. *)
Theorem C33_bins : forall data ax k dx nd ax' d', (0 < dx)%Q ->
  rebin_along data ax k dx nd = Ok (ax', d') ->
  exists n b, nth_error (sh data) k = Some n /\ length ax = n /\ width n b dx nd /\
    bins n b (length ax') /\ 0 < length ax' /\
    (forall i, i < length ax' -> mean_of (bin (fun j => nth j ax None) b i) (nth i ax' None)) /\
    sh d' = firstn k (sh data) ++ length ax' :: skipn (S k) (sh data) /\
    (forall ip i iq, inside (firstn k (sh data)) ip -> i < length ax' -> inside (skipn (S k) (sh data)) iq ->
       mean_of (bin (line data ip iq) b i) (line d' ip iq i)).
Proof. exact rebin_tf_spec. Qed.
Print Assumptions C33_bins.

(** The mean is determined by the samples. *)
Theorem C33_mean_unique : forall l v w, mean_of l v -> mean_of l w -> same v w.
Proof. exact mean_of_unique. Qed.
Print Assumptions C33_mean_unique.

(** When a result is returned. *)
Theorem C33_defined : forall data ax k dx nd, (0 < dx)%Q ->
  ((exists r, rebin_along data ax k dx nd = Ok r) <->
   nth_error (sh data) k = Some (length ax) /\ ax <> [] /\ (dx <= nd)%Q).
Proof. exact rebin_tf_defined. Qed.
Print Assumptions C33_defined.

Theorem C33_errors : forall data ax k dx nd, (0 < dx)%Q ->
  (nth_error (sh data) k = None -> rebin_along data ax k dx nd = Err EIndexError) /\
  (forall n, nth_error (sh data) k = Some n -> n <> length ax \/ (nd < dx)%Q ->
     rebin_along data ax k dx nd = Err EValueError) /\
  (nth_error (sh data) k = Some 0 -> ax = [] -> (dx <= nd)%Q ->
     rebin_along data ax k dx nd = Err EZeroDivisionError).
Proof. exact rebin_tf_errors. Qed.
Print Assumptions C33_errors.

(** Seven samples by two channels, rebinned in time by 2.5 samples: three bins
    of two samples, the last sample is left out, a NaN is skipped. *)
Definition demo : nd sample :=
  mkNd [7; 2] (fun idx => match idx with
                          | [1; 1] => None
                          | [i; c] => Some (inject_Z (Z.of_nat (i + 10 * c)))
                          | _ => None
                          end).
Example C33_ex :
  match rebin_along demo (coords 7) 0 2 5 with
  | Ok (ax, d) =>
      map (option_map Qred) ax = [Some (1 # 2)%Q; Some (5 # 2)%Q; Some (9 # 2)%Q] /\ sh d = [3; 2] /\
      option_map Qred (get d [0; 0]) = Some (1 # 2)%Q /\ option_map Qred (get d [0; 1]) = Some 10%Q /\
      option_map Qred (get d [2; 1]) = Some (29 # 2)%Q
  | Err _ => False
  end.
Proof. vm_compute. repeat split; reflexivity. Qed.
(** A width larger than the axis gives one bin. *)
Example C33_whole_ex :
  match rebin_along demo (coords 7) 0 1 100 with
  | Ok (ax, d) => sh d = [1; 2] /\ option_map Qred (get d [0; 0]) = Some 3%Q
  | Err _ => False
  end.
Proof. vm_compute. split; reflexivity. Qed.

(** [ST_Slice.rebin] of a spectrum, a light curve, a dynamic spectrum. *)
Theorem C33_spectrum : forall dt df meth x y l, sl_value x = V1 l -> length l = length (sl_freq x) ->
  askable (sl_freq x) df -> rebin dt df meth x = Ok y ->
  exists b l', asked (length l) b (step (sl_freq x)) df /\
    sl_value y = V1 l' /\ length l' = length (sl_freq y) /\ sl_time y = sl_time x /\
    regroup axis_mean (length l) b (fun i => nth i (sl_freq x) 0%Q) (length l') (fun i => nth i (sl_freq y) 0%Q) /\
    regroup (aggregates meth) (length l) b (fun i => nth i l None) (length l') (fun i => nth i l' None).
Proof. exact rebin_spectrum. Qed.
Print Assumptions C33_spectrum.

Theorem C33_light_curve : forall dt df meth x y l, sl_value x = V1 l -> length l = length (sl_time x) ->
  length l <> length (sl_freq x) -> askable (sl_time x) dt -> rebin dt df meth x = Ok y ->
  exists b l', asked (length l) b (step (sl_time x)) dt /\
    sl_value y = V1 l' /\ length l' = length (sl_time y) /\ sl_freq y = sl_freq x /\
    regroup axis_mean (length l) b (fun i => nth i (sl_time x) 0%Q) (length l') (fun i => nth i (sl_time y) 0%Q) /\
    regroup (aggregates meth) (length l) b (fun i => nth i l None) (length l') (fun i => nth i l' None).
Proof. exact rebin_light_curve. Qed.
Print Assumptions C33_light_curve.

Theorem C33_dynamic : forall dt df meth x y v, sl_value x = V2 v ->
  shaped (length (sl_time x)) (length (sl_freq x)) v ->
  askable (sl_time x) dt -> askable (sl_freq x) df -> rebin dt df meth x = Ok y ->
  exists bt bf (mid : nat -> nat -> sample),
    asked (length (sl_time x)) bt (step (sl_time x)) dt /\ asked (length (sl_freq x)) bf (step (sl_freq x)) df /\
    regroup axis_mean (length (sl_time x)) bt (fun i => nth i (sl_time x) 0%Q)
      (length (sl_time y)) (fun i => nth i (sl_time y) 0%Q) /\
    regroup axis_mean (length (sl_freq x)) bf (fun i => nth i (sl_freq x) 0%Q)
      (length (sl_freq y)) (fun i => nth i (sl_freq y) 0%Q) /\
    (forall c, c < length (sl_freq x) ->
       regroup (aggregates meth) (length (sl_time x)) bt (fun i => nth c (nth i v []) None)
         (length (sl_time y)) (fun i => mid i c)) /\
    (forall i, i < length (sl_time y) ->
       regroup (aggregates meth) (length (sl_freq x)) bf (mid i) (length (sl_freq y)) (at_ y i)).
Proof. exact rebin_dynamic. Qed.
Print Assumptions C33_dynamic.

Theorem C33_slice_refused : forall dt df x,
  rebin dt df MOther x = Err EValueError /\
  (forall meth q, meth <> MOther -> sl_value x = V0 q -> rebin dt df meth x = Err EValueError) /\
  (forall meth l, meth <> MOther -> sl_value x = V1 l -> length l <> length (sl_freq x) ->
     length l <> length (sl_time x) -> rebin dt df meth x = Err EValueError) /\
  (forall meth v w, meth <> MOther -> sl_value x = V2 v -> dt = Some w -> length (sl_time x) < 2 ->
     rebin dt df meth x = Err EIndexError) /\
  (forall meth v w, meth <> MOther -> sl_value x = V2 v -> dt = None -> df = Some w ->
     (exists i, S (S i) < length (sl_freq x) /\
        ~ (nth (S i) (sl_freq x) 0 - nth i (sl_freq x) 0 == nth (S (S i)) (sl_freq x) 0 - nth (S i) (sl_freq x) 0)%Q) ->
     rebin dt df meth x = Err EException).
Proof. exact rebin_refused. Qed.
Print Assumptions C33_slice_refused.

(** A spectrum listed by decreasing frequencies loses all its samples. *)
Theorem C33_descending_refuted : forall dt df w meth x l, sl_value x = V1 l -> length l = length (sl_freq x) ->
  meth <> MOther -> df = Some w -> (0 < w)%Q -> one_value (diffs (sl_freq x)) = true ->
  (step (sl_freq x) < 0)%Q ->
  rebin dt df meth x = Ok (mkSlice (sl_time x) [] (V1 [])).
Proof. exact rebin_descending. Qed.
Print Assumptions C33_descending_refuted.
Example C33_descending_ex :
  rebin None (Some 2%Q) MMean (mkSlice [0%Q] [3%Q; 2%Q; 1%Q] (V1 [Some 1%Q; Some 2%Q; Some 3%Q])) =
  Ok (mkSlice [0%Q] [] (V1 [])).
Proof. reflexivity. Qed.

Example C33_dynamic_ex :
  match rebin (Some 2%Q) (Some 3%Q) MMedian
          (mkSlice [0%Q; 1%Q; 2%Q; 3%Q] [10%Q; 11%Q; 12%Q; 13%Q]
             (V2 [[Some 1; Some 2; Some 3; Some 4]; [Some 5; Some 6; Some 7; Some 8];
                  [Some 1; None; Some 9; None]; [Some 3; None; Some 1; Some 2]]%Q)) with
  | Ok y => map Qred (sl_time y) = [(1 # 2)%Q; (5 # 2)%Q] /\ map Qred (sl_freq y) = [11%Q] /\
            match sl_value y with V1 l => map (option_map Qred) l = [Some 4%Q; Some (7 # 2)%Q] | _ => False end
  | Err _ => False
  end.
Proof. vm_compute. repeat split; reflexivity. Qed.

(** Each line of data: total of the bins times the bin size is the total of the
    samples covered. *)
Theorem C34_total : forall data ax k dx nd ax' d' ip iq n b, (0 < dx)%Q ->
  rebin_along data ax k dx nd = Ok (ax', d') ->
  inside (firstn k (sh data)) ip -> inside (skipn (S k) (sh data)) iq ->
  nth_error (sh data) k = Some n -> complete (line data ip iq) n ->
  width n b dx nd -> bins n b (length ax') ->
  (line_total (line d' ip iq) (length ax') * inject_Z (Z.of_nat b) ==
   line_total (line data ip iq) (length ax' * b))%Q.
Proof. exact rebin_tf_total. Qed.
Print Assumptions C34_total.

Theorem C34_conserves : forall data ax k dx nd m b,
  nth_error (sh data) k = Some (m * b) -> length ax = m * b -> 0 < b -> 0 < m -> (0 < dx)%Q ->
  (nd == inject_Z (Z.of_nat b) * dx)%Q ->
  exists ax' d', rebin_along data ax k dx nd = Ok (ax', d') /\
    sh d' = firstn k (sh data) ++ m :: skipn (S k) (sh data) /\ length ax' = m /\
    forall ip iq, inside (firstn k (sh data)) ip -> inside (skipn (S k) (sh data)) iq ->
      complete (line data ip iq) (m * b) ->
      (line_total (line d' ip iq) m * inject_Z (Z.of_nat b) == line_total (line data ip iq) (m * b))%Q.
Proof. exact rebin_tf_conserves. Qed.
Print Assumptions C34_conserves.

(** Rebinning by [a] then [b] samples. *)
Theorem C34_twice : forall data ax k dx dx1 dx2 n a b ax1 d1 ax2 d2,
  nth_error (sh data) k = Some n -> length ax = n -> 0 < a -> 0 < b -> a * b <= n -> (0 < dx)%Q ->
  (dx1 == inject_Z (Z.of_nat a) * dx)%Q -> (dx2 == inject_Z (Z.of_nat b) * dx1)%Q ->
  (forall ip iq, inside (firstn k (sh data)) ip -> inside (skipn (S k) (sh data)) iq ->
     complete (line data ip iq) n) -> complete (fun j => nth j ax None) n ->
  rebin_along data ax k dx dx1 = Ok (ax1, d1) ->
  rebin_along d1 ax1 k dx1 dx2 = Ok (ax2, d2) ->
  exists ax3 d3, rebin_along data ax k dx dx2 = Ok (ax3, d3) /\
    length ax2 = length ax3 /\ (forall i, i < length ax3 -> same (nth i ax2 None) (nth i ax3 None)) /\
    sh d2 = sh d3 /\ (forall idx, inside (sh d3) idx -> same (get d2 idx) (get d3 idx)).
Proof. exact rebin_tf_twice. Qed.
Print Assumptions C34_twice.

(** Not with missing samples. *)
Theorem C34_twice_nan_refuted :
  exists ax1 d1 ax2 d2 ax3 d3,
    rebin_along gappy (coords 4) 0 1 2 = Ok (ax1, d1) /\ rebin_along d1 ax1 0 2 4 = Ok (ax2, d2) /\
    rebin_along gappy (coords 4) 0 1 4 = Ok (ax3, d3) /\ ~ same (get d2 [0]) (get d3 [0]).
Proof. exact twice_nan. Qed.
Print Assumptions C34_twice_nan_refuted.

(** Nine samples of two channels, by 2 then 2. *)
Definition full : nd sample :=
  mkNd [9; 2] (fun idx => match idx with [i; c] => Some (inject_Z (Z.of_nat (i * i + 7 * c))) | _ => None end).
Example C34_ex :
  match rebin_along full (coords 9) 0 1 2 with
  | Ok (ax1, d1) =>
      match rebin_along d1 ax1 0 2 4, rebin_along full (coords 9) 0 1 4 with
      | Ok (ax2, d2), Ok (ax3, d3) =>
          sh d2 = [2; 2] /\ option_map Qred (get d2 [1; 1]) = Some (77 # 2)%Q /\
          option_map Qred (get d2 [1; 1]) = option_map Qred (get d3 [1; 1])
      | _, _ => False
      end
  | Err _ => False
  end.
Proof. vm_compute. repeat split; reflexivity. Qed.
