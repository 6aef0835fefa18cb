(** Properties of the sub-sets of statistics data. *)
From Coq Require Import String List Arith ZArith QArith Qabs Bool Lia Lqa Sorted.
From Verif Require Import P_SData Base M_Nd M_Rebin M_TFArray M_Polar P_Nd P_Rebin P_Polar2 M_Slice P_Slice P_Slice2 P_Slice3 P_Slice4.
Import ListNotations.
Open Scope nat_scope.
Open Scope list_scope.
Notation below := P_SData.below.

Theorem C135_joined : forall a b, full a -> full b -> same_axis (s_time a) (s_time b) -> s_freq a <> [] -> s_freq b <> [] ->
  exists r, st_and a b = Ok r /\ s_time r = s_time a /\ s_ana r = s_ana a /\ s_dig r = s_dig a /\ s_pol r = s_pol a /\
    (below (s_freq a) (s_freq b) -> freq_joined a b r) /\ (~ below (s_freq a) (s_freq b) -> freq_joined b a r).
Proof. exact and_spec. Qed.
Print Assumptions C135_joined.
Theorem C135_refused : forall a b, full a -> full b ->
  ~ (same_axis (s_time a) (s_time b) /\ s_freq a <> [] /\ s_freq b <> []) -> st_and a b = Err EValueError.
Proof. exact and_refused. Qed.
Print Assumptions C135_refused.
Theorem C135_increasing : forall a b r, full a -> full b -> increasing (s_freq a) -> increasing (s_freq b) ->
  below (s_freq a) (s_freq b) \/ below (s_freq b) (s_freq a) -> st_and a b = Ok r -> full r /\ increasing (s_freq r).
Proof. exact and_increasing. Qed.
Print Assumptions C135_increasing.
Theorem C135_commutes : forall a b, full a -> full b -> s_time a = s_time b -> s_freq a <> [] -> s_freq b <> [] ->
  below (s_freq a) (s_freq b) \/ below (s_freq b) (s_freq a) ->
  exists r r', st_and a b = Ok r /\ st_and b a = Ok r' /\ same_data r r'.
Proof. exact and_commutes. Qed.
Print Assumptions C135_commutes.
Theorem C135_associates : forall a b c, full a -> full b -> full c -> s_time a = s_time b -> s_time b = s_time c ->
  s_freq a <> [] -> s_freq b <> [] -> s_freq c <> [] -> below (s_freq a) (s_freq b) -> below (s_freq b) (s_freq c) ->
  exists ab bc r r', st_and a b = Ok ab /\ st_and b c = Ok bc /\ st_and ab c = Ok r /\ st_and a bc = Ok r' /\ same_data r r'.
Proof. exact and_associates. Qed.
Print Assumptions C135_associates.
Theorem C135_spectra : forall a b, spectrum a -> spectrum b -> same_axis (s_time a) (s_time b) -> s_freq a <> [] -> s_freq b <> [] ->
  below (s_freq a) (s_freq b) ->
  exists r, st_and a b = Ok r /\ spectrum r /\ s_freq r = s_freq a ++ s_freq b /\
    (forall j, j < length (s_freq a) -> get (s_val r) [j] = get (s_val a) [j]) /\
    (forall j, j < length (s_freq b) -> get (s_val r) [length (s_freq a) + j] = get (s_val b) [j]).
Proof. exact and_spectra. Qed.
Print Assumptions C135_spectra.
Theorem C135_light_curves_refuted : forall a b, light_curve a -> light_curve b -> same_axis (s_time a) (s_time b) ->
  exists r, st_and a b = Ok r /\ length (s_time r) = length (s_time a) /\ length (s_freq r) = 2 /\
    sh (s_val r) = [2 * length (s_time a)].
Proof. exact and_light_curves. Qed.
Print Assumptions C135_light_curves_refuted.

Definition demo (freq : list Q) : st :=
  mkSt [0; 1; 2]%Q freq (mkNd [3; length freq] (fun idx => Some (nth (nth 1 idx 0%nat) freq 0 + inject_Z (Z.of_nat (nth 0 idx 0%nat)))%Q)) [0%Q] [] "NW".
Definition curve (times : list Q) (f : Q) : st :=
  mkSt times [f] (mkNd [length times] (fun idx => Some (nth (nth 0 idx 0%nat) times 0 * 2)%Q)) [] [] "NW".
Definition one_time (freq : list Q) : st :=
  mkSt [0%Q] freq (mkNd [length freq] (fun idx => Some (nth (nth 0 idx 0%nat) freq 0%Q))) [] [] "NW".
Lemma demo_axis : forall l, same_axis l l.
Proof. induction l; constructor; [reflexivity|assumption]. Qed.
Lemma demo_below : forall l m, forallb (fun x => forallb (fun y => negb (Qle_bool y x)) m) l = true -> below l m.
Proof.
  intros l m H x y X Y. rewrite forallb_forall in H. specialize (H x X). rewrite forallb_forall in H. specialize (H y Y).
  apply negb_true_iff in H. apply Qnot_le_lt. intros C. apply Qle_bool_iff in C. congruence.
Qed.
Lemma demo_increasing : forall l, (fix inc (l : list Q) := match l with x :: r => forallb (fun y => negb (Qle_bool y x)) r && inc r | [] => true end) l = true -> increasing l.
Proof.
  induction l as [|x l IH]; intros H i j a b I A B; [destruct i; discriminate|]. apply andb_true_iff in H. destruct H as (H1 & H2).
  destruct j as [|j]; [lia|]. cbn in B. destruct i as [|i].
  - injection A as <-. rewrite forallb_forall in H1. specialize (H1 b (nth_error_In _ _ B)). apply negb_true_iff in H1.
    apply Qnot_le_lt. intros C. apply Qle_bool_iff in C. congruence.
  - exact (IH H2 i j a b ltac:(lia) A B).
Qed.
Example C135_joined_ex : exists r, st_and (demo [30; 40]%Q) (demo [10; 20]%Q) = Ok r /\ s_freq r = [10; 20; 30; 40]%Q /\
  get (s_val r) [2; 0] = Some (10 + 2)%Q /\ get (s_val r) [2; 3] = Some (40 + 2)%Q.
Proof. eexists. split; [reflexivity|]. repeat split. Qed.
Example C135_refused_ex : st_and (demo [10; 20]%Q) (mkSt [0; 1]%Q [30%Q] (mkNd [2; 1] (fun _ => None)) [] [] "NW") = Err EValueError.
Proof. apply C135_refused; [reflexivity|reflexivity|]. intros (H & _). apply Forall2_length in H. discriminate H. Qed.
Example C135_associates_ex : exists ab bc r r', st_and (demo [10; 20]%Q) (demo [30]%Q) = Ok ab /\ st_and (demo [30]%Q) (demo [40; 50]%Q) = Ok bc /\
  st_and ab (demo [40; 50]%Q) = Ok r /\ st_and (demo [10; 20]%Q) bc = Ok r' /\ same_data r r'.
Proof. apply C135_associates; try reflexivity; try discriminate; apply demo_below; reflexivity. Qed.
Example C135_commutes_ex : exists r r', st_and (demo [10; 20]%Q) (demo [30]%Q) = Ok r /\ st_and (demo [30]%Q) (demo [10; 20]%Q) = Ok r' /\ same_data r r'.
Proof. apply C135_commutes; try reflexivity; try discriminate. left. apply demo_below. reflexivity. Qed.
Example C135_increasing_ex : full (demo [10; 20]%Q) /\ increasing (s_freq (demo [10; 20]%Q)) /\ below (s_freq (demo [10; 20]%Q)) (s_freq (demo [30]%Q)).
Proof. split; [reflexivity|]. split; [apply demo_increasing; reflexivity|apply demo_below; reflexivity]. Qed.
Example C135_spectra_ex : exists r, st_and (one_time [10; 20]%Q) (one_time [30]%Q) = Ok r /\ spectrum r /\ s_freq r = [10; 20; 30]%Q.
Proof. eexists. split; [reflexivity|]. repeat split. Qed.
Example C135_light_curves_ex : exists r, st_and (curve [0; 1; 2]%Q 10) (curve [0; 1; 2]%Q 20) = Ok r /\ length (s_time r) = 3 /\ length (s_freq r) = 2 /\ sh (s_val r) = [6].
Proof. eexists. split; [reflexivity|]. repeat split. Qed.
(** The outer bands first, then the one between them: the frequencies are not in order. *)
Theorem C135_gap_refuted : exists a b c ac r, full a /\ full b /\ full c /\ s_time a = s_time b /\ s_time b = s_time c /\
  below (s_freq a) (s_freq b) /\ below (s_freq b) (s_freq c) /\ increasing (s_freq a) /\ increasing (s_freq b) /\ increasing (s_freq c) /\
  st_and a c = Ok ac /\ st_and ac b = Ok r /\ ~ increasing (s_freq r).
Proof.
  exists (demo [10%Q]), (demo [20%Q]), (demo [30%Q]). do 2 eexists. do 5 (split; [reflexivity|]).
  do 2 (split; [apply demo_below; reflexivity|]). do 3 (split; [apply demo_increasing; reflexivity|]). split; [reflexivity|]. split; [reflexivity|].
  intros H. specialize (H 0 1 20%Q 10%Q ltac:(lia) eq_refl eq_refl). lra.
Qed.
Print Assumptions C135_gap_refuted.

Theorem C136_light_curves : forall a b, light_curve a -> light_curve b -> same_axis (s_freq a) (s_freq b) ->
  s_time a <> [] -> s_time b <> [] ->
  exists r, st_or a b = Ok r /\ light_curve r /\ s_freq r = s_freq a /\ s_pol r = s_pol a /\
    (below (s_time a) (s_time b) -> time_joined a b r) /\ (~ below (s_time a) (s_time b) -> time_joined b a r).
Proof. exact or_light_curves. Qed.
Print Assumptions C136_light_curves.
Theorem C136_refused : forall a b, length (s_freq a) = length (s_freq b) -> ~ same_axis (s_freq a) (s_freq b) -> st_or a b = Err EValueError.
Proof. exact or_refused. Qed.
Print Assumptions C136_refused.
Theorem C136_lengths_refused : forall a b, full a -> full b -> length (s_time a) <> length (s_time b) -> s_time a <> [] -> s_time b <> [] ->
  st_or a b = Err EValueError.
Proof. exact or_full_refused. Qed.
Print Assumptions C136_lengths_refused.
Theorem C136_dynamic_spectra : forall a b r, full a -> full b -> st_or a b = Ok r ->
  length (s_time a) = length (s_time b) /\ length (s_time r) = 2 * length (s_time a) /\ s_freq r = s_freq a /\
  sh (s_val r) = [length (s_time a); length (s_freq a) + length (s_freq b)].
Proof. exact or_full. Qed.
Print Assumptions C136_dynamic_spectra.
Theorem C136_unusable_refuted : forall a b r, full a -> full b -> s_freq b <> [] -> st_or a b = Ok r -> ~ full r.
Proof. exact or_full_unusable. Qed.
Print Assumptions C136_unusable_refuted.
Theorem C136_spectra_refuted : forall a b, spectrum a -> spectrum b -> same_axis (s_freq a) (s_freq b) ->
  exists r, st_or a b = Ok r /\ length (s_time r) = 2 /\ s_freq r = s_freq a /\ sh (s_val r) = [2 * length (s_freq a)].
Proof. exact or_spectra. Qed.
Print Assumptions C136_spectra_refuted.

Example C136_light_curves_ex : exists r, st_or (curve [5; 6]%Q 10) (curve [0; 1; 2]%Q 10) = Ok r /\ light_curve r /\ s_time r = [0; 1; 2; 5; 6]%Q /\
  get (s_val r) [3] = Some (5 * 2)%Q.
Proof. eexists. split; [reflexivity|]. repeat split. Qed.
Example C136_refused_ex : st_or (curve [5; 6]%Q 10) (curve [0; 1; 2]%Q 11) = Err EValueError.
Proof. apply C136_refused; [reflexivity|]. intros H. inversion H as [|a1 a2 a3 a4 E a5]. discriminate. Qed.
Definition later (s : st) : st := mkSt (map (fun t => t + 10)%Q (s_time s)) (s_freq s) (s_val s) (s_ana s) (s_dig s) (s_pol s).
Example C136_unusable_ex : exists r, st_or (demo [10; 20]%Q) (later (demo [10; 20]%Q)) = Ok r /\ length (s_time r) = 6 /\ sh (s_val r) = [3; 4] /\ ~ full r.
Proof. eexists. split; [reflexivity|]. split; [reflexivity|]. split; [reflexivity|]. intros H. discriminate H. Qed.
Example C136_lengths_ex : st_or (demo [10; 20]%Q) (mkSt [5; 6]%Q [10; 20]%Q (mkNd [2; 2] (fun _ => None)) [] [] "NW") = Err EValueError.
Proof. apply C136_lengths_refused; try reflexivity; discriminate. Qed.
Example C136_spectra_ex : exists r, st_or (one_time [10; 20]%Q) (later (one_time [10; 20]%Q)) = Ok r /\ length (s_time r) = 2 /\ sh (s_val r) = [4].
Proof. eexists. split; [reflexivity|]. repeat split. Qed.

Theorem C137_slice : forall n s l, positions n s = Ok l -> slice_of n s l /\ Forall (fun x => x < n) l.
Proof. exact positions_spec. Qed.
Print Assumptions C137_slice.
Theorem C137_slice_unique : forall n s l m, slice_of n s l -> slice_of n s m -> l = m.
Proof. exact slice_unique. Qed.
Print Assumptions C137_slice_unique.
Theorem C137_part : forall a ts fs, full a -> snd ts <> Some 0%Z -> snd fs <> Some 0%Z ->
  exists r pt pf, st_part a ts fs = Ok r /\ full r /\
    slice_of (length (s_time a)) ts pt /\ slice_of (length (s_freq a)) fs pf /\
    s_time r = taken (s_time a) pt /\ s_freq r = taken (s_freq a) pf /\
    Forall (fun i => i < length (s_time a)) pt /\ Forall (fun j => j < length (s_freq a)) pf /\
    (forall p q i j, nth_error pt p = Some i -> nth_error pf q = Some j -> get (s_val r) [p; q] = get (s_val a) [i; j]) /\
    s_ana r = s_ana a /\ s_dig r = s_dig a /\ s_pol r = s_pol a.
Proof. exact part_spec. Qed.
Print Assumptions C137_part.
Theorem C137_zero_step : forall a ts fs, full a -> snd ts = Some 0%Z \/ snd fs = Some 0%Z -> st_part a ts fs = Err EValueError.
Proof. exact part_zero. Qed.
Print Assumptions C137_zero_step.
Theorem C137_single_axis : forall a ts fs, light_curve a \/ spectrum a -> snd ts <> Some 0%Z -> snd fs <> Some 0%Z ->
  st_part a ts fs = Err EIndexError.
Proof. exact part_single_axis. Qed.
Print Assumptions C137_single_axis.
Theorem C137_whole : forall a, full a -> exists r, st_part a everything everything = Ok r /\ same_data r a.
Proof. exact part_whole. Qed.
Print Assumptions C137_whole.
Theorem C137_cut_join : forall a k, full a -> increasing (s_freq a) -> 0 < k -> k < length (s_freq a) ->
  exists lo hi r r', st_part a everything (until k) = Ok lo /\ st_part a everything (after k) = Ok hi /\
    st_and lo hi = Ok r /\ st_and hi lo = Ok r' /\ same_data r a /\ same_data r' a.
Proof. exact part_cut_join. Qed.
Print Assumptions C137_cut_join.
Theorem C137_part_of_part : forall a i j k l i' j' k' l', full a -> i <= j -> j <= length (s_time a) -> k <= l -> l <= length (s_freq a) ->
  i' <= j' -> i + j' <= j -> k' <= l' -> k + l' <= l ->
  exists r r1 r2, st_part a (window i j) (window k l) = Ok r /\ st_part r (window i' j') (window k' l') = Ok r1 /\
    st_part a (window (i + i') (i + j')) (window (k + k') (k + l')) = Ok r2 /\ same_data r1 r2.
Proof. exact part_of_part. Qed.
Print Assumptions C137_part_of_part.
Theorem C137_backwards_twice : forall a, full a -> exists r r', st_part a backwards backwards = Ok r /\ st_part r backwards backwards = Ok r' /\ same_data r' a.
Proof. exact part_back_twice. Qed.
Print Assumptions C137_backwards_twice.

Example C137_part_ex : exists r, st_part (demo [10; 20; 30; 40]%Q) (Some 1, None, None)%Z (Some (-1), None, Some (-2))%Z = Ok r /\
  s_time r = [1; 2]%Q /\ s_freq r = [40; 20]%Q /\ sh (s_val r) = [2; 2] /\ get (s_val r) [1; 1] = Some (20 + 2)%Q.
Proof. eexists. split; [reflexivity|]. repeat split. Qed.
Example C137_slice_ex : positions 10 (Some (-4), None, None)%Z = Ok [6; 7; 8; 9] /\ positions 10 (Some 20, Some 2, Some (-3))%Z = Ok [9; 6; 3] /\ slice_of 10 (Some 20, Some 2, Some (-3))%Z [9; 6; 3].
Proof. split; [reflexivity|]. split; [reflexivity|]. apply (C137_slice 10 (Some 20, Some 2, Some (-3))%Z). reflexivity. Qed.
Example C137_zero_ex : st_part (demo [10; 20]%Q) everything (None, None, Some 0)%Z = Err EValueError.
Proof. apply C137_zero_step; [reflexivity|now right]. Qed.
Example C137_single_ex : st_part (curve [0; 1; 2]%Q 10) everything everything = Err EIndexError.
Proof. apply C137_single_axis; [left; split; reflexivity|discriminate|discriminate]. Qed.
Example C137_cut_ex : exists lo hi r r', st_part (demo [10; 20; 30; 40]%Q) everything (until 3) = Ok lo /\ st_part (demo [10; 20; 30; 40]%Q) everything (after 3) = Ok hi /\
  st_and lo hi = Ok r /\ st_and hi lo = Ok r' /\ same_data r (demo [10; 20; 30; 40]%Q) /\ same_data r' (demo [10; 20; 30; 40]%Q).
Proof. apply C137_cut_join; [reflexivity|apply demo_increasing; reflexivity|lia|cbn; lia]. Qed.
Example C137_part_of_part_ex : exists r r1 r2, st_part (demo [10; 20; 30; 40]%Q) (window 1 3) (window 1 4) = Ok r /\ st_part r (window 1 2) (window 0 2) = Ok r1 /\
  st_part (demo [10; 20; 30; 40]%Q) (window 2 3) (window 1 3) = Ok r2 /\ same_data r1 r2.
Proof. apply (C137_part_of_part _ 1 3 1 4 1 2 0 2); cbn; try lia. reflexivity. Qed.
Example C137_whole_ex : full (demo [10; 20; 30]%Q).
Proof. reflexivity. Qed.

Theorem C138_slices : forall f a b, sh (s_val a) = sh (s_val b) -> same_axes a b ->
  exists r, with_slice f a b = Ok r /\ s_time r = s_time a /\ s_freq r = s_freq a /\ sh (s_val r) = sh (s_val a) /\
    (forall idx, inside (sh (s_val a)) idx -> get (s_val r) idx = f (get (s_val a) idx) (get (s_val b) idx)) /\
    kept_pointings (s_ana a) (s_ana b) (s_ana r) /\ kept_pointings (s_dig a) (s_dig b) (s_dig r).
Proof. exact slice_spec. Qed.
Print Assumptions C138_slices.
Theorem C138_refused : forall f a b, ~ same_axes a b -> with_slice f a b = Err EInconsistentShape.
Proof. exact slice_refused. Qed.
Print Assumptions C138_refused.
Theorem C138_subtract : forall a b, sh (s_val a) = sh (s_val b) -> same_axes a b ->
  exists s r, with_slice (sop Qplus) a b = Ok s /\ with_slice (sop Qminus) s b = Ok r /\ s_time r = s_time a /\ s_freq r = s_freq a /\
    forall idx, inside (sh (s_val a)) idx -> get (s_val b) idx <> None -> same (get (s_val r) idx) (get (s_val a) idx).
Proof. exact add_then_subtract. Qed.
Print Assumptions C138_subtract.
Theorem C138_divide : forall a b, sh (s_val a) = sh (s_val b) -> same_axes a b ->
  exists s r, with_slice (sop Qmult) a b = Ok s /\ with_slice sdiv s b = Ok r /\ s_time r = s_time a /\ s_freq r = s_freq a /\
    forall idx y, inside (sh (s_val a)) idx -> get (s_val b) idx = Some y -> ~ (y == 0)%Q -> same (get (s_val r) idx) (get (s_val a) idx).
Proof. exact multiply_then_divide. Qed.
Print Assumptions C138_divide.
Theorem C138_number : forall f a x, exists r, with_array f a (number x) = Ok r /\ s_time r = s_time a /\ s_freq r = s_freq a /\
  sh (s_val r) = sh (s_val a) /\ s_ana r = s_ana a /\ s_dig r = s_dig a /\
  forall idx, inside (sh (s_val a)) idx -> get (s_val r) idx = f (get (s_val a) idx) x.
Proof. exact number_spec. Qed.
Print Assumptions C138_number.
Theorem C138_row : forall f a b, full a -> sh b = [length (s_freq a)] -> exists r, with_array f a b = Ok r /\ full r /\ s_time r = s_time a /\ s_freq r = s_freq a /\
  forall i j, i < length (s_time a) -> j < length (s_freq a) -> get (s_val r) [i; j] = f (get (s_val a) [i; j]) (get b [j]).
Proof. exact row_spec. Qed.
Print Assumptions C138_row.
Theorem C138_times_refused : forall f a b, full a -> sh b = [length (s_time a)] -> length (s_time a) <> length (s_freq a) ->
  length (s_time a) <> 1 -> length (s_freq a) <> 1 -> with_array f a b = Err EValueError.
Proof. exact times_refused. Qed.
Print Assumptions C138_times_refused.
Theorem C138_column_refuted : forall f a b, light_curve a -> sh b = [length (s_time a); 1] -> length (s_time a) <> 1 -> exists r, with_array f a b = Ok r /\
  sh (s_val r) = [length (s_time a); length (s_time a)] /\ ~ shaped r.
Proof. exact column_grows. Qed.
Print Assumptions C138_column_refuted.

Example C138_slices_ex : exists r, with_slice (sop Qminus) (demo [10; 20]%Q) (later (demo [10; 20]%Q)) = Err EInconsistentShape /\
  with_slice (sop Qminus) (demo [10; 20]%Q) (demo [10; 20]%Q) = Ok r /\ get (s_val r) [2; 1] = Some (22 - 22)%Q.
Proof. eexists. split; [reflexivity|]. split; reflexivity. Qed.
Example C138_refused_ex : with_slice (sop Qplus) (demo [10; 20]%Q) (demo [10; 30]%Q) = Err EInconsistentShape.
Proof. apply C138_refused. intros (_ & H). inversion H as [|a1 a2 a3 a4 a5 H1]. inversion H1 as [|b1 b2 b3 b4 E b5]. discriminate. Qed.
Example C138_subtract_ex : sh (s_val (demo [10; 20]%Q)) = sh (s_val (demo [10; 20]%Q)) /\ same_axes (demo [10; 20]%Q) (demo [10; 20]%Q).
Proof. split; [reflexivity|]. split; apply demo_axis. Qed.
Example C138_divide_ex : exists s r, with_slice (sop Qmult) (demo [10; 20]%Q) (demo [10; 20]%Q) = Ok s /\ with_slice sdiv s (demo [10; 20]%Q) = Ok r /\
  get (s_val s) [1; 1] = Some (21 * 21)%Q /\ same (get (s_val r) [1; 1]) (Some 21%Q).
Proof. do 2 eexists. do 3 (split; [reflexivity|]). reflexivity. Qed.
Example C138_number_ex : exists r, with_array (sop Qmult) (curve [0; 1; 2]%Q 10) (number (Some 3%Q)) = Ok r /\ get (s_val r) [2] = Some (2 * 2 * 3)%Q.
Proof. eexists. split; reflexivity. Qed.
Example C138_row_ex : exists r, with_array sdiv (demo [10; 20]%Q) (of_list None [Some 10; Some 20]%Q) = Ok r /\ get (s_val r) [0; 1] = Some (20 / 20)%Q.
Proof. eexists. split; reflexivity. Qed.
Example C138_times_ex : with_array sdiv (demo [10; 20]%Q) (of_list None [Some 10; Some 20; Some 30]%Q) = Err EValueError.
Proof. apply C138_times_refused; try reflexivity; discriminate. Qed.
Example C138_column_ex : exists r, with_array sdiv (curve [0; 1; 2]%Q 10) (mkNd [3; 1] (fun _ => Some 1%Q)) = Ok r /\ sh (s_val r) = [3; 3].
Proof. eexists. split; reflexivity. Qed.

Theorem C139_frequency : forall a, full a -> exists r level, flatten_frequency a = Ok r /\ full r /\ s_time r = s_time a /\ s_freq r = s_freq a /\
  (forall j, j < length (s_freq a) -> median_of (channel a j) (level j)) /\
  forall i j, i < length (s_time a) -> j < length (s_freq a) -> get (s_val r) [i; j] = sdiv (get (s_val a) [i; j]) (level j).
Proof. exact flat_frequency. Qed.
Print Assumptions C139_frequency.
Theorem C139_time : forall a, full a -> exists r level, flatten_time a = Ok r /\ full r /\ s_time r = s_time a /\ s_freq r = s_freq a /\
  (forall i, i < length (s_time a) -> median_of (instant a i) (level i)) /\
  forall i j, i < length (s_time a) -> j < length (s_freq a) -> get (s_val r) [i; j] = sdiv (get (s_val a) [i; j]) (level i).
Proof. exact flat_time. Qed.
Print Assumptions C139_time.
Theorem C139_frequency_one : forall a r j q, full a -> flatten_frequency a = Ok r -> j < length (s_freq a) ->
  median_of (channel a j) (Some q) -> (0 < q)%Q -> median_of (channel r j) (Some 1%Q).
Proof. exact flat_frequency_one. Qed.
Print Assumptions C139_frequency_one.
Theorem C139_time_one : forall a r i q, full a -> flatten_time a = Ok r -> i < length (s_time a) ->
  median_of (instant a i) (Some q) -> (0 < q)%Q -> median_of (instant r i) (Some 1%Q).
Proof. exact flat_time_one. Qed.
Print Assumptions C139_time_one.
Theorem C139_frequency_twice : forall a r r', full a -> flatten_frequency a = Ok r -> flatten_frequency r = Ok r' ->
  forall i j q, i < length (s_time a) -> j < length (s_freq a) -> median_of (channel a j) (Some q) -> (0 < q)%Q ->
    same (get (s_val r') [i; j]) (get (s_val r) [i; j]).
Proof. exact flat_frequency_twice. Qed.
Print Assumptions C139_frequency_twice.
Theorem C139_single_axis : forall a, light_curve a \/ spectrum a -> flatten_frequency a = Err EIndexError /\ flatten_time a = Err EValueError.
Proof. exact flat_single_axis. Qed.
Print Assumptions C139_single_axis.

Section Rfi.
Variable std : nd sample -> sample.
Theorem C139_clean : forall tk fk a, full a -> exists r flevel tlevel, clean_rfi std tk fk a = Ok r /\ full r /\ s_time r = s_time a /\ s_freq r = s_freq a /\
  (forall j, j < length (s_freq a) -> median_of (channel a j) (flevel j)) /\ (forall i, i < length (s_time a) -> median_of (instant a i) (tlevel i)) /\
  forall i j, let x := get (s_val a) [i; j] in let out := stands_out x (flevel j) (std (s_val a)) fk \/ stands_out x (tlevel i) (std (s_val a)) tk in
    (out -> get (s_val r) [i; j] = None) /\ (~ out -> get (s_val r) [i; j] = x).
Proof. exact (clean_spec std). Qed.
Theorem C139_clean_monotone : forall tk fk tk' fk' a r r' s, full a -> std (s_val a) = Some s -> (0 <= s)%Q -> (tk <= tk')%Q -> (fk <= fk')%Q ->
  clean_rfi std tk fk a = Ok r -> clean_rfi std tk' fk' a = Ok r' ->
  forall i j v, get (s_val r) [i; j] = Some v -> get (s_val r') [i; j] = Some v.
Proof. exact (clean_monotone std). Qed.
Theorem C139_clean_constant_refuted : forall tk fk a c s, full a -> (forall i j, get (s_val a) [i; j] = Some c) -> std (s_val a) = Some s -> (s == 0)%Q ->
  exists r, clean_rfi std tk fk a = Ok r /\ forall i j, i < length (s_time a) -> j < length (s_freq a) -> get (s_val r) [i; j] = None.
Proof. exact (clean_constant std). Qed.
Theorem C139_clean_single_axis : forall tk fk a, light_curve a \/ spectrum a -> clean_rfi std tk fk a = Err EValueError.
Proof. exact (clean_single_axis std). Qed.
End Rfi.
Print Assumptions C139_clean.
Print Assumptions C139_clean_monotone.
Print Assumptions C139_clean_constant_refuted.
Print Assumptions C139_clean_single_axis.

Lemma demo_ranked : forall l k a, In (Some a) l -> ((length (filter (P_Rebin.below a) l) <=? k) && (k <? length (filter (upto a) l))) = true -> ranked l k a.
Proof. intros l k a I H. apply andb_true_iff in H. destruct H as (A & B). apply Nat.leb_le in A. apply Nat.ltb_lt in B. split; [exact I|lia]. Qed.
Example C139_frequency_ex : exists r, flatten_frequency (demo [10; 20]%Q) = Ok r /\ median_of (channel r 0) (Some 1%Q).
Proof.
  eexists. split; [reflexivity|]. apply (C139_frequency_one (demo [10; 20]%Q) _ 0 11 eq_refl eq_refl); [cbn; lia| |lra].
  exists (10 + 1)%Q, (10 + 1)%Q. split; [apply demo_ranked; [right; now left|reflexivity]|]. split; [apply demo_ranked; [right; now left|reflexivity]|]. reflexivity.
Qed.
Example C139_time_ex : exists r, flatten_time (demo [10; 20]%Q) = Ok r /\ median_of (instant r 0) (Some 1%Q).
Proof.
  eexists. split; [reflexivity|]. apply (C139_time_one (demo [10; 20]%Q) _ 0 15 eq_refl eq_refl); [cbn; lia| |lra].
  exists (10 + 0)%Q, (20 + 0)%Q. split; [apply demo_ranked; [now left|reflexivity]|]. split; [apply demo_ranked; [right; now left|reflexivity]|]. reflexivity.
Qed.
Example C139_single_ex : light_curve (curve [0; 1]%Q 10) /\ spectrum (one_time [10; 20]%Q).
Proof. repeat split. Qed.
(** A peak among constant data. *)
Definition spiky : st := mkSt [0; 1; 2]%Q [10; 20; 30]%Q (mkNd [3; 3] (fun idx => if (nth 0 idx 0%nat =? 1) && (nth 1 idx 0%nat =? 1) then Some 9%Q else Some (inject_Z (Z.of_nat (nth 1 idx 0%nat)) / 10)%Q)) [] [] "NW".
Example C139_clean_ex : exists r, clean_rfi (fun _ => Some 2%Q) 1 1 spiky = Ok r /\ get (s_val r) [1; 1] = None /\ get (s_val r) [0; 2] = Some (2 / 10)%Q.
Proof. eexists. split; [reflexivity|]. split; reflexivity. Qed.
Example C139_monotone_ex : exists r, clean_rfi (fun _ => Some 2%Q) 1 5 spiky = Ok r /\ get (s_val r) [1; 1] = None /\ (1 <= 5)%Q.
Proof. eexists. split; [reflexivity|]. split; [reflexivity|lra]. Qed.
Example C139_constant_ex : exists r, clean_rfi (fun _ => Some 0%Q) 1 1 (mkSt [0; 1]%Q [10; 20]%Q (mkNd [2; 2] (fun _ => Some 5%Q)) [] [] "NW") = Ok r /\ get (s_val r) [1; 1] = None.
Proof. eexists. split; reflexivity. Qed.


Section Switch.
Variable peaks : list sample -> Z -> list nat.
Variable fit : list sample -> nat -> sample.
Theorem C140_corrected : forall flat step err a r c, full a -> clear_switch peaks fit flat step err a = Ok (r, c) ->
  exists profile d b, profile_of flat a profile /\
    (exists t0 t1 rest, s_time a = t0 :: t1 :: rest /\ nearest (step / (t1 - t0)) (d + err)) /\ (1 <= d)%Z /\
    bounds_of (length (s_time a)) (peaks profile d) b /\
    full r /\ s_time r = s_time a /\ s_freq r = s_freq a /\
    (forall i j, i < length (s_time a) -> j < length (s_freq a) -> get (s_val r) [i; j] = sdiv (get (s_val a) [i; j]) (c i)) /\
    forall t, t < length (s_time a) -> exists k x y, interval b k x y /\ x <= t < y /\
      same (c t) (fit (firstn (y - x) (skipn x profile)) (t - x)) /\
      forall k' x' y', interval b k' x' y' -> x' <= t < y' -> k' = k.
Proof. exact (switch_spec peaks fit). Qed.
Theorem C140_accepted : forall flat step err a t0 t1 rest z, full a -> s_time a = t0 :: t1 :: rest -> ~ (t0 == t1)%Q ->
  nearest (step / (t1 - t0)) z -> (err < z)%Z -> exists r c, clear_switch peaks fit flat step err a = Ok (r, c).
Proof. exact (switch_ok peaks fit). Qed.
Theorem C140_coarse : forall flat step err a t0 t1 rest z, full a -> s_time a = t0 :: t1 :: rest -> ~ (t0 == t1)%Q ->
  nearest (step / (t1 - t0)) z -> (z <= err)%Z -> clear_switch peaks fit flat step err a = Err EValueError.
Proof. exact (switch_coarse peaks fit). Qed.
Theorem C140_one_time : forall flat step err a, full a -> length (s_time a) = 1 -> clear_switch peaks fit flat step err a = Err EIndexError.
Proof. exact (switch_one_time peaks fit). Qed.
Theorem C140_single_axis : forall flat step err a, light_curve a \/ spectrum a -> clear_switch peaks fit flat step err a = Err EIndexError.
Proof. exact (switch_single_axis peaks fit). Qed.
End Switch.
Print Assumptions C140_corrected.
Print Assumptions C140_accepted.
Print Assumptions C140_coarse.
Print Assumptions C140_one_time.
Print Assumptions C140_single_axis.

(** A switch at the third of five samples. *)
Definition switched : st := mkSt [0; 60; 120; 180; 240]%Q [10; 20]%Q (mkNd [5; 2] (fun idx => Some (if nth 0 idx 0%nat <? 3 then 1%Q else 2%Q))) [] [] "NW".
Example C140_ex : exists r c, clear_switch (fun _ _ => [2]) (fun p k => nth k p None) true 360 2 switched = Ok (r, c) /\
  same (get (s_val r) [1; 0]) (Some 2%Q) /\ same (get (s_val r) [4; 1]) (Some 2%Q).
Proof. do 2 eexists. split; [reflexivity|]. split; vm_compute; reflexivity. Qed.
Example C140_accepted_ex : exists r c, clear_switch (fun _ _ => [2]) (fun p k => nth k p None) true 360 2 switched = Ok (r, c).
Proof. apply (C140_accepted _ _ _ _ _ switched 0 60 [120; 180; 240]%Q 6); [reflexivity|reflexivity|discriminate|left; vm_compute; reflexivity|lia]. Qed.
Example C140_coarse_ex : clear_switch (fun _ _ => [2]) (fun p k => nth k p None) true 120 2 switched = Err EValueError.
Proof. apply (C140_coarse _ _ _ _ _ switched 0 60 [120; 180; 240]%Q 2); [reflexivity|reflexivity|discriminate|left; vm_compute; reflexivity|lia]. Qed.

Theorem C141_pointings : forall t beam k, nth_error (b_ana_of t) beam = Some k ->
  (exists l, analog_pointing t beam = Ok l /\ rows_in_order k (b_pan t) l) /\ rows_in_order beam (b_pbe t) (digital_pointing t beam) /\
  (forall n l, nth_error (b_mas t) k = Some (n, l) -> mini_arrays t beam = Ok (firstn n l)).
Proof. exact pointings_spec. Qed.
Print Assumptions C141_pointings.
Theorem C141_shared : forall t b1 b2, analog_beam t b1 = analog_beam t b2 ->
  analog_pointing t b1 = analog_pointing t b2 /\ mini_arrays t b1 = mini_arrays t b2.
Proof. exact pointings_shared. Qed.
Print Assumptions C141_shared.
Theorem C141_every_row : forall t x, (exists beam, In (beam, x) (b_pbe t)) <-> exists beam, In x (digital_pointing t beam).
Proof. exact pointings_split. Qed.
Print Assumptions C141_every_row.

Definition demo_tables : tables := mkTables [0; 0; 1] [(2, [5; 7; 9]%Z); (1, [3; 4]%Z)]
  [(0, (1, (90, 45))%Q); (1, (1, (180, 60))%Q); (0, (2, (91, 46))%Q)] [(1, (1, (90, 44))%Q); (0, (1, (90, 45))%Q); (1, (2, (91, 45))%Q)].
Example C141_ex : mini_arrays demo_tables 1 = Ok [5; 7]%Z /\ analog_pointing demo_tables 1 = Ok [(1, (90, 45)); (2, (91, 46))]%Q /\
  digital_pointing demo_tables 1 = [(1, (90, 44)); (2, (91, 45))]%Q /\ analog_beam demo_tables 0 = analog_beam demo_tables 1.
Proof. repeat split. Qed.
