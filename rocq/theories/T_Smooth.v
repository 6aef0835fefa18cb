(** Properties of the smoothing of profiles (C257). *)
From Coq Require Import List Arith ZArith QArith Bool Lia Reals Qreals.
From Verif Require Import Base M_Rebin P_Rebin M_Smooth P_Smooth.
Import ListNotations.
Open Scope nat_scope.

(** ** C257: smoothing of a profile *)
Theorem C257_passes : forall x w k n, w <= length x -> exists y, passes k n w x y /\ forall fuel, n <= fuel -> smooth_data fuel x w k (Z.of_nat n) = Some (Ok y).
Proof. exact smooth_passes. Qed.
Print Assumptions C257_passes.
Theorem C257_error : forall fuel x w k it, length x < w -> smooth_data fuel x w k it = Some (Err EIndexError).
Proof. exact smooth_error. Qed.
Print Assumptions C257_error.
Theorem C257_shape : forall fuel x w k it y, smooth_data fuel x w k it = Some (Ok y) -> length y = length x /\ forall i, nth i y None = None <-> nth i x None = None.
Proof. exact smooth_shape. Qed.
Print Assumptions C257_shape.
Theorem C257_within : forall fuel x w k it y lo hi, smooth_data fuel x w k it = Some (Ok y) -> (forall i, within lo hi (nth i x None)) -> forall i, within lo hi (nth i y None).
Proof. exact smooth_within. Qed.
Print Assumptions C257_within.
Theorem C257_constant : forall fuel x w k it y c, smooth_data fuel x w k it = Some (Ok y) -> (forall i, nth i x None = None \/ nth i x None = Some c) -> forall i, same (nth i y None) (nth i x None).
Proof. exact smooth_constant. Qed.
Print Assumptions C257_constant.
Theorem C257_endless_refuted : forall fuel x w k it, w <= length x -> (it < 0)%Z -> smooth_data fuel x w k it = None.
Proof. exact smooth_endless. Qed.
Print Assumptions C257_endless_refuted.
Theorem C257_raised_refuted : ~ (forall x w k n y, (0 < k)%Q -> smooth_data n x w k (Z.of_nat n) = Some (Ok y) ->
  forall i a b, nth i x None = Some a -> nth i y None = Some b -> (b <= a)%Q).
Proof. exact smooth_raised. Qed.
Print Assumptions C257_raised_refuted.
Definition reduced (l : list sample) : list sample := map (option_map Qred) l.
Definition peak : list sample := [Some 1; Some 1; Some 10; None; Some 1; Some 2]%Q.
Example C257_ex : (option_map (fun r => match r with Ok y => reduced y | Err _ => [] end) (smooth_data 2 peak 6 (3 # 2) 1) = Some [Some 1; Some 1; Some 1; None; Some 1; Some 2]%Q)
  /\ smooth_data 5 peak 7 (3 # 2) 2 = Some (Err EIndexError) /\ smooth_data 9 peak 6 (3 # 2) (-1) = None
  /\ (forall i, within 1 10 (nth i peak None)) /\ 6 <= length peak.
Proof.
  split; [vm_compute; reflexivity|]. split; [reflexivity|]. split; [now apply smooth_endless; cbn; lia|]. split; [|cbn; lia].
  intros [|[|[|[|[|[|i]]]]]]; cbn; try exact I; try (split; discriminate). destruct i; exact I.
Qed.
