(** C259: conversion to local time. *)
From Coq Require Import List ZArith Bool Lia.
From Verif Require Import Base M_Localzone P_Localzone.
Import ListNotations.
Open Scope Z_scope.

Theorem C259_shape : forall z t, (match t, to_local_time z t with Scalar _, Scalar _ => True | Times _, Times _ => True | _, _ => False end) /\ length (instants (to_local_time z t)) = length (instants t).
Proof. exact local_shape. Qed.
Print Assumptions C259_shape.
Theorem C259_right : forall z t i, eastern z -> (i < length (instants t))%nat -> let x := nth i (instants t) 0 in let c := nth i (instants (to_local_time z t)) 0 in
  clock z x c <-> ~ changing z x.
Proof. exact local_right_at. Qed.
Print Assumptions C259_right.
Theorem C259_fixed : forall z t i, z_periods z = [] -> (i < length (instants t))%nat -> clock z (nth i (instants t) 0) (nth i (instants (to_local_time z t)) 0).
Proof. exact local_fixed_at. Qed.
Print Assumptions C259_fixed.
Theorem C259_change_refuted : forall z t i p, eastern z -> In p (z_periods z) -> (i < length (instants t))%nat -> let x := nth i (instants t) 0 in let c := nth i (instants (to_local_time z t)) 0 in
  (fst p <= x < fst p + z_summer z -> clock z x (c + (z_summer z - z_winter z))) /\ (snd p <= x < snd p + z_winter z -> clock z x (c - (z_summer z - z_winter z))).
Proof. exact local_wrong_at. Qed.
Print Assumptions C259_change_refuted.
(** Paris in 2023 and 2024: summer time from 2023-03-26 01:00 to 2023-10-29 01:00 and from 2024-03-31 01:00 to 2024-10-27 01:00 UTC, in Unix seconds *)
Definition paris := mkZone 3600 7200 [(1679792400, 1698541200); (1711846800, 1729990800)].
Example C259_ex : eastern paris /\ to_local_time paris (Scalar 1688000000) = Scalar 1688007200 /\ to_local_time paris (Times [1679792400; 1679799600; 1698541200]) = Times [1679796000; 1679806800; 1698548400]
  /\ changing paris 1679792400 /\ ~ changing paris 1688000000.
Proof.
  split; [split; [cbn; lia|]; split; [intros p [<-|[<-|[]]]; cbn; lia|intros p q [<-|[<-|[]]] [<-|[<-|[]]]; cbn; auto; lia]|]. split; [reflexivity|]. split; [reflexivity|].
  split; [exists (1679792400, 1698541200); split; [now left|cbn; lia]|]. intros (p & [<-|[<-|[]]] & H); cbn in H; lia.
Qed.
