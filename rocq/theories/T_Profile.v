(** Properties of profiles and backgrounds of dynamic spectra (C248 to C250). *)
From Coq Require Import List Arith ZArith QArith Bool Lia Lqa.
From Verif Require Import Base M_Rebin P_Rebin P_Dynproc2 M_Profile P_Profile.
Import ListNotations.
Open Scope nat_scope.

(** ** C248: profiles *)
Theorem C248_spectrum : forall s, match median_f s with
  | Ok r => x_freq r = x_freq s /\ x_pol r = x_pol s /\ (exists m, x_time r = [m] /\ (2 * m == hd 0 (x_time s) + last (x_time s) 0)%Q) /\ forall f p, median_of (column s f p) (x_data r 0 f p)
  | Err e => e = EIndexError /\ x_time s = []
  end.
Proof. exact spectrum_profile. Qed.
Print Assumptions C248_spectrum.
Theorem C248_profile : forall s, match median_t s with
  | Some r => x_time r = x_time s /\ x_pol r = x_pol s /\ (exists m, x_freq r = [m] /\ mean_of (map Some (x_freq s)) (Some m)) /\ forall t p, median_of (row s t p) (x_data r t 0 p)
  | None => x_freq s = []
  end.
Proof. exact time_profile. Qed.
Print Assumptions C248_profile.
Definition level (p : nat) : Q := nth p [1; 2]%Q 0%Q. Definition prof (t : nat) : Q := nth t [1; 4; 2]%Q 0%Q. Definition spec (f : nat) : Q := nth f [3; 1; 5]%Q 0%Q.
Definition demo := mkSp [10; 20; 40]%Q [30; 31; 32]%Q 2 (fun t f p => Some (level p * (prof t * spec f))%Q).
Definition holed := mkSp [10; 20; 40]%Q [30; 31; 32]%Q 1 (fun t f p => if t =? f then None else Some (prof t)).
Definition reduced (x : sample) : sample := option_map Qred x.
Example C248_ex : match median_f demo with Ok r => map Qred (x_time r) = [25%Q] /\ map (fun f => reduced (x_data r 0 f 1)) [0; 1; 2] = [Some 12; Some 4; Some 20]%Q | Err _ => False end
  /\ match median_t demo with Some r => map Qred (x_freq r) = [31%Q] /\ map (fun t => reduced (x_data r t 0 1)) [0; 1; 2] = [Some 6; Some 24; Some 12]%Q | None => False end
  /\ match median_f holed with Ok r => map (fun f => reduced (x_data r 0 f 0)) [0; 1; 2] = [Some 3; Some (3 # 2); Some (5 # 2)]%Q | Err _ => False end.
Proof. repeat split. Qed.

(** ** C249: background of each channel *)
Theorem C249_median : forall s t f p, median_of (column s f p) (x_data (fbackground s) t f p).
Proof. exact fbackground_spec. Qed.
Print Assumptions C249_median.
Theorem C249_twice : forall s t f p, x_time s <> [] -> same (x_data (fbackground (fbackground s)) t f p) (x_data (fbackground s) t f p).
Proof. exact fbackground_twice. Qed.
Print Assumptions C249_twice.
Theorem C249_flat : forall s f p q, median_of (column s f p) (Some q) -> (0 < q)%Q -> median_of (column (divide s (fbackground s)) f p) (Some 1%Q).
Proof. exact fbackground_flat. Qed.
Print Assumptions C249_flat.
Theorem C249_scaled : forall s c t f p, (0 < c)%Q ->
  same (x_data (fbackground (mkSp (x_time s) (x_freq s) (x_pol s) (fun t f p => scaled c (x_data s t f p)))) t f p) (scaled c (x_data (fbackground s) t f p)).
Proof. exact fbackground_scaled. Qed.
Print Assumptions C249_scaled.
Example C249_ex : median_of (column demo 2 1) (Some 20%Q) /\ map (fun t => reduced (x_data (divide demo (fbackground demo)) t 2 1)) [0; 1; 2] = [Some (1 # 2); Some 2; Some 1]%Q
  /\ map (fun t => reduced (x_data (divide holed (fbackground holed)) t 1 0)) [0; 1; 2] = [Some (2 # 3); None; Some (4 # 3)]%Q.
Proof. split; [|split; reflexivity]. exists 20%Q, 20%Q. vm_compute. repeat split; try lia; auto 8. Qed.

(** ** C250: background of times and channels *)
Theorem C250_separable : forall s a g h mg mh amax gmax, separable s a g h -> median_of (line (length (x_time s)) g) (Some mg) -> median_of (line (length (x_freq s)) h) (Some mh) ->
  highest (x_pol s) a amax -> highest (length (x_time s)) g gmax ->
  exists b, background s = Some b /\ x_time b = x_time s /\ x_freq b = x_freq s /\ x_pol b = x_pol s /\
    forall t f p, t < length (x_time s) -> f < length (x_freq s) -> p < x_pol s ->
    exists q, x_data (divide s b) t f p = Some q /\ (q * (a p * mg) == amax * gmax)%Q.
Proof. exact background_separable. Qed.
Print Assumptions C250_separable.
Theorem C250_level_refuted : forall s a g h mg mh amax gmax b, separable s a g h -> median_of (line (length (x_time s)) g) (Some mg) -> median_of (line (length (x_freq s)) h) (Some mh) ->
  highest (x_pol s) a amax -> highest (length (x_time s)) g gmax -> background s = Some b ->
  forall t f p p' q q', t < length (x_time s) -> f < length (x_freq s) -> p < x_pol s -> p' < x_pol s -> (a p < a p')%Q ->
  x_data (divide s b) t f p = Some q -> x_data (divide s b) t f p' = Some q' -> (q' < q)%Q.
Proof. exact background_level_refuted. Qed.
Print Assumptions C250_level_refuted.
Theorem C250_plain : forall s, (exists b, background s = Some b) <-> forall t, t < length (x_time s) -> x_data s t 0 0 <> None.
Proof. exact background_plain. Qed.
Print Assumptions C250_plain.
Example C250_ex : separable demo level prof spec /\ median_of (line 3 prof) (Some 2%Q) /\ median_of (line 3 spec) (Some 3%Q) /\ highest 2 level 2%Q /\ highest 3 prof 4%Q
  /\ match background demo with Some b => map (fun p => map (fun t => map (fun f => reduced (x_data (divide demo b) t f p)) [0; 1; 2]) [0; 1; 2]) [0; 1] = [repeat (repeat (Some 4%Q) 3) 3; repeat (repeat (Some 2%Q) 3) 3] | None => False end.
Proof.
  split; [|split; [|split; [|split; [|split; [|reflexivity]]]]].
  - split; cbn; try lia.
    + intros t f p _ _ _. eexists. split; reflexivity.
    + intros [|[|p]] P; [reflexivity|reflexivity|lia].
    + intros [|[|[|p]]] P; [reflexivity|reflexivity|reflexivity|lia].
    + intros [|[|[|p]]] P; [reflexivity|reflexivity|reflexivity|lia].
  - exists 2%Q, 2%Q. vm_compute. repeat split; try lia; auto 8.
  - exists 3%Q, 3%Q. vm_compute. repeat split; try lia; auto 8.
  - split; [exists 1; split; [lia|reflexivity]|]. intros [|[|p]] P; try lia; discriminate.
  - split; [exists 1; split; [lia|reflexivity]|]. intros [|[|[|p]]] P; try lia; discriminate.
Qed.
