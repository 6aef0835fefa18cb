(** Properties of the point sources of sky models (C191 to C195). *)
From Coq Require Import ZArith QArith Qabs Bool List Lia Lqa.
From Verif Require Import Base M_Gsm P_Gsm.
Import ListNotations.
Open Scope nat_scope.
Open Scope list_scope.

(** ** C191: what is added, where *)
Theorem C191_added : forall (smooth : Q -> (nat -> Q) -> nat -> Q) g s a, accepted g a -> coherent s -> comparable s g -> fresh s g ->
  exists g' s', add_point_source smooth g s a None = (g', s', Ok tt) /\ same_frame g g' /\
    forall t i j k, g_value g' t i j k =
      if t <? length (g_time g) then (g_value g t i j k + (if match place s g t with Some p => k =? p | None => false end then given a t i j else 0))%Q
      else g_value g t i j k.
Proof. exact add_right. Qed.
Print Assumptions C191_added.
Theorem C191_sum : forall (smooth : Q -> (nat -> Q) -> nat -> Q) l g, Forall (fun x => fixed (fst x) /\ coherent (fst x)) l ->
  same_frame g (adds smooth g l) /\
  forall t i j k, t < length (g_time g) -> (g_value (adds smooth g l) t i j k == g_value g t i j k + qsum (map (contribution k) l))%Q.
Proof. exact adds_sum. Qed.
Print Assumptions C191_sum.
(** The Moon moves by one pixel each day. *)
Definition moon (t0 : Q) : target := mkTarget true [t0] (One (Z.to_nat (Qnum t0 mod 5))) (fun t => Z.to_nat (Qnum t mod 5)).
Definition sky3 : gsm := mkGsm [100%Q; 101%Q; 103%Q] 1 1 5 (fun t _ _ k => inject_Z (Z.of_nat (10 * t + k))).
Definition none : Q -> (nat -> Q) -> nat -> Q := fun _ f => f.
Definition rows (r : gsm * target * res unit) : list (list Z) * res unit :=
  (map (fun t => map (fun k => Qnum (g_value (fst (fst r)) t 0 0 k)) (seq 0 5)) (seq 0 3), snd r).
Example C191_ex : coherent (moon 90) /\ comparable (moon 90) sky3 /\ fresh (moon 90) sky3 /\
  rows (add_point_source none sky3 (moon 90) (Scalar 100) None) =
    ([[100; 1; 2; 3; 4]; [10; 111; 12; 13; 14]; [20; 21; 22; 123; 24]]%Z, Ok tt) /\
  rows (add_point_source none sky3 (still 4) (Scalar 100) None) =
    ([[0; 1; 2; 3; 104]; [10; 11; 12; 13; 114]; [20; 21; 22; 23; 124]]%Z, Ok tt) /\
  fixed (still 4) /\ coherent (still 4).
Proof.
  split; [right; eexists; split; reflexivity|]. split; [right; now left|]. split.
  - right. right. split; [right; now left|]. exists 90%Q, 100%Q. split; [now left|]. split; [now left|]. intros x y [<-|[]] Y N.
    repeat (destruct Y as [<-|Y]; [unfold near in N; revert N; vm_compute; intros N; now apply N|]). destruct Y.
  - split; [reflexivity|]. split; [reflexivity|]. split; [split; reflexivity|now exists 4].
Qed.

(** ** C192: positions of other days *)
Theorem C192_stale_refuted : forall (smooth : Q -> (nat -> Q) -> nat -> Q) g s a t0, accepted g a -> t_moving s = true -> t_time s = [t0] -> t_coord s = One (t_track s t0) ->
  (forall t, In t (g_time g) -> near t0 t) ->
  exists g', add_point_source smooth g s a None = (g', s, Ok tt) /\
    forall t i j k, t < length (g_time g) -> g_value g' t i j k = (g_value g t i j k + (if k =? t_track s t0 then given a t i j else 0))%Q.
Proof. exact stale_refuted. Qed.
Print Assumptions C192_stale_refuted.
Theorem C192_array_refuted : forall (smooth : Q -> (nat -> Q) -> nat -> Q) g s a t0, accepted g a -> t_moving s = true -> t_time s = [t0] -> t_coord s = Many [t_track s t0] ->
  (forall t, In t (g_time g) -> near t0 t) -> 1 < length (g_time g) ->
  exists g', add_point_source smooth g s a None = (g', s, Err EIndexError) /\
    (forall i j, g_value g' 0 i j (t_track s t0) = (g_value g 0%nat i j (t_track s t0) + given a 0%nat i j)%Q) /\
    (forall t i j k, 0 < t -> g_value g' t i j k = g_value g t i j k).
Proof. exact stale_array_refuted. Qed.
Print Assumptions C192_array_refuted.
Theorem C192_near : forall a b, (2400000 <= b)%Q -> (Qabs (a - b) <= 24)%Q -> near a b.
Proof. exact near_days. Qed.
Print Assumptions C192_near.
Definition month : gsm := mkGsm [2460000%Q; 2460010%Q; 2460023%Q] 1 1 5 (fun _ _ _ _ => 0%Q).
Example C192_ex : (forall t, In t (g_time month) -> near 2460000 t) /\ map (t_track (moon 2460000)) (g_time month) = [0; 0; 3] /\
  rows (add_point_source none month (moon 2460000) (Scalar 7) None) = ([[7; 0; 0; 0; 0]; [7; 0; 0; 0; 0]; [7; 0; 0; 0; 0]]%Z, Ok tt) /\
  rows (add_point_source none month (mkTarget true [2460000%Q] (Many [0]) (t_track (moon 0))) (Scalar 7) None) =
    ([[7; 0; 0; 0; 0]; [0; 0; 0; 0; 0]; [0; 0; 0; 0; 0]]%Z, Err EIndexError).
Proof.
  split; [|repeat split; reflexivity]. intros t T. apply near_days; repeat (destruct T as [<-|T]; [vm_compute; discriminate|]); destruct T.
Qed.

(** ** C193: refusals *)
Theorem C193_shape : forall (smooth : Q -> (nat -> Q) -> nat -> Q) g s sh v size, sh <> [length (g_time g); g_nf g; g_np g] ->
  add_point_source smooth g s (Array sh v) size = (g, s, Err EAssertionError).
Proof. exact add_refused. Qed.
Print Assumptions C193_shape.
Theorem C193_times : forall (smooth : Q -> (nat -> Q) -> nat -> Q) g s a size, accepted g a -> ~ comparable s g -> add_point_source smooth g s a size = (g, s, Err EValueError).
Proof. exact add_times. Qed.
Print Assumptions C193_times.
Theorem C193_frame : forall (smooth : Q -> (nat -> Q) -> nat -> Q) g s a size g' s' r, add_point_source smooth g s a size = (g', s', r) -> same_frame g g' /\ t_moving s' = t_moving s /\ t_track s' = t_track s.
Proof. exact add_frame. Qed.
Print Assumptions C193_frame.
Example C193_ex : snd (add_point_source none sky3 (moon 90) (Array [3; 1] (fun _ _ _ => 1%Q)) None) = Err EAssertionError /\
  snd (add_point_source none sky3 (moon 90) (Array [3; 1; 1] (fun _ _ _ => 1%Q)) None) = Ok tt /\
  snd (add_point_source none sky3 (mkTarget true [1%Q; 2%Q] (Many [1; 2]) (t_track (moon 0))) (Scalar 1) None) = Err EValueError /\
  ~ comparable (mkTarget true [1%Q; 2%Q] (Many [1; 2]) (t_track (moon 0))) sky3.
Proof. repeat (split; [reflexivity|]). unfold comparable. cbn. lia. Qed.

(** ** C194: signal to noise ratio *)
Theorem C194_snr : forall (smooth : Q -> (nat -> Q) -> nat -> Q) (std : list Q -> Q) g s snr, coherent s -> comparable s g -> fresh s g ->
  exists g' s', add_point_source_snr smooth std g s snr None = (g', s', Ok tt) /\
    forall t i j k, t < length (g_time g) -> exists p, place s g t = Some p /\
      g_value g' t i j k = (g_value g t i j k + (if k =? p then qsum (map (g_value g t i j) (seq 0%nat (g_npix g))) / inject_Z (Z.of_nat (g_npix g)) + snr * std (map (g_value g t i j) (seq 0%nat (g_npix g))) else 0))%Q.
Proof. exact snr_right. Qed.
Print Assumptions C194_snr.
Theorem C194_median_refuted : forall smooth std m g' s', median_of m [0; 0; 3]%Q -> add_point_source_snr smooth std three (still 0) 0 None = (g', s', Ok tt) ->
  ~ (g_value g' 0%nat 0%nat 0%nat 0%nat == g_value three 0%nat 0%nat 0%nat 0%nat + m)%Q.
Proof. exact snr_median_refuted. Qed.
Print Assumptions C194_median_refuted.
Example C194_ex : median_of 0 [0; 0; 3]%Q /\ Qred (g_value (fst (fst (add_point_source_snr none (fun _ => 2%Q) three (still 0) 5 None))) 0 0 0 0) = 11%Q /\
  Qred (g_value (fst (fst (add_point_source_snr none (fun _ => 2%Q) three (still 0) 5 None))) 0 0 0 2) = 3%Q /\
  snd (add_point_source_snr none (fun _ => 2%Q) three (still 0) 5 None) = Ok tt.
Proof. split; [split; cbn; lia|]. repeat split; reflexivity. Qed.

(** ** C195: extended sources *)
Theorem C195_smooth : forall (smooth : Q -> (nat -> Q) -> nat -> Q) g s a size, accepted g a -> coherent s -> comparable s g -> fresh s g ->
  exists g' s', add_point_source smooth g s a (Some size) = (g', s', Ok tt) /\ same_frame g g' /\
    forall t i j k, t < length (g_time g) -> exists p, place s g t = Some p /\
      g_value g' t i j k = (g_value g t i j k + Qabs (smooth size (fun q => if q =? p then given a t i j else 0%Q) k))%Q.
Proof. exact smooth_right. Qed.
Print Assumptions C195_smooth.
Theorem C195_sign_refuted : forall (smooth : Q -> (nat -> Q) -> nat -> Q) g s a size, accepted g a -> coherent s -> comparable s g -> fresh s g ->
  (forall f h, (forall k, h k == - f k)%Q -> forall k, (smooth size h k == - smooth size f k)%Q) ->
  exists g' s' g'' s'', add_point_source smooth g s a (Some size) = (g', s', Ok tt) /\ add_point_source smooth g s (opposite a) (Some size) = (g'', s'', Ok tt) /\
    forall t i j k, t < length (g_time g) -> (g_value g t i j k <= g_value g' t i j k /\ g_value g'' t i j k == g_value g' t i j k)%Q.
Proof. exact smooth_sign_refuted. Qed.
Print Assumptions C195_sign_refuted.
(** A third of the value goes to each neighbour. *)
Definition blur (_ : Q) (f : nat -> Q) (k : nat) : Q := ((1 # 3) * (f (k + 1)%nat + f k + f (k + 4)%nat))%Q.
Example C195_ex : (forall f h, (forall k, h k == - f k)%Q -> forall k, (blur 1 h k == - blur 1 f k)%Q) /\
  Qred (g_value (fst (fst (add_point_source blur sky3 (still 2) (Scalar 30) (Some 1%Q)))) 1 0 0 1) = 21%Q /\
  Qred (g_value (fst (fst (add_point_source blur sky3 (still 2) (Scalar (-30)) (Some 1%Q)))) 1 0 0 1) = 21%Q.
Proof. split; [|split; reflexivity]. intros f h H k. unfold blur. rewrite !H. ring. Qed.
