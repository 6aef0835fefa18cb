(** C104 and C105: effective areas and positions of the antennas. *)
From Coq Require Import Reals QArith Bool String List Arith Lia Lra.
From Verif Require Import Base M_Polar M_Beam M_Instru M_Area P_Area P_Area2 P_Area3 P_Area4.
Import ListNotations.
Open Scope list_scope.
Open Scope R_scope.

(** * C104: effective area of a Mini-Array *)
Theorem C104_value : forall ants fs el l, ma_area ants fs el = Ok l ->
  length l = length fs /\
  exists rm x0 x1 y0 y1, largest (map ant_radius fs) rm /\ frame ants rm x0 x1 y0 y1 /\
  forall i f a, nth_error fs i = Some f -> nth_error l i = Some a ->
  exists k, nodes_near 500 x0 x1 y0 y1 ants (ant_radius f) k /\ a = INR k * ((x1 - x0) / 499) * ((y1 - y0) / 499) * sin el.
Proof. exact area_value. Qed.
Print Assumptions C104_value.
Theorem C104_radius : forall f, 0 < f -> 0 < ant_radius f /\ PI * ant_radius f ^ 2 = (299792458 / f) ^ 2 / 3.
Proof. exact radius_area. Qed.
Print Assumptions C104_radius.
Theorem C104_defined : forall ants fs el, (exists l, ma_area ants fs el = Ok l) <-> ants <> [] /\ fs <> [].
Proof. exact area_defined. Qed.
Print Assumptions C104_defined.
Theorem C104_error : forall ants fs el, ants = [] \/ fs = [] -> ma_area ants fs el = Err EValueError.
Proof. exact area_error. Qed.
Print Assumptions C104_error.
Theorem C104_moved : forall ants fs el u v w, ma_area (map (moved u v w) ants) fs el = ma_area ants fs el.
Proof. exact area_moved. Qed.
Print Assumptions C104_moved.
Theorem C104_scaled : forall ants fs el k, 0 < k -> positive fs ->
  times (k ^ 2) (ma_area ants fs el) (ma_area (map (spread k) ants) (map (fun f => f / k) fs) el).
Proof. exact area_scaled. Qed.
Print Assumptions C104_scaled.
Theorem C104_set : forall ants ants' fs el, (forall q, In q (map above ants) <-> In q (map above ants')) ->
  ma_area ants fs el = ma_area ants' fs el.
Proof. exact area_set. Qed.
Print Assumptions C104_set.
Theorem C104_elevation : forall ants fs el l, ma_area ants fs (PI / 2) = Ok l ->
  ma_area ants fs el = Ok (map (fun a => a * sin el) l) /\ forall a, In a l -> 0 <= a.
Proof. exact area_elevation. Qed.
Print Assumptions C104_elevation.
Theorem C104_bound : forall ants fs l rm x0 x1 y0 y1 a, ma_area ants fs (PI / 2) = Ok l ->
  largest (map ant_radius fs) rm -> frame ants rm x0 x1 y0 y1 -> In a l ->
  0 <= a <= (500 / 499) ^ 2 * ((x1 - x0) * (y1 - y0)).
Proof. exact area_bound. Qed.
Print Assumptions C104_bound.
Theorem C104_decreasing : forall ants fs el l i j f g a b, 0 <= sin el -> ma_area ants fs el = Ok l ->
  nth_error fs i = Some f -> nth_error fs j = Some g -> nth_error l i = Some a -> nth_error l j = Some b ->
  0 < f -> f <= g -> b <= a.
Proof. exact area_decreasing. Qed.
Print Assumptions C104_decreasing.
Theorem C104_one : forall p f el, 0 < f ->
  ma_area [p] [f] el = Ok [195496 * 4 / 499 ^ 2 / PI * (wavelength f ^ 2 / 3) * sin el].
Proof. exact area_one. Qed.
Print Assumptions C104_one.
Theorem C104_one_accuracy : forall p f el a, 0 < f -> 0 <= sin el -> ma_area [p] [f] el = Ok [a] ->
  999 / 1000 * (wavelength f ^ 2 / 3 * sin el) <= a <= 1001 / 1000 * (wavelength f ^ 2 / 3 * sin el).
Proof. exact area_one_accuracy. Qed.
Print Assumptions C104_one_accuracy.
Theorem C104_lowest : forall ants fs el l i f a, ma_area ants fs el = Ok l ->
  nth_error fs i = Some f -> nth_error l i = Some a -> 0 < f -> (forall g, In g fs -> f <= g) ->
  ma_area ants [f] el = Ok [a].
Proof. exact area_lowest. Qed.
Print Assumptions C104_lowest.
Theorem C104_lost : forall p f g el, 0 < g -> 500 * g <= f ->
  exists b, ma_area [p] [g; f] el = Ok [b; 0].
Proof. exact area_lost. Qed.
Print Assumptions C104_lost.
Theorem C104_call_refuted : exists p f g el a, ma_area [p] [f] el = Ok [a] /\ ma_area [p] [g; f] el <> Ok [a; a] /\ (forall b, ma_area [p] [g; f] el <> Ok [b; a]).
Proof. exact area_call_refuted. Qed.
Print Assumptions C104_call_refuted.
Theorem C104_more : forall ants more fs el l l' i a b, 0 <= sin el ->
  (forall q, In q more -> exists p p' s s', In p ants /\ In p' ants /\ In s ants /\ In s' ants /\ vx p <= vx q <= vx p' /\ vy s <= vy q <= vy s') ->
  ma_area ants fs el = Ok l -> ma_area (ants ++ more) fs el = Ok l' ->
  nth_error l i = Some a -> nth_error l' i = Some b -> a <= b.
Proof. exact area_more. Qed.
Print Assumptions C104_more.
Theorem C104_apart : forall a b fs el l, ma_area (a ++ b) fs el = Ok l ->
  exists rm x0 x1 y0 y1, largest (map ant_radius fs) rm /\ frame (a ++ b) rm x0 x1 y0 y1 /\
  forall i f v, nth_error fs i = Some f -> nth_error l i = Some v -> far a b (2 * ant_radius f) ->
  exists ka kb, nodes_near 500 x0 x1 y0 y1 a (ant_radius f) ka /\ nodes_near 500 x0 x1 y0 y1 b (ant_radius f) kb /\
    v = (INR ka + INR kb) * ((x1 - x0) / 499) * ((y1 - y0) / 499) * sin el.
Proof. exact area_apart. Qed.
Print Assumptions C104_apart.

Example C104_ex : positive [speed_of_light / 3; speed_of_light] /\
  (exists l, ma_area [mkVec 0 0 0; mkVec 100 0 0] [speed_of_light / 3; speed_of_light] (PI / 2) = Ok l) /\
  ma_area [mkVec 5 6 7] [speed_of_light] (PI / 2) = Ok [195496 * 4 / 499 ^ 2 / PI / 3] /\
  far [mkVec 0 0 0] [mkVec 100 0 0] (2 * ant_radius speed_of_light) /\
  0 <= sin (PI / 2).
Proof.
  split; [intros x [<-|[<-|[]]]; unfold speed_of_light; lra|]. split; [apply area_defined; split; discriminate|].
  split; [|split].
  - rewrite area_one by (unfold speed_of_light; lra). rewrite sin_PI2. unfold wavelength, speed_of_light. do 2 f_equal. field. apply PI_neq0.
  - intros p q [<-|[]] [<-|[]]. cbn [vx vy]. unfold speed_of_light. destruct (radius_area 299792458) as [A B]; [lra|].
    replace (299792458 / 299792458) with 1 in B by field. assert (H := PI_RGT_0). assert (H3 := PI2_3_2). unfold PI2 in H3. nra.
  - rewrite sin_PI2. lra.
Qed.

(** * C105: effective area of NenuFAR, positions of the antennas *)
Theorem C105_sum : forall P G L G' L' (base : interf vec G' L') active (a b c : interf P G L) fs el la lb,
  i_add a b = Ok c -> length (i_names b) = i_size b -> (forall x, In x (i_names a) -> ~ In x (i_names b)) ->
  nenufar_area base active a fs el = Ok la -> nenufar_area base active b fs el = Ok lb ->
  exists lc, nenufar_area base active c fs el = Ok lc /\ sums la lb lc.
Proof. exact nenufar_sum. Qed.
Print Assumptions C105_sum.
Theorem C105_difference : forall P G L G' L' (base : interf vec G' L') active (a b c : interf P G L) fs el la lb,
  i_sub a b = Ok c -> length (i_names a) = i_size a -> length (i_names b) = i_size b -> NoDup (i_names a) -> NoDup (i_names b) -> incl (i_names b) (i_names a) ->
  nenufar_area base active a fs el = Ok la -> nenufar_area base active b fs el = Ok lb ->
  exists lc, nenufar_area base active c fs el = Ok lc /\ sums lb lc la.
Proof. exact nenufar_difference. Qed.
Print Assumptions C105_difference.
Theorem C105_size : forall P G L G' L' (base : interf vec G' L') active (a b : interf P G L) fs el la,
  nenufar_area base active a fs el = Ok la ->
  exists lb, nenufar_area base active b fs el = Ok lb /\ length lb = length fs /\
    forall i, nth i lb 0 * INR (i_size a) = nth i la 0 * INR (i_size b).
Proof. exact nenufar_size. Qed.
Print Assumptions C105_size.
Theorem C105_unknown : forall P G L G' L' (base : interf vec G' L') active (a : interf P G L) fs el e,
  i_getitem base active = Err e -> nenufar_area base active a fs el = Err e.
Proof. exact nenufar_unknown. Qed.
Print Assumptions C105_unknown.
Theorem C105_rigid : forall rotation l i j p q p' q', nth_error l i = Some p -> nth_error l j = Some q ->
  nth_error (ma_positions rotation l) i = Some p' -> nth_error (ma_positions rotation l) j = Some q' ->
  sq_dist p' q' = sq_dist p q /\ vz p' = vz p.
Proof. exact positions_rigid. Qed.
Print Assumptions C105_rigid.
Theorem C105_mirror : forall rotation l i j k p q r p' q' r', nth_error l i = Some p -> nth_error l j = Some q -> nth_error l k = Some r ->
  nth_error (ma_positions rotation l) i = Some p' -> nth_error (ma_positions rotation l) j = Some q' -> nth_error (ma_positions rotation l) k = Some r' ->
  turn p' q' r' = - turn p q r.
Proof. exact positions_mirror. Qed.
Print Assumptions C105_mirror.
Theorem C105_twice : forall rotation l, ma_positions rotation (ma_positions rotation l) = l.
Proof. exact positions_twice. Qed.
Print Assumptions C105_twice.
Theorem C105_turned : forall a b l i p q, nth_error (ma_positions a l) i = Some p -> nth_error (ma_positions b l) i = Some q ->
  vx q = cos (b - a) * vx p + sin (b - a) * vy p /\ vy q = cos (b - a) * vy p - sin (b - a) * vx p.
Proof. exact positions_turned. Qed.
Print Assumptions C105_turned.

Definition demo (l : list string) : interf vec unit unit :=
  mkInterf tt l (map (fun _ => mkVec 1 2 3) l) (map (fun _ => tt) l) (map (fun _ => 0%Q) l) (map (fun _ => Some 1%Q) l).
Example C105_ex : let base := demo ["0"; "1"]%string in let a := demo ["A"]%string in let b := demo ["B"; "C"]%string in
  exists c d la lb, i_add a b = Ok c /\ i_size c = 3%nat /\ length (i_names b) = i_size b /\ (forall x, In x (i_names a) -> ~ In x (i_names b)) /\
  i_sub c b = Ok d /\ incl (i_names b) (i_names c) /\ NoDup (i_names c) /\
  nenufar_area base (SNums [1%Q]) a [speed_of_light] (PI / 2) = Ok la /\
  nenufar_area base (SNums [1%Q]) b [speed_of_light] (PI / 2) = Ok lb /\
  nenufar_area base (SNums [2%Q]) a [speed_of_light] (PI / 2) = Err EAntennaIndex /\
  turn (mkVec 0 0 0) (mkVec 1 0 0) (mkVec 0 1 0) = 1.
Proof.
  cbv zeta. exists (demo ["A"; "B"; "C"]%string), (demo ["A"]%string).
  assert (G : i_getitem (demo ["0"; "1"]%string) (SNums [1%Q]) = Ok (demo ["1"]%string)) by reflexivity.
  destruct (proj2 (area_defined (i_positions (demo ["1"]%string)) [speed_of_light] (PI / 2))) as [l E]; [split; discriminate|].
  assert (N : forall b : interf vec unit unit, nenufar_area (demo ["0"; "1"]%string) (SNums [1%Q]) b [speed_of_light] (PI / 2) = Ok (map (fun a => a * INR (i_size b)) l)).
  { intros b. unfold nenufar_area. rewrite G. cbn [bind]. rewrite E. reflexivity. }
  eexists. eexists. split; [reflexivity|]. split; [reflexivity|]. split; [reflexivity|].
  split; [cbn; intuition (subst; discriminate)|]. split; [reflexivity|]. split; [intros x; cbn; tauto|].
  split; [repeat constructor; cbn; intuition discriminate|]. split; [apply N|]. split; [apply N|]. split; [now apply nenufar_unknown|].
  unfold turn. cbn. ring.
Qed.
