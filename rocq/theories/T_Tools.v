(** Properties of the tools of the instrument (C196 to C201). *)
From Coq Require Import ZArith QArith Qround Qabs Bool String List Lia Lqa Sorted Permutation.
From Verif Require Import Base M_Pointing M_Tools P_Pointing P_Tools P_Tools2.
Import ListNotations.
Open Scope nat_scope.
Open Scope list_scope.

(** ** C196: Mini-Arrays of given rotations *)
Theorem C196_exact : forall table rotations, tens rotations -> exists l, rotated_like table rotations = Ok l /\
  forall i, In i l <-> exists r q, In (i, r) table /\ In q rotations /\ alike r q.
Proof. exact like_exact. Qed.
Print Assumptions C196_exact.
Theorem C196_refused : forall table rotations, ~ tens rotations -> rotated_like table rotations = Err EValueError.
Proof. exact like_refused. Qed.
Print Assumptions C196_refused.
Theorem C196_sorted : forall table rotations l, rotated_like table rotations = Ok l -> StronglySorted Z.lt (map fst table) -> StronglySorted Z.lt l.
Proof. exact like_sorted. Qed.
Print Assumptions C196_sorted.
Theorem C196_periodic : forall table rotations turns, length turns = length rotations ->
  (forall k, In k turns -> exists j, k = (60 * j)%Z) ->
  rotated_like table (map (fun x => (fst x + snd x)%Z) (combine rotations turns)) = rotated_like table rotations.
Proof. exact like_periodic. Qed.
Print Assumptions C196_periodic.
Theorem C196_every : forall table, (forall i r, In (i, r) table -> exists k, (r = 10 * k)%Z) ->
  rotated_like table [0; 10; 20; 30; 40; 50]%Z = Ok (map fst table).
Proof. exact like_every. Qed.
Print Assumptions C196_every.
Theorem C196_file : forall i r, In (i, r) miniarrays -> exists k, (r = 10 * k)%Z.
Proof. exact file_tens. Qed.
Print Assumptions C196_file.
Example C196_ex : tens [10; 430; -50]%Z /\ ~ tens [10; 15]%Z /\ rotated_like miniarrays [15]%Z = Err EValueError /\
  rotated_like (firstn 20 miniarrays) [10; 430]%Z = Ok [11; 12; 18]%Z /\
  rotated_like (firstn 20 miniarrays) [-50]%Z = rotated_like (firstn 20 miniarrays) [10]%Z /\ StronglySorted Z.lt (map fst (firstn 20 miniarrays)) /\
  rotated_like miniarrays [] = Ok [].
Proof.
  split; [|split; [|split; [reflexivity|split; [|split; [reflexivity|split; [cbn; repeat constructor|reflexivity]]]]]].
  - intros r R. exists (r / 10)%Z. repeat (destruct R as [<-|R]; [reflexivity|]). destruct R.
  - intros H. destruct (H 15%Z) as [k K]; [cbn; auto|lia].
  - vm_compute. reflexivity.
Qed.

(** ** C197: random sub-arrays *)
Theorem C197_partition : forall names n remote draw, (2 <= n)%Z -> unit_draw draw -> count remote <= length names ->
  exists l, subarrays names n remote draw = Ok l /\ Z.of_nat (length l) = n /\ Permutation (concat l) (firstn (count remote) names) /\
    forall i sub, nth_error l i = Some sub -> forall x, In x sub <->
      exists k, k < count remote /\ nth_error names k = Some x /\ (inject_Z (Z.of_nat i) / inject_Z n <= draw k /\ draw k < inject_Z (Z.of_nat (S i)) / inject_Z n)%Q.
Proof. exact sub_partition. Qed.
Print Assumptions C197_partition.
Theorem C197_file : forall n remote draw l, (2 <= n)%Z -> unit_draw draw -> subarrays (map fst miniarrays) n remote draw = Ok l ->
  Permutation (concat l) (nenufar remote) /\ NoDup (concat l).
Proof. exact sub_file. Qed.
Print Assumptions C197_file.
Theorem C197_few : forall names n remote draw, (n < 2)%Z -> subarrays names n remote draw = Err EValueError.
Proof. exact sub_few. Qed.
Print Assumptions C197_few.
Theorem C197_empty_refuted : forall n remote, (2 <= n)%Z -> exists draw l, unit_draw draw /\ subarrays (map fst miniarrays) n remote draw = Ok l /\
  forall i, 0 < i -> (Z.of_nat i < n)%Z -> nth_error l i = Some [].
Proof. exact sub_empty_refuted. Qed.
Print Assumptions C197_empty_refuted.
Definition dice (k : nat) : Q := (Z.of_nat (7 * k mod 10) # 10)%Q.
Example C197_ex : unit_draw dice /\ bind (subarrays (map fst miniarrays) 3 false dice) (fun l => Ok (map (firstn 5) l)) =
    Ok [[0; 3; 6; 9; 10]; [2; 5; 8; 12; 15]; [1; 4; 7; 11; 14]]%Z /\
  bind (subarrays (map fst miniarrays) 3 true dice) (fun l => Ok (map (@length Z) l)) = Ok [41; 30; 31] /\
  subarrays (map fst miniarrays) 1 true dice = Err EValueError.
Proof.
  split; [|split; [vm_compute; reflexivity|split; [vm_compute; reflexivity|reflexivity]]].
  intros k. unfold dice, Qle, Qlt. cbn [Qnum Qden]. pose proof (Nat.mod_upper_bound (7 * k) 10). lia.
Qed.

(** ** C198: corrections of pointing *)
Theorem C198_frame : forall tables c year, pointing_correction tables false c year = Err EValueError.
Proof. exact correction_frame. Qed.
Print Assumptions C198_frame.
Theorem C198_none : forall tables c year, ~ applied year -> pointing_correction tables true c year = Ok c.
Proof. exact correction_none. Qed.
Print Assumptions C198_none.
Theorem C198_scalar : forall tables d year, applied year -> pointing_correction tables true (Alone d) year = Err ETypeError.
Proof. exact correction_scalar. Qed.
Print Assumptions C198_scalar.
Theorem C198_low : forall daz dalt d, direction d -> (elevation d <= 15)%Q -> same_dir (corrected daz dalt d) d.
Proof. exact low_same. Qed.
Print Assumptions C198_low.
Theorem C198_between : forall f d, direction d -> (15 < elevation d)%Q -> exists i j, (i < 75)%nat /\ (j < 360)%nat /\
  (inject_Z (Z.of_nat i) <= elevation d - 15 <= inject_Z (Z.of_nat (S i)))%Q /\ (inject_Z (Z.of_nat j) <= azimuth d <= inject_Z (Z.of_nat (S j)))%Q /\
  forall lo hi, cornered f i j lo hi -> (lo <= interpolate f (elevation d) (azimuth d) /\ interpolate f (elevation d) (azimuth d) <= hi)%Q.
Proof. exact interpolate_bounds. Qed.
Print Assumptions C198_between.
Theorem C198_node : forall f i j, (i < 75)%nat -> (j < 360)%nat ->
  (interpolate f (15 + inject_Z (Z.of_nat i)) (inject_Z (Z.of_nat j)) == f i j)%Q.
Proof. exact interpolate_node. Qed.
Print Assumptions C198_node.
Theorem C198_bound : forall daz dalt d m, direction d -> (forall i j, (i <= 75)%nat -> (j <= 360)%nat -> (Qabs (dalt i j) <= m)%Q) -> (0 <= m)%Q ->
  (Qabs (elevation (corrected daz dalt d) - elevation d) <= m / 60)%Q.
Proof. exact correction_bound. Qed.
Print Assumptions C198_bound.
Theorem C198_each : forall tables l year, applied year -> (forall d, In d l -> latitude_ok (corrected (fst (tables year)) (snd (tables year)) d) = true) ->
  pointing_correction tables true (Array l) year = Ok (Array (map (corrected (fst (tables year)) (snd (tables year))) l)).
Proof. exact correction_each. Qed.
Print Assumptions C198_each.
Theorem C198_above : forall tables l year d, applied year -> In d l -> (90 < elevation (corrected (fst (tables year)) (snd (tables year)) d))%Q ->
  pointing_correction tables true (Array l) year = Err EValueError.
Proof. exact correction_over. Qed.
Print Assumptions C198_above.
Theorem C198_azimuth : forall daz dalt d, (0 <= azimuth (corrected daz dalt d) /\ azimuth (corrected daz dalt d) < 360)%Q.
Proof. exact corrected_azimuth. Qed.
Print Assumptions C198_azimuth.
Theorem C198_jump_refuted : forall daz dalt j e, (j < 360)%nat -> (0 < e)%Q -> (e < 1)%Q ->
  (snd (shifts daz dalt (mkAzel (inject_Z (Z.of_nat j)) 15)) == 0 /\
   snd (shifts daz dalt (mkAzel (inject_Z (Z.of_nat j)) (15 + e))) == dalt 0%nat j + e * (dalt 1%nat j - dalt 0%nat j))%Q.
Proof. exact correction_jump_refuted. Qed.
Print Assumptions C198_jump_refuted.
(** Tables in arcminutes *)
Definition tables (_ : string) : table * table := ((fun i j => inject_Z (Z.of_nat (i + j))), (fun i j => 60%Q)).
Definition told (r : res directions) : res (list (Q * Q)) :=
  match r with Ok (Array l) => Ok (map (fun d => (Qred (azimuth d), Qred (elevation d))) l) | Ok (Alone _) => Ok [] | Err e => Err e end.
Example C198_ex : applied "2019" /\ ~ applied "None" /\ direction (mkAzel 59 16) /\
  told (pointing_correction tables true (Array [mkAzel 59 16; mkAzel 100 15; mkAzel (719 # 2) (31 # 2)]) "2022") =
    Ok [(60, 17); (100, 15); (11 # 2, 33 # 2)]%Q /\
  told (pointing_correction tables true (Array [mkAzel 59 16; mkAzel 100 90]) "2022") = Err EValueError /\
  told (pointing_correction tables true (Array [mkAzel 59 16]) "none") = Ok [(59, 16)]%Q /\
  pointing_correction tables true (Alone (mkAzel 59 16)) "2022" = Err ETypeError /\
  (forall i j, (i <= 75)%nat -> (j <= 360)%nat -> (Qabs (snd (tables "2022") i j) <= 60)%Q) /\ cornered (snd (tables "2022")) 1 59 60 60.
Proof.
  split; [now right|]. split; [intros [E|E]; discriminate|]. split; [repeat split; discriminate || reflexivity|].
  do 4 (split; [vm_compute; reflexivity|]). split; intros; [vm_compute; discriminate|split; discriminate].
Qed.

(** ** C199: attenuation *)
Theorem C199_right : forall (C : Type) (gain : Q -> nat -> nat -> C -> Q) (zenith : Q -> C) (altitude : Q -> C -> Q) (site : Z) (c : @sky_coord C) t nf np, suits site c t -> exists out,
  snd (attenuation gain zenith altitude site c [t] nf np) = Ok out /\ length out = nf /\
  forall f p k x, f < nf -> p < np -> nth_error (positions c) k = Some x ->
    exists a b v, nth_error out f = Some a /\ length a = np /\ nth_error a p = Some b /\ length b = length (positions c) /\ nth_error b k = Some v /\ attenuated gain zenith altitude t f p x v.
Proof. exact @attenuation_right. Qed.
Print Assumptions C199_right.
Theorem C199_zenith : forall (C : Type) (gain : Q -> nat -> nat -> C -> Q) (zenith : Q -> C) (altitude : Q -> C -> Q) (site : Z) (c : @sky_coord C) t nf np out f p k a b, suits site c t -> snd (attenuation gain zenith altitude site c [t] nf np) = Ok out -> f < nf -> p < np ->
  nth_error (positions c) k = Some (zenith t) -> (0 < altitude t (zenith t))%Q -> ~ (gain t f p (zenith t) == 0)%Q ->
  nth_error out f = Some a -> nth_error a p = Some b -> exists v, nth_error b k = Some (Some v) /\ (v == 1)%Q.
Proof. exact @attenuation_zenith. Qed.
Print Assumptions C199_zenith.
Theorem C199_times : forall (C : Type) (gain : Q -> nat -> nat -> C -> Q) (zenith : Q -> C) (altitude : Q -> C -> Q) (site : Z) (c : @sky_coord C) ts nf np, length ts <> 1 -> attenuation gain zenith altitude site c ts nf np = (c, Err EValueError).
Proof. exact @attenuation_times. Qed.
Print Assumptions C199_times.
Theorem C199_again_refuted : forall (C : Type) (gain : Q -> nat -> nat -> C -> Q) (zenith : Q -> C) (altitude : Q -> C -> Q) (site : Z) ts (c : @sky_coord C) t nf np, obstime c = None ->
  obstime (fst (calls gain zenith altitude site c (t :: ts) nf np)) = Some t /\
  forall k t', nth_error ts k = Some t' -> ~ (t == t')%Q -> nth_error (snd (calls gain zenith altitude site c (t :: ts) nf np)) (S k) = Some (Err EValueError).
Proof. exact @attenuation_again_refuted. Qed.
Print Assumptions C199_again_refuted.
(** Positions are altitudes at time 0; they set by one degree each unit of time. *)
Definition alt1 (t c : Q) : Q := Qred (c - t).
Definition gain1 (t : Q) (f p : nat) (c : Q) : Q := Qred ((alt1 t c + inject_Z (Z.of_nat f)) / 10).
Definition zen1 (t : Q) : Q := Qred (90 + t).
Definition cyg : @sky_coord Q := mkCoord None None [40; 5; 100]%Q.
Definition show (r : res (list (list (list (option Q))))) := bind r (fun l => Ok (map (map (map (option_map Qred))) l)).
Example C199_ex : suits 7 cyg 10 /\ show (snd (attenuation gain1 zen1 alt1 7 cyg [10%Q] 2 1)) = Ok [[[Some (1 # 3); None; Some 1]]; [[Some (31 # 91); None; Some 1]]]%Q /\
  map (fun r => match show r with Ok _ => true | Err _ => false end) (snd (calls gain1 zen1 alt1 7 cyg [10; 11; 10; 12]%Q 2 1)) = [true; false; true; false] /\
  nth_error (positions cyg) 2 = Some (zen1 10) /\ (0 < alt1 10 (zen1 10))%Q /\
  snd (attenuation gain1 zen1 alt1 7 (mkCoord None (Some 8%Z) [40%Q]) [10%Q] 1 1) = Err EValueError.
Proof. split; [split; exact I|]. repeat split; reflexivity. Qed.

(** ** C200: factors of correction *)
Theorem C200_right : forall (C H : Type) (beam : pt C H -> Q -> nat -> nat -> C -> Q) (zen : Q -> C) (up : H) (radec : Q -> H -> C) (really : H -> H) digital horizontal ts nf np, sized digital -> length horizontal = length (pt_times digital) -> exists a,
  factor beam zen up radec really digital horizontal ts nf np = Ok a /\ d3 a = (length ts, nf, np) /\
  forall k t, nth_error ts k = Some t -> exists cd cr, aims zen digital t cd /\ aims zen (true_pointing radec really (pt_times digital) horizontal) t cr /\
    forall f q, let real := true_pointing radec really (pt_times digital) horizontal in
      (beam real t f q cd == 0 /\ v3 a k f q = None)%Q \/ (~ beam real t f q cd == 0 /\ exists x, v3 a k f q = Some x /\ x * beam real t f q cd == beam real t f q cr)%Q.
Proof. exact @factor_right. Qed.
Print Assumptions C200_right.
Theorem C200_one : forall (C H : Type) (beam : pt C H -> Q -> nat -> nat -> C -> Q) (zen : Q -> C) (up : H) (radec : Q -> H -> C) (really : H -> H) digital horizontal ts nf np a k t c f q, sized digital -> length horizontal = length (pt_times digital) ->
  factor beam zen up radec really digital horizontal ts nf np = Ok a -> nth_error ts k = Some t ->
  aims zen digital t c -> aims zen (true_pointing radec really (pt_times digital) horizontal) t c -> ~ (beam (true_pointing radec really (pt_times digital) horizontal) t f q c == 0)%Q ->
  exists x, v3 a k f q = Some x /\ (x == 1)%Q.
Proof. exact @factor_one. Qed.
Print Assumptions C200_one.
Theorem C200_after_refuted : forall (C H : Type) (zen : Q -> C) (radec : Q -> H -> C) (really : H -> H) s d h t, (0 < d)%Q -> (s + d <= t)%Q -> (t < s + 1)%Q ->
  let digital := @mkPt C H (Many [radec s h]) [s] [d] None in
  aims zen digital t (zen t) /\ aims zen (true_pointing radec really [s] [h]) t (radec s (really h)).
Proof. exact @factor_after_refuted. Qed.
Print Assumptions C200_after_refuted.
(** Three tenths of a day; directions are shifted by 1; the beam decreases from the direction pointed. *)
Definition dig : pt Q Q := mkPt (Many [100; 101; 102]%Q) [0; 1 # 10; 2 # 10]%Q [1 # 10; 1 # 10; 1 # 10]%Q None.
Definition beam1 (p : pt Q Q) (t : Q) (f q : nat) (c : Q) : Q :=
  match at_time (fun _ => 0%Q) 0%Q p t with Ok (x, _) => Qred (10 - Qabs (c - x)) | Err _ => 0%Q end.
Example C200_ex : sized dig /\
  match factor beam1 (fun _ => 0%Q) 0%Q (fun _ h => h) (fun h => h + 1)%Q dig [100; 101; 102]%Q [5 # 100; 15 # 100; 22 # 100; 35 # 100]%Q 1 1 with
  | Ok a => d3 a = (4, 1, 1) /\ map (fun k => option_map Qred (v3 a k 0 0)) [0; 1; 2; 3] = [Some (10 # 9); Some (10 # 9); Some (10 # 9); Some (-10 # 93)]%Q
  | Err _ => False
  end /\ aims (fun _ => 0%Q) dig (15 # 100) 101%Q.
Proof.
  split; [repeat split; auto|]. split; [split; vm_compute; reflexivity|]. right. exists 1. split; [|reflexivity]. split.
  - exists (1 # 10)%Q, (1 # 10)%Q. repeat split; discriminate || reflexivity.
  - intros [|[|[|[|j]]]] L (s & d & S & D & A & B); try lia; try discriminate. cbn in S, D. injection S as <-. injection D as <-. apply A. reflexivity.
Qed.

(** ** C201: Mini-Arrays and antennas known *)
Theorem C201_known : forall i, (exists r, mini_array (Some i) = Ok r /\ In (i, r) miniarrays) <-> (0 <= i < 96 \/ 100 <= i < 106)%Z.
Proof. exact known. Qed.
Print Assumptions C201_known.
Theorem C201_unknown : forall i, (0 <= i < 96 \/ 100 <= i < 106)%Z \/ mini_array (Some i) = Err EKeyError.
Proof. exact unknown. Qed.
Print Assumptions C201_unknown.
Theorem C201_core : nenufar false = map Z.of_nat (seq 0 96) /\ nenufar true = nenufar false ++ map Z.of_nat (seq 100 6).
Proof. exact core. Qed.
Print Assumptions C201_core.
Theorem C201_unique : forall a, (1 <= a <= 19)%Z -> exists u, unique_index (Some a) = Ok (Some u) /\
  (1 <= u <= 19)%Z /\ symmetric a u /\ forall b, (1 <= b <= 19)%Z -> symmetric a b -> (u <= b)%Z.
Proof. exact unique_right. Qed.
Print Assumptions C201_unique.
Theorem C201_refused : forall a, (1 <= a <= 19)%Z \/ unique_index (Some a) = Err EValueError.
Proof. exact unique_refused. Qed.
Print Assumptions C201_refused.
Example C201_ex : mini_array (Some 91%Z) = Ok 90%Z /\ mini_array (Some 96%Z) = Err EKeyError /\ mini_array (Some (-1)%Z) = Err EKeyError /\ mini_array None = Err EValueError /\
  map (fun a => unique_index (Some a)) [19; 13; 14; 10; 20]%Z = [Ok (Some 1%Z); Ok (Some 2%Z); Ok (Some 5%Z); Ok (Some 10%Z); Err EValueError] /\
  symmetric 19 1 /\ ~ symmetric 19 10.
Proof.
  repeat (split; [reflexivity|]). split; [exists 3; reflexivity|]. intros S.
  assert (A : In 19%Z antennas) by (apply antennas_in; lia). apply (symb_spec 19 10 A) in S. discriminate.
Qed.
