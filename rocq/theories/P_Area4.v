(** Areas of antennas far from each other and of NenuFAR; positions of the antennas. *)
From Coq Require Import ZArith QArith Reals Lra Bool String List Arith Lia.
From Verif Require Import Base M_Polar M_Beam M_Instru M_Area P_Area P_Area2 P_Area3.
Import ListNotations.
Open Scope R_scope.
Local Opaque grid_count resolution.

Definition far (a b : list vec) (d : R) : Prop :=
  forall p q, In p a -> In q b -> d ^ 2 < (vx p - vx q) ^ 2 + (vy p - vy q) ^ 2.
Lemma near_both a b r x y : 0 <= r -> far a b (2 * r) -> near a r x y -> near b r x y -> False.
Proof.
  intros Hr F (p & Ip & Hp) (q & Iq & Hq). specialize (F p q Ip Iq).
  assert (E : (vx p - vx q) ^ 2 + (vy p - vy q) ^ 2 <= 2 * ((vx p - x) ^ 2 + (vy p - y) ^ 2) + 2 * ((vx q - x) ^ 2 + (vy q - y) ^ 2)).
  { pose proof (pow2_ge_0 (vx p - x + (vx q - x))). pose proof (pow2_ge_0 (vy p - y + (vy q - y))). nra. }
  replace ((2 * r) ^ 2) with (4 * r ^ 2) in F by ring. lra.
Qed.
Lemma nodes_app n x0 x1 y0 y1 a b r k ka kb : 0 <= r -> far a b (2 * r) ->
  nodes_near n x0 x1 y0 y1 (a ++ b) r k -> nodes_near n x0 x1 y0 y1 a r ka -> nodes_near n x0 x1 y0 y1 b r kb -> k = (ka + kb)%nat.
Proof.
  intros Hr F H (la & Na & <- & Ha) (lb & Nb & <- & Hb). apply (nodes_unique n x0 x1 y0 y1 (a ++ b) r _ _ H). exists (la ++ lb). split; [|split; [apply app_length|]].
  - assert (D : forall u v : list (nat * nat), NoDup u -> NoDup v -> (forall x, In x u -> ~ In x v) -> NoDup (u ++ v)).
    { intros u v Hu Hv. induction Hu as [|y u J Hu IHu]; intro G; [exact Hv|]. cbn. constructor.
      - intro K. apply in_app_or in K. destruct K as [K|K]; [auto|]. apply (G y); [left; reflexivity|exact K].
      - apply IHu. intros z Z. apply G. right. exact Z. }
    apply D; [assumption|assumption|]. intros [i j] I J. apply Ha in I. apply Hb in J. destruct I as (_ & _ & I), J as (_ & _ & J). eapply near_both; eassumption.
  - intros i j. rewrite in_app_iff, Ha, Hb. unfold near. split.
    + intros [(A & B & p & I & N)|(A & B & p & I & N)]; (split; [exact A|split; [exact B|]]); exists p; split; try exact N; apply in_or_app; auto.
    + intros (A & B & p & I & N). apply in_app_or in I. destruct I as [I|I]; [left|right]; (split; [exact A|split; [exact B|]]); exists p; auto.
Qed.
(** Disks that do not meet add up. *)
Theorem area_apart : forall a b fs el l, ma_area (a ++ b) fs el = Ok l ->
  exists rm x0 x1 y0 y1, largest (map ant_radius fs) rm /\ frame (a ++ b) rm x0 x1 y0 y1 /\
  forall i f v, nth_error fs i = Some f -> nth_error l i = Some v -> far a b (2 * ant_radius f) ->
  exists ka kb, nodes_near 500 x0 x1 y0 y1 a (ant_radius f) ka /\ nodes_near 500 x0 x1 y0 y1 b (ant_radius f) kb /\
    v = (INR ka + INR kb) * ((x1 - x0) / 499) * ((y1 - y0) / 499) * sin el.
Proof.
  intros a b fs el l E. destruct (area_value _ _ _ _ E) as (_ & rm & x0 & x1 & y0 & y1 & L & F & H). exists rm, x0, x1, y0, y1. split; [exact L|]. split; [exact F|].
  intros i f v Hf Hv Far. destruct (H i f v Hf Hv) as (k & N & ->).
  pose proof (count_spec 500 (x0, x1) (y0, y1) a (ant_radius f) (radius_pos f)) as Ca. pose proof (count_spec 500 (x0, x1) (y0, y1) b (ant_radius f) (radius_pos f)) as Cb. cbn [fst snd] in Ca, Cb.
  eexists. eexists. split; [exact Ca|]. split; [exact Cb|]. rewrite (nodes_app _ _ _ _ _ _ _ _ _ _ _ (radius_pos f) Far N Ca Cb). now rewrite plus_INR.
Qed.

(** ** NenuFAR *)
Lemma masked_length {A B} : forall (m : list bool) (l : list A) (l' : list B), length l = length l' -> length (masked m l) = length (masked m l').
Proof.
  induction m as [|b m IH]; intros [|x l] [|y l'] E; try discriminate; try reflexivity. cbn [masked]. injection E as E. destruct b; cbn [length]; auto.
Qed.
Lemma masked_map_length {A} (f : A -> bool) : forall l : list A, length (masked (map f l) l) = length (filter f l).
Proof. induction l as [|x l IH]; [reflexivity|]. cbn [map masked filter]. destruct (f x); cbn [length]; auto. Qed.
Lemma bind_ok {A B} (r : res A) (f : A -> res B) y : bind r f = Ok y -> exists x, r = Ok x /\ f x = Ok y.
Proof. destruct r as [x|e]; [eauto|discriminate]. Qed.
Lemma by_mask_ok {A} m (l x : list A) : by_mask m l = Ok x -> x = masked m l /\ length m = length l.
Proof. unfold by_mask. destruct (length m =? length l)%nat eqn:E; [|discriminate]. intro H. injection H as <-. apply Nat.eqb_eq in E. auto. Qed.
(** Number of Mini-Arrays of a sum and of a difference. *)
Lemma add_size {P G L} (a b c : interf P G L) : i_add a b = Ok c ->
  i_size c = (i_size a + length (filter (fun x => negb (has_name (i_names a) x)) (i_names b)))%nat.
Proof.
  unfold i_add. intro H. apply bind_ok in H as (n & Hn & H). apply bind_ok in H as (p & Hp & H). apply bind_ok in H as (g & Hg & H). apply bind_ok in H as (w & Hw & H).
  apply bind_ok in H as (w2 & Hw2 & H). apply bind_ok in H as (d & Hd & H). apply bind_ok in H as (d2 & Hd2 & H). injection H as <-. unfold i_size. cbn [i_positions]. rewrite app_length. f_equal.
  apply by_mask_ok in Hp as [-> E]. rewrite map_length in E. rewrite <- (masked_map_length (fun x => negb (has_name (i_names a) x))). apply masked_length. now symmetry.
Qed.
Lemma sub_size {P G L} (a b c : interf P G L) : i_sub a b = Ok c ->
  i_size c = length (filter (fun x => negb (has_name (i_names b) x)) (i_names a)).
Proof.
  unfold i_sub. intro H. apply bind_ok in H as (n & Hn & H). apply bind_ok in H as (p & Hp & H). apply bind_ok in H as (g & Hg & H). apply bind_ok in H as (w & Hw & H).
  apply bind_ok in H as (w2 & Hw2 & H). apply bind_ok in H as (d & Hd & H). apply bind_ok in H as (d2 & Hd2 & H). injection H as <-. unfold i_size. cbn [i_positions].
  apply by_mask_ok in Hp as [-> E]. rewrite map_length in E. rewrite <- (masked_map_length (fun x => negb (has_name (i_names b) x))). apply masked_length. now symmetry.
Qed.
Lemma has_name_in l x : has_name l x = true <-> In x l.
Proof. unfold has_name. rewrite existsb_exists. split; [intros (y & I & E); apply String.eqb_eq in E; congruence|]. intro I. exists x. split; [exact I|apply String.eqb_refl]. Qed.
Definition sums (a b : list R) (c : list R) : Prop :=
  length a = length c /\ length b = length c /\ forall i, nth i c 0 = nth i a 0 + nth i b 0.
Lemma nth_scaled (l : list R) u i : nth i (map (fun a => a * u) l) 0 = nth i l 0 * u.
Proof. revert i. induction l as [|x l IH]; intros [|i]; cbn; try ring. apply IH. Qed.
Lemma sums_scaled (l : list R) u v w : w = u + v -> sums (map (fun a => a * u) l) (map (fun a => a * v) l) (map (fun a => a * w) l).
Proof. intros ->. split; [now rewrite !map_length|]. split; [now rewrite !map_length|]. intro i. rewrite !nth_scaled. ring. Qed.
(** Arrays without a Mini-Array in common: areas add up. *)
Theorem nenufar_sum : forall P G L G' L' (base : interf vec G' L') active (a b c : interf P G L) fs el la lb,
  i_add a b = Ok c -> length (i_names b) = i_size b -> (forall x, In x (i_names a) -> ~ In x (i_names b)) ->
  nenufar_area base active a fs el = Ok la -> nenufar_area base active b fs el = Ok lb ->
  exists lc, nenufar_area base active c fs el = Ok lc /\ sums la lb lc.
Proof.
  intros P G L G' L' base active a b c fs el la lb S W D A B. apply add_size in S. unfold nenufar_area in *. destruct (i_getitem base active) as [ma|]; [|discriminate]. cbn [bind] in *.
  destruct (ma_area (i_positions ma) fs el) as [l|]; [|discriminate]. cbn [bind] in *. eexists. split; [reflexivity|].
  assert (la = map (fun x => x * INR (i_size a)) l) as -> by congruence. assert (lb = map (fun x => x * INR (i_size b)) l) as -> by congruence. apply sums_scaled.
  rewrite S, plus_INR. do 2 f_equal. rewrite <- W. clear -D. induction (i_names b) as [|x r IH]; [reflexivity|]. cbn [filter].
  destruct (has_name (i_names a) x) eqn:E; [exfalso; apply has_name_in in E; apply (D x E); left; reflexivity|]. cbn [negb length]. f_equal. apply IH. intros y Y I. apply (D y Y). right. exact I.
Qed.
(** Mini-Arrays taken out: the area decreases by theirs. *)
Theorem nenufar_difference : forall P G L G' L' (base : interf vec G' L') active (a b c : interf P G L) fs el la lb,
  i_sub a b = Ok c -> length (i_names a) = i_size a -> length (i_names b) = i_size b -> NoDup (i_names a) -> NoDup (i_names b) -> incl (i_names b) (i_names a) ->
  nenufar_area base active a fs el = Ok la -> nenufar_area base active b fs el = Ok lb ->
  exists lc, nenufar_area base active c fs el = Ok lc /\ sums lb lc la.
Proof.
  intros P G L G' L' base active a b c fs el la lb S W W' Na Nb D A B. apply sub_size in S. unfold nenufar_area in *. destruct (i_getitem base active) as [ma|]; [|discriminate]. cbn [bind] in *.
  destruct (ma_area (i_positions ma) fs el) as [l|]; [|discriminate]. cbn [bind] in *. eexists. split; [reflexivity|].
  assert (la = map (fun x => x * INR (i_size a)) l) as -> by congruence. assert (lb = map (fun x => x * INR (i_size b)) l) as -> by congruence. apply sums_scaled.
  rewrite <- plus_INR. f_equal. rewrite S, <- W, <- W'.
  assert (E : forall (f : string -> bool) l, (length (filter f l) + length (filter (fun x => negb (f x)) l))%nat = length l).
  { intros f k. induction k as [|x r IH]; [reflexivity|]. cbn [filter]. destruct (f x); cbn [negb length]; lia. }
  rewrite <- (E (has_name (i_names b)) (i_names a)). f_equal. apply Nat.le_antisymm; apply NoDup_incl_length.
  - apply NoDup_filter, Na.
  - intros x I. apply filter_In in I. apply has_name_in, I.
  - exact Nb.
  - intros x I. apply filter_In. split; [apply D, I|apply has_name_in, I].
Qed.
(** Any two arrays: proportional to the number of Mini-Arrays. *)
Theorem nenufar_size : forall P G L G' L' (base : interf vec G' L') active (a b : interf P G L) fs el la,
  nenufar_area base active a fs el = Ok la ->
  exists lb, nenufar_area base active b fs el = Ok lb /\ length lb = length fs /\
    forall i, nth i lb 0 * INR (i_size a) = nth i la 0 * INR (i_size b).
Proof.
  intros P G L G' L' base active a b fs el la A. unfold nenufar_area in *. destruct (i_getitem base active) as [ma|]; [|discriminate]. cbn [bind] in *.
  destruct (ma_area (i_positions ma) fs el) as [l|] eqn:E; [|discriminate]. cbn [bind] in *. eexists. split; [reflexivity|].
  assert (la = map (fun x => x * INR (i_size a)) l) as -> by congruence. split; [rewrite map_length; apply (area_value _ _ _ _ E)|]. intro i. rewrite !nth_scaled. ring.
Qed.
(** Unknown active antennas raise, whatever the frequencies. *)
Theorem nenufar_unknown : forall P G L G' L' (base : interf vec G' L') active (a : interf P G L) fs el e,
  i_getitem base active = Err e -> nenufar_area base active a fs el = Err e.
Proof. intros. unfold nenufar_area. now rewrite H. Qed.

(** ** Positions *)
Definition sq_dist (p q : vec) : R := (vx p - vx q) ^ 2 + (vy p - vy q) ^ 2 + (vz p - vz q) ^ 2.
(** Twice the signed area of a triangle seen from above. *)
Definition turn (p q r : vec) : R := (vx q - vx p) * (vy r - vy p) - (vy q - vy p) * (vx r - vx p).
Lemma trig a : sin a * sin a = 1 - cos a * cos a.
Proof. pose proof (sin2_cos2 a) as H. unfold Rsqr in H. lra. Qed.
Theorem positions_rigid : forall rotation l i j p q p' q', nth_error l i = Some p -> nth_error l j = Some q ->
  nth_error (ma_positions rotation l) i = Some p' -> nth_error (ma_positions rotation l) j = Some q' ->
  sq_dist p' q' = sq_dist p q /\ vz p' = vz p.
Proof.
  intros t l i j p q p' q' Hp Hq Hp' Hq'. unfold ma_positions in *. rewrite nth_error_map in Hp', Hq'. rewrite Hp in Hp'. rewrite Hq in Hq'. injection Hp' as <-. injection Hq' as <-.
  unfold sq_dist, vmat, ma_matrix. cbn. pose proof (trig t) as E. split; [ring [E]|ring].
Qed.
(** A mirror image: triangles turn the other way. *)
Theorem positions_mirror : forall rotation l i j k p q r p' q' r', nth_error l i = Some p -> nth_error l j = Some q -> nth_error l k = Some r ->
  nth_error (ma_positions rotation l) i = Some p' -> nth_error (ma_positions rotation l) j = Some q' -> nth_error (ma_positions rotation l) k = Some r' ->
  turn p' q' r' = - turn p q r.
Proof.
  intros t l i j k p q r p' q' r' Hp Hq Hr Hp' Hq' Hr'. unfold ma_positions in *. rewrite nth_error_map in Hp', Hq', Hr'. rewrite Hp in Hp'. rewrite Hq in Hq'. rewrite Hr in Hr'.
  injection Hp' as <-. injection Hq' as <-. injection Hr' as <-. unfold turn, vmat, ma_matrix. cbn. pose proof (trig t) as E. ring [E].
Qed.
Theorem positions_twice : forall rotation l, ma_positions rotation (ma_positions rotation l) = l.
Proof.
  intros t l. unfold ma_positions. rewrite map_map. rewrite <- (map_id l) at 2. apply map_ext. intros [x y z]. unfold vmat, ma_matrix. cbn. pose proof (trig t) as E. f_equal; ring [E].
Qed.
(** Two rotations differ by a turn by their difference. *)
Theorem positions_turned : forall a b l i p q, nth_error (ma_positions a l) i = Some p -> nth_error (ma_positions b l) i = Some q ->
  vx q = cos (b - a) * vx p + sin (b - a) * vy p /\ vy q = cos (b - a) * vy p - sin (b - a) * vx p.
Proof.
  intros a b l i p q Hp Hq. unfold ma_positions in *. rewrite nth_error_map in Hp, Hq. destruct (nth_error l i) as [[x y z]|]; [|discriminate]. injection Hp as <-. injection Hq as <-.
  rewrite cos_minus, sin_minus. unfold vmat, ma_matrix. cbn. pose proof (trig a) as E. split; ring [E].
Qed.
(** The disk of an antenna has the area of a short dipole. *)
Theorem radius_area : forall f, 0 < f -> 0 < ant_radius f /\ PI * ant_radius f ^ 2 = (299792458 / f) ^ 2 / 3.
Proof.
  intros f F. assert (P := PI_RGT_0). assert (W : 0 < wavelength f ^ 2 / dipole_k / PI).
  { unfold dipole_k, wavelength, speed_of_light. assert (0 < 299792458 / f) by (apply Rdiv_lt_0_compat; lra).
    apply Rdiv_lt_0_compat; [|exact P]. apply Rdiv_lt_0_compat; [|lra]. apply pow_lt. exact H. }
  unfold ant_radius. split; [now apply sqrt_lt_R0|]. rewrite pow2_sqrt by lra. unfold wavelength, speed_of_light, dipole_k. field. lra.
Qed.
