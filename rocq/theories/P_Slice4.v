(** Correction of pointing switches, and pointings of a beam. *)
From Coq Require Import String List Arith ZArith QArith Qround Bool Lia Lqa Sorted.
From Verif Require Import Base M_Nd M_Rebin M_TFArray M_Polar P_Nd P_Rebin P_Polar2 M_Slice P_Slice P_Slice3.
Import ListNotations.
Open Scope nat_scope.
Open Scope list_scope.

(** * Intervals *)
Lemma put_in : forall x l y, In y (put x l) <-> y = x \/ In y l.
Proof.
  intros x. induction l as [|z l IH]; intros y; cbn [put].
  - cbn. intuition.
  - destruct (x <? z); [cbn; intuition|]. destruct (Nat.eqb_spec x z) as [->|_]; [cbn; intuition|]. cbn [In]. rewrite IH. intuition.
Qed.
Lemma put_sorted : forall x l, StronglySorted lt l -> StronglySorted lt (put x l).
Proof.
  intros x. induction l as [|z l IH]; intros S1; cbn [put]; [repeat constructor|]. inversion S1 as [|z' l' S2 S3]; subst.
  destruct (Nat.ltb_spec x z).
  - constructor; [exact S1|]. constructor; [assumption|]. rewrite Forall_forall in *. intros y Y. specialize (S3 y Y). lia.
  - destruct (Nat.eqb_spec x z); [exact S1|]. constructor; [now apply IH|]. rewrite Forall_forall in *. intros y Y. apply put_in in Y. destruct Y as [->|Y]; [lia|auto].
Qed.
Lemma unique_in : forall l y, In y (unique l) <-> In y l.
Proof. induction l as [|x l IH]; intros y; cbn [unique fold_right]; [tauto|]. rewrite put_in. fold (unique l). rewrite IH. cbn. intuition. Qed.
Lemma unique_sorted : forall l, StronglySorted lt (unique l).
Proof. induction l as [|x l IH]; cbn [unique fold_right]; [constructor|]. now apply put_sorted. Qed.
Lemma sorted_at : forall l i j x y, StronglySorted lt l -> i < j -> nth_error l i = Some x -> nth_error l j = Some y -> x < y.
Proof.
  induction l as [|z l IH]; intros i j x y S1 I X Y; [destruct i; discriminate|]. inversion S1 as [|z' l' S2 S3]; subst.
  destruct j as [|j]; [lia|]. cbn in Y. destruct i as [|i].
  - injection X as <-. rewrite Forall_forall in S3. apply S3. eapply nth_error_In, Y.
  - cbn in X. apply (IH i j x y S2); [lia|exact X|exact Y].
Qed.
(** The interval [k] of a list of bounds, and where a sample falls. *)
Definition interval (b : list nat) (k x y : nat) : Prop := nth_error b k = Some x /\ nth_error b (S k) = Some y.
Lemma interval_one : forall b t, StronglySorted lt b -> forall k k' x x' y y',
  interval b k x y -> interval b k' x' y' -> x <= t < y -> x' <= t < y' -> k = k' /\ x = x' /\ y = y'.
Proof.
  assert (W : forall b t, StronglySorted lt b -> forall k k' x x' y y', interval b k x y -> interval b k' x' y' -> x <= t < y -> x' <= t < y' -> ~ k < k').
  { intros b t S1 k k' x x' y y' (X & Y) (X' & Y') I I' L.
    destruct (Nat.eq_dec (S k) k') as [<-|N]; [rewrite Y in X'; injection X' as <-; lia|].
    pose proof (sorted_at b (S k) k' y x' S1 ltac:(lia) Y X'). lia. }
  intros b t S1 k k' x x' y y' H H' I I'. pose proof (W b t S1 _ _ _ _ _ _ H H' I I'). pose proof (W b t S1 _ _ _ _ _ _ H' H I' I).
  assert (k = k') by lia. subst k'. destruct H as (X & Y), H' as (X' & Y'). rewrite X in X'. rewrite Y in Y'. injection X' as <-. injection Y' as <-. auto.
Qed.
Lemma interval_exists : forall b t lo hi, StronglySorted lt b -> In lo b -> In hi b -> lo <= t < hi -> exists k x y, interval b k x y /\ x <= t < y.
Proof.
  induction b as [|z b IH]; intros t lo hi S1 L H I; [destruct L|]. inversion S1 as [|z' l' S2 S3]; subst. rewrite Forall_forall in S3.
  destruct b as [|w b]; [destruct L as [<-|[]], H as [<-|[]]; lia|].
  destruct (le_lt_dec w t) as [W|W].
  - assert (HI : In hi (w :: b)). { destruct H as [<-|H]; [|exact H]. pose proof (S3 w (or_introl eq_refl)). lia. }
    destruct (IH t w hi S2 (or_introl eq_refl) HI ltac:(lia)) as (k & x & y & J & K). exists (S k), x, y. split; [exact J|exact K].
  - exists 0, z, w. split; [split; reflexivity|]. split; [|exact W]. destruct L as [<-|L]; [lia|]. pose proof (S3 lo L). destruct I.
    destruct L as [<-|L]; [lia|]. inversion S2 as [|w' b' S4 S5]; subst. rewrite Forall_forall in S5. pose proof (S5 lo L). lia.
Qed.

Section Switch.
Variable peaks : list sample -> Z -> list nat.
Variable fit : list sample -> nat -> sample.
Lemma correction_step : forall profile x y b c, correction fit profile (x :: y :: b) c =
  correction fit profile (y :: b) (fun t => if (x <=? t) && (t <? y) then sop Qmult (c t) (fit (firstn (y - x) (skipn x profile)) (t - x)) else c t).
Proof. reflexivity. Qed.
Lemma correction_outside : forall profile b c t, (forall k x y, interval b k x y -> ~ x <= t < y) -> correction fit profile b c t = c t.
Proof.
  intros profile. induction b as [|x [|y b] IH]; intros c t N; try reflexivity. rewrite correction_step, IH.
  - destruct (Nat.leb_spec x t); [|reflexivity]. destruct (Nat.ltb_spec t y); [|reflexivity]. exfalso. apply (N 0 x y); [split; reflexivity|lia].
  - intros k x' y' (J1 & J2). apply (N (S k)). now split.
Qed.
Lemma correction_inside : forall profile b c t k x y, StronglySorted lt b -> interval b k x y -> x <= t < y ->
  correction fit profile b c t = sop Qmult (c t) (fit (firstn (y - x) (skipn x profile)) (t - x)).
Proof.
  intros profile. induction b as [|z [|w b] IH]; intros c t k x y S1 J I; [destruct J as (J & _); destruct k; discriminate|destruct J as (_ & J); destruct k; discriminate|].
  inversion S1 as [|z' l' S2 S3]; subst. destruct k as [|k].
  - destruct J as (J1 & J2). injection J1 as ->. injection J2 as ->. rewrite correction_step, correction_outside.
    + destruct (Nat.leb_spec x t); [|lia]. destruct (Nat.ltb_spec t y); [|lia]. reflexivity.
    + intros k' x' y' (K1 & K2) I'. destruct k' as [|k']; [cbn in K1; injection K1 as <-; lia|].
      pose proof (sorted_at (y :: b) 0 (S k') y x' S2 ltac:(lia) eq_refl K1). lia.
  - change (interval (w :: b) k x y) in J. rewrite correction_step, (IH _ t k x y S2 J I).
    destruct (Nat.ltb_spec t w) as [L|L]; [|now rewrite andb_false_r].
    exfalso. destruct J as (J1 & J2). destruct k as [|k]; [cbn in J1; injection J1 as <-; lia|].
    pose proof (sorted_at (w :: b) 0 (S k) w x S2 ltac:(lia) eq_refl J1). lia.
Qed.

(** * [clear_pointing_switch] *)
(** The profile: the medians of each time, over their greatest value. *)
Definition profile_of (flat : bool) (a : st) (p : list sample) : Prop :=
  exists level med top,
    (forall j, j < length (s_freq a) -> median_of (channel a j) (level j)) /\
    length med = length (s_time a) /\ length p = length (s_time a) /\
    (forall t, t < length (s_time a) -> median_of (map (fun j => if flat then sdiv (get (s_val a) [t; j]) (level j) else get (s_val a) [t; j]) (seq 0 (length (s_freq a)))) (nth t med None)) /\
    (forall t, t < length (s_time a) -> nth t p None = sdiv (nth t med None) top) /\
    (forall q, top = Some q -> In (Some q) med /\ forall v, In (Some v) med -> (v <= q)%Q).
Lemma top_spec : forall l q, top_of l = Some q -> In (Some q) l /\ forall v, In (Some v) l -> (v <= q)%Q.
Proof.
  intros [|x r] q; [discriminate|]. cbn [top_of]. revert x. induction r as [|y r IH]; intros x E; cbn [fold_left] in E.
  - subst x. split; [now left|]. intros v [V|[]]. injection V as <-. lra.
  - destruct x as [x|], y as [y|].
    + destruct (IH _ E) as (I & M). destruct (Qle_bool x y) eqn:C.
      * apply Qle_bool_iff in C. split; [destruct I as [I|I]; [right; now left|right; now right]|]. intros v [V|[V|V]].
        -- injection V as <-. pose proof (M y (or_introl eq_refl)). lra.
        -- injection V as <-. apply M. now left.
        -- apply M. now right.
      * assert (y < x)%Q by (apply Qnot_le_lt; intros A; apply Qle_bool_iff in A; congruence).
        split; [destruct I as [I|I]; [now left|right; now right]|]. intros v [V|[V|V]].
        -- injection V as <-. apply M. now left.
        -- injection V as <-. pose proof (M x (or_introl eq_refl)). lra.
        -- apply M. now right.
    + exfalso. clear -E. revert E. assert (N : fold_left (fun m y => match m, y with Some a, Some b => Some (if Qle_bool a b then b else a) | _, _ => None end) r None = None) by (induction r; [reflexivity|assumption]). rewrite N. discriminate.
    + exfalso. clear -E. revert E. assert (N : fold_left (fun m y => match m, y with Some a, Some b => Some (if Qle_bool a b then b else a) | _, _ => None end) r None = None) by (induction r; [reflexivity|assumption]). rewrite N. discriminate.
    + exfalso. clear -E. revert E. assert (N : fold_left (fun m y => match m, y with Some a, Some b => Some (if Qle_bool a b then b else a) | _, _ => None end) r None = None) by (induction r; [reflexivity|assumption]). rewrite N. discriminate.
Qed.
Lemma profile_spec : forall flat a, full a -> profile_of flat a (switch_profile flat a (length (s_time a)) (length (s_freq a))).
Proof.
  intros flat a F. unfold full in F. unfold switch_profile.
  set (w := if flat then _ else _). set (p := map (fun t => get (reduce nanmedian 1 w) [t]) (seq 0 (length (s_time a)))).
  exists (fun j => nanmedian (channel a j)), p, (top_of p). split; [intros; apply nanmedian_spec|].
  assert (LP : length p = length (s_time a)) by (unfold p; now rewrite map_length, seq_length). split; [exact LP|]. split; [now rewrite map_length|].
  split; [|split].
  - intros t T. unfold p. rewrite (nth_indep _ None (get (reduce nanmedian 1 w) [0])) by (now rewrite map_length, seq_length). rewrite (map_nth (fun t => get (reduce nanmedian 1 w) [t])), seq_nth by exact T. cbn [Nat.add].
    unfold reduce. cbn [get firstn skipn app]. assert (SW : sh w = sh (s_val a)) by (unfold w; destruct flat; [now rewrite F|reflexivity]). rewrite SW, F. cbn [nth].
    replace (map (fun j => get w [t; j]) (seq 0 (length (s_freq a)))) with
      (map (fun j => if flat then sdiv (get (s_val a) [t; j]) (nanmedian (channel a j)) else get (s_val a) [t; j]) (seq 0 (length (s_freq a)))).
    + apply nanmedian_spec.
    + apply map_ext. intros j. unfold w. destruct flat; [|reflexivity]. cbn [get nth]. unfold reduce. cbn [get]. now rewrite F.
  - intros t T. rewrite (nth_indep _ None (sdiv None (top_of p))) by (now rewrite map_length, LP). now rewrite (map_nth (fun x => sdiv x (top_of p))).
  - intros q. apply top_spec.
Qed.
(** The bounds are the ends of the data and the samples after the peaks. *)
Definition bounds_of (n : nat) (found b : list nat) : Prop :=
  StronglySorted lt b /\ forall x, In x b <-> x = 0 \/ x = n \/ exists p, In p found /\ x = S p.
Lemma bounds_spec : forall n found, bounds_of n found (bounds n found).
Proof.
  intros n found. unfold bounds_of, bounds. split; [apply unique_sorted|]. intros x. rewrite unique_in. cbn [In]. rewrite in_app_iff, in_map_iff. cbn [In].
  split; [intros [<-|[(p & <- & I)|[<-|[]]]]; eauto|]. intros [->|[->|(p & I & ->)]]; eauto.
Qed.
Theorem switch_spec : forall flat step err a r c, full a -> clear_switch peaks fit flat step err a = Ok (r, c) ->
  exists profile d b, profile_of flat a profile /\
    (exists t0 t1 rest, s_time a = t0 :: t1 :: rest /\ nearest (step / (t1 - t0)) (d + err)) /\ (1 <= d)%Z /\
    bounds_of (length (s_time a)) (peaks profile d) b /\
    full r /\ s_time r = s_time a /\ s_freq r = s_freq a /\
    (forall i j, i < length (s_time a) -> j < length (s_freq a) -> get (s_val r) [i; j] = sdiv (get (s_val a) [i; j]) (c i)) /\
    forall t, t < length (s_time a) -> exists k x y, interval b k x y /\ x <= t < y /\
      same (c t) (fit (firstn (y - x) (skipn x profile)) (t - x)) /\
      forall k' x' y', interval b k' x' y' -> x' <= t < y' -> k' = k.
Proof.
  intros flat step err a r c F R. unfold clear_switch in R. pose proof F as F'. unfold full in F'. rewrite F' in R.
  destruct (Nat.eqb_spec (length (s_time a)) 0) as [|N]; [discriminate|].
  destruct (s_time a) as [|t0 [|t1 rest]] eqn:T; try discriminate. rewrite <- T in *.
  destruct (Qeq_bool t0 t1); [discriminate|].
  set (profile := switch_profile flat a (length (s_time a)) (length (s_freq a))) in *.
  set (d := (round_even (step / (t1 - t0)) - err)%Z) in *. destruct (Z.ltb_spec d 1); [discriminate|].
  set (b := bounds (length (s_time a)) (peaks profile d)) in *. set (c0 := correction fit profile b (fun _ => Some 1%Q)) in *.
  destruct (by_time sdiv a (mkNd [length (s_time a); 1] (fun idx => c0 (nth 0 idx 0))) F eq_refl) as (r' & R' & FR & TR & QR & _ & _ & _ & G).
  rewrite R' in R. cbn [bind] in R. injection R as <- <-.
  exists profile, d, b. split; [apply profile_spec; exact F|]. split.
  { exists t0, t1, rest. split; [exact T|]. replace (d + err)%Z with (round_even (step / (t1 - t0))) by (unfold d; lia). apply round_even_nearest. }
  split; [lia|]. pose proof (bounds_spec (length (s_time a)) (peaks profile d)) as B. fold b in B. split; [exact B|].
  do 3 (split; [assumption|]). split; [intros i j I J; now rewrite G|].
  intros t L. destruct B as (S1 & IN).
  destruct (interval_exists b t 0 (length (s_time a)) S1) as (k & x & y & J & I); [apply IN; now left|apply IN; right; now left|lia|].
  exists k, x, y. split; [exact J|]. split; [exact I|]. split.
  - unfold c0. rewrite (correction_inside profile b _ t k x y S1 J I). destruct (fit _ _) as [v|]; cbn [sop same]; [ring|exact Logic.I].
  - intros k' x' y' J' I'. exact (proj1 (interval_one b t S1 _ _ _ _ _ _ J' J I' I)).
Qed.
Theorem switch_ok : forall flat step err a t0 t1 rest z, full a -> s_time a = t0 :: t1 :: rest -> ~ (t0 == t1)%Q ->
  nearest (step / (t1 - t0)) z -> (err < z)%Z -> exists r c, clear_switch peaks fit flat step err a = Ok (r, c).
Proof.
  intros flat step err a t0 t1 rest z F T N Z E. unfold clear_switch. pose proof F as F'. unfold full in F'. rewrite F'.
  destruct (Nat.eqb_spec (length (s_time a)) 0) as [X|_]; [rewrite T in X; discriminate|]. rewrite T.
  destruct (Qeq_bool t0 t1) eqn:Q; [apply Qeq_bool_eq in Q; contradiction|].
  rewrite (round_even_eq _ _ Z). destruct (Z.ltb_spec (z - err) 1); [lia|]. rewrite <- T.
  set (c0 := correction _ _ _ _).
  destruct (by_time sdiv a (mkNd [length (s_time a); 1] (fun idx => c0 (nth 0 idx 0))) F eq_refl) as (r' & R' & _). rewrite R'. cbn [bind]. eauto.
Qed.
(** A sampling too coarse for the period of the pointings is refused. *)
Theorem switch_coarse : forall flat step err a t0 t1 rest z, full a -> s_time a = t0 :: t1 :: rest -> ~ (t0 == t1)%Q ->
  nearest (step / (t1 - t0)) z -> (z <= err)%Z -> clear_switch peaks fit flat step err a = Err EValueError.
Proof.
  intros flat step err a t0 t1 rest z F T N Z E. unfold clear_switch. pose proof F as F'. unfold full in F'. rewrite F'.
  destruct (Nat.eqb_spec (length (s_time a)) 0) as [X|_]; [rewrite T in X; discriminate|]. rewrite T.
  destruct (Qeq_bool t0 t1) eqn:Q; [apply Qeq_bool_eq in Q; contradiction|].
  rewrite (round_even_eq _ _ Z). destruct (Z.ltb_spec (z - err) 1); [reflexivity|lia].
Qed.
Theorem switch_one_time : forall flat step err a, full a -> length (s_time a) = 1 -> clear_switch peaks fit flat step err a = Err EIndexError.
Proof.
  intros flat step err a F L. unfold clear_switch. unfold full in F. rewrite F, L. destruct (s_time a) as [|t0 [|t1 rest]]; try discriminate. reflexivity.
Qed.
Theorem switch_single_axis : forall flat step err a, light_curve a \/ spectrum a -> clear_switch peaks fit flat step err a = Err EIndexError.
Proof. intros flat step err a [(E & _)|(E & _)]; unfold clear_switch; now rewrite E. Qed.
End Switch.

(** * Pointings of a beam *)
Lemma rows_in : forall k l x, In x (rows_of k l) <-> In (k, x) l.
Proof.
  intros k l x. unfold rows_of. rewrite in_map_iff. split.
  - intros ([k' y] & <- & I). apply filter_In in I. destruct I as (I & E). cbn in E. apply Nat.eqb_eq in E. subst. exact I.
  - intros I. exists (k, x). split; [reflexivity|]. apply filter_In. split; [exact I|]. cbn. apply Nat.eqb_refl.
Qed.
(** The rows in the order of the table. *)
Inductive rows_in_order (k : nat) : list (nat * (Q * (Q * Q))) -> list (Q * (Q * Q)) -> Prop :=
| rows_none : rows_in_order k [] []
| rows_mine : forall x l r, rows_in_order k l r -> rows_in_order k ((k, x) :: l) (x :: r)
| rows_other : forall k' x l r, k' <> k -> rows_in_order k l r -> rows_in_order k ((k', x) :: l) r.
Lemma rows_spec : forall k l, rows_in_order k l (rows_of k l).
Proof.
  intros k. unfold rows_of. induction l as [|[k' x] l IH]; cbn [filter map fst snd]; [constructor|].
  destruct (Nat.eqb_spec k' k) as [->|N]; cbn [map snd]; now constructor.
Qed.
Theorem pointings_spec : forall t beam k, nth_error (b_ana_of t) beam = Some k ->
  (exists l, analog_pointing t beam = Ok l /\ rows_in_order k (b_pan t) l) /\ rows_in_order beam (b_pbe t) (digital_pointing t beam) /\
  (forall n l, nth_error (b_mas t) k = Some (n, l) -> mini_arrays t beam = Ok (firstn n l)).
Proof.
  intros t beam k E. unfold analog_pointing, mini_arrays, analog_beam. rewrite E. cbn [bind]. split; [eexists; split; [reflexivity|apply rows_spec]|].
  split; [apply rows_spec|]. intros n l M. now rewrite M.
Qed.
Theorem pointings_shared : forall t b1 b2, analog_beam t b1 = analog_beam t b2 ->
  analog_pointing t b1 = analog_pointing t b2 /\ mini_arrays t b1 = mini_arrays t b2.
Proof. intros t b1 b2 E. unfold analog_pointing, mini_arrays. now rewrite E. Qed.
Theorem pointings_split : forall t x, (exists beam, In (beam, x) (b_pbe t)) <-> exists beam, In x (digital_pointing t beam).
Proof. intros t x. unfold digital_pointing. split; intros (b & H); exists b; now apply rows_in. Qed.
