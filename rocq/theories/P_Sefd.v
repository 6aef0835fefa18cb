(** Temperatures and the equivalent flux density. *)
From Coq Require Import ZArith Reals Bool List Arith Lia Lra Permutation.
From Verif Require Import Base M_Polar M_Beam M_Xst M_Instru M_Area P_Area P_Area2 M_Sefd.
Import ListNotations.
Open Scope list_scope.
Open Scope R_scope.

(** ** Specification *)
(** The broken line through the points of a table, constant on both sides. *)
Definition before (x0 y0 x1 y1 : R) (t : list (R * R)) : Prop := exists a b, t = a ++ (x0, y0) :: (x1, y1) :: b.
Definition on_line (t : list (R * R)) (x g : R) : Prop :=
  In (x, g) t \/
  (exists x0 y0 x1 y1, before x0 y0 x1 y1 t /\ x0 < x < x1 /\ (g - y0) * (x1 - x0) = (y1 - y0) * (x - x0)) \/
  (exists x0 b, t = (x0, g) :: b /\ x < x0) \/
  (exists x1 a, t = a ++ [(x1, g)] /\ x1 < x).
Definition increasing (t : list (R * R)) : Prop := forall x0 y0 x1 y1, before x0 y0 x1 y1 t -> x0 < x1.
(** The table of a filter. *)
Definition table_of (t : lna) (z : Z) (l : list (R * R)) : Prop := (z = 0%Z /\ l = no_filter t) \/ (z = 3%Z /\ l = filter_25 t).
(** Total of the spectra at a frequency. *)
Definition flux (sources : list (R -> R)) (f : R) : R := fold_right (fun s acc => s f + acc) 0 sources.
(** One area per frequency; an area in a horizontal plane. *)
Definition sized (area : area_fn) : Prop := forall fs el l, area fs el = Ok l -> length l = length fs.
Definition horizontal_plane (area : area_fn) : Prop := forall fs l, area fs (PI / 2) = Ok l ->
  length l = length fs /\ forall el, area fs el = Ok (map (fun a => a * sin el) l).

(** ** Lists *)
Lemma map2_nth {A B C} (f : A -> B -> C) : forall l m i a b, nth_error l i = Some a -> nth_error m i = Some b -> nth_error (map2 f l m) i = Some (f a b).
Proof. induction l as [|x l IH]; intros [|y m] [|i] a b Ha Hb; cbn in *; try discriminate; [congruence|eauto]. Qed.
Lemma map2_length {A B C} (f : A -> B -> C) : forall l m, length l = length m -> length (map2 f l m) = length l.
Proof. induction l as [|x l IH]; intros [|y m] E; cbn in *; try discriminate; auto. Qed.
Lemma map2_inv {A B C} (f : A -> B -> C) : forall l m i c, nth_error (map2 f l m) i = Some c -> exists a b, nth_error l i = Some a /\ nth_error m i = Some b /\ c = f a b.
Proof. induction l as [|x l IH]; intros [|y m] [|i] c H; cbn in *; try discriminate; [injection H as <-; eauto|eauto]. Qed.
Lemma each_spec {A B} (f : A -> res B) : forall l m, each f l = Ok m -> length m = length l /\ forall i a, nth_error l i = Some a -> exists b, nth_error m i = Some b /\ f a = Ok b.
Proof.
  induction l as [|x l IH]; intros m E; cbn in E.
  - injection E as <-. split; [reflexivity|]. intros [|i] a H; discriminate.
  - destruct (f x) as [b|] eqn:F; [|discriminate]. cbn in E. destruct (each f l) as [bs|] eqn:G; [|discriminate]. cbn in E. injection E as <-.
    destruct (IH bs eq_refl) as [L H]. split; [cbn; auto|]. intros [|i] a Ha; cbn in *; [injection Ha as <-; eauto|auto].
Qed.
Lemma each_ok {A B} (f : A -> res B) : forall l, (forall a, In a l -> exists b, f a = Ok b) -> exists m, each f l = Ok m.
Proof.
  induction l as [|x l IH]; intros H; [now exists []|]. destruct (H x) as [b E]; [now left|]. destruct IH as [m F]; [intros; apply H; now right|].
  exists (b :: m). cbn. rewrite E, F. reflexivity.
Qed.
Lemma nth_lt {A} (l : list A) i : (i < length l)%nat -> exists a, nth_error l i = Some a.
Proof. intro H. destruct (nth_error l i) eqn:E; [eauto|]. apply nth_error_None in E. lia. Qed.
Lemma nth_some {A} (l : list A) i a : nth_error l i = Some a -> (i < length l)%nat.
Proof. intro H. apply nth_error_Some. congruence. Qed.

(** ** Sky temperature *)
Lemma Rpower_div a b x : 0 < a -> 0 < b -> Rpower (a / b) x = Rpower b (- x) * Rpower a x.
Proof. intros A B. unfold Rdiv, Rpower. rewrite ln_mult; [|exact A|now apply Rinv_0_lt_compat]. rewrite ln_Rinv by exact B. rewrite <- exp_plus. f_equal. ring. Qed.
Theorem sky_reference : sky_temperature 299792458 = 60.
Proof. unfold sky_temperature, wavelength, speed_of_light. replace (299792458 / 299792458) with 1 by field. unfold Rpower. rewrite ln_1, Rmult_0_r, exp_0. ring. Qed.
Theorem sky_power : forall f k, 0 < f -> 0 < k -> 0 < sky_temperature f /\ sky_temperature (k * f) = Rpower k (- (255 / 100)) * sky_temperature f.
Proof.
  intros f k F K. assert (E : forall x, 0 < Rpower x (255 / 100)) by (intro; apply exp_pos). split.
  - unfold sky_temperature. specialize (E (wavelength f)). lra.
  - unfold sky_temperature, wavelength. replace (speed_of_light / (k * f)) with (speed_of_light / f / k) by (field; lra).
    rewrite Rpower_div; [ring| |exact K]. apply Rdiv_lt_0_compat; [unfold speed_of_light; lra|exact F].
Qed.
Theorem sky_decreasing : forall f g, 0 < f -> f < g -> sky_temperature g < sky_temperature f.
Proof.
  intros f g F G. unfold sky_temperature. apply Rmult_lt_compat_l; [lra|]. unfold Rpower. apply exp_increasing. apply Rmult_lt_compat_l; [lra|].
  unfold wavelength, speed_of_light. apply ln_increasing; [apply Rdiv_lt_0_compat; lra|]. unfold Rdiv. apply Rmult_lt_compat_l; [lra|]. apply Rinv_lt_contravar; [nra|exact G].
Qed.

(** ** Interpolation *)
Lemma increasing_tail p t : increasing (p :: t) -> increasing t.
Proof. intros H x0 y0 x1 y1 (a & b & ->). apply (H x0 y0 x1 y1). exists (p :: a), b. reflexivity. Qed.
Lemma before_cons p t x0 y0 x1 y1 : before x0 y0 x1 y1 t -> before x0 y0 x1 y1 (p :: t).
Proof. intros (a & b & ->). exists (p :: a), b. reflexivity. Qed.
Lemma rinterp_from_line x : forall l x0 y0, increasing ((x0, y0) :: l) -> x0 < x -> on_line ((x0, y0) :: l) x (rinterp_from x x0 y0 l).
Proof.
  induction l as [|[x1 y1] l IH]; intros x0 y0 I H; cbn.
  - right; right; right. exists x0, []. split; [reflexivity|exact H].
  - assert (L : x0 < x1) by (apply (I x0 y0 x1 y1); now exists [], l). destruct (Rle_dec x1 x) as [C|C].
    + destruct (Rle_lt_or_eq_dec _ _ C) as [D|D].
      * destruct (IH x1 y1 (increasing_tail _ _ I) D) as [J|[(a & b & c & d & J & K)|[(a & b & E & K)|(a & b & E & K)]]].
        -- left. now right.
        -- right; left. exists a, b, c, d. split; [now apply before_cons|exact K].
        -- injection E as E1 E2 E3. subst. lra.
        -- right; right; right. exists a, ((x0, y0) :: b). cbn. rewrite E. auto.
      * left. right. left. destruct l as [|[x2 y2] l]; cbn; [now subst|]. assert (x1 < x2) by (apply (increasing_tail _ _ I x1 y1 x2 y2); now exists [], l).
        destruct (Rle_dec x2 x); [lra|]. subst. f_equal. field. lra.
    + right; left. exists x0, y0, x1, y1. split; [now exists [], l|]. split; [lra|]. field. lra.
Qed.
Lemma rinterp_line x t g : increasing t -> rinterp x t = Ok g -> on_line t x g.
Proof.
  destruct t as [|[x0 y0] l]; intros I E; [discriminate|]. cbn in E. destruct (Rle_dec x x0) as [C|C]; injection E as <-.
  - destruct (Rle_lt_or_eq_dec _ _ C) as [D|D]; [right; right; left; eauto|left; left; now subst].
  - apply rinterp_from_line; [exact I|lra].
Qed.
(** The line has one value at most at a place. *)
Lemma increasing_order a b x0 y0 x1 y1 c : increasing (a ++ (x0, y0) :: b ++ (x1, y1) :: c) -> x0 < x1.
Proof.
  revert a x0 y0. induction b as [|[x y] b IH]; intros a x0 y0 I; [apply (I x0 y0 x1 y1); now exists a, c|].
  apply Rlt_trans with x; [apply (I x0 y0 x y); exists a, (b ++ (x1, y1) :: c); reflexivity|]. apply (IH (a ++ [(x0, y0)]) x y). rewrite <- app_assoc. exact I.
Qed.
Lemma line_bounds t x g lo hi : increasing t -> on_line t x g -> (forall p, In p t -> lo <= snd p <= hi) -> lo <= g <= hi.
Proof.
  intros I [H|[(x0 & y0 & x1 & y1 & (a & b & E) & H & K)|[(x0 & b & E & H)|(x1 & a & E & H)]]] B.
  - exact (B _ H).
  - assert (B0 : lo <= y0 <= hi) by (apply (B (x0, y0)); rewrite E; apply in_or_app; right; now left).
    assert (B1 : lo <= y1 <= hi) by (apply (B (x1, y1)); rewrite E; apply in_or_app; right; right; now left).
    assert (P : 0 < x1 - x0) by lra.
    assert (G : g = y0 + (y1 - y0) * ((x - x0) / (x1 - x0))). { apply (Rmult_eq_reg_r (x1 - x0)); [|lra]. replace (g * (x1 - x0)) with ((g - y0) * (x1 - x0) + y0 * (x1 - x0)) by ring. rewrite K. field. lra. }
    assert (Q0 : 0 <= (x - x0) / (x1 - x0)) by (apply Rlt_le, Rdiv_lt_0_compat; lra).
    assert (Q1 : (x - x0) / (x1 - x0) <= 1). { apply (Rmult_le_reg_r (x1 - x0)); [lra|]. unfold Rdiv. rewrite Rmult_assoc, Rinv_l; lra. }
    rewrite G. set (q := (x - x0) / (x1 - x0)) in *. clearbody q. nra.
  - apply (B (x0, g)). rewrite E. now left.
  - apply (B (x1, g)). rewrite E. apply in_or_app. right. now left.
Qed.

Theorem inst_value : forall t z fs l table, table_of t z table -> increasing table -> instrument_temperature t z fs = Ok l ->
  length l = length fs /\
  forall i f, nth_error fs i = Some f -> exists g, on_line table (f / 10 ^ 6) g /\ nth_error l i = Some (sky_temperature f * g).
Proof.
  intros t z fs l table T I E.
  assert (E' : each (fun f => bind (rinterp (f / 10 ^ 6) table) (fun g => Ok (sky_temperature f * g))) fs = Ok l) by (destruct T as [[-> ->]|[-> ->]]; exact E).
  apply each_spec in E'. destruct E' as [L H]. split; [exact L|]. intros i f F. destruct (H i f F) as (b & B & C).
  destruct (rinterp (f / 10 ^ 6) table) as [g|] eqn:G; [|discriminate]. cbn in C. injection C as <-. exists g. split; [now apply rinterp_line|exact B].
Qed.
Theorem inst_defined : forall t z fs, fs <> [] -> ((exists l, instrument_temperature t z fs = Ok l) <-> exists table, table_of t z table /\ table <> []).
Proof.
  intros t z fs N. unfold instrument_temperature, table_of. destruct fs as [|f fs]; [now elim N|]. split.
  - intros [l E]. assert (X : forall tb, each (fun f => bind (rinterp (f / 10 ^ 6) tb) (fun g => Ok (sky_temperature f * g))) (f :: fs) = Ok l -> tb <> []) by (intros [|p tb] F; [discriminate F|discriminate]).
    destruct (Z.eqb_spec z 0) as [->|Z0]; [exists (no_filter t); eauto|]. destruct (Z.eqb_spec z 3) as [->|Z3]; [exists (filter_25 t); eauto|discriminate].
  - intros (tb & T & Q). assert (X : exists l, each (fun f => bind (rinterp (f / 10 ^ 6) tb) (fun g => Ok (sky_temperature f * g))) (f :: fs) = Ok l).
    { apply each_ok. intros a _. destruct tb as [|[x y] tb]; [now elim Q|]. unfold rinterp. destruct (Rle_dec (a / 10 ^ 6) x); eexists; reflexivity. }
    destruct T as [[-> ->]|[-> ->]]; exact X.
Qed.
Theorem inst_unknown : forall t z fs, z <> 0%Z -> z <> 3%Z -> instrument_temperature t z fs = Err EKeyError.
Proof. intros t z fs A B. unfold instrument_temperature. destruct (Z.eqb_spec z 0); [congruence|]. destruct (Z.eqb_spec z 3); [congruence|reflexivity]. Qed.
Theorem inst_bounds : forall t z fs l table lo hi i f x, table_of t z table -> increasing table -> (forall p, In p table -> lo <= snd p <= hi) ->
  instrument_temperature t z fs = Ok l -> nth_error fs i = Some f -> nth_error l i = Some x ->
  lo * sky_temperature f <= x <= hi * sky_temperature f.
Proof.
  intros t z fs l table lo hi i f x T I B E F X. destruct (inst_value t z fs l table T I E) as [_ H]. destruct (H i f F) as (g & G & G'). rewrite X in G'. injection G' as ->.
  assert (K := line_bounds _ _ _ _ _ I G B). assert (P : 0 < sky_temperature f) by (unfold sky_temperature; assert (0 < Rpower (wavelength f) (255 / 100)) by apply exp_pos; lra). nra.
Qed.

(** ** System temperature *)
Lemma sources_fold area fs eff el : sized area -> forall sources acc a,
  (sources = [] \/ area fs el = Ok a) -> length acc = length fs ->
  exists r, fold_left (fun acc s => bind acc (fun t_src => bind (source_term area fs eff el s) (fun x => Ok (map2 Rplus t_src x)))) sources (Ok acc) = Ok r /\
    length r = length fs /\
    forall i f c b, nth_error fs i = Some f -> nth_error acc i = Some c -> (sources = [] \/ nth_error a i = Some b) ->
      nth_error r i = Some (c + flux sources f * jy * b * eff / (2 * k_B)).
Proof.
  intros Z. induction sources as [|s sources IH]; intros acc a A L.
  - exists acc. split; [reflexivity|]. split; [exact L|]. intros i f c b F C _. rewrite C. f_equal. cbn. unfold Rdiv. ring.
  - destruct A as [A|A]; [discriminate|]. assert (La : length a = length fs) by (eapply Z; eauto).
    cbn [fold_left bind]. unfold source_term at 2. rewrite A. cbn [bind].
    destruct (IH (map2 Rplus acc (map2 (fun f a0 => s f * jy * a0 * eff / (2 * k_B)) fs a)) a) as (r & E & Lr & H); [now right| |].
    { rewrite map2_length; [exact L|]. rewrite map2_length; congruence. }
    exists r. split; [exact E|]. split; [exact Lr|]. intros i f c b F C [B|B]; [discriminate|].
    rewrite (H i f (c + s f * jy * b * eff / (2 * k_B)) b F); [|apply map2_nth; [exact C|apply (map2_nth (fun f a0 => s f * jy * a0 * eff / (2 * k_B))); assumption]|now right].
    f_equal. cbn [flux fold_right]. fold (flux sources f). unfold Rdiv. ring.
Qed.
Lemma fold_error area fs eff el e : area fs el = Err e -> forall sources acc, sources <> [] ->
  fold_left (fun acc s => bind acc (fun t_src => bind (source_term area fs eff el s) (fun x => Ok (map2 Rplus t_src x)))) sources (Ok acc) = Err e.
Proof.
  intros A [|s sources] acc N; [now elim N|]. cbn [fold_left bind]. unfold source_term at 2. rewrite A. cbn [bind].
  clear. induction sources as [|x l IH]; [reflexivity|exact IH].
Qed.
Lemma nth_map0 {A} (f : A -> R) l i a : nth_error l i = Some a -> nth_error (map f l) i = Some (f a).
Proof. intro H. now apply map_nth_error. Qed.

Theorem sys_value : forall area t z fs sources eff el inst a, sized area -> instrument_temperature t z fs = Ok inst -> length inst = length fs ->
  area fs el = Ok a \/ sources = [] ->
  exists l, system_temperature area t z fs sources eff el = Ok l /\ length l = length fs /\
  forall i f ti b, nth_error fs i = Some f -> nth_error inst i = Some ti -> nth_error a i = Some b \/ sources = [] ->
    nth_error l i = Some (sky_temperature f + ti + flux sources f * / 10 ^ 26 * b * eff / (2 * (1380649 / 10 ^ 29))).
Proof.
  intros area t z fs sources eff el inst a Z E Li A. unfold system_temperature. rewrite E. cbn [bind].
  destruct (sources_fold area fs eff el Z sources (map (fun _ => 0) fs) a) as (r & R1 & R2 & R3); [tauto|now rewrite map_length|].
  rewrite R1. cbn [bind]. eexists. split; [reflexivity|]. split.
  - assert (X : length (map2 Rplus (map sky_temperature fs) inst) = length fs) by (rewrite map2_length; rewrite map_length; [reflexivity|now symmetry]).
    rewrite map2_length; [exact X|]. rewrite X. now symmetry.
  - intros i f ti b F T B. apply map2_nth; [apply map2_nth; [now apply nth_map0|exact T]|]. replace (flux sources f * / 10 ^ 26 * b * eff / (2 * (1380649 / 10 ^ 29))) with (0 + flux sources f * jy * b * eff / (2 * k_B)) by (unfold jy, k_B; unfold Rdiv; ring). apply (R3 i f 0 b F); [now apply (nth_map0 (fun _ : R => 0) fs i f)|tauto].
Qed.
Theorem sys_error : forall area t z fs sources eff el e,
  (instrument_temperature t z fs = Err e -> system_temperature area t z fs sources eff el = Err e) /\
  (forall inst, instrument_temperature t z fs = Ok inst -> area fs el = Err e -> sources <> [] -> system_temperature area t z fs sources eff el = Err e).
Proof.
  intros. unfold system_temperature. split.
  - intros ->. reflexivity.
  - intros inst -> A N. cbn [bind]. rewrite (fold_error area fs eff el e A sources _ N). reflexivity.
Qed.
Lemma flux_perm s s' f : Permutation s s' -> flux s f = flux s' f.
Proof. unfold flux. induction 1; cbn in *; lra. Qed.
Lemma flux_app s s' f : flux (s ++ s') f = flux s f + flux s' f.
Proof. unfold flux. induction s as [|x s IH]; cbn in *; lra. Qed.
Lemma list_ext {A} (l m : list A) : length l = length m -> (forall i a, nth_error l i = Some a -> nth_error m i = Some a) -> l = m.
Proof.
  revert m. induction l as [|x l IH]; intros [|y m] L H; try discriminate; [reflexivity|].
  f_equal; [specialize (H 0%nat x eq_refl); cbn in H; congruence|]. apply IH; [now injection L|]. intros i a K. exact (H (S i) a K).
Qed.
(** The order of the sources does not matter. *)
Theorem sys_order : forall area t z fs s s' eff el, sized area -> Permutation s s' ->
  system_temperature area t z fs s eff el = system_temperature area t z fs s' eff el.
Proof.
  intros area t z fs s s' eff el Z P. destruct (instrument_temperature t z fs) as [inst|e] eqn:E.
  2:{ destruct (sys_error area t z fs s eff el e) as [-> _]; [|exact E]. destruct (sys_error area t z fs s' eff el e) as [-> _]; [reflexivity|exact E]. }
  unfold system_temperature. rewrite E. cbn [bind].
  assert (X : fold_left (fun acc s => bind acc (fun t_src => bind (source_term area fs eff el s) (fun x => Ok (map2 Rplus t_src x)))) s (Ok (map (fun _ => 0) fs)) =
    fold_left (fun acc s => bind acc (fun t_src => bind (source_term area fs eff el s) (fun x => Ok (map2 Rplus t_src x)))) s' (Ok (map (fun _ => 0) fs))).
  2:{ rewrite X. reflexivity. }
  destruct s as [|x s]; [apply Permutation_nil in P; subst; reflexivity|]. destruct s' as [|x' s']; [apply Permutation_sym, Permutation_nil in P; discriminate|].
  destruct (area fs el) as [a|e] eqn:A.
  - destruct (sources_fold area fs eff el Z (x :: s) (map (fun _ => 0) fs) a) as (r & R1 & R2 & R3); [now right|now rewrite map_length|].
    destruct (sources_fold area fs eff el Z (x' :: s') (map (fun _ => 0) fs) a) as (r' & R1' & R2' & R3'); [now right|now rewrite map_length|].
    rewrite R1, R1'. f_equal. apply list_ext; [congruence|]. intros i v V. assert (La := Z _ _ _ A). assert (Hi := nth_some _ _ _ V).
    destruct (nth_lt fs i) as [f F]; [lia|]. destruct (nth_lt a i) as [b B]; [lia|].
    assert (C : nth_error (map (fun _ : R => 0) fs) i = Some 0) by (now apply (nth_map0 (fun _ : R => 0) fs i f)).
    rewrite (R3 i f 0 b F C (or_intror B)) in V. rewrite (R3' i f 0 b F C (or_intror B)). rewrite <- V. do 2 f_equal. now rewrite (flux_perm _ _ f P).
  - rewrite !(fold_error area fs eff el e A); [reflexivity|discriminate|discriminate].
Qed.
(** The sources add up. *)
Theorem sys_sources : forall area t z fs s s' eff el l0 ls ls' l i x0 x x', sized area ->
  system_temperature area t z fs [] eff el = Ok l0 -> system_temperature area t z fs s eff el = Ok ls ->
  system_temperature area t z fs s' eff el = Ok ls' -> system_temperature area t z fs (s ++ s') eff el = Ok l ->
  nth_error l0 i = Some x0 -> nth_error ls i = Some x -> nth_error ls' i = Some x' ->
  nth_error l i = Some (x0 + (x - x0) + (x' - x0)).
Proof.
  intros area t z fs s s' eff el l0 ls ls' l i x0 x x' Z H0 Hs Hs' H N0 Ns Ns'.
  destruct (instrument_temperature t z fs) as [inst|e] eqn:E; [|destruct (sys_error area t z fs [] eff el e) as [W _]; rewrite (W E) in H0; discriminate].
  assert (Li : length inst = length fs). { unfold instrument_temperature in E. destruct (if (z =? 0)%Z then Ok (no_filter t) else if (z =? 3)%Z then Ok (filter_25 t) else Err EKeyError) as [tb|]; [|discriminate]. cbn [bind] in E. now destruct (each_spec _ _ _ E). }
  assert (A : (exists a, area fs el = Ok a) \/ (s = [] /\ s' = [])).
  { destruct (area fs el) as [a|e] eqn:A; [eauto|]. right. destruct s as [|y s]; [destruct s' as [|y' s']; [auto|]|].
    - destruct (sys_error area t z fs (y' :: s') eff el e) as [_ W]. rewrite (W inst E A) in Hs'; [discriminate|discriminate].
    - destruct (sys_error area t z fs (y :: s) eff el e) as [_ W]. rewrite (W inst E A) in Hs; [discriminate|discriminate]. }
  destruct A as [[a A]|[-> ->]].
  2:{ cbn in H. rewrite Hs in H0. injection H0 as ->. rewrite Hs in Hs'. injection Hs' as ->. rewrite Hs in H. injection H as ->. rewrite N0 in *. injection Ns as ->. injection Ns' as ->. f_equal. ring. }
  assert (La := Z _ _ _ A).
  pose proof (fun ss => sys_value area t z fs ss eff el inst a Z E Li (or_introl A)) as V.
  destruct (V []) as (m0 & V0 & L0 & W0). destruct (V s) as (m1 & V1 & L1 & W1). destruct (V s') as (m2 & V2 & L2 & W2). destruct (V (s ++ s')) as (m3 & V3 & L3 & W3).
  rewrite H0 in V0. injection V0 as <-. rewrite Hs in V1. injection V1 as <-. rewrite Hs' in V2. injection V2 as <-. rewrite H in V3. injection V3 as <-.
  assert (Hi := nth_some _ _ _ N0). destruct (nth_lt fs i) as [f F]; [lia|]. destruct (nth_lt a i) as [b B]; [lia|]. destruct (nth_lt inst i) as [ti T]; [lia|].
  rewrite (W0 i f ti b F T (or_introl B)) in N0. rewrite (W1 i f ti b F T (or_introl B)) in Ns. rewrite (W2 i f ti b F T (or_introl B)) in Ns'. rewrite (W3 i f ti b F T (or_introl B)).
  apply (f_equal (fun o => match o with Some v => v | None => 0 end)) in N0, Ns, Ns'. cbv beta iota in N0, Ns, Ns'.
  rewrite <- N0, <- Ns, <- Ns'. f_equal. rewrite flux_app. cbn [flux fold_right]. unfold Rdiv. ring.
Qed.
